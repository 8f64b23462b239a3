(** Model of binned samples: BinnedSamplerData of zfit/_data/binneddatav1.py, sample and
    create_sampler of zfit/core/binnedpdf.py.

    Simplifications, everywhere in this file:
    - contents are rationals, tensors those of Hist_Model.v;
    - randomness is an argument [seed] of each call;
    - the present values of the parameters are an argument [now] of each call; parameters are given
      by their names;
    - the digest of the data (xxhash, 128 bits) is any function [digest]. *)
From Verif Require Import Base Hist_Model.
From Verif Require Data_Model.
Open Scope string_scope.
Open Scope list_scope.

Notation pvals := (list (string * Q)) (only parsing).
Definition WorkInProgressError := UserError 11.
Definition BreakingAPIChangeError := UserError 12.

Section Sampler.
Variable digest : tensor -> option tensor -> Z.

(** binneddatav1.py:295-307 and 536-539: the digest modulo 64**2, twice *)
Definition hashint (v : tensor) (w : option tensor) : Z := ((digest v w mod 4096) mod 4096)%Z.

(** binneddatav1.py:463-515; the function takes [now], [seed], the number of events and parameters *)
Record bsampler := mkB {
  bs_space : bspace; bs_values : tensor; bs_variances : option tensor;
  bs_n : nat; bs_params : list (string * Q); bs_hash : Z;
  bs_func : pvals -> nat -> nat -> pvals -> result (tensor * option tensor) }.

Definition set_values (s : bsampler) (t : tensor) : bsampler :=
  mkB (bs_space s) t (bs_variances s) (bs_n s) (bs_params s) (bs_hash s) (bs_func s).
Definition set_variances (s : bsampler) (w : option tensor) : bsampler :=
  mkB (bs_space s) (bs_values s) w (bs_n s) (bs_params s) (bs_hash s) (bs_func s).
Definition set_hash (s : bsampler) (h : Z) : bsampler :=
  mkB (bs_space s) (bs_values s) (bs_variances s) (bs_n s) (bs_params s) h (bs_func s).

(** 536-539 [_update_hash]: without hashing ([run.set_data_hashing(False)]) the hash is None, of which
    no remainder can be taken *)
Definition update_hash (hashing : bool) (s : bsampler) : bsampler * result unit :=
  if hashing then (set_hash s (hashint (bs_values s) (bs_variances s)), Ok tt) else (s, Err TypeError).

(** A tf.Variable of the shape (None, ..., None) takes every tensor of the same rank. *)
Definition rank_ok (s : bspace) (t : tensor) : bool := Nat.eqb (length (t_shape t)) (length (b_obs s)).

(** What is given to [update_data]: an array, or a histogram, and variances. *)
Inductive new_hist := NewArray (t : tensor) (w : option tensor) | NewHist (h : holder) (w : option tensor).

(** 677-708 [update_data]: the values are assigned before the variances are looked at *)
Definition assign_variances (hashing : bool) (s : bsampler) (w : option tensor) : bsampler * result unit :=
  match w, bs_variances s with
  | Some w, Some _ =>
      if rank_ok (bs_space s) w then update_hash hashing (set_variances s (Some w)) else (s, Err ValueError)
  | Some _, None => (s, Err ValueError)
  | None, Some _ => (s, Err ValueError)
  | None, None => update_hash hashing s
  end.
Definition contents_of (x : new_hist) : result (tensor * option tensor) :=
  match x with
  | NewArray t w => Ok (t, w)
  | NewHist h None => Ok (h_values h, h_variances h)
  | NewHist _ (Some _) => Err ValueError
  end.
Definition b_update (hashing : bool) (s : bsampler) (x : new_hist) : bsampler * result unit :=
  match contents_of x with
  | Err e => (s, Err e)
  | Ok (t, w) =>
      if rank_ok (bs_space s) t then assign_variances hashing (set_values s t) w else (s, Err ValueError)
  end.

(** 558-640 [from_sampler] *)
Definition without_variances (f : pvals -> nat -> nat -> pvals -> result tensor)
  : pvals -> nat -> nat -> pvals -> result (tensor * option tensor) :=
  fun now seed n ps => let* t := f now seed n ps in Ok (t, None).
Definition b_from_sampler (hashing : bool) (now : pvals) (seed : nat)
  (sample_func : option (pvals -> nat -> nat -> pvals -> result tensor))
  (both_func : option (pvals -> nat -> nat -> pvals -> result (tensor * option tensor)))
  (n : nat) (obs : bspace) (params : pvals) : result bsampler :=
  let* f := match sample_func, both_func with
            | Some f, None => Ok (without_variances f)
            | None, Some f => Ok f
            | _, _ => Err ValueError
            end in
  let* tw := f now seed n params in
  if negb (rank_ok obs (fst tw) && match snd tw with Some w => rank_ok obs w | None => true end) then Err ValueError
  else
    let* _ := make_holder obs (fst tw) (snd tw) in
    match b_update hashing (mkB obs (fst tw) (snd tw) n params 0 f) (NewArray (fst tw) (snd tw)) with
    | (s, Ok _) => Ok s
    | (_, Err e) => Err e
    end.

(** 642-675 [resample] *)
Definition b_resample (hashing : bool) (now : pvals) (seed : nat) (s : bsampler)
  (n : option nat) (params param_values : option pvals) : bsampler * result unit :=
  let n := match n with Some n => n | None => bs_n s end in
  match params, param_values with
  | Some _, Some _ => (s, Err ValueError)
  | _, _ =>
      let given := match param_values with Some p => p | None => match params with Some p => p | None => [] end end in
      match bs_func s now seed n (Data_Model.pupdate (bs_params s) given) with
      | Err e => (s, Err e)
      | Ok (t, w) => b_update hashing s (NewArray t w)
      end
  end.

(** 361-387 and 710-726 [values], [variances]; 286-293 [with_obs]: a new holder with the present contents *)
Definition b_with_obs (s : bsampler) (obs : list string) : result holder :=
  holder_with_obs (Holder (bs_space s) (bs_values s) (bs_variances s)) obs.

(** ** Binned PDFs *)
Variable poisson : nat -> Q -> nat.
Variable multinomial : nat -> nat -> tensor -> tensor.

(** A binned PDF: its space, the names of its independent parameters, the yield and the relative counts
    for values of these, and [_sample] if it is implemented *)
Record bpdf := mkP {
  p_space : bspace; p_names : list string;
  p_yield : option (pvals -> Q);
  p_rel : pvals -> tensor;
  p_own : option (nat -> nat -> tensor) }.

(** core/baseobject.py:209-237: values that are given must belong to parameters of the PDF; all other
    parameters have their present values *)
Definition value_of (now given : pvals) (name : string) : Q :=
  match lookup String.eqb name given with
  | Some v => v
  | None => match lookup String.eqb name now with Some v => v | None => 0%Q end
  end.
Definition all_values (p : bpdf) (now given : pvals) : list (string * Q) :=
  map (fun name => (name, value_of now given name)) (p_names p).
Definition check_params (p : bpdf) (given : pvals) : result unit :=
  if forallb (fun g => mem String.eqb (fst g) (p_names p)) given then Ok tt else Err ValueError.

(** Equality of binned spaces: the same edges for the same observables (core/space.py [__eq__]) *)
Definition qs_eqb : list Q -> list Q -> bool :=
  fix go a b := match a, b with
                | [], [] => true
                | x :: a', y :: b' => Qeq_bool x y && go a' b'
                | _, _ => false
                end.
Definition same_space (a b : bspace) : bool :=
  set_eqb String.eqb (b_obs a) (b_obs b)
  && forallb (fun oe => match lookup String.eqb (fst oe) (combine (b_obs b) (b_edges b)) with
                        | Some e => qs_eqb (snd oe) e | None => false end) (combine (b_obs a) (b_edges a)).

(** core/binnedpdf.py:949-953 and 885-890: the number of events *)
Definition number (p : bpdf) (now : pvals) (seed : nat) (n : option nat) : result nat :=
  match n with
  | Some n => Ok n
  | None => match p_yield p with
            | Some y => Ok (poisson seed (y (all_values p now [])))
            | None => Err ValueError
            end
  end.

(** 967-982 [_call_sample], [_fallback_sample]: what [_sample] returns is dropped; the relative counts are
    moved to the order of the limits (1284) *)
Definition call_sample (p : bpdf) (values : pvals) (seed n : nat) (limits : bspace) : result tensor :=
  if negb (same_space limits (p_space p)) then Err WorkInProgressError
  else
    let* probs := move_axis_obs (b_obs (p_space p)) (b_obs limits) (p_rel p values) None in
    Ok (multinomial seed n (fst probs)).

(** 930-965 [sample] *)
Definition p_sample (p : bpdf) (now : pvals) (seed : nat) (n : option nat) (limits : option bspace)
  (given : pvals) : result holder :=
  let* n := number p now seed n in
  let lim := match limits with Some l => l | None => p_space p end in
  let* _ := check_params p given in
  let* t := call_sample p (all_values p now given) seed n lim in
  let* h := make_holder lim t None in
  match limits with Some l => holder_with_obs h (b_obs l) | None => Ok h end.

(** 840-925 [create_sampler]; the default of [fixed_params] is [FTrue] *)
Inductive fixed := FTrue | FFalse | FList (names : list string) | FNone.
Definition create_sampler (hashing : bool) (p : bpdf) (now : pvals) (seed : nat) (n : option nat)
  (limits : option bspace) (params : option pvals) (fix_ : fixed) : result bsampler :=
  let* n := number p now seed n in
  let lim := match limits with Some l => l | None => p_space p end in
  let* given := match fix_, params with
                | FNone, None => Ok []
                | FNone, Some ps => Ok ps
                | _, Some _ => Err ValueError
                | FFalse, None => Err BreakingAPIChangeError
                | FTrue, None => Ok []
                | FList l, None => Ok (map (fun name => (name, value_of now [] name)) l)
                end in
  let* _ := check_params p given in
  let f := fun now seed n ps =>
             let* h := p_sample p now seed (Some n) (Some lim) ps in Ok (h_values h, h_variances h) in
  b_from_sampler hashing now seed None (Some f) n lim (all_values p now given).

(** ** binneddatav1.py:207-239 [from_tensor] with the variances [True]: the square roots [root] of the values *)
Definition from_tensor_true (root : Q -> Q) (space : bspace) (values : tensor) : result holder :=
  make_holder space values (Some (Tensor (t_shape values) (fun i => root (t_get values i)))).
End Sampler.
