(** Losses: unbinned and binned negative log-likelihoods, extended or not, and chi2
    (core/loss.py, _loss/binnedloss.py). Numbers are reals: rounding, overflow and NaN are not
    modelled. [V] is the type of all parameter values at once. *)
From Coq Require Import Reals.
From Verif Require Import Base Space_Model.
#[local] Open Scope R_scope.

Definition row := list R.
(** core/loss.py:114, _loss/binnedloss.py:65-66 *)
Definition tiny : R := / (10 ^ 307).
Definition rsum (l : list R) : R := fold_right Rplus 0 l.

(** A deprecated [fit_range]: which events are inside. *)
Record range := mkRange { r_in : row -> bool }.
(** Unbinned data as seen by a loss (core/data.py:119-239, 258-266). *)
Record udata := mkU { u_rows : list row; u_weights : option (list R) }.
Definition u_num (d : udata) : nat := length (u_rows d).
Definition u_size (d : udata) : R := match u_weights d with Some w => rsum w | None => INR (u_num d) end.
(** core/data.py:869-897 [data.with_obs(fit_range)] for a range in the order of the data *)
Definition u_cut (r : range) (d : udata) : udata :=
  let mask := map (r_in r) (u_rows d) in
  mkU (boolean_mask (u_rows d) mask) (option_map (fun w => boolean_mask w mask) (u_weights d)).
(** Binned data: contents and variances, flattened (_data/binneddatav1.py). *)
Record bdata := mkB { b_values : list R; b_variances : option (list R) }.
Inductive dat := DU (d : udata) | DB (d : bdata).
(** core/data.py:289, _data/binneddatav1.py:423: [_approx_nevents] *)
Definition d_nevents (d : dat) : R := match d with DU u => INR (u_num u) | DB b => rsum (b_values b) end.

(** Models, for every value of the parameters: the pdf, normalised over its own range or over a
    given one; the yield if it is extended; expected counts and relative counts in the bins of
    the data. *)
Record model (V : Type) := mkModel {
  m_pdf : V -> option range -> row -> R;
  m_yield : option (V -> R);
  m_counts : V -> bdata -> list R;
  m_rel : V -> bdata -> list R }.
Arguments mkModel {V}. Arguments m_pdf {V}. Arguments m_yield {V}. Arguments m_counts {V}. Arguments m_rel {V}.
(** Constraints (core/constraint.py): the value, and how many floating parameters
    [get_params()] lists. *)
Record constr (V : Type) := mkConstr { c_value : V -> R; c_nfloat : nat }.
Arguments mkConstr {V}. Arguments c_value {V}. Arguments c_nfloat {V}.

(** A channel of a loss: model, data and fit range. *)
Definition channel (V : Type) : Type := model V * dat * option range.

Inductive kind :=
| KNLL (kahan : bool) | KExtNLL | KBinned | KExtBinned
| KChi2 (expected : bool) | KExtChi2 (expected : bool).

(** [log_offset]: None stands for False *)
Definition offset := option R.

(** The compensated sum of TensorFlow Probability returns total and correction, which is what
    the total has too much; [err] is the rounding error, which can be anything. *)
Definition kahan_sum (err : list R -> R) (l : list R) : R * R := (rsum l + err l, err l).

(** core/loss.py:130-142 [_nll_calc_unbinned_tf] *)
Definition times_weights (l : list R) (ws : option (list R)) : list R :=
  match ws with Some w => map (fun p => fst p * snd p) (combine l w) | None => l end.
Definition minus_offset (l : list R) (off : offset) : list R :=
  match off with Some o => map (fun x => x - o) l | None => l end.
Definition nll_calc (err : list R -> R) (kahan : bool) (logs : list R) (ws : option (list R)) (off : offset) : R * R :=
  let logs := minus_offset (times_weights logs ws) off in
  let (nll, corr) := if kahan then kahan_sum err logs else (rsum logs, 0) in
  (- nll, - corr).

(** core/loss.py:74-127 [_unbinned_nll_tf]: one channel, and the sum over the channels *)
Definition unbinned_nll_1 {V} (err : list R -> R) (kahan : bool) (v : V) (off : offset) (m : model V) (d : udata)
  (r : option range) : R * R :=
  let d' := match r with Some f => u_cut f d | None => d end in
  let probs := map (m_pdf m v r) (u_rows d') in
  nll_calc err kahan (map (fun p => ln (p + tiny)) probs) (u_weights d') off.
Fixpoint unbinned_parts {V} (err : list R -> R) (kahan : bool) (v : V) (off : offset) (cs : list (channel V))
  : result (list (R * R)) :=
  match cs with
  | [] => Ok []
  | (m, DU d, r) :: rest => let* ps := unbinned_parts err kahan v off rest in
                            Ok (unbinned_nll_1 err kahan v off m d r :: ps)
  | (_, DB _, _) :: _ => Err AttributeError
  end.
Definition unbinned_nll {V} (err : list R -> R) (kahan : bool) (v : V) (off : offset) (cs : list (channel V))
  : result (R * R) :=
  let* parts := unbinned_parts err kahan v off cs in
  Ok (rsum (map fst parts), rsum (map snd parts)).

(** core/loss.py:1099-1101, 1260-1262 *)
Definition constraints_value {V} (v : V) (ks : list (constr V)) : R := rsum (map (fun k => c_value k v) ks).

(** core/loss.py:1082-1111 [UnbinnedNLL._loss_func] *)
Definition nll_func {V} (err : list R -> R) (kahan : bool) (v : V) (cs : list (channel V)) (ks : list (constr V))
  (off : offset) : result R :=
  let* (nll, corr) := unbinned_nll err kahan v off cs in
  Ok (nll + constraints_value v ks - corr).

(** tf.nn.log_poisson_loss(targets, log_input, compute_full_loss): with the full loss, Stirling's
    approximation of log(targets!) is added, which is left out for targets between 0 and 1. *)
Definition stirling (n : R) : R :=
  if Rle_dec 0 n then
    if Rle_dec n 1 then 0 else n * ln n - n + / 2 * ln (2 * PI * n)
  else n * ln n - n + / 2 * ln (2 * PI * n).
Definition log_poisson (target log_input : R) (full : bool) : R :=
  exp log_input - log_input * target + (if full then stirling target else 0).
Definition is_false (off : offset) : bool := match off with None => true | Some _ => false end.
Definition plus_offset (x : R) (off : offset) : R := match off with Some o => x + o | None => x end.

(** core/loss.py:1264-1285: numbers of events and yields, one after the other *)
Fixpoint yields_of {V} (v : V) (cs : list (channel V)) : result (list (R * R)) :=
  match cs with
  | [] => Ok []
  | (m, d, _) :: rest =>
      match m_yield m, d with
      | None, _ => Err NotExtendedPDFError
      | _, DB _ => Err AttributeError
      | Some y, DU u => let* ys := yields_of v rest in Ok ((u_size u, y v) :: ys)
      end
  end.
(** core/loss.py:1251-1286 [ExtendedUnbinnedNLL._loss_func]; [sumtype] is never passed *)
Definition ext_nll_func {V} (err : list R -> R) (v : V) (cs : list (channel V)) (ks : list (constr V))
  (off : offset) : result R :=
  let* (nll, corr) := unbinned_nll err false v off cs in
  let* ys := yields_of v cs in
  let terms := map (fun p => plus_offset (log_poisson (fst p) (ln (snd p)) (is_false off)) off) ys in
  Ok (nll + constraints_value v ks + rsum terms - corr).

(** _loss/binnedloss.py:46-80 [poisson_loss_calc] for one bin; the scaled Poisson transformation
    is switched off (63) *)
Definition poisson_bin (off : offset) (p : R * R) : R :=
  let (prob, value) := p in
  plus_offset (log_poisson (value + tiny) (ln (prob + tiny)) (is_false off)) off.
(** _loss/binnedloss.py:298-327 and 446-476; for BinnedNLL the relative counts are multiplied by
    the total of the data. *)
Definition expected_counts {V} (ext : bool) (v : V) (m : model V) (b : bdata) : list R :=
  if ext then m_counts m v b else map (fun p => p * rsum (b_values b)) (m_rel m v b).
Fixpoint poisson_parts {V} (ext : bool) (v : V) (off : offset) (cs : list (channel V)) : result (list R) :=
  match cs with
  | [] => Ok []
  | (m, DB b, _) :: rest =>
      let* ps := poisson_parts ext v off rest in
      Ok (rsum (map (poisson_bin off) (combine (expected_counts ext v m b) (b_values b))) :: ps)
  | (_, DU _, _) :: _ => Err AttributeError
  end.
Definition offset_value (off : offset) : R := match off with Some o => o | None => 0 end.
Definition binned_func {V} (ext : bool) (v : V) (cs : list (channel V)) (ks : list (constr V)) (off : offset) : result R :=
  let* parts := poisson_parts ext v off cs in
  Ok (rsum parts + rsum (map (fun k => c_value k v - offset_value off * INR (c_nfloat k)) ks)).

(** _loss/binnedloss.py:496-521 [chi2_loss_calc] with empty bins ignored (the default) *)
Definition recip_no_nan (x : R) : R := if Req_EM_T x 0 then 0 else / x.
Definition chi2_bin (off : offset) (t : (R * R) * R) : R :=
  let '((prob, value), var) := t in
  plus_offset ((prob - value) * (prob - value) * recip_no_nan var) off.
(** _loss/binnedloss.py:646-687 and 802-840: variances of the data, or the square root of the
    expected counts *)
Fixpoint chi2_parts {V} (ext expected : bool) (v : V) (off : offset) (cs : list (channel V)) : result (list R) :=
  match cs with
  | [] => Ok []
  | (m, DB b, _) :: rest =>
      let probs := expected_counts ext v m b in
      let* vars := if expected then Ok (map (fun p => sqrt (p + tiny)) probs)
                   else opt_result ValueError (b_variances b) in
      let* ps := chi2_parts ext expected v off rest in
      Ok (rsum (map (chi2_bin off) (combine (combine probs (b_values b)) vars)) :: ps)
  | (_, DU _, _) :: _ => Err AttributeError
  end.
Definition chi2_func {V} (ext expected : bool) (v : V) (cs : list (channel V)) (ks : list (constr V)) (off : offset) : result R :=
  let* parts := chi2_parts ext expected v off cs in
  Ok (rsum parts + rsum (map (fun k => c_value k v - offset_value off) ks)).

(** [_loss_func] of each kind of loss *)
Definition loss_func {V} (err : list R -> R) (k : kind) (v : V) (cs : list (channel V)) (ks : list (constr V))
  (off : offset) : result R :=
  match k with
  | KNLL kahan => nll_func err kahan v cs ks off
  | KExtNLL => ext_nll_func err v cs ks off
  | KBinned => binned_func false v cs ks off
  | KExtBinned => binned_func true v cs ks off
  | KChi2 e => chi2_func false e v cs ks off
  | KExtChi2 e => chi2_func true e v cs ks off
  end.

(** The option "subtr_const" (core/loss.py:267-293): True (default), False or a number. *)
Inductive subtr := SubTrue | SubFalse | SubValue (x : R).
(** A loss object: channels, constraints, the options that matter and the hashes of the data
    at the last precompilation. *)
Record loss (V : Type) := mkLoss {
  l_kind : kind; l_chan : list (channel V); l_constr : list (constr V);
  l_subtr : subtr; l_offset : offset;
  l_pre : bool; l_hashes : list Z }.
Arguments mkLoss {V}. Arguments l_kind {V}. Arguments l_chan {V}. Arguments l_constr {V}. Arguments l_subtr {V}.
Arguments l_offset {V}. Arguments l_pre {V}. Arguments l_hashes {V}.

(** core/loss.py:339-383 [_input_check] and 415-437 [_check_convert_model_data] for data that are
    zfit data: models and data are zipped, which drops what is left over of the longer list. *)
Definition input_check {V} (models : list (model V)) (datas : list dat) (ranges : option (list (option range)))
  : result (list (channel V)) :=
  let pairs := combine models datas in
  let ms := map fst pairs in
  let ds := map snd pairs in
  let rs := match ranges with None => map (fun _ => None) pairs | Some rs => rs end in
  if Nat.eqb (length ms) (length ds) && Nat.eqb (length ds) (length rs)
  then Ok (combine (combine ms ds) rs) else Err ValueError.
(** core/loss.py:199-252 [BaseLoss.__init__]; "subtr_const_value" can be among the options *)
Definition new_loss {V} (k : kind) (models : list (model V)) (datas : list dat) (ranges : option (list (option range)))
  (ks : list (constr V)) (opts : subtr * offset) : result (loss V) :=
  let* cs := input_check models datas ranges in
  Ok (mkLoss k cs ks (fst opts) (snd opts) false []).
Definition default_options : subtr * offset := (SubTrue, None).

Definition same_type (a b : kind) : bool :=
  match a, b with
  | KNLL _, KNLL _ | KExtNLL, KExtNLL | KBinned, KBinned | KExtBinned, KExtBinned
  | KChi2 _, KChi2 _ | KExtChi2 _, KExtChi2 _ => true
  | _, _ => false
  end.
(** core/loss.py:583-597 [__add__]: the options (also "errors" of chi2 and "sumtype") are those of
    a new loss. *)
Definition default_kind (k : kind) (big : bool) : kind :=
  match k with
  | KNLL _ => KNLL big
  | KChi2 _ => KChi2 false
  | KExtChi2 _ => KExtChi2 false
  | k => k
  end.
Definition is_some {A} (o : option A) : bool := match o with Some _ => true | None => false end.
Definition loss_add {V} (big : bool) (a b : loss V) : result (loss V) :=
  if negb (same_type (l_kind a) (l_kind b)) then Err ValueError
  else
    let cs := l_chan a ++ l_chan b in
    let rs := map snd cs in
    new_loss (default_kind (l_kind a) big) (map (fun c => fst (fst c)) cs) (map (fun c => snd (fst c)) cs)
      (if existsb is_some rs then Some rs else None) (l_constr a ++ l_constr b) default_options.

(** core/loss.py:254-265 [is_precompiled]: compares the hashes of the data *)
Definition l_data {V} (l : loss V) : list dat := map (fun c => snd (fst c)) (l_chan l).
Definition set_pre {V} (l : loss V) (b : bool) (hs : list Z) : loss V :=
  mkLoss (l_kind l) (l_chan l) (l_constr l) (l_subtr l) (l_offset l) b hs.
Definition set_offset {V} (l : loss V) (o : offset) : loss V :=
  mkLoss (l_kind l) (l_chan l) (l_constr l) (l_subtr l) o (l_pre l) (l_hashes l).
Definition refresh_pre {V} (hash : dat -> Z) (l : loss V) : loss V :=
  if forallb (fun p => Z.eqb (hash (fst p)) (snd p)) (combine (l_data l) (l_hashes l))
  then l else set_pre l false (l_hashes l).

(** core/loss.py:385-413 [check_precompile]: the loss afterwards and the outcome. The division by
    a total of zero events is not modelled faithfully (Coq's [/ 0] instead of infinity). *)
Definition check_precompile {V} (err : list R -> R) (hash : dat -> Z) (eager : bool) (l : loss V) (v : V)
  : loss V * result unit :=
  if negb eager then (l, Ok tt)
  else
    let l := refresh_pre hash l in
    if l_pre l then (l, Ok tt)
    else
      let done := fun l' => (set_pre l' true (map hash (l_data l')), Ok tt) in
      match l_subtr l with
      | SubFalse => done l
      | s =>
          let l1 := match s with SubValue x => set_offset l (Some x) | _ => l end in
          match l_offset l1 with
          | Some _ => done l1
          | None =>
              let n := rsum (map d_nevents (l_data l1)) in
              match loss_func err (l_kind l1) v (l_chan l1) (l_constr l1) (Some 0) with
              | Ok x => done (set_offset l1 (Some (- ((x - 10000) / n))))
              | Err e => (l1, Err e)
              end
          end
      end.

(** core/loss.py:527-556 [value] at the parameter values [v] *)
Definition loss_value {V} (err : list R -> R) (hash : dat -> Z) (eager : bool) (l : loss V) (v : V) (full : bool)
  : loss V * result R :=
  match check_precompile err hash eager l v with
  | (l', Err e) => (l', Err e)
  | (l', Ok _) => (l', loss_func err (l_kind l') v (l_chan l') (l_constr l') (if full then None else l_offset l'))
  end.

(** core/loss.py:936-969 and _loss/binnedloss.py:190-212 [create_new] with other data or
    constraints: the options, with the offset, are kept. *)
Definition create_new {V} (l : loss V) (models : option (list (model V))) (datas : option (list dat))
  (ks : option (list (constr V))) : result (loss V) :=
  new_loss (l_kind l) (match models with Some ms => ms | None => map (fun c => fst (fst c)) (l_chan l) end)
    (match datas with Some ds => ds | None => l_data l end)
    (match l_kind l with KNLL _ | KExtNLL => Some (map snd (l_chan l)) | _ => None end)
    (match ks with Some k => k | None => l_constr l end) (l_subtr l, l_offset l).
