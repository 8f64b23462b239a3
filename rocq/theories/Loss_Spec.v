(** Specification vocabulary for losses. *)
From Coq Require Import Reals Permutation.
From Verif Require Import Base Loss_Model.
#[local] Open Scope R_scope.

Fixpoint total (l : list R) : R := match l with [] => 0 | x :: r => x + total r end.

(** The events of a data set with their weights, one without weights. *)
Definition events (d : udata) : list (row * R) :=
  match u_weights d with
  | Some w => combine (u_rows d) w
  | None => map (fun r => (r, 1)) (u_rows d)
  end.
Definition one_weight_each (d : udata) : Prop :=
  match u_weights d with Some w => length w = length (u_rows d) | None => True end.

(** The data fit to the model: a weight per event; as many expected counts (and variances) as
    bins. *)
Definition fits {V} (c : channel V) : Prop :=
  match c with
  | (m, DU d, _) => one_weight_each d
  | (m, DB b, _) => (forall v, length (m_counts m v b) = length (b_values b))
      /\ (forall v, length (m_rel m v b) = length (b_values b))
      /\ match b_variances b with Some w => length w = length (b_values b) | None => True end
  end.

(** [value(full=True)] returns [x], whatever the rounding errors of compensated sums. *)
Definition full_value {V} (l : loss V) (v : V) (x : R) : Prop :=
  forall err hash eager, snd (loss_value err hash eager l v true) = Ok x.
(** The loss made of one channel of [l] alone, without constraints. *)
Definition alone {V} (l : loss V) (c : channel V) : loss V := mkLoss (l_kind l) [c] [] SubTrue None false [].

(** What can happen to a loss: evaluations, other data in a sampler, parameters fixed or floated. *)
Inductive step (V : Type) :=
| SValue (eager : bool) (v : V) (full : bool)
| SData (i : nat) (d : dat)
| SFloat (flags : list nat).
Arguments SValue {V}. Arguments SData {V}. Arguments SFloat {V}.
Fixpoint set_nth {A} (l : list A) (i : nat) (f : A -> A) : list A :=
  match l, i with
  | [], _ => []
  | a :: r, O => f a :: r
  | a :: r, S j => a :: set_nth r j f
  end.
Definition do_step {V} (err : list R -> R) (hash : dat -> Z) (l : loss V) (s : step V) : loss V :=
  match s with
  | SValue eager v full => fst (loss_value err hash eager l v full)
  | SData i d => mkLoss (l_kind l) (set_nth (l_chan l) i (fun c => (fst (fst c), d, snd c))) (l_constr l)
                   (l_subtr l) (l_offset l) (l_pre l) (l_hashes l)
  | SFloat flags => mkLoss (l_kind l) (l_chan l)
                   (map (fun p => mkConstr (c_value (fst p)) (snd p)) (combine (l_constr l) (flags ++ map c_nfloat (l_constr l))))
                   (l_subtr l) (l_offset l) (l_pre l) (l_hashes l)
  end.
Definition run {V} (err : list R -> R) (hash : dat -> Z) (l : loss V) (h : list (step V)) : loss V :=
  fold_left (do_step err hash) h l.
Definition is_value {V} (s : step V) : Prop := match s with SValue _ _ _ => True | _ => False end.

(** The events a channel uses: those inside its fit range. *)
Definition seen (r : option range) (d : udata) : list (row * R) :=
  match r with Some f => filter (fun e => r_in f (fst e)) (events d) | None => events d end.
(** minus the logarithm of the likelihood of a channel, and the Poisson term *)
Definition minus_log_likelihood {V} (m : model V) (r : option range) (d : udata) (v : V) : R :=
  - total (map (fun e => snd e * ln (m_pdf m v r (fst e) + tiny)) (seen r d)).
Definition poisson_term (n y : R) : R := y - n * ln y.

(** The offset a loss subtracts has been determined. *)
Definition settled {V} (l : loss V) : Prop :=
  match l_subtr l with SubTrue => l_offset l <> None | SubFalse => True | SubValue x => l_offset l = Some x end.

(** The loss of another kind with the same channels and constraints. *)
Definition as_kind {V} (k : kind) (l : loss V) : loss V := mkLoss k (l_chan l) (l_constr l) (l_subtr l) (l_offset l) (l_pre l) (l_hashes l).
(** The channel has [n] events (sum of weights) and its model expects [y] of them. *)
Definition expects {V} (c : channel V) (v : V) (n y : R) : Prop :=
  match c with (m, DU d, _) => n = total (map snd (events d)) /\ exists f, m_yield m = Some f /\ y = f v /\ 0 < y | _ => False end.

(** Two channels that differ by the order of their events, or by one event of weight [a + b] in
    place of two equal events of weights [a] and [b]. *)
Definition same_channel {V} (c c' : channel V) : Prop :=
  exists m r d d', c = (m, DU d, r) /\ c' = (m, DU d', r) /\ one_weight_each d /\ one_weight_each d'
    /\ (Permutation (events d) (events d')
        \/ exists l1 l2 w a b, events d = l1 ++ (w, a + b) :: l2 /\ events d' = l1 ++ (w, a) :: (w, b) :: l2).
Definition unbinned_kind (k : kind) : bool := match k with KNLL _ | KExtNLL => true | _ => false end.

(** Stirling's approximation of the logarithm of a factorial, zero up to one. *)
Definition log_factorial (n : R) : R :=
  if Rle_dec 0 n then if Rle_dec n 1 then 0 else n * ln n - n + ln (2 * PI * n) / 2
  else n * ln n - n + ln (2 * PI * n) / 2.
(** The loss takes the variances of chi2 from the expectation. *)
Definition uses_expected (k : kind) : bool := match k with KChi2 e | KExtChi2 e => e | _ => false end.
(** Expected contents of the bins, and the terms of the bins. *)
Definition expected_in {V} (extended : bool) (m : model V) (b : bdata) (v : V) : list R :=
  if extended then m_counts m v b else map (fun p => p * total (b_values b)) (m_rel m v b).
Definition poisson_of_bin (c n : R) : R := poisson_term (n + tiny) (c + tiny) + log_factorial (n + tiny).
Definition pull_squared (c n var : R) : R := if Req_EM_T var 0 then 0 else (c - n) * (c - n) / var.
Fixpoint sum2 (f : R -> R -> R) (a b : list R) : R :=
  match a, b with x :: a', y :: b' => f x y + sum2 f a' b' | _, _ => 0 end.
Fixpoint sum3 (f : R -> R -> R -> R) (a b c : list R) : R :=
  match a, b, c with x :: a', y :: b', z :: c' => f x y z + sum3 f a' b' c' | _, _, _ => 0 end.
(** Number of events a channel uses. *)
Definition nll_events {V} (c : channel V) : nat := match c with (_, DU d, r) => length (seen r d) | _ => 0%nat end.
