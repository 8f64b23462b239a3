(** Specification vocabulary for uncertainties. *)
From Verif Require Import Base Unc_Model.
From Coq Require Import Qabs.
#[local] Open Scope nat_scope.

(** A square matrix of size n. *)
Definition square {V} (n : nat) (m : list (list V)) : Prop := length m = n /\ forall r, In r m -> length r = n.
(** The entry of a matrix at row i and column j. *)
Definition entry_at {V} (m : list (list V)) (i j : nat) (v : V) : Prop := exists r, nth_error m i = Some r /\ nth_error r j = Some v.
Definition symmetric {V} (m : list (list V)) : Prop := forall i j v, entry_at m i j v <-> entry_at m j i v.
(** A dictionary of covariances with cov(p, q) = cov(q, p). *)
Definition symmetric_dict (d : covd) : Prop := forall p q v, lookup pair_eqb (p, q) d = Some v <-> lookup pair_eqb (q, p) d = Some v.

(** Sum of f 0, ..., f (n-1). *)
Fixpoint sum_to (n : nat) (f : nat -> Q) : Q := match n with O => 0%Q | S k => (sum_to k f + f k)%Q end.

(** The confidence level an entry was made for. *)
Definition level_of (e : entry) : option Q := match e with EHesse _ c _ | EAsym _ _ c => Some c | EMsg => None end.

(** The weight correction it was made with. *)
Definition corr_of (e : entry) : option wcorr := match e with EHesse _ _ w => Some w | _ => None end.

(** The calls a user can make on a result, with any arguments. *)
Inductive call :=
| CHesse (ps : option (list string)) (m : option method) (cl : option Q) (name : namearg) (wc : option wcorr)
| CErrors (ps : option (list string)) (name : string) (cl sigma : option Q)
| CCovariance (ps : option (list string)) (m : option method) (wc : option wcorr).

(** The state after one call, and after a list of calls, whether they return or raise. *)
Section History.
Variable r_params : list string.
Variable weighted some_unweighted : bool.
Variable hesse_methods : string -> option nat.
Variable run_method : nat -> world -> world * result covd.
Variable jacobian : world -> result (list (list Q)).
Variable error_method : list string -> Q -> world -> world * result (list (string * (Q * Q)) * bool).
Variable sqrt_ ppf cdf : Q -> Q.
Definition after (s : st) (c : call) : st :=
  match c with
  | CHesse ps m cl name wc => fst (hesse r_params weighted some_unweighted hesse_methods run_method jacobian sqrt_ ppf s ps m cl name wc)
  | CErrors ps name cl sigma => fst (errors r_params error_method cdf s ps name cl sigma)
  | CCovariance ps m wc => fst (covariance_dict r_params weighted some_unweighted hesse_methods run_method jacobian s ps m wc)
  end.
Definition history (s : st) (cs : list call) : st := fold_left after cs s.
End History.

(** The requested parameters: all of the result if none are given. *)
Definition requested (r_params : list string) (ps : option (list string)) : list string :=
  match ps with Some l => l | None => r_params end.
(** All covariances that were computed so far are symmetric. *)
Definition caches_symmetric (s : st) : Prop := forall m d, In (m, d) (cache s) -> symmetric_dict d.
(** Two confidence levels count as the same: 0.3 percent of the distance of the new one to 1, or a relative 1e-9 of one of them. *)
Definition close_levels (c c' : Q) : Prop :=
  (Qabs (c - c') <= (3 # 1000) * (1 - c') \/ Qabs (c - c') <= (1 # 1000000000) * Qabs c \/ Qabs (c - c') <= (1 # 1000000000) * Qabs c')%Q.
(** What a call may do to the entry stored under a parameter and a name. *)
Definition may_become (old new : option entry) : Prop :=
  new = old \/
  match old, new with
  | None, Some _ => True
  | Some e, Some EMsg => e <> EMsg
  | Some e, Some e' => exists c c', level_of e = Some c /\ level_of e' = Some c' /\ close_levels c c'
                    /\ forall w w', corr_of e = Some w -> corr_of e' = Some w' -> w = w'
  | Some _, None => False
  | None, None => True
  end.
