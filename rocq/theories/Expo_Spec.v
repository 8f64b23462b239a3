(** * C72: what the exponential PDF means

    The documentation (zfit/models/basic.py:46-49): exp(lambda x) divided by its integral over the range. *)
From Coq Require Import Reals List.
From Coquelicot Require Import Coquelicot.
Import ListNotations.
#[local] Open Scope R_scope.

Definition expo (lam x : R) : R := exp (lam * x).
(** I is the sum of the integrals of f over the parts of a range *)
Fixpoint is_integral_over (f : R -> R) (l : list (R * R)) (I : R) : Prop :=
  match l with
  | [] => I = 0
  | (a, b) :: r => exists v J, is_RInt f a b v /\ is_integral_over f r J /\ I = v + J
  end.
(** A range: at least one part, each from a lower limit to a larger upper one *)
Definition proper (l : list (R * R)) : Prop := l <> [] /\ List.Forall (fun p => fst p < snd p) l.
(** x is nowhere left of the smallest lower limit nor right of the largest upper one *)
Definition within (l : list (R * R)) (x : R) : Prop := (exists p, In p l /\ fst p <= x) /\ (exists p, In p l /\ x <= snd p).
(** The distance between any lower and any upper limit is at most w *)
Definition spans_at_most (l : list (R * R)) (w : R) : Prop := forall p q, In p l -> In q l -> snd q - fst p <= w.
