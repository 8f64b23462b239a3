(** What it means that a cached PDF is not stale. *)
From Verif Require Import Base CPdf_Model.
From Coq Require Import Qabs.

(** Two lists of numbers agree entry by entry up to the tolerance. *)
Definition close (tol : Q) (a b : list Q) : Prop :=
  Forall2 (fun x y => Qabs (x - y) < tol)%Q a b.

(** The value an evaluation returned is the one the wrapped function [f] gives for
    parameters and arguments within the tolerance of the current ones. *)
Definition fresh (f : list Q -> list Q -> bool -> result (list Q)) (tol : Q)
  (p : params) (arg : list Q) (norm : bool) (v : list Q) : Prop :=
  exists p' arg', close tol (values p) p' /\ close tol arg arg' /\ f p' arg' norm = Ok v.

(** The history changes only parameters that float, and no [floating] flag. *)
Definition only_floating_change (p : params) (h : list cop) : Prop :=
  forall op, In op h ->
    match op with
    | HSet i _ => exists v, nth_error p i = Some (v, true)
    | HFloat _ _ => False
    | _ => True
    end.

(** All densities are asked for with one norm and on [m] events. *)
Definition pdf_calls_alike (norm : bool) (m : nat) (h : list cop) : Prop :=
  forall x n, In (HPdf x n) h -> n = norm /\ length x = m.
(** All integrals are asked for with one norm; the limits have [m] numbers. *)
Definition int_calls_alike (norm : bool) (m : nat) (h : list cop) : Prop :=
  forall l n, In (HInt l n) h -> n = norm /\ length l = m.
