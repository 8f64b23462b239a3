(** What the properties about splines say. *)
From Coq Require Import Reals.
From Verif Require Import Base Spl_Model.
Open Scope R_scope.
Open Scope list_scope.

(** What is known about the solver: what it gives is a solution. *)
Definition solves (solve : list vec -> vec -> result vec) : Prop :=
  forall A b x, solve A b = Ok x -> length x = length A /\ mulmv A x = b.

(** Points of one dimension [d]. *)
Definition points (d : nat) (pts : list vec) : Prop := Forall (fun c => length c = d) pts.

(** The points determine the spline: a spline that vanishes has no coefficients. *)
Definition determined (order : nat) (d : nat) (pts : list vec) : Prop :=
  forall x, length x = length (lhs order 0 d pts) ->
    (forall r, In r (mulmv (lhs order 0 d pts) x) -> r = 0) -> (forall r, In r x -> r = 0).

(** An affine function. *)
Definition affine (a : vec) (b : R) (x : vec) : R := dot a x + b.

(** The total content of a histogram. *)
Definition total (h : vec) : R := sumR h.

(** The solver succeeds where there is exactly one solution. *)
Definition complete (solve : list vec -> vec -> result vec) : Prop :=
  forall A b x, length x = length A -> mulmv A x = b ->
    (forall z, length z = length A -> (forall r, In r (mulmv A z) -> r = 0) -> forall r, In r z -> r = 0) ->
    exists y, solve A b = Ok y.

(** The thin-plate kernel r² ln r, which is r² ln 0.00001 for small r. *)
Definition kernel (r : R) : R := r * r * ln (sqrt (Rmax (r * r) (/ 10 ^ 10))).
(** The curve through three values at -1, 0 and 1. *)
Definition curve (f1 f2 f3 alpha : R) : R :=
  f2 + alpha * ((f3 - f1) / 2)
  + (f1 - 2 * f2 + f3) / (8 * ln 2) * (kernel (alpha + 1) - 2 * kernel alpha + kernel (alpha - 1)).
