(** What the properties about the root search say. *)
From Coq Require Import Qabs.
From Verif Require Import Base Brent_Model.
Open Scope Q_scope.

(** Between two points, in any order. *)
Definition within (a b x : Q) : Prop := (a <= x /\ x <= b) \/ (b <= x /\ x <= a).

(** Values of different sign, or one of them zero. *)
Definition opposite (u v : Q) : Prop := (u <= 0 /\ 0 <= v) \/ (v <= 0 /\ 0 <= u).
(** Values of the same sign that are not within the tolerance. *)
Definition same_sign (t u v : Q) : Prop := (t < u /\ t < v) \/ (u < - t /\ v < - t).

(** Tolerances as they are documented. *)
Definition tolerances (P : params) : Prop := 0 < atol P /\ 0 <= rtol P /\ 0 <= ftol P.

(** The value that is given for a point is the one of the function, or none is given. *)
Definition given (f : Q -> Q) (x : Q) (v : option Q) : Prop := v = None \/ v = Some (f x).

(** A function that grows with its argument. *)
Definition increasing (f : Q -> Q) : Prop := forall x y, x < y -> f x < f y.
(** Its values do not differ by more than [K] times the distance of the arguments. *)
Definition lipschitz (K : Q) (f : Q -> Q) : Prop := forall x y, Qabs (f x - f y) <= K * Qabs (x - y).
