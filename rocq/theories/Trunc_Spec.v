(** Specification of truncation. *)
From Verif Require Import Base.
From Coq Require Import Reals.
From Coquelicot Require Import Hierarchy RInt.
Import ListNotations.
#[local] Open Scope R_scope.

(** [x] lies in one of the (closed) limits. *)
Definition in_some (limits : list (R * R)) (x : R) : Prop := exists l, In l limits /\ fst l <= x <= snd l.

(** [g] is [f] within the limits and zero elsewhere. *)
Definition truncates (limits : list (R * R)) (f g : R -> R) : Prop :=
  (forall x, in_some limits x -> g x = f x) /\ (forall x, ~ in_some limits x -> g x = 0).

(** Two limits have at most one point in common. *)
Definition apart (l m : R * R) : Prop := snd l <= fst m \/ snd m <= fst l.

(** The Riemann integral of [f] from [a] to [b] exists and is [v] (as defined by Coquelicot). *)
Definition integral_is (f : R -> R) (a b v : R) : Prop := is_RInt f a b v.

(** The integrals of [f] are [I], for intervals within the limits. *)
Definition integrals_within (limits : list (R * R)) (f : R -> R) (I : R * R -> R) : Prop :=
  forall a b l, In l limits -> fst l <= a -> a <= b -> b <= snd l -> integral_is f a b (I (a, b)).
