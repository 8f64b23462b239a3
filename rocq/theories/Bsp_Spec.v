(** What users expect of a space with a binning. *)
From Coq Require Import List String QArith.Qcanon.
From Verif Require Import Base Bsp_Model.
Import ListNotations.
Open Scope string_scope.

(** The axis that a space has for an observable, by position; the limits of an observable. *)
Definition axis_at (s : space) (o : string) (a : axis) : Prop :=
  exists l i, s_binning s = Some l /\ nth_error (s_obs s) i = Some o /\ nth_error l i = Some a.
Definition range_at (s : space) (o : string) (r : range) : Prop :=
  exists d i, s_limits s = Some d /\ nth_error (s_obs s) i = Some o /\ nth_error d i = Some (o, r).

(** One axis for each observable and no more, each with the name of its observable. *)
Definition well_binned (s : space) : Prop :=
  exists l, s_binning s = Some l /\ map name l = s_obs s.

(** Axes of hist that exist: at least one bin and not an empty range. *)
Definition proper (a : axis) : Prop :=
  match a with Regular _ n s t _ => n <> 0 /\ s <> t | Varied _ e => exists x y r, e = x :: y :: r | Other _ => True end.

(** The limits of each observable are the outer edges of its axis. *)
Definition spanned (s : space) : Prop :=
  forall o a r, axis_at s o a -> range_at s o r -> r = (first_edge a, last_edge a).

(** Bins of the same width between two numbers. *)
Definition equidistant (e : list Qc) (n : nat) (lo up : Qc) : Prop :=
  length e = S n /\ hd_error e = Some lo /\ nth_error e n = Some up
  /\ forall i x y, nth_error e i = Some x -> nth_error e (S i) = Some y -> (nat_Qc n * (y - x) = up - lo)%Qc.
