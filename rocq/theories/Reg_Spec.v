(** Specification of the choice of a registered analytic integral. *)
From Verif Require Import Base Reg_Model.

(** The limits as a relation between axes and bounds, as functions of the axis: *)
Definition same_axes (b1 b2 : box) : Prop := forall a, In a (map fst b1) <-> In a (map fst b2).

(** A registered bound allows a requested one if either is a wildcard or the requested number
    is not larger (this is the comparison of the code for lower AND upper limits). *)
Definition allows_bound (req reg : bound) : Prop :=
  match req, reg with Num a, Num b => (a <= b)%Q | _, _ => True end.
Definition allows (req reg : box) : Prop :=
  same_axes req reg /\
  forall a lo up lo' up', In (a, (lo, up)) req -> In (a, (lo', up')) reg ->
    allows_bound lo lo' /\ allows_bound up up'.

(** One would expect containment. *)
Definition contained (req reg : box) : Prop :=
  same_axes req reg /\
  forall a lo up lo' up', In (a, (Num lo, Num up)) req -> In (a, (Num lo', Num up')) reg ->
    (lo' <= lo)%Q /\ (up <= up')%Q.

(** Two limits over the same axes are told apart: on some axis both have a number for the lower (or both for the upper)
    bound, and these numbers differ by more than the relative tolerance 1e-5 (and 1e-8). *)
Definition far (x y : bound) : Prop :=
  match x, y with
  | Num a, Num b => (Qabs' b * (1 # 100000) + (1 # 100000000) < Qabs' (a - b))%Q
  | _, _ => False
  end.
Definition told_apart (b1 b2 : box) : Prop :=
  ~ same_axes b1 b2 \/
  exists a lo up lo' up', In (a, (lo, up)) b1 /\ In (a, (lo', up')) b2 /\ (far lo lo' \/ far up up').

(** A box names every axis once. *)
Definition box_ok (b : box) : Prop := NoDup (map fst b).

(** All earlier limits are told apart from all later ones. *)
Fixpoint all_apart (h : list integral) : Prop :=
  match h with
  | [] => True
  | i :: r => (forall j, In j r -> told_apart (i_limits i) (i_limits j)) /\ all_apart r
  end.
