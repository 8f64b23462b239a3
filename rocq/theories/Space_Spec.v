(** Specification vocabulary for spaces: what a user sees of a space is its observables, its
    limits read in the order of the observables ([s_limits]), membership and volume. *)
From Coq Require Import Permutation.
From Verif Require Import Base Coord_Model Coord_Spec Space_Model.

(** The unbinned or binned rectangular spaces a user can obtain through the public API:
    created with observables and (lower, upper) limits, then any sequence of reorderings and
    sub-selections by observables or axes, of changes of the axes and of combinations. *)
Inductive rect_space : space -> Prop :=
| rs_make os axs lo up b s :
    NoDup os -> make_space (Some os) axs (IRect lo up) b = Ok s -> rect_space s
| rs_binned os axs b s :
    NoDup os -> make_space (Some os) axs INone (Some b) = Ok s -> rect_space s
| rs_with_obs s req sup sub s' :
    rect_space s -> NoDup req -> s_with_obs s (Some req) sup sub = Ok s' -> rect_space s'
| rs_drop_axes s sup sub s' :
    rect_space s -> s_with_axes s None sup sub = Ok s' -> rect_space s'
| rs_with_axes s req sup sub s' :
    rect_space s -> NoDup req -> s_with_axes s (Some req) sup sub = Ok s' -> rect_space s'
| rs_autofill s ow s' :
    rect_space s -> s_with_autofill_axes s ow = Ok s' -> rect_space s'
| rs_subspace s req s' :
    rect_space s -> NoDup req -> s_get_subspace s req = Ok s' -> rect_space s'
| rs_combine ss s' :
    Forall rect_space ss -> combine_spaces ss = Ok s' -> rect_space s'.

(** [s] restricts observable [o] to the interval [iv]: [iv] is the entry of the limits at the
    position of [o] in the observables. *)
Definition limit_of (s : space) (o : string) (iv : Q * Q) : Prop :=
  exists os ivs, s_obs s = Some os /\ s_limits s = Ok ivs /\ column os ivs o iv.

(** [v] is between the two ends, both included. *)
Definition between (iv : Q * Q) (v : Q) : Prop := (fst iv <= v /\ v <= snd iv)%Q.

(** The row [x], labelled by [os], has all its coordinates in the limits given by [lims]. *)
Definition in_box (os : list string) (x : list Q) (lims : string -> Q * Q -> Prop) : Prop :=
  forall o v iv, column os x o v -> lims o iv -> between iv v.

(** Two labelled rows carry the same value under every name of [sel]. *)
Definition same_on (sel os : list string) (x : list Q) (os' : list string) (x' : list Q) : Prop :=
  forall o v, In o sel -> (column os x o v <-> column os' x' o v).

(** [out] is the list of the elements of [inp] that satisfy [P], in order. *)
Inductive kept {A} (P : A -> Prop) : list A -> list A -> Prop :=
| kept_nil : kept P [] []
| kept_yes a inp out : P a -> kept P inp out -> kept P (a :: inp) (a :: out)
| kept_no a inp out : ~ P a -> kept P inp out -> kept P (a :: inp) out.

(** Union of lists in order of first appearance. *)
Inductive first_appearance : list string -> list (list string) -> list string -> Prop :=
| fa_done seen : first_appearance seen [] []
| fa_next seen ls out : first_appearance seen ls out -> first_appearance seen ([] :: ls) out
| fa_old seen o l ls out : In o seen -> first_appearance seen (l :: ls) out ->
    first_appearance seen ((o :: l) :: ls) out
| fa_new seen o l ls out : ~ In o seen -> first_appearance (o :: seen) (l :: ls) out ->
    first_appearance seen ((o :: l) :: ls) (o :: out).

(** Agreement of two limits to the tolerance of the comparison, 1e-8. *)
Definition agree (a b : Q * Q) : Prop :=
  (- (1 # 100000000) < fst a - fst b /\ fst a - fst b < 1 # 100000000
   /\ - (1 # 100000000) < snd a - snd b /\ snd a - snd b < 1 # 100000000)%Q.

(** Two closed intervals overlap with non-empty interior. *)
Definition overlap (a b : Q * Q) : Prop := (fst a < snd b /\ fst b < snd a)%Q.

(** Two objects share an observable. *)
Definition share (a b : list string) : Prop := exists o, In o a /\ In o b.

(** [groups] is a partition of the objects [dims] into groups without common observables;
    every group is listed with the observables of its members. *)
Definition partition_by_obs (dims : list (list string)) (groups : list (list string * list (list string))) : Prop :=
  Permutation (concat (map snd groups)) dims
  /\ (forall g, In g groups -> forall o, In o (fst g) <-> exists d, In d (snd g) /\ In o d)
  /\ ForallOrdPairs (fun g g' => ~ share (fst g) (fst g')) groups
  /\ (forall g g' a b, In g groups -> In g' groups -> In a (snd g) -> In b (snd g') -> share a b -> g = g').

(** [o] is one of the observables of [s]. *)
Definition own (s : space) (o : string) : Prop := exists os, s_obs s = Some os /\ In o os.

(** Among the observables that two or more of the spaces have, none occurs in strictly fewer
    of the spaces than another: if the spaces with [o] all have [o'], then those with [o'] all
    have [o]. *)
Definition not_nested (ss : list space) : Prop :=
  forall o o', (exists l1 s l2 t l3, ss = l1 ++ s :: l2 ++ t :: l3 /\ own s o /\ own t o) ->
    (exists l1 s l2 t l3, ss = l1 ++ s :: l2 ++ t :: l3 /\ own s o' /\ own t o') ->
    (forall s, In s ss -> own s o -> own s o') -> forall s, In s ss -> own s o' -> own s o.

(** Two numbers agree as numpy's [isclose] says: up to a part in 1e5 of the second, plus 1e-8. *)
Definition near (a b : Q) : Prop :=
  exists m, (0 <= m /\ (m == b \/ m == - b)
             /\ - (m * (1 # 100000) + (1 # 100000000)) <= a - b <= m * (1 # 100000) + (1 # 100000000))%Q.
(** What [limits_overlap] takes for an overlap of a later interval [b] with an earlier one [a]:
    one of the two ends of [b] is inside [a] (up to 1e-8), unless exact agreement is allowed. *)
Definition end_inside (allow_exact : bool) (a b : Q * Q) : Prop :=
  ~ (allow_exact = true /\ near (fst a) (fst b) /\ near (snd a) (snd b))
  /\ ((fst a - (1 # 100000000) < fst b < snd a - (1 # 100000000))%Q
      \/ (fst a + (1 # 100000000) < snd b < snd a + (1 # 100000000))%Q).
(** The same binning: the same axes in the same order with the same edges. *)
Definition same_binning (a b : option binning) : Prop :=
  match a, b with
  | None, None => True
  | Some x, Some y => Forall2 (fun p q => fst p = fst q /\ Forall2 Qeq (snd p) (snd q)) x y
  | _, _ => False
  end.
