(** Specification vocabulary for combining spaces with several limits. *)
From Verif Require Import Base Coord_Model Coord_Spec Space_Model Space_Spec Comb_Model.

(** [z] is a space with the limits of each of [ss]: a simple space, or several added up, with observables [os] in this order, without
    axes or binning. *)
Definition has_parts (os : list string) (ss : list space) (z : zspace) : Prop :=
  ((exists s, ss = [s] /\ z = ZSimple s) \/ ((exists a b r, ss = a :: b :: r) /\ z = ZMulti (mkMulti (mkCoords (Some os) None) ss)))
  /\ forall s, In s ss -> rect_space s /\ s_obs s = Some os /\ s_axes s = None /\ s_binning s = None.
(** The limits of two spaces differ in a common observable. *)
Definition disagree (a b : space) : Prop := exists o iv iv', limit_of a o iv /\ limit_of b o iv' /\ ~ agree iv iv'.
(** The row [x] is within the limits of both, where those of [a] count for common observables (they agree to 1e-8). *)
Definition in_both (os : list string) (x : list Q) (a b : space) : Prop :=
  in_box os x (limit_of a) /\ in_box os x (fun o iv => limit_of b o iv /\ ~ own a o).
(** The observable [o] of [s] is binned with the edges [e]. *)
Definition edges_of (s : space) (o : string) (e : list Q) : Prop := exists b, s_binning s = Some b /\ In (o, e) b.
