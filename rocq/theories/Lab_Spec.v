(** What users expect of the labels of observables. *)
From Verif Require Import Base Coord_Model Lab_Model.

(** The space shows this label for the observable. *)
Definition shows (s : lspace) (ob lab : string) : Prop :=
  exists o l k, c_obs (ls_coords s) = Some o /\ labels s = Ok (Some l) /\ nth_error o k = Some ob /\ nth_error l k = Some lab.

(** The requests that keep observables: other limits or bins, another order or a part by observables or by axes. *)
Inductive request : Type :=
| Limits
| Observables (o : list string) (sup sub : bool)
| Axes (a : option (list Z)) (sup sub : bool)
| Part (o : list string)
| PartByAxes (a : list Z).
Definition answer (s : lspace) (r : request) : result lspace :=
  match r with
  | Limits => with_limits s
  | Observables o sup sub => space_with_obs s (Some o) sup sub
  | Axes a sup sub => space_with_axes s a sup sub
  | Part o => get_subspace s (Some o) None
  | PartByAxes a => get_subspace s None (Some a)
  end.
Fixpoint history (s : lspace) (l : list request) : result lspace :=
  match l with [] => Ok s | r :: t => let* s' := answer s r in history s' t end.

(** The space comes from the constructor with observables. *)
Definition from_user (s : lspace) : Prop :=
  exists c o l, c_obs c = Some o /\ o <> [] /\ NoDup o /\ make_lspace c l = Ok s.
