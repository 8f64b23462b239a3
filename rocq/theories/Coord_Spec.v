(** Specification vocabulary for coordinates, independent of the model's helpers. *)
From Verif Require Import Base Coord_Model.

(** The [k]-th observable and the [k]-th axis belong together. *)
Definition paired (c : coords) (o : obs_t) (a : axis_t) : Prop :=
  exists os axs k, c_obs c = Some os /\ c_axes c = Some axs
    /\ nth_error os k = Some o /\ nth_error axs k = Some a.

(** A coordinate object with both observables and axes as produced by a constructor
    call with distinct names and distinct axes. *)
Definition labelled (c : coords) (os : list obs_t) (axs : list axis_t) : Prop :=
  c_obs c = Some os /\ c_axes c = Some axs /\ length os = length axs /\ NoDup os /\ NoDup axs /\ os <> [].

(** [x] carries value [v] under the name [o] when its columns are labelled by [os]. *)
Definition column {V} (os : list obs_t) (x : list V) (o : obs_t) (v : V) : Prop :=
  exists k, nth_error os k = Some o /\ nth_error x k = Some v.

(** The requested names are disjoint from / exceed / miss the own ones. *)
Definition disjoint_names (a b : list obs_t) : Prop := forall o, In o a -> ~ In o b.
Definition has_extra (req own : list obs_t) : Prop := exists o, In o req /\ ~ In o own.
Definition misses (req own : list obs_t) : Prop := exists o, In o own /\ ~ In o req.

(** [sel] is the sub-sequence of [req] of the names in [own]. *)
Inductive selects (own : list obs_t) : list obs_t -> list obs_t -> Prop :=
| sel_nil : selects own [] []
| sel_keep o req sel : In o own -> selects own req sel -> selects own (o :: req) (o :: sel)
| sel_drop o req sel : ~ In o own -> selects own req sel -> selects own (o :: req) sel.

Definition is_perm {A} (a b : list A) : Prop := NoDup a /\ NoDup b /\ forall x, In x a <-> In x b.

(** The same for columns labelled by axes. *)
Definition axis_column {V} (axs : list axis_t) (x : list V) (a : axis_t) (v : V) : Prop :=
  exists k, nth_error axs k = Some a /\ nth_error x k = Some v.
Definition same_set {A} (a b : list A) : Prop := forall x, In x a <-> In x b.
