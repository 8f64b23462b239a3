(** What is said about conditional PDFs (Cond_Model.v). *)
From Verif Require Import Base Cond_Model.

(** The conditional PDF is made as documented: observables and parameters are named once, every
    parameter has an observable. *)
Definition proper (C : cond_pdf) : Prop :=
  NoDup (c_pdf_obs C) /\ NoDup (map fst (c_cond C)) /\ (forall p l, In (p, l) (c_cond C) -> l <> []) /\
  c_obs C = unique (c_pdf_obs C ++ flat_map snd (c_cond C)).
(** The observable that gives the value of a parameter. *)
Definition observable_of (C : cond_pdf) (p : string) : option string :=
  match lookup String.eqb p (c_cond C) with Some (o :: _) => Some o | _ => None end.
Definition has (d : dat) (o : string) : Prop := In o (cols d).
Definition has_conditions (C : cond_pdf) (d : dat) : Prop := forall p o, observable_of C p = Some o -> has d o.
(** Data has named columns; all observables of the PDF are there, in any order, perhaps with others. *)
Definition complete (C : cond_pdf) (d : dat) : Prop := forall o, In o (c_obs C) -> has d o.

(** The parameters for one event: those conditional on an observable have its value, the others
    the one they have. *)
Definition with_event (C : cond_pdf) (d : dat) (row : list Q) (values : store) : store :=
  fun p => match observable_of C p with Some o => column d o row | None => values p end.
(** The same, but a value outside of the limits of the parameter is replaced by the limit. *)
Definition with_event_clipped (C : cond_pdf) (lims : limits_t) (d : dat) (row : list Q) (values : store) : store :=
  fun p => match observable_of C p with Some o => clip (lims p) (column d o row) | None => values p end.
Definition between (l : option Q * option Q) (v : Q) : Prop :=
  match fst l with Some a => (a <= v)%Q | None => True end /\ match snd l with Some b => (v <= b)%Q | None => True end.
Definition in_limits (C : cond_pdf) (lims : limits_t) (d : dat) : Prop :=
  forall row p o, In row (rows d) -> observable_of C p = Some o -> between (lims p) (column d o row).

(** No conditional parameter is at a limit (needed only if functions are compiled). *)
Definition away_from_limits (C : cond_pdf) (lims : limits_t) (values : store) : Prop :=
  forall p, In p (map fst (c_cond C)) ->
    match fst (lims p) with Some a => (a < values p)%Q | None => True end /\
    match snd (lims p) with Some b => (values p < b)%Q | None => True end.

Definition same (a b : store) : Prop := forall p, a p = b p.
(** A function of the values of the parameters. *)
Definition of_values {A} (f : store -> A) : Prop := forall a b, same a b -> f a = f b.
