(** What the properties about the options for integrals say. *)
From Verif Require Import Base Opt_Model.

(** The numbers of draws are known, as they are in every model. *)
Definition ready {S} (o : options S) : Prop := exists d s, o_draws o = Num d /\ o_simpson o = Some (Num s).

(** The value of an option after an update: the one that is given, else the old one. *)
Definition or_old {A} (new : option A) (old : A) : A := match new with Some x => x | None => old end.

(** A tolerance that is accepted. *)
Definition tolerance (t : Q) : Prop := (0 <= t /\ t <= 1)%Q.

(** What happens to a model. *)
Inductive step {S : Type} :=
| Update (draws : option setting) (sampler : option S) (tol : option Q) (max_draws : option nat) (simpson : option setting)
| Integrate (graph binned : bool).
Definition apply {S} (log10_ logexp simpson_points : Q -> nat) (power06 : nat -> nat) (m : model S) (s : step) : model S :=
  match s with
  | Update d sa t mx si => fst (m_update log10_ logexp simpson_points power06 m d sa t mx si)
  | Integrate g b => fst (integrate g m b)
  end.
