(** What users expect of loggers. *)
From Verif Require Import Base Lgr_Model.

(** How often a message of this level appears on the screen and in a file. *)
Definition on_screen (lg : logger) (m : level) : nat :=
  length (filter (fun h => match h with Stream _ => true | File _ _ => false end) (receivers lg m)).
Definition in_file (lg : logger) (p : string) (m : level) : nat :=
  length (filter (fun h => match h with Stream _ => false | File q _ => String.eqb p q end) (receivers lg m)).

(** The loggers there can be: whatever calls there have been, with errors or not. *)
Inductive reachable : logger -> Prop :=
| Fresh : reachable new_logger
| Called lg o l f : reachable lg -> reachable (fst (get_logger lg o l f)).

Definition or_warning (l : option level) : level := match l with Some l => l | None => WARNING end.
