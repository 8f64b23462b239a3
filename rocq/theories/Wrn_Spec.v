(** What users expect of warnings. *)
From Verif Require Import Base Wrn_Model.

(** What happens in a session. *)
Inductive event : Type := Occasion (k : kind) (id : string) | SwitchAdvanced (id : string) (b : bool) | SwitchChanged (id : string) (b : bool).
Definition step (s : wstate) (e : event) : wstate :=
  match e with Occasion k id => warn s k id | SwitchAdvanced id b => set_advanced s id b | SwitchChanged id b => set_changed s id b end.
Definition session (l : list event) : wstate := fold_left step l start.

(** How often the warning has been given. *)
Definition times (k : kind) (id : string) (s : wstate) : nat := length (filter (entry_eqb (k, id)) (given s)).

(** The switch concerns warnings of this kind. *)
Definition switch (k : kind) (e : event) : option (string * bool) :=
  match k, e with
  | Advanced, SwitchAdvanced id b => Some (id, b)
  | Changed, SwitchChanged id b => Some (id, b)
  | _, _ => None
  end.

(** The last switch of this name, on without one. *)
Fixpoint last_switch (k : kind) (id : string) (l : list event) (b : bool) : bool :=
  match l with
  | [] => b
  | e :: r => last_switch k id r match switch k e with Some (i, c) => if String.eqb id i then c else b | None => b end
  end.
Definition switched_on (k : kind) (id : string) (l : list event) : Prop := last_switch k id l true = true /\ last_switch k "all"%string l true = true.
