(** Warnings that are given once: zfit/util/warnings.py, with the switches of zfit/settings.py. Filters of Python's own
    warnings module are left out: given means handed to it. *)
From Verif Require Import Base.

Inductive kind : Type := Experimental | Advanced | Changed | Changing | Once.
Definition kind_eqb (a b : kind) : bool :=
  match a, b with
  | Experimental, Experimental | Advanced, Advanced | Changed, Changed | Changing, Changing | Once, Once => true
  | _, _ => false
  end.
Definition entry_eqb (a b : kind * string) : bool := kind_eqb (fst a) (fst b) && String.eqb (snd a) (snd b).

(** The sets [warned_advanced], [warned_changed], [warned_changing], [warned_once] and the variables [warned] of the
    decorated functions as one set of pairs; the two dictionaries of switches, latest value first; and the warnings
    given so far, latest first. *)
Record wstate : Type := WState {
  seen : list (kind * string);
  sw_advanced : list (string * bool);
  sw_changed : list (string * bool);
  given : list (kind * string) }.

(** settings.py:134-150: a [DotMap], [.get(identifier, True)] and [.all] *)
Definition on (d : list (string * bool)) (id : string) : bool :=
  match lookup String.eqb id d with Some b => b | None => true end.
Definition all_on (d : list (string * bool)) : bool := on d "all"%string.

Definition is_seen (s : wstate) (k : kind) (id : string) : bool := mem entry_eqb (k, id) (seen s).
Definition give (s : wstate) (k : kind) (id : string) : wstate :=
  WState ((k, id) :: seen s) (sw_advanced s) (sw_changed s) ((k, id) :: given s).

(** warnings.py:12-32 [warn_experimental_feature]; 42-62 [warn_advanced_feature]; 71-86 [warn_changed_feature];
    91-95 [warn_changing_feature], which looks into the set of [warn_changed_feature]; 98-104 [warn_once] *)
Definition warn (s : wstate) (k : kind) (id : string) : wstate :=
  match k with
  | Experimental => if negb (is_seen s Experimental id) then give s Experimental id else s
  | Advanced => if on (sw_advanced s) id && all_on (sw_advanced s) && negb (is_seen s Advanced id) then give s Advanced id else s
  | Changed => if on (sw_changed s) id && all_on (sw_changed s) && negb (is_seen s Changed id) then give s Changed id else s
  | Changing => if negb (is_seen s Changed id) then give s Changing id else s
  | Once => if negb (is_seen s Once id) then give s Once id else s
  end.

(** [zfit.settings.advanced_warnings[identifier] = value], [zfit.settings.changed_warnings.identifier = value] *)
Definition set_advanced (s : wstate) (id : string) (b : bool) : wstate := WState (seen s) ((id, b) :: sw_advanced s) (sw_changed s) (given s).
Definition set_changed (s : wstate) (id : string) (b : bool) : wstate := WState (seen s) (sw_advanced s) ((id, b) :: sw_changed s) (given s).
(** Reading [zfit.settings.advanced_warnings.identifier] or [[identifier]]: the library dotmap adds an empty map for a key
    that it does not have, and an empty map counts as False. *)
Definition read_advanced (s : wstate) (id : string) : wstate :=
  match lookup String.eqb id (sw_advanced s) with Some _ => s | None => set_advanced s id false end.

(** settings.py:134-150, the switches at the start: those that are not in the list are on as well *)
Definition start : wstate :=
  WState [] (map (fun id => (id, true)) ["sum_extended_frac"; "exp_shift"; "py_func_autograd"; "inconsistent_fitrange"; "extended_in_UnbinnedNLL"; "all"]%string) (map (fun id => (id, true)) ["new_sum"; "all"]%string) [].
