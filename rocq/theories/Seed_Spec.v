(** What the properties about seeds say. *)
From Verif Require Import Base Seed_Model.
Open Scope list_scope.

(** The argument for a generator among those of set_seed. *)
Definition arg_of (k : kind) (numpy backend zfit : gen_arg) : gen_arg :=
  match k with Numpy => numpy | Backend => backend | Zfit => zfit end.
(** The generator is set: it is not told not to. *)
Definition is_set (a : gen_arg) : Prop := a <> GFalse.
(** The entry for a generator in what set_seed returns. *)
Definition entry (k : kind) (r : seeds) : gen_arg :=
  match k with Numpy => r_numpy r | Backend => r_backend r | Zfit => r_zfit r end.
(** A program uses only generators that are set. *)
Definition only_set (numpy backend zfit : gen_arg) (p : list (func * nat)) : Prop :=
  Forall (fun f => is_set (arg_of (generator_of (fst f)) numpy backend zfit)) p.
