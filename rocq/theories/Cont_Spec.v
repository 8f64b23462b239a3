(** What users expect of an argument that can be one thing or several. *)
From Coq Require Import List String.
From Verif Require Import Base Cont_Model.
Import ListNotations.
Open Scope string_scope.

(** The kinds of objects that count as one thing although some of them can be iterated: text,
    tensors and arrays, data, losses, models, spaces, parameters, histograms, tables, axes. *)
Definition one_thing : list string :=
  ["str"; "Tensor"; "ndarray"; "ZfitData"; "ZfitLoss"; "ZfitModel"; "ZfitSpace"; "ZfitParameter"; "ZfitBinnedData";
   "ZfitBinning"; "PlottableHistogram"; "DataFrame"; "Series"; "Regular"; "Variable"].

Section Means.
Variable isa : string -> string -> bool.
(** The things meant by an argument: itself or the things in it. *)
Inductive means (extra : list string) : obj -> list obj -> Prop :=
| MeansKind : forall v t, In t (extra ++ one_thing) -> isa (type_of v) t = true -> means extra v [v]
| MeansAtom : forall v, iterate v = None -> means extra v [v]
| MeansMany : forall v l, iterate v = Some l -> (forall t, In t (extra ++ one_thing) -> isa (type_of v) t = false) ->
    means extra v l.
End Means.

(** The things in what is returned. *)
Definition things (a : answer) : option (list obj) :=
  match a with ANone => None | ASame v => iterate v | ANew _ l => Some l end.
(** The answer as an object, with an identity for a new container. *)
Definition as_object (id : nat) (a : answer) : obj :=
  match a with ANone => Nothing | ASame v => v | ANew t l => Obj id t (Some l) end.

(** Each thing once, at the place of its first occurrence. *)
Definition is_in (v : obj) (l : list obj) : Prop := exists w, In w l /\ same v w = true.
Inductive once_each : list obj -> list obj -> Prop :=
| OnceNil : once_each [] []
| OnceNew : forall l k v, once_each l k -> ~ is_in v l -> once_each (l ++ [v]) (k ++ [v])
| OnceOld : forall l k v, once_each l k -> is_in v l -> once_each (l ++ [v]) k.
(** Lists and tuples hold what is meant as it is, an OrderedSet each thing once. *)
Definition held (c : container) (l k : list obj) : Prop :=
  match c with OrderedSet_ => once_each l k | _ => k = l end.
