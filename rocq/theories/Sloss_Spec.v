(** What the properties about [SimpleLoss] say. *)
From Verif Require Import Base Sloss_Model.
From Coq Require Import ZArith.

(** The losses a sum is made of. *)
Fixpoint leaves (l : loss) : list loss :=
  match l with
  | Sum a b => leaves a ++ leaves b
  | _ => [l]
  end.
Definition leaf_params (l : loss) : list par :=
  match l with Simple _ ps _ | Other _ _ ps _ => ps | Sum _ _ => [] end.

(** The value depends only on the values of the parameters. *)
Definition extensional (l : loss) : Prop :=
  match l with
  | Other _ g _ _ => forall e e', (forall n, e n = e' n) -> g e = g e'
  | _ => True
  end.

Definition names_of (l : loss) : list string :=
  map p_name (flat_map leaf_params (leaves l)).
Definition only_independent (l : loss) : Prop :=
  forall x p, In x (leaves l) -> In p (leaf_params x) -> p_indep p = true.

Definition sumQ (l : list Q) : Q := fold_right Qplus 0%Q l.

(** [t] is the value of the loss [x] in units of its errordef. *)
Definition share (e : env) (x : loss) (t : Q) : Prop :=
  exists w, value x [] e = Ok w /\ t = (w / errordef x)%Q.
(** All the losses of a sum are extensional. *)
Definition ext_all (l : loss) : Prop := forall x, In x (leaves l) -> extensional x.
