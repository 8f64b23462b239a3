(** Specification of products of PDFs: coordinates by name, products of numbers, and integrals over several variables. *)
From Verif Require Import Base Disp_Model Prod_Model.
#[local] Open Scope R_scope.

(** The coordinate (or interval) of the point (or box) [vals] that belongs to the observable [o] *)
Definition named {V : Type} (d : V) (obs : list string) (vals : list V) (o : string) : V :=
  match lookup String.eqb o (combine obs vals) with Some v => v | None => d end.
(** The coordinates of the point, or box, that belong to [want], in this order *)
Definition coords (obs : list string) (x : list R) (want : list string) : list R := map (named 0 obs x) want.
Definition sides (obs : list string) (l : list (R * R)) (want : list string) : list (R * R) := map (named (0, 0) obs l) want.

Fixpoint prod_list (vs : list R) : R := match vs with [] => 1 | v :: r => v * prod_list r end.

(** [iterated dims F e v]: [v] is the iterated integral of [F] over the variables [dims], each with its bounds; the other
    variables have the values given by [e]. The integral over one variable is the difference of an antiderivative. *)
Definition upd (e : string -> R) (o : string) (x : R) : string -> R := fun p => if String.eqb p o then x else e p.
Fixpoint iterated (dims : list (string * (R * R))) (F : (string -> R) -> R) (e : string -> R) (v : R) : Prop :=
  match dims with
  | [] => v = F e
  | (o, (a, b)) :: r =>
      exists g G : R -> R,
        (forall x, a <= x <= b -> iterated r F (upd e o x) (g x) /\ derivable_pt_lim G x (g x)) /\ v = G b - G a
  end.
(** A function of the variables [own] only *)
Definition depends_on (own : list string) (F : (string -> R) -> R) : Prop :=
  forall e e', (forall o, In o own -> e o = e' o) -> F e = F e'.
Definition own_dims (own : list string) (dims : list (string * (R * R))) : list (string * (R * R)) :=
  filter (fun d => mem String.eqb (fst d) own) dims.

(** Boxes and points with as many coordinates as there are observables *)
Definition fits (obs : list string) (l : box) : Prop := length l = length obs.
Definition fitsx (obs : list string) (x : point) : Prop := length x = length obs.
