(** What the properties about approximations say. *)
From Coq Require Import QArith.Qcanon.
From Verif Require Import Base Apx_Model.

Section Spec.
Context {V M : Type}.
Context (apply : M -> V -> V) (dot : V -> V -> Qc) (inverse : M -> option M) (zero : V).

(** [b] undoes [a], and the other way around. *)
Definition inverses (a b : M) : Prop := forall v, apply a (apply b v) = v /\ apply b (apply a v) = v.
(** The laws of the algebra that are used. *)
Definition algebra : Prop := (forall a b, inverse a = Some b -> inverses a b) /\ (forall v, dot zero v = 0)%Qc /\ (forall a, apply a zero = zero).
Definition symmetric_dot : Prop := forall v w, dot v w = dot w v.
Definition positive_definite (h : M) : Prop := forall v, v <> zero -> (0 < dot v (apply h v))%Qc.

(** What is asked of the approximations. *)
Inductive request := Hessian (invert : bool) | InvHessian (invert : bool) | AskEdm (g : V) (h : M).
Definition ask (a : approx V M) (r : request) : approx V M :=
  match r with
  | Hessian b => fst (hessian inverse b a)
  | InvHessian b => fst (inv_hessian inverse b a)
  | AskEdm g h => fst (edm apply dot inverse g h a)
  end.

(** The answer that belongs to the matrices that were given: the matrix itself, or the inverse of the other. *)
Definition answer (own other : option M) : result (option M) :=
  match own, other with
  | Some m, _ => Ok (Some m)
  | None, Some o => match inverse o with Some m => Ok (Some m) | None => Err LinAlgError end
  | None, None => Ok None
  end.
End Spec.
