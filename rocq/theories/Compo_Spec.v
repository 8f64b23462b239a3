(** What is said about composed parameters: parameters as a user can make them, angles, and the
    conversion of a list of values. *)
From Coq Require Import Reals.
From Verif Require Import Base Compo_Model.
#[local] Open Scope R_scope.

(** No conjugate of a complex parameter takes part. *)
Inductive no_conj : param -> Prop :=
| nc_indep i : no_conj (Indep i)
| nc_const v : no_conj (Const v)
| nc_list f s l : Forall no_conj l -> no_conj (Composed f s (PList l))
| nc_dict f s d : Forall (fun q => no_conj (snd q)) d -> no_conj (Composed f s (PDict d)).

(** The angle of a number in (-pi, pi]. *)
Definition angle_of (angle : C -> R) : Prop :=
  forall z, c_abs z <> 0 -> - PI < angle z <= PI /\ z = (c_abs z * cos (angle z), c_abs z * sin (angle z)).

(** The names of everything that a conversion makes. *)
Fixpoint new_names (n : new_param) : list string :=
  match n with
  | NConstant s _ | NVariable s _ _ _ _ | NComposed s _ => [s]
  | NComplex s a b => s :: new_names a ++ new_names b
  | NExisting _ _ | NNumber _ => []
  end.

(** The function gets all parameters in one argument: it has one argument for several parameters, or
    an argument with the name params. *)
Definition takes_all (f : func) (n : nat) : Prop :=
  (length (f_names f) = 1%nat /\ (1 < n)%nat) \/ In "params"%string (f_names f).

(** A list is not given or has [n] entries. *)
Definition fits {A} (o : option (list A)) (n : nat) : Prop := forall l, o = Some l -> length l = n.
