(** What the properties about copies of PDFs say. *)
From Verif Require Import Base Copy_Model.
Open Scope string_scope.
Open Scope list_scope.

(** Integrals of equal functions are equal. *)
Definition integral_ok (integral : (Q -> Q) -> space -> Q) : Prop :=
  forall f g s, (forall x, f x == g x)%Q -> (integral f s == integral g s)%Q.

(** The same density, normalised or not, at every point and for all values of the parameters. *)
Definition same_density (p q : pdf) : Prop :=
  forall shape fshape integral, integral_ok integral ->
  forall e normed x,
    (density shape fshape integral e q normed x == density shape fshape integral e p normed x)%Q.

(** Names that mean something else in a constructor or in [copy]. *)
Definition reserved : list string :=
  ["obs"; "func"; "extended"; "norm"; "name"; "label"; "yield"; "lambda"].
Definition plain_names (ns : list string) : Prop :=
  NoDup ns /\ forall n, In n ns -> ~ In n reserved.

(** The PDFs that can be copied:
    - classes with an argument for each parameter, with the same name;
    - polynomials that scale their argument, if they are normalised over their space;
    - wrapped distributions with a mapping of parameters and without further arguments;
    - simple PDFs, and simple functors without parameters;
    - products, and sums that are extended or whose fractions add up to one. *)
Definition total (e : nat -> Q) (ps : list (string * par)) : Q :=
  fold_right Qplus 0%Q (map (fun np => val e (snd np)) ps).
Definition copyable (p : pdf) : Prop :=
  match p_cls p with
  | Plain (User l) => (forall n a, In (n, a) l -> n = a) /\ plain_names (map fst l)
  | Plain _ => True
  | Poly _ => p_ext p = Scaling true /\ p_norm p = p_space p
  | WrapDistribution => exists d, p_ext p = Dist d DMap 0
  | SimplePDF => plain_names (map fst (p_params p))
  | SimpleFunctorPDF => p_params p = []
  | ProductPDF => True
  | SumPDF => is_extended p = true \/ forall e, (total e (p_params p) == 1)%Q
  | Bernstein | Kde _ | Wrap _ | ConditionalPDF => False
  end.
