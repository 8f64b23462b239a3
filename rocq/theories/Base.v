(** Shared vocabulary of the model: exceptions as values, and the few list
    primitives of Python that the modelled code uses. *)
From Coq Require Export String ZArith QArith Bool Arith Lia List.
Export ListNotations.
#[global] Open Scope bool_scope.
#[global] Open Scope list_scope.
#[global] Open Scope nat_scope.

(** Exception classes of zfit/util/exception.py (and the Python builtins) that the
    modelled functions raise. Messages are not modelled. *)
Inductive error : Type :=
| ValueError
| TypeError
| KeyError
| IndexError
| NameError
| RuntimeError
| AttributeError
| AssertionError
| ObsIncompatibleError
| AxesIncompatibleError
| CoordinatesIncompatibleError
| CoordinatesUnderdefinedError
| LimitsIncompatibleError
| LimitsUndefinedError
| LimitsOverdefinedError
| LimitsNotSpecifiedError
| SpaceIncompatibleError
| NormNotImplemented
| MultipleLimitsNotImplemented
| SpecificFunctionNotImplemented
| NotExtendedPDFError
| AlreadyExtendedPDFError
| ModelIncompatibleError
| ParameterNotIndependentError
| ParamNameNotUniqueError
| IntentionAmbiguousError
| MaximumIterationReached
| FailMinimizeNaN
| InvalidNameError
| ShapeIncompatibleError
| InvalidArgumentError
| OverdefinedError
| NotImplementedError
| ZeroDivisionError
| UserError (tag : nat).

Inductive result (A : Type) : Type :=
| Ok (a : A)
| Err (e : error).
Arguments Ok {A} a.
Arguments Err {A} e.

Definition bind {A B} (r : result A) (f : A -> result B) : result B :=
  match r with Ok a => f a | Err e => Err e end.
Notation "'let*' x ':=' r 'in' b" := (bind r (fun x => b))
  (at level 200, x pattern, r at level 100, b at level 200).

(** [l.index(o)] of Python for a list and an equality test; [None] stands for the
    [ValueError] Python raises when the element is missing. *)
Fixpoint index_of {A} (eqb : A -> A -> bool) (o : A) (l : list A) : option nat :=
  match l with
  | [] => None
  | x :: r => if eqb o x then Some 0
              else match index_of eqb o r with Some n => Some (S n) | None => None end
  end.

(** [o in l] of Python. *)
Definition mem {A} (eqb : A -> A -> bool) (o : A) (l : list A) : bool :=
  existsb (eqb o) l.

(** [set(a) <= set(b)] *)
Definition subsetb {A} (eqb : A -> A -> bool) (a b : list A) : bool :=
  forallb (fun x => mem eqb x b) a.
(** [frozenset(a) == frozenset(b)] *)
Definition set_eqb {A} (eqb : A -> A -> bool) (a b : list A) : bool :=
  subsetb eqb a b && subsetb eqb b a.
(** [bool(set(a).intersection(b))] *)
Definition intersectsb {A} (eqb : A -> A -> bool) (a b : list A) : bool :=
  existsb (fun x => mem eqb x b) a.

(** Collect a list of options: [None] if any is missing. *)
Fixpoint all_some {A} (l : list (option A)) : option (list A) :=
  match l with
  | [] => Some []
  | None :: _ => None
  | Some a :: r => match all_some r with Some r' => Some (a :: r') | None => None end
  end.

(** Python's [tuple(l[i] for i in indices)]; [None] is the IndexError. *)
Definition gather {A} (l : list A) (indices : list nat) : option (list A) :=
  all_some (map (nth_error l) indices).

(** Mapping over a list, stopping at the first exception. *)
Section MapM.
Context {A B : Type} (f : A -> result B).
Fixpoint mapM (l : list A) : result (list B) :=
  match l with
  | [] => Ok []
  | a :: r => let* b := f a in let* bs := mapM r in Ok (b :: bs)
  end.
End MapM.

Definition opt_result {A} (e : error) (o : option A) : result A :=
  match o with Some a => Ok a | None => Err e end.

(** Dictionary lookup (association list; first match, keys are kept unique by the
    functions that build dictionaries). *)
Fixpoint lookup {K V} (eqb : K -> K -> bool) (k : K) (d : list (K * V)) : option V :=
  match d with
  | [] => None
  | (k', v) :: r => if eqb k k' then Some v else lookup eqb k r
  end.

(** Strict comparison on rationals ([<] of Python). *)
Definition Qlt_bool (a b : Q) : bool := negb (Qle_bool b a).
