(** * What arithmetic of functions and parameters should do (C81) *)
From Verif Require Import Base Ops_Model.
From Coq Require Import QArith.
#[local] Open Scope string_scope.
#[local] Open Scope list_scope.

(** The value of an observable of an event *)
Definition column (x : event) (o : string) : Q := match lookup String.eqb o x with Some v => v | None => 0 end.
(** The operands of an expression: functions with a body, parameters and numbers. *)
Definition plain (o : obj) : Prop := match o with OFn (Simple _ _ _) | OPar _ | ONum _ => True | _ => False end.
Fixpoint operands (e : expr) : list obj := match e with EObj o => [o] | EAdd a b | EMul a b => operands a ++ operands b end.

(** What an expression means, with the values of the parameters [s] and for the event [x]. *)
Definition meaning_of (s : store) (x : event) (o : obj) : Q :=
  match o with
  | OFn (Simple obs _ body) => body s (map (column x) obs)
  | OPar p => p_val p s
  | ONum q => q
  | _ => 0
  end.
Fixpoint meaning (s : store) (x : event) (e : expr) : Q :=
  match e with
  | EObj o => meaning_of s x o
  | EAdd a b => meaning s x a + meaning s x b
  | EMul a b => meaning s x a * meaning s x b
  end.

Definition obs_of (o : obj) : list string := match o with OFn (Simple obs _ _) => obs | _ => [] end.
Definition deps_of (o : obj) : list string :=
  match o with OFn (Simple _ ps _) => concat (map (fun kp => p_deps (snd kp)) ps) | OPar p => p_deps p | _ => [] end.
(** All the parameters that an expression depends on *)
Definition deps (e : expr) : list string := concat (map deps_of (operands e)).
(** Without repetition, in the order of the first appearance *)
Definition firsts (l all : list string) : Prop :=
  NoDup l /\ (forall o, In o l <-> In o all) /\
  forall i j a b, nth_error l i = Some a -> nth_error l j = Some b -> (i < j)%nat ->
    exists i' j', nth_error all i' = Some a /\ nth_error all j' = Some b /\ (i' < j')%nat /\ forall k, (k < j')%nat -> nth_error all k <> Some b.

(** No parameter is combined with a parameter or a number only: such a product is a number. *)
Fixpoint has_function (e : expr) : bool :=
  match e with EObj (OFn _) => true | EObj _ => false | EAdd a b | EMul a b => has_function a || has_function b end.
Fixpoint has_param (e : expr) : bool :=
  match e with EObj (OPar _) => true | EObj _ => false | EAdd a b | EMul a b => has_param a || has_param b end.
Fixpoint lively (e : expr) : bool :=
  match e with
  | EObj _ => true
  | EAdd a b | EMul a b => lively a && lively b && (has_function a || has_function b || negb (has_param a || has_param b))
  end.

(** A parameter and a function do what their parameters say. *)
Definition same_on (l : list string) (s s' : store) : Prop := forall n, In n l -> s n = s' n.
Definition honest (o : obj) : Prop :=
  match o with
  | OFn (Simple obs ps body) => forall s s' v, same_on (deps_of o) s s' -> body s v = body s' v
  | OPar p => forall s s', same_on (p_deps p) s s' -> p_val p s = p_val p s'
  | _ => True
  end.

(** The names under which a parameter is known *)
Definition keyed_of (o : obj) : list (string * param) :=
  match o with OFn (Simple _ ps _) => ps | OPar p => [(p_name p, p)] | _ => [] end.
Definition keyed (e : expr) : list (string * param) := concat (map keyed_of (operands e)).
(** One parameter per name in a product *)
Definition one_per_name (e : expr) : Prop :=
  forall k p q, In (k, p) (keyed e) -> In (k, q) (keyed e) -> p = q.
(** A function that is not a sum or product of functions *)
Fixpoint direct (e : expr) : bool :=
  match e with
  | EObj _ => true
  | EAdd a b => negb (has_function a || has_function b)
  | EMul a b => negb (has_function a && has_function b) && direct a && direct b
  end.
(** Where a function is multiplied by a parameter or number, it is a direct one, and the names are unique. *)
Fixpoint faithful (e : expr) : Prop :=
  match e with
  | EObj _ => True
  | EAdd a b => faithful a /\ faithful b
  | EMul a b => faithful a /\ faithful b /\ (xorb (has_function a) (has_function b) = true -> direct a && direct b = true /\ one_per_name (EMul a b))
  end.
(** Functions as Python makes them: no observable or key twice; the names of constants are not taken. *)
Definition well_made (o : obj) : Prop :=
  match o with
  | OFn (Simple obs ps _) => NoDup obs /\ NoDup (map fst ps) /\ ~ In "FIXED_autoparam" (map fst ps)
  | OPar p => p_name p <> "FIXED_autoparam"
  | ONum _ => True
  | _ => False
  end.

(** Sums are of functions only, or of parameters and numbers only. *)
Fixpoint addable (e : expr) : bool :=
  match e with
  | EObj _ => true
  | EAdd a b => addable a && addable b && Bool.eqb (has_function a) (has_function b)
  | EMul a b => addable a && addable b
  end.
(** No parameter is called like an argument of the constructor of a function. *)
Definition free_names (e : expr) : Prop := forall k p, In (k, p) (keyed e) -> ~ In k ["self"; "obs"; "func"].
