(** One thing or several: zfit/util/container.py [convert_to_container], [is_container]. *)
From Coq Require Import List String Arith Bool.
From Verif Require Import Base.
Import ListNotations.
Open Scope string_scope.
Open Scope list_scope.

(** A Python object: None, or an object with its identity, its type and what an iteration over it
    gives ([None] where iterating raises a TypeError). Simplified: a generator can be iterated
    once only, here what is left in it is its [items]. *)
Inductive obj : Type := Nothing | Obj (id : nat) (type : string) (items : option (list obj)).
Definition type_of (v : obj) : string := match v with Nothing => "NoneType" | Obj _ t _ => t end.
Definition iterate (v : obj) : option (list obj) := match v with Nothing => None | Obj _ _ l => l end.
Definition same (v w : obj) : bool :=
  match v, w with Nothing, Nothing => true | Obj i _ _, Obj j _ _ => Nat.eqb i j | _, _ => false end.

(** The containers asked for in the code: list and tuple keep everything, an OrderedSet the first
    of equal elements. Simplified: objects are equal if they are the same one, and every object can
    be hashed. *)
Inductive container : Type := List_ | Tuple_ | OrderedSet_.
Definition container_type (c : container) : string :=
  match c with List_ => "list" | Tuple_ => "tuple" | OrderedSet_ => "OrderedSet" end.
Fixpoint first_ones (seen : list obj) (l : list obj) : list obj :=
  match l with
  | [] => []
  | v :: l' => if mem same v seen then first_ones seen l' else v :: first_ones (v :: seen) l'
  end.
Definition build (c : container) (l : list obj) : list obj :=
  match c with OrderedSet_ => first_ones [] l | _ => l end.

(** container.py:58-76: the types that are never taken apart. *)
Definition never_apart : list string :=
  ["str"; "Tensor"; "ndarray"; "ZfitData"; "ZfitLoss"; "ZfitModel"; "ZfitSpace"; "ZfitParameter"; "ZfitBinnedData";
   "ZfitBinning"; "PlottableHistogram"; "DataFrame"; "Series"; "Regular"; "Variable"].

(** What is given as [non_containers]: nothing, a list of types, or something else. *)
Inductive non_containers : Type := NotGiven | Given (types : list string) | Wrong.

(** What is returned: None, the object given itself, or a new container with these elements. *)
Inductive answer : Type := ANone | ASame (v : obj) | ANew (type : string) (l : list obj).

Section Convert.
(** [isinstance]: the first type is the second one or a subclass of it. *)
Variable isa : string -> string -> bool.
Definition isinstance (v : obj) (types : list string) : bool := existsb (isa (type_of v)) types.

(** container.py:77-85, with the list of types as it is then. *)
Definition into (c : container) (types : list string) (ignore : option string) (v : obj) : answer :=
  let ignored := match ignore with None => false | Some t => isa (type_of v) t end in
  if ignored then ASame v
  else
    let single := ANew (container_type c) (build c [v]) in
    if isinstance v types then single
    else match iterate v with
         | None => single
         | Some l => ANew (container_type c) (build c l)
         end.

(** container.py:20-85 [convert_to_container]: what is returned, and the list given as
    [non_containers] after the call (extended in place, 58). *)
Definition convert_to_container (c : container) (nc : non_containers) (ignore : option string) (convert_none : bool)
  (v : obj) : result answer * non_containers :=
  match nc with
  | Wrong => (Err TypeError, nc)
  | _ =>
    let types := match nc with Given l => l | _ => [] end in
    match v, convert_none with
    | Nothing, false => (Ok ANone, nc)
    | _, _ =>
      if String.eqb (type_of v) (container_type c) then (Ok (ASame v), nc)
      else
        let types' := types ++ never_apart in
        (Ok (into c types' ignore v), match nc with Given _ => Given types' | _ => nc end)
    end
  end.

(** container.py:88-99 [is_container] *)
Definition is_container (v : obj) : bool := isa (type_of v) "list" || isa (type_of v) "tuple".
End Convert.
