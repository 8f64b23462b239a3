(** Model of the registry of analytic integrals of a class
    (core/integration.py:591-760 [AnalyticIntegral], core/basemodel.py:147-154, 447-495). *)
From Verif Require Import Base.
#[local] Open Scope nat_scope.

(** A bound of a registered or requested limit: a number, or one of the wildcards ANY, ANY_LOWER,
    ANY_UPPER, which behave alike (core/space.py:82-125). *)
Inductive bound := Any | Num (q : Q).

(** Rectangular limits of a [Space] by axis. Observables, functional limits and binnings are not
    modelled: integrals are registered for axes. *)
Definition box := list (nat * (bound * bound)).
Definition axes_of (b : box) : list nat := map fst b.
Definition bounds_at (b : box) (a : nat) : option (bound * bound) :=
  option_map snd (find (fun p => Nat.eqb (fst p) a) b).

Definition Qabs' (x : Q) : Q := if Qle_bool 0 x then x else (- x)%Q.
Definition Qlt_bool' (x y : Q) : bool := negb (Qle_bool y x).

(** core/space.py:774-800 [less_equal_limits]: elementwise [<=] of the lower and of the upper limits;
    any comparison with a wildcard is true (93-107). If one of the limits consists of
    wildcards only the answer is true at once, which is the same. *)
Definition bound_le (x y : bound) : bool :=
  match x, y with Num a, Num b => Qle_bool a b | _, _ => true end.
(** core/space.py:2581-2675 [compare_multispace] with that comparator, for two spaces with one box
    each: the axes agree as sets, and the limits are compared axis by axis. *)
Definition on_axes (cmp : bound * bound -> bound * bound -> bool) (b1 b2 : box) : bool :=
  set_eqb Nat.eqb (axes_of b1) (axes_of b2)
  && forallb (fun p => match bounds_at b2 (fst p) with Some iv => cmp (snd p) iv | None => false end) b1.
Definition box_le (b1 b2 : box) : bool :=
  on_axes (fun i j => bound_le (fst i) (fst j) && bound_le (snd i) (snd j)) b1 b2.

(** z/unstable.py:20-52 [allclose_anyaware], elementwise: [x] of the first limits, [y] of the second *)
Definition bound_close (x y : bound) : bool :=
  match x, y with
  | Num a, Num b => Qle_bool (Qabs' (a - b)) (Qabs' b * (1 # 100000) + (1 # 100000000))%Q
  | _, _ => true
  end.
(** core/space.py:2554-2578 [compare_spaces_equal_static] *)
Definition bound_near (x y : bound) : bool :=
  match x, y with Num a, Num b => Qlt_bool' (Qabs' (a - b)) (1 # 100000000) | _, _ => false end.
Definition has_any (b : box) : bool :=
  existsb (fun p => match snd p with (Num _, Num _) => false | _ => true end) b.
(** core/space.py:2539-2551 [equal_space]: with a wildcard in one of them the wildcard-aware comparison is
    used (turning the limits into numbers fails, which leaves [has_any] true). *)
Definition box_eq (b1 b2 : box) : bool :=
  if has_any b1 || has_any b2
  then on_axes (fun i j => bound_close (fst i) (fst j) && bound_close (snd i) (snd j)) b1 b2
  else on_axes (fun i j => bound_near (fst i) (fst j) && bound_near (snd i) (snd j)) b1 b2.

(** core/integration.py:749-760 [Integral]. Functions are numbered. The priority may be a float. *)
Record integral := mkIntegral { i_limits : box; i_prio : Q; i_func : nat }.

(** [self._integrals]: for each frozenset of axes a dict from limits to [Integral]. All limits over
    the same axes have the same hash (core/space.py:741-746, 1196-1198), hence a key is found by
    comparing with the stored keys in the order of insertion; a key that is found keeps its place
    and stays the first object, only the value changes. *)
Definition slot := list (box * integral).
Definition registry := list (list nat * slot).
(** core/basemodel.py:153: every class starts with an empty registry of its own. *)
Definition new_registry : registry := [].

Fixpoint slot_set (s : slot) (k : box) (i : integral) : slot :=
  match s with
  | [] => [(k, i)]
  | (k0, i0) :: r => if box_eq k0 k then (k0, i) :: r else (k0, i0) :: slot_set r k i
  end.
(** Looking up a key of the dict [k], given by its position: an earlier key that equals it wins, then the object itself. *)
Fixpoint slot_get (s : slot) (n : nat) (k : box) : option integral :=
  match s, n with
  | [], _ => None
  | (_, i0) :: _, 0 => Some i0
  | (k0, i0) :: r, S n => if box_eq k0 k then Some i0 else slot_get r n k
  end.

(** core/integration.py:646-686 [register] *)
Fixpoint register (reg : registry) (i : integral) : registry :=
  match reg with
  | [] => [(axes_of (i_limits i), [(i_limits i, i)])]
  | (ax, s) :: r => if set_eqb Nat.eqb ax (axes_of (i_limits i)) then (ax, slot_set s (i_limits i) i) :: r
                    else (ax, s) :: register r i
  end.
Definition register_all (h : list integral) : registry := fold_left register h new_registry.

(** core/integration.py:613-626 [_get_max_axes_limits] without [out_of_axes], which is how
    [get_max_integral] is called by [integrate] (717): all axes are tried, the longest first (the
    order among axes of the same length is that of a Python set; only one of them can match, so it
    does not matter and the order of insertion is used); the first with
    a match is taken. The positions of the keys are kept to look them up. *)
Definition matched (s : slot) (req : box) : list (nat * box) :=
  map (fun p => (fst p, fst (snd p)))
      (filter (fun p => box_le req (i_limits (snd (snd p)))) (combine (seq 0 (length s)) s)).
Fixpoint insert_len (x : list nat * slot) (l : registry) : registry :=
  match l with
  | [] => [x]
  | y :: r => if Nat.leb (length (fst y)) (length (fst x)) then x :: l else y :: insert_len x r
  end.
Definition by_length (reg : registry) : registry := fold_right insert_len [] reg.
Fixpoint first_match (reg : registry) (req : box) : list integral :=
  match reg with
  | [] => []
  | (_, s) :: r =>
      match matched s req with
      | [] => first_match r req
      | ms => flat_map (fun m => match slot_get s (fst m) (snd m) with Some i => [i] | None => [] end) ms
      end
  end.
(** [max(integrals, key=priority, default=None)]: the first of the largest *)
Fixpoint max_prio (best : integral) (l : list integral) : integral :=
  match l with
  | [] => best
  | i :: r => max_prio (if Qlt_bool' (i_prio best) (i_prio i) then i else best) r
  end.
(** core/integration.py:628-644 [get_max_integral] *)
Definition get_max_integral (reg : registry) (req : box) : option integral :=
  match first_match (by_length reg) req with
  | [] => None
  | i :: r => Some (max_prio i r)
  end.
(** core/integration.py:688-721 [integrate], up to the call of the function: [None] stands for
    AnalyticIntegralNotImplemented. The request is a list of boxes; a space with more than one box is less or equal to
    no space with one (core/space.py:2613-2615), and registered limits have one. *)
Definition find_integral (reg : registry) (req : list box) : option integral :=
  match req with
  | [b] => match find (fun p => set_eqb Nat.eqb (fst p) (axes_of b)) reg with
           | None => None
           | Some _ => get_max_integral reg b
           end
  | _ => None
  end.
