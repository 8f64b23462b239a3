(** Specification vocabulary for parameters and temporary settings. *)
From Verif Require Import Base Param_Model.

(** The usual order on extended numbers; NaN is not comparable. *)
Inductive le_num : num -> num -> Prop :=
| le_fin x y : (x <= y)%Q -> le_num (Fin x) (Fin y)
| le_low b : b <> NaN -> le_num NInf b
| le_high a : a <> NaN -> le_num a PInf.

(** [v] respects the limits of [p] that are set. *)
Definition in_limits (p : param) (v : num) : Prop :=
  (forall l, p_lower p = Some l -> le_num (Fin l) v) /\ (forall u, p_upper p = Some u -> le_num v (Fin u)).

Definition ordered_limits (p : param) : Prop :=
  forall l u, p_lower p = Some l -> p_upper p = Some u -> (l <= u)%Q.

(** [r] is [v] moved to the nearest limit. *)
Definition clipped (p : param) (v r : num) : Prop :=
  (in_limits p v /\ r = v)
  \/ (exists l, p_lower p = Some l /\ ~ le_num (Fin l) v /\ r = Fin l)
  \/ (exists u, p_upper p = Some u /\ ~ le_num v (Fin u) /\ r = Fin u).

(** The number written by a statement never is NaN. *)
Definition call_no_nan (c : call) : Prop :=
  match c with
  | CSet _ v => v <> NaN
  | CSetValues _ vs => ~ In NaN vs
  | _ => True
  end.
Fixpoint no_nan (p : prog) : Prop :=
  match p with
  | Seq a b | Try a b => no_nan a /\ no_nan b
  | Do c => call_no_nan c
  | With c b => call_no_nan c /\ no_nan b
  | Assign _ v | Randomize _ v => v <> NaN
  | _ => True
  end.

(** The program does not write the value of parameter [i]. *)
Definition call_leaves (i : nat) (c : call) : Prop :=
  match c with
  | CSet j _ => j <> i
  | CSetValues ps _ => ~ In i ps
  | _ => True
  end.
Fixpoint leaves (i : nat) (p : prog) : Prop :=
  match p with
  | Seq a b | Try a b => leaves i a /\ leaves i b
  | Do c => call_leaves i c
  | With c b => call_leaves i c /\ leaves i b
  | Assign j _ | Randomize j _ => j <> i
  | _ => True
  end.

(** Tolerance: one part in 1e5 of the width of the limits, but at most 1e-7. *)
Definition tolerance (p : param) (t : Q) : Prop :=
  match p_lower p, p_upper p with
  | Some l, Some u =>
      let w := ((1 # 100000) * (u - l))%Q in
      (w <= 1 # 10000000 -> t == w)%Q /\ (1 # 10000000 <= w -> t == 1 # 10000000)%Q
  | _, _ => (t == 1 # 10000000)%Q
  end.
(** [q] is beyond a limit by at least the tolerance. *)
Definition beyond (p : param) (q : Q) : Prop :=
  exists t, tolerance p t /\
    ((exists l, p_lower p = Some l /\ (q <= l - t)%Q) \/ (exists u, p_upper p = Some u /\ (u + t <= q)%Q)).

(** Two parameters look the same to a user. *)
Definition same_param (p p' : param) : Prop :=
  p_name p' = p_name p /\ p_value p' = p_value p /\ p_lower p' = p_lower p /\ p_upper p' = p_upper p
  /\ p_floating p' = p_floating p.
Definition same_run (r r' : runstate) : Prop :=
  r_graph r' = r_graph r /\ r_backend_eager r' = r_backend_eager r /\ r_autograd r' = r_autograd r
  /\ r_numgrad r' = r_numgrad r /\ r_auto_update r' = r_auto_update r
  /\ (forall k, lookup String.eqb k (r_jit r') = lookup String.eqb k (r_jit r)).
Definition same_state (st st' : state) : Prop :=
  (forall i, same_param (st_par st i) (st_par st' i)) /\ same_run (st_run st) (st_run st')
  /\ (forall d, st_weights st' d = st_weights st d).

(** Nothing but the setting of [c] differs. *)
Definition same_but (c : call) (st st' : state) : Prop :=
  (forall j, match c with CSet i _ => j <> i | CSetValues ps _ => ~ In j ps | _ => True end ->
     st_par st' j = st_par st j)
  /\ (forall j, p_name (st_par st' j) = p_name (st_par st j) /\ p_lower (st_par st' j) = p_lower (st_par st j)
        /\ p_upper (st_par st' j) = p_upper (st_par st j) /\ p_floating (st_par st' j) = p_floating (st_par st j))
  /\ match c with CGraph _ | CAutograd _ | CDisableUpdate _ => True | _ => st_run st' = st_run st end
  /\ (forall d, match c with CWeights d' _ => d <> d' | _ => True end -> st_weights st' d = st_weights st d).

(** The limits leave room, and a limited parameter is not at an infinity. *)
Definition has_room (p : param) : Prop :=
  (forall l u, p_lower p = Some l -> p_upper p = Some u -> (l < u)%Q)
  /\ (p_lower p <> None \/ p_upper p <> None -> p_value p <> PInf /\ p_value p <> NInf).

(** The switches agree with the graph mode, which is not a dictionary. *)
Definition run_consistent (r : runstate) : Prop :=
  (forall k, In k (map fst default_jit) -> exists b, lookup String.eqb k (r_jit r) = Some b)
  /\ r_numgrad r = negb (r_autograd r)
  /\ match r_graph r with
     | GTrue => r_backend_eager r = false /\ forall k b, lookup String.eqb k (r_jit r) = Some b -> b = true
     | GFalse => r_backend_eager r = true /\ forall k b, lookup String.eqb k (r_jit r) = Some b -> b = false
     | GAuto => r_backend_eager r = false
                /\ forall k b, lookup String.eqb k (r_jit r) = Some b -> b = default_of k
     | _ => False
     end.
Definition ordinary (st : state) : Prop :=
  (forall i, has_room (st_par st i)) /\ run_consistent (st_run st).

(** A program made of context managers, exceptions and handlers only: no permanent change. A
    set_values call has values its parameters accept; graph modes are not dictionaries. *)
Inductive temporary (st : state) : prog -> Prop :=
| t_skip : temporary st Skip
| t_seq a b : temporary st a -> temporary st b -> temporary st (Seq a b)
| t_raise e : temporary st (Raise e)
| t_try a b : temporary st a -> temporary st b -> temporary st (Try a b)
| t_set i v b : temporary st b -> temporary st (With (CSet i v) b)
| t_sets ps vs b : length ps = length vs ->
    (forall i v, In (i, v) (combine ps vs) -> forall st1, set_value st i v = (st1, Some ValueError) -> False) ->
    temporary st b -> temporary st (With (CSetValues ps vs) b)
| t_graph g b : (g = GTrue \/ g = GFalse \/ g = GAuto) -> temporary st b -> temporary st (With (CGraph g) b)
| t_autograd x b : temporary st b -> temporary st (With (CAutograd x) b)
| t_update x b : temporary st b -> temporary st (With (CDisableUpdate x) b)
| t_weights d w b : temporary st b -> temporary st (With (CWeights d w) b).

(** A parameter refuses a finite value beyond a limit, and an infinite one if it has a limit. *)
Definition refused (p : param) (v : num) : Prop :=
  match v with
  | Fin q => beyond p q
  | PInf | NInf => p_lower p <> None \/ p_upper p <> None
  | NaN => False
  end.

(** The first [k] of the parameters have got their values (the last one if a parameter is given
    twice) and nothing else changed. *)
Definition updated_up_to (k : nat) (ids : list nat) (vs : list num) (st st' : state) : Prop :=
  (forall j i v, j < k -> nth_error ids j = Some i -> nth_error vs j = Some v ->
     (forall j', j < j' < k -> nth_error ids j' <> Some i) ->
     st_par st' i = mkParam (p_name (st_par st i)) v (p_lower (st_par st i)) (p_upper (st_par st i))
                      (p_floating (st_par st i)))
  /\ (forall i, ~ In i (firstn k ids) -> st_par st' i = st_par st i)
  /\ st_run st' = st_run st /\ st_weights st' = st_weights st.

(** The value a mapping holds for parameter [i] called [name]: under the parameter itself, else
    under its name. *)
Definition holds (m : list (key * num)) (i : nat) (name : string) (v : num) : Prop :=
  In (KParam i, v) m \/ ((forall w, ~ In (KParam i, w) m) /\ In (KName name, v) m).
Definition absent (m : list (key * num)) (i : nat) (name : string) : Prop :=
  (forall w, ~ In (KParam i, w) m) /\ (forall w, ~ In (KName name, w) m).
(** The parameters found in a mapping, in order, with their values. *)
Inductive found (H : nat -> num -> Prop) (A : nat -> Prop) : list nat -> list nat -> list num -> Prop :=
| f_nil : found H A [] [] []
| f_yes i v l ids vs : H i v -> found H A l ids vs -> found H A (i :: l) (i :: ids) (v :: vs)
| f_no i l ids vs : A i -> found H A l ids vs -> found H A (i :: l) ids vs.
