(** What the properties of the Levenberg-Marquardt minimiser (C73) say, independently of how it
    works. *)
From Verif Require Import Base LM_Model.

(** Values of a loss: [None] if it is infinite or NaN. A minimum is to be found: infinite is worse
    than everything. *)
Definition at_most (a : Q) (b : option Q) : Prop := match b with Some b => (a <= b)%Q | None => True end.
Definition not_better (a b : option Q) : Prop :=
  match a with None => True | Some a => ~ at_most a b end.

(** A history that never goes up, from a first value on. *)
Fixpoint never_up (first : option Q) (l : list Q) : Prop :=
  match l with [] => True | x :: r => at_most x first /\ never_up (Some x) r end.

(** The evaluator gives the values of the loss [f] at the values the parameters show. *)
Definition tells_loss {EV} (ev_value : EV -> vec -> result (EV * option Q))
    (ev_value_gradient : EV -> vec -> result (EV * (option Q * vec))) (clip : vec -> vec) (f : vec -> option Q) : Prop :=
  (forall e p e' v, ev_value e p = Ok (e', v) -> v = f (clip p)) /\
  (forall e p e' v g, ev_value_gradient e p = Ok (e', (v, g)) -> v = f (clip p)).

(** ** Quadratic forms *)
Fixpoint sum_to (n : nat) (f : nat -> Q) : Q :=
  match n with 0 => 0%Q | S n => (sum_to n f + f n)%Q end.
Definition ent (m : mat) (i j : nat) : Q := nth j (nth i m []) 0%Q.
Definition coord (v : vec) (i : nat) : Q := nth i v 0%Q.
Definition square (n : nat) (m : mat) : Prop := length m = n /\ forall i, i < n -> length (nth i m []) = n.
(** x^T m x, x^T x, x^T y *)
Definition form (n : nat) (m : mat) (x : nat -> Q) : Q :=
  sum_to n (fun i => sum_to n (fun j => (x i * ent m i j * x j)%Q)).
Definition norm2 (n : nat) (x : nat -> Q) : Q := sum_to n (fun i => (x i * x i)%Q).
Definition inner (n : nat) (x y : nat -> Q) : Q := sum_to n (fun i => (x i * y i)%Q).
Definition nonnegative (n : nat) (m : mat) : Prop := forall x, (0 <= form n m x)%Q.

(** [x] solves m x = b. *)
Definition solves (n : nat) (m : mat) (b x : vec) : Prop :=
  length x = n /\ forall i, i < n -> (sum_to n (fun j => ent m i j * coord x j) == coord b i)%Q.
Definition right_solver (n : nat) (solve : mat -> vec -> result vec) : Prop :=
  forall m b x, square n m -> length b = n -> solve m b = Ok x -> solves n m b x.

(** The loss [f] does not exceed its expansion to second order at [p]. *)
Definition below_expansion (n : nat) (f : vec -> option Q) (p : vec) (v : Q) (g : vec) (H : mat) : Prop :=
  f p = Some v /\
  forall h, length h = n -> exists w, f (vec_add p h) = Some w /\
    (w <= v + inner n (coord g) (coord h) + form n H (coord h) / 2)%Q.

(** The dampings L, 11 L, 121 L, ... *)
Fixpoint scaled (L : Q) (i : nat) : Q := match i with 0 => L | S i => scaled (L * 11) i end.

(** ** The choice of a step *)

(** A point tried: the damping, the step and the loss there. *)
Record trial : Type := Trial { tr_damping : Q; tr_step : vec; tr_value : option Q }.
(** The value improved on the first one by an amount between [rmin] and [rmax] times the amount
    expected (both zero counts as expected). *)
Definition safe (rmin rmax : Q) (init : option Q) (g : vec) (H : mat) (t : trial) : Prop :=
  exists i c, init = Some i /\ tr_value t = Some c /\
    let h := tr_step t in
    let expected := (- dot h (mat_vec (damped_hess H (tr_damping t)) h) - 2 * dot h g)%Q in
    ((expected == 0)%Q /\ (i == c)%Q) \/
    (~ (expected == 0)%Q /\ (rmin <= (i - c) / expected)%Q /\ ((i - c) / expected <= rmax)%Q).
Definition improves (init : option Q) (t : trial) : Prop :=
  exists c, tr_value t = Some c /\ forall i, init = Some i -> (c < i)%Q.
Definition value_at_least (c : Q) (t : trial) : Prop := forall c', tr_value t = Some c' -> (c <= c')%Q.
(** Each damping is eleven times the one before or a ninth of it. *)
Fixpoint dampings_follow (L : Q) (l : list trial) : Prop :=
  match l with
  | [] => True
  | t :: r => tr_damping t = L /\ (dampings_follow (L * 11) r \/ dampings_follow (L / 9) r)
  end.
