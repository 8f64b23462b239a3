(** What the properties about the derivatives of a loss say, without reference to how the model
    computes them. *)
From Verif Require Import Base Der_Model.

(** The values of all parameters with those of [ps] replaced by [xs]. *)
Fixpoint substitute (ps : list par) (xs : list Q) (vals : list Q) : list Q :=
  match ps, xs with
  | Indep i :: ps', x :: xs' => substitute ps' xs' (update vals i x)
  | _, _ => vals
  end.

(** What a procedure that asks for values of a function [f] returns, if nothing but [f] is there,
    and the points it asks for. *)
Fixpoint answer {R} (f : list Q -> result Q) (s : strategy R) : result R :=
  match s with
  | Return r => Ok r
  | Ask x k => match f x with Err e => Err e | Ok y => answer f (k y) end
  end.
Fixpoint asked {R} (f : list Q -> result Q) (s : strategy R) : list (list Q) :=
  match s with
  | Return _ => []
  | Ask x k => x :: match f x with Err _ => [] | Ok y => asked f (k y) end
  end.

(** A point has an allowed value for each of the parameters. *)
Definition allowed (c : cell) (x : Q) : Prop :=
  (forall l, c_low c = Some l -> (l <= x)%Q) /\ (forall u, c_up c = Some u -> (x <= u)%Q).
Definition inside (st : store) (ps : list par) (x : list Q) : Prop :=
  Forall2 (fun p v => forall i c, p = Indep i -> nth_error st i = Some c -> allowed c v) ps x.

(** Independent parameters that exist, each only once. *)
Definition proper (st : store) (ps : list par) : Prop :=
  NoDup ps /\ forall p, In p ps -> exists i, p = Indep i /\ i < length st.

(** The central differences that numdifftools uses, with any steps [h] and any weights [w] (the
    weights of the extrapolation to the step zero have the sum one): the derivative with respect to
    the i-th coordinate is approximated by the sum of [w * (f(x + h e_i) - f(x - h e_i)) / (2 h)]. *)
Fixpoint ask_all {R} (xs : list (list Q)) (k : list Q -> strategy R) : strategy R :=
  match xs with
  | [] => k []
  | x :: r => Ask x (fun y => ask_all r (fun ys => k (y :: ys)))
  end.
Fixpoint map2 {A B C} (f : A -> B -> C) (l : list A) (r : list B) : list C :=
  match l, r with x :: l', y :: r' => f x y :: map2 f l' r' | _, _ => [] end.
Definition shifted (x : list Q) (h : Q) : list (list Q) :=
  map (fun i => update x i (nth i x 0 + h)%Q) (seq 0 (length x)).
Fixpoint extrapolate (steps : list (Q * Q)) (x : list Q) (acc : list Q) : strategy (list Q) :=
  match steps with
  | [] => Return acc
  | (w, h) :: r =>
      ask_all (shifted x h) (fun up =>
      ask_all (shifted x (- h)) (fun down =>
      extrapolate r x (map2 (fun a d => a + w * d)%Q acc
                         (map2 (fun p m => (p - m) / (2 * h))%Q up down))))
  end.
Definition central (steps : list (Q * Q)) (x : list Q) : strategy (list Q) :=
  extrapolate steps x (map (fun _ => 0%Q) x).
Definition sumQ (l : list Q) : Q := fold_right Qplus 0%Q l.
Definition good_steps (steps : list (Q * Q)) : Prop :=
  (sumQ (map fst steps) == 1)%Q /\ forall w h, In (w, h) steps -> (0 < h)%Q.

(** In the i-th coordinate, from the point [x], the function [g] is a parabola with the
    derivative [d] at [x]. *)
Definition parabola (g : list Q -> Q) (x : list Q) (i : nat) (d : Q) : Prop :=
  exists c, forall t, (g (update x i (nth i x 0 + t)) == g x + d * t + c * t * t)%Q.

(** The three ways to get a derivative. *)
Inductive method := Given | Numerical | Automatic.
