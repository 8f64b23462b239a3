(** Specification of the numeric integration. *)
From Verif Require Import Base.
From Coq Require Import Reals.
#[local] Open Scope R_scope.

(** Polynomials of degree at most three, and antiderivatives *)
Definition cubic (c0 c1 c2 c3 : R) (x : R) : R := c0 + c1 * x + c2 * x ^ 2 + c3 * x ^ 3.
Definition antiderivative_of (F f : R -> R) : Prop := forall x, derivable_pt_lim F x (f x).

(** The plain average of a list of numbers *)
Fixpoint sum_of (l : list R) : R := match l with [] => 0 | x :: r => x + sum_of r end.
Definition average (l : list R) : R := sum_of l / INR (length l).

(** The point [u] of the unit cube moved into the box, coordinate by coordinate *)
Fixpoint in_box (lower upper x : list R) : Prop :=
  match lower, upper, x with
  | [], [], [] => True
  | l :: lower, u :: upper, x :: xs => l <= x <= u /\ in_box lower upper xs
  | _, _, _ => False
  end.
Fixpoint volume (lower upper : list R) : R :=
  match lower, upper with
  | l :: lower, u :: upper => (u - l) * volume lower upper
  | _, _ => 1
  end.

(** ** Monte Carlo over one box
    The point [u] of the unit cube moved into the box between [a] and [b]: *)
Fixpoint place (a b u : list R) : list R :=
  match a, b, u with
  | l :: a, h :: b, x :: u => (l + x * (h - l)) :: place a b u
  | _, _, _ => []
  end.
(** The values at the points number [from], ..., [from + n - 1] of a sequence in the unit cube *)
Definition values (halton : nat -> list R) (f : list R -> R) (a b : list R) (from n : nat) : list R :=
  map (fun i => f (place a b (halton i))) (seq from n).
(** The error estimated after [k] batches of [n] points: from the average of the standard deviations in the batches *)
Definition deviation (l : list R) : R := sqrt (average (map (fun y => (y - average l) ^ 2) l)).
Definition spread halton f a b (n k : nat) : R :=
  average (map (fun j => deviation (values halton f a b (j * n) n)) (seq 0 k)).
Definition estimated_error halton f a b (n_axes n k : nat) : R :=
  Rmin (spread halton f a b n k * ln (INR (k * n)) ^ n_axes / INR (k * n)) (spread halton f a b n k / sqrt (INR (k * n))) / 10.
