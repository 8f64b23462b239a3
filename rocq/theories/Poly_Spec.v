(** Specification for the polynomial PDFs: the polynomials with these names, and series in them *)
From Coq Require Import Reals List.
From Coquelicot Require Import Hierarchy Derive.
Import ListNotations.
#[local] Open Scope R_scope.

(** The sum of c_n f(n) over the coefficients *)
Fixpoint series_from (n : nat) (f : nat -> R) (cs : list R) : R :=
  match cs with [] => 0 | c :: r => c * f n + series_from (S n) f r end.
Definition series (f : nat -> R) (cs : list R) : R := series_from 0 f cs.

(** A function, its first and its second derivative *)
Definition twice (f f' f'' : R -> R) : Prop := (forall x, is_derive f x (f' x)) /\ (forall x, is_derive f' x (f'' x)).
(** The solution of Legendre's equation that is one at one *)
Definition legendre_polynomial (n : nat) (f : R -> R) : Prop :=
  f 1 = 1 /\ exists f' f'', twice f f' f'' /\ forall x, (1 - x * x) * f'' x - 2 * x * f' x + INR n * (INR n + 1) * f x = 0.
(** The solution of Laguerre's equation that is one at zero *)
Definition laguerre_polynomial (n : nat) (f : R -> R) : Prop :=
  f 0 = 1 /\ exists f' f'', twice f f' f'' /\ forall x, x * f'' x + (1 - x) * f' x + INR n * f x = 0.
(** The n-th derivative of exp(-x^2) is (-1)^n f(x) exp(-x^2) *)
Definition hermite_polynomial (n : nat) (f : R -> R) : Prop :=
  forall x, is_derive_n (fun t => exp (- (t * t))) n x ((-1) ^ n * f x * exp (- (x * x))).
(** The Bernstein polynomial number k of degree n *)
Definition bernstein_polynomial (n k : nat) (x : R) : R := Binomial.C n k * x ^ k * (1 - x) ^ (n - k).
(** The place of a point of the space at t of [-1, 1] and of [0, 1] *)
Definition at_pm (lo hi t : R) : R := lo + (t + 1) / 2 * (hi - lo).
Definition at_01 (lo hi t : R) : R := lo + t * (hi - lo).
