(** What is said about the wrapped distributions (Tfd_Model.v): the documented shapes, and what a sample should follow. *)
From Coq Require Import Reals List.
From Coquelicot Require Import Coquelicot.
From Verif Require Import Base Tfd_Model.
Import ListNotations.
#[local] Open Scope R_scope.

(** ** The shapes of the documentation (docstrings in zfit/models/dist_tfp.py) *)
(** 204-212 *)
Definition doc_gauss (mu sigma x : R) : R := exp (- ((x - mu) ^ 2 / (2 * sigma ^ 2))).
(** 430-434 *)
Definition doc_cauchy (m gamma x : R) : R := 1 / (gamma * (1 + ((x - m) / gamma) ^ 2)).
(** 571-573 *)
Definition doc_lognormal (mu sigma x : R) : R := 1 / (x * sigma * sqrt (2 * PI)) * exp (- ((ln x - mu) ^ 2 / (2 * sigma ^ 2))).
(** 641-643 *)
Definition doc_chisquared (d x : R) : R := Rpower x (d / 2 - 1) * exp (- x / 2).
(** 715-717 *)
Definition doc_studentt (d mu sigma x : R) : R := Rpower (1 + 1 / d * ((x - mu) / sigma) ^ 2) (- (d + 1) / 2).
(** 822-829, for arguments where the base is positive *)
Definition e_q (q x : R) : R := Rpower (1 + (1 - q) * x) (1 / (1 - q)).
Definition doc_qgauss (q mu sigma x : R) : R := e_q q (- ((x - mu) / sigma) ^ 2).
(** 946-957 *)
Definition doc_bifurgauss (mu sigmal sigmar x : R) : R :=
  sqrt (2 / PI) / (sigmal + sigmar) *
  (if Rlt_dec x mu then exp (- ((x - mu) ^ 2 / (2 * sigmal ^ 2))) else exp (- ((x - mu) ^ 2 / (2 * sigmar ^ 2)))).
(** 1059-1061 *)
Definition doc_gamma (gamma beta mu x : R) : R := Rpower (x - mu) (gamma - 1) * exp (- ((x - mu) / beta)).
(** 1164-1178, with the documented normalisation *)
Definition doc_johnsonsu (mu lambd gamma delta x : R) : R :=
  exp (- (1 / 2) * (gamma + delta * arcsinh ((x - mu) / lambd)) ^ 2) / (lambd * sqrt (2 * PI) * sqrt (1 + ((x - mu) / lambd) ^ 2) / delta).
(** 1270-1272, away from the mean *)
Definition doc_generalizedgauss (mu sigma beta x : R) : R := exp (- Rpower (Rabs (x - mu) / sigma) beta).

(** The same up to a constant factor, on a set of events *)
Definition same_shape (on : R -> Prop) (f g : R -> R) : Prop := exists c, 0 < c /\ forall x, on x -> f x = c * g x.
Definition everywhere (x : R) : Prop := True.

(** ** Integrals and samples *)
(** What is expected of a distribution: its cdf grows from zero to one, the quantile inverts it (also where it is flat), and the
    density integrates to it. *)
Record proper (d : dist) : Prop := {
  mono : forall a b, Rbar_le a b -> cdf d a <= cdf d b;
  bottom : cdf d m_infty = 0;
  top : cdf d p_infty = 1;
  inverse : forall q u x, quantile d = Some q -> 0 < u < 1 -> (q u <= x <-> u <= cdf d (Finite x));
  density : forall a b : R, a <= b -> is_RInt (prob d) a b (cdf d b - cdf d a)
}.
(** The probability between two limits *)
Definition mass (d : dist) (l : interval) : R := cdf d (snd l) - cdf d (fst l).
Definition sumR (l : list R) : R := fold_right Rplus 0 l.
Definition within (a b : Rbar) (x : R) : Prop := Rbar_lt a x /\ Rbar_le x b.
(** The point x, moved into the limits a, b. *)
Definition clamp (a b : Rbar) (x : R) : Rbar := if Rbar_lt_dec x a then a else if Rbar_lt_dec b x then b else Finite x.
(** The share of the probability between the limits that is below x. *)
Definition share (d : dist) (l : interval) (x : R) : R := mass d (fst l, clamp (fst l) (snd l) x) / mass d l.
(** A random number in (0, 1); zero itself has no probability. *)
Definition random (rnd : nat -> nat -> R) : Prop := forall i k, 0 < rnd i k < 1.
(** A multinomial draw, given probabilities: the numbers add up, and there is none where the probability is zero. *)
Definition is_multinomial (m : nat -> list R -> list nat) : Prop :=
  forall n probs, sumR probs = 1 -> Forall (fun p => 0 <= p) probs -> length (m n probs) = length probs /\ list_sum (m n probs) = n /\
    forall i, nth i probs 0 = 0 -> nth i (m n probs) 0%nat = 0%nat.
