(** * C71: what the Crystal Ball and GaussExpTail PDFs mean

    Written from the documentation of the classes (zfit/models/physics.py:246-263, 352-376, 485-515, 733-742, 824-840), without the model. *)
From Coq Require Import Reals.
From Coquelicot Require Import Coquelicot.
#[local] Open Scope R_scope.

(** The documented formula of the Crystal Ball. (A and B are those of the documentation; ^ is a real power.) *)
Definition cb_A (alpha n : R) : R := Rpower (n / Rabs alpha) n * exp (- (Rabs alpha * Rabs alpha) / 2).
Definition cb_B (alpha n : R) : R := n / Rabs alpha - Rabs alpha.
Definition is_crystal_ball (mu sigma alpha n : R) (f : R -> R) : Prop := forall x,
  ((x - mu) / sigma >= - alpha -> f x = exp (- ((x - mu) * (x - mu)) / (2 * (sigma * sigma)))) /\
  ((x - mu) / sigma < - alpha -> f x = cb_A alpha n * Rpower (cb_B alpha n - (x - mu) / sigma) (- n)).
(** The documented formula of the double sided ones (with one sigma for both sides: DoubleCB) *)
Definition is_double_crystal_ball (mu sigmal alphal nl sigmar alphar nr : R) (f : R -> R) : Prop := forall x,
  ((x - mu) / sigmal < - alphal -> f x = cb_A alphal nl * Rpower (cb_B alphal nl - (x - mu) / sigmal) (- nl)) /\
  (- alphal <= (x - mu) / sigmal <= 0 -> f x = exp (- ((x - mu) * (x - mu)) / (2 * (sigmal * sigmal)))) /\
  (0 <= (x - mu) / sigmar <= alphar -> f x = exp (- ((x - mu) * (x - mu)) / (2 * (sigmar * sigmar)))) /\
  ((x - mu) / sigmar > alphar -> f x = cb_A alphar nr * Rpower (cb_B alphar nr + (x - mu) / sigmar) (- nr)).

(** The documented formulas of GaussExpTail and GeneralizedGaussExpTail *)
Definition is_gauss_exp_tail (mu sigma alpha : R) (f : R -> R) : Prop := forall x,
  ((x - mu) / sigma >= - alpha -> f x = exp (- ((x - mu) * (x - mu)) / (2 * (sigma * sigma)))) /\
  ((x - mu) / sigma < - alpha -> f x = exp (Rabs alpha * Rabs alpha / 2 + Rabs alpha * ((x - mu) / sigma))).
Definition is_double_gauss_exp_tail (mu sigmal alphal sigmar alphar : R) (f : R -> R) : Prop := forall x,
  ((x - mu) / sigmal < - alphal -> f x = exp (Rabs alphal * Rabs alphal / 2 + Rabs alphal * ((x - mu) / sigmal))) /\
  (- alphal <= (x - mu) / sigmal <= 0 -> f x = exp (- ((x - mu) * (x - mu)) / (2 * (sigmal * sigmal)))) /\
  (0 <= (x - mu) / sigmar <= alphar -> f x = exp (- ((x - mu) * (x - mu)) / (2 * (sigmar * sigmar)))) /\
  ((x - mu) / sigmar > alphar -> f x = exp (Rabs alphar * Rabs alphar / 2 - Rabs alphar * ((x - mu) / sigmar))).

(** The mirror image at mu *)
Definition mirrored (mu : R) (f g : R -> R) : Prop := forall x, f (mu + x) = g (mu - x).

(** f is a density on the range once divided by its integral there *)
Definition normalised_by (f : R -> R) (lower upper integral : R) : Prop :=
  0 < integral /\ (forall x, 0 <= f x / integral) /\ is_RInt (fun x => f x / integral) lower upper 1.

(** Exponents for which the code has a formula without an approximation *)
Definition exponent_ok (n : R) : Prop := 0 < n /\ (n = 1 \/ 1 / 100000 <= Rabs (n - 1)).
