(** * PDFs that wrap a distribution of TensorFlow Probability (C80)

    Models zfit/models/dist_tfp.py, with the analytic integral and the sampling of core/basemodel.py. Simplifications, throughout:
    - values are real numbers, and there is one event at a time for densities; Coq's x / 0 is 0 where floats give inf or NaN;
    - [Rpower x y] is exp (y * ln x), the power of a positive number;
    - the distributions themselves (density, cdf, quantile) are those documented by TensorFlow Probability; densities that need the
      gamma function are without their constant factor, which does not depend on the event. *)
From Coq Require Import Reals List.
From Coquelicot Require Import Coquelicot.
From Verif Require Import Base.
Import ListNotations.
#[local] Open Scope R_scope.

(** ** Distributions of TensorFlow Probability *)

Definition tfp_normal (loc scale x : R) : R := exp (- (((x - loc) / scale) ^ 2 / 2)) / (scale * sqrt (2 * PI)).
(** The support is half open. *)
Definition tfp_uniform (low high x : R) : R :=
  if Rlt_dec x low then 0 else if Rlt_dec x high then 1 / (high - low) else 0.
Definition tfp_cauchy (loc scale x : R) : R := 1 / (PI * scale * (1 + ((x - loc) / scale) ^ 2)).
Definition tfp_lognormal (loc scale x : R) : R := tfp_normal loc scale (ln x) / x.
Definition tfp_chi2 (df x : R) : R := Rpower x (df / 2 - 1) * exp (- (x / 2)).
Definition tfp_student (df loc scale x : R) : R := Rpower (1 + ((x - loc) / scale) ^ 2 / df) (- ((df + 1) / 2)) / scale.
(** The scale is multiplied with the skewness above the mode and divided by it below. *)
Definition tfp_two_piece_normal (loc scale skewness x : R) : R :=
  let y := (x - loc) / scale in
  let y := if Rlt_dec y 0 then y * skewness else y / skewness in
  sqrt 2 / (sqrt PI * scale * (skewness + 1 / skewness)) * exp (- (y ^ 2 / 2)).
Definition tfp_gamma (concentration rate x : R) : R := Rpower x (concentration - 1) * exp (- (rate * x)).
Definition tfp_shift (shift : R) (prob : R -> R) (x : R) : R := prob (x - shift).
(** arcsinh from the standard library *)
Definition tfp_johnson_su (skewness tailweight loc scale x : R) : R :=
  let y := (x - loc) / scale in
  tfp_normal 0 1 (skewness + tailweight * arcsinh y) * (tailweight / (scale * sqrt (1 + y ^ 2))).
Definition abs_power (x p : R) : R := if Req_EM_T x 0 then 0 else Rpower (Rabs x) p.
Definition tfp_generalized_normal (loc scale power x : R) : R := exp (- abs_power ((x - loc) / scale) power) / scale.

(** ** The PDFs: which parameters are handed over *)

(** dist_tfp.py:248-254 *)
Definition gauss (mu sigma : R) : R -> R := tfp_normal mu sigma.
(** 332-338 *)
Definition uniform (low high : R) : R -> R := tfp_uniform low high.
(** 457-462 *)
Definition cauchy (m gamma : R) : R -> R := tfp_cauchy m gamma.
(** 597-603 *)
Definition lognormal (mu sigma : R) : R -> R := tfp_lognormal mu sigma.
(** 671-677 *)
Definition chisquared (ndof : R) : R -> R := tfp_chi2 ndof.
(** 765-771 *)
Definition studentt (ndof mu sigma : R) : R -> R := tfp_student ndof mu sigma.
(** 880-884: what is refused when it is made (run eagerly) *)
Definition qgauss_accepts (q : R) : bool :=
  if Rlt_dec q 1 then false else if Rlt_dec 3 q then false else if Req_EM_T q 1 then false else true.
(** 898-907 *)
Definition qgauss (q mu sigma : R) : R -> R :=
  let df := (3 - q) / (q - 1) in
  let scale := sigma / sqrt (1 / 2 * (3 - q)) in
  tfp_student df mu scale.
(** 1011-1016 *)
Definition bifurgauss (mu sigmal sigmar : R) : R -> R :=
  let scale := sigmal * sqrt (sigmar / sigmal) in
  let skewness := sqrt (sigmar / sigmal) in
  tfp_two_piece_normal mu scale skewness.
(** 1112-1120 *)
Definition gamma_pdf (gamma beta mu : R) : R -> R := tfp_shift mu (tfp_gamma gamma (1 / beta)).
(** 1226-1229 *)
Definition johnsonsu (mu lambd gamma delta : R) : R -> R := tfp_johnson_su gamma delta mu lambd.
(** 1323-1326 *)
Definition generalizedgauss (mu sigma beta : R) : R -> R := tfp_generalized_normal mu sigma beta.

(** ** Integrals and samples *)

(** A distribution; [cdf] also for infinite limits, [quantile] is not there for all. *)
Record dist : Type := Dist { prob : R -> R; cdf : Rbar -> R; quantile : option (R -> R) }.
(** Limits of one observable: lower and upper; several for a MultiSpace. *)
Definition interval : Type := (Rbar * Rbar)%type.

Definition is_fin (l : Rbar) : bool := match l with Finite _ => true | _ => false end.
(** dist_tfp.py:109-116 [_analytic_integrate]: [assert_all_finite], then the difference of the cdf. *)
Definition integrate_one (d : dist) (l : interval) : result R :=
  if is_fin (fst l) && is_fin (snd l) then Ok (cdf d (snd l) - cdf d (fst l)) else Err InvalidArgumentError.
(** core/basemodel.py:577-585 [_limits_analytic_integrate]: several limits are refused by the decorator ([supports()]) and summed. *)
Fixpoint sum_results (l : list (result R)) : result R :=
  match l with [] => Ok 0 | r :: l => let* a := r in let* b := sum_results l in Ok (a + b) end.
Definition analytic_integrate (d : dist) (limits : list interval) : result R :=
  match limits with [l] => integrate_one d l | _ => sum_results (map (integrate_one d) limits) end.

Section Sample.
(** Random numbers in [0, 1) for each limit and event; accept-reject sampling (core/sample.py, see Sampling_Model); a multinomial
    draw of the numbers of events. *)
Variable rnd : nat -> nat -> R.
Variable accept_reject : nat -> interval -> nat -> list R.
Variable multinomial : nat -> list R -> list nat.

(** dist_tfp.py:38-61 [tfd_analytic_sample]. [uniform(minval, maxval)] is minval + u (maxval - minval). *)
Definition tfd_analytic_sample (d : dist) (i : nat) (n : nat) (l : interval) : option (list R) :=
  let lower_prob_lim := cdf d (fst l) in
  let upper_prob_lim := cdf d (snd l) in
  let prob_sample := map (fun k => lower_prob_lim + rnd i k * (upper_prob_lim - lower_prob_lim)) (seq 0 n) in
  match quantile d with Some q => Some (map q prob_sample) | None => None end.
(** core/basemodel.py:1236-1241 [_call_sample] for one limit. *)
Definition call_sample (d : dist) (i n : nat) (l : interval) : list R :=
  match tfd_analytic_sample d i n l with Some s => s | None => accept_reject i l n end.
Fixpoint sample_parts (d : dist) (i : nat) (limits : list interval) (ns : list nat) : list R :=
  match limits, ns with l :: limits, n :: ns => call_sample d i n l ++ sample_parts d (S i) limits ns | _, _ => [] end.
(** 1210-1234 [_limits_sample]: a MultiSpace has no [limits] and raises MultipleLimitsNotImplemented. *)
Definition fractions (d : dist) (limits : list interval) : result (list R) :=
  let* total := analytic_integrate d limits in
  let* subs := mapM (fun l => analytic_integrate d [l]) limits in
  Ok (map (fun s => s / total) subs).
Definition limits_sample (d : dist) (n : nat) (limits : list interval) : result (list R) :=
  match limits with
  | [l] => Ok (call_sample d 0 n l)
  | _ => let* fracs := fractions d limits in Ok (sample_parts d 0 limits (multinomial n fracs))
  end.
End Sample.

(** The distributions with a simple cdf and quantile *)
Definition uniform_cdf (low high : R) (x : Rbar) : R :=
  match x with
  | Finite x => if Rlt_dec x low then 0 else if Rlt_dec x high then (x - low) / (high - low) else 1
  | p_infty => 1 | m_infty => 0
  end.
Definition uniform_dist (low high : R) : dist :=
  Dist (uniform low high) (uniform_cdf low high) (Some (fun p => low + (high - low) * p)).
Definition cauchy_cdf (loc scale : R) (x : Rbar) : R :=
  match x with Finite x => atan ((x - loc) / scale) / PI + 1 / 2 | p_infty => 1 | m_infty => 0 end.
Definition cauchy_dist (loc scale : R) : dist :=
  Dist (cauchy loc scale) (cauchy_cdf loc scale) (Some (fun p => loc + scale * tan (PI * (p - 1 / 2)))).
