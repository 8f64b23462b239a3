(** * Crystal Ball and GaussExpTail PDFs (C71)

    Models zfit/models/physics.py. Simplifications, throughout:
    - values are real numbers, not floats, and there is one event and one pair of limits at a time (the code works element by element);
    - tensors of shape () and (1,) are not told apart: the gather at the end of the integrals (physics.py:136-137, 674-675) and the
      [:, 0] of limits (physics.py:151-152) are not modelled;
    - [Rpower x y] is exp (y * ln x), the power of a positive number; Coq's x / 0 and ln of a number that is not positive are 0 where floats give inf or NaN. *)
From Coq Require Import Reals.
From Coquelicot Require Import Coquelicot.
#[local] Open Scope R_scope.

(** tf.sign *)
Definition tf_sign (x : R) : R := if Rlt_dec 0 x then 1 else if Rlt_dec x 0 then -1 else 0.
Definition square (x : R) : R := x * x.
(** tf.math.erf: the integral that defines the error function *)
Definition erf (x : R) : R := 2 / sqrt PI * RInt (fun t => exp (- (t * t))) 0 x.

(** z/zextension.py:111-136 safe_where. The condition is a Boolean *)
Definition safe_where (condition : bool) (func safe_func : R -> R) (values : R) (value_safer : R -> R) : R :=
  let safe_x := if condition then values else value_safer values in
  if condition then func safe_x else safe_func values.
(** tf.less, tf.less_equal, tf.greater, tf.greater_equal *)
Definition less (a b : R) : bool := if Rlt_dec a b then true else false.
Definition less_equal (a b : R) : bool := if Rle_dec a b then true else false.
Definition greater (a b : R) : bool := less b a.
Definition greater_equal (a b : R) : bool := less_equal b a.
Definition where_ {T} (c : bool) (a b : T) : T := if c then a else b.

(** physics.py:23-24 *)
Definition powerlaw (x a k : R) : R := a * Rpower x k.

(** physics.py:27-41 crystalball_func; CrystalBall._pdf, physics.py:307-315, is this function *)
Definition crystalball_func (mu sigma alpha n x : R) : R :=
  let t := (x - mu) / sigma * tf_sign alpha in
  let abs_alpha := Rabs alpha in
  let a := Rpower (n / abs_alpha) n * exp (- (1 / 2) * square alpha) in
  let b := n / abs_alpha - abs_alpha in
  let cond := less t (- abs_alpha) in
  let func := safe_where cond
                (fun t => powerlaw (b - t) a (- n))
                (fun t => exp (- (1 / 2) * square t))
                t
                (fun _ => b - 2) in
  Rmax func 0.

(** physics.py:44-52 double_crystalball_func; DoubleCB._pdf, physics.py:426-444 *)
Definition double_crystalball_func (mu sigma alphal nl alphar nr x : R) : R :=
  let cond := less x mu in
  where_ cond (crystalball_func mu sigma alphal nl x) (crystalball_func mu sigma (- alphar) nr x).

(** physics.py:55-63 generalized_crystalball_func; GeneralizedCB._pdf, physics.py:561-581 *)
Definition generalized_crystalball_func (mu sigmal alphal nl sigmar alphar nr x : R) : R :=
  let cond := less x mu in
  where_ cond (crystalball_func mu sigmal alphal nl x) (crystalball_func mu sigmar (- alphar) nr x).

(** physics.py:79-138 crystalball_integral_func (called by crystalball_integral, physics.py:67-76, with the limits) *)
Definition crystalball_integral_func (mu sigma alpha n lower upper : R) : R :=
  let sqrt_pi_over_two := sqrt (PI / 2) in
  let sqrt2 := sqrt 2 in
  let use_log := less (Rabs (n - 1)) (1 / 100000) in
  let abs_sigma := Rabs sigma in
  let abs_alpha := Rabs alpha in
  let tmin0 := (lower - mu) / abs_sigma in
  let tmax0 := (upper - mu) / abs_sigma in
  let alpha_negative := less alpha 0 in
  let tmax := where_ alpha_negative (- tmin0) tmax0 in
  let tmin := where_ alpha_negative (- tmax0) tmin0 in
  let if_true_4 := abs_sigma * sqrt_pi_over_two * (erf (tmax / sqrt2) - erf (tmin / sqrt2)) in
  let a := Rpower (n / abs_alpha) n * exp (- (1 / 2) * square abs_alpha) in
  let b := n / abs_alpha - abs_alpha in
  let b_tmin := b - tmin in
  let safe_b_tmin_ones := where_ (greater b_tmin 0) b_tmin 1 in
  let b_tmax := b - tmax in
  let safe_b_tmax_ones := where_ (greater b_tmax 0) b_tmax 1 in
  let if_true_1 := a * abs_sigma * (ln safe_b_tmin_ones - ln safe_b_tmax_ones) in
  let if_false_1 := a * abs_sigma / (1 - n) * (1 / Rpower safe_b_tmin_ones (n - 1) - 1 / Rpower safe_b_tmax_ones (n - 1)) in
  let if_true_3 := where_ use_log if_true_1 if_false_1 in
  let if_true_2 := a * abs_sigma * (ln safe_b_tmin_ones - ln (n / abs_alpha)) in
  let if_false_2 := a * abs_sigma / (1 - n) * (1 / Rpower safe_b_tmin_ones (n - 1) - 1 / Rpower (n / abs_alpha) (n - 1)) in
  let term1 := where_ use_log if_true_2 if_false_2 in
  let term2 := abs_sigma * sqrt_pi_over_two * (erf (tmax / sqrt2) - erf (- abs_alpha / sqrt2)) in
  let if_false_3 := term1 + term2 in
  let if_false_4 := where_ (less_equal tmax (- abs_alpha)) if_true_3 if_false_3 in
  where_ (greater_equal tmin (- abs_alpha)) if_true_4 if_false_4.

(** physics.py:166-181 double_crystalball_mu_integral_func (called by double_crystalball_mu_integral, physics.py:141-163) *)
Definition double_crystalball_mu_integral_func (mu sigma alphal nl alphar nr lower upper : R) : R :=
  let upper_of_lowerint := Rmin mu upper in
  let integral_left := crystalball_integral_func mu sigma alphal nl lower upper_of_lowerint in
  let left := where_ (less mu lower) 0 integral_left in
  let lower_of_upperint := Rmax mu lower in
  let integral_right := crystalball_integral_func mu sigma (- alphar) nr lower_of_upperint upper in
  let right := where_ (greater mu upper) 0 integral_right in
  left + right.

(** physics.py:211-226 generalized_crystalball_mu_integral_func (called by generalized_crystalball_mu_integral, physics.py:184-208) *)
Definition generalized_crystalball_mu_integral_func (mu sigmal alphal nl sigmar alphar nr lower upper : R) : R :=
  let upper_of_lowerint := Rmin mu upper in
  let integral_left := crystalball_integral_func mu sigmal alphal nl lower upper_of_lowerint in
  let left := where_ (less mu lower) 0 integral_left in
  let lower_of_upperint := Rmax mu lower in
  let integral_right := crystalball_integral_func mu sigmar (- alphar) nr lower_of_upperint upper in
  let right := where_ (greater mu upper) 0 integral_right in
  left + right.

(** physics.py:600-612 gaussexptail_func; GaussExpTail._pdf, physics.py:783-790 *)
Definition gaussexptail_func (mu sigma alpha x : R) : R :=
  let t := (x - mu) / sigma * tf_sign alpha in
  let abs_alpha := Rabs alpha in
  let cond := less t (- abs_alpha) in
  let func := safe_where cond
                (fun t => 1 / 2 * square abs_alpha + abs_alpha * t)
                (fun t => - (1 / 2) * square t)
                t
                (fun _ => abs_alpha) in
  exp func.

(** physics.py:615-623 generalized_gaussexptail_func; GeneralizedGaussExpTail._pdf, physics.py:890-906 *)
Definition generalized_gaussexptail_func (mu sigmal alphal sigmar alphar x : R) : R :=
  let cond := less x mu in
  where_ cond (gaussexptail_func mu sigmal alphal x) (gaussexptail_func mu sigmar (- alphar) x).

(** physics.py:637-676 gaussexptail_integral_func (called by gaussexptail_integral, physics.py:626-634) *)
Definition gaussexptail_integral_func (mu sigma alpha lower upper : R) : R :=
  let sqrt_pi_over_two := sqrt (PI / 2) in
  let sqrt2 := sqrt 2 in
  let abs_sigma := Rabs sigma in
  let abs_alpha := Rabs alpha in
  let tmin0 := (lower - mu) / abs_sigma in
  let tmax0 := (upper - mu) / abs_sigma in
  let alpha_negative := less alpha 0 in
  let tmax := where_ alpha_negative (- tmin0) tmax0 in
  let tmin := where_ alpha_negative (- tmax0) tmin0 in
  let gauss_tmin_tmax_integral := abs_sigma * sqrt_pi_over_two * (erf (tmax / sqrt2) - erf (tmin / sqrt2)) in
  let exp_tmin_tmax_integral :=
    abs_sigma / abs_alpha * exp (1 / 2 * square abs_alpha) * (exp (abs_alpha * tmax) - exp (abs_alpha * tmin)) in
  let gauss_minus_abs_alpha_tmax_integral := abs_sigma * sqrt_pi_over_two * (erf (tmax / sqrt2) - erf (- abs_alpha / sqrt2)) in
  let exp_tmin_minus_abs_alpha_integral :=
    abs_sigma / abs_alpha * exp (1 / 2 * square abs_alpha) * (exp (- square abs_alpha) - exp (abs_alpha * tmin)) in
  let integral_sum := exp_tmin_minus_abs_alpha_integral + gauss_minus_abs_alpha_tmax_integral in
  let conditional_integral := where_ (less_equal tmax (- abs_alpha)) exp_tmin_tmax_integral integral_sum in
  where_ (greater_equal tmin (- abs_alpha)) gauss_tmin_tmax_integral conditional_integral.

(** physics.py:702-714 generalized_gaussexptail_integral_func (called by generalized_gaussexptail_integral, physics.py:679-699) *)
Definition generalized_gaussexptail_integral_func (mu sigmal alphal sigmar alphar lower upper : R) : R :=
  let upper_of_lowerint := Rmin mu upper in
  let integral_left := gaussexptail_integral_func mu sigmal alphal lower upper_of_lowerint in
  let left := where_ (less mu lower) 0 integral_left in
  let lower_of_upperint := Rmax mu lower in
  let integral_right := gaussexptail_integral_func mu sigmar (- alphar) lower_of_upperint upper in
  let right := where_ (greater mu upper) 0 integral_right in
  left + right.
