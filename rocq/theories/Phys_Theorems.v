(** * C71: Crystal Ball and GaussExpTail PDFs

    The five PDFs have the documented shape, and the registered analytic integrals are the true integrals of these shapes over every range, so that they are
    normalised densities. For sigma > 0, alpha not zero and an exponent that is one or not within 1e-5 of one; otherwise the _refuted theorems. *)
From Coq Require Import Reals Lra Lia.
From Coquelicot Require Import Coquelicot.
From Verif Require Import Phys_Model Phys_Spec Phys_Proofs Phys_Proofs2.
#[local] Open Scope R_scope.

(** ** The documented shape *)
Lemma gaussian_x mu sigma s x : sigma <> 0 -> s * s = 1 -> gaussian ((x - mu) / sigma * s) = exp (- ((x - mu) * (x - mu)) / (2 * (sigma * sigma))).
Proof. intros H E. unfold gaussian, square. f_equal. transitivity (- (1 / 2) * ((x - mu) / sigma * ((x - mu) / sigma)) * (s * s)); [ring|]. rewrite E. field. exact H. Qed.

Theorem C71_crystalball_shape mu sigma alpha n : sigma <> 0 -> 0 < alpha -> is_crystal_ball mu sigma alpha n (crystalball_func mu sigma alpha n).
Proof.
  intros Hs Ha x. rewrite cb_shape, tf_sign_pos by exact Ha. unfold cb_std, pieces. rewrite Rabs_right by lra. split; intros H.
  - rewrite less_f by lra. apply gaussian_x; [exact Hs|ring].
  - rewrite less_t by lra. unfold tail, powerlaw, cb_a, cb_b, cb_A, cb_B. rewrite Rabs_right by lra. rewrite Rmult_1_r. f_equal. f_equal. f_equal. unfold square. field.
Qed.
(** A negative alpha: the mirror image, with the tail on the right *)
Theorem C71_crystalball_mirrored mu sigma alpha n : alpha <> 0 -> mirrored mu (crystalball_func mu sigma (- alpha) n) (crystalball_func mu sigma alpha n).
Proof.
  intros Ha x. rewrite !cb_shape, Rabs_Ropp. f_equal. destruct (Rtotal_order alpha 0) as [H|[H|H]]; [|contradiction|].
  - rewrite tf_sign_pos, tf_sign_neg by lra. unfold Rdiv. ring.
  - rewrite tf_sign_neg, tf_sign_pos by lra. unfold Rdiv. ring.
Qed.
(** The documentation says nothing about the sign of alpha. Read literally, its formula is not the shape for a negative one: the Gaussian at x = mu becomes the tail *)
Theorem C71_crystalball_shape_negative_alpha_refuted : exists mu sigma alpha n,
  0 < sigma /\ alpha < 0 /\ 0 < n /\ ~ is_crystal_ball mu sigma alpha n (crystalball_func mu sigma alpha n).
Proof.
  exists 0, 1, (-1), 2. split; [lra|]. split; [lra|]. split; [lra|]. intros H. destruct (H 0) as [_ K]. specialize (K ltac:(lra)). rewrite cb_shape in K.
  unfold cb_std, pieces in K. replace (Rabs (-1)) with 1 in K by (unfold Rabs; destruct (Rcase_abs (-1)); lra). replace ((0 - 0) / 1 * tf_sign (-1)) with 0 in K by (field; lra).
  rewrite less_f in K by lra. unfold gaussian, square, cb_A, cb_B in K. replace (Rabs (-1)) with 1 in K by (unfold Rabs; destruct (Rcase_abs (-1)); lra).
  replace (- (1 / 2) * (0 * 0)) with 0 in K by ring. rewrite exp_0 in K. replace (2 / 1 - 1 - (0 - 0) / 1) with 1 in K by field. replace (2 / 1) with 2 in K by field.
  replace (Rpower 1 (- (2))) with 1 in K by (unfold Rpower; rewrite ln_1, Rmult_0_r, exp_0; reflexivity). replace (Rpower 2 2) with 4 in K by (replace 2 with (1 + 1) at 2 by ring; rewrite Rpower_plus, Rpower_1 by lra; ring).
  assert (E := exp_ineq1 (- (1 * 1) / 2) ltac:(lra)). lra.
Qed.

Lemma double_cb_shape mu sigmal alphal nl sigmar alphar nr : 0 < sigmal -> 0 < sigmar -> 0 < alphal -> 0 < alphar ->
  is_double_crystal_ball mu sigmal alphal nl sigmar alphar nr (generalized_crystalball_func mu sigmal alphal nl sigmar alphar nr).
Proof.
  intros Hl Hr Al Ar x. unfold generalized_crystalball_func. cbv zeta.
  assert (El : (x - mu) / sigmal * sigmal = x - mu) by (field; lra). assert (Er : (x - mu) / sigmar * sigmar = x - mu) by (field; lra).
  rewrite !cb_shape, tf_sign_pos, tf_sign_neg, Rabs_Ropp, (Rabs_right alphal), (Rabs_right alphar) by lra. unfold cb_std, pieces. split; [|split; [|split]].
  - intros H. rewrite (less_t x mu) by nra. cbn [where_]. rewrite less_t by lra. unfold tail, powerlaw, cb_a, cb_b, cb_A, cb_B. rewrite Rabs_right by lra. rewrite Rmult_1_r.
    f_equal. f_equal. f_equal. unfold square. field.
  - intros [H1 H2]. destruct (Rlt_le_dec x mu) as [H|H].
    + rewrite (less_t x mu) by exact H. cbn [where_]. rewrite less_f by lra. apply gaussian_x; [lra|ring].
    + assert (x = mu) by nra. subst x. rewrite (less_f mu mu) by lra. cbn [where_]. replace ((mu - mu) / sigmar * -1) with 0 by (field; lra). rewrite less_f by lra.
      unfold gaussian, square. f_equal. field. lra.
  - intros [H1 H2]. rewrite (less_f x mu) by nra. cbn [where_]. rewrite less_f by lra. apply gaussian_x; [lra|ring].
  - intros H. rewrite (less_f x mu) by nra. cbn [where_]. rewrite less_t by lra. unfold tail, powerlaw, cb_a, cb_b, cb_A, cb_B. rewrite Rabs_right by lra.
    replace (nr / alphar - alphar - (x - mu) / sigmar * -1) with (nr / alphar - alphar + (x - mu) / sigmar) by ring. f_equal. f_equal. f_equal. unfold square. field.
Qed.
Theorem C71_double_shape mu sigma alphal nl alphar nr : 0 < sigma -> 0 < alphal -> 0 < alphar ->
  is_double_crystal_ball mu sigma alphal nl sigma alphar nr (double_crystalball_func mu sigma alphal nl alphar nr).
Proof. intros Hs Hl Hr. exact (double_cb_shape mu sigma alphal nl sigma alphar nr Hs Hs Hl Hr). Qed.
Theorem C71_generalized_shape mu sigmal alphal nl sigmar alphar nr : 0 < sigmal -> 0 < sigmar -> 0 < alphal -> 0 < alphar ->
  is_double_crystal_ball mu sigmal alphal nl sigmar alphar nr (generalized_crystalball_func mu sigmal alphal nl sigmar alphar nr).
Proof. apply double_cb_shape. Qed.

Theorem C71_gaussexptail_shape mu sigma alpha : sigma <> 0 -> 0 < alpha -> is_gauss_exp_tail mu sigma alpha (gaussexptail_func mu sigma alpha).
Proof.
  intros Hs Ha x. rewrite get_shape, tf_sign_pos by exact Ha. unfold get_std, pieces. rewrite Rabs_right by lra. split; intros H.
  - rewrite less_f by lra. apply gaussian_x; [exact Hs|ring].
  - rewrite less_t by lra. unfold get_tail, square. f_equal. field. exact Hs.
Qed.
Theorem C71_gaussexptail_mirrored mu sigma alpha : alpha <> 0 -> mirrored mu (gaussexptail_func mu sigma (- alpha)) (gaussexptail_func mu sigma alpha).
Proof.
  intros Ha x. rewrite !get_shape, Rabs_Ropp. f_equal. destruct (Rtotal_order alpha 0) as [H|[H|H]]; [|contradiction|].
  - rewrite tf_sign_pos, tf_sign_neg by lra. unfold Rdiv. ring.
  - rewrite tf_sign_neg, tf_sign_pos by lra. unfold Rdiv. ring.
Qed.
Theorem C71_generalized_gaussexptail_shape mu sigmal alphal sigmar alphar : 0 < sigmal -> 0 < sigmar -> 0 < alphal -> 0 < alphar ->
  is_double_gauss_exp_tail mu sigmal alphal sigmar alphar (generalized_gaussexptail_func mu sigmal alphal sigmar alphar).
Proof.
  intros Hl Hr Al Ar x. unfold generalized_gaussexptail_func. cbv zeta.
  assert (El : (x - mu) / sigmal * sigmal = x - mu) by (field; lra). assert (Er : (x - mu) / sigmar * sigmar = x - mu) by (field; lra).
  rewrite !get_shape, tf_sign_pos, tf_sign_neg, Rabs_Ropp, (Rabs_right alphal), (Rabs_right alphar) by lra. unfold get_std, pieces. split; [|split; [|split]].
  - intros H. rewrite (less_t x mu) by nra. cbn [where_]. rewrite less_t by lra. unfold get_tail, square. f_equal. field. lra.
  - intros [H1 H2]. destruct (Rlt_le_dec x mu) as [H|H].
    + rewrite (less_t x mu) by exact H. cbn [where_]. rewrite less_f by lra. apply gaussian_x; [lra|ring].
    + assert (x = mu) by nra. subst x. rewrite (less_f mu mu) by lra. cbn [where_]. replace ((mu - mu) / sigmar * -1) with 0 by (field; lra). rewrite less_f by lra.
      unfold gaussian, square. f_equal. field. lra.
  - intros [H1 H2]. rewrite (less_f x mu) by nra. cbn [where_]. rewrite less_f by lra. apply gaussian_x; [lra|ring].
  - intros H. rewrite (less_f x mu) by nra. cbn [where_]. rewrite less_t by lra. unfold get_tail, square. f_equal. field. lra.
Qed.
(** alpha = 0: the sign of alpha, zero, multiplies x. The documented Gaussian on the right of mu is the constant one instead *)
Theorem C71_gaussexptail_zero_alpha_refuted : exists mu sigma, 0 < sigma /\ ~ is_gauss_exp_tail mu sigma 0 (gaussexptail_func mu sigma 0).
Proof.
  exists 0, 1. split; [lra|]. intros H. destruct (H 1) as [K _]. specialize (K ltac:(lra)). rewrite get_shape in K.
  assert (E : tf_sign 0 = 0) by (unfold tf_sign; destruct (Rlt_dec 0 0); lra). rewrite E, Rabs_R0, Rmult_0_r in K. unfold get_std, pieces in K. rewrite less_f in K by lra.
  unfold gaussian, square in K. apply exp_inv in K. lra.
Qed.

(** ** The analytic integrals *)
Theorem C71_crystalball_integral mu sigma alpha n lower upper : 0 < sigma -> alpha <> 0 -> exponent_ok n -> lower <= upper ->
  is_RInt (crystalball_func mu sigma alpha n) lower upper (crystalball_integral_func mu sigma alpha n lower upper).
Proof.
  intros Hs Ha Hn L. assert (O := std_order mu sigma alpha lower upper Hs L). rewrite cb_int_value; [|exact Ha|apply Hn|exact O].
  eapply is_RInt_ext; [intros x _; symmetry; apply cb_shape|]. apply shape_int; [exact Hs|exact Ha|]. apply cb_std_int; [now apply Rabs_pos_lt|exact Hn|exact O].
Qed.
Theorem C71_generalized_integral mu sigmal alphal nl sigmar alphar nr lower upper :
  0 < sigmal -> 0 < sigmar -> alphal <> 0 -> alphar <> 0 -> exponent_ok nl -> exponent_ok nr -> lower <= upper ->
  is_RInt (generalized_crystalball_func mu sigmal alphal nl sigmar alphar nr) lower upper (generalized_crystalball_mu_integral_func mu sigmal alphal nl sigmar alphar nr lower upper).
Proof.
  intros Hl Hr Al Ar Nl Nr L.
  apply (halves_int (crystalball_func mu sigmal alphal nl) (crystalball_func mu sigmar (- alphar) nr) (crystalball_integral_func mu sigmal alphal nl) (crystalball_integral_func mu sigmar (- alphar) nr));
    [exact L| |]; intros a b H; apply C71_crystalball_integral; try assumption. lra.
Qed.
Theorem C71_double_integral mu sigma alphal nl alphar nr lower upper :
  0 < sigma -> alphal <> 0 -> alphar <> 0 -> exponent_ok nl -> exponent_ok nr -> lower <= upper ->
  is_RInt (double_crystalball_func mu sigma alphal nl alphar nr) lower upper (double_crystalball_mu_integral_func mu sigma alphal nl alphar nr lower upper).
Proof. intros. now apply (C71_generalized_integral mu sigma alphal nl sigma alphar nr). Qed.
Theorem C71_gaussexptail_integral mu sigma alpha lower upper : 0 < sigma -> alpha <> 0 -> lower <= upper ->
  is_RInt (gaussexptail_func mu sigma alpha) lower upper (gaussexptail_integral_func mu sigma alpha lower upper).
Proof.
  intros Hs Ha L. rewrite get_int_value by exact Ha. eapply is_RInt_ext; [intros x _; symmetry; apply get_shape|].
  apply shape_int; [exact Hs|exact Ha|]. apply get_std_int; [now apply Rabs_pos_lt|now apply std_order].
Qed.
Theorem C71_generalized_gaussexptail_integral mu sigmal alphal sigmar alphar lower upper :
  0 < sigmal -> 0 < sigmar -> alphal <> 0 -> alphar <> 0 -> lower <= upper ->
  is_RInt (generalized_gaussexptail_func mu sigmal alphal sigmar alphar) lower upper (generalized_gaussexptail_integral_func mu sigmal alphal sigmar alphar lower upper).
Proof.
  intros Hl Hr Al Ar L.
  apply (halves_int (gaussexptail_func mu sigmal alphal) (gaussexptail_func mu sigmar (- alphar)) (gaussexptail_integral_func mu sigmal alphal) (gaussexptail_integral_func mu sigmar (- alphar)));
    [exact L| |]; intros a b H; apply C71_gaussexptail_integral; try assumption. lra.
Qed.

(** ** No jump where the pieces meet, neither at the start of a tail nor at mu *)
Theorem C71_crystalball_continuous mu sigma alpha n x : alpha <> 0 -> 0 < n -> continuous (crystalball_func mu sigma alpha n) x.
Proof.
  intros Ha Hn. eapply continuous_ext; [intros y; symmetry; apply cb_shape|]. apply (shape_continuous (cb_std (Rabs alpha) n)). intros t.
  apply cb_std_continuous; [now apply Rabs_pos_lt|exact Hn].
Qed.
Theorem C71_gaussexptail_continuous mu sigma alpha x : continuous (gaussexptail_func mu sigma alpha) x.
Proof. eapply continuous_ext; [intros y; symmetry; apply get_shape|]. apply (shape_continuous (get_std (Rabs alpha))). intros t. apply get_std_continuous. Qed.
Lemma cb_at_mu mu sigma alpha n : alpha <> 0 -> crystalball_func mu sigma alpha n mu = 1.
Proof.
  intros Ha. rewrite cb_shape. replace ((mu - mu) / sigma * tf_sign alpha) with 0 by (unfold Rdiv; ring). unfold cb_std, pieces. assert (H := Rabs_pos_lt alpha Ha).
  rewrite less_f by lra. unfold gaussian, square. rewrite <- exp_0. f_equal. ring.
Qed.
Lemma get_at_mu mu sigma alpha : alpha <> 0 -> gaussexptail_func mu sigma alpha mu = 1.
Proof.
  intros Ha. rewrite get_shape. replace ((mu - mu) / sigma * tf_sign alpha) with 0 by (unfold Rdiv; ring). unfold get_std, pieces. assert (H := Rabs_pos_lt alpha Ha).
  rewrite less_f by lra. unfold gaussian, square. rewrite <- exp_0. f_equal. ring.
Qed.
Theorem C71_generalized_continuous mu sigmal alphal nl sigmar alphar nr x : alphal <> 0 -> alphar <> 0 -> 0 < nl -> 0 < nr ->
  continuous (generalized_crystalball_func mu sigmal alphal nl sigmar alphar nr) x.
Proof.
  intros Hl Hr Nl Nr. apply (halves_continuous (crystalball_func mu sigmal alphal nl) (crystalball_func mu sigmar (- alphar) nr)).
  - intros y. now apply C71_crystalball_continuous.
  - intros y. apply C71_crystalball_continuous; [lra|exact Nr].
  - rewrite !cb_at_mu by lra. reflexivity.
Qed.
Theorem C71_double_continuous mu sigma alphal nl alphar nr x : alphal <> 0 -> alphar <> 0 -> 0 < nl -> 0 < nr ->
  continuous (double_crystalball_func mu sigma alphal nl alphar nr) x.
Proof. apply (C71_generalized_continuous mu sigma alphal nl sigma alphar nr). Qed.
Theorem C71_generalized_gaussexptail_continuous mu sigmal alphal sigmar alphar x : alphal <> 0 -> alphar <> 0 ->
  continuous (generalized_gaussexptail_func mu sigmal alphal sigmar alphar) x.
Proof.
  intros Hl Hr. apply (halves_continuous (gaussexptail_func mu sigmal alphal) (gaussexptail_func mu sigmar (- alphar))).
  - intros y. apply C71_gaussexptail_continuous.
  - intros y. apply C71_gaussexptail_continuous.
  - rewrite !get_at_mu by lra. reflexivity.
Qed.

(** ** Divided by the analytic integral over its range each is a density there *)
Theorem C71_crystalball_normalised mu sigma alpha n lower upper : 0 < sigma -> alpha <> 0 -> exponent_ok n -> lower < upper ->
  normalised_by (crystalball_func mu sigma alpha n) lower upper (crystalball_integral_func mu sigma alpha n lower upper).
Proof.
  intros Hs Ha Hn L. apply normalise; [exact L| | |apply C71_crystalball_integral; try assumption; lra]; intros x.
  - rewrite cb_shape. apply cb_std_pos.
  - apply C71_crystalball_continuous; [exact Ha|apply Hn].
Qed.
Theorem C71_generalized_normalised mu sigmal alphal nl sigmar alphar nr lower upper :
  0 < sigmal -> 0 < sigmar -> alphal <> 0 -> alphar <> 0 -> exponent_ok nl -> exponent_ok nr -> lower < upper ->
  normalised_by (generalized_crystalball_func mu sigmal alphal nl sigmar alphar nr) lower upper (generalized_crystalball_mu_integral_func mu sigmal alphal nl sigmar alphar nr lower upper).
Proof.
  intros Hl Hr Al Ar Nl Nr L. apply normalise; [exact L| | |apply C71_generalized_integral; try assumption; lra]; intros x.
  - unfold generalized_crystalball_func. cbv zeta. destruct (less x mu); cbn [where_]; rewrite cb_shape; apply cb_std_pos.
  - apply C71_generalized_continuous; [exact Al|exact Ar|apply Nl|apply Nr].
Qed.
Theorem C71_double_normalised mu sigma alphal nl alphar nr lower upper :
  0 < sigma -> alphal <> 0 -> alphar <> 0 -> exponent_ok nl -> exponent_ok nr -> lower < upper ->
  normalised_by (double_crystalball_func mu sigma alphal nl alphar nr) lower upper (double_crystalball_mu_integral_func mu sigma alphal nl alphar nr lower upper).
Proof. intros. now apply (C71_generalized_normalised mu sigma alphal nl sigma alphar nr). Qed.
Theorem C71_gaussexptail_normalised mu sigma alpha lower upper : 0 < sigma -> alpha <> 0 -> lower < upper ->
  normalised_by (gaussexptail_func mu sigma alpha) lower upper (gaussexptail_integral_func mu sigma alpha lower upper).
Proof.
  intros Hs Ha L. apply normalise; [exact L| | |apply C71_gaussexptail_integral; try assumption; lra]; intros x.
  - rewrite get_shape. apply get_std_pos.
  - apply C71_gaussexptail_continuous.
Qed.
Theorem C71_generalized_gaussexptail_normalised mu sigmal alphal sigmar alphar lower upper :
  0 < sigmal -> 0 < sigmar -> alphal <> 0 -> alphar <> 0 -> lower < upper ->
  normalised_by (generalized_gaussexptail_func mu sigmal alphal sigmar alphar) lower upper (generalized_gaussexptail_integral_func mu sigmal alphal sigmar alphar lower upper).
Proof.
  intros Hl Hr Al Ar L. apply normalise; [exact L| | |apply C71_generalized_gaussexptail_integral; try assumption; lra]; intros x.
  - unfold generalized_gaussexptail_func. cbv zeta. destruct (less x mu); cbn [where_]; rewrite get_shape; apply get_std_pos.
  - apply C71_generalized_gaussexptail_continuous; [exact Al|exact Ar].
Qed.

(** Integrals of neighbouring ranges add up, for every range of every sign of alpha *)
Theorem C71_crystalball_additive mu sigma alpha n a b c : 0 < sigma -> alpha <> 0 -> exponent_ok n -> a <= b <= c ->
  crystalball_integral_func mu sigma alpha n a b + crystalball_integral_func mu sigma alpha n b c = crystalball_integral_func mu sigma alpha n a c.
Proof.
  intros Hs Ha Hn [L1 L2]. assert (H1 := C71_crystalball_integral mu sigma alpha n a b Hs Ha Hn L1). assert (H2 := C71_crystalball_integral mu sigma alpha n b c Hs Ha Hn L2).
  assert (H3 := C71_crystalball_integral mu sigma alpha n a c Hs Ha Hn ltac:(lra)).
  assert (H := is_RInt_Chasles _ _ _ _ _ _ H1 H2). assert (U := @is_RInt_unique R_CompleteNormedModule _ _ _ _ H). assert (V := @is_RInt_unique R_CompleteNormedModule _ _ _ _ H3). rewrite U in V. exact V.
Qed.

(** ** Where the integral is not the one of the shape *)
(** A negative sigma: nothing forbids it. The shape has its tail on the other side (the sign of sigma counts), the integral takes |sigma| *)
Theorem C71_negative_sigma_refuted : exists mu sigma alpha n lower upper,
  sigma < 0 /\ 0 < alpha /\ exponent_ok n /\ lower < upper /\
  ~ is_RInt (crystalball_func mu sigma alpha n) lower upper (crystalball_integral_func mu sigma alpha n lower upper).
Proof.
  exists 0, (-1), 1, 1, 2, 3. split; [lra|]. split; [lra|]. split; [split; [lra|now left]|]. split; [lra|]. intros H.
  assert (V : is_RInt gaussian 2 3 (crystalball_integral_func 0 (-1) 1 1 2 3)).
  { assert (E : crystalball_integral_func 0 (-1) 1 1 2 3 = crystalball_integral_func 0 1 1 1 2 3) by (unfold crystalball_integral_func; rewrite Rabs_left, (Rabs_right 1) by lra; now replace (- (-1)) with 1 by ring).
    rewrite E. eapply is_RInt_ext; [|apply C71_crystalball_integral; [lra|lra|split; [lra|now left]|lra]]. intros x. rewrite Rmin_left, Rmax_right by lra. intros Hx.
    rewrite cb_shape, tf_sign_pos, Rabs_right by lra. unfold cb_std, pieces. rewrite less_f by (unfold Rdiv; lra). unfold gaussian. f_equal. unfold square. field. }
  assert (G : crystalball_integral_func 0 (-1) 1 1 2 3 <= exp (- 2)).
  { assert (K := is_RInt_le gaussian (fun _ => exp (-2)) 2 3 _ _ ltac:(lra) V (is_RInt_const 2 3 (exp (-2)))). unfold scal in K; cbn in K; unfold mult in K; cbn in K.
    replace ((3 - 2) * exp (-2)) with (exp (-2)) in K by ring. apply K. intros x Hx. unfold gaussian, square. destruct (Rlt_dec (- (1 / 2) * (x * x)) (-2)) as [Q|Q]; [left; now apply exp_increasing|]. assert (- (1 / 2) * (x * x) = -2) by nra. right. now f_equal. }
  assert (T : exp (- (1 / 2)) / 3 <= crystalball_integral_func 0 (-1) 1 1 2 3).
  { assert (K := is_RInt_le (fun _ => exp (- (1 / 2)) / 3) (crystalball_func 0 (-1) 1 1) 2 3 _ _ ltac:(lra) (is_RInt_const 2 3 (exp (- (1 / 2)) / 3)) H). unfold scal in K; cbn in K; unfold mult in K; cbn in K.
    replace ((3 - 2) * (exp (- (1 / 2)) / 3)) with (exp (- (1 / 2)) / 3) in K by (field; lra). apply K. intros x Hx. rewrite cb_shape, tf_sign_pos, Rabs_right by lra. unfold cb_std, pieces.
    replace ((x - 0) / -1 * 1) with (- x) by field. rewrite less_t by lra. unfold tail, powerlaw, cb_a, cb_b, square. replace (1 / 1) with 1 by field. replace (1 - 1 - - x) with x by ring.
    rewrite Rpower_Ropp, !Rpower_1 by lra. replace (- (1 / 2) * (1 * 1)) with (- (1 / 2)) by ring. rewrite Rmult_1_l. unfold Rdiv. apply Rmult_le_compat_l; [left; apply exp_pos|]. apply Rinv_le_contravar; lra. }
  assert (E : exp (- (1 / 2)) = exp (-2) * exp (3 / 2)) by (rewrite <- exp_plus; f_equal; lra). assert (P := exp_pos (-2)).
  assert (B : 3 < exp (3 / 2)). { assert (B1 := exp_ineq1 (3 / 4) ltac:(lra)). replace (3 / 2) with (3 / 4 + 3 / 4) by lra. rewrite exp_plus. nra. }
  nra.
Qed.
(** An exponent n close to one, but not one: the integral is the one for n = 1 with the normalising constant of n *)
Theorem C71_exponent_near_one_refuted : exists mu sigma alpha n lower upper,
  0 < sigma /\ 0 < alpha /\ 1 < n < 1 + 1 / 100000 /\ lower < upper /\
  ~ is_RInt (crystalball_func mu sigma alpha n) lower upper (crystalball_integral_func mu sigma alpha n lower upper).
Proof.
  set (n := 1 + 1 / 1000000). assert (Hn : 1 < n < 1 + 1 / 100000) by (unfold n; lra).
  exists 0, 1, n, n, (- n - 1), (- n). split; [lra|]. split; [lra|]. split; [exact Hn|]. split; [lra|]. intros H.
  assert (A : Rabs n = n) by (apply Rabs_right; lra).
  assert (T : is_RInt (crystalball_func 0 1 n n) (- n - 1) (- n) (tail_prim (cb_a n n) (cb_b n n) n (- n) - tail_prim (cb_a n n) (cb_b n n) n (- n - 1))).
  { eapply is_RInt_ext; [|apply (is_RInt_prim (tail_prim (cb_a n n) (cb_b n n) n) (tail (cb_a n n) (cb_b n n) n)); [lra| |]].
    - intros x. rewrite Rmin_left, Rmax_right by lra. intros Hx. rewrite cb_shape, tf_sign_pos, A by lra. unfold cb_std, pieces. replace ((x - 0) / 1 * 1) with x by field. rewrite less_t by lra. reflexivity.
    - intros x Hx. apply is_derive_tail; [lra|]. apply cb_b_t; lra.
    - intros x Hx. apply continuous_tail, cb_b_t; lra. }
  assert (U := @is_RInt_unique R_CompleteNormedModule _ _ _ _ H). rewrite (@is_RInt_unique R_CompleteNormedModule _ _ _ _ T) in U. clear H T.
  rewrite cb_int_value in U; [|lra|lra|apply std_order; lra].
  assert (S1 : std_lower 0 1 n (- n - 1) (- n) = - n - 1) by (unfold std_lower; rewrite less_f by lra; cbn [where_]; rewrite Rabs_R1; field).
  assert (S2 : std_upper 0 1 n (- n - 1) (- n) = - n) by (unfold std_upper; rewrite less_f by lra; cbn [where_]; rewrite Rabs_R1; field).
  rewrite S1, S2, A, Rabs_R1 in U. unfold pieces_int, greater_equal, cb_prim in U. rewrite less_equal_f, less_equal_t, less_t in U; [|rewrite Rabs_right; lra|lra|lra].
  unfold tail_prim, tail_log in U. assert (B0 : cb_b n n - - n = 1) by (unfold cb_b; field; lra). assert (B1 : cb_b n n - (- n - 1) = 2) by (replace (cb_b n n - (- n - 1)) with (cb_b n n - - n + 1) by ring; rewrite B0; ring).
  rewrite B0, B1, ln_1 in U. replace (Rpower 1 (n - 1)) with 1 in U by (unfold Rpower; rewrite ln_1, Rmult_0_r, exp_0; reflexivity). assert (Pa := cb_a_pos n n).
  assert (L2 : 0 < ln 2) by (rewrite <- ln_1; apply ln_increasing; lra).
  assert (K : 1 - (n - 1) * ln 2 < / Rpower 2 (n - 1)). { unfold Rpower. rewrite <- exp_Ropp. assert (Q := exp_ineq1 (- ((n - 1) * ln 2))). assert ((n - 1) * ln 2 > 0) by nra. specialize (Q ltac:(lra)). lra. }
  set (y := / Rpower 2 (n - 1)) in *. replace (1 / Rpower 2 (n - 1)) with y in U by (unfold y, Rdiv; ring).
  assert (U' : cb_a n n * (1 - y) = cb_a n n * ((n - 1) * ln 2)). { match type of U with ?l = ?r => assert (E1 : cb_a n n * (1 - y) = l * (n - 1)) by (field; lra); assert (E2 : cb_a n n * ((n - 1) * ln 2) = r * (n - 1)) by ring end.
    rewrite E1, E2. now f_equal. }
  apply Rmult_eq_reg_l in U'; [lra|lra].
Qed.

(** ** Examples: the hypotheses are met *)
Example ex_cb : normalised_by (crystalball_func 5 (1 / 2) (-2) 3) 0 10 (crystalball_integral_func 5 (1 / 2) (-2) 3 0 10).
Proof. apply C71_crystalball_normalised; [lra|lra| |lra]. split; [lra|]. right. rewrite Rabs_right; lra. Qed.
Example ex_double : normalised_by (double_crystalball_func 5 (1 / 2) 1 1 2 3) 0 10 (double_crystalball_mu_integral_func 5 (1 / 2) 1 1 2 3 0 10).
Proof. apply C71_double_normalised; [lra|lra|lra| | |lra]; [split; [lra|now left]|]. split; [lra|]. right. rewrite Rabs_right; lra. Qed.
Example ex_get : is_RInt (gaussexptail_func 0 1 1) (-3) (-2) (gaussexptail_integral_func 0 1 1 (-3) (-2)).
Proof. apply C71_gaussexptail_integral; lra. Qed.
(** ... and the value there is the one of the exponential tail *)
Example ex_get_value : gaussexptail_integral_func 0 1 1 (-3) (-2) = exp (1 / 2) * (exp (-2) - exp (-3)).
Proof.
  rewrite get_int_value by lra. unfold std_lower, std_upper. rewrite less_f by lra. cbn [where_]. rewrite Rabs_R1. unfold pieces_int, greater_equal.
  rewrite less_equal_f, less_equal_t by lra. unfold get_prim, square. replace (1 * ((-2 - 0) / 1)) with (-2) by field. replace (1 * ((-3 - 0) / 1)) with (-3) by field.
  replace (1 / 2 * (1 * 1)) with (1 / 2) by field. field.
Qed.

Print Assumptions C71_crystalball_shape.
Print Assumptions C71_double_shape.
Print Assumptions C71_generalized_shape.
Print Assumptions C71_gaussexptail_shape.
Print Assumptions C71_generalized_gaussexptail_shape.
Print Assumptions C71_generalized_normalised.
Print Assumptions C71_generalized_gaussexptail_normalised.
Print Assumptions C71_crystalball_additive.
Print Assumptions C71_negative_sigma_refuted.
Print Assumptions C71_exponent_near_one_refuted.
