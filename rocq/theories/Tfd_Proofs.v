(** Proofs about the wrapped distributions: shapes, and the distributions with a simple cdf. *)
From Coq Require Import Reals List Lra Lia.
From Coquelicot Require Import Coquelicot.
From Verif Require Import Base Tfd_Model Tfd_Spec.
Import ListNotations.
#[local] Open Scope R_scope.

Lemma sqrt_2pi : 0 < sqrt (2 * PI).
Proof. apply sqrt_lt_R0. pose proof PI_RGT_0. lra. Qed.

Lemma normal_shape loc scale x : 0 < scale ->
  tfp_normal loc scale x = / (scale * sqrt (2 * PI)) * exp (- ((x - loc) ^ 2 / (2 * scale ^ 2))).
Proof.
  intros S. unfold tfp_normal, Rdiv. rewrite Rmult_comm. f_equal. f_equal. field. lra.
Qed.

(** StudentT: the powers *)
Lemma qgauss_value q mu sigma x : 1 < q < 3 -> 0 < sigma ->
  qgauss q mu sigma x = sqrt (1 / 2 * (3 - q)) / sigma * Rpower (1 + (q - 1) / 2 * ((x - mu) / sigma) ^ 2) (- (1 / (q - 1))).
Proof.
  intros Q S. unfold qgauss, tfp_student. set (r := sqrt (1 / 2 * (3 - q))).
  assert (R0 : 0 < r) by (apply sqrt_lt_R0; lra).
  assert (R2 : r ^ 2 = 1 / 2 * (3 - q)) by (unfold r; cbn [pow]; rewrite Rmult_1_r; apply sqrt_sqrt; lra).
  replace (((x - mu) / (sigma / r)) ^ 2 / ((3 - q) / (q - 1))) with ((q - 1) / 2 * ((x - mu) / sigma) ^ 2).
  2:{ replace (((x - mu) / (sigma / r)) ^ 2) with (r ^ 2 * ((x - mu) / sigma) ^ 2) by (field; lra). rewrite R2. field. split; lra. }
  replace (- (((3 - q) / (q - 1) + 1) / 2)) with (- (1 / (q - 1))) by (field; lra).
  unfold Rdiv at 1. rewrite Rmult_comm. f_equal. field. lra.
Qed.

Lemma bifur_value mu sl sr x : 0 < sl -> 0 < sr -> bifurgauss mu sl sr x = doc_bifurgauss mu sl sr x.
Proof.
  intros L Rr. unfold bifurgauss, tfp_two_piece_normal, doc_bifurgauss. set (k := sqrt (sr / sl)).
  assert (K : 0 < k) by (apply sqrt_lt_R0; apply Rdiv_lt_0_compat; assumption).
  assert (K2 : k * k = sr / sl) by (apply sqrt_sqrt; apply Rlt_le, Rdiv_lt_0_compat; assumption).
  pose proof PI_RGT_0 as P. assert (SP : 0 < sqrt PI) by (apply sqrt_lt_R0; exact P).
  f_equal.
  - rewrite sqrt_div by lra. replace (sqrt PI * (sl * k) * (k + 1 / k)) with (sqrt PI * (sl + sl * (k * k))) by (field; lra). rewrite K2.
    replace (sl + sl * (sr / sl)) with (sl + sr) by (field; lra). field. split; apply Rgt_not_eq; lra.
  - destruct (Rlt_dec ((x - mu) / (sl * k)) 0) as [A|A].
    + destruct (Rlt_dec x mu) as [B|B].
      * f_equal. f_equal. field. split; apply Rgt_not_eq; assumption.
      * exfalso. apply (Rlt_not_le _ _ A). apply Rcomplements.Rdiv_le_0_compat; [lra|]. now apply Rmult_lt_0_compat.
    + destruct (Rlt_dec x mu) as [B|B].
      * exfalso. apply A. apply Ropp_lt_cancel. rewrite Ropp_0. replace (- ((x - mu) / (sl * k))) with ((mu - x) / (sl * k)) by (field; split; apply Rgt_not_eq; assumption).
        apply Rdiv_lt_0_compat; [lra|]. now apply Rmult_lt_0_compat.
      * f_equal. f_equal. replace (((x - mu) / (sl * k) / k) ^ 2) with ((x - mu) ^ 2 / (sl * (k * k)) ^ 2) by (field; split; apply Rgt_not_eq; assumption).
        rewrite K2. replace (sl * (sr / sl)) with sr by (field; lra). field. apply Rgt_not_eq. assumption.
Qed.

(** ** Uniform and Cauchy *)

Lemma zero_int a b : is_RInt (fun _ : R => 0) a b 0.
Proof.
  pose proof (@is_RInt_const R_NormedModule a b 0) as C. change (scal (b - a) 0) with ((b - a) * 0) in C. rewrite Rmult_0_r in C. exact C.
Qed.

Section Uniform.
Variables low high : R.
Hypothesis LH : low < high.
Let F := uniform_cdf low high.
Lemma F_low x : x <= low -> F (Finite x) = 0.
Proof. intros H. unfold F, uniform_cdf. destruct (Rlt_dec x low); [reflexivity|]. destruct (Rlt_dec x high); [|lra]. replace (x - low) with 0 by lra. lra. Qed.
Lemma F_mid x : low <= x <= high -> F (Finite x) = (x - low) / (high - low).
Proof. intros H. unfold F, uniform_cdf. destruct (Rlt_dec x low); [lra|]. destruct (Rlt_dec x high); [reflexivity|]. replace x with high by lra. field. lra. Qed.
Lemma F_high x : high <= x -> F (Finite x) = 1.
Proof. intros H. unfold F, uniform_cdf. destruct (Rlt_dec x low); [lra|]. destruct (Rlt_dec x high); [lra|reflexivity]. Qed.
Lemma frac_01 x : low <= x <= high -> 0 <= (x - low) / (high - low) <= 1.
Proof.
  intros H. split; [apply Rcomplements.Rdiv_le_0_compat; lra|]. apply (Rmult_le_reg_r (high - low)); [lra|]. unfold Rdiv. rewrite Rmult_assoc, Rinv_l by lra. lra.
Qed.
Lemma F_01 x : 0 <= F x <= 1.
Proof.
  destruct x as [x| |]; [|cbn; lra|cbn; lra]. destruct (Rle_dec x low); [rewrite F_low by assumption; lra|]. destruct (Rle_dec high x); [rewrite F_high by assumption; lra|].
  rewrite F_mid by lra. apply frac_01. lra.
Qed.
Lemma seg a b : a <= b -> (b <= low \/ low <= a /\ b <= high \/ high <= a) -> is_RInt (uniform low high) a b (F b - F a).
Proof.
  intros AB [H|[[H1 H2]|H]].
  - rewrite !F_low by lra. rewrite Rminus_0_r. apply (is_RInt_ext (fun _ => 0)).
    + intros x [X1 X2]. rewrite Rmax_right in X2 by lra. unfold uniform, tfp_uniform. destruct (Rlt_dec x low); [reflexivity|lra].
    + apply zero_int.
  - rewrite !F_mid by lra. apply (is_RInt_ext (fun _ => 1 / (high - low))).
    + intros x [X1 X2]. rewrite Rmin_left in X1 by lra. rewrite Rmax_right in X2 by lra. unfold uniform, tfp_uniform. destruct (Rlt_dec x low); [lra|]. destruct (Rlt_dec x high); [reflexivity|lra].
    + replace ((b - low) / (high - low) - (a - low) / (high - low)) with (scal (b - a) (1 / (high - low))). { apply (@is_RInt_const R_NormedModule). }
      change ((b - a) * (1 / (high - low)) = (b - low) / (high - low) - (a - low) / (high - low)). field. lra.
  - rewrite !F_high by lra. replace (1 - 1) with 0 by ring. apply (is_RInt_ext (fun _ => 0)).
    + intros x [X1 X2]. rewrite Rmin_left in X1 by lra. unfold uniform, tfp_uniform. destruct (Rlt_dec x low); [reflexivity|]. destruct (Rlt_dec x high); [lra|reflexivity].
    + apply zero_int.
Qed.
Lemma chasles a b c : is_RInt (uniform low high) a b (F b - F a) -> is_RInt (uniform low high) b c (F c - F b) -> is_RInt (uniform low high) a c (F c - F a).
Proof.
  intros A B. replace (F c - F a) with (plus (F b - F a) (F c - F b)) by (change (F b - F a + (F c - F b) = F c - F a); ring). exact (is_RInt_Chasles _ _ _ _ _ _ A B).
Qed.
Lemma uniform_int a b : a <= b -> is_RInt (uniform low high) a b (F b - F a).
Proof.
  intros AB. destruct (Rle_dec b low); [apply seg; auto|]. destruct (Rle_dec high a); [apply seg; auto|].
  destruct (Rle_dec low a); [destruct (Rle_dec b high); [apply seg; [exact AB|right; left; lra]|]|].
  - apply (chasles a high b); apply seg; try lra; auto.
  - apply (chasles a low b); [apply seg; lra|]. destruct (Rle_dec b high); [apply seg; lra|]. apply (chasles low high b); apply seg; lra.
Qed.
Lemma uniform_proper : proper (uniform_dist low high).
Proof.
  constructor.
  - intros a b H. change (F a <= F b). destruct a as [a| |], b as [b| |]; cbn in H; try contradiction; try exact (proj2 (F_01 _)); try exact (proj1 (F_01 _)).
    destruct (Rle_dec a low); [rewrite (F_low a) by assumption; apply F_01|]. destruct (Rle_dec high b); [rewrite (F_high b) by assumption; apply F_01|].
    rewrite !F_mid by lra. unfold Rdiv. apply Rmult_le_compat_r; [|lra]. apply Rlt_le, Rinv_0_lt_compat. lra.
  - reflexivity.
  - reflexivity.
  - intros q u x E [U0 U1]. injection E as <-. cbn [cdf uniform_dist]. change (low + (high - low) * u <= x <-> u <= F (Finite x)).
    destruct (Rle_dec x low); [rewrite F_low by assumption|destruct (Rle_dec high x); [rewrite F_high by assumption|rewrite F_mid by lra]].
    + split; intros H; [|lra]. exfalso. assert (0 < (high - low) * u) by (apply Rmult_lt_0_compat; lra). lra.
    + split; intros H; [lra|]. assert ((high - low) * u <= (high - low) * 1) by (apply Rmult_le_compat_l; lra). lra.
    + assert (W : (x - low) / (high - low) * (high - low) = x - low) by (field; lra). split; intros H.
      * apply (Rmult_le_reg_r (high - low)); lra.
      * apply (Rmult_le_compat_r (high - low)) in H; lra.
  - intros a b H. apply (uniform_int a b H).
Qed.
End Uniform.

Section Cauchy.
Variables loc scale : R.
Hypothesis S : 0 < scale.
Let F := cauchy_cdf loc scale.
Lemma F_in x : 0 < F (Finite x) < 1.
Proof.
  unfold F, cauchy_cdf. pose proof PI_RGT_0. destruct (atan_bound ((x - loc) / scale)) as [A B].
  assert (-1 / 2 < atan ((x - loc) / scale) / PI < 1 / 2); [|lra]. split.
  - apply (Rmult_lt_reg_r PI); [assumption|]. unfold Rdiv at 2. rewrite Rmult_assoc, Rinv_l by lra. lra.
  - apply (Rmult_lt_reg_r PI); [assumption|]. unfold Rdiv at 1. rewrite Rmult_assoc, Rinv_l by lra. lra.
Qed.
Lemma F_mono a b : a <= b -> F (Finite a) <= F (Finite b).
Proof.
  intros [H|H]; [|subst; lra]. unfold F, cauchy_cdf. apply Rplus_le_compat_r. unfold Rdiv. apply Rmult_le_compat_r; [apply Rlt_le, Rinv_0_lt_compat, PI_RGT_0|].
  apply Rlt_le, atan_increasing. apply Rmult_lt_compat_r; [now apply Rinv_0_lt_compat|lra].
Qed.
Lemma cauchy_proper : proper (cauchy_dist loc scale).
Proof.
  pose proof PI_RGT_0 as P. constructor.
  - intros a b H. change (F a <= F b). destruct a as [a| |], b as [b| |]; cbn in H; try contradiction; try exact (Rlt_le _ _ (proj2 (F_in _))); try exact (Rlt_le _ _ (proj1 (F_in _))); try (cbn; lra).
    apply F_mono. exact H.
  - reflexivity.
  - reflexivity.
  - intros q u x E [U0 U1]. injection E as <-. cbn [cdf cauchy_dist cauchy_cdf].
    assert (RG : - (PI / 2) < PI * (u - 1 / 2) < PI / 2).
    { split; [assert (0 < PI * u) by (apply Rmult_lt_0_compat; lra); lra|assert (PI * u < PI * 1) by (apply Rmult_lt_compat_l; lra); lra]. }
    assert (AT : atan (tan (PI * (u - 1 / 2))) = PI * (u - 1 / 2)) by (apply atan_tan; lra).
    set (t := tan (PI * (u - 1 / 2))) in *. set (y := (x - loc) / scale). assert (Y : y * scale = x - loc) by (unfold y; field; lra).
    assert (E1 : loc + scale * t <= x <-> t <= y).
    { split; intros H; [apply (Rmult_le_reg_r scale); lra|apply (Rmult_le_compat_r scale) in H; lra]. }
    assert (E2 : t <= y <-> atan t <= atan y).
    { split; intros [H|H]; [left; now apply atan_increasing|right; now rewrite H| |].
      - destruct (Rle_lt_dec t y) as [L|L]; [exact L|]. apply atan_increasing in L. lra.
      - destruct (Rtotal_order t y) as [L|[L|L]]; [lra|lra|apply atan_increasing in L; lra]. }
    rewrite E1, E2, AT. assert (W : atan y / PI * PI = atan y) by (field; lra). split; intros H.
    + apply (Rmult_le_reg_r PI); [exact P|]. lra.
    + apply (Rmult_le_compat_r PI) in H; lra.
  - intros a b H. cbn [prob cdf cauchy_dist].
    apply (is_RInt_derive (fun x => atan ((x - loc) / scale) / PI + 1 / 2)).
    + intros x _. unfold cauchy, tfp_cauchy. set (y := (x - loc) / scale).
      assert (D : is_derive (fun x => atan ((x - loc) / scale) / PI + 1 / 2) x (scal (/ scale) (/ (1 + y ^ 2)) / PI + 0)).
      { apply (is_derive_plus (fun x => atan ((x - loc) / scale) / PI) (fun _ => 1 / 2)); [|apply (@is_derive_const R_AbsRing R_NormedModule)].
        apply (is_derive_ext (fun x => scal (/ PI) (atan ((x - loc) / scale)))); [intros t; apply Rmult_comm|].
        replace (scal (/ scale) (/ (1 + y ^ 2)) / PI) with (scal (/ PI) (scal (/ scale) (/ (1 + y ^ 2)))) by (apply Rmult_comm).
        apply is_derive_scal. apply (is_derive_comp atan (fun x => (x - loc) / scale)).
        - apply is_derive_Reals. fold y. exact (derivable_pt_lim_atan y).
        - auto_derive; [trivial|]. field. lra. }
      replace (1 / (PI * scale * (1 + y ^ 2))) with (scal (/ scale) (/ (1 + y ^ 2)) / PI + 0); [exact D|].
      change (/ scale * / (1 + y ^ 2) / PI + 0 = 1 / (PI * scale * (1 + y ^ 2))). assert (1 + y ^ 2 <> 0) by (pose proof (pow2_ge_0 y); lra). field. repeat split; lra.
    + intros x _. apply (ex_derive_continuous (fun x => tfp_cauchy loc scale x)). unfold tfp_cauchy. auto_derive.
      pose proof (pow2_ge_0 ((x - loc) / scale)). apply Rgt_not_eq. apply Rmult_lt_0_compat; [apply Rmult_lt_0_compat; assumption|]. unfold Rdiv, Rminus in *. cbn in *. lra.
Qed.
End Cauchy.
