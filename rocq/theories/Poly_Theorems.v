(** * C40, C61: polynomial PDFs

    C40 (analytic integrals of the polynomial PDFs are the true integrals): for every degree, coefficients, range of the PDF and limits. Proved if the PDF rescales its
    range (the default). With apply_scaling=False the integrals of all of them are wrong (C40_unscaled_refuted, C40_bernstein_unscaled_refuted).
    C61: the PDFs are series in the polynomials of their names. *)
From Coq Require Import Reals Lra Lia.
From Coquelicot Require Import Coquelicot.
From Verif Require Import Base BaseLemmas Poly_Model Poly_Spec Poly_Proofs Poly_Proofs2 Poly_Proofs3.
Import ListNotations.
#[local] Open Scope R_scope.
#[local] Notation length := List.length.

(** The PDF with coefficients c0 (one if not given) and cs on the range from lo to hi, rescaled *)
Notation pdf_of F c0 cs lo hi := (recursive_pdf F (recursive_init c0 cs true lo hi)).

Theorem C40_legendre c0 cs lo hi a b : lo < hi ->
  exists v, legendre_integral (recursive_init c0 cs true lo hi) a b = Ok v /\ is_RInt (pdf_of legendre c0 cs lo hi) a b v.
Proof.
  intros H. eexists. split; [apply legendre_integral_ok|]. eapply is_RInt_ext; [intros x _; symmetry; apply recursive_pdf_series|].
  exact (scaled_integral _ _ (recursive_init c0 cs true lo hi) a b (legendre_primitive (all_coeffs c0 cs)) eq_refl H).
Qed.
Theorem C40_chebyshev c0 cs lo hi a b : lo < hi ->
  exists v, chebyshev_integral (recursive_init c0 cs true lo hi) a b = Ok v /\ is_RInt (pdf_of chebyshev c0 cs lo hi) a b v.
Proof.
  intros H. eexists. split; [apply chebyshev_integral_ok|]. eapply is_RInt_ext; [intros x _; symmetry; apply recursive_pdf_series|].
  exact (scaled_integral _ _ (recursive_init c0 cs true lo hi) a b (chebyshev_primitive (all_coeffs c0 cs)) eq_refl H).
Qed.
Theorem C40_chebyshev2 c0 cs lo hi a b : lo < hi ->
  exists v, chebyshev2_integral (recursive_init c0 cs true lo hi) a b = Ok v /\ is_RInt (pdf_of chebyshev2 c0 cs lo hi) a b v.
Proof.
  intros H. eexists. split; [apply chebyshev2_integral_ok|]. eapply is_RInt_ext; [intros x _; symmetry; apply recursive_pdf_series|].
  exact (scaled_integral _ _ (recursive_init c0 cs true lo hi) a b (cheb2_primitive (all_coeffs c0 cs)) eq_refl H).
Qed.
Theorem C40_hermite c0 cs lo hi a b : lo < hi ->
  exists v, hermite_integral (recursive_init c0 cs true lo hi) a b = Ok v /\ is_RInt (pdf_of hermite c0 cs lo hi) a b v.
Proof.
  intros H. eexists. split; [apply hermite_integral_ok|]. eapply is_RInt_ext; [intros x _; symmetry; apply recursive_pdf_series|].
  exact (scaled_integral _ _ (recursive_init c0 cs true lo hi) a b (hermite_primitive (all_coeffs c0 cs)) eq_refl H).
Qed.
Theorem C40_laguerre c0 cs lo hi a b : lo < hi ->
  exists v, laguerre_integral (recursive_init c0 cs true lo hi) a b = Ok v /\ is_RInt (pdf_of (laguerre 0) c0 cs lo hi) a b v.
Proof.
  intros H. eexists. split; [apply laguerre_integral_ok|]. eapply is_RInt_ext; [intros x _; symmetry; apply recursive_pdf_series|].
  exact (scaled_integral _ _ (recursive_init c0 cs true lo hi) a b (laguerre_primitive (all_coeffs c0 cs)) eq_refl H).
Qed.
(** Bernstein PDFs have at least one coefficient; without any the evaluation raises. *)
Theorem C40_bernstein cs lo hi a b : lo < hi -> cs <> [] ->
  exists f v, (forall x, bernstein_pdf (bernstein_init cs true lo hi) x = Ok (f x)) /\ bernstein_integral (bernstein_init cs true lo hi) a b = Ok v /\ is_RInt f a b v.
Proof.
  intros H NE. set (r := fun x => rescale_zero_one x lo hi).
  exists (fun x => beta (length cs - 1) (fun k => nth k cs 0) (r x)). eexists. split; [|split].
  - intros x. unfold bernstein_pdf. cbn [m_params bernstein_init]. rewrite enumerate_to_list. apply de_casteljau_ok; assumption.
  - unfold bernstein_integral, bernstein_integral_to. cbn [m_params bernstein_init]. rewrite enumerate_to_list.
    assert (NI : coeffs_int cs <> []) by (intros E; apply (f_equal (@length R)) in E; rewrite coeffs_int_length in E; discriminate).
    rewrite !de_casteljau_ok by assumption. cbn [bind]. reflexivity.
  - rewrite coeffs_int_length. replace (S (length cs) - 1)%nat with (length cs) by lia.
    apply (scaled01_integral (beta (length cs) (fun k => nth k (coeffs_int cs) 0)) (beta (length cs - 1) (fun k => nth k cs 0))); [|exact H].
    split; intros x; [now apply bernstein_prim_der|apply beta_cont].
Qed.
Theorem C40_bernstein_empty cs lo hi x : bernstein_pdf (bernstein_init cs true lo hi) x = Err ValueError <-> cs = [].
Proof. unfold bernstein_pdf. cbn [m_params bernstein_init]. rewrite enumerate_to_list. apply de_casteljau_nil. Qed.

(** Hence the density divided by the integral over the range of the PDF integrates to one, if that integral is not zero. *)
Theorem C40_normalised (F : family) (integral : model -> R -> R -> result R) c0 cs lo hi :
  In (F, integral) [(legendre, legendre_integral); (chebyshev, chebyshev_integral); (chebyshev2, chebyshev2_integral); (hermite, hermite_integral); (laguerre 0, laguerre_integral)] ->
  lo < hi -> exists v, integral (recursive_init c0 cs true lo hi) lo hi = Ok v /\ (v <> 0 -> is_RInt (fun x => pdf_of F c0 cs lo hi x / v) lo hi 1).
Proof.
  intros HI H. assert (K : exists v, integral (recursive_init c0 cs true lo hi) lo hi = Ok v /\ is_RInt (pdf_of F c0 cs lo hi) lo hi v).
  { destruct HI as [E|[E|[E|[E|[E|[]]]]]]; injection E as <- <-; [now apply C40_legendre|now apply C40_chebyshev|now apply C40_chebyshev2|now apply C40_hermite|now apply C40_laguerre]. }
  destruct K as (v & E & K). exists v. split; [exact E|]. intros NZ.
  pose proof (is_RInt_scal (V := R_NormedModule) _ lo hi (/ v) _ K) as K2. change (is_RInt (fun x => / v * pdf_of F c0 cs lo hi x) lo hi (/ v * v)) in K2. rewrite Rinv_l in K2 by assumption.
  eapply is_RInt_ext; [|exact K2]. intros x _. change (/ v * pdf_of F c0 cs lo hi x = pdf_of F c0 cs lo hi x / v). unfold Rdiv. apply Rmult_comm.
Qed.

(** ** Without scaling *)
(** With apply_scaling=False the values returned are the true integrals times half of the length of the range, so they are wrong unless the range has the length two. *)
Theorem C40_unscaled_refuted (F : family) (integral : model -> R -> R -> result R) c0 cs lo hi a b :
  In (F, integral) [(legendre, legendre_integral); (chebyshev, chebyshev_integral); (chebyshev2, chebyshev2_integral); (hermite, hermite_integral); (laguerre 0, laguerre_integral)] ->
  exists v, is_RInt (recursive_pdf F (recursive_init c0 cs false lo hi)) a b v /\ integral (recursive_init c0 cs false lo hi) a b = Ok (v * ((hi - lo) / 2)) /\
    (v <> 0 -> hi - lo <> 2 -> integral (recursive_init c0 cs false lo hi) a b <> Ok v).
Proof.
  intros HI.
  assert (K : forall G g, primitive G g -> (forall x, recursive_pdf F (recursive_init c0 cs false lo hi) x = g x) ->
    integral (recursive_init c0 cs false lo hi) a b = Ok ((G (rescale (recursive_init c0 cs false lo hi) b) - G (rescale (recursive_init c0 cs false lo hi) a)) * (/ 2 * volume (recursive_init c0 cs false lo hi))) ->
    exists v, is_RInt (recursive_pdf F (recursive_init c0 cs false lo hi)) a b v /\ integral (recursive_init c0 cs false lo hi) a b = Ok (v * ((hi - lo) / 2)) /\
    (v <> 0 -> hi - lo <> 2 -> integral (recursive_init c0 cs false lo hi) a b <> Ok v)).
  { intros G g HP HE EI. exists (G b - G a).
    assert (E : integral (recursive_init c0 cs false lo hi) a b = Ok ((G b - G a) * ((hi - lo) / 2))).
    { rewrite EI. f_equal. unfold rescale, volume. cbn. field. }
    split; [eapply is_RInt_ext; [intros x _; symmetry; apply HE|]; now apply unscaled_integral|]. split; [exact E|].
    intros N1 N2. rewrite E. intros X. injection X as X. apply N2. apply (Rmult_eq_reg_l (G b - G a)); [|exact N1]. lra. }
  destruct HI as [E|[E|[E|[E|[E|[]]]]]]; injection E as <- <-.
  - eapply K; [apply (legendre_primitive (all_coeffs c0 cs))|intros x; apply recursive_pdf_series|apply (legendre_integral_ok c0 cs false lo hi a b)].
  - eapply K; [apply (chebyshev_primitive (all_coeffs c0 cs))|intros x; apply recursive_pdf_series|apply (chebyshev_integral_ok c0 cs false lo hi a b)].
  - eapply K; [apply (cheb2_primitive (all_coeffs c0 cs))|intros x; apply recursive_pdf_series|apply (chebyshev2_integral_ok c0 cs false lo hi a b)].
  - eapply K; [apply (hermite_primitive (all_coeffs c0 cs))|intros x; apply recursive_pdf_series|apply (hermite_integral_ok c0 cs false lo hi a b)].
  - eapply K; [apply (laguerre_primitive (all_coeffs c0 cs))|intros x; apply recursive_pdf_series|apply (laguerre_integral_ok c0 cs false lo hi a b)].
Qed.
(** A Bernstein PDF with apply_scaling=False: the integral is computed as if it were rescaled. The density x on the range from 0 to 2 integrates to 2, the code says 1. *)
Theorem C40_bernstein_unscaled_refuted :
  let m := bernstein_init [0; 1] false 0 2 in
  (forall x, bernstein_pdf m x = Ok x) /\ is_RInt (fun x => x) 0 2 2 /\ bernstein_integral m 0 2 = Ok 1.
Proof.
  intros m. split; [|split].
  - intros x. unfold bernstein_pdf, m, de_casteljau, rescale01. cbn. f_equal. ring.
  - assert (K : is_RInt (fun x : R => x) 0 2 (minus ((fun x => x * x / 2) 2) ((fun x => x * x / 2) 0))).
    { apply (is_RInt_derive (fun x => x * x / 2) (fun x => x)).
      - intros x _. auto_derive; [auto|]. field.
      - intros x _. apply continuous_id. }
    replace 2 with (minus (2 * 2 / 2) (0 * 0 / 2)) at 2; [exact K|]. unfold minus, plus, opp; cbn. field.
  - unfold bernstein_integral, bernstein_integral_to, m, de_casteljau, coeffs_int, rescale_zero_one, volume. cbn. f_equal. field.
Qed.

(** ** C61 *)
Theorem C61_chebyshev c0 cs lo hi th : lo < hi ->
  pdf_of chebyshev c0 cs lo hi (at_pm lo hi (cos th)) = series (fun n => cos (INR n * th)) (match c0 with None => 1 | Some c => c end :: cs).
Proof.
  intros H. rewrite recursive_pdf_series. unfold series. apply series_ext. intros n _. rewrite <- T_cos. f_equal. unfold rescale, rescale_minus_plus_one, at_pm. cbn. field. lra.
Qed.
Theorem C61_chebyshev2 c0 cs lo hi th : lo < hi ->
  pdf_of chebyshev2 c0 cs lo hi (at_pm lo hi (cos th)) * sin th = series (fun n => sin ((INR n + 1) * th)) (match c0 with None => 1 | Some c => c end :: cs).
Proof.
  intros H. rewrite recursive_pdf_series. unfold series. rewrite series_mult. apply series_ext. intros n _. rewrite <- U_sin. f_equal. f_equal. unfold rescale, rescale_minus_plus_one, at_pm. cbn. field. lra.
Qed.
Lemma at_pm_rescale F c0 cs lo hi t : lo < hi -> pdf_of F c0 cs lo hi (at_pm lo hi t) = series (fun n => P F n t) (match c0 with None => 1 | Some c => c end :: cs).
Proof.
  intros H. rewrite recursive_pdf_series. apply series_ext. intros n _. f_equal. unfold rescale, rescale_minus_plus_one, at_pm. cbn. field. lra.
Qed.
Theorem C61_legendre : exists p : nat -> R -> R, (forall n, legendre_polynomial n (p n)) /\
  forall c0 cs lo hi t, lo < hi -> pdf_of legendre c0 cs lo hi (at_pm lo hi t) = series (fun n => p n t) (match c0 with None => 1 | Some c => c end :: cs).
Proof.
  exists L. split; [|intros; now apply at_pm_rescale]. intros n. split; [apply L_one|]. exists (dL n), (ddL n).
  split; [split; [apply L_der|apply dL_der]|apply L_ode].
Qed.
Theorem C61_laguerre : exists p : nat -> R -> R, (forall n, laguerre_polynomial n (p n)) /\
  forall c0 cs lo hi t, lo < hi -> pdf_of (laguerre 0) c0 cs lo hi (at_pm lo hi t) = series (fun n => p n t) (match c0 with None => 1 | Some c => c end :: cs).
Proof.
  exists La. split; [|intros; now apply at_pm_rescale]. intros n. split; [apply La_zero|]. exists (dLa n), (ddLa n).
  split; [split; [apply La_der|apply dLa_der]|apply La_ode].
Qed.
Theorem C61_hermite : exists p : nat -> R -> R, (forall n, hermite_polynomial n (p n)) /\
  forall c0 cs lo hi t, lo < hi -> pdf_of hermite c0 cs lo hi (at_pm lo hi t) = series (fun n => p n t) (match c0 with None => 1 | Some c => c end :: cs).
Proof. exists (P hermite). split; [|intros; now apply at_pm_rescale]. intros n x. apply hermite_rodrigues. Qed.
Theorem C61_bernstein cs lo hi t : lo < hi -> cs <> [] ->
  bernstein_pdf (bernstein_init cs true lo hi) (at_01 lo hi t) = Ok (series (fun k => bernstein_polynomial (length cs - 1) k t) cs).
Proof.
  intros H NE. unfold bernstein_pdf. cbn [m_params bernstein_init]. rewrite enumerate_to_list. rewrite de_casteljau_ok by assumption. rewrite <- beta_series by assumption.
  f_equal. f_equal. unfold rescale01, rescale_zero_one, at_01. cbn. field. lra.
Qed.
(** A Bernstein PDF whose coefficients are not negative is not negative within its range. *)
Theorem C61_bernstein_nonnegative cs lo hi x : lo < hi -> cs <> [] -> Forall (fun c => 0 <= c) cs -> lo <= x <= hi ->
  exists v, bernstein_pdf (bernstein_init cs true lo hi) x = Ok v /\ 0 <= v.
Proof.
  intros H NE HF Hx. unfold bernstein_pdf. cbn [m_params bernstein_init]. rewrite enumerate_to_list. rewrite de_casteljau_ok by assumption. eexists. split; [reflexivity|].
  apply beta_nonneg.
  - unfold rescale01, rescale_zero_one. cbn. split; [apply Rcomplements.Rdiv_le_0_compat; lra|]. apply Rcomplements.Rle_div_l; lra.
  - intros k _. destruct (Nat.lt_ge_cases k (length cs)) as [Hk|Hk]; [|rewrite nth_overflow by assumption; lra]. rewrite Forall_forall in HF. apply HF, nth_In, Hk.
Qed.
(** Without scaling, the polynomials are taken at the coordinate itself. *)
Theorem C61_unscaled F c0 cs lo hi x : recursive_pdf F (recursive_init c0 cs false lo hi) x = recursive_pdf F (recursive_init c0 cs true (-1) 1) x.
Proof. unfold recursive_pdf, rescale, rescale_minus_plus_one. cbn [m_scale m_params m_lo m_hi recursive_init]. f_equal. field. Qed.

(** Examples: 1 + t/2 + (3 t^2 - 1)/2 * 2 on the range from 0 to 4 *)
Example ex_legendre : legendre_integral (recursive_init None [/ 2; 2] true 0 4) 2 4 = Ok (5 / 2) /\ recursive_pdf legendre (recursive_init None [/ 2; 2] true 0 4) 4 = 7 / 2.
Proof.
  split; [unfold legendre_integral, legendre_indefinite, rescale, rescale_minus_plus_one, volume; cbn; f_equal; field|].
  unfold recursive_pdf, rescale, rescale_minus_plus_one, create_poly; cbn. field.
Qed.
Example ex_chebyshev : chebyshev_integral (recursive_init (Some 3) [1; 0; 2] true 0 2) 1 2 = Ok (5 / 2) /\ recursive_pdf chebyshev (recursive_init (Some 3) [1; 0; 2] true 0 2) 2 = 6.
Proof.
  split; [unfold chebyshev_integral, chebyshev_indefinite, rescale, rescale_minus_plus_one, volume; cbn; f_equal; field|].
  unfold recursive_pdf, rescale, rescale_minus_plus_one, create_poly; cbn. field.
Qed.
Example ex_bernstein : bernstein_integral (bernstein_init [1; 3; 2] true 0 2) 0 2 = Ok 4 /\ bernstein_pdf (bernstein_init [1; 3; 2] true 0 2) 1 = Ok (9 / 4).
Proof.
  split; [unfold bernstein_integral, bernstein_integral_to, de_casteljau, coeffs_int, rescale_zero_one, volume; cbn; f_equal; field|].
  unfold bernstein_pdf, de_casteljau, rescale01, rescale_zero_one; cbn. f_equal. field.
Qed.

Print Assumptions C40_legendre.
Print Assumptions C40_chebyshev.
Print Assumptions C40_chebyshev2.
Print Assumptions C40_hermite.
Print Assumptions C40_laguerre.
Print Assumptions C40_bernstein.
Print Assumptions C40_bernstein_empty.
Print Assumptions C40_normalised.
Print Assumptions C40_unscaled_refuted.
Print Assumptions C40_bernstein_unscaled_refuted.
Print Assumptions C61_chebyshev.
Print Assumptions C61_chebyshev2.
Print Assumptions C61_legendre.
Print Assumptions C61_laguerre.
Print Assumptions C61_hermite.
Print Assumptions C61_bernstein.
Print Assumptions C61_bernstein_nonnegative.
Print Assumptions C61_unscaled.
