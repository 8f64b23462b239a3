(** C80: PDFs that wrap a distribution of TensorFlow Probability. *)
From Coq Require Import Reals List Lra Lia.
From Coquelicot Require Import Coquelicot.
From Verif Require Import Base BaseLemmas Tfd_Model Tfd_Spec Tfd_Proofs Tfd_Proofs2.
Import ListNotations.
#[local] Open Scope R_scope.
Set Bullet Behavior "Strict Subproofs".

(** ** The shapes are the documented ones *)

Theorem C80_gauss mu sigma : 0 < sigma -> same_shape everywhere (gauss mu sigma) (doc_gauss mu sigma).
Proof.
  intros S. exists (/ (sigma * sqrt (2 * PI))). split; [apply Rinv_0_lt_compat, Rmult_lt_0_compat; [exact S|apply sqrt_2pi]|]. intros x _. apply normal_shape. exact S.
Qed.
Theorem C80_cauchy m gamma : 0 < gamma -> same_shape everywhere (cauchy m gamma) (doc_cauchy m gamma).
Proof.
  intros S. pose proof PI_RGT_0 as P. exists (/ PI). split; [now apply Rinv_0_lt_compat|]. intros x _. unfold cauchy, tfp_cauchy, doc_cauchy.
  assert (N : 0 < 1 + ((x - m) / gamma) ^ 2) by (pose proof (pow2_ge_0 ((x - m) / gamma)); lra). set (y := 1 + ((x - m) / gamma) ^ 2) in *. clearbody y. field. repeat split; lra.
Qed.
(** Exactly, with the normalisation *)
Theorem C80_lognormal mu sigma x : 0 < sigma -> 0 < x -> lognormal mu sigma x = doc_lognormal mu sigma x.
Proof.
  intros S X. unfold lognormal, tfp_lognormal, doc_lognormal. rewrite normal_shape by exact S. pose proof sqrt_2pi as Q. set (e := exp _). field. repeat split; lra.
Qed.
Theorem C80_chisquared ndof x : chisquared ndof x = doc_chisquared ndof x.
Proof. unfold chisquared, tfp_chi2, doc_chisquared. do 2 f_equal. field. Qed.
Theorem C80_studentt ndof mu sigma : 0 < ndof -> 0 < sigma -> same_shape everywhere (studentt ndof mu sigma) (doc_studentt ndof mu sigma).
Proof.
  intros N S. exists (/ sigma). split; [now apply Rinv_0_lt_compat|]. intros x _. unfold studentt, tfp_student, doc_studentt. unfold Rdiv at 1. rewrite Rmult_comm. f_equal.
  f_equal; field; lra.
Qed.
(** Exactly, with the normalisation *)
Theorem C80_bifurgauss mu sigmal sigmar x : 0 < sigmal -> 0 < sigmar -> bifurgauss mu sigmal sigmar x = doc_bifurgauss mu sigmal sigmar x.
Proof. apply bifur_value. Qed.
Theorem C80_gamma gamma beta mu x : 0 < beta -> gamma_pdf gamma beta mu x = doc_gamma gamma beta mu x.
Proof. intros B. unfold gamma_pdf, tfp_shift, tfp_gamma, doc_gamma. f_equal. f_equal. field. lra. Qed.
(** Exactly, with the normalisation *)
Theorem C80_johnsonsu mu lambd gamma delta x : 0 < lambd -> 0 < delta -> johnsonsu mu lambd gamma delta x = doc_johnsonsu mu lambd gamma delta x.
Proof.
  intros L D. unfold johnsonsu, tfp_johnson_su, doc_johnsonsu. rewrite normal_shape by lra. set (y := (x - mu) / lambd).
  assert (Y : 0 < sqrt (1 + y ^ 2)) by (apply sqrt_lt_R0; pose proof (pow2_ge_0 y); lra). pose proof sqrt_2pi as Q.
  replace (- ((gamma + delta * arcsinh y - 0) ^ 2 / (2 * 1 ^ 2))) with (- (1 / 2) * (gamma + delta * arcsinh y) ^ 2) by field.
  set (e := exp _). field. repeat split; lra.
Qed.
Theorem C80_generalizedgauss mu sigma beta : 0 < sigma -> same_shape (fun x => x <> mu) (generalizedgauss mu sigma beta) (doc_generalizedgauss mu sigma beta).
Proof.
  intros S. exists (/ sigma). split; [now apply Rinv_0_lt_compat|]. intros x X. unfold generalizedgauss, tfp_generalized_normal, doc_generalizedgauss, abs_power.
  destruct (Req_EM_T ((x - mu) / sigma) 0) as [E|E].
  - exfalso. apply X. apply (Rmult_eq_compat_r sigma) in E. unfold Rdiv in E. rewrite Rmult_assoc, Rinv_l in E by lra. lra.
  - unfold Rdiv at 1. rewrite Rmult_comm. f_equal. do 3 f_equal. unfold Rdiv. rewrite Rabs_mult. f_equal. apply Rabs_right. apply Rle_ge, Rlt_le, Rinv_0_lt_compat, S.
Qed.
(** Constant between low and high, zero elsewhere (at high, too). *)
Theorem C80_uniform low high x : low < high ->
  uniform low high x = if Rle_dec low x then if Rlt_dec x high then / (high - low) else 0 else 0.
Proof. intros H. unfold uniform, tfp_uniform. destruct (Rlt_dec x low), (Rle_dec low x), (Rlt_dec x high); try lra; unfold Rdiv; lra. Qed.

(** QGauss is the documented shape with another width: larger by a factor of the square root of two. *)
Theorem C80_qgauss_partial q mu sigma : 1 < q < 3 -> 0 < sigma -> same_shape everywhere (qgauss q mu sigma) (doc_qgauss q mu (sqrt 2 * sigma)).
Proof.
  intros Q S. exists (sqrt (1 / 2 * (3 - q)) / sigma). split; [apply Rdiv_lt_0_compat; [apply sqrt_lt_R0; lra|exact S]|]. intros x _. rewrite qgauss_value by assumption.
  f_equal. unfold doc_qgauss, e_q. assert (R2 : sqrt 2 * sqrt 2 = 2) by (apply sqrt_sqrt; lra). assert (R0 : 0 < sqrt 2) by (apply sqrt_lt_R0; lra). f_equal.
  - replace (((x - mu) / (sqrt 2 * sigma)) ^ 2) with ((x - mu) ^ 2 / ((sqrt 2 * sqrt 2) * sigma ^ 2)) by (field; lra). rewrite R2. field. lra.
  - field. split; lra.
Qed.
(** Finding: QGauss does not have the documented shape. *)
Theorem C80_qgauss_refuted : exists q mu sigma, 1 < q < 3 /\ 0 < sigma /\ ~ same_shape everywhere (qgauss q mu sigma) (doc_qgauss q mu sigma).
Proof.
  exists 2, 0, 1. split; [lra|]. split; [lra|]. intros (c&C&H). pose proof (H 0 I) as H0. pose proof (H 1 I) as H1. rewrite qgauss_value in H0, H1 by lra. unfold doc_qgauss, e_q in *.
  set (k := sqrt (1 / 2 * (3 - 2)) / 1) in *. assert (K : 0 < k) by (apply Rdiv_lt_0_compat; [apply sqrt_lt_R0|]; lra).
  replace (1 + (2 - 1) / 2 * ((0 - 0) / 1) ^ 2) with 1 in H0 by field. replace (1 + (1 - 2) * - ((0 - 0) / 1) ^ 2) with 1 in H0 by field.
  replace (1 + (2 - 1) / 2 * ((1 - 0) / 1) ^ 2) with (3 / 2) in H1 by field. replace (1 + (1 - 2) * - ((1 - 0) / 1) ^ 2) with 2 in H1 by field.
  replace (- (1 / (2 - 1))) with (- (1)) in H0, H1 by field. replace (1 / (1 - 2)) with (- (1)) in H0, H1 by field.
  assert (RI : forall y, 0 < y -> Rpower y (- (1)) = / y) by (intros y Y; rewrite Rpower_Ropp, Rpower_1 by exact Y; reflexivity). rewrite (RI 1 ltac:(lra)) in H0. rewrite (RI 2 ltac:(lra)) in H1. rewrite (RI (3 / 2) ltac:(lra)) in H1. rewrite Rinv_1 in H0. assert (k = c) by lra. subst c. apply Rmult_eq_reg_l in H1; [|lra]. lra.
Qed.
(** Finding: the value q = 3, which is not allowed, is accepted. *)
Theorem C80_q3_refuted : qgauss_accepts 3 = true /\ forall q, 1 < q < 3 -> qgauss_accepts q = true.
Proof.
  split; [|intros q Q]; unfold qgauss_accepts; repeat (match goal with |- context [if ?c then _ else _] => destruct c end; try lra; try reflexivity).
Qed.
Theorem C80_q_refused q : q <= 1 \/ 3 < q -> qgauss_accepts q = false.
Proof. intros H. unfold qgauss_accepts. destruct (Rlt_dec q 1); [reflexivity|]. destruct (Rlt_dec 3 q); [reflexivity|]. destruct (Req_EM_T q 1); [reflexivity|lra]. Qed.

(** ** Integrals *)

(** Over any number of finite limits: the sum of the integrals of the density. *)
Theorem C80_integral d (limits : list (R * R)) : proper d -> Forall (fun ab => fst ab <= snd ab) limits ->
  analytic_integrate d (map (fun ab => (Finite (fst ab), Finite (snd ab))) limits) = Ok (sumR (map (fun ab => RInt (prob d) (fst ab) (snd ab)) limits)).
Proof.
  intros P F. rewrite integrate_ok. f_equal. f_equal. apply map_ext_in. intros [a b] I. rewrite Forall_forall in F. specialize (F _ I). cbn [fst snd] in *.
  symmetry. apply is_RInt_unique. apply (density d P). exact F.
Qed.
(** Finding: there is no integral over infinite limits, and no fall back to another way of integration: InvalidArgumentError. So
    normalising over the whole line, as the documentation has it, fails. *)
Theorem C80_infinite_refuted d limits : (exists a b, In (a, b) limits /\ (is_finite a /\ is_finite b -> False)) ->
  analytic_integrate d limits = Err InvalidArgumentError.
Proof.
  intros H. assert (G : sum_results (map (integrate_one d) limits) = Err InvalidArgumentError).
  { destruct H as (a&b&I&N). induction limits as [|l limits IH]; [destruct I|]. cbn [map sum_results]. destruct I as [->|I].
    - unfold integrate_one. cbn [fst snd]. destruct a as [a| |], b as [b| |]; try reflexivity. exfalso. apply N. split; reflexivity.
    - rewrite (IH I). unfold integrate_one. destruct (is_fin (fst l) && is_fin (snd l)); reflexivity. }
  destruct limits as [|l [|m r]]; [destruct H as (a&b&[]&_)| |exact G]. cbn in G. cbn. destruct (integrate_one d l); [discriminate|exact G].
Qed.

(** ** Samples *)
Section Samples.
Variable rnd : nat -> nat -> R.
Variable ar : nat -> interval -> nat -> list R.
Variable mult : nat -> list R -> list nat.
Hypothesis RND : random rnd.
Hypothesis MULT : is_multinomial mult.
Hypothesis AR : forall i l n, length (ar i l n) = n /\ forall e, In e (ar i l n) -> within (fst l) (snd l) e.

(** One limit, finite or not: an event is below x if and only if its random number is below the share of the probability there. So
    the events follow the density in the limits. *)
Theorem C80_sample_law d q n l e k x : proper d -> quantile d = Some q -> 0 < mass d l ->
  limits_sample rnd ar mult d n [l] = Ok e -> (k < n)%nat -> (nth k e 0 <= x <-> rnd 0%nat k <= share d l x).
Proof.
  intros P Q M H K. cbn in H. unfold call_sample, tfd_analytic_sample in H. rewrite Q in H. injection H as <-.
  rewrite map_map. erewrite nth_indep by (rewrite map_length, seq_length; exact K).
  erewrite (map_nth (fun k => q (cdf d (fst l) + rnd 0%nat k * (cdf d (snd l) - cdf d (fst l)))) (seq 0 n) 0%nat k). rewrite seq_nth by exact K. cbn [plus].
  apply (draw_law d P q (rnd 0%nat k) l x Q (RND 0%nat k) M).
Qed.
(** Without a quantile of the distribution: accept and reject. *)
Theorem C80_sample_fallback d n l : quantile d = None -> limits_sample rnd ar mult d n [l] = Ok (ar 0%nat l n).
Proof. intros Q. cbn. unfold call_sample, tfd_analytic_sample. rewrite Q. reflexivity. Qed.
(** This share is the one of the integrals of the density. *)
Theorem C80_share d (a b x : R) : proper d -> a <= b -> share d (Finite a, Finite b) x = RInt (prob d) a (Rmin (Rmax x a) b) / RInt (prob d) a b.
Proof.
  intros P AB. unfold share, mass. cbn [fst snd].
  assert (C : clamp a b x = Finite (Rmin (Rmax x a) b)).
  { unfold clamp. destruct (Rbar_lt_dec x a) as [H|H]; cbn in H; [rewrite Rmax_right, Rmin_left by lra; reflexivity|].
    destruct (Rbar_lt_dec b x) as [H'|H']; cbn in H'; [rewrite Rmax_left, Rmin_right by lra; reflexivity|]. rewrite Rmax_left, Rmin_left by lra. reflexivity. }
  rewrite C. f_equal; [|f_equal].
  - symmetry. apply is_RInt_unique, (density d P). apply Rmin_glb; [apply Rmax_r|exact AB].
  - symmetry. apply is_RInt_unique, (density d P). exact AB.
Qed.

(** The number of events is the one asked for, and they are inside of the limits, grouped in the order of the limits. *)
Theorem C80_sample_one d n l e : proper d -> 0 < mass d l -> limits_sample rnd ar mult d n [l] = Ok e ->
  length e = n /\ Forall (within (fst l) (snd l)) e.
Proof.
  intros P M H. cbn in H. injection H as <-. split; [apply call_length; apply AR|]. unfold call_sample, tfd_analytic_sample. destruct (quantile d) as [q|] eqn:Q.
  - rewrite map_map. apply Forall_forall. intros x X. apply in_map_iff in X. destruct X as (k&<-&_). apply (draw_within d P q _ l Q (RND _ _) M).
  - apply Forall_forall. intros x X. apply AR in X. exact X.
Qed.
Theorem C80_sample_several d n limits e : proper d -> length limits <> 1%nat -> 0 < sumR (map (mass d) limits) -> Forall (fun l => Rbar_le (fst l) (snd l)) limits ->
  limits_sample rnd ar mult d n limits = Ok e ->
  exists fracs parts, fractions d limits = Ok fracs /\ e = concat parts /\ map (@length R) parts = mult n fracs /\ length e = n /\
    Forall2 (fun l p => Forall (within (fst l) (snd l)) p) limits parts /\
    forall q k l p j x, quantile d = Some q -> nth_error limits k = Some l -> nth_error parts k = Some p -> 0 < mass d l -> (j < length p)%nat ->
      (nth j p 0 <= x <-> rnd k j <= share d l x).
Proof.
  intros P L1 T ORD H. unfold limits_sample in H. destruct limits as [|l0 [|l1 ls]] eqn:EL; [cbn in T; lra|cbn in L1; lia|]. rewrite <- EL in *. clear EL L1 l0 l1 ls.
  destruct (fractions d limits) as [fr|er] eqn:F; [|discriminate]. cbn [bind] in H. injection H as <-. exists fr, (parts_from rnd ar d 0 limits (mult n fr)).
  split; [reflexivity|]. split; [apply sample_concat|]. assert (FR := F). unfold fractions in F.
  destruct (analytic_integrate d limits) as [tot|] eqn:E; [|discriminate]. destruct (finite_all d limits tot E) as (ls&->).
  rewrite fractions_ok in FR. injection FR as <-. clear F E. set (lims := map (fun ab => (Finite (fst ab), Finite (snd ab))) ls) in *.
  match goal with |- context [mult n ?f] => set (fr := f) in * end. assert (S1 : sumR fr = 1).
  { unfold fr. rewrite <- (map_map (fun ab => mass d (Finite (fst ab), Finite (snd ab))) (fun x => x / sumR (map (fun ab => mass d (Finite (fst ab), Finite (snd ab))) ls))).
    rewrite sumR_scale. unfold lims in T. rewrite map_map in T. field. lra. }
  assert (S2 : Forall (fun p => 0 <= p) fr).
  { apply Forall_forall. intros f I. unfold fr in I. apply in_map_iff in I. destruct I as ([a b]&<-&I). unfold lims in T, ORD. rewrite map_map in T.
    apply Rcomplements.Rdiv_le_0_compat; [|exact T]. rewrite Forall_forall in ORD. apply (mass_nonneg d P). apply (ORD (Finite a, Finite b)). apply in_map_iff. exists (a, b). auto. }
  destruct (MULT n fr S1 S2) as (ML&MS&MZ). assert (LL : length lims = length (mult n fr)) by (rewrite ML; unfold lims, fr; rewrite !map_length; reflexivity).
  split; [apply parts_lengths; [intros; apply AR|exact LL]|]. split; [rewrite sample_concat, concat_length_sum, parts_lengths; [exact MS|intros; apply AR|exact LL]|].
  split; cycle 1.
  { intros q k l p j x Q NL NP M J. rewrite (parts_nth rnd ar d lims 0 _ k l LL NL) in NP. injection NP as <-. cbn [plus] in *.
    unfold call_sample, tfd_analytic_sample in *. rewrite Q in *. rewrite map_map. rewrite !map_length, seq_length in J.
    erewrite nth_indep by (rewrite map_length, seq_length; exact J).
    erewrite (map_nth (fun i => q (cdf d (fst l) + rnd k i * (cdf d (snd l) - cdf d (fst l)))) (seq 0 _) 0%nat j). rewrite seq_nth by exact J. cbn [plus].
    apply (draw_law d P q (rnd k j) l x Q (RND k j) M). }
  apply Forall2_nth. split.
  - rewrite <- (map_length (@length R)). rewrite parts_lengths; [exact LL|intros; apply AR|exact LL].
  - intros k l p NL NP. rewrite (parts_nth rnd ar d lims 0 _ k l LL NL) in NP. injection NP as <-. cbn [plus].
    assert (NK : nth k fr 0 = mass d l / sumR (map (mass d) lims)).
    { unfold fr. unfold lims in NL. rewrite nth_error_map in NL. destruct (nth_error ls k) as [[a b]|] eqn:NE; [|discriminate]. cbn in NL. injection NL as <-.
      erewrite nth_indep by (rewrite map_length; apply nth_error_Some; congruence). erewrite map_nth. rewrite (nth_error_nth ls k (0, 0) NE). cbn [fst snd]. f_equal.
      f_equal. unfold lims. rewrite map_map. reflexivity. }
    assert (O : 0 <= mass d l). { rewrite Forall_forall in ORD. specialize (ORD l (nth_error_In _ _ NL)). destruct l as [a b]. apply (mass_nonneg d P a b ORD). }
    destruct (Req_dec (mass d l) 0) as [Z|Z].
    + assert (NZ : nth k (mult n fr) 0%nat = 0%nat) by (apply MZ; rewrite NK, Z; unfold Rdiv; ring). rewrite NZ. unfold call_sample, tfd_analytic_sample.
      destruct (quantile d); [cbn; constructor|]. pose proof (proj1 (AR k l 0%nat)) as A0. destruct (ar k l 0); [constructor|discriminate].
    + unfold call_sample, tfd_analytic_sample. destruct (quantile d) as [q|] eqn:Q.
      * rewrite map_map. apply Forall_forall. intros x X. apply in_map_iff in X. destruct X as (j&<-&_). apply (draw_within d P q _ l Q (RND _ _)). lra.
      * apply Forall_forall. intros x X. apply AR in X. exact X.
Qed.
End Samples.

(** The fractions for several limits are their parts of the integral; they are not negative and add up to one. *)
Theorem C80_fractions d (limits : list (R * R)) : proper d -> Forall (fun ab => fst ab <= snd ab) limits ->
  0 < sumR (map (fun ab => RInt (prob d) (fst ab) (snd ab)) limits) ->
  exists fr, fractions d (map (fun ab => (Finite (fst ab), Finite (snd ab))) limits) = Ok fr /\
    fr = map (fun ab => RInt (prob d) (fst ab) (snd ab) / sumR (map (fun ab => RInt (prob d) (fst ab) (snd ab)) limits)) limits /\
    sumR fr = 1 /\ Forall (fun f => 0 <= f) fr.
Proof.
  intros P F T.
  assert (E : forall ab, In ab limits -> RInt (prob d) (fst ab) (snd ab) = mass d (Finite (fst ab), Finite (snd ab))).
  { intros [a b] I. rewrite Forall_forall in F. specialize (F _ I). cbn [fst snd] in *. apply is_RInt_unique, (density d P). exact F. }
  rewrite fractions_ok. eexists. split; [reflexivity|]. rewrite (map_ext_in _ _ _ E) in T.
  assert (E2 : map (fun ab => RInt (prob d) (fst ab) (snd ab)) limits = map (fun ab => mass d (Finite (fst ab), Finite (snd ab))) limits) by (apply map_ext_in; exact E).
  rewrite E2. set (tot := sumR (map (fun ab => mass d (Finite (fst ab), Finite (snd ab))) limits)) in *. split; [|split].
  - apply map_ext_in. intros ab I. rewrite E by exact I. reflexivity.
  - rewrite <- (map_map (fun ab => mass d (Finite (fst ab), Finite (snd ab))) (fun x => x / tot)). rewrite sumR_scale. change (tot / tot = 1). field. apply Rgt_not_eq. exact T.
  - apply Forall_forall. intros f I. apply in_map_iff in I. destruct I as ([a b]&<-&I). apply Rcomplements.Rdiv_le_0_compat; [|exact T]. apply (mass_nonneg d P).
    rewrite Forall_forall in F. exact (F _ I).
Qed.

(** Several limits: the fractions of the limits times the shares below x are the share of the whole integral below x. So events
    drawn in this way follow the density in all the limits together. *)
Theorem C80_several_law d limits fr x : proper d -> Forall (fun l => Rbar_le (fst l) (snd l)) limits -> fractions d limits = Ok fr ->
  sumR (map (fun fl => fst fl * share d (snd fl) x) (combine fr limits)) =
  sumR (map (fun l => mass d (fst l, clamp (fst l) (snd l) x)) limits) / sumR (map (mass d) limits).
Proof.
  intros P ORD F. assert (E := F). unfold fractions in E. destruct (analytic_integrate d limits) as [tot|] eqn:A; [|discriminate]. destruct (finite_all d limits tot A) as (ls&EL).
  clear E A. subst limits. rewrite fractions_ok in F. injection F as <-.
  assert (G : forall T ls, Forall (fun l : interval => Rbar_le (fst l) (snd l)) (map (fun ab : R * R => (Finite (fst ab), Finite (snd ab))) ls) ->
    sumR (map (fun fl => fst fl * share d (snd fl) x) (combine (map (fun ab => mass d (Finite (fst ab), Finite (snd ab)) / T) ls) (map (fun ab : R * R => (Finite (fst ab), Finite (snd ab))) ls))) =
    sumR (map (fun l => mass d (fst l, clamp (fst l) (snd l) x)) (map (fun ab : R * R => (Finite (fst ab), Finite (snd ab))) ls)) / T).
  { clear ORD ls. intros T ls ORD. unfold sumR. induction ls as [|[a b] ls IH]; [cbn; unfold Rdiv; ring|]. inversion ORD as [|? ? H1 H2]; subst. cbn [map combine fold_right fst snd] in *.
    rewrite IH by exact H2. rewrite (part_share d P T (Finite a, Finite b) x H1). cbn [fst snd]. unfold Rdiv. ring. }
  rewrite G by exact ORD. f_equal. f_equal. rewrite map_map. reflexivity.
Qed.

(** ** The hypotheses are met, and what fails *)
Theorem C80_uniform_cdf low high : low < high -> proper (uniform_dist low high).
Proof. intros H. apply uniform_proper. exact H. Qed.
Theorem C80_cauchy_cdf m gamma : 0 < gamma -> proper (cauchy_dist m gamma).
Proof. intros H. apply cauchy_proper. exact H. Qed.
Fixpoint first_gets_all (n : nat) (probs : list R) : list nat :=
  match probs with
  | [] => []
  | p :: r => if Req_EM_T p 0 then 0%nat :: first_gets_all n r else n :: map (fun _ => 0%nat) r
  end.
Example C80_multinomial_exists : is_multinomial first_gets_all.
Proof.
  intros n probs S _. assert (Z : forall r, list_sum (map (fun _ : R => 0%nat) r) = 0%nat) by (induction r; cbn; auto).
  assert (Z' : forall (r : list R) i, nth i (map (fun _ : R => 0%nat) r) 0%nat = 0%nat) by (induction r; intros [|i]; cbn; auto).
  split; [|split].
  - clear S. induction probs as [|p r IH]; cbn; [reflexivity|]. destruct (Req_EM_T p 0); cbn; [now rewrite IH|now rewrite map_length].
  - assert (NZ : sumR probs <> 0) by lra. clear S. induction probs as [|p r IH]; cbn in *; [lra|]. destruct (Req_EM_T p 0) as [->|N]; cbn.
    + apply IH. intros E. apply NZ. unfold sumR in *. lra.
    + rewrite Z. lia.
  - clear S. induction probs as [|p r IH]; intros i I; [destruct i; reflexivity|]. cbn. destruct (Req_EM_T p 0) as [->|N], i as [|i]; cbn in *; auto; contradiction.
Qed.
Example C80_integral_example : analytic_integrate (uniform_dist 0 4) [(Finite 1, Finite 2); (Finite 3, Finite 6)] = Ok (1 / 2).
Proof.
  cbn. unfold integrate_one, uniform_cdf. cbn. f_equal. repeat (destruct (Rlt_dec _ _); try lra).
Qed.
Example C80_sample_example : 0 < mass (cauchy_dist 0 1) (Finite 1, p_infty) /\ share (cauchy_dist 0 1) (m_infty, p_infty) 0 = 1 / 2.
Proof.
  split.
  - unfold mass. cbn. replace ((1 - 0) / 1) with 1 by field. rewrite atan_1. pose proof PI_RGT_0. replace (PI / 4 / PI) with (1 / 4) by (field; lra). lra.
  - unfold share, mass, clamp. destruct (Rbar_lt_dec 0 (fst (m_infty, p_infty))) as [[]|_]. destruct (Rbar_lt_dec (snd (m_infty, p_infty)) 0) as [[]|_].
    cbn. replace ((0 - 0) / 1) with 0 by field. rewrite atan_0. field. pose proof PI_RGT_0. lra.
Qed.

(** Finding: where the distribution has no probability the events are outside of the limits, at the edge of the support. *)
Theorem C80_no_mass_refuted : exists d l, proper d /\ Rbar_lt (fst l) (snd l) /\ forall rnd ar mult n e,
  limits_sample rnd ar mult d n [l] = Ok e -> length e = n /\ forall x, In x e -> ~ within (fst l) (snd l) x.
Proof.
  exists (uniform_dist 0 1), (Finite 2, Finite 3). split; [apply uniform_proper; lra|]. split; [cbn; lra|]. intros rnd ar mult n e H. cbn in H. injection H as <-.
  unfold call_sample, tfd_analytic_sample. cbn [quantile uniform_dist]. split; [rewrite !map_length, seq_length; reflexivity|].
  intros x X. rewrite map_map in X. apply in_map_iff in X. destruct X as (k&<-&_). cbn. repeat (destruct (Rlt_dec _ _); try lra). intros [A _]. cbn in A. lra.
Qed.
(** Finding: with one of several limits infinite nothing can be sampled, although a single infinite limit is fine. *)
Theorem C80_several_infinite_refuted : exists d, proper d /\ forall rnd ar mult n,
  (exists e, limits_sample rnd ar mult d n [(Finite 1, p_infty)] = Ok e) /\
  limits_sample rnd ar mult d n [(Finite (-1), Finite 0); (Finite 1, p_infty)] = Err InvalidArgumentError.
Proof.
  exists (cauchy_dist 0 1). split; [apply cauchy_proper; lra|]. intros rnd ar mult n. split; [eexists; reflexivity|]. reflexivity.
Qed.
