(** C69: a constraint adds the penalty of its density, each parameter compared with its own
    observation. *)
From Coq Require Import Reals Lra Lia Permutation.
From Verif Require Import Base BaseLemmas Constr_Model Constr_Spec Constr_Proofs Constr_Proofs2.
#[local] Open Scope R_scope.

(** Gaussian constraints with independent uncertainties, in whichever of the seven ways they
    are given: the sum of the negative logarithms of the normal densities, at the current
    values of the parameters (and of the observations, if these are parameters). *)
Theorem C69_gaussian_independent : forall params obs s unc sigma cov,
  length obs = length params -> length s = length params -> Forall (fun x => 0 < x) s ->
  independent s unc sigma cov ->
  exists g, gauss_init params (OSeq obs) unc sigma cov = Ok g /\
  forall e, gauss_value e g
    = Ok (rsum (map (fun t => normal_nll (snd t) (num_value e (snd (fst t))) (e (fst (fst t))))
                    (combine (combine params obs) s))).
Proof.
  intros params obs s unc sigma cov L Ls P I.
  destruct (independent_value params obs s unc sigma cov L Ls P I) as [c [E H]].
  exists (Gauss params (SNums obs) c unc). split; [apply init_ok; assumption|]. intros e.
  destruct (H e) as [m [Em [R1 [R2 D]]]]. exact (value_diag e params obs s c unc m L Ls P Em R1 R2 D).
Qed.
Print Assumptions C69_gaussian_independent.
Example ex_independent : exists g,
  gauss_init [3; 1]%nat (OSeq [NConst 5; NParam 7]) None None (Some (A1 [4; 9])) = Ok g /\
  forall e, gauss_value e g = Ok (normal_nll 2 5 (e 3%nat) + (normal_nll 3 (e 7%nat) (e 1%nat) + 0)).
Proof.
  assert (E : [4; 9] = map (fun x => x ^ 2) [2; 3]) by (cbn; do 2 f_equal; [ring|f_equal; ring]).
  rewrite E. apply (C69_gaussian_independent [3; 1]%nat [NConst 5; NParam 7] [2; 3]); try reflexivity.
  - repeat constructor; lra.
  - apply by_variances.
Qed.

(** Listing the parameters with their observations and uncertainties in another order changes
    nothing. *)
Theorem C69_order : forall t t' e g g',
  Permutation t t' -> Forall (fun x => 0 < snd x) t ->
  gauss_init (map (fun x => fst (fst x)) t) (OSeq (map (fun x => snd (fst x)) t)) None (Some (A1 (map snd t))) None = Ok g ->
  gauss_init (map (fun x => fst (fst x)) t') (OSeq (map (fun x => snd (fst x)) t')) None (Some (A1 (map snd t'))) None = Ok g' ->
  exists v, gauss_value e g = Ok v /\ gauss_value e g' = Ok v.
Proof.
  intros t t' e g g' Pm P E E'.
  assert (P' : Forall (fun x => 0 < snd x) t') by (exact (Permutation_Forall Pm P)).
  assert (C : forall t : list (nat * num * R), combine (combine (map (fun x => fst (fst x)) t) (map (fun x => snd (fst x)) t)) (map snd t) = t).
  { clear. intros t. induction t as [|[[p o] s] t IH]; [reflexivity|]. cbn. f_equal. exact IH. }
  assert (V : forall t g, Forall (fun x => 0 < snd x) t ->
    gauss_init (map (fun x => fst (fst x)) t) (OSeq (map (fun x => snd (fst x)) t)) None (Some (A1 (map snd t))) None = Ok g ->
    gauss_value e g = Ok (rsum (map (fun x => normal_nll (snd x) (num_value e (snd (fst x))) (e (fst (fst x)))) t))).
  { clear - C. intros t g P E.
    destruct (C69_gaussian_independent (map (fun x => fst (fst x)) t) (map (fun x => snd (fst x)) t) (map snd t)
                None (Some (A1 (map snd t))) None) as [g' [E' H]].
    - rewrite !map_length. reflexivity.
    - rewrite !map_length. reflexivity.
    - rewrite Forall_map. exact P.
    - apply by_sigma.
    - rewrite E in E'. injection E' as <-. rewrite H, C. reflexivity. }
  rewrite (V t g P E), (V t' g' P' E'). eexists. split; [reflexivity|]. f_equal. symmetry. apply rsum_perm.
  apply Permutation_map. exact Pm.
Qed.
Print Assumptions C69_order.
Example ex_order : exists g g',
  gauss_init [3; 1]%nat (OSeq [NConst 5; NConst 6]) None (Some (A1 [2; 3])) None = Ok g /\
  gauss_init [1; 3]%nat (OSeq [NConst 6; NConst 5]) None (Some (A1 [3; 2])) None = Ok g' /\
  Permutation [(3%nat, NConst 5, 2); (1%nat, NConst 6, 3)] [(1%nat, NConst 6, 3); (3%nat, NConst 5, 2)].
Proof. do 2 eexists. split; [reflexivity|]. split; [reflexivity|]. constructor. Qed.

(** Correlated uncertainties: up to a number that the matrix alone determines, the value is
    half of [r . z], where [r] are the differences of parameters and observations and
    [cov z = r]; and there is such a [z]. *)
Theorem C69_gaussian_correlated_partial : forall n c,
  symmetric n c -> positive_definite n c ->
  exists k, forall params obs, length params = n -> length obs = n ->
  exists g, gauss_init params (OSeq obs) None None (Some (A2 (Mat n n c))) = Ok g /\
  forall e,
    (forall z, (forall i, (i < n)%nat -> times n c z i = residual e params obs i) ->
       gauss_value e g = Ok (k + sum_below n (fun i => residual e params obs i * z i) / 2)) /\
    exists z, forall i, (i < n)%nat -> times n c z i = residual e params obs i.
Proof.
  intros n c Sy P. destruct (cholesky_ok n c Sy P) as [l [C H]].
  exists (rsum (map (fun i => ln (l i i)) (seq 0 n)) + INR n / 2 * ln (2 * PI)).
  intros params obs Lp Lo. exists (Gauss params (SNums obs) (Some (Mat n n c)) None).
  split; [apply init_ok; [lia|reflexivity]|]. intros e. split.
  - intros z Hz. rewrite (value_of_cov e params obs (Some (Mat n n c)) None (Mat n n c) l);
      [|lia|reflexivity|cbn; lia|cbn; lia|cbn [m_get]; rewrite Lp; exact C].
    rewrite Lp. f_equal. unfold mvn_log_prob.
    pose proof (H z _ Hz) as Q. unfold residual in Q |- *. rewrite Q. lra.
  - apply solvable; assumption.
Qed.
Print Assumptions C69_gaussian_correlated_partial.
Definition ex_cov (i j : nat) : R := if Nat.eqb i j then 2 else 1.
Example ex_posdef : symmetric 2 ex_cov /\ positive_definite 2 ex_cov.
Proof.
  split.
  - intros i j _ _. unfold ex_cov. rewrite Nat.eqb_sym. reflexivity.
  - intros z [i [Hi Z]]. unfold sum_below, times, ex_cov. cbn.
    assert (H : 0 < z 0%nat * z 0%nat + z 1%nat * z 1%nat).
    { pose proof (Rle_0_sqr (z 0%nat)). pose proof (Rle_0_sqr (z 1%nat)).
      pose proof (Rlt_0_sqr (z i) Z). unfold Rsqr in *. destruct i as [|[|i]]; [| |lia]; lra. }
    pose proof (Rle_0_sqr (z 0%nat + z 1%nat)) as S. unfold Rsqr in S. lra.
Qed.

(** The minimum is where all parameters have the observed values, and only there. *)
Theorem C69_minimum : forall n c params obs g e v e' v',
  symmetric n c -> positive_definite n c -> length params = n -> length obs = n ->
  gauss_init params (OSeq obs) None None (Some (A2 (Mat n n c))) = Ok g ->
  gauss_value e g = Ok v -> gauss_value e' g = Ok v' ->
  (forall i, (i < n)%nat -> residual e params obs i = 0) ->
  v <= v' /\ (v = v' -> forall i, (i < n)%nat -> residual e' params obs i = 0).
Proof.
  intros n c params obs g e v e' v' Sy P Lp Lo E V V' H0.
  destruct (C69_gaussian_correlated_partial n c Sy P) as [k K]. destruct (K params obs Lp Lo) as [g0 [E0 G]].
  rewrite E in E0. injection E0 as <-.
  destruct (G e) as [G1 _]. destruct (G e') as [G2 [z Hz]].
  rewrite (G1 (fun _ => 0)) in V.
  2:{ intros i Hi. rewrite (H0 i Hi). unfold times. rewrite (sb_ext _ _ (fun _ => 0)) by (intros; lra). apply sb_zero. }
  rewrite (G2 z Hz) in V'. injection V as <-. injection V' as <-.
  rewrite (sb_ext n (fun i => residual e params obs i * 0) (fun _ => 0)) by (intros; lra). rewrite sb_zero.
  destruct (quadratic_pos n c z _ P Hz) as [Z|Z].
  - rewrite (sb_ext n (fun i => residual e' params obs i * z i) (fun _ => 0)) by (intros i Hi; rewrite (Z i Hi); lra).
    rewrite sb_zero. split; [lra|]. intros _. exact Z.
  - split; [lra|]. intros X. exfalso. lra.
Qed.
Print Assumptions C69_minimum.
Example ex_minimum : exists g v,
  gauss_init [0; 1]%nat (OSeq [NConst 5; NConst 6]) None None (Some (A2 (Mat 2 2 ex_cov))) = Ok g /\
  gauss_value (fun i => if Nat.eqb i 0 then 5 else 6) g = Ok v /\
  forall i, (i < 2)%nat -> residual (fun i => if Nat.eqb i 0 then 5 else 6) [0; 1]%nat [NConst 5; NConst 6] i = 0.
Proof.
  destruct (C69_gaussian_correlated_partial 2 ex_cov (proj1 ex_posdef) (proj2 ex_posdef)) as [k K].
  destruct (K [0; 1]%nat [NConst 5; NConst 6] eq_refl eq_refl) as [g [E G]].
  destruct (G (fun i => if Nat.eqb i 0 then 5 else 6)) as [G1 [z Hz]].
  exists g. eexists. split; [exact E|]. split; [exact (G1 z Hz)|].
  intros [|[|i]] Hi; [| |lia]; unfold residual; cbn; lra.
Qed.

(** Numbers of parameters and observations have to agree, for all constraints; contradictory
    ways to give the uncertainties, matrices as sigma and parameters in the uncertainties are
    refused. *)
Theorem C69_wrong_number : forall params obs unc sigma cov u,
  length obs <> length params ->
  (exists er, gauss_init params (OSeq obs) unc sigma cov = Err er /\ (er = ShapeIncompatibleError \/ er = ValueError)) /\
  poisson_init params (OSeq obs) = Err ShapeIncompatibleError /\
  lognormal_init params (OSeq obs) u = Err ShapeIncompatibleError.
Proof.
  intros params obs unc sigma cov u N. apply Nat.eqb_neq in N. split.
  - unfold gauss_init, check_lengths. cbn [to_container stored_len]. rewrite N.
    destruct (preprocess cov sigma _) as [c|er] eqn:E; cbn [bind]; [eauto|]. exists er. split; [reflexivity|]. right.
    unfold preprocess in E. destruct sigma as [[]|], cov as [[]|], unc; congruence.
  - unfold poisson_init, lognormal_init, check_lengths. cbn [to_container stored_len]. rewrite N. split; reflexivity.
Qed.
Print Assumptions C69_wrong_number.
Theorem C69_contradictory : forall params obs unc sigma cov,
  (sigma <> None /\ cov <> None) \/ (sigma <> None /\ unc <> None) \/ (cov <> None /\ unc <> None) \/
  (exists m, sigma = Some (A2 m)) \/ sigma = Some A3 \/ cov = Some A3 \/ sigma = Some AParam \/ cov = Some AParam ->
  gauss_init params obs unc sigma cov = Err ValueError.
Proof.
  intros params obs unc sigma cov H. unfold gauss_init.
  assert (E : preprocess cov sigma (match unc with Some _ => true | None => false end) = Err ValueError).
  { unfold preprocess. destruct sigma as [[]|], cov as [[]|], unc; try reflexivity; exfalso;
      repeat match goal with
      | H : _ \/ _ |- _ => destruct H
      | H : _ /\ _ |- _ => destruct H
      | H : exists _, _ |- _ => destruct H
      end; congruence. }
  rewrite E. reflexivity.
Qed.
Print Assumptions C69_contradictory.
Example ex_contradictory : forall p o,
  gauss_init p o (Some (U1 [NConst 1])) (Some (A1 [1])) None = Err ValueError /\
  poisson_init [1; 2]%nat (OSeq [NConst 3]) = Err ShapeIncompatibleError.
Proof. intros. split; [apply C69_contradictory; right; left; split; discriminate|]. apply (C69_wrong_number _ _ None None None []). discriminate. Qed.

(** Uncertainties of another size than the parameters: accepted at construction, and every
    value is an error, although ShapeIncompatibleError is documented for the construction, and
    a single number should be broadcast. *)
Theorem C69_size_not_checked_refuted : forall params obs x,
  length obs = length params -> (2 <= length params)%nat -> 0 < x ->
  exists g, gauss_init params (OSeq obs) None (Some (A0 x)) None = Ok g /\
  forall e, gauss_value e g = Err ValueError.
Proof.
  intros params obs x L N P. eexists. split; [apply init_ok; [exact L|reflexivity]|]. intros e.
  unfold gauss_value. cbn [covariance g_legacy g_cov opt_result bind g_params g_obs].
  change (m_rows (diag_mat [x * x])) with 1%nat. change (m_cols (diag_mat [x * x])) with 1%nat. cbn [Nat.eqb negb cholesky].
  change (m_get (diag_mat [x * x]) 0 0) with (x * x).
  destruct (Rlt_dec 0 (x * x)) as [_|B]; [|exfalso; apply B; nra].
  cbn [opt_result bind]. rewrite !map_length, L.
  destruct (length params) as [|[|k]]; [lia|lia|reflexivity].
Qed.
Print Assumptions C69_size_not_checked_refuted.
(** Without any uncertainty a constraint can be made, of which no value can be had. *)
Theorem C69_no_uncertainty_refuted : forall params obs, length obs = length params ->
  exists g, gauss_init params (OSeq obs) None None None = Ok g /\ forall e, gauss_value e g = Err ValueError.
Proof.
  intros params obs L. eexists. split; [apply init_ok; [exact L|reflexivity]|]. reflexivity.
Qed.
Print Assumptions C69_no_uncertainty_refuted.
(** A covariance that is not symmetric is accepted, and the part above the diagonal ignored. *)
Theorem C69_upper_triangle_ignored_refuted : forall n c c' params obs g g' e,
  (forall i j, (j <= i < n)%nat -> c i j = c' i j) ->
  gauss_init params (OSeq obs) None None (Some (A2 (Mat n n c))) = Ok g ->
  gauss_init params (OSeq obs) None None (Some (A2 (Mat n n c'))) = Ok g' ->
  gauss_value e g = gauss_value e g'.
Proof.
  intros n c c' params obs g g' e H E E'. unfold gauss_init in E, E'. cbn [preprocess bind to_container] in E, E'.
  destruct (check_lengths (SNums obs) params); [|discriminate]. cbn [bind] in E, E'.
  injection E as <-. injection E' as <-.
  unfold gauss_value. cbn [covariance g_legacy g_cov opt_result bind m_rows m_cols m_get g_params g_obs].
  rewrite Nat.eqb_refl. cbn [negb]. pose proof (cholesky_lower n c c' H) as C.
  destruct (cholesky n c) as [l|], (cholesky n c') as [l'|]; try contradiction; [|reflexivity].
  cbn [opt_result bind]. destruct (_ && _)%bool; [|reflexivity]. do 2 f_equal. unfold mvn_log_prob.
  rewrite (solve_ext n l l' _ (fun i => nth i (map e params) 0 - nth i (map (num_value e) obs) 0) C) by reflexivity.
  do 2 f_equal. f_equal. apply map_ext_in. intros i Hi. apply in_seq in Hi. rewrite C by lia. reflexivity.
Qed.
Print Assumptions C69_upper_triangle_ignored_refuted.
Example ex_upper : exists g g',
  gauss_init [0; 1]%nat (OSeq [NConst 5; NConst 6]) None None (Some (A2 (Mat 2 2 ex_cov))) = Ok g /\
  gauss_init [0; 1]%nat (OSeq [NConst 5; NConst 6]) None None (Some (A2 (Mat 2 2 (fun i j => if Nat.ltb i j then 100 else ex_cov i j)))) = Ok g' /\
  g_cov g <> g_cov g' /\ forall e, gauss_value e g = gauss_value e g'.
Proof.
  do 2 eexists. split; [reflexivity|]. split; [reflexivity|]. split.
  - cbn. intros H. injection H as H. apply (f_equal (fun f => f 0%nat 1%nat)) in H. unfold ex_cov in H. cbn in H. lra.
  - intros e. refine (C69_upper_triangle_ignored_refuted 2 ex_cov _ [0; 1]%nat [NConst 5; NConst 6] _ _ e _ eq_refl eq_refl).
    intros i j Hij. destruct (Nat.ltb_spec i j); [lia|reflexivity].
Qed.

(** Poisson: the rate is the observation and the parameter is the count, summed over the
    parameters. *)
Theorem C69_poisson_value : forall lgamma params obs c e,
  length obs = length params -> poisson_init params (OSeq obs) = Ok c ->
  poisson_value lgamma e c
  = Ok (rsum (map (fun t => let (o, p) := (num_value e (fst t), e (snd t)) in o - p * ln o + lgamma (1 + p)) (combine obs params))).
Proof.
  intros lgamma params obs c e L E. unfold poisson_init, check_lengths in E. cbn [to_container stored_len] in E.
  rewrite L, Nat.eqb_refl in E. injection E as <-. unfold poisson_value. cbn [obs_values o_obs o_params].
  rewrite !map_length, L. unfold bcast_len.
  replace (if Nat.eqb (length params) 1 then length params else length params) with (length params) by (destruct (Nat.eqb _ _); reflexivity).
  unfold bcast. rewrite !map_length, L, Nat.eqb_refl. cbn [bind]. do 2 f_equal.
  clear L. revert params. induction obs as [|o obs IH]; intros [|p params]; try reflexivity.
  cbn [map combine fst snd]. f_equal; [unfold poisson_log_prob; lra|apply IH].
Qed.
Print Assumptions C69_poisson_value.
(** As documented it would be the Poisson probability of the observation with the parameter as
    its mean. It is not: observed 2, parameter 1. *)
Theorem C69_poisson_swapped_refuted : forall lgamma, is_lgamma lgamma ->
  exists c e v, poisson_init [0%nat] (OSeq [NConst (INR 2)]) = Ok c /\ e 0%nat = 1 /\
    poisson_value lgamma e c = Ok v /\ v <> poisson_nll (e 0%nat) 2.
Proof.
  intros lgamma G. do 3 eexists. split; [reflexivity|]. split; [exact (eq_refl : (fun _ => 1) 0%nat = 1)|].
  split; [apply (C69_poisson_value lgamma [0%nat] [NConst (INR 2)]); reflexivity|].
  cbn [combine map rsum fold_right fst snd num_value]. cbv beta zeta.
  pose proof (G 1%nat) as G1. replace (INR 1) with 1 in G1 by reflexivity. rewrite G1.
  unfold poisson_nll. change (fact 1) with 1%nat. change (fact 2) with 2%nat.
  replace (INR 1) with 1 by reflexivity. replace (INR 2) with 2 by (cbn; lra). rewrite ln_1. intros H.
  assert (E : ln (2 * 2) = 1) by (rewrite ln_mult by lra; lra).
  assert (X : exp 1 = 4) by (rewrite <- E, exp_ln by lra; lra). pose proof exp_le_3. lra.
Qed.
Print Assumptions C69_poisson_swapped_refuted.

(** Log-normal: the logarithm of the parameter is normal around the observation, so that the
    penalty is smallest at [exp (observation - uncertainty^2)]. *)
Theorem C69_lognormal_value : forall params obs unc c e,
  length obs = length params -> length unc = length params -> lognormal_init params (OSeq obs) unc = Ok c ->
  lognormal_value e c
  = Ok (rsum (map (fun t => lognormal_nll (num_value e (snd (fst t))) (num_value e (fst (fst t))) (e (snd t)))
                  (combine (combine obs unc) params))).
Proof.
  intros params obs unc c e L Lu E. unfold lognormal_init, check_lengths in E. cbn [to_container stored_len] in E.
  rewrite L, Nat.eqb_refl in E. injection E as <-. unfold lognormal_value. cbn [obs_values o_obs o_params o_unc].
  rewrite !map_length, L, Lu. unfold bcast_len.
  assert (X : forall n : nat, (if Nat.eqb n 1 then n else n) = n) by (intros n; destruct (Nat.eqb n 1); reflexivity).
  rewrite !X.
  unfold bcast. rewrite !map_length, L, Lu, Nat.eqb_refl. cbn [bind]. do 2 f_equal.
  clear - L Lu. revert unc params L Lu. induction obs as [|o obs IH]; intros [|u unc] [|p params] L Lu; try reflexivity; try discriminate.
  cbn [map combine fst snd]. f_equal; [unfold lognormal_log_prob, lognormal_nll, normal_nll; lra|apply IH; [now inversion L|now inversion Lu]].
Qed.
Print Assumptions C69_lognormal_value.
Theorem C69_lognormal_minimum : forall s o x, 0 < s -> 0 < x ->
  lognormal_nll s o (exp (o - s ^ 2)) <= lognormal_nll s o x.
Proof.
  intros s o x Ps Px. unfold lognormal_nll, normal_nll. rewrite ln_exp.
  set (u := ln x). assert (H : 0 <= ((u - o) / s + s) ^ 2) by apply pow2_ge_0.
  replace ((o - s ^ 2 - o) / s) with (- s) by (field; lra).
  assert (E : ((u - o) / s + s) ^ 2 = ((u - o) / s) ^ 2 + 2 * (u - o) + s ^ 2) by (field; lra).
  rewrite E in H. lra.
Qed.
Print Assumptions C69_lognormal_minimum.
(** The observed value of the parameter is not where the penalty is smallest: observed 2 with
    uncertainty 1, the penalty is smaller at [exp 1] than at 2. *)
Theorem C69_lognormal_not_at_observation_refuted : forall c e e',
  lognormal_init [0%nat] (OSeq [NConst 2]) [NConst 1] = Ok c -> e 0%nat = 2 -> e' 0%nat = exp 1 ->
  exists v v', lognormal_value e c = Ok v /\ lognormal_value e' c = Ok v' /\ v' < v.
Proof.
  intros c e e' E H H'. do 2 eexists.
  split; [apply (C69_lognormal_value [0%nat] [NConst 2] [NConst 1]); [reflexivity|reflexivity|exact E]|].
  split; [apply (C69_lognormal_value [0%nat] [NConst 2] [NConst 1]); [reflexivity|reflexivity|exact E]|].
  cbn [combine map rsum fold_right fst snd num_value]. rewrite H, H'. unfold lognormal_nll, normal_nll. rewrite ln_exp.
  assert (L : ln 2 < 1).
  { rewrite <- (ln_exp 1). apply ln_increasing; [lra|]. pose proof (exp_ineq1 1 ltac:(lra)). lra. }
  set (u := ln 2) in *. nra.
Qed.
Print Assumptions C69_lognormal_not_at_observation_refuted.
Example ex_lognormal : exists c, lognormal_init [0%nat] (OSeq [NConst 2]) [NConst 1] = Ok c.
Proof. eexists. reflexivity. Qed.

(** Arrays: for Gaussian constraints an array of observations is the list of its numbers; for the
    others an array, and for all a tensor, is a single observation, and refused for two or
    more parameters. *)
Theorem C69_gaussian_array : forall params l unc sigma cov,
  gauss_init params (OArray l) unc sigma cov = gauss_init params (OSeq (map NConst l)) unc sigma cov.
Proof. reflexivity. Qed.
Print Assumptions C69_gaussian_array.
(** A numpy array with one observation per parameter is refused by Poisson and log-normal constraints, a tensor by all *)
Theorem C69_array_refused_refuted : forall params l u,
  (2 <= length params)%nat -> length l = length params ->
  poisson_init params (OArray l) = Err ShapeIncompatibleError /\
  lognormal_init params (OArray l) u = Err ShapeIncompatibleError /\
  poisson_init params (OTensor l) = Err ShapeIncompatibleError /\
  forall sigma, gauss_init params (OTensor l) None (Some (A1 sigma)) None = Err ShapeIncompatibleError.
Proof.
  intros params l u N _. unfold poisson_init, lognormal_init, gauss_init, check_lengths. cbn [to_container stored_len preprocess bind].
  destruct (length params) as [|[|k]]; [lia|lia|]. repeat split; reflexivity.
Qed.
Print Assumptions C69_array_refused_refuted.

(** Sampling: every parameter gets the column of its own position. *)
Theorem C69_sample_columns : forall params points k p,
  NoDup params -> nth_error params k = Some p ->
  forall col, In (p, col) (sample params points) <-> col = map (fun row => nth k row 0) points.
Proof.
  intros params points k p ND Hk col. unfold sample.
  set (f := fun (d : list (nat * list R)) (q : nat * nat) =>
    (fst q, map (fun row => nth (snd q) row 0) points) :: filter (fun r => negb (Nat.eqb (fst r) (fst q))) d).
  assert (G : forall ps i d, NoDup ps ->
    forall col, In (p, col) (fold_left f (combine ps (seq i (length ps))) d) <->
      (exists j, nth_error ps j = Some p /\ col = map (fun row => nth (i + j) row 0) points) \/
      (~ In p ps /\ In (p, col) d)).
  { clear. induction ps as [|q ps IH]; intros i d ND col.
    - cbn. split; [intros H; right; split; [tauto|exact H]|]. intros [[j [Hj _]]|[_ H]]; [destruct j; discriminate|exact H].
    - cbn [length seq combine fold_left]. inversion ND as [|a b Nq ND']; subst. rewrite IH by exact ND'. clear IH.
      unfold f at 1. cbn [fst snd]. split.
      + intros [[j [Hj Hc]]|[Np H]].
        * left. exists (Datatypes.S j). split; [exact Hj|]. rewrite Hc. apply map_ext. intros; f_equal; lia.
        * destruct H as [H|H].
          -- injection H as <- <-. left. exists O. split; [reflexivity|]. apply map_ext. intros; f_equal; lia.
          -- apply filter_In in H. destruct H as [H Q]. apply Bool.negb_true_iff, Nat.eqb_neq in Q. cbn [fst] in Q.
             right. split; [intros [X|X]; [congruence|contradiction]|exact H].
      + intros [[j [Hj Hc]]|[Np H]].
        * destruct j as [|j].
          -- injection Hj as ->. right. split; [exact Nq|]. left. rewrite Hc. f_equal. apply map_ext. intros; f_equal; lia.
          -- left. exists j. split; [exact Hj|]. rewrite Hc. apply map_ext. intros; f_equal; lia.
        * right. split; [intros X; apply Np; right; exact X|]. right. apply filter_In. split; [exact H|].
          apply Bool.negb_true_iff, Nat.eqb_neq. intros X. cbn [fst] in X. apply Np. left. congruence. }
  rewrite (G params O [] ND). split.
  - intros [[j [Hj Hc]]|[_ []]]. assert (j = k).
    { apply (proj1 (NoDup_nth_error params) ND); [apply nth_error_Some; congruence|congruence]. }
    subst j. exact Hc.
  - intros Hc. left. exists k. split; [exact Hk|exact Hc].
Qed.
Print Assumptions C69_sample_columns.
Example ex_sample : exists c, In (4%nat, c) (sample [7; 4]%nat [[1; 2]; [3; 4]]) /\ c = [2; 4].
Proof. eexists. split; [left; reflexivity|reflexivity]. Qed.
