From Coq Require Import Reals Lra Lia Permutation.
From Verif Require Import Base BaseLemmas Constr_Model Constr_Spec Constr_Proofs.
#[local] Open Scope R_scope.

Lemma init_ok : forall params obs unc sigma cov c,
  length obs = length params ->
  preprocess cov sigma (match unc with Some _ => true | None => false end) = Ok c ->
  gauss_init params (OSeq obs) unc sigma cov = Ok (Gauss params (SNums obs) c unc).
Proof.
  intros params obs unc sigma cov c L E. unfold gauss_init, check_lengths. cbn [to_container stored_len].
  rewrite E. cbn [bind]. rewrite L, Nat.eqb_refl. reflexivity.
Qed.

(** The value once the covariance is known. *)
Lemma value_of_cov : forall e params obs c unc m l,
  length obs = length params -> covariance e (Gauss params (SNums obs) c unc) = Ok m ->
  m_rows m = length params -> m_cols m = length params ->
  cholesky (length params) (m_get m) = Some l ->
  gauss_value e (Gauss params (SNums obs) c unc)
  = Ok (- mvn_log_prob (length params) l (map (num_value e) obs) (map e params)).
Proof.
  intros e params obs c unc m l L E R1 R2 C. unfold gauss_value. rewrite E. cbn [bind g_params g_obs].
  rewrite R1, R2, Nat.eqb_refl. cbn [negb]. rewrite C. cbn [opt_result bind].
  rewrite !map_length, L, Nat.eqb_refl. reflexivity.
Qed.

Lemma value_diag : forall e params obs s c unc m,
  length obs = length params -> length s = length params -> Forall (fun x => 0 < x) s ->
  covariance e (Gauss params (SNums obs) c unc) = Ok m ->
  m_rows m = length params -> m_cols m = length params ->
  (forall i j, (i < length params)%nat -> (j < length params)%nat -> m_get m i j = if Nat.eqb i j then nth i s 0 ^ 2 else 0) ->
  gauss_value e (Gauss params (SNums obs) c unc)
  = Ok (rsum (map (fun t => normal_nll (snd t) (num_value e (snd (fst t))) (e (fst (fst t)))) (combine (combine params obs) s))).
Proof.
  intros e params obs s c unc m L Ls P E R1 R2 D.
  assert (Ps : forall i, (i < length params)%nat -> 0 < nth i s 0).
  { intros i Hi. rewrite Forall_forall in P. apply P. apply nth_In. lia. }
  destruct (cholesky_diag (length params) (m_get m) (fun i => nth i s 0 ^ 2)) as [l [C [Dl F]]].
  - intros i j Hij. apply D; lia.
  - intros i Hi. specialize (Ps i Hi). apply pow_lt. exact Ps.
  - rewrite (value_of_cov e params obs c unc m l L E R1 R2 C). f_equal.
    assert (Sq : forall i, (i < length params)%nat -> sqrt (nth i s 0 ^ 2) = nth i s 0).
    { intros i Hi. specialize (Ps i Hi). rewrite <- (sqrt_square (nth i s 0)) at 2 by lra. f_equal. ring. }
    rewrite (mvn_diag (length params) l (fun i => nth i s 0)).
    + clear - L Ls. unfold sum_below.
      revert obs s L Ls. induction params as [|p params IH]; intros obs s L Ls; [reflexivity|].
      destruct obs as [|o obs]; [discriminate|]. destruct s as [|x s]; [discriminate|].
      cbn [length seq map rsum fold_right combine fst snd nth]. f_equal.
      rewrite <- seq_shift, map_map. cbn [nth]. apply IH; [now inversion L|now inversion Ls].
    + intros i Hi. rewrite (Dl i Hi). apply Sq. exact Hi.
    + exact Ps.
    + intros r. rewrite F. apply map_ext_in. intros i Hi. apply in_seq in Hi. rewrite Sq by lia. reflexivity.
Qed.

Lemma nth_map0 : forall (f : R -> R) l i, (i < length l)%nat -> nth i (map f l) 0 = f (nth i l 0).
Proof. intros. rewrite (nth_indep _ 0 (f 0)) by (rewrite map_length; lia). apply map_nth. Qed.

Lemma diag_entries : forall s n f, length s = n -> (forall x, f x = x ^ 2) -> forall i j, (i < n)%nat -> (j < n)%nat ->
  m_get (diag_mat (map f s)) i j = if Nat.eqb i j then nth i s 0 ^ 2 else 0.
Proof.
  intros s n f L F i j Hi Hj. rewrite diag_get. destruct (Nat.eqb i j); [|reflexivity].
  rewrite nth_map0 by lia. apply F.
Qed.

Lemma independent_value : forall params obs s unc sigma cov,
  length obs = length params -> length s = length params -> Forall (fun x => 0 < x) s ->
  independent s unc sigma cov ->
  exists c, preprocess cov sigma (match unc with Some _ => true | None => false end) = Ok c /\
  forall e, exists m, covariance e (Gauss params (SNums obs) c unc) = Ok m /\
    m_rows m = length params /\ m_cols m = length params /\
    (forall i j, (i < length params)%nat -> (j < length params)%nat ->
       m_get m i j = if Nat.eqb i j then nth i s 0 ^ 2 else 0).
Proof.
  intros params obs s unc sigma cov L Ls P I.
  assert (Sm : forall x : R, x * x = x ^ 2) by (intros; ring).
  destruct I as [|x Ex| |x Ex|m R1 R2 D| |m R1 R2 D]; (eexists; split; [reflexivity|]); intros e.
  - eexists. split; [reflexivity|]. cbn [diag_mat m_rows m_cols]. rewrite map_length.
    split; [lia|split; [lia|]]. apply (diag_entries s (length params) _ Ls Sm).
  - eexists. split; [reflexivity|]. subst s. cbn [length] in Ls. cbn [diag_mat m_rows m_cols length].
    split; [lia|split; [lia|]]. exact (diag_entries [x] (length params) (fun x => x * x) Ls Sm).
  - eexists. split; [reflexivity|]. cbn [diag_mat m_rows m_cols]. rewrite map_length.
    split; [lia|split; [lia|]]. apply (diag_entries s (length params) _ Ls). reflexivity.
  - eexists. split; [reflexivity|]. subst s. cbn [length] in Ls. cbn [diag_mat m_rows m_cols length].
    split; [lia|split; [lia|]]. exact (diag_entries [x] (length params) (fun x => x ^ 2) Ls (fun _ => eq_refl)).
  - eexists. split; [reflexivity|]. split; [lia|split; [lia|]]. intros i j Hi Hj. apply D; lia.
  - unfold covariance. cbn [g_legacy g_params g_obs stored_len diag_mat m_rows m_cols].
    rewrite !map_length. rewrite L, Ls, Nat.eqb_refl. cbn [andb]. eexists. split; [reflexivity|].
    cbn [diag_mat m_rows m_cols]. rewrite !map_length. split; [exact Ls|split; [exact Ls|]].
    change (fun i j => if Nat.eqb i j then nth i (map (fun v => num_value e v ^ 2) (map NConst s)) 0 else 0)
      with (m_get (diag_mat (map (fun v => num_value e v ^ 2) (map NConst s)))). rewrite map_map.
    apply (diag_entries s (length params) _ Ls). reflexivity.
  - unfold covariance. cbn [g_legacy g_params g_obs stored_len]. rewrite R1, R2, L, Ls, Nat.eqb_refl. cbn [andb].
    eexists. split; [reflexivity|]. split; [lia|split; [lia|]]. intros i j Hi Hj. apply D; lia.
Qed.

Lemma rsum_perm : forall l l', Permutation l l' -> rsum l = rsum l'.
Proof.
  intros l l' H. induction H; cbn [rsum fold_right] in *; unfold rsum in *; lra.
Qed.

(** ** Minimum *)
Lemma quadratic_pos : forall n c z r, positive_definite n c -> (forall i, (i < n)%nat -> times n c z i = r i) ->
  (forall i, (i < n)%nat -> r i = 0) \/ 0 < sum_below n (fun i => r i * z i).
Proof.
  intros n c z r P H.
  assert (D : (forall i, (i < n)%nat -> z i = 0) \/ exists i, (i < n)%nat /\ z i <> 0).
  { clear. induction n as [|n [IH|[i [Hi Z]]]].
    - left. intros; lia.
    - destruct (Req_dec (z n) 0) as [E|E].
      + left. intros i Hi. destruct (Nat.eq_dec i n); [subst; exact E|]. apply IH. lia.
      + right. exists n. split; [lia|exact E].
    - right. exists i. split; [lia|exact Z]. }
  destruct D as [D|D].
  - left. intros i Hi. rewrite <- (H i Hi). unfold times. rewrite (sb_ext _ _ (fun _ => 0)).
    + apply sb_zero.
    + intros j Hj. rewrite (D j Hj). lra.
  - right. rewrite (sb_ext _ _ (fun i => z i * times n c z i)).
    + apply P. exact D.
    + intros i Hi. rewrite (H i Hi). lra.
Qed.
