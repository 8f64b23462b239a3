From Coq Require Import Reals Lra Lia.
From Verif Require Import Base BaseLemmas Constr_Model Constr_Spec.
#[local] Open Scope R_scope.

Lemma sb_S : forall n f, sum_below (S n) f = f O + sum_below n (fun i => f (S i)).
Proof. intros. unfold sum_below. cbn [seq map rsum fold_right]. rewrite <- seq_shift, map_map. reflexivity. Qed.
Lemma sb_ext : forall n f g, (forall i, (i < n)%nat -> f i = g i) -> sum_below n f = sum_below n g.
Proof.
  intros n f g H. unfold sum_below. f_equal. apply map_ext_in. intros i Hi. apply in_seq in Hi. apply H. lia.
Qed.
Lemma sb_plus : forall n f g, sum_below n (fun i => f i + g i) = sum_below n f + sum_below n g.
Proof. induction n; intros; [cbn; lra|]. rewrite !sb_S, IHn. lra. Qed.
Lemma sb_scale : forall n a f, sum_below n (fun i => a * f i) = a * sum_below n f.
Proof. induction n; intros; [cbn; lra|]. rewrite !sb_S, IHn. lra. Qed.
Lemma sb_zero : forall n, sum_below n (fun _ => 0) = 0.
Proof. induction n; [reflexivity|]. rewrite sb_S, IHn. lra. Qed.

(** ** One step of the decomposition *)
Section Step.
Variable m : nat.
Variable c : nat -> nat -> R.
Hypothesis A : 0 < c O O.
Let d := sqrt (c O O).
Let col i := c (S i) O / d.
Let c' i j := c (S i) (S j) - col i * col j.

Lemma d_pos : 0 < d.
Proof. apply sqrt_lt_R0. exact A. Qed.
Lemma d_sq : d * d = c O O.
Proof. apply sqrt_sqrt. lra. Qed.
Lemma col_d : forall i, col i * d = c (S i) O.
Proof. intros. unfold col. field. pose proof d_pos. lra. Qed.

Lemma step_sym : symmetric (S m) c -> symmetric m c'.
Proof. intros H i j Hi Hj. unfold c'. rewrite (H (S i) (S j)) by lia. lra. Qed.

Lemma step_times : forall z i,
  times m c' z i = sum_below m (fun j => c (S i) (S j) * z j) - col i * sum_below m (fun j => col j * z j).
Proof.
  intros. unfold times, c'.
  rewrite (sb_ext _ _ (fun j => c (S i) (S j) * z j + - col i * (col j * z j))) by (intros; lra).
  rewrite sb_plus, sb_scale. lra.
Qed.
Lemma sum_col : forall z, sum_below m (fun j => col j * z j) * d = sum_below m (fun j => c (S j) O * z j).
Proof.
  intros. rewrite Rmult_comm, <- sb_scale. apply sb_ext. intros j _. rewrite <- col_d. lra.
Qed.

(** The system of [c] and the one of [c']. *)
Lemma step_solution : symmetric (S m) c -> forall z r,
  (forall i, (i < S m)%nat -> times (S m) c z i = r i) ->
  let y := r O / d in
  let z' i := z (S i) in let r' i := r (S i) - col i * y in
  (forall i, (i < m)%nat -> times m c' z' i = r' i) /\
  sum_below (S m) (fun i => r i * z i) = y ^ 2 + sum_below m (fun i => r' i * z' i).
Proof.
  intros Sy z r H. cbv zeta.
  pose proof d_pos as Dp. pose proof d_sq as Ds.
  set (K := sum_below m (fun j => col j * z (S j))).
  assert (H0 : c O O * z O + K * d = r O).
  { rewrite <- (H O) by lia. unfold times. rewrite sb_S. unfold K. rewrite sum_col. f_equal. apply sb_ext.
    intros j Hj. rewrite (Sy O (S j)) by lia. reflexivity. }
  assert (EK : K = r O / d - d * z O).
  { apply (Rmult_eq_reg_r d); [|lra].
    transitivity (r O - d * d * z O); [rewrite Ds, <- H0; lra|field; lra]. }
  split.
  - intros i Hi. rewrite step_times. fold K.
    pose proof (H (S i) ltac:(lia)) as E. unfold times in E. rewrite sb_S in E.
    rewrite EK. rewrite <- E, <- (col_d i). lra.
  - rewrite sb_S.
    rewrite (sb_ext m (fun i => (r (S i) - col i * (r O / d)) * z (S i))
               (fun i => r (S i) * z (S i) + - (r O / d) * (col i * z (S i)))) by (intros; lra).
    rewrite sb_plus, sb_scale. fold K. rewrite EK.
    set (X := sum_below m (fun i => r (S i) * z (S i))). 
    replace (- (r O / d) * (r O / d - d * z O)) with (r O * z O - (r O / d) ^ 2) by (field; lra). lra.
Qed.

Lemma step_solve_back : symmetric (S m) c -> forall z' r,
  let y := r O / d in
  (forall i, (i < m)%nat -> times m c' z' i = r (S i) - col i * y) ->
  let z0 := (y - sum_below m (fun j => col j * z' j)) / d in
  let z i := match i with O => z0 | S i => z' i end in
  forall i, (i < S m)%nat -> times (S m) c z i = r i.
Proof.
  intros Sy z' r y H z0 z i Hi. pose proof d_pos as Dp. pose proof d_sq as Ds.
  set (K := sum_below m (fun j => col j * z' j)) in *.
  assert (E0 : d * z0 = y - K) by (unfold z0; field; lra).
  destruct i as [|i].
  - unfold times. rewrite sb_S. unfold z.
    rewrite (sb_ext m _ (fun j => c (S j) O * z' j)) by (intros j Hj; rewrite (Sy O (S j)) by lia; reflexivity).
    rewrite <- sum_col. fold K. rewrite <- Ds.
    replace (d * d * z0) with (d * (d * z0)) by lra. rewrite E0. unfold y. field. lra.
  - pose proof (H i ltac:(lia)) as E. rewrite step_times in E. fold K in E.
    unfold times. rewrite sb_S. unfold z. rewrite <- (col_d i).
    replace (col i * d * z0) with (col i * (d * z0)) by lra. rewrite E0. lra.
Qed.

Lemma step_posdef : symmetric (S m) c -> positive_definite (S m) c -> positive_definite m c'.
Proof.
  intros Sy P z' [i [Hi Zi]]. pose proof d_pos as Dp. pose proof d_sq as Ds.
  set (K := sum_below m (fun j => col j * z' j)).
  set (z := fun i => match i with O => - K / d | S i => z' i end).
  assert (Pz : 0 < sum_below (S m) (fun i => z i * times (S m) c z i)).
  { apply P. exists (S i). split; [lia|exact Zi]. }
  assert (T0 : times (S m) c z O = 0).
  { unfold times. rewrite sb_S. unfold z.
    rewrite (sb_ext m _ (fun j => c (S j) O * z' j)) by (intros j Hj; rewrite (Sy O (S j)) by lia; reflexivity).
    rewrite <- sum_col. fold K. rewrite <- Ds. field. lra. }
  rewrite sb_S, T0, Rmult_0_r, Rplus_0_l in Pz.
  erewrite sb_ext; [exact Pz|]. intros j Hj. f_equal. rewrite step_times. fold K.
  unfold times. rewrite sb_S. unfold z. rewrite <- (col_d j). field. lra.
Qed.
End Step.

Lemma posdef_00 : forall m c, positive_definite (S m) c -> 0 < c O O.
Proof.
  intros m c P. pose proof (P (fun i => match i with O => 1 | _ => 0 end)) as H.
  rewrite sb_S in H. rewrite (sb_ext m _ (fun _ => 0)) in H by (intros; lra). rewrite sb_zero in H.
  unfold times in H. rewrite sb_S in H. rewrite (sb_ext m _ (fun _ => 0)) in H by (intros; lra). rewrite sb_zero in H.
  assert (X : 0 < 1 * (c O O * 1 + 0) + 0) by (apply H; exists O; split; [lia|lra]). lra.
Qed.

(** A positive definite matrix has a root, and the square of [l^-1 r] is the quadratic form. *)
Lemma cholesky_ok : forall n c, symmetric n c -> positive_definite n c ->
  exists l, cholesky n c = Some l /\
    forall z r, (forall i, (i < n)%nat -> times n c z i = r i) ->
      rsum (map (fun v => v ^ 2) (forward_solve n l r)) = sum_below n (fun i => r i * z i).
Proof.
  induction n as [|m IH]; intros c Sy P.
  - eexists. split; [reflexivity|]. reflexivity.
  - pose proof (posdef_00 _ _ P) as A. cbn [cholesky].
    destruct (Rlt_dec 0 (c O O)) as [_|N]; [|contradiction].
    destruct (IH _ (step_sym m c Sy) (step_posdef m c A Sy P)) as [l [E H]].
    rewrite E. eexists. split; [reflexivity|]. intros z r Hz.
    destruct (step_solution m c A Sy z r Hz) as [Hz' Es].
    rewrite Es. cbn [forward_solve map rsum fold_right]. f_equal.
    exact (H _ _ Hz').
Qed.
Lemma solvable : forall n c, symmetric n c -> positive_definite n c ->
  forall r, exists z, forall i, (i < n)%nat -> times n c z i = r i.
Proof.
  induction n as [|m IH]; intros c Sy P r.
  - exists (fun _ => 0). intros; lia.
  - pose proof (posdef_00 _ _ P) as A.
    destruct (IH _ (step_sym m c Sy) (step_posdef m c A Sy P)
                (fun i => r (S i) - c (S i) O / sqrt (c O O) * (r O / sqrt (c O O)))) as [z' Hz].
    eexists. exact (step_solve_back m c A Sy z' r Hz).
Qed.

(** Only the lower triangle is read. *)
Lemma cholesky_lower : forall n c c', (forall i j, (j <= i < n)%nat -> c i j = c' i j) ->
  match cholesky n c, cholesky n c' with
  | Some l, Some l' => forall i j, (j <= i < n)%nat -> l i j = l' i j
  | None, None => True
  | _, _ => False
  end.
Proof.
  induction n as [|m IH]; intros c c' H; cbn [cholesky].
  - intros; lia.
  - rewrite <- (H O O) by lia. destruct (Rlt_dec 0 (c O O)); [|exact I].
    assert (X : forall i j, (j <= i < m)%nat ->
      c (S i) (S j) - c (S i) O / sqrt (c O O) * (c (S j) O / sqrt (c O O))
      = c' (S i) (S j) - c' (S i) O / sqrt (c O O) * (c' (S j) O / sqrt (c O O))).
    { intros i j Hij. rewrite !H by lia. reflexivity. }
    specialize (IH _ _ X). cbv beta in *.
    destruct (cholesky m (fun i j : nat => c (S i) (S j) - _)), (cholesky m (fun i j : nat => c' (S i) (S j) - _));
      try exact IH.
    intros [|i] [|j] Hij; try reflexivity; try lia.
    + rewrite H by lia. reflexivity.
    + apply IH. lia.
Qed.
Lemma solve_ext : forall n l l' r r', (forall i j, (j <= i < n)%nat -> l i j = l' i j) ->
  (forall i, (i < n)%nat -> r i = r' i) -> forward_solve n l r = forward_solve n l' r'.
Proof.
  induction n as [|m IH]; intros l l' r r' H Hr; [reflexivity|]. cbn [forward_solve].
  rewrite (H O O), (Hr O) by lia. f_equal. apply IH.
  - intros. apply H. lia.
  - intros i Hi. rewrite (Hr (S i)), (H (S i) O) by lia. reflexivity.
Qed.

(** ** Diagonal matrices *)
Lemma diag_get : forall l i j, m_get (diag_mat l) i j = if Nat.eqb i j then nth i l 0 else 0.
Proof. reflexivity. Qed.
Lemma sb_pick : forall n f k, (k < n)%nat -> sum_below n (fun j => if Nat.eqb k j then f j else 0) = f k.
Proof.
  induction n; intros f k Hk; [lia|]. rewrite sb_S. destruct k as [|k].
  - cbn [Nat.eqb]. rewrite sb_zero. lra.
  - cbn [Nat.eqb]. rewrite (IHn (fun i => f (S i)) k) by lia. lra.
Qed.
Lemma diag_times : forall l z i, (i < length l)%nat -> times (length l) (m_get (diag_mat l)) z i = nth i l 0 * z i.
Proof.
  intros l z i Hi. unfold times.
  rewrite (sb_ext _ _ (fun j => if Nat.eqb i j then nth i l 0 * z j else 0)).
  - rewrite (sb_pick _ (fun j => nth i l 0 * z j)) by exact Hi. reflexivity.
  - intros j _. rewrite diag_get. destruct (Nat.eqb i j); lra.
Qed.
Lemma diag_sym : forall l, symmetric (length l) (m_get (diag_mat l)).
Proof.
  intros l i j _ _. rewrite !diag_get, Nat.eqb_sym. destruct (Nat.eqb j i) eqn:E; [|reflexivity].
  apply Nat.eqb_eq in E. subst. reflexivity.
Qed.

(** A matrix that is diagonal, however it is given: root and solution. *)
Lemma cholesky_diag : forall n c v, (forall i j, (j <= i < n)%nat -> c i j = if Nat.eqb i j then v i else 0) ->
  (forall i, (i < n)%nat -> 0 < v i) ->
  exists l, cholesky n c = Some l /\ (forall i, (i < n)%nat -> l i i = sqrt (v i)) /\
    forall r, forward_solve n l r = map (fun i => r i / sqrt (v i)) (seq 0 n).
Proof.
  induction n as [|m IH]; intros c v H P.
  - eexists. split; [reflexivity|]. split; [intros; lia|reflexivity].
  - cbn [cholesky]. rewrite (H O O) by lia. cbn [Nat.eqb].
    destruct (Rlt_dec 0 (v O)) as [P0|N]; [|exfalso; apply N; apply P; lia].
    assert (Sq : 0 < sqrt (v O)) by (apply sqrt_lt_R0; exact P0).
    destruct (IH (fun i j => c (S i) (S j) - c (S i) O / sqrt (v O) * (c (S j) O / sqrt (v O))) (fun i => v (S i)))
      as [l [E [D F]]].
    + intros i j Hij. rewrite (H (S i) (S j)), (H (S i) O) by lia. cbn [Nat.eqb].
      unfold Rdiv. rewrite !Rmult_0_l. lra.
    + intros i Hi. apply P. lia.
    + rewrite E. eexists. split; [reflexivity|]. split.
      * intros [|i] Hi; [reflexivity|]. apply (D i). lia.
      * intros r. cbn [forward_solve seq map]. f_equal.
        rewrite <- seq_shift, map_map.
        rewrite (solve_ext m (fun i j => l i j) l _ (fun i => r (S i))).
        -- rewrite F. reflexivity.
        -- reflexivity.
        -- intros i Hi. rewrite (H (S i) O) by lia. cbn [Nat.eqb]. unfold Rdiv. lra.
Qed.

Lemma rsum_map_sub : forall (f g h : nat -> R) l, (forall i, In i l -> f i + g i = h i) ->
  rsum (map f l) + rsum (map g l) = rsum (map h l).
Proof.
  intros f g h l. induction l as [|a l IH]; intros H; cbn [map rsum fold_right]; [lra|].
  rewrite <- (H a) by (left; reflexivity). unfold rsum in IH. rewrite <- IH; [lra|]. intros; apply H; right; assumption.
Qed.
Lemma rsum_const : forall (a : R) (n : nat), INR n * a = rsum (map (fun _ : nat => a) (seq 0 n)).
Proof.
  intros a n. change (rsum (map (fun _ => a) (seq 0 n))) with (sum_below n (fun _ => a)).
  induction n; [cbn; lra|]. rewrite sb_S, <- IHn, S_INR. lra.
Qed.

(** The value for a diagonal matrix with entries [s i ^ 2]. *)
Lemma mvn_diag : forall n l s loc x,
  (forall i, (i < n)%nat -> l i i = s i) -> (forall i, (i < n)%nat -> 0 < s i) ->
  (forall r, forward_solve n l r = map (fun i => r i / s i) (seq 0 n)) ->
  - mvn_log_prob n l loc x = sum_below n (fun i => normal_nll (s i) (nth i loc 0) (nth i x 0)).
Proof.
  intros n l s loc x D P F. unfold mvn_log_prob. rewrite F, map_map.
  replace (INR n / 2 * ln (2 * PI)) with (INR n * (ln (2 * PI) / 2)) by lra. rewrite rsum_const.
  match goal with |- - (- ?a / 2 - ?b - ?c) = _ => replace (- (- a / 2 - b - c)) with (/ 2 * a + b + c) by lra end.
  change (rsum (map (fun i => ((nth i x 0 - nth i loc 0) / s i) ^ 2) (seq 0 n)))
    with (sum_below n (fun i => ((nth i x 0 - nth i loc 0) / s i) ^ 2)).
  rewrite <- sb_scale. unfold sum_below at 1.
  rewrite (rsum_map_sub _ _ (fun i => / 2 * ((nth i x 0 - nth i loc 0) / s i) ^ 2 + ln (l i i))) by reflexivity.
  rewrite (rsum_map_sub _ _ (fun i => / 2 * ((nth i x 0 - nth i loc 0) / s i) ^ 2 + ln (l i i) + ln (2 * PI) / 2)) by reflexivity.
  apply (sb_ext n). intros i Hi. rewrite (D i Hi). unfold normal_nll. lra.
Qed.
