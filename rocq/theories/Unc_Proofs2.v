(** Proofs for uncertainties, part 2: sums, the corrected covariance, correlations. *)
From Coq Require Import Lqa.
From Verif Require Import Base BaseLemmas Unc_Model Unc_Spec Unc_Proofs.
#[local] Open Scope nat_scope.

Lemma qsum_app a b : (qsum (a ++ b) == qsum a + qsum b)%Q.
Proof. induction a as [|x a IH]; cbn; [lra|]. rewrite IH. lra. Qed.
Lemma qsum_sum_to f n : (qsum (map f (seq 0 n)) == sum_to n f)%Q.
Proof.
  induction n as [|n IH]; [reflexivity|]. rewrite seq_S, map_app, qsum_app, IH. cbn. lra.
Qed.
Lemma sum_ext n f g : (forall k, k < n -> (f k == g k)%Q) -> (sum_to n f == sum_to n g)%Q.
Proof.
  induction n as [|n IH]; intros H; [reflexivity|]. cbn. rewrite IH by (intros k Hk; apply H; lia). rewrite (H n) by lia. reflexivity.
Qed.
Lemma sum_plus n f g : (sum_to n (fun k => f k + g k) == sum_to n f + sum_to n g)%Q.
Proof. induction n as [|n IH]; cbn; [lra|]. rewrite IH. lra. Qed.
Lemma sum_mul n c f : (sum_to n (fun k => c * f k) == c * sum_to n f)%Q.
Proof. induction n as [|n IH]; cbn; [lra|]. rewrite IH. lra. Qed.
Lemma sum_mul_r n c f : (sum_to n (fun k => f k * c) == sum_to n f * c)%Q.
Proof. induction n as [|n IH]; cbn; [lra|]. rewrite IH. lra. Qed.
Lemma sum_zero n : (sum_to n (fun _ => 0) == 0)%Q.
Proof. induction n as [|n IH]; cbn; [lra|]. rewrite IH. lra. Qed.
Lemma sum_swap n m f : (sum_to n (fun i => sum_to m (f i)) == sum_to m (fun j => sum_to n (fun i => f i j)))%Q.
Proof.
  induction n as [|n IH]; cbn [sum_to].
  - symmetry. apply sum_zero.
  - rewrite IH. rewrite <- sum_plus. reflexivity.
Qed.
Lemma sum_nonneg n f : (forall k, k < n -> (0 <= f k)%Q) -> (0 <= sum_to n f)%Q.
Proof.
  induction n as [|n IH]; intros H; cbn; [lra|]. pose proof (H n (le_n _)). assert (0 <= sum_to n f)%Q by (apply IH; intros k Hk; apply H; lia). lra.
Qed.
Lemma sum_single n f i : i < n -> (forall k, k < n -> k <> i -> (f k == 0)%Q) -> (sum_to n f == f i)%Q.
Proof.
  induction n as [|n IH]; intros Hi H; [lia|]. cbn. destruct (Nat.eq_dec i n) as [->|Hn].
  - assert (E : (sum_to n f == sum_to n (fun _ => 0))%Q) by (apply sum_ext; intros k Hk; apply H; lia). rewrite E, sum_zero. lra.
  - rewrite IH by (lia || (intros k Hk; apply H; lia)). rewrite (H n) by lia. lra.
Qed.
Lemma dot_sum (a b : list Q) m : length a = m -> length b = m ->
  (qsum (map (fun ab => fst ab * snd ab)%Q (combine a b)) == sum_to m (fun e => nth e a 0 * nth e b 0))%Q.
Proof.
  intros <- . revert b. induction a as [|x a IH]; intros [|y b] L; try discriminate; [reflexivity|].
  cbn [combine map qsum fst snd length]. rewrite IH by (simpl in L; lia). clear.
  assert (G : forall n f, (sum_to (S n) f == f 0%nat + sum_to n (fun k => f (S k)))%Q).
  { induction n as [|n IH]; intros f; [cbn; lra|]. cbn [sum_to] in *. rewrite (IH f). lra. }
  rewrite (G (length a)). reflexivity.
Qed.
Lemma nth_map_seq {A} (f : nat -> A) n i d : i < n -> nth i (map f (seq 0 n)) d = f i.
Proof. intros H. apply nth_error_nth. rewrite nth_error_map, nth_error_seq by exact H. reflexivity. Qed.
Lemma matmul_get n a b i j : i < n -> j < n -> (mget 0%Q (matmul n a b) i j == sum_to n (fun k => mget 0 a i k * mget 0 b k j))%Q.
Proof.
  intros Hi Hj. unfold matmul. unfold mget at 1.
  rewrite nth_map_seq by assumption. rewrite nth_map_seq by assumption.
  apply (qsum_sum_to (fun k => mget 0 a i k * mget 0 b k j)%Q).
Qed.
Lemma gram_get n jac i j m : i < n -> j < n -> length (nth i jac []) = m -> length (nth j jac []) = m ->
  (mget 0%Q (gram n jac) i j == sum_to m (fun e => nth e (nth i jac []) 0 * nth e (nth j jac []) 0))%Q.
Proof.
  intros Hi Hj Li Lj. unfold gram. unfold mget.
  rewrite nth_map_seq by assumption. rewrite nth_map_seq by assumption.
  apply dot_sum; assumption.
Qed.
Lemma sandwich n (h jac : list (list Q)) m i j : i < n -> j < n -> (forall k l, k < n -> l < n -> mget 0%Q h k l = mget 0%Q h l k) ->
  (forall k, k < n -> length (nth k jac []) = m) ->
  (mget 0%Q (matmul n h (matmul n (gram n jac) h)) i j
   == sum_to m (fun e => sum_to n (fun k => mget 0 h i k * nth e (nth k jac []) 0) * sum_to n (fun l => mget 0 h j l * nth e (nth l jac []) 0)))%Q.
Proof.
  intros Hi Hj Hs Hm. rewrite matmul_get by assumption.
  transitivity (sum_to n (fun k => mget 0 h i k * sum_to n (fun l => sum_to m (fun e => nth e (nth k jac []) 0 * nth e (nth l jac []) 0) * mget 0 h l j)))%Q.
  { apply sum_ext. intros k Hk. rewrite matmul_get by assumption.
    assert (E : (sum_to n (fun l => mget 0 (gram n jac) k l * mget 0 h l j) == sum_to n (fun l => sum_to m (fun e => nth e (nth k jac []) 0 * nth e (nth l jac []) 0) * mget 0 h l j))%Q).
    { apply sum_ext. intros l Hl. rewrite (gram_get n jac k l m) by auto. reflexivity. }
    rewrite E. reflexivity. }
  transitivity (sum_to n (fun k => sum_to m (fun e => mget 0 h i k * nth e (nth k jac []) 0 * sum_to n (fun l => mget 0 h j l * nth e (nth l jac []) 0))))%Q.
  { apply sum_ext. intros k Hk. rewrite <- sum_mul.
    transitivity (sum_to n (fun l => sum_to m (fun e => mget 0 h i k * nth e (nth k jac []) 0 * (mget 0 h j l * nth e (nth l jac []) 0))))%Q.
    { apply sum_ext. intros l Hl. rewrite (Hs j l) by assumption. rewrite <- sum_mul_r, <- sum_mul. apply sum_ext. intros e _. lra. }
    rewrite sum_swap. apply sum_ext. intros e _. rewrite <- sum_mul. apply sum_ext. intros l _. lra. }
  rewrite sum_swap. apply sum_ext. intros e _. rewrite <- sum_mul_r. apply sum_ext. intros k _. lra.
Qed.
Lemma diag_get n (f : nat -> Q) i j : i < n -> j < n ->
  mget 0%Q (map (fun i => map (fun j => if Nat.eqb i j then f i else 0%Q) (seq 0 n)) (seq 0 n)) i j = if Nat.eqb i j then f i else 0%Q.
Proof.
  intros Hi Hj. unfold mget. rewrite nth_map_seq by assumption. rewrite nth_map_seq by assumption. reflexivity.
Qed.
Lemma correlation_get (sqrt_ : Q -> Q) c i j : i < length c -> j < length c ->
  (mget 0%Q (to_correlation sqrt_ c) i j == mget 0 c i j / (sqrt_ (mget 0 c i i) * sqrt_ (mget 0 c j j)))%Q.
Proof.
  intros Hi Hj. unfold to_correlation. rewrite matmul_get by assumption.
  rewrite (sum_single _ _ i Hi).
  2: { intros k Hk Hn. rewrite (diag_get _ (fun i => (1 / sqrt_ (mget 0 c i i))%Q)) by assumption. apply Nat.neq_sym, Nat.eqb_neq in Hn. rewrite Hn. lra. }
  rewrite (diag_get _ (fun i => (1 / sqrt_ (mget 0 c i i))%Q)) by assumption. rewrite Nat.eqb_refl.
  rewrite matmul_get by assumption. rewrite (sum_single _ _ j Hj).
  2: { intros k Hk Hn. rewrite (diag_get _ (fun i => (1 / sqrt_ (mget 0 c i i))%Q)) by assumption. apply Nat.eqb_neq in Hn. rewrite Hn. lra. }
  rewrite (diag_get _ (fun i => (1 / sqrt_ (mget 0 c i i))%Q)) by assumption. rewrite Nat.eqb_refl.
  unfold Qdiv. rewrite Qinv_mult_distr. lra.
Qed.
