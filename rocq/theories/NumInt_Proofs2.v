(** Proofs about the numeric integration, continued: from the model to the specification. *)
From Verif Require Import Base NumInt_Model NumInt_Spec NumInt_Proofs.
From Coq Require Import Lra Lia Ranalysis.
#[local] Open Scope R_scope.

Lemma stretch_place : forall a b u, stretch a b u = place a b u.
Proof.
  unfold stretch. induction a as [|l a IH]; intros [|h b] [|x u]; simpl; try reflexivity.
  rewrite IH. f_equal. ring.
Qed.
Lemma batch_values : forall halton f a b from n, batch halton f a b from n = values halton f a b from n.
Proof. intros. unfold batch, values. apply map_ext. intro i. rewrite stretch_place. reflexivity. Qed.
Lemma std_deviation : forall l, std l = deviation l.
Proof.
  intro l. unfold std, deviation. rewrite mean_average. f_equal. f_equal. apply map_ext. intro y. rewrite mean_average. ring.
Qed.
Lemma error_estimated : forall halton f a b n n_axes k,
  error_after halton f a b n n_axes k = estimated_error halton f a b n_axes n k.
Proof.
  intros. unfold error_after, estimated_error, spread, batch_stds.
  replace (map (fun j => std (batch halton f a b (j * n) n)) (seq 0 k))
    with (map (fun j => deviation (values halton f a b (j * n) n)) (seq 0 k)).
  - field.
  - apply map_ext. intro j. rewrite std_deviation, batch_values. reflexivity.
Qed.

Lemma mc_box_loop : forall halton f chunksize dpd max_draws tol n_axes lower upper,
  (0 < dpd * n_axes <= chunksize)%nat -> tol < 9999 -> (0 < max_draws)%nat ->
  exists k, (1 <= k)%nat /\
    mc_box halton f chunksize dpd max_draws tol false n_axes lower upper =
      Some (average (values halton f lower upper 0 (k * (dpd * n_axes))) * volume lower upper) /\
    (estimated_error halton f lower upper n_axes (dpd * n_axes) k <= tol \/ (max_draws <= k * (dpd * n_axes))%nat) /\
    (forall j, (1 <= j < k)%nat -> tol < estimated_error halton f lower upper n_axes (dpd * n_axes) j /\ (j * (dpd * n_axes) < max_draws)%nat).
Proof.
  intros halton f chunksize dpd max_draws tol n_axes lower upper [H0 H1] Ht Hm. set (n := (dpd * n_axes)%nat) in *.
  destruct (while_some halton f lower upper n n_axes H0 tol max_draws max_draws mc_init) as [k [K1 [K2 K3]]]; [simpl; lia|].
  assert (Hk : (1 <= k)%nat).
  { destruct k; [|lia]. exfalso. cbn [iter] in K2. apply cond_false in K2. cbn [mc_init mc_error mc_ntot] in K2. destruct K2 as [K2|K2]; [lra|lia]. }
  exists k. split; [exact Hk|]. split; [|split].
  - unfold mc_box. fold n. replace (Nat.ltb chunksize n) with false by (symmetry; apply Nat.ltb_ge; lia).
    rewrite K1. cbn [option_map]. rewrite avg_after by (assumption || lia). rewrite batch_values, area_volume. reflexivity.
  - apply cond_false in K2. rewrite mc_error_after, error_estimated in K2 by (assumption || lia).
    destruct (state_after halton f lower upper n n_axes H0 k) as [_ [S2 _]]. rewrite S2 in K2. exact K2.
  - intros j Hj. assert (C := K3 j ltac:(lia)). apply cond_true in C. rewrite mc_error_after, error_estimated in C by (assumption || lia).
    destruct (state_after halton f lower upper n n_axes H0 j) as [_ [S2 _]]. rewrite S2 in C. exact C.
Qed.
Lemma mc_box_zero : forall halton f chunksize dpd max_draws tol n_axes lower upper,
  (dpd * n_axes <= chunksize)%nat -> 9999 <= tol \/ max_draws = 0%nat ->
  mc_box halton f chunksize dpd max_draws tol false n_axes lower upper = Some 0.
Proof.
  intros halton f chunksize dpd max_draws tol n_axes lower upper H1 H.
  unfold mc_box. replace (Nat.ltb chunksize (dpd * n_axes)) with false by (symmetry; apply Nat.ltb_ge; lia).
  assert (C : mc_cond tol max_draws mc_init = false).
  { apply cond_false. destruct H as [H| ->]; [left; exact H|right; simpl; lia]. }
  destruct max_draws; cbn [while]; rewrite C; cbn [option_map mc_init mc_avg]; rewrite Rmult_0_l; reflexivity.
Qed.
Lemma mc_box_vector : forall halton f chunksize dpd max_draws tol n_axes lower upper,
  (0 < dpd * n_axes <= chunksize)%nat ->
  mc_box halton f chunksize dpd max_draws tol true n_axes lower upper =
    Some (average (values halton f lower upper 0 (dpd * n_axes)) * volume lower upper).
Proof.
  intros halton f chunksize dpd max_draws tol n_axes lower upper [H0 H1]. unfold mc_box.
  replace (Nat.ltb chunksize (dpd * n_axes)) with false by (symmetry; apply Nat.ltb_ge; lia). cbn [option_map].
  pose proof (avg_after halton f lower upper (dpd * n_axes) n_axes H0 1 ltac:(lia)) as A. cbn [iter] in A.
  rewrite A, batch_values, area_volume. replace (1 * (dpd * n_axes))%nat with (dpd * n_axes)%nat by lia. reflexivity.
Qed.
Lemma mc_box_chunks : forall halton f chunksize dpd max_draws tol vect n_axes lower upper,
  (0 < chunksize < dpd * n_axes)%nat ->
  exists chunks size, mc_box halton f chunksize dpd max_draws tol vect n_axes lower upper =
      Some (average (values halton f upper lower 0 (chunks * size)) * volume lower upper) /\
    (0 < chunks)%nat /\ (0 < size <= chunksize)%nat /\ (dpd * n_axes <= chunks * size < dpd * n_axes + chunks)%nat /\
    ((chunks - 1) * chunksize < dpd * n_axes)%nat.
Proof.
  intros halton f chunksize dpd max_draws tol vect n_axes lower upper [H0 H1]. set (n := (dpd * n_axes)%nat) in *.
  set (chunks := ceil_div n chunksize). set (size := ceil_div n chunks).
  destruct (ceil_div_spec n chunksize H0 ltac:(lia)) as [C1 C2]. fold chunks in C1, C2.
  destruct (ceil_div_spec n chunks C2 ltac:(lia)) as [S1 S2]. fold size in S1, S2.
  exists chunks, size. split; [|split; [exact C2|split; [split; [exact S2|nia]|split; [nia|nia]]]].
  unfold mc_box. fold n. replace (Nat.ltb chunksize n) with true by (symmetry; apply Nat.ltb_lt; lia).
  fold chunks. fold size. cbn [option_map]. f_equal. rewrite area_volume. f_equal.
  pose proof (chunk_loop_ok halton f lower upper size chunks 0 0 S2) as L. simpl (0 + _)%nat in L.
  specialize (L ltac:(simpl; ring)). unfold average. rewrite <- batch_values, batch_length, <- rsum_sum_of, <- L.
  field. apply not_0_INR. nia.
Qed.
Lemma points_inside : forall lower upper u, length upper = length lower -> length u = length lower ->
  (forall i l h, nth_error lower i = Some l -> nth_error upper i = Some h -> l <= h) -> Forall (fun x => 0 <= x <= 1) u ->
  in_box lower upper (place lower upper u) /\ in_box lower upper (place upper lower u).
Proof. intros. rewrite <- !stretch_place. apply stretch_inside; assumption. Qed.
Lemma mc_integrate_sum : forall halton f chunksize dpd max_draws tol vect n_axes boxes vs,
  Forall2 (fun b v => mc_box halton f chunksize dpd max_draws tol vect n_axes (fst b) (snd b) = Some v) boxes vs ->
  mc_integrate halton f chunksize dpd max_draws tol vect n_axes boxes = Some (sum_of vs).
Proof.
  intros halton f chunksize dpd max_draws tol vect n_axes boxes vs H.
  induction H as [|[lower upper] v boxes vs Hv _ IH]; cbn [mc_integrate sum_of]; [reflexivity|].
  cbn [fst snd] in Hv. rewrite Hv, IH. reflexivity.
Qed.

(** Simpson *)
Lemma simpson_antiderivative : forall c0 c1 c2 c3 F lower upper n, antiderivative_of F (cubic c0 c1 c2 c3) -> (3 <= n)%nat -> (n mod 2 = 1)%nat ->
  simpson (cubic c0 c1 c2 c3) lower upper n = Ok (F upper - F lower).
Proof.
  intros c0 c1 c2 c3 F lower upper n HF H1 H2. rewrite simpson_cubic by assumption. f_equal.
  apply (antiderivatives_differ _ _ _ (prim_derivative c0 c1 c2 c3) HF).
Qed.
Lemma simpson_all_exact : forall c0 c1 c2 c3 F limits n, antiderivative_of F (cubic c0 c1 c2 c3) -> (3 <= n)%nat -> (n mod 2 = 1)%nat ->
  simpson_all (cubic c0 c1 c2 c3) limits n = Ok (sum_of (map (fun l => F (snd l) - F (fst l)) limits)).
Proof.
  intros c0 c1 c2 c3 F limits n HF H1 H2. induction limits as [|[lower upper] limits IH]; cbn [simpson_all map sum_of]; [reflexivity|].
  rewrite (simpson_antiderivative _ _ _ _ F) by assumption. cbn [bind]. rewrite IH. reflexivity.
Qed.
