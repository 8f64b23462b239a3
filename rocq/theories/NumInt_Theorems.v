(** Theorems about the numeric integration (C38, C39). *)
From Verif Require Import Base NumInt_Model NumInt_Spec NumInt_Proofs NumInt_Proofs2.
From Coq Require Import Lra Lia.
#[local] Open Scope R_scope.

(** ** C38: Simpson's rule is exact for polynomials of degree three and less *)

(** For every number of points asked for (at least one), every cubic, any of its antiderivatives, and any limits: *)
Theorem C38_simpson_exact : forall c0 c1 c2 c3 F limits num_points, (1 <= num_points)%nat ->
  antiderivative_of F (cubic c0 c1 c2 c3) ->
  simpson_integrate (cubic c0 c1 c2 c3) limits num_points = Ok (sum_of (map (fun l => F (snd l) - F (fst l)) limits)).
Proof.
  intros c0 c1 c2 c3 F limits n Hn HF. destruct (sanitize_odd n) as [H1 [_ H2]].
  apply simpson_all_exact; auto.
Qed.
(** The points actually used are odd in number, and at most two more than asked for *)
Theorem C38_points_odd : forall num_points,
  Nat.odd (sanitize_points num_points) = true /\ (num_points < sanitize_points num_points <= num_points + 2)%nat.
Proof.
  intro n. destruct (sanitize_odd n) as [H1 [H2 _]]. split; [|exact H2].
  rewrite <- Nat.bit0_odd, Nat.bit0_eqb, H1. reflexivity.
Qed.
(** The rule itself refuses anything but an odd number of at least three points, and gives the weights
    1 4 2 4 ... 2 4 1 to as many points. *)
Theorem C38_rule_accepts : forall f lower upper n,
  (exists v, simpson f lower upper n = Ok v) <-> (3 <= n)%nat /\ Nat.odd n = true.
Proof.
  intros f lower upper n. unfold simpson.
  assert (O : Nat.odd n = Nat.eqb (n mod 2) 1) by (rewrite <- Nat.bit0_odd, Nat.bit0_eqb; reflexivity).
  rewrite O. destruct (Nat.leb 3 n) eqn:E1; cbn [andb].
  - apply Nat.leb_le in E1. destruct (Nat.eqb (n mod 2) 1); split; intros H; [auto|eauto| |].
    + destruct H as [v H]. discriminate H.
    + destruct H as [_ H]. discriminate H.
  - apply Nat.leb_gt in E1. split; intros H; [destruct H as [v H]; discriminate H|lia].
Qed.
Theorem C38_weights : forall n, (3 <= n)%nat -> Nat.odd n = true ->
  length (simpson_weights n) = n /\
  forall i, (i < n)%nat -> nth_error (simpson_weights n) i =
    Some (if Nat.eqb i 0 || Nat.eqb i (n - 1) then 1 else if Nat.odd i then 4 else 2).
Proof.
  intros n H1 H2.
  assert (O : (n mod 2 = 1)%nat) by (rewrite <- Nat.bit0_odd, Nat.bit0_eqb in H2; apply Nat.eqb_eq in H2; exact H2).
  destruct (odd_form n H1 O) as [m ->]. split; [apply weights_length|].
  unfold simpson_weights. replace ((2 * m + 3 - 3) / 2)%nat with m by (replace (2 * m + 3 - 3)%nat with (m * 2)%nat by lia; rewrite Nat.div_mul by lia; reflexivity).
  intros [|i] Hi; [reflexivity|]. cbn [app nth_error Nat.eqb orb].
  replace (2 * m + 3 - 1)%nat with (S (2 * m + 1)) by lia. cbn [Nat.eqb].
  clear H1 H2 O. revert i Hi. induction m as [|m IH]; intros i Hi.
  - destruct i as [|[|i]]; [reflexivity|reflexivity|lia].
  - cbn [tile app]. destruct i as [|[|i]].
    + cbn [nth_error]. replace (Nat.eqb 0 (2 * S m + 1)) with false by (symmetry; apply Nat.eqb_neq; lia). reflexivity.
    + cbn [nth_error]. replace (Nat.eqb 1 (2 * S m + 1)) with false by (symmetry; apply Nat.eqb_neq; lia). reflexivity.
    + cbn [nth_error]. rewrite IH by lia. replace (2 * S m + 1)%nat with (S (S (2 * m + 1))) by lia. cbn [Nat.eqb].
      replace (Nat.odd (S (S (S i)))) with (Nat.odd (S i)) by reflexivity. reflexivity.
Qed.
(** Not a number of points at all: no result *)
Theorem C38_no_points : forall f lower upper limits,
  simpson_integrate f ((lower, upper) :: limits) 0 = Err InvalidArgumentError.
Proof. reflexivity. Qed.
Example C38_ex : simpson_integrate (cubic 0 0 0 4) [(0, 1); (2, 3)] 7 = Ok 66.
Proof.
  rewrite (C38_simpson_exact 0 0 0 4 (fun x => x ^ 4) [(0, 1); (2, 3)] 7).
  - f_equal. simpl. ring.
  - lia.
  - intro x. replace (cubic 0 0 0 4 x) with (INR 4 * x ^ pred 4) by (unfold cubic; simpl; ring). apply (derivable_pt_lim_pow x 4).
Qed.

(** ** C39: adaptive Monte Carlo *)

(** The loop ends, the integral is the volume times the plain average of the values at the first [k * n] points of the
    sequence, each taken once, where [n] is the number of points in a batch. It ends as soon as the estimated error is not above
    the tolerance, or the number of points reaches the maximum; before each batch there were fewer than that. *)
Theorem C39_average : forall halton f chunksize draws_per_dim max_draws tol n_axes lower upper,
  (0 < draws_per_dim * n_axes <= chunksize)%nat -> tol < 9999 -> (0 < max_draws)%nat ->
  let n := (draws_per_dim * n_axes)%nat in
  exists k, (1 <= k)%nat /\
    mc_box halton f chunksize draws_per_dim max_draws tol false n_axes lower upper =
      Some (average (values halton f lower upper 0 (k * n)) * volume lower upper) /\
    (estimated_error halton f lower upper n_axes n k <= tol \/ (max_draws <= k * n)%nat) /\
    (forall j, (1 <= j < k)%nat -> tol < estimated_error halton f lower upper n_axes n j /\ (j * n < max_draws)%nat).
Proof. intros. apply mc_box_loop; assumption. Qed.

(** Hence fewer than one batch too many is drawn: the statement with "exceed" read strictly is false (below). *)
Theorem C39_draws_partial : forall halton f chunksize draws_per_dim max_draws tol n_axes lower upper,
  (0 < draws_per_dim * n_axes <= chunksize)%nat -> tol < 9999 -> (0 < max_draws)%nat ->
  exists points, (points < max_draws + draws_per_dim * n_axes)%nat /\
    mc_box halton f chunksize draws_per_dim max_draws tol false n_axes lower upper =
      Some (average (values halton f lower upper 0 points) * volume lower upper).
Proof.
  intros halton f chunksize dpd max_draws tol n_axes lower upper H1 H2 H3.
  destruct (mc_box_loop halton f chunksize dpd max_draws tol n_axes lower upper H1 H2 H3) as [k [K1 [K2 [_ K3]]]].
  exists (k * (dpd * n_axes))%nat. split; [|exact K2].
  destruct (Nat.eq_dec k 1) as [->|Hk]; [lia|]. specialize (K3 (k - 1)%nat ltac:(lia)). nia.
Qed.
Theorem C39_draws_refuted : exists halton f chunksize draws_per_dim max_draws tol n_axes lower upper,
  (0 < draws_per_dim * n_axes <= chunksize)%nat /\ 0 < tol < 9999 /\ (0 < max_draws)%nat /\
  forall points, (points <= max_draws)%nat ->
    mc_box halton f chunksize draws_per_dim max_draws tol false n_axes lower upper <>
      Some (average (values halton f lower upper 0 points) * volume lower upper).
Proof.
  exists (fun i => [INR i / 2]), (fun x => hd 0 x), 2%nat, 2%nat, 1%nat, 1, 1%nat, [0], [1].
  split; [lia|]. split; [lra|]. split; [lia|]. intros points Hp.
  destruct (mc_box_loop (fun i => [INR i / 2]) (fun x => hd 0 x) 2 2 1 1 1 [0] [1]) as [k [K1 [K2 [_ K3]]]]; [lia|lra|lia|].
  rewrite K2. assert (k = 1%nat) as ->.
  { destruct (Nat.eq_dec k 1) as [|Hk]; [assumption|]. specialize (K3 1%nat ltac:(lia)). lia. }
  intro E. injection E as E. destruct points as [|[|points]]; [| |lia]; unfold average, values in E; simpl in E.
  - unfold Rdiv in E. rewrite Rmult_0_l in E. lra.
  - lra.
Qed.

(** Degenerate settings: with a maximum of zero, or a tolerance of 9999 or more, nothing is drawn and every integral is zero. *)
Theorem C39_zero_refuted : forall halton f chunksize draws_per_dim max_draws tol n_axes lower upper,
  (draws_per_dim * n_axes <= chunksize)%nat -> 9999 <= tol \/ max_draws = 0%nat ->
  mc_box halton f chunksize draws_per_dim max_draws tol false n_axes lower upper = Some 0.
Proof. intros. apply mc_box_zero; assumption. Qed.

(** The error compared with the tolerance is not relative: a function a thousand times larger, integrated with the
    same relative error, does not stop where the original does. *)
Lemma scaled_spread : forall halton f a b n k c, 0 <= c ->
  spread halton (fun x => c * f x) a b n k = c * spread halton f a b n k.
Proof.
  intros halton f a b n k c Hc.
  assert (SC : forall l, sum_of (map (Rmult c) l) = c * sum_of l) by (induction l as [|x l IH]; simpl; [ring|rewrite IH; ring]).
  assert (AV : forall l, average (map (Rmult c) l) = c * average l).
  { intro l. unfold average. rewrite map_length, SC. unfold Rdiv. ring. }
  assert (VA : forall from, values halton (fun x => c * f x) a b from n = map (Rmult c) (values halton f a b from n)).
  { intro from. unfold values. rewrite map_map. reflexivity. }
  assert (DE : forall l, deviation (map (Rmult c) l) = c * deviation l).
  { intro l. unfold deviation. rewrite AV.
    replace (map (fun y => (y - c * average l) ^ 2) (map (Rmult c) l)) with (map (Rmult (c * c)) (map (fun y => (y - average l) ^ 2) l))
      by (rewrite !map_map; apply map_ext; intro y; ring).
    assert (AV2 : forall d l, average (map (Rmult d) l) = d * average l).
    { intros d l'. unfold average. rewrite map_length.
      assert (E : sum_of (map (Rmult d) l') = d * sum_of l') by (induction l' as [|x l' IH]; simpl; [ring|rewrite IH; ring]).
      rewrite E. unfold Rdiv. ring. }
    rewrite AV2, sqrt_mult_alt by nra. rewrite sqrt_square by exact Hc. reflexivity. }
  unfold spread. rewrite <- AV, map_map. f_equal. apply map_ext. intro j. rewrite VA, DE. reflexivity.
Qed.
Theorem C39_error_scales : forall halton f a b n_axes n k c, 0 <= c ->
  estimated_error halton (fun x => c * f x) a b n_axes n k = c * estimated_error halton f a b n_axes n k.
Proof.
  intros halton f a b n_axes n k c Hc. unfold estimated_error. rewrite scaled_spread by exact Hc.
  set (u := spread halton f a b n k). set (v := ln (INR (k * n)) ^ n_axes).
  replace (c * u * v / INR (k * n)) with (c * (u * v / INR (k * n))) by (unfold Rdiv; ring).
  replace (c * u / sqrt (INR (k * n))) with (c * (u / sqrt (INR (k * n)))) by (unfold Rdiv; ring).
  generalize (u * v / INR (k * n)) (u / sqrt (INR (k * n))). intros x y.
  assert (E : Rmin (c * x) (c * y) = c * Rmin x y).
  { unfold Rmin. destruct (Rle_dec x y), (Rle_dec (c * x) (c * y)); try reflexivity; [exfalso|]; nra. }
  rewrite E. unfold Rdiv. ring.
Qed.

(** Integrands that take arrays for limits: exactly one batch *)
Theorem C39_vectorized : forall halton f chunksize draws_per_dim max_draws tol n_axes lower upper,
  (0 < draws_per_dim * n_axes <= chunksize)%nat ->
  mc_box halton f chunksize draws_per_dim max_draws tol true n_axes lower upper =
    Some (average (values halton f lower upper 0 (draws_per_dim * n_axes)) * volume lower upper).
Proof. intros. apply mc_box_vector; assumption. Qed.

(** More points than fit into a chunk: chunks of equal size, none above the allowed size, that together hold at least the
    points asked for; the integral is the volume times the plain average over all of them. The points run from the
    upper to the lower limits. *)
Theorem C39_chunks : forall halton f chunksize draws_per_dim max_draws tol vectorizable n_axes lower upper,
  (0 < chunksize < draws_per_dim * n_axes)%nat ->
  exists chunks size,
    mc_box halton f chunksize draws_per_dim max_draws tol vectorizable n_axes lower upper =
      Some (average (values halton f upper lower 0 (chunks * size)) * volume lower upper) /\
    (0 < chunks)%nat /\ (0 < size <= chunksize)%nat /\
    (draws_per_dim * n_axes <= chunks * size < draws_per_dim * n_axes + chunks)%nat /\
    ((chunks - 1) * chunksize < draws_per_dim * n_axes)%nat.
Proof. intros. apply mc_box_chunks; assumption. Qed.

(** In both cases all points lie in the box *)
Theorem C39_points_in_box : forall lower upper u, length upper = length lower -> length u = length lower ->
  (forall i l h, nth_error lower i = Some l -> nth_error upper i = Some h -> l <= h) -> Forall (fun x => 0 <= x <= 1) u ->
  in_box lower upper (place lower upper u) /\ in_box lower upper (place upper lower u).
Proof. exact points_inside. Qed.
(** Several boxes: the sum *)
Theorem C39_boxes_add : forall halton f chunksize dpd max_draws tol vect n_axes boxes vs,
  Forall2 (fun b v => mc_box halton f chunksize dpd max_draws tol vect n_axes (fst b) (snd b) = Some v) boxes vs ->
  mc_integrate halton f chunksize dpd max_draws tol vect n_axes boxes = Some (sum_of vs).
Proof. exact mc_integrate_sum. Qed.
(** A constant is integrated exactly, whatever the settings *)
Theorem C39_constant_exact : forall halton c chunksize draws_per_dim max_draws tol vect n_axes lower upper,
  (0 < chunksize)%nat -> (0 < draws_per_dim * n_axes)%nat -> tol < 9999 -> (0 < max_draws)%nat ->
  mc_box halton (fun _ => c) chunksize draws_per_dim max_draws tol vect n_axes lower upper = Some (c * volume lower upper).
Proof.
  intros halton c chunksize dpd max_draws tol vect n_axes lower upper H1 H2 H3 H4.
  assert (A : forall a b n, (0 < n)%nat -> average (values halton (fun _ => c) a b 0 n) = c).
  { intros a b n Hn. unfold average, values.
    assert (E : forall l, sum_of (map (fun _ : nat => c) l) = c * INR (length l)).
    { induction l as [|x l IH]; [simpl; ring|]. cbn [map sum_of length]. rewrite IH, S_INR. ring. }
    rewrite E, map_length. field. rewrite seq_length. apply not_0_INR. lia. }
  destruct (Nat.lt_ge_cases chunksize (dpd * n_axes)) as [L|L].
  - destruct (mc_box_chunks halton (fun _ => c) chunksize dpd max_draws tol vect n_axes lower upper) as [ch [sz [E [P1 [P2 _]]]]]; [lia|].
    rewrite E, A by nia. reflexivity.
  - destruct vect.
    + rewrite mc_box_vector, A by lia. reflexivity.
    + destruct (mc_box_loop halton (fun _ => c) chunksize dpd max_draws tol n_axes lower upper) as [k [K1 [K2 _]]]; [lia|assumption|assumption|].
      rewrite K2, A by nia. reflexivity.
Qed.
Example C39_ex : mc_box (fun i => [INR i / 2]) (fun x => hd 0 x) 4 2 1 1 true 1 [0] [2] = Some 1.
Proof. rewrite C39_vectorized by lia. unfold average, values. simpl. f_equal. field. Qed.
(** The hypotheses of the loop: two points per batch, at most a million draws *)
Example C39_ex_loop : exists k, mc_box (fun i => [INR i / 2]) (fun x => hd 0 x) 4 2 100 1 false 1 [0] [2]
  = Some (average (values (fun i => [INR i / 2]) (fun x => hd 0 x) [0] [2] 0 (k * 2)) * 2).
Proof.
  destruct (C39_average (fun i => [INR i / 2]) (fun x => hd 0 x) 4 2 100 1 1 [0] [2]) as [k [_ [E _]]]; [lia|lra|lia|].
  exists k. rewrite E. f_equal. simpl. f_equal. ring.
Qed.
(** One axis without data: Simpson; everything else Monte Carlo *)
Theorem C39_method : forall n_axes x_given,
  auto_method n_axes x_given = "simpson"%string <-> n_axes = 1%nat /\ x_given = false.
Proof.
  intros n x. unfold auto_method. destruct (Nat.eqb n 1) eqn:E; [apply Nat.eqb_eq in E|apply Nat.eqb_neq in E]; destruct x; simpl; split; intro H; try discriminate H; try (destruct H as [H1 H2]; try discriminate H2; contradiction); auto.
Qed.

Print Assumptions C38_simpson_exact.
Print Assumptions C38_points_odd.
Print Assumptions C38_rule_accepts.
Print Assumptions C38_weights.
Print Assumptions C38_no_points.
Print Assumptions C39_average.
Print Assumptions C39_draws_partial.
Print Assumptions C39_draws_refuted.
Print Assumptions C39_zero_refuted.
Print Assumptions C39_error_scales.
Print Assumptions C39_vectorized.
Print Assumptions C39_chunks.
Print Assumptions C39_points_in_box.
Print Assumptions C39_boxes_add.
Print Assumptions C39_constant_exact.
Print Assumptions C39_method.
