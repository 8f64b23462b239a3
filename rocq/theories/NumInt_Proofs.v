(** Proofs about the numeric integration. *)
From Verif Require Import Base NumInt_Model NumInt_Spec.
From Coq Require Import Lra Lia Ranalysis.
#[local] Open Scope R_scope.

(** ** Simpson *)
Fixpoint wsum (g : nat -> R) (i : nat) (ws : list R) : R :=
  match ws with [] => 0 | w :: r => g i * w + wsum g (S i) r end.
Lemma products_wsum : forall (g : nat -> R) ws i, rsum (products (map g (seq i (length ws))) ws) = wsum g i ws.
Proof.
  intros g ws. induction ws as [|w ws IH]; intro i; simpl; [reflexivity|].
  unfold products in *. simpl. rewrite <- IH. reflexivity.
Qed.
Fixpoint panels (g : nat -> R) (i k : nat) : R :=
  match k with O => 0 | S k => (g i + 4 * g (S i) + g (S (S i))) + panels g (S (S i)) k end.
Lemma wsum_panels : forall (g : nat -> R) m i c,
  wsum g i (c :: tile m [4; 2] ++ [4; 1]) = (c - 1) * g i + panels g i (S m).
Proof.
  intros g m. induction m as [|m IH]; intros i c; simpl.
  - ring.
  - simpl in IH. rewrite IH. simpl. ring.
Qed.
Lemma tile_length : forall m l, length (tile m l) = (m * length l)%nat.
Proof. intros m l. induction m as [|m IH]; simpl; [reflexivity|]. rewrite app_length, IH. reflexivity. Qed.
Lemma weights_length : forall m, length (simpson_weights (2 * m + 3)) = (2 * m + 3)%nat.
Proof.
  intro m. unfold simpson_weights. rewrite !app_length, tile_length.
  replace (2 * m + 3 - 3)%nat with (m * 2)%nat by lia. rewrite Nat.div_mul by lia. simpl. lia.
Qed.
Lemma odd_form : forall n, (3 <= n)%nat -> (n mod 2 = 1)%nat -> exists m, n = (2 * m + 3)%nat.
Proof.
  intros n H1 H2. exists ((n - 3) / 2)%nat. assert (n = 2 * (n / 2) + 1)%nat by (rewrite <- H2 at 3; apply Nat.div_mod_eq).
  replace (n - 3)%nat with ((n / 2 - 1) * 2)%nat by lia. rewrite Nat.div_mul by lia. lia.
Qed.

(** The primitive of a cubic, and the exactness on one panel *)
Definition prim (c0 c1 c2 c3 x : R) : R := c0 * x + c1 * x ^ 2 / 2 + c2 * x ^ 3 / 3 + c3 * x ^ 4 / 4.
Lemma panels_exact : forall c0 c1 c2 c3 lower dx k i,
  panels (fun i => cubic c0 c1 c2 c3 (lower + dx * INR i)) i k * dx / 3 =
  prim c0 c1 c2 c3 (lower + dx * INR (i + 2 * k)) - prim c0 c1 c2 c3 (lower + dx * INR i).
Proof.
  intros c0 c1 c2 c3 lower dx k. induction k as [|k IH]; intro i.
  - replace (i + 2 * 0)%nat with i by lia. simpl. lra.
  - cbn [panels]. specialize (IH (S (S i))).
    replace (i + 2 * S k)%nat with (S (S i) + 2 * k)%nat by lia.
    match goal with |- (?a + ?b) * dx / 3 = _ => replace ((a + b) * dx / 3) with (a * dx / 3 + b * dx / 3) by lra end.
    rewrite IH. rewrite !S_INR. unfold prim, cubic. set (x := INR i). field.
Qed.

Lemma simpson_cubic : forall c0 c1 c2 c3 lower upper n, (3 <= n)%nat -> (n mod 2 = 1)%nat ->
  simpson (cubic c0 c1 c2 c3) lower upper n = Ok (prim c0 c1 c2 c3 upper - prim c0 c1 c2 c3 lower).
Proof.
  intros c0 c1 c2 c3 lower upper n H1 H2. destruct (odd_form n H1 H2) as [m ->].
  unfold simpson. rewrite H2. replace (Nat.leb 3 (2 * m + 3)) with true by (symmetry; apply Nat.leb_le; lia).
  cbn [andb Nat.eqb]. f_equal. unfold simpson_grid. rewrite map_map.
  pose proof (products_wsum (fun i => cubic c0 c1 c2 c3 (lower + simpson_dx lower upper (2 * m + 3) * INR i)) (simpson_weights (2 * m + 3)) 0) as PW.
  rewrite weights_length in PW. rewrite PW. clear PW. unfold simpson_weights.
  replace ((2 * m + 3 - 3) / 2)%nat with m by (replace (2 * m + 3 - 3)%nat with (m * 2)%nat by lia; rewrite Nat.div_mul by lia; reflexivity).
  cbn [app]. rewrite wsum_panels. replace (1 - 1) with 0 by ring. rewrite Rmult_0_l, Rplus_0_l, panels_exact.
  assert (D : simpson_dx lower upper (2 * m + 3) * INR (0 + 2 * S m) = upper - lower).
  { unfold simpson_dx. replace (INR (2 * m + 3) - 1) with (INR (0 + 2 * S m)).
    - field. apply not_0_INR. lia.
    - replace (2 * m + 3)%nat with (S (0 + 2 * S m)) by lia. rewrite S_INR. ring. }
  rewrite D. replace (lower + (upper - lower)) with upper by ring. simpl INR. rewrite Rmult_0_r, Rplus_0_r. reflexivity.
Qed.

Lemma prim_derivative : forall c0 c1 c2 c3, antiderivative_of (prim c0 c1 c2 c3) (cubic c0 c1 c2 c3).
Proof.
  intros c0 c1 c2 c3 x. unfold prim.
  replace (cubic c0 c1 c2 c3 x) with
    (c0 * 1 + c1 * (INR 2 * x ^ 1) * / 2 + c2 * (INR 3 * x ^ 2) * / 3 + c3 * (INR 4 * x ^ 3) * / 4) by (unfold cubic; simpl; field).
  repeat apply (derivable_pt_lim_plus (fun x => _) (fun x => _)).
  - apply (derivable_pt_lim_scal id c0 x 1), derivable_pt_lim_id.
  - apply derivable_pt_lim_ext with (f := fun x => (/ 2) * (c1 * x ^ 2)); [intro; unfold Rdiv; ring|].
    replace (c1 * (INR 2 * x ^ 1) * / 2) with (/ 2 * (c1 * (INR 2 * x ^ 1))) by ring.
    apply (derivable_pt_lim_scal (fun x => c1 * x ^ 2)), (derivable_pt_lim_scal (fun x => x ^ 2)), (derivable_pt_lim_pow x 2).
  - apply derivable_pt_lim_ext with (f := fun x => (/ 3) * (c2 * x ^ 3)); [intro; unfold Rdiv; ring|].
    replace (c2 * (INR 3 * x ^ 2) * / 3) with (/ 3 * (c2 * (INR 3 * x ^ 2))) by ring.
    apply (derivable_pt_lim_scal (fun x => c2 * x ^ 3)), (derivable_pt_lim_scal (fun x => x ^ 3)), (derivable_pt_lim_pow x 3).
  - apply derivable_pt_lim_ext with (f := fun x => (/ 4) * (c3 * x ^ 4)); [intro; unfold Rdiv; ring|].
    replace (c3 * (INR 4 * x ^ 3) * / 4) with (/ 4 * (c3 * (INR 4 * x ^ 3))) by ring.
    apply (derivable_pt_lim_scal (fun x => c3 * x ^ 4)), (derivable_pt_lim_scal (fun x => x ^ 4)), (derivable_pt_lim_pow x 4).
Qed.
Lemma antiderivatives_differ : forall F G f, antiderivative_of F f -> antiderivative_of G f ->
  forall a b, F b - F a = G b - G a.
Proof.
  intros F G f HF HG a b.
  assert (D : forall x, derivable_pt_lim (F - G)%F x 0).
  { intro x. replace 0 with (f x - f x) by ring. apply derivable_pt_lim_minus; auto. }
  assert (pr : derivable (F - G)%F) by (intro x; exists 0; apply D).
  assert (C : constant (F - G)%F).
  { apply null_derivative_1 with pr. intro x. apply derive_pt_eq_0, D. }
  specialize (C b a). unfold minus_fct in C. lra.
Qed.

Lemma sanitize_odd : forall n, (sanitize_points n mod 2 = 1)%nat /\ (n < sanitize_points n <= n + 2)%nat /\ ((1 <= n)%nat -> (3 <= sanitize_points n)%nat).
Proof.
  intro n. unfold sanitize_points. assert (H := Nat.mod_upper_bound n 2 ltac:(lia)). assert (D := Nat.div_mod_eq n 2).
  destruct (n mod 2)%nat as [|[|k]] eqn:E; [| |lia].
  - split; [|split; [lia|intro; lia]]. replace (n + (0 + 1))%nat with (1 + (n / 2) * 2)%nat by lia. rewrite Nat.mod_add by lia. reflexivity.
  - split; [|split; [lia|intro; lia]]. replace (n + (1 + 1))%nat with (1 + (n / 2 + 1) * 2)%nat by lia. rewrite Nat.mod_add by lia. reflexivity.
Qed.

(** ** Averages *)
Lemma rsum_sum_of : forall l, rsum l = sum_of l.
Proof. induction l as [|x l IH]; simpl; [reflexivity|]. rewrite IH. reflexivity. Qed.
Lemma rsum_app : forall a b, rsum (a ++ b) = rsum a + rsum b.
Proof. induction a as [|x a IH]; intro b; simpl; [ring|]. rewrite IH. ring. Qed.
Lemma mean_average : forall l, mean l = average l.
Proof. intro l. unfold mean, average. rewrite rsum_sum_of. reflexivity. Qed.

Section MC.
Variable halton : nat -> list R.
Variable f : list R -> R.
Notation batch := (batch halton f).
Lemma batch_app : forall lower upper from a b, batch lower upper from (a + b) = batch lower upper from a ++ batch lower upper (from + a) b.
Proof. intros. unfold NumInt_Model.batch. rewrite seq_app, map_app. reflexivity. Qed.
Lemma batch_length : forall lower upper from n, length (batch lower upper from n) = n.
Proof. intros. unfold NumInt_Model.batch. rewrite map_length, seq_length. reflexivity. Qed.

Section Loop.
Variables (lower upper : list R) (n n_axes : nat).
Hypothesis Hn : (0 < n)%nat.
Notation body := (mc_body halton f lower upper n n_axes).
Fixpoint iter (k : nat) (s : mcstate) : mcstate := match k with O => s | S k => iter k (body s) end.
Lemma iter_S : forall k s, iter (S k) s = body (iter k s).
Proof. induction k as [|k IH]; intro s; [reflexivity|]. simpl in *. rewrite IH. reflexivity. Qed.

Definition batch_stds (k : nat) : list R := map (fun j => std (batch lower upper (j * n) n)) (seq 0 k).
Lemma batch_stds_S : forall k, batch_stds (S k) = batch_stds k ++ [std (batch lower upper (k * n) n)].
Proof. intro k. unfold batch_stds. rewrite seq_S, map_app. reflexivity. Qed.

Lemma state_after : forall k,
  mc_i (iter k mc_init) = k /\ mc_ntot (iter k mc_init) = (k * n)%nat /\
  mc_avg (iter k mc_init) * INR (k * n) = rsum (batch lower upper 0 (k * n)) /\
  mc_std (iter k mc_init) * INR k = rsum (batch_stds k).
Proof.
  induction k as [|k IH].
  - simpl. repeat split; ring.
  - rewrite iter_S. destruct IH as [H1 [H2 [H3 H4]]]. unfold mc_body. cbn [mc_i mc_ntot mc_avg mc_std].
    rewrite H1, H2. assert (Pk : INR k + 1 <> 0) by (assert (P := pos_INR k); lra).
    assert (Pn : INR n <> 0) by (apply not_0_INR; lia).
    split; [reflexivity|]. split; [lia|]. split.
    + replace (S k * n)%nat with (k * n + n)%nat by lia. rewrite batch_app, rsum_app, <- H3. simpl (0 + _)%nat.
      unfold mean. rewrite batch_length, plus_INR, mult_INR. field. auto.
    + rewrite batch_stds_S, rsum_app, <- H4, S_INR. simpl rsum. field. exact Pk.
Qed.
Lemma avg_after : forall k, (0 < k)%nat -> mc_avg (iter k mc_init) = average (batch lower upper 0 (k * n)).
Proof.
  intros k Hk. destruct (state_after k) as [_ [_ [H _]]]. unfold average. rewrite batch_length, <- rsum_sum_of, <- H.
  field. apply not_0_INR. nia.
Qed.
Lemma std_after : forall k, (0 < k)%nat -> mc_std (iter k mc_init) = average (batch_stds k).
Proof.
  intros k Hk. destruct (state_after k) as [_ [_ [_ H]]]. unfold average. rewrite <- rsum_sum_of, <- H.
  unfold batch_stds. rewrite map_length, seq_length. field. apply not_0_INR. lia.
Qed.
Definition error_after (k : nat) : R :=
  Rmin (average (batch_stds k) * (ln (INR (k * n))) ^ n_axes / INR (k * n)) (average (batch_stds k) / sqrt (INR (k * n))) * (1 / 10).
Lemma mc_error_after : forall k, (0 < k)%nat -> mc_error (iter k mc_init) = error_after k.
Proof.
  intros [|k] Hk; [lia|]. assert (S1 := std_after (S k) Hk). rewrite iter_S in *.
  destruct (state_after k) as [_ [H2 _]]. unfold error_after. rewrite <- S1. unfold mc_body. cbn [mc_error mc_std].
  rewrite H2. replace (k * n + n)%nat with (S k * n)%nat by lia. reflexivity.
Qed.

Variable tol : R.
Variable max_draws : nat.
Notation cond := (mc_cond tol max_draws).
Lemma while_some : forall fuel s, (max_draws <= mc_ntot s + fuel)%nat ->
  exists k, while fuel cond body s = Some (iter k s) /\ cond (iter k s) = false /\ forall j, (j < k)%nat -> cond (iter j s) = true.
Proof.
  induction fuel as [|fuel IH]; intros s Hs; cbn [while].
  - assert (C : cond s = false).
    { unfold mc_cond. replace (Nat.ltb (mc_ntot s) max_draws) with false; [apply andb_false_r|].
      symmetry. apply Nat.ltb_ge. lia. }
    rewrite C. exists O. split; [reflexivity|]. split; [exact C|]. intros j Hj. lia.
  - destruct (cond s) eqn:C.
    + destruct (IH (body s)) as [k [H1 [H2 H3]]]. { unfold mc_body. cbn [mc_ntot]. lia. }
      exists (S k). split; [exact H1|]. split; [exact H2|]. intros [|j] Hj; [exact C|]. simpl. apply H3. lia.
    + exists O. split; [reflexivity|]. split; [exact C|]. intros j Hj. lia.
Qed.
Lemma cond_false : forall s, cond s = false <-> mc_error s <= tol \/ (max_draws <= mc_ntot s)%nat.
Proof.
  intro s. unfold mc_cond. destruct (Rlt_dec tol (mc_error s)) as [H|H].
  - simpl. rewrite Nat.ltb_ge. split; [auto|]. intros [H'|H']; [lra|exact H'].
  - simpl. split; [|reflexivity]. intros _. left. lra.
Qed.
Lemma cond_true : forall s, cond s = true <-> tol < mc_error s /\ (mc_ntot s < max_draws)%nat.
Proof.
  intro s. unfold mc_cond. destruct (Rlt_dec tol (mc_error s)) as [H|H]; simpl.
  - rewrite Nat.ltb_lt. split; [intro H'; split; assumption|intros [_ H']; exact H'].
  - split; [discriminate|]. intros [H' _]. contradiction.
Qed.
End Loop.

(** Running mean over chunks *)
Lemma chunk_loop_ok : forall lower upper bs k b m, (0 < bs)%nat ->
  m * INR (b * bs) = rsum (batch upper lower 0 (b * bs)) ->
  chunk_loop halton f lower upper bs k b m * INR ((b + k) * bs) = rsum (batch upper lower 0 ((b + k) * bs)).
Proof.
  intros lower upper bs k. induction k as [|k IH]; intros b m Hb H; cbn [chunk_loop].
  - replace (b + 0)%nat with b by lia. exact H.
  - replace (b + S k)%nat with (S b + k)%nat by lia. apply IH; [exact Hb|].
    replace (S b * bs)%nat with (b * bs + bs)%nat by lia. rewrite batch_app, rsum_app, <- H. simpl (0 + _)%nat.
    unfold mean. rewrite batch_length, !plus_INR, mult_INR. simpl (INR 1).
    assert (INR bs <> 0) by (apply not_0_INR; lia). assert (INR b + 1 <> 0) by (assert (P := pos_INR b); lra).
    field. auto.
Qed.
End MC.

Lemma ceil_div_spec : forall a b, (0 < b)%nat -> (0 < a)%nat -> (a <= ceil_div a b * b < a + b)%nat /\ (0 < ceil_div a b)%nat.
Proof.
  intros a b Hb Ha. unfold ceil_div. assert (D := Nat.div_mod_eq (a + b - 1) b). assert (M := Nat.mod_upper_bound (a + b - 1) b ltac:(lia)).
  split; [nia|]. apply Nat.div_str_pos. lia.
Qed.

Lemma stretch_inside : forall lower upper u, length upper = length lower -> length u = length lower ->
  (forall i l h, nth_error lower i = Some l -> nth_error upper i = Some h -> l <= h) -> Forall (fun x => 0 <= x <= 1) u ->
  in_box lower upper (stretch lower upper u) /\ in_box lower upper (stretch upper lower u).
Proof.
  induction lower as [|l lower IH]; intros [|h upper] [|x u] H1 H2 H3 H4; simpl in H1, H2; try discriminate H1; try discriminate H2; simpl.
  - auto.
  - inversion H4 as [|? ? Hx Hu]; subst. assert (L : l <= h) by (apply (H3 0%nat); reflexivity).
    destruct (IH upper u) as [A B]; auto. { intros i l' h' E1 E2. apply (H3 (S i)); assumption. }
    repeat split; auto; nra.
Qed.
Lemma area_volume : forall lower upper, area lower upper = volume lower upper.
Proof.
  induction lower as [|l lower IH]; intros [|u upper]; simpl; try reflexivity.
  unfold area in *. simpl. rewrite IH. reflexivity.
Qed.
