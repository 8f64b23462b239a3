(** More lemmas about splines: regularisation, linearity, totals, and three points. *)
From Coq Require Import Reals Lra.
From Verif Require Import Base BaseLemmas PGraph_Proofs Spl_Model Spl_Spec Spl_Proofs.
Open Scope R_scope.
Open Scope list_scope.

(** regularisation *)
Lemma dot_diag g reg i n s w : (s <= i < s + n)%nat -> 
  dot (map (fun j => g j + if Nat.eqb i j then reg else 0) (seq s n)) w
  = dot (map g (seq s n)) w + reg * nth (i - s) w 0.
Proof.
  revert s w. induction n as [|n IH]; intros s w H; [lia|]. cbn [seq map].
  destruct w as [|y w]; [cbn [dot]; destruct (i - s)%nat; cbn; lra|]. cbn [dot].
  destruct (Nat.eqb_spec i s) as [->|N].
  - rewrite Nat.sub_diag. cbn [nth].
    assert (E : map (fun j => g j + (if Nat.eqb s j then reg else 0)) (seq (S s) n) = map g (seq (S s) n)).
    { apply map_ext_in. intros j Ij. apply in_seq in Ij. destruct (Nat.eqb_spec s j); [lia|lra]. }
    rewrite E. lra.
  - rewrite IH by lia. replace (i - s)%nat with (S (i - S s)) by lia. cbn [nth]. lra.
Qed.
Lemma map_nth_seq (l : list R) n : length l = n -> map (fun j => nth j l 0) (seq 0 n) = l.
Proof.
  revert n. induction l as [|a l IH]; intros [|n] H; cbn in *; try discriminate; [reflexivity|].
  f_equal. rewrite <- seq_shift, map_map. apply IH. lia.
Qed.
Lemma combine_nth {A B} (l1 : list A) (l2 : list B) i a b :
  nth_error l1 i = Some a -> nth_error l2 i = Some b -> nth_error (combine l1 l2) i = Some (a, b).
Proof.
  revert i l2. induction l1 as [|z1 l1 IH]; intros [|i] [|z2 l2] H1 H2; cbn in *; try discriminate.
  - now injection H1 as ->; injection H2 as ->.
  - now apply IH.
Qed.

Lemma row_reg order reg d pts x i c f : 0 < reg -> nth_error pts i = Some c ->
  mulmv (lhs order reg d pts) x = rhs d f -> length f = length pts ->
  apply_interpolation order pts (firstn (length pts) x) (skipn (length pts) x) c
  = nth i f 0 - reg * nth i (firstn (length pts) x) 0.
Proof.
  intros P Ic M Lf. assert (Li : (i < length pts)%nat) by (apply nth_error_Some; congruence).
  assert (E : nth i (mulmv (lhs order reg d pts) x) 0 = nth i f 0).
  { rewrite M. unfold rhs. rewrite app_nth1 by lia. reflexivity. }
  unfold mulmv in E. revert E.
  set (A := map (map (phi order)) (pairwise_dist2 pts)).
  assert (LA : @length (list R) A = length pts) by (unfold A, pairwise_dist2; now rewrite !map_length).
  assert (NA : nth i A [] = map (fun y => phi order (cross_dist2 c y)) pts).
  { unfold A, pairwise_dist2. rewrite map_map. 
    rewrite (nth_indep _ [] (map (phi order) (map (fun y => dot c c - 2 * dot c y + dot y y) pts)))
      by (now rewrite map_length).
    erewrite (map_nth (fun x => map (phi order) (map (fun y => dot x x - 2 * dot x y + dot y y) pts)) pts c i).
    rewrite (nth_error_nth _ _ c Ic). now rewrite map_map. }
  assert (R : nth_error (lhs order reg d pts) i = Some (map (fun j => nth j (nth i A []) 0 + (if Nat.eqb i j then reg else 0)) (seq 0 (length pts)) ++ (c ++ [1]))).
  { unfold lhs. rewrite nth_error_app1.
    - rewrite nth_error_map.
      assert (C : nth_error (combine (add_diag reg A) (map (fun c => c ++ [1]) pts)) i
        = Some (map (fun j => nth j (nth i A []) 0 + (if Nat.eqb i j then reg else 0)) (seq 0 (length pts)), c ++ [1])).
      { clear - P LA Ic Li. 
        assert (H1 : nth_error (add_diag reg A) i = Some (map (fun j => nth j (nth i A []) 0 + (if Nat.eqb i j then reg else 0)) (seq 0 (length pts)))).
        { unfold add_diag. destruct (Rlt_dec 0 reg) as [_|N]; [|contradiction].
          rewrite nth_error_map, LA.
          rewrite (nth_error_nth' (seq 0 (length pts)) 0%nat) by (now rewrite seq_length).
          rewrite seq_nth by exact Li. reflexivity. }
        assert (H2 : nth_error (map (fun c => c ++ [1]) pts) i = Some (c ++ [1])) by (now rewrite nth_error_map, Ic).
        now apply combine_nth. }
      fold A. rewrite C. reflexivity.
    - rewrite map_length, combine_length, map_length. fold A. unfold A. rewrite add_diag_length. lia. }
  rewrite (nth_map_in (fun row => dot row x) (lhs order reg d pts) i _ R).
  intros E. rewrite dot_app, map_length, seq_length, dot_diag, Nat.sub_0_r, NA in E by lia.
  rewrite (map_nth_seq (map (fun y => phi order (cross_dist2 c y)) pts)) in E by (now rewrite map_length).
  unfold apply_interpolation. lra.
Qed.

(** the conditions on the weights *)
Lemma weights_sum order reg d pts f x : points d pts -> length f = length pts ->
  length x = length (lhs order reg d pts) -> mulmv (lhs order reg d pts) x = rhs d f ->
  sumR (firstn (length pts) x) = 0
  /\ forall k, (k < d)%nat -> dot (map (fun c => nth k c 0) pts) (firstn (length pts) x) = 0.
Proof.
  intros P Lf L M. pose proof (rows_rest order reg d pts x L) as R. rewrite M in R. unfold rhs in R.
  rewrite skipn_app, <- Lf, Nat.sub_diag, skipn_all in R. cbn [app skipn] in R. rewrite Lf in R.
  assert (G : forall k, (k < d + 1)%nat ->
    dot (map (fun c => nth k (c ++ [1]) 0) pts) (firstn (length pts) x) = 0).
  { intros k Hk. apply (In_zeros _ (d + 1)). rewrite R.
    apply (in_map (fun k => dot (map (fun c => nth k (c ++ [1]) 0) pts) (firstn (length pts) x))).
    apply in_seq. lia. }
  split.
  - etransitivity; [|apply (G d); lia].
    assert (E : map (fun c => nth d (c ++ [1]) 0) pts = map (fun _ => 1) pts).
    { apply map_ext_in. intros c Ic. unfold points in P. rewrite Forall_forall in P.
      rewrite app_nth2 by (rewrite (P c Ic); lia). rewrite (P c Ic), Nat.sub_diag. reflexivity. }
    rewrite E. assert (Ln : length (firstn (length pts) x) = length pts).
    { rewrite firstn_length, L, lhs_length. lia. }
    revert Ln. generalize (firstn (length pts) x) as w. clear. intros w. revert pts.
    induction w as [|y w IH]; intros [|c pts] H; cbn in *; try discriminate; [reflexivity|].
    unfold sumR in IH. rewrite (IH pts) by lia. lra.
  - intros k Hk. etransitivity; [|apply (G k); lia]. f_equal. apply map_ext_in. intros c Ic.
    unfold points in P. rewrite Forall_forall in P. rewrite app_nth1 by (rewrite (P c Ic); lia). reflexivity.
Qed.

(** linearity *)
Lemma firstn_scalv n c a : firstn n (scalv c a) = scalv c (firstn n a).
Proof. apply firstn_map. Qed.
Lemma skipn_scalv n c a : skipn n (scalv c a) = scalv c (skipn n a).
Proof. apply skipn_map. Qed.
Lemma addv_app a a' b b' : length a = length b -> addv (a ++ a') (b ++ b') = addv a b ++ addv a' b'.
Proof. revert b. induction a as [|x a IH]; intros [|y b] H; cbn in *; try discriminate; [reflexivity|]. rewrite IH by lia. reflexivity. Qed.
Lemma addv_zeros n : addv (zeros n) (zeros n) = zeros n.
Proof. unfold zeros. induction n as [|n IH]; cbn; [reflexivity|]. rewrite IH. f_equal. lra. Qed.
Lemma scalv_zeros c n : scalv c (zeros n) = zeros n.
Proof. unfold zeros, scalv. induction n as [|n IH]; cbn; [reflexivity|]. rewrite IH. f_equal. lra. Qed.
Lemma scalv_length c a : length (scalv c a) = length a. Proof. apply map_length. Qed.

Section Solver.
Context (solve : list vec -> vec -> result vec) (OK : solves solve).

Lemma linear order d pts f g a b q yf yg y : determined order d pts ->
  length f = length pts -> length g = length pts ->
  interpolate_spline solve order 0 d pts f q = Ok yf ->
  interpolate_spline solve order 0 d pts g q = Ok yg ->
  interpolate_spline solve order 0 d pts (addv (scalv a f) (scalv b g)) q = Ok y ->
  y = a * yf + b * yg.
Proof.
  intros D Lf Lg Hf Hg H.
  destruct (interp_solution solve OK _ _ _ _ _ _ Lf Hf) as (xf & _ & Lxf & Mf & ->).
  destruct (interp_solution solve OK _ _ _ _ _ _ Lg Hg) as (xg & _ & Lxg & Mg & ->).
  assert (Lx : length (scalv a xf) = length (scalv b xg)) by (rewrite !scalv_length; lia).
  rewrite (known solve OK order d pts (addv (scalv a f) (scalv b g)) q y (addv (scalv a xf) (scalv b xg)) D).
  - unfold apply_interpolation. rewrite firstn_addv, skipn_addv by exact Lx.
    rewrite !firstn_scalv, !skipn_scalv.
    rewrite !dot_addv by (rewrite !scalv_length, ?firstn_length, ?skipn_length; lia).
    rewrite !dot_scalv. lra.
  - rewrite addv_length by (rewrite !scalv_length; lia). rewrite scalv_length. exact Lf.
  - rewrite addv_length by exact Lx. rewrite scalv_length. exact Lxf.
  - rewrite mulmv_addv by exact Lx. rewrite !mulmv_scalv, Mf, Mg. unfold rhs.
    unfold scalv. rewrite !map_app. fold (scalv a f) (scalv b g) (scalv a (zeros (d+1))) (scalv b (zeros (d+1))).
    rewrite addv_app by (rewrite !scalv_length; lia). rewrite !scalv_zeros, addv_zeros. reflexivity.
  - exact H.
Qed.
Lemma interp_zero order d pts q y : determined order d pts ->
  interpolate_spline solve order 0 d pts (zeros (length pts)) q = Ok y -> y = 0.
Proof.
  intros D H.
  rewrite (known solve OK order d pts (zeros (length pts)) q y (zeros (length (lhs order 0 d pts))) D).
  - unfold apply_interpolation. rewrite lhs_length. unfold zeros. rewrite repeat_app, firstn_app, skipn_app, repeat_length, Nat.sub_diag.
    cbn [firstn skipn]. rewrite app_nil_r. rewrite firstn_all2 by (rewrite repeat_length; lia).
    rewrite skipn_all2 by (rewrite repeat_length; lia). cbn [app]. fold (zeros (length pts)) (zeros (d + 1)). rewrite !dot_zeros_r. lra.
  - apply repeat_length.
  - apply repeat_length.
  - unfold mulmv, rhs. rewrite (map_ext _ (fun _ => 0)) by (intros; apply dot_zeros_r).
    rewrite <- (repeat_app 0). fold (zeros (length pts + (d + 1))). apply all_zero.
    + rewrite map_length. apply lhs_length.
    + intros r Ir. now apply in_map_iff in Ir as (z & <- & _).
  - exact H.
Qed.

(** the solver succeeds for one right hand side and not for another: not excluded; so sums are
    handled through the solution *)
Lemma interp_sum order d pts (n : nat) (F : nat -> vec) q ys y : determined order d pts ->
  (forall j, length (F j) = length pts) ->
  mapM (fun j => interpolate_spline solve order 0 d pts (F j) q) (seq 0 n) = Ok ys ->
  interpolate_spline solve order 0 d pts
    (fold_right (fun j acc => addv (F j) acc) (zeros (length pts)) (seq 0 n)) q = Ok y ->
  y = sumR ys.
Proof.
  intros D LF. generalize 0%nat as s. intros s H Hy.
  assert (G : exists x, length x = length (lhs order 0 d pts)
     /\ mulmv (lhs order 0 d pts) x = rhs d (fold_right (fun j acc => addv (F j) acc) (zeros (length pts)) (seq s n))
     /\ apply_interpolation order pts (firstn (length pts) x) (skipn (length pts) x) q = sumR ys
     /\ length (fold_right (fun j acc => addv (F j) acc) (zeros (length pts)) (seq s n)) = length pts).
  { clear Hy y. revert s ys H. induction n as [|n IH]; intros s ys H; cbn [seq mapM fold_right] in *.
    - injection H as <-. exists (zeros (length (lhs order 0 d pts))). split; [apply repeat_length|]. split; [|split].
      + unfold mulmv, rhs. unfold zeros at 2 3. rewrite <- (repeat_app 0). apply all_zero.
        * rewrite map_length. apply lhs_length.
        * intros r Ir. apply in_map_iff in Ir as (z & <- & _). apply dot_zeros_r.
      + unfold apply_interpolation. rewrite lhs_length. unfold zeros. rewrite repeat_app, firstn_app, skipn_app, repeat_length, Nat.sub_diag.
        cbn [firstn skipn]. rewrite app_nil_r. rewrite firstn_all2 by (rewrite repeat_length; lia).
        rewrite skipn_all2 by (rewrite repeat_length; lia). cbn [app]. fold (zeros (length pts)) (zeros (d + 1)). rewrite !dot_zeros_r. cbn. lra.
      + apply repeat_length.
    - destruct (interpolate_spline solve order 0 d pts (F s) q) as [y1|] eqn:E1; [|discriminate]. cbn in H.
      destruct (mapM _ (seq (S s) n)) as [ys'|] eqn:E2; [|discriminate]. cbn in H. injection H as <-.
      destruct (IH _ _ E2) as (x' & L' & M' & A' & N').
      destruct (interp_solution solve OK _ _ _ _ _ _ (LF s) E1) as (x1 & _ & L1 & M1 & ->).
      exists (addv x1 x'). split; [rewrite addv_length; lia|]. split; [|split].
      + rewrite mulmv_addv by lia. rewrite M1, M'. unfold rhs. rewrite addv_app by (rewrite N'; apply LF).
        now rewrite addv_zeros.
      + unfold apply_interpolation. rewrite firstn_addv, skipn_addv by lia.
        rewrite !dot_addv by (rewrite ?firstn_length, ?skipn_length; lia).
        unfold apply_interpolation in A'. cbn [sumR fold_right]. unfold sumR in A'. lra.
      + rewrite addv_length; [apply LF|]. rewrite N'. apply LF. }
  destruct G as (x & L & M & A & N).
  rewrite (known solve OK order d pts _ q y x D N L M Hy). exact A.
Qed.
End Solver.

(** three points *)
Lemma eps_pos : 0 < EPSILON.
Proof. unfold EPSILON. apply Rinv_0_lt_compat. apply pow_lt. lra. Qed.
Definition L (r : R) : R := ln (Rmax r EPSILON).
Lemma L_mono a b : a <= b -> L a <= L b.
Proof.
  intros H. unfold L. pose proof eps_pos. destruct (Rle_lt_or_eq_dec (Rmax a EPSILON) (Rmax b EPSILON)) as [I|E].
  - apply Rle_max_compat_r. exact H.
  - left. apply ln_increasing; [|exact I]. eapply Rlt_le_trans; [exact H0|apply Rmax_r].
  - rewrite E. lra.
Qed.
Lemma L_strict a b : a < b -> EPSILON < b -> L a < L b.
Proof.
  intros H E. unfold L. pose proof eps_pos. apply ln_increasing.
  - eapply Rlt_le_trans; [exact H0|apply Rmax_r].
  - rewrite (Rmax_left b) by lra. now apply Rmax_lub_lt.
Qed.
Lemma phi2 r : phi 2 r = / 2 * r * L r. Proof. reflexivity. Qed.
(** the curvature of the three points *)
Definition K (p q : R) : R :=
  p * q * (p + q) * (p * (L ((p + q) * (p + q)) - L (p * p)) + q * (L ((p + q) * (p + q)) - L (q * q))).
Lemma K_pos p q : 0 < p -> 0 < q -> EPSILON < (p + q) * (p + q) -> 0 < K p q.
Proof.
  intros P Q E. unfold K. apply Rmult_lt_0_compat; [apply Rmult_lt_0_compat; [nra|lra]|].
  assert (L (p * p) < L ((p + q) * (p + q))) by (apply L_strict; nra).
  assert (L (q * q) < L ((p + q) * (p + q))) by (apply L_strict; nra). nra.
Qed.
