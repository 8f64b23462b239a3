(** Lemmas about splines. *)
From Coq Require Import Reals Lra.
From Verif Require Import Base BaseLemmas PGraph_Proofs Spl_Model Spl_Spec.
Open Scope R_scope.
Open Scope list_scope.

Lemma dot_nil_r a : dot a [] = 0.
Proof. destruct a; reflexivity. Qed.
Lemma dot_app a a' b : dot (a ++ a') b = dot a (firstn (length a) b) + dot a' (skipn (length a) b).
Proof.
  revert b. induction a as [|x a IH]; intros b; cbn; [lra|]. destruct b as [|y b]; cbn.
  - rewrite !dot_nil_r. lra.
  - rewrite IH. lra.
Qed.
Lemma dot_zeros n b : dot (zeros n) b = 0.
Proof. unfold zeros. revert b. induction n as [|n IH]; intros [|y b]; cbn; try reflexivity. rewrite IH. lra. Qed.
Lemma dot_zeros_r a n : dot a (zeros n) = 0.
Proof. unfold zeros. revert n. induction a as [|y a IH]; intros [|n]; cbn; try reflexivity. rewrite IH. lra. Qed.
Lemma dot_comm a b : dot a b = dot b a.
Proof. revert b. induction a as [|x a IH]; intros [|y b]; cbn; try reflexivity. rewrite IH. lra. Qed.
Fixpoint addv (a b : vec) : vec := match a, b with x :: a, y :: b => (x + y) :: addv a b | _, _ => [] end.
Definition scalv (c : R) (a : vec) : vec := map (Rmult c) a.
Lemma addv_length a b : length a = length b -> length (addv a b) = length a.
Proof. revert b. induction a as [|x a IH]; intros [|y b] H; cbn in *; try lia. rewrite IH; lia. Qed.
Lemma dot_addv r a b : length a = length b -> dot r (addv a b) = dot r a + dot r b.
Proof.
  revert a b. induction r as [|z r IH]; intros [|x a] [|y b] H; cbn in *; try lra; try discriminate.
  rewrite IH by lia. lra.
Qed.
Lemma dot_scalv r c a : dot r (scalv c a) = c * dot r a.
Proof.
  revert a. induction r as [|z r IH]; intros [|x a]; cbn; try lra. unfold scalv in IH. rewrite IH. lra.
Qed.
Lemma firstn_addv n a b : firstn n (addv a b) = addv (firstn n a) (firstn n b).
Proof. revert a b. induction n as [|n IH]; intros [|x a] [|y b]; cbn; try reflexivity. now rewrite IH. Qed.
Lemma skipn_addv n a b : length a = length b -> skipn n (addv a b) = addv (skipn n a) (skipn n b).
Proof.
  revert a b. induction n as [|n IH]; intros a b H; [reflexivity|].
  destruct a, b; try discriminate; cbn; [reflexivity|]. apply IH. cbn in H. lia.
Qed.
Lemma nth_addv i a b : length a = length b -> nth i (addv a b) 0 = nth i a 0 + nth i b 0.
Proof.
  revert a b. induction i as [|i IH]; intros [|x a] [|y b] H; cbn in *; try discriminate; try lra. apply IH. lia.
Qed.

Lemma add_diag_length order reg pts :
  @length (list R) (add_diag reg (map (map (phi order)) (pairwise_dist2 pts))) = length pts.
Proof.
  unfold add_diag. destruct (Rlt_dec 0 reg); unfold pairwise_dist2; [rewrite map_length, seq_length|]; now rewrite !map_length.
Qed.
Lemma lhs_length order reg d pts : length (lhs order reg d pts) = (length pts + (d + 1))%nat.
Proof.
  unfold lhs. rewrite app_length, map_length, combine_length, !map_length, seq_length.
  rewrite add_diag_length.
  rewrite Nat.min_id. reflexivity.
Qed.
Lemma rhs_length d f : length (rhs d f) = (length f + (d + 1))%nat.
Proof. unfold rhs, zeros. now rewrite app_length, repeat_length. Qed.

Lemma combine_map_map {A B C} (f : A -> B) (g : A -> C) l :
  combine (map f l) (map g l) = map (fun a => (f a, g a)) l.
Proof. induction l as [|a l IH]; cbn; [reflexivity|]. now rewrite IH. Qed.
(** the row of a point: the spline at the point *)
Lemma rows order d pts x :
  firstn (length pts) (mulmv (lhs order 0 d pts) x)
  = map (fun c => apply_interpolation order pts (firstn (length pts) x) (skipn (length pts) x) c) pts.
Proof.
  unfold lhs, add_diag. destruct (Rlt_dec 0 0) as [H|_]; [lra|].
  unfold pairwise_dist2. rewrite map_map, combine_map_map, map_map. cbn [fst snd].
  unfold mulmv. rewrite map_app, map_map.
  rewrite firstn_app, map_length, Nat.sub_diag. cbn [firstn]. rewrite app_nil_r.
  rewrite firstn_all2 by (now rewrite map_length).
  apply map_ext. intros c. unfold apply_interpolation, cross_dist2.
  rewrite dot_app, !map_length, map_map. reflexivity.
Qed.
(** the other rows: the conditions on the weights *)
Lemma rows_rest order reg d pts x : length x = length (lhs order reg d pts) ->
  skipn (length pts) (mulmv (lhs order reg d pts) x)
  = map (fun k => dot (map (fun c => nth k (c ++ [1]) 0) pts) (firstn (length pts) x)) (seq 0 (d + 1)).
Proof.
  intros L. unfold lhs, mulmv. rewrite map_app, map_map.
  set (g := map _ (combine _ _)).
  assert (E : length g = length pts).
  { unfold g. rewrite map_length, combine_length, map_length.
    rewrite add_diag_length.
    apply Nat.min_id. }
  clearbody g. rewrite <- E at 1. rewrite skipn_app, skipn_all, Nat.sub_diag. cbn [app skipn].
  rewrite map_map. apply map_ext. intros k. rewrite dot_app, dot_zeros, !map_length, map_map. apply Rplus_0_r.
Qed.

Lemma nth_map_in {A} (f : A -> R) l i a : nth_error l i = Some a -> nth i (map f l) 0 = f a.
Proof. revert i. induction l as [|b l IH]; intros [|i] H; cbn in *; try discriminate; [injection H as ->; reflexivity|]. now apply IH. Qed.

Section Solver.
Context (solve : list vec -> vec -> result vec) (OK : solves solve).

Lemma interp_solution order d pts f q y : length f = length pts ->
  interpolate_spline solve order 0 d pts f q = Ok y ->
  exists x, solve (lhs order 0 d pts) (rhs d f) = Ok x /\ length x = length (lhs order 0 d pts)
    /\ mulmv (lhs order 0 d pts) x = rhs d f
    /\ y = apply_interpolation order pts (firstn (length pts) x) (skipn (length pts) x) q.
Proof.
  intros L. unfold interpolate_spline, solve_interpolation.
  destruct (solve (lhs order 0 d pts) (rhs d f)) as [x|e] eqn:E; [|discriminate]. cbn. intros H.
  injection H as <-. destruct (OK _ _ _ E). eauto.
Qed.
Lemma through order d pts f i c y : length f = length pts -> nth_error pts i = Some c ->
  interpolate_spline solve order 0 d pts f c = Ok y -> y = nth i f 0.
Proof.
  intros L Ic H. destruct (interp_solution order d pts f c y L H) as (x & _ & _ & M & ->).
  pose proof (rows order d pts x) as R. rewrite M in R. unfold rhs in R.
  rewrite firstn_app, <- L, Nat.sub_diag in R. cbn [firstn] in R. rewrite app_nil_r, firstn_all in R.
  rewrite L in R. rewrite R. symmetry.
  apply (nth_map_in (fun c => apply_interpolation order pts (firstn (length pts) x) (skipn (length pts) x) c) pts i c Ic).
Qed.

Lemma all_zero x n : length x = n -> (forall r, In r x -> r = 0) -> x = zeros n.
Proof.
  intros <-. induction x as [|a x IH]; intros H; [reflexivity|]. unfold zeros. cbn. f_equal.
  - apply H. now left.
  - apply IH. intros r Ir. apply H. now right.
Qed.
Lemma In_zeros r n : In r (zeros n) -> r = 0.
Proof. intros H. now apply repeat_spec in H. Qed.
Lemma mulmv_addv A x y : length x = length y -> mulmv A (addv x y) = addv (mulmv A x) (mulmv A y).
Proof. intros L. unfold mulmv. induction A as [|r A IH]; cbn; [reflexivity|]. now rewrite dot_addv, IH. Qed.
Lemma mulmv_scalv A c x : mulmv A (scalv c x) = scalv c (mulmv A x).
Proof. unfold mulmv, scalv. rewrite map_map. apply map_ext. intros r. apply dot_scalv. Qed.
Lemma addv_scal_self a : addv a (scalv (-1) a) = zeros (length a).
Proof. induction a as [|x a IH]; cbn; [reflexivity|]. unfold zeros in *. cbn. unfold scalv in IH. rewrite IH. f_equal. lra. Qed.
Lemma addv_minus_zero a b n : length a = length b -> addv a (scalv (-1) b) = zeros n -> a = b.
Proof.
  revert b n. induction a as [|x a IH]; intros [|y b] n L H; cbn in *; try discriminate; [reflexivity|].
  destruct n as [|n]; [discriminate|]. unfold zeros in H. cbn in H. injection H as H1 H2. f_equal; [lra|].
  apply (IH b n); [lia|exact H2].
Qed.
(** one solution only *)
Lemma unique order d pts x y b : determined order d pts ->
  length x = length (lhs order 0 d pts) -> length y = length (lhs order 0 d pts) ->
  mulmv (lhs order 0 d pts) x = b -> mulmv (lhs order 0 d pts) y = b -> x = y.
Proof.
  intros D Lx Ly Mx My. apply (addv_minus_zero x y (length x)); [lia|].
  assert (Ls : length (scalv (-1) y) = length y) by apply map_length.
  apply all_zero; [apply addv_length; lia|]. apply D.
  - rewrite addv_length; lia.
  - intros r Ir. rewrite mulmv_addv, mulmv_scalv, Mx, My, addv_scal_self in Ir by lia.
    now apply In_zeros in Ir.
Qed.

(** a solution that is known *)
Lemma known order d pts f q y x : determined order d pts -> length f = length pts ->
  length x = length (lhs order 0 d pts) -> mulmv (lhs order 0 d pts) x = rhs d f ->
  interpolate_spline solve order 0 d pts f q = Ok y ->
  y = apply_interpolation order pts (firstn (length pts) x) (skipn (length pts) x) q.
Proof.
  intros D L Lx Mx H. destruct (interp_solution order d pts f q y L H) as (x' & _ & Lx' & Mx' & ->).
  now rewrite (unique order d pts x' x _ D Lx' Lx Mx' Mx).
Qed.

Lemma list_split {A} n (l l1 l2 : list A) : firstn n l = l1 -> skipn n l = l2 -> l = l1 ++ l2.
Proof. intros <- <-. now rewrite firstn_skipn. Qed.

Lemma affine_solution order d pts a b : points d pts -> length a = d ->
  let x := zeros (length pts) ++ (a ++ [b]) in
  length x = length (lhs order 0 d pts)
  /\ mulmv (lhs order 0 d pts) x = rhs d (map (affine a b) pts)
  /\ forall q, length q = d ->
      apply_interpolation order pts (firstn (length pts) x) (skipn (length pts) x) q = affine a b q.
Proof.
  intros P La x.
  assert (Lz : length (zeros (length pts)) = length pts) by apply repeat_length.
  assert (F : firstn (length pts) x = zeros (length pts)).
  { unfold x. rewrite firstn_app, Lz, Nat.sub_diag. cbn [firstn]. rewrite app_nil_r. now rewrite <- Lz at 1; rewrite firstn_all. }
  assert (S : skipn (length pts) x = a ++ [b]).
  { unfold x. rewrite skipn_app, Lz, Nat.sub_diag. rewrite <- Lz at 1. now rewrite skipn_all. }
  assert (Lx : length x = length (lhs order 0 d pts)).
  { unfold x. rewrite !app_length, Lz, lhs_length. cbn. lia. }
  assert (V : forall q, length q = d ->
     apply_interpolation order pts (firstn (length pts) x) (skipn (length pts) x) q = affine a b q).
  { intros q Lq. rewrite F, S. unfold apply_interpolation, affine. rewrite dot_zeros_r.
    rewrite dot_app. rewrite firstn_app, skipn_app, Lq, La, Nat.sub_diag.
    rewrite <- La at 1. rewrite firstn_all. rewrite <- La at 1. rewrite skipn_all. cbn. rewrite app_nil_r.
    rewrite dot_comm. lra. }
  split; [exact Lx|]. split; [|exact V].
  unfold rhs. apply (list_split (length pts)).
  - rewrite rows. apply map_ext_in. intros c Ic. apply V. unfold points in P. rewrite Forall_forall in P. now apply P.
  - rewrite rows_rest by exact Lx. rewrite F. apply all_zero.
    + now rewrite map_length, seq_length.
    + intros r Ir. apply in_map_iff in Ir as (k & <- & _). apply dot_zeros_r.
Qed.
End Solver.
