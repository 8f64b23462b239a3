(** C77, continued: the tolerances for the wrapped minimisers. *)
From Verif Require Import Base BaseLemmas DrvTol_Model.
From Coq Require Import Reals Lra.
#[local] Open Scope R_scope.

Lemma sqrt_between a b x : 0 <= a -> a * a <= x -> x <= b * b -> 0 <= b -> a <= sqrt x <= b.
Proof.
  intros A AX XB B. split.
  - rewrite <- (sqrt_square a A). apply sqrt_le_1_alt. exact AX.
  - rewrite <- (sqrt_square b B). apply sqrt_le_1_alt. exact XB.
Qed.

(** The factor is the square root of 0.3 times tolerance over criterion, kept between 0.01 and 0.2.
    The outer limit of 0.21 never matters. *)
Theorem C77_tol_factor tol c f : tol_factor tol (Some c) = Some f ->
  1 / 100 <= f <= 1 / 5 /\
  (tol / c <= 1 / 3000 -> f = 1 / 100) /\ (2 / 15 <= tol / c -> f = 1 / 5) /\
  (1 / 3000 <= tol / c <= 2 / 15 -> f * f = tol / c * (3 / 10)).
Proof.
  unfold tol_factor. intros E. injection E as <-. set (q := tol / c). clearbody q.
  set (y := Rmin (Rmax (q * (3 / 10)) (1 / 10000)) (4 / 100)).
  assert (Y : 1 / 10000 <= y <= 4 / 100).
  { unfold y. split; [apply Rmin_glb; [apply Rmax_r|lra]|apply Rmin_r]. }
  assert (S : 1 / 100 <= sqrt y <= 1 / 5) by (apply sqrt_between; lra).
  rewrite (Rmin_left (sqrt y)) by lra. split; [exact S|]. split; [|split].
  - intros Q. assert (y = 1 / 100 * (1 / 100)) as ->.
    { unfold y. rewrite Rmax_right by lra. rewrite Rmin_left by lra. lra. }
    apply sqrt_square. lra.
  - intros Q. assert (y = 1 / 5 * (1 / 5)) as ->.
    { unfold y. rewrite Rmin_right; [lra|]. apply Rle_trans with (q * (3 / 10)); [lra|apply Rmax_l]. }
    apply sqrt_square. lra.
  - intros Q. rewrite sqrt_sqrt by lra. unfold y. rewrite Rmax_left by lra. rewrite Rmin_left by lra. reflexivity.
Qed.

Lemma factor_some tol c : exists f, tol_factor tol (Some c) = Some f /\ 1 / 100 <= f <= 1 / 5.
Proof. eexists. split; [reflexivity|]. destruct (C77_tol_factor tol c _ eq_refl) as (A&_). exact A. Qed.

Lemma lookup_update tol c tols k t : lookup String.eqb k tols = Some t ->
  lookup String.eqb k (update_tols tol c tols) =
  Some (times t (if String.eqb k "gtol"%string || String.eqb k "xtol"%string then option_map sqrt (tol_factor tol c) else tol_factor tol c)).
Proof.
  unfold update_tols. induction tols as [|[a b] l IH]; cbn; [discriminate|]. destruct (String.eqb k a) eqn:E.
  - apply String.eqb_eq in E. subst a. intros H. injection H as ->. reflexivity.
  - exact IH.
Qed.
Lemma lookup_updates tol cs : forall tols k t, lookup String.eqb k tols = Some t ->
  exists t', lookup String.eqb k (updates tol cs tols) = Some t'.
Proof.
  induction cs as [|c cs IH]; intros tols k t H; [exists t; exact H|].
  exact (IH _ k _ (lookup_update tol c tols k t H)).
Qed.

(** Every further run has tighter tolerances. As long as the criterion is a number, a tolerance is
    divided each time by at least 5 and at most 100; "gtol" and "xtol" by at least 2 and at most 10. *)
Theorem C77_tolerances_shrink tol (cs : list R) tols k t : lookup String.eqb k tols = Some (Some t) -> 0 < t ->
  let n := length cs in
  exists t', lookup String.eqb k (updates tol (map Some cs) tols) = Some (Some t') /\
    if String.eqb k "gtol"%string || String.eqb k "xtol"%string then t / 10 ^ n <= t' <= t / 2 ^ n else t / 100 ^ n <= t' <= t / 5 ^ n.
Proof.
  revert tols t. induction cs as [|c cs IH]; intros tols t L P.
  - exists t. split; [exact L|]. cbn. destruct (_ || _); lra.
  - cbn [map length updates fold_left]. fold (updates tol (map Some cs) (update_tols tol (Some c) tols)).
    pose proof (lookup_update tol (Some c) tols k (Some t) L) as U.
    destruct (factor_some tol c) as (f&F&B). rewrite F in U.
    destruct (String.eqb k "gtol"%string || String.eqb k "xtol"%string) eqn:K; cbn [option_map times] in U.
    + assert (S : 1 / 10 <= sqrt f <= 1 / 2) by (apply sqrt_between; lra).
      destruct (IH _ (t * sqrt f) U ltac:(apply Rmult_lt_0_compat; lra)) as (t'&T&A&D). exists t'. split; [exact T|].
      assert (P1 : 0 < / 10 ^ length cs) by (apply Rinv_0_lt_compat, pow_lt; lra).
      assert (P2 : 0 < / 2 ^ length cs) by (apply Rinv_0_lt_compat, pow_lt; lra).
      cbn [pow]. unfold Rdiv in *. rewrite !Rinv_mult. split.
      * apply Rle_trans with (2 := A). rewrite <- Rmult_assoc. apply Rmult_le_compat_r; [lra|]. apply Rmult_le_compat_l; lra.
      * apply Rle_trans with (1 := D). rewrite <- Rmult_assoc. apply Rmult_le_compat_r; [lra|]. apply Rmult_le_compat_l; lra.
    + destruct (IH _ (t * f) U ltac:(apply Rmult_lt_0_compat; lra)) as (t'&T&A&D). exists t'. split; [exact T|].
      assert (P1 : 0 < / 100 ^ length cs) by (apply Rinv_0_lt_compat, pow_lt; lra).
      assert (P2 : 0 < / 5 ^ length cs) by (apply Rinv_0_lt_compat, pow_lt; lra).
      cbn [pow]. unfold Rdiv in *. rewrite !Rinv_mult. split.
      * apply Rle_trans with (2 := A). rewrite <- Rmult_assoc. apply Rmult_le_compat_r; [lra|]. apply Rmult_le_compat_l; lra.
      * apply Rle_trans with (1 := D). rewrite <- Rmult_assoc. apply Rmult_le_compat_r; [lra|]. apply Rmult_le_compat_l; lra.
Qed.
Example tolerances_shrink_ex : exists t', lookup String.eqb "ftol"%string (updates (1 / 1000) (map Some [5; 3]) [("gtol"%string, Some 1); ("ftol"%string, Some 2)]) = Some (Some t')
  /\ 2 / 10000 <= t' <= 2 / 25.
Proof.
  destruct (C77_tolerances_shrink (1 / 1000) [5; 3] [("gtol"%string, Some 1); ("ftol"%string, Some 2)] "ftol"%string 2 eq_refl ltac:(lra)) as (t'&A&B).
  exists t'. split; [exact A|]. cbn in B. lra.
Qed.

(** The first tolerances are those that the user gave, otherwise one that is positive and at most the
    square root of tolerance times errordef. *)
Theorem C77_first_tolerances k errordef tol given n g : 0 < errordef -> 0 < tol -> 0 < k ->
  lookup String.eqb n given = Some g ->
  exists t, lookup String.eqb n (init_tols k errordef tol given) = Some (Some t) /\
    match g with Some u => t = u | None => 0 < t /\ t * t <= errordef * tol /\ t <= errordef * tol * k end.
Proof.
  intros E T K L. assert (P : 0 < errordef * tol) by (apply Rmult_lt_0_compat; assumption).
  exists (match g with Some u => u | None => init_tol k errordef tol end). split.
  - unfold init_tols. induction given as [|[a b] l IH]; cbn in *; [discriminate|]. destruct (String.eqb n a).
    + injection L as ->. destruct g; reflexivity.
    + now apply IH.
  - destruct g; [reflexivity|]. unfold init_tol. assert (S := sqrt_lt_R0 _ P).
    assert (0 < errordef * tol * k) by (apply Rmult_lt_0_compat; assumption). split; [|split].
    + apply Rmin_glb_lt; assumption.
    + assert (M0 : 0 < Rmin (sqrt (errordef * tol)) (errordef * tol * k)) by (apply Rmin_glb_lt; assumption).
      assert (M1 := Rmin_l (sqrt (errordef * tol)) (errordef * tol * k)). set (m := Rmin _ _) in *. clearbody m.
      apply Rle_trans with (sqrt (errordef * tol) * sqrt (errordef * tol)); [apply Rmult_le_compat; lra|rewrite sqrt_sqrt; lra].
    + apply Rmin_r.
Qed.
Example first_tolerances_ex : lookup String.eqb "xtol"%string (init_tols 1000 (1 / 2) (1 / 1000) [("gtol"%string, None); ("xtol"%string, Some 3)]) = Some (Some 3).
Proof. reflexivity. Qed.


(** For NLopt, the tolerances of the values and of the loss start at the square root of that. *)
Theorem C77_first_tolerances_nlopt errordef tol given n g : lookup String.eqb n given = Some g ->
  let t0 := match g with Some u => u | None => Rmin (sqrt (errordef * tol)) (errordef * tol * 1000) end in
  lookup String.eqb n (init_tols_nlopt errordef tol given) =
  Some (Some (if String.eqb n "xtol"%string || String.eqb n "ftol"%string then sqrt t0 else t0)).
Proof.
  unfold init_tols_nlopt, init_tols. induction given as [|[a b] l IH]; cbn [lookup map fst snd]; [discriminate|].
  destruct (String.eqb n a) eqn:E; [|exact IH]. apply String.eqb_eq in E. subst a. intros H. injection H as ->. cbn zeta.
  destruct (_ || _), g; reflexivity.
Qed.

(** Finding: if the criterion is NaN once, e.g. because a derivative is NaN, then all the tolerances are
    NaN from then on, also if later runs lead to a number again. *)
Theorem C77_nan_tolerances tol cs cs' tols k t : lookup String.eqb k tols = Some t ->
  lookup String.eqb k (updates tol (cs ++ None :: cs') tols) = Some None.
Proof.
  intros L. unfold updates. rewrite fold_left_app. fold (updates tol cs tols). cbn.
  destruct (lookup_updates tol cs tols k t L) as (t'&L').
  pose proof (lookup_update tol None _ k t' L') as U. cbn in U.
  assert (N : lookup String.eqb k (update_tols tol None (updates tol cs tols)) = Some None).
  { rewrite U. destruct (_ || _), t'; reflexivity. }
  clear U L' L. revert N. generalize (update_tols tol None (updates tol cs tols)). induction cs' as [|c cs' IH]; intros l N; [exact N|].
  cbn. apply IH. rewrite (lookup_update tol c l k None N). reflexivity.
Qed.
(** So the tolerances do not stay numbers. *)
Theorem C77_tolerances_stay_numbers_refuted : ~ (forall tol cs tols k t, 0 < tol -> 0 < t -> lookup String.eqb k tols = Some (Some t) ->
  exists t', lookup String.eqb k (updates tol cs tols) = Some (Some t')).
Proof.
  intros H. destruct (H (1 / 1000) [None; Some 1] [("ftol"%string, Some 1)] "ftol"%string 1 ltac:(lra) ltac:(lra) eq_refl) as (t'&E).
  pose proof (C77_nan_tolerances (1 / 1000) [] [Some 1] [("ftol"%string, Some 1)] "ftol"%string (Some 1) eq_refl) as N. cbn [app] in N. congruence.
Qed.
