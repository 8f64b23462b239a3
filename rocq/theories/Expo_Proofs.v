(** Lemmas for C72 *)
From Coq Require Import Reals Lra.
From Coquelicot Require Import Coquelicot.
From Verif Require Import Base Expo_Model Expo_Spec.
Import ListNotations.
#[local] Open Scope R_scope.

Definition prim (lam x : R) : R := exp (lam * x) / lam.
Lemma expo_prim lam a b : lam <> 0 -> is_RInt (expo lam) a b (prim lam b - prim lam a).
Proof.
  intros H. assert (K : is_RInt (expo lam) a b (minus (prim lam b) (prim lam a))).
  { apply (is_RInt_derive (prim lam) (expo lam)); intros x _.
    - unfold prim, expo. auto_derive; [exact I|]. field. exact H.
    - apply (ex_derive_continuous (expo lam)). unfold expo. auto_derive. exact I. }
  exact K.
Qed.
Lemma exp_integral_ok lam s a b : lam <> 0 -> exp_integral lam s a b = Some (exp (- (lam * s)) * (prim lam b - prim lam a)).
Proof.
  intros H. unfold exp_integral. destruct (Req_EM_T lam 0); [contradiction|]. unfold shift_x, prim. f_equal.
  replace (lam * (b - s)) with (- (lam * s) + lam * b) by ring. replace (lam * (a - s)) with (- (lam * s) + lam * a) by ring. rewrite !exp_plus. field. exact H.
Qed.
Fixpoint total (lam : R) (l : list (R * R)) : R := match l with [] => 0 | (a, b) :: r => (prim lam b - prim lam a) + total lam r end.
Lemma integrals_ok lam s l : lam <> 0 -> integrals lam s l = Some (exp (- (lam * s)) * total lam l).
Proof.
  intros H. induction l as [|[a b] r IH]; cbn [integrals total]; [f_equal; ring|]. rewrite exp_integral_ok, IH by exact H. cbn [vadd]. f_equal. ring.
Qed.
Lemma total_ok lam l : lam <> 0 -> is_integral_over (expo lam) l (total lam l).
Proof.
  intros H. induction l as [|[a b] r IH]; cbn [is_integral_over total]; [reflexivity|]. exists (prim lam b - prim lam a), (total lam r).
  split; [now apply expo_prim|]. split; [exact IH|reflexivity].
Qed.
Lemma total_unique lam l I : lam <> 0 -> is_integral_over (expo lam) l I -> I = total lam l.
Proof.
  intros H. revert I. induction l as [|[a b] r IH]; cbn [is_integral_over total]; intros I K; [exact K|]. destruct K as [v [J [K1 [K2 ->]]]].
  rewrite (IH J K2). f_equal. rewrite <- (@is_RInt_unique R_CompleteNormedModule _ _ _ _ K1). apply (@is_RInt_unique R_CompleteNormedModule). now apply expo_prim.
Qed.
Lemma prim_increasing lam a b : lam <> 0 -> a < b -> prim lam a < prim lam b.
Proof.
  intros H L. unfold prim, Rdiv. destruct (Rdichotomy _ _ H) as [N|P].
  - assert (exp (lam * b) < exp (lam * a)) by (apply exp_increasing; nra). assert (/ lam < 0) by now apply Rinv_lt_0_compat. nra.
  - assert (exp (lam * a) < exp (lam * b)) by (apply exp_increasing; nra). assert (0 < / lam) by now apply Rinv_0_lt_compat. nra.
Qed.
Lemma total_nonneg lam l : lam <> 0 -> List.Forall (fun p => fst p < snd p) l -> 0 <= total lam l.
Proof.
  intros H F. induction F as [|[a b] r L F IH]; cbn [total]; [lra|]. cbn in L. assert (K := prim_increasing lam a b H L). lra.
Qed.
Lemma total_pos lam l : lam <> 0 -> proper l -> 0 < total lam l.
Proof.
  intros H [N F]. destruct F as [|[a b] r L F]; [contradiction|]. cbn [total]. cbn in L. assert (K := prim_increasing lam a b H L). assert (J := total_nonneg lam r H F). lra.
Qed.
Lemma scaled_expo lam s a b v : is_RInt (expo lam) a b v -> is_RInt (fun x => exp (lam * (x - s))) a b (exp (- (lam * s)) * v).
Proof.
  intros H. apply (is_RInt_scal _ a b (exp (- (lam * s)))) in H. eapply is_RInt_ext; [|exact H]. intros x _. unfold scal; cbn; unfold mult; cbn. unfold expo. rewrite <- exp_plus. f_equal. ring.
Qed.
Lemma scaled_over lam s l I : is_integral_over (expo lam) l I -> is_integral_over (fun x => exp (lam * (x - s))) l (exp (- (lam * s)) * I).
Proof.
  revert I. induction l as [|[a b] r IH]; cbn [is_integral_over]; intros I K; [subst; ring|]. destruct K as [v [J [K1 [K2 ->]]]].
  exists (exp (- (lam * s)) * v), (exp (- (lam * s)) * J). split; [now apply scaled_expo|]. split; [now apply IH|ring].
Qed.

Lemma min_le d l x : In x l -> list_min d l <= x.
Proof.
  induction l as [|y r IH]; [intros []|]. intros [->|H].
  - destruct r; [apply Rle_refl|]. cbn [list_min]. apply Rmin_l.
  - destruct r as [|z r]; [destruct H|]. change (Rmin y (list_min d (z :: r)) <= x). eapply Rle_trans; [apply Rmin_r|]. now apply IH.
Qed.
Lemma max_ge d l x : In x l -> x <= list_max d l.
Proof.
  induction l as [|y r IH]; [intros []|]. intros [->|H].
  - destruct r; [apply Rle_refl|]. cbn [list_max]. apply Rmax_l.
  - destruct r as [|z r]; [destruct H|]. change (x <= Rmax y (list_max d (z :: r))). eapply Rle_trans; [|apply Rmax_r]. now apply IH.
Qed.
Lemma min_in d l : l <> [] -> In (list_min d l) l.
Proof.
  induction l as [|y r IH]; [contradiction|]. intros _. destruct r as [|z r]; [now left|]. change (In (Rmin y (list_min d (z :: r))) (y :: z :: r)).
  unfold Rmin. destruct (Rle_dec _ _); [now left|]. right. now apply IH.
Qed.
Lemma max_in d l : l <> [] -> In (list_max d l) l.
Proof.
  induction l as [|y r IH]; [contradiction|]. intros _. destruct r as [|z r]; [now left|]. change (In (Rmax y (list_max d (z :: r))) (y :: z :: r)).
  unfold Rmax. destruct (Rle_dec _ _); [right; now apply IH|now left].
Qed.
Lemma shift_close l w x : l <> [] -> spans_at_most l w -> within l x -> Rabs (x - calc_shift l) <= w / 2.
Proof.
  intros N S [[p [P1 P2]] [q [Q1 Q2]]]. unfold calc_shift. set (lo := list_min 0 (map fst l)). set (up := list_max 0 (map snd l)).
  assert (Lo : lo <= x) by (eapply Rle_trans; [apply (min_le 0 (map fst l) (fst p)), in_map, P1|exact P2]).
  assert (Up : x <= up) by (eapply Rle_trans; [exact Q2|apply (max_ge 0 (map snd l) (snd q)), in_map, Q1]).
  assert (N1 : map fst l <> []) by (destruct l; [contradiction|discriminate]). assert (N2 : map snd l <> []) by (destruct l; [contradiction|discriminate]).
  assert (I1 := min_in 0 _ N1). assert (I2 := max_in 0 _ N2). apply in_map_iff in I1. apply in_map_iff in I2. destruct I1 as [p' [E1 P']]. destruct I2 as [q' [E2 Q']].
  assert (K := S p' q' P' Q'). rewrite E1, E2 in K. fold lo up in K. apply Rabs_le. lra.
Qed.

Lemma with_shift_ok {T} n (body : R -> result T) s v s' : with_shift n body s = (Ok v, s') -> s' = s /\ body (match n with Some l => calc_shift l | None => s end) = Ok v.
Proof.
  unfold with_shift. destruct n as [l|].
  - destruct (body (calc_shift l)) eqn:E; intros H; inversion H; subst. split; [reflexivity|]. first [exact E|reflexivity].
  - intros H. inversion H. now split.
Qed.
Lemma fallback_ok finite lam n xs s vs : lam <> 0 -> fallback_pdf finite lam n xs s = Ok vs ->
  vs = map (fun x => match n with Some l => vdiv (Some (exp (- (lam * s)) * expo lam x)) (Some (exp (- (lam * s)) * total lam l)) | None => Some (exp (lam * (x - s))) end) xs.
Proof.
  intros H. unfold fallback_pdf, unnormalized_pdf. cbv zeta. destruct (forallb finite (map (fun x => exp (lam * shift_x s x)) xs)); cbn [bind]; [|discriminate].
  intros K. injection K as <-. destruct n as [l|]; rewrite map_map.
  - apply map_ext. intros x. rewrite integrals_ok by exact H. assert (E : exp (lam * shift_x s x) = exp (- (lam * s)) * expo lam x) by (unfold shift_x, expo; rewrite <- exp_plus; f_equal; ring). now rewrite E.
  - reflexivity.
Qed.
Lemma ratio_ok lam s v I : 0 < I -> vdiv (Some (exp (- (lam * s)) * v)) (Some (exp (- (lam * s)) * I)) = Some (v / I).
Proof.
  intros H. assert (P := exp_pos (- (lam * s))). unfold vdiv. destruct (Req_EM_T (exp (- (lam * s)) * I) 0) as [E|E]; [nra|]. f_equal. field. split; nra.
Qed.
Lemma do_call_state finite lam c s : is_ok (fst (do_call finite lam c s)) = true -> snd (do_call finite lam c s) = s.
Proof.
  destruct c; cbn [do_call].
  - unfold pdf. intros H. destruct (with_shift n (fallback_pdf finite lam n xs) s) as [[v|e] s'] eqn:E; [|discriminate H]. now destruct (with_shift_ok _ _ _ _ _ E).
  - unfold log_pdf. intros H. match goal with |- snd ?w = _ => destruct w as [[v|e] s'] eqn:E end; [|discriminate H]. now destruct (with_shift_ok _ _ _ _ _ E).
  - unfold ext_pdf, pdf. intros H. destruct (with_shift n (fallback_pdf finite lam n xs) s) as [[v|e] s'] eqn:E; [|discriminate H]. cbn. now destruct (with_shift_ok _ _ _ _ _ E).
  - unfold integrate. now destruct n.
  - reflexivity.
Qed.
Lemma no_error_after finite h s : no_error finite h s = true -> after finite h s = s.
Proof.
  revert s. induction h as [|[lam c] r IH]; intros s; cbn [no_error after]; [reflexivity|]. intros H. apply andb_prop in H. destruct H as [H1 H2].
  rewrite (do_call_state _ _ _ _ H1) in *. now apply IH.
Qed.
