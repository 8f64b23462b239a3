(** Lemmas for C71: the PDFs of the code are the standard shapes *)
From Coq Require Import Reals Lra Lia.
From Coquelicot Require Import Coquelicot.
From Verif Require Import Phys_Model Phys_Spec Phys_Proofs.
#[local] Open Scope R_scope.

Lemma tf_sign_pos x : 0 < x -> tf_sign x = 1.
Proof. intros H. unfold tf_sign. destruct (Rlt_dec 0 x); [reflexivity|contradiction]. Qed.
Lemma tf_sign_neg x : x < 0 -> tf_sign x = -1.
Proof. intros H. unfold tf_sign. destruct (Rlt_dec 0 x); [lra|]. destruct (Rlt_dec x 0); [reflexivity|contradiction]. Qed.
Lemma square_abs x : square (Rabs x) = square x.
Proof. unfold square. rewrite <- Rabs_mult. apply Rabs_right. nra. Qed.
Lemma safe_where_ok c f g v s : safe_where c f g v s = if c then f v else g v.
Proof. now destruct c. Qed.

Definition cb_a (A n : R) := Rpower (n / A) n * exp (- (1 / 2) * square A).
Definition cb_b (A n : R) := n / A - A.
Definition cb_std (A n : R) : R -> R := pieces (- A) (tail (cb_a A n) (cb_b A n) n) gaussian.
Definition get_tail (A t : R) : R := exp (1 / 2 * square A + A * t).
Definition get_std (A : R) : R -> R := pieces (- A) (get_tail A) gaussian.

Lemma cb_a_pos A n : 0 < cb_a A n.
Proof. unfold cb_a. apply Rmult_lt_0_compat; apply exp_pos. Qed.
Lemma cb_b_t A n t : 0 < A -> 0 < n -> t <= - A -> 0 < cb_b A n - t.
Proof. intros HA Hn Ht. unfold cb_b. assert (0 < n / A) by now apply Rdiv_lt_0_compat. lra. Qed.
Lemma cb_std_pos A n t : 0 < cb_std A n t.
Proof.
  unfold cb_std, pieces. destruct (less t (- A)); [|apply exp_pos]. unfold tail, powerlaw. apply Rmult_lt_0_compat; [apply cb_a_pos|apply exp_pos].
Qed.
Lemma get_std_pos A t : 0 < get_std A t.
Proof. unfold get_std, pieces. destruct (less t (- A)); apply exp_pos. Qed.

Lemma cb_shape mu sigma alpha n x : crystalball_func mu sigma alpha n x = cb_std (Rabs alpha) n ((x - mu) / sigma * tf_sign alpha).
Proof.
  unfold crystalball_func. cbv zeta. rewrite safe_where_ok.
  match goal with |- Rmax ?v 0 = _ => assert (E : v = cb_std (Rabs alpha) n ((x - mu) / sigma * tf_sign alpha)) end.
  { unfold cb_std, pieces, tail, cb_a, cb_b, gaussian. rewrite square_abs. reflexivity. }
  rewrite E. apply Rmax_left, Rlt_le, cb_std_pos.
Qed.
Lemma get_shape mu sigma alpha x : gaussexptail_func mu sigma alpha x = get_std (Rabs alpha) ((x - mu) / sigma * tf_sign alpha).
Proof. unfold gaussexptail_func. cbv zeta. rewrite safe_where_ok. unfold get_std, pieces, get_tail, gaussian. now destruct (less _ _). Qed.

Lemma cb_junction A n : 0 < A -> 0 < n -> tail (cb_a A n) (cb_b A n) n (- A) = gaussian (- A).
Proof.
  intros HA Hn. unfold tail, powerlaw, cb_a, cb_b, gaussian. replace (n / A - A - - A) with (n / A) by ring. rewrite Rpower_Ropp.
  replace (square (- A)) with (square A) by (unfold square; ring). field. apply Rgt_not_eq, exp_pos.
Qed.
Lemma get_junction A : get_tail A (- A) = gaussian (- A).
Proof. unfold get_tail, gaussian, square. f_equal. field. Qed.
Lemma cb_std_continuous A n t : 0 < A -> 0 < n -> continuous (cb_std A n) t.
Proof.
  intros HA Hn. apply continuous_pieces; [| |now apply cb_junction].
  - intros s Hs. apply continuous_tail. now apply cb_b_t.
  - intros s _. apply continuous_gaussian.
Qed.
Lemma get_tail_prim A t : A <> 0 -> is_derive (fun t => / A * exp (1 / 2 * square A) * exp (A * t)) t (get_tail A t).
Proof. intros H. unfold get_tail. rewrite exp_plus. auto_derive; [exact I|]. field. exact H. Qed.
Lemma get_tail_continuous A t : continuous (get_tail A) t.
Proof. apply (ex_derive_continuous (get_tail A)). unfold get_tail. auto_derive. exact I. Qed.
Lemma get_std_continuous A t : continuous (get_std A) t.
Proof.
  apply continuous_pieces; [| |apply get_junction]; intros s _; [apply get_tail_continuous|apply continuous_gaussian].
Qed.

Definition cb_prim (A n : R) : R -> R := if less (Rabs (n - 1)) (1 / 100000) then tail_log (cb_a A n) (cb_b A n) else tail_prim (cb_a A n) (cb_b A n) n.
Definition gauss_prim (t : R) : R := sqrt (PI / 2) * erf (t / sqrt 2).
Definition get_prim (A t : R) : R := / A * exp (1 / 2 * square A) * exp (A * t).

Lemma cb_std_int A n a b : 0 < A -> exponent_ok n -> a <= b -> is_RInt (cb_std A n) a b (pieces_int (- A) (cb_prim A n) gauss_prim a b).
Proof.
  intros HA [Hn Hn'] L. apply is_RInt_pieces; [exact L| | | |].
  - intros t Ht. unfold cb_prim. destruct Hn' as [->|Hn'].
    + rewrite less_t. 2:{ replace (1 - 1) with 0 by ring. rewrite Rabs_R0. lra. } apply is_derive_tail_log, cb_b_t; lra.
    + rewrite less_f by exact Hn'. apply is_derive_tail; [|apply cb_b_t; lra]. intros ->. replace (1 - 1) with 0 in Hn' by ring. rewrite Rabs_R0 in Hn'. lra.
  - intros t Ht. apply continuous_tail, cb_b_t; lra.
  - intros t _. apply is_derive_gaussian_int.
  - intros t _. apply continuous_gaussian.
Qed.
Lemma get_std_int A a b : 0 < A -> a <= b -> is_RInt (get_std A) a b (pieces_int (- A) (get_prim A) gauss_prim a b).
Proof.
  intros HA L. apply is_RInt_pieces; [exact L| | | |]; intros t _.
  - apply get_tail_prim. lra.
  - apply get_tail_continuous.
  - apply is_derive_gaussian_int.
  - apply continuous_gaussian.
Qed.

(** The limits in the standard variable *)
Definition std_lower (mu sigma alpha lower upper : R) : R := where_ (less alpha 0) (- ((upper - mu) / Rabs sigma)) ((lower - mu) / Rabs sigma).
Definition std_upper (mu sigma alpha lower upper : R) : R := where_ (less alpha 0) (- ((lower - mu) / Rabs sigma)) ((upper - mu) / Rabs sigma).

Lemma cb_int_value mu sigma alpha n lower upper : alpha <> 0 -> 0 < n -> std_lower mu sigma alpha lower upper <= std_upper mu sigma alpha lower upper ->
  crystalball_integral_func mu sigma alpha n lower upper =
  Rabs sigma * pieces_int (- Rabs alpha) (cb_prim (Rabs alpha) n) gauss_prim (std_lower mu sigma alpha lower upper) (std_upper mu sigma alpha lower upper).
Proof.
  intros Ha Hn L. assert (HA : 0 < Rabs alpha) by now apply Rabs_pos_lt.
  unfold crystalball_integral_func. cbv zeta. fold (std_lower mu sigma alpha lower upper). fold (std_upper mu sigma alpha lower upper).
  set (tmin := std_lower mu sigma alpha lower upper) in *. set (tmax := std_upper mu sigma alpha lower upper) in *. set (A := Rabs alpha) in *. set (s := Rabs sigma).
  fold (cb_a A n). fold (cb_b A n). unfold pieces_int. destruct (greater_equal tmin (- A)) eqn:E1; cbn [where_].
  { unfold gauss_prim. ring. }
  unfold greater_equal, less_equal in E1. destruct (Rle_dec (- A) tmin) as [|E1']; [discriminate|]. apply Rnot_le_lt in E1'.
  assert (P1 : 0 < cb_b A n - tmin) by (apply cb_b_t; [exact HA|exact Hn|lra]). unfold greater. rewrite (less_t 0 (cb_b A n - tmin)) by exact P1. cbn [where_].
  assert (J : n / A = cb_b A n - - A) by (unfold cb_b; ring).
  destruct (less_equal tmax (- A)) eqn:E2; cbn [where_].
  - unfold less_equal in E2. destruct (Rle_dec tmax (- A)) as [E2'|]; [|discriminate].
    assert (P2 : 0 < cb_b A n - tmax) by (apply cb_b_t; [exact HA|exact Hn|lra]). rewrite (less_t 0 (cb_b A n - tmax)) by exact P2. cbn [where_].
    unfold cb_prim. destruct (less (Rabs (n - 1)) (1 / 100000)); cbn [where_]; unfold tail_log, tail_prim, Rdiv; ring.
  - unfold cb_prim, gauss_prim. rewrite J. destruct (less (Rabs (n - 1)) (1 / 100000)); cbn [where_]; unfold tail_log, tail_prim, Rdiv; ring.
Qed.
Lemma get_int_value mu sigma alpha lower upper : alpha <> 0 ->
  gaussexptail_integral_func mu sigma alpha lower upper =
  Rabs sigma * pieces_int (- Rabs alpha) (get_prim (Rabs alpha)) gauss_prim (std_lower mu sigma alpha lower upper) (std_upper mu sigma alpha lower upper).
Proof.
  intros Ha. assert (HA : 0 < Rabs alpha) by now apply Rabs_pos_lt.
  unfold gaussexptail_integral_func. cbv zeta. fold (std_lower mu sigma alpha lower upper). fold (std_upper mu sigma alpha lower upper).
  set (tmin := std_lower mu sigma alpha lower upper) in *. set (tmax := std_upper mu sigma alpha lower upper) in *. set (A := Rabs alpha) in *. set (s := Rabs sigma).
  unfold pieces_int. destruct (greater_equal tmin (- A)); cbn [where_]; [unfold gauss_prim; ring|].
  destruct (less_equal tmax (- A)); cbn [where_]; unfold get_prim, gauss_prim.
  - unfold Rdiv. ring.
  - replace (A * - A) with (- square A) by (unfold square; ring). unfold Rdiv. ring.
Qed.

Lemma std_order mu sigma alpha lower upper : 0 < sigma -> lower <= upper -> std_lower mu sigma alpha lower upper <= std_upper mu sigma alpha lower upper.
Proof.
  intros Hs L. unfold std_lower, std_upper. rewrite Rabs_right by lra.
  assert ((lower - mu) / sigma <= (upper - mu) / sigma) by (apply Rmult_le_compat_r; [left; now apply Rinv_0_lt_compat|lra]).
  destruct (less alpha 0); cbn [where_]; lra.
Qed.
(** The integral of a standard shape over x *)
Lemma shape_int (g : R -> R) I mu sigma alpha lower upper : 0 < sigma -> alpha <> 0 ->
  is_RInt g (std_lower mu sigma alpha lower upper) (std_upper mu sigma alpha lower upper) I ->
  is_RInt (fun x => g ((x - mu) / sigma * tf_sign alpha)) lower upper (Rabs sigma * I).
Proof.
  intros Hs Ha H. unfold std_lower, std_upper in H. rewrite Rabs_right in * by lra. destruct (Rtotal_order alpha 0) as [N|[Z|P]]; [|contradiction|].
  - rewrite less_t in H by exact N. cbn [where_] in H. apply is_RInt_mirror in H; [|exact Hs]. eapply is_RInt_ext; [|exact H]. intros x _. cbv beta. f_equal. rewrite tf_sign_neg by exact N. ring.
  - rewrite less_f in H by lra. cbn [where_] in H. apply is_RInt_standard in H; [|exact Hs]. eapply is_RInt_ext; [|exact H]. intros x _. cbv beta. f_equal. rewrite tf_sign_pos by exact P. ring.
Qed.
Lemma shape_continuous (g : R -> R) mu sigma s x : (forall t, continuous g t) -> continuous (fun x => g ((x - mu) / sigma * s)) x.
Proof.
  intros H. apply (continuous_comp (fun x => (x - mu) / sigma * s) g); [|apply H]. apply (ex_derive_continuous (fun x : R => (x - mu) / sigma * s)). auto_derive. exact I.
Qed.

(** Two halves *)
Lemma halves_int (f g : R -> R) (F G : R -> R -> R) mu lower upper : lower <= upper ->
  (forall a b, a <= b -> is_RInt f a b (F a b)) -> (forall a b, a <= b -> is_RInt g a b (G a b)) ->
  is_RInt (fun x => where_ (less x mu) (f x) (g x)) lower upper
    (where_ (less mu lower) 0 (F lower (Rmin mu upper)) + where_ (greater mu upper) 0 (G (Rmax mu lower) upper)).
Proof.
  intros L HF HG. unfold greater.
  assert (Lo : forall a b, a <= b -> b <= mu -> is_RInt (fun x => where_ (less x mu) (f x) (g x)) a b (F a b)).
  { intros a b H1 H2. eapply is_RInt_ext; [|now apply HF]. intros x. rewrite Rmin_left, Rmax_right by exact H1. intros [_ H]. rewrite less_t by lra. reflexivity. }
  assert (Hi : forall a b, a <= b -> mu <= a -> is_RInt (fun x => where_ (less x mu) (f x) (g x)) a b (G a b)).
  { intros a b H1 H2. eapply is_RInt_ext; [|now apply HG]. intros x. rewrite Rmin_left, Rmax_right by exact H1. intros [H _]. rewrite less_f by lra. reflexivity. }
  destruct (Rlt_le_dec mu lower) as [H|H].
  - rewrite less_t by exact H. rewrite less_f by lra. cbn [where_]. rewrite Rmax_right by lra. rewrite Rplus_0_l. apply Hi; lra.
  - rewrite less_f by exact H. cbn [where_]. destruct (Rlt_le_dec upper mu) as [H'|H'].
    + rewrite less_t by exact H'. cbn [where_]. rewrite Rmin_right by lra. rewrite Rplus_0_r. apply Lo; lra.
    + rewrite less_f by exact H'. cbn [where_]. rewrite Rmin_left, Rmax_left by lra.
      apply (is_RInt_Chasles (fun x => where_ (less x mu) (f x) (g x)) lower mu upper); [apply Lo; lra|apply Hi; lra].
Qed.
Lemma halves_continuous (f g : R -> R) mu x : (forall x, continuous f x) -> (forall x, continuous g x) -> f mu = g mu -> continuous (fun x => where_ (less x mu) (f x) (g x)) x.
Proof. intros Hf Hg E. apply (continuous_pieces mu f g); [intros; apply Hf|intros; apply Hg|exact E]. Qed.

(** Normalising a positive continuous function *)
Lemma normalise (f : R -> R) lower upper I : lower < upper -> (forall x, 0 < f x) -> (forall x, continuous f x) -> is_RInt f lower upper I -> normalised_by f lower upper I.
Proof.
  intros L P C H. assert (HI : 0 < I).
  { rewrite <- (is_RInt_unique f lower upper I H). apply RInt_gt_0; [exact L|intros; apply P|intros; apply C]. }
  split; [exact HI|]. split.
  - intros x. apply Rlt_le, Rdiv_lt_0_compat; [apply P|exact HI].
  - apply (is_RInt_scal f lower upper (/ I)) in H. replace 1 with (scal (/ I) I) by (unfold scal; cbn; unfold mult; cbn; field; lra).
    eapply is_RInt_ext; [|exact H]. intros x _. unfold scal; cbn; unfold mult; cbn. unfold Rdiv. ring.
Qed.
