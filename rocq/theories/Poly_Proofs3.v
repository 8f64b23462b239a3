From Coq Require Import Reals Lra Lia.
From Coquelicot Require Import Coquelicot.
From Verif Require Import Base BaseLemmas Poly_Model Poly_Spec Poly_Proofs Poly_Proofs2.
Import ListNotations.
#[local] Open Scope R_scope.
#[local] Notation length := List.length.

(** ** Bernstein: the value of the algorithm of De Casteljau, on sequences *)
Fixpoint beta (n : nat) (f : nat -> R) (x : R) : R :=
  match n with O => f O | S n => (1 - x) * beta n f x + x * beta n (fun k => f (S k)) x end.
Lemma beta_ext n : forall f g x, (forall k, (k <= n)%nat -> f k = g k) -> beta n f x = beta n g x.
Proof. induction n as [|n IH]; intros f g x H; cbn; [apply H; lia|]. rewrite (IH f g), (IH (fun k => f (S k)) (fun k => g (S k))); auto; intros; apply H; lia. Qed.
Lemma beta_lin n : forall a b f g x, beta n (fun k => f k * a + g k * b) x = beta n f x * a + beta n g x * b.
Proof. induction n as [|n IH]; intros a b f g x; cbn; [reflexivity|]. rewrite IH, (IH a b (fun k => f (S k)) (fun k => g (S k))). ring. Qed.
Lemma beta_pass n f x : beta (S n) f x = beta n (fun k => f k * (1 - x) + f (S k) * x) x.
Proof. rewrite (beta_lin n (1 - x) x f (fun k => f (S k))). cbn. ring. Qed.

Lemma pass_length x l : length (casteljau_pass x l) = (length l - 1)%nat.
Proof. induction l as [|a [|b l] IH]; [reflexivity|reflexivity|]. cbn [casteljau_pass length] in *. rewrite IH. cbn. lia. Qed.
Lemma pass_nth x l k : (S k < length l)%nat -> nth k (casteljau_pass x l) 0 = nth k l 0 * (1 - x) + nth (S k) l 0 * x.
Proof.
  revert k. induction l as [|a [|b l] IH]; intros k H; [cbn in H; lia|cbn in H; lia|]. destruct k as [|k]; [reflexivity|].
  change (nth (S k) (casteljau_pass x (a :: b :: l)) 0) with (nth k (casteljau_pass x (b :: l)) 0). rewrite IH by (cbn in *; lia). reflexivity.
Qed.
Lemma loop_beta x j : forall l, length l = S j -> casteljau_loop x j l = [beta j (fun k => nth k l 0) x].
Proof.
  induction j as [|j IH]; intros l H.
  - destruct l as [|a [|b l]]; cbn in H; try lia. reflexivity.
  - cbn [casteljau_loop]. rewrite IH by (rewrite pass_length; lia). f_equal. rewrite beta_pass. apply beta_ext. intros k Hk. apply pass_nth. lia.
Qed.
Lemma de_casteljau_ok x l : l <> [] -> de_casteljau x l = Ok (beta (length l - 1) (fun k => nth k l 0) x).
Proof.
  intros NE. unfold de_casteljau. destruct l as [|a l]; [easy|]. rewrite (loop_beta x (length (a :: l) - 1) (a :: l)) by (cbn; lia). reflexivity.
Qed.
Lemma de_casteljau_nil x l : de_casteljau x l = Err ValueError <-> l = [].
Proof. split; [|intros ->; reflexivity]. intros H. destruct l as [|a l]; [reflexivity|]. rewrite de_casteljau_ok in H by discriminate. discriminate. Qed.

Lemma beta_der n : forall f x, is_derive (beta (S n) f) x (INR (S n) * beta n (fun k => f (S k) - f k) x).
Proof.
  induction n as [|n IH]; intros f x.
  - cbn. auto_derive; [auto|]. ring.
  - remember (INR (S (S n))) as N eqn:EN.
    apply (is_derive_ext (fun x => (1 - x) * beta (S n) f x + x * beta (S n) (fun k => f (S k)) x)); [reflexivity|].
    pose proof (IH f x) as H0. pose proof (IH (fun k => f (S k)) x) as H1. set (b0 := beta (S n) f) in *. set (b1 := beta (S n) (fun k => f (S k))) in *.
    auto_derive; [split; [eexists; exact H0|split; [eexists; exact H1|exact Logic.I]]|].
    change (fun x0 => b0 x0) with b0. change (fun x0 => b1 x0) with b1. rewrite (is_derive_unique _ _ _ H0), (is_derive_unique _ _ _ H1).
    assert (E1 : b1 x - b0 x = beta (S n) (fun k => f (S k) - f k) x).
    { unfold b1, b0. rewrite (beta_ext (S n) (fun k => f (S k) - f k) (fun k => f (S k) * 1 + f k * -1)) by (intros; ring). rewrite (beta_lin (S n) 1 (-1) (fun k => f (S k)) f). ring. }
    subst N. rewrite (S_INR (S n)). replace ((INR (S n) + 1) * beta (S n) (fun k => f (S k) - f k) x) with (INR (S n) * beta (S n) (fun k => f (S k) - f k) x + (b1 x - b0 x)) by (rewrite E1; ring).
    cbn [beta]. ring.
Qed.

Lemma total_app l r : total (l ++ r) = total l + total r.
Proof. induction l as [|a l IH]; unfold total in *; cbn [app fold_right]; [ring|]. rewrite IH. ring. Qed.
Lemma coeffs_int_length cs : length (coeffs_int cs) = S (length cs).
Proof. unfold coeffs_int. rewrite map_length, seq_length. lia. Qed.
Lemma coeffs_int_nth cs j : (j <= length cs)%nat -> nth j (coeffs_int cs) 0 = total (map (fun k => nth k cs 0) (seq 0 j)) / INR (length cs).
Proof.
  intros H. unfold coeffs_int. set (h := fun j => total (map (fun k => nth k cs 0) (seq 0 j)) / INR (length cs)).
  rewrite (nth_indep _ 0 (h 0%nat)) by (rewrite map_length, seq_length; lia). rewrite (map_nth h), seq_nth by lia. reflexivity.
Qed.
Lemma coeffs_int_diff cs j : (j < length cs)%nat -> nth (S j) (coeffs_int cs) 0 - nth j (coeffs_int cs) 0 = nth j cs 0 / INR (length cs).
Proof.
  intros H. rewrite !coeffs_int_nth by lia. rewrite seq_S, map_app, total_app. cbn. field. apply not_0_INR. lia.
Qed.
Lemma bernstein_prim_der cs x : cs <> [] -> is_derive (beta (length cs) (fun k => nth k (coeffs_int cs) 0)) x (beta (length cs - 1) (fun k => nth k cs 0) x).
Proof.
  intros NE. destruct (length cs) as [|n] eqn:E; [destruct cs; [easy|discriminate]|].
  eapply is_derive_eq; [apply beta_der|]. replace (S n - 1)%nat with n by lia.
  rewrite (beta_ext n _ (fun k => nth k cs 0 * / INR (S n) + 0 * 0)).
  - rewrite (beta_lin n (/ INR (S n)) 0 (fun k => nth k cs 0) (fun _ => 0)). field. apply not_0_INR. lia.
  - intros k Hk. rewrite coeffs_int_diff by lia. rewrite E. unfold Rdiv. ring.
Qed.
Lemma beta_cont n f x : continuous (beta n f) x.
Proof.
  destruct n as [|n]; [apply (continuous_const (f O) x)|]. eapply der_cont. apply beta_der.
Qed.

Lemma scaled01_integral G g lo hi a b : primitive G g -> lo < hi ->
  is_RInt (fun x => g (rescale_zero_one x lo hi)) a b (G (rescale_zero_one b lo hi) * (hi - lo) - G (rescale_zero_one a lo hi) * (hi - lo)).
Proof.
  intros [HG HC] HL. set (r := fun x => rescale_zero_one x lo hi).
  assert (HR : forall x, is_derive r x (/ (hi - lo))) by (intros x; unfold r, rescale_zero_one; auto_derive; [auto|]; field; lra).
  assert (K : is_RInt (fun x => g (r x)) a b (minus (G (r b) * (hi - lo)) (G (r a) * (hi - lo)))).
  { apply (is_RInt_derive (fun x => G (r x) * (hi - lo)) (fun x => g (r x))).
    - intros x _. pose proof (is_derive_comp G r x _ _ (HG (r x)) (HR x)) as K. pose proof (scalR _ x (hi - lo) _ K) as K2.
      apply (is_derive_ext (fun x => (hi - lo) * G (r x))); [intros t; apply Rmult_comm|]. eapply is_derive_eq; [exact K2|]. unfold scal; cbn. unfold mult; cbn. field. lra.
    - intros x _. apply (continuous_comp r g); [|apply HC]. apply (ex_derive_continuous r). eexists. apply HR. }
  exact K.
Qed.

(** the Bernstein basis *)
Fixpoint bb (n k : nat) (x : R) : R :=
  match n, k with
  | O, O => 1 | O, S _ => 0
  | S n, O => (1 - x) * bb n O x
  | S n, S k => (1 - x) * bb n (S k) x + x * bb n k x
  end.
Lemma bb_zero n : forall k x, (n < k)%nat -> bb n k x = 0.
Proof. induction n as [|n IH]; intros [|k] x H; try lia; cbn; [reflexivity|]. rewrite !IH by lia. ring. Qed.
Lemma bb_sum_more n f x : forall N, (n <= N)%nat -> sum_f_R0 (fun k => f k * bb n k x) N = sum_f_R0 (fun k => f k * bb n k x) n.
Proof. intros N H. induction N as [|N IH]; [now replace n with 0%nat by lia|]. destruct (Nat.eq_dec n (S N)) as [->|E]; [reflexivity|]. cbn [sum_f_R0]. rewrite IH, bb_zero by lia. ring. Qed.
Lemma beta_sum n : forall f x, beta n f x = sum_f_R0 (fun k => f k * bb n k x) n.
Proof.
  induction n as [|n IH]; intros f x; [cbn; ring|]. cbn [beta]. rewrite !IH. rewrite (decomp_sum (fun k => f k * bb (S n) k x)) by lia. cbn [Nat.pred].
  rewrite <- (bb_sum_more n f x (S n)) by lia. rewrite (decomp_sum (fun k => f k * bb n k x)) by lia. cbn [Nat.pred].
  rewrite Rmult_plus_distr_l, Rplus_assoc. f_equal; [cbn [bb]; ring|]. rewrite (scal_sum _ n (1 - x)), (scal_sum _ n x), <- plus_sum.
  apply sum_eq. intros k Hk. cbn [bb]. ring.
Qed.
Lemma C_n_0 n : Binomial.C n 0 = 1.
Proof. unfold Binomial.C. rewrite Nat.sub_0_r. cbn. field. apply INR_fact_neq_0. Qed.
Lemma C_n_n n : Binomial.C n n = 1.
Proof. unfold Binomial.C. rewrite Nat.sub_diag. cbn. field. apply INR_fact_neq_0. Qed.
Lemma bb_basis n : forall k x, (k <= n)%nat -> bb n k x = bernstein_polynomial n k x.
Proof.
  induction n as [|n IH]; intros k x H; unfold bernstein_polynomial in *.
  - assert (k = 0%nat) as -> by lia. rewrite C_n_0. cbn. ring.
  - destruct k as [|k]; cbn [bb].
    + rewrite IH by lia. rewrite !C_n_0, !Nat.sub_0_r. cbn. ring.
    + destruct (Nat.eq_dec k n) as [->|N].
      * rewrite bb_zero, IH by lia. rewrite !C_n_n, !Nat.sub_diag. cbn. ring.
      * rewrite !IH by lia. rewrite <- (pascal n k) by lia. replace (S n - S k)%nat with (S (n - S k)) by lia. replace (n - k)%nat with (S (n - S k)) by lia. cbn. ring.
Qed.
Lemma series_sum f cs : cs <> [] -> forall i, series_from i f cs = sum_f_R0 (fun k => nth k cs 0 * f (i + k)%nat) (length cs - 1).
Proof.
  induction cs as [|c cs IH]; intros NE i; [easy|]. cbn [series_from length]. destruct cs as [|c' cs].
  - cbn. rewrite Nat.add_0_r. ring.
  - rewrite IH by discriminate. replace (S (length (c' :: cs)) - 1)%nat with (S (length (c' :: cs) - 1)) by (cbn; lia).
    rewrite (decomp_sum (fun k => nth k (c :: c' :: cs) 0 * f (i + k)%nat)) by lia. cbn [Nat.pred nth]. rewrite Nat.add_0_r. f_equal.
    apply sum_eq. intros k _. f_equal. f_equal. lia.
Qed.
Lemma beta_series cs x : cs <> [] -> beta (length cs - 1) (fun k => nth k cs 0) x = series (fun k => bernstein_polynomial (length cs - 1) k x) cs.
Proof.
  intros NE. unfold series. rewrite series_sum by assumption. rewrite beta_sum. apply sum_eq. intros k Hk. rewrite bb_basis by assumption. reflexivity.
Qed.
Lemma beta_nonneg n : forall f x, 0 <= x <= 1 -> (forall k, (k <= n)%nat -> 0 <= f k) -> 0 <= beta n f x.
Proof.
  induction n as [|n IH]; intros f x Hx H; cbn; [apply H; lia|].
  assert (0 <= beta n f x) by (apply IH; auto). assert (0 <= beta n (fun k => f (S k)) x) by (apply IH; auto; intros; apply H; lia). nra.
Qed.

(** ** The equations *)
Lemma L_one n : L n 1 = 1.
Proof.
  induction n as [| |n H0 H1] using pair_ind; [reflexivity|reflexivity|]. pose proof (L_rec n 1) as E. rewrite H0, H1 in E.
  apply (Rmult_eq_reg_l (INR n + 2)); [|pose proof (pos_INR n); lra]. rewrite E. ring.
Qed.
Fixpoint ddL (n : nat) (x : R) : R := match n with O => 0 | S n => dL n x + x * ddL n x + INR (S n) * dL n x end.
Lemma dL_der n : forall x, is_derive (dL n) x (ddL n x).
Proof.
  induction n as [|n IH]; intros x; [apply (is_derive_const 0 x)|].
  remember (INR (S n)) as N eqn:EN. apply (is_derive_ext (fun x => x * dL n x + N * L n x)); [intros t; subst; reflexivity|].
  specialize (IH x). pose proof (L_der n x) as H. auto_derive; [split; [eexists; exact IH|split; [eexists; exact H|exact Logic.I]]|].
  change (fun x0 => dL n x0) with (dL n). change (fun x0 => L n x0) with (L n). rewrite (is_derive_unique _ _ _ H), (is_derive_unique _ _ _ IH).
  change (ddL (S n) x) with (dL n x + x * ddL n x + INR (S n) * dL n x). rewrite <- EN. ring.
Qed.
Lemma legendre_C n x : (x * x - 1) * dL (S n) x = INR (S n) * (x * L (S n) x - L n x).
Proof.
  pose proof (L_B n x) as B. assert (E : dL (S n) x = x * dL n x + INR (S n) * L n x) by reflexivity.
  transitivity (x * (x * dL (S n) x - dL n x) - INR (S n) * L n x); [rewrite E; ring|]. rewrite B. ring.
Qed.
Lemma L_ode n x : (1 - x * x) * ddL n x - 2 * x * dL n x + INR n * (INR n + 1) * L n x = 0.
Proof.
  destruct n as [|n]; [cbn; ring|].
  assert (E : is_derive (fun t => (t * t - 1) * dL (S n) t - INR (S n) * (t * L (S n) t - L n t)) x 0).
  { apply (is_derive_ext (fun _ => 0)); [|apply (is_derive_const 0 x)]. intros t. rewrite legendre_C. change (0 = INR (S n) * (t * L (S n) t - L n t) - INR (S n) * (t * L (S n) t - L n t)). ring. }
  pose proof (dL_der (S n) x) as H1. pose proof (L_der (S n) x) as H2. pose proof (L_der n x) as H3.
  assert (E' : is_derive (fun t => (t * t - 1) * dL (S n) t - INR (S n) * (t * L (S n) t - L n t)) x
    (2 * x * dL (S n) x + (x * x - 1) * ddL (S n) x - INR (S n) * (L (S n) x + x * dL (S n) x - dL n x))).
  { set (d := dL (S n)) in *. set (dd := ddL (S n)) in *. remember (INR (S n)) as N eqn:EN.
    auto_derive; [split; [eexists; exact H1|split; [eexists; exact H2|split; [eexists; exact H3|exact Logic.I]]]|].
    change (fun x0 => d x0) with d. change (fun x0 => L (S n) x0) with (L (S n)). change (fun x0 => L n x0) with (L n).
    rewrite (is_derive_unique _ _ _ H1), (is_derive_unique _ _ _ H2), (is_derive_unique _ _ _ H3). ring. }
  apply is_derive_unique in E. apply is_derive_unique in E'. rewrite E in E'. pose proof (L_B n x) as B.
  replace (L (S n) x + x * dL (S n) x - dL n x) with (L (S n) x + INR (S n) * L (S n) x) in E' by lra.
  transitivity (- (2 * x * dL (S n) x + (x * x - 1) * ddL (S n) x - INR (S n) * (L (S n) x + INR (S n) * L (S n) x))); [ring|]. rewrite <- E'. ring.
Qed.
Lemma La_zero n : La n 0 = 1.
Proof.
  induction n as [| |n H0 H1] using pair_ind; [reflexivity|unfold P; cbn; ring|]. pose proof (La_rec n 0) as E. rewrite H0, H1 in E.
  apply (Rmult_eq_reg_l (INR n + 2)); [|pose proof (pos_INR n); lra]. rewrite E. ring.
Qed.
Fixpoint ddLa (n : nat) (x : R) : R := match n with O => 0 | S n => ddLa n x - dLa n x end.
Lemma dLa_der n : forall x, is_derive (dLa n) x (ddLa n x).
Proof.
  induction n as [|n IH]; intros x; [apply (is_derive_const 0 x)|].
  exact (is_derive_minus (dLa n) (La n) x _ _ (IH x) (La_der n x)).
Qed.
Lemma La_ode n x : x * ddLa n x + (1 - x) * dLa n x + INR n * La n x = 0.
Proof.
  destruct n as [|n]; [cbn; ring|].
  assert (E : is_derive (fun t => t * dLa (S n) t - INR (S n) * (La (S n) t - La n t)) x 0).
  { apply (is_derive_ext (fun _ => 0)); [|apply (is_derive_const 0 x)]. intros t. rewrite La_E. change (0 = INR (S n) * (La (S n) t - La n t) - INR (S n) * (La (S n) t - La n t)). ring. }
  pose proof (dLa_der (S n) x) as H1. pose proof (La_der (S n) x) as H2. pose proof (La_der n x) as H3.
  assert (E' : is_derive (fun t => t * dLa (S n) t - INR (S n) * (La (S n) t - La n t)) x (dLa (S n) x + x * ddLa (S n) x - INR (S n) * (dLa (S n) x - dLa n x))).
  { set (d := dLa (S n)) in *. set (dd := ddLa (S n)) in *. remember (INR (S n)) as N eqn:EN.
    auto_derive; [split; [eexists; exact H1|split; [eexists; exact H2|split; [eexists; exact H3|exact Logic.I]]]|].
    change (fun x0 => d x0) with d. change (fun x0 => La (S n) x0) with (La (S n)). change (fun x0 => La n x0) with (La n).
    rewrite (is_derive_unique _ _ _ H1), (is_derive_unique _ _ _ H2), (is_derive_unique _ _ _ H3). ring. }
  apply is_derive_unique in E. apply is_derive_unique in E'. rewrite E in E'. pose proof (La_E n x) as B.
  change (dLa (S n) x - dLa n x) with (dLa n x - La n x - dLa n x) in E'. 
  transitivity (dLa (S n) x + x * ddLa (S n) x - INR (S n) * (dLa n x - La n x - dLa n x) + (INR (S n) * (La (S n) x - La n x) - x * dLa (S n) x)); [ring|].
  rewrite <- E', B. ring.
Qed.
Lemma hermite_rodrigues n : forall x, is_derive_n (fun t => exp (- (t * t))) n x ((-1) ^ n * P hermite n x * exp (- (x * x))).
Proof.
  induction n as [|n IH]; intros x; [unfold P; cbn; ring|]. cbn [is_derive_n].
  apply (is_derive_ext (fun t => (-1) ^ n * P hermite n t * exp (- (t * t)))).
  { intros t. specialize (IH t). symmetry. destruct n; [exact IH|]. cbn [is_derive_n] in IH. cbn [Derive_n]. now apply is_derive_unique. }
  pose proof (hermite_der n x) as H. set (s := (-1) ^ n). set (h := P hermite n) in *.
  remember (match n with O => 0 | S m => 2 * INR (S m) * P hermite m x end) as h' eqn:Eh.
  assert (H' : is_derive h x h') by (subst h'; exact H). clear H. rename H' into H.
  auto_derive; [eexists; exact H|]. change (fun x0 => h x0) with h. rewrite (is_derive_unique _ _ _ H).
  cbn [pow]. fold s. assert (E : P hermite (S n) x = 2 * x * h x - h').
  { subst h'. unfold h. destruct n as [|m]; [unfold P; cbn; ring|]. rewrite hermite_rec. ring. }
  rewrite E. ring.
Qed.
Lemma T_cos n th : T n (cos th) = cos (INR n * th).
Proof.
  induction n as [| |n H0 H1] using pair_ind; [cbn; rewrite Rmult_0_l, cos_0; reflexivity|cbn; rewrite Rmult_1_l; reflexivity|].
  rewrite T_rec, H0, H1, !S_INR. replace ((INR n + 1 + 1) * th) with ((INR n + 1) * th + th) by ring. replace (INR n * th) with ((INR n + 1) * th - th) by ring.
  rewrite cos_plus, cos_minus. ring.
Qed.
Lemma U_sin n th : U n (cos th) * sin th = sin ((INR n + 1) * th).
Proof.
  induction n as [| |n H0 H1] using pair_ind.
  - cbn. rewrite Rplus_0_l, !Rmult_1_l. reflexivity.
  - unfold P; cbn. replace ((1 + 1) * th) with (2 * th) by ring. rewrite sin_2a. ring.
  - rewrite U_rec. replace ((2 * (cos th * U (S n) (cos th)) - U n (cos th)) * sin th) with (2 * cos th * (U (S n) (cos th) * sin th) - U n (cos th) * sin th) by ring.
    rewrite H0, H1, !S_INR. replace ((INR n + 1 + 1 + 1) * th) with ((INR n + 1 + 1) * th + th) by ring. replace ((INR n + 1) * th) with ((INR n + 1 + 1) * th - th) by ring.
    rewrite sin_plus, sin_minus. ring.
Qed.
