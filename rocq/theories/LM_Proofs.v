(** Proofs about the Levenberg-Marquardt minimiser: the algebra of the damped matrix. *)
From Verif Require Import Base BaseLemmas LM_Model LM_Spec.
From Coq Require Import Lqa Setoid Morphisms.
#[local] Open Scope nat_scope.

Lemma sum_ext n f g : (forall i, i < n -> (f i == g i)%Q) -> (sum_to n f == sum_to n g)%Q.
Proof.
  induction n as [|n IH]; cbn; [reflexivity|]. intros H. rewrite IH by (intros; apply H; lia). rewrite H by lia. reflexivity.
Qed.
Lemma sum_plus n f g : (sum_to n (fun i => f i + g i) == sum_to n f + sum_to n g)%Q.
Proof. induction n as [|n IH]; cbn; [ring|]. rewrite IH. ring. Qed.
Lemma sum_scale n c f : (sum_to n (fun i => c * f i) == c * sum_to n f)%Q.
Proof. induction n as [|n IH]; cbn; [ring|]. rewrite IH. ring. Qed.
Lemma sum_nonneg n f : (forall i, i < n -> (0 <= f i)%Q) -> (0 <= sum_to n f)%Q.
Proof.
  induction n as [|n IH]; cbn; intros H; [lra|]. assert (A := IH (fun i K => H i (Nat.lt_trans _ _ _ K (Nat.lt_succ_diag_r n)))).
  assert (B := H n (Nat.lt_succ_diag_r n)). lra.
Qed.
Lemma sum_le n f g : (forall i, i < n -> (f i <= g i)%Q) -> (sum_to n f <= sum_to n g)%Q.
Proof.
  induction n as [|n IH]; cbn; intros H; [lra|]. assert (A := IH (fun i K => H i (Nat.lt_trans _ _ _ K (Nat.lt_succ_diag_r n)))).
  assert (B := H n (Nat.lt_succ_diag_r n)). lra.
Qed.
Lemma eye_same i : eye i i = 1%Q.
Proof. unfold eye. rewrite Nat.eqb_refl. reflexivity. Qed.
Lemma eye_other i j : i <> j -> eye i j = 0%Q.
Proof. intros N. unfold eye. destruct (Nat.eqb_spec i j); [contradiction|reflexivity]. Qed.
Lemma sum_eye_out n i c : n <= i -> (sum_to n (fun j => eye i j * c j) == 0)%Q.
Proof.
  induction n as [|n IH]; cbn; intros H; [reflexivity|]. rewrite IH by lia. rewrite eye_other by lia. ring.
Qed.
Lemma sum_eye n i c : i < n -> (sum_to n (fun j => eye i j * c j) == c i)%Q.
Proof.
  induction n as [|n IH]; cbn; intros H; [lia|]. destruct (Nat.eq_dec i n) as [->|N].
  - rewrite sum_eye_out by lia. rewrite eye_same. ring.
  - rewrite IH by lia. rewrite eye_other by lia. ring.
Qed.

Lemma mapi_from_length {A B} (f : nat -> A -> B) l : forall k, length (mapi_from k f l) = length l.
Proof. induction l; intros; cbn; [reflexivity|f_equal; auto]. Qed.
Lemma nth_mapi_from {A B} (f : nat -> A -> B) d d0 l : forall k i, i < length l ->
  nth i (mapi_from k f l) d = f (k + i) (nth i l d0).
Proof.
  induction l as [|a l IH]; cbn; intros k i H; [lia|]. destruct i as [|i].
  - rewrite Nat.add_0_r. reflexivity.
  - rewrite IH by lia. f_equal. lia.
Qed.
Lemma nth_mapi {A B} (f : nat -> A -> B) d d0 l i : i < length l -> nth i (mapi f l) d = f i (nth i l d0).
Proof. intros H. unfold mapi. rewrite (nth_mapi_from f d d0) by exact H. reflexivity. Qed.

Lemma nth_diag n H j : square n H -> j < n -> nth j (diag H) 0%Q = ent H j j.
Proof. intros [LH _] J. unfold diag. rewrite (nth_mapi _ 0%Q []) by lia. reflexivity. Qed.

Lemma ent_damped n H L i j : square n H -> i < n -> j < n ->
  (ent (damped_hess H L) i j ==
   ent H i j * (eye i j + (1 - eye i j) / (1 + L)) + L * eye i j * (1 + ent H j j))%Q.
Proof.
  intros SQ Hi Hj. assert (SQ' := SQ). destruct SQ as [LH RH]. unfold damped_hess.
  unfold ent at 1.
  rewrite (nth_mapi _ [] []) by lia. rewrite (nth_mapi _ 0%Q 0%Q) by (rewrite RH; assumption).
  rewrite (nth_diag n) by assumption. reflexivity.
Qed.

Lemma damped_square n H L : square n H -> square n (damped_hess H L).
Proof.
  intros [LH RH]. split.
  - unfold damped_hess, mapi. rewrite mapi_from_length. exact LH.
  - intros i Hi. unfold damped_hess. rewrite (nth_mapi _ [] []) by lia. unfold mapi. rewrite mapi_from_length. apply RH, Hi.
Qed.

Lemma form_damped n H L x : square n H -> ~ (1 + L == 0)%Q ->
  (form n (damped_hess H L) x ==
   form n H x / (1 + L) + sum_to n (fun i => x i * x i * (ent H i i * (1 + L - 1 / (1 + L)) + L)))%Q.
Proof.
  intros SQ NL. unfold form.
  assert (E : forall i, i < n ->
    (sum_to n (fun j => x i * ent (damped_hess H L) i j * x j) ==
     / (1 + L) * sum_to n (fun j => x i * ent H i j * x j) +
     x i * x i * (ent H i i * (1 + L - 1 / (1 + L)) + L))%Q).
  { intros i Hi.
    rewrite (sum_ext n _ (fun j => / (1 + L) * (x i * ent H i j * x j) +
       eye i j * (x i * x j * (ent H i j * (1 - 1 / (1 + L)) + L * (1 + ent H j j))))%Q).
    - rewrite sum_plus, sum_scale, (sum_eye n i (fun j => (x i * x j * (ent H i j * (1 - 1 / (1 + L)) + L * (1 + ent H j j)))%Q)) by exact Hi.
      field. exact NL.
    - intros j Hj. rewrite (ent_damped n) by assumption. field. exact NL. }
  rewrite (sum_ext n _ _ E). rewrite sum_plus, sum_scale. field. exact NL.
Qed.

Lemma diagonal_nonneg n H i : nonnegative n H -> i < n -> (0 <= ent H i i)%Q.
Proof.
  intros NN Hi. assert (F := NN (eye i)). unfold form in F.
  rewrite (sum_ext n _ (fun a => eye i a * ent H a i)%Q) in F.
  - rewrite (sum_eye n i (fun a => ent H a i)) in F by exact Hi. exact F.
  - intros a Ha. rewrite (sum_ext n _ (fun j => eye i j * (eye i a * ent H a j))%Q) by (intros; ring).
    rewrite (sum_eye n i (fun j => (eye i a * ent H a j)%Q)) by exact Hi. reflexivity.
Qed.

Lemma factor_nonneg L : (0 <= L -> 0 <= 1 + L - 1 / (1 + L))%Q.
Proof.
  intros H. setoid_replace (1 + L - 1 / (1 + L))%Q with ((2 * L + L * L) * / (1 + L))%Q by (field; lra).
  apply Qmult_le_0_compat; [nra|]. apply Qlt_le_weak, Qinv_lt_0_compat. lra.
Qed.
Lemma inv_nonneg L : (0 <= L -> 0 <= / (1 + L))%Q.
Proof. intros H. apply Qlt_le_weak, Qinv_lt_0_compat. lra. Qed.

Lemma sq_nonneg (x : Q) : (0 <= x * x)%Q.
Proof. nra. Qed.

Lemma damped_positive n H L x : square n H -> nonnegative n H -> (0 <= L)%Q ->
  (form n H x / (1 + L) + L * norm2 n x <= form n (damped_hess H L) x)%Q.
Proof.
  intros SQ NN HL. rewrite form_damped by (assumption || lra).
  apply Qplus_le_r. unfold norm2. rewrite <- sum_scale. apply sum_le. intros i Hi.
  assert (D := diagonal_nonneg n H i NN Hi). assert (F := factor_nonneg L HL). assert (X := sq_nonneg (x i)).
  assert (P : (0 <= ent H i i * (1 + L - 1 / (1 + L)))%Q) by (apply Qmult_le_0_compat; assumption).
  nra.
Qed.

Lemma norm2_nonneg n x : (0 <= norm2 n x)%Q.
Proof. apply sum_nonneg. intros. apply sq_nonneg. Qed.
Lemma norm2_zero n x : (norm2 n x == 0)%Q -> forall i, i < n -> (x i == 0)%Q.
Proof.
  unfold norm2. induction n as [|n IH]; cbn; intros E i Hi; [lia|].
  assert (A := norm2_nonneg n x). unfold norm2 in A. assert (B := sq_nonneg (x n)).
  destruct (Nat.eq_dec i n) as [->|N].
  - assert (Z : (x n * x n == 0)%Q) by lra. apply Qmult_integral in Z. tauto.
  - apply IH; [lra|lia].
Qed.

Lemma form_of_solution n M b x : solves n M b x -> (form n M (coord x) == inner n (coord x) (coord b))%Q.
Proof.
  intros [_ E]. unfold form, inner. apply sum_ext. intros i Hi. rewrite <- (E i Hi), <- sum_scale. apply sum_ext. intros; ring.
Qed.
Lemma coord_opp g i : (coord (vec_opp g) i == - coord g i)%Q.
Proof.
  unfold coord, vec_opp. destruct (Nat.lt_ge_cases i (length g)) as [H|H].
  - rewrite (nth_indep _ 0%Q (- 0)%Q) by (rewrite map_length; exact H). rewrite map_nth. reflexivity.
  - rewrite !nth_overflow by (rewrite ?map_length; exact H). reflexivity.
Qed.
Lemma inner_opp n x g : (inner n x (coord (vec_opp g)) == - inner n x (coord g))%Q.
Proof.
  unfold inner. setoid_replace (- sum_to n (fun i => x i * coord g i))%Q with ((-1) * sum_to n (fun i => x i * coord g i))%Q by ring.
  rewrite <- sum_scale. apply sum_ext. intros. rewrite coord_opp. ring.
Qed.
Lemma inner_comm n x y : (inner n x y == inner n y x)%Q.
Proof. unfold inner. apply sum_ext. intros; ring. Qed.

(** The step points downhill. *)
Lemma descent n H L g h : square n H -> nonnegative n H -> (0 <= L)%Q ->
  solves n (damped_hess H L) (vec_opp g) h ->
  (inner n (coord g) (coord h) <= - (form n H (coord h) / (1 + L) + L * norm2 n (coord h)))%Q.
Proof.
  intros SQ NN HL SO. assert (E := form_of_solution _ _ _ _ SO). rewrite inner_opp, inner_comm in E.
  assert (P := damped_positive n H L (coord h) SQ NN HL). lra.
Qed.

Lemma half_form L q : (0 <= L -> L <= 1 -> 0 <= q -> q / 2 <= q / (1 + L))%Q.
Proof.
  intros A B C. unfold Qdiv. assert (E : (/ 2 <= / (1 + L))%Q).
  { setoid_replace (/ 2)%Q with ((1 + L) * (/ 2 * / (1 + L)))%Q by (field; lra).
    setoid_replace (/ (1 + L))%Q with (2 * (/ 2 * / (1 + L)))%Q at 2 by (field; lra).
    apply Qmult_le_compat_r; [lra|]. apply Qmult_le_0_compat; [discriminate|apply inv_nonneg, A]. }
  nra.
Qed.
