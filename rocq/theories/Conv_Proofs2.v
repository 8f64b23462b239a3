(** Proofs about the numerical convolution: the values on the grid as a discrete convolution. *)
From Verif Require Import Base BaseLemmas AccRej_Model Conv_Model Conv_Spec Conv_Proofs.
From Coq Require Import Lqa Qround Setoid Morphisms.
#[local] Open Scope nat_scope.

Lemma linspace_length lo hi n : length (linspace lo hi n) = n.
Proof. unfold linspace. rewrite map_length, seq_length. reflexivity. Qed.
Lemma linspace_nth lo hi n i d : i < n ->
  nth i (linspace lo hi n) d = (lo + qn i * ((hi - lo) / inject_Z (Z.of_nat (n - 1))))%Q.
Proof.
  intros H. unfold linspace. set (f := fun i : nat => (lo + inject_Z (Z.of_nat i) * ((hi - lo) / inject_Z (Z.of_nat (n - 1))))%Q).
  rewrite (nth_indep _ d (f 0)) by (rewrite map_length, seq_length; exact H). rewrite (map_nth f), seq_nth by exact H. reflexivity.
Qed.
Lemma qn_pred n : 1 <= n -> (inject_Z (Z.of_nat (n - 1)) == qn n - 1)%Q.
Proof. intros H. unfold qn. rewrite Nat2Z.inj_sub by exact H. unfold Z.sub. rewrite inject_Z_plus. reflexivity. Qed.
Lemma linspace_node l n i d : i < n -> (nth i (linspace (fst l) (snd l) n) d == node l n i)%Q.
Proof. intros H. rewrite linspace_nth by exact H. unfold node, spacing, width. rewrite qn_pred by lia. reflexivity. Qed.
Lemma qn_le a b : a <= b <-> (qn a <= qn b)%Q.
Proof. unfold qn. rewrite <- Zle_Qle. lia. Qed.

Lemma map_linspace f lo hi n i : i < n -> nth i (map f (linspace lo hi n)) 0%Q = f (nth i (linspace lo hi n) 0%Q).
Proof.
  intros H. rewrite (nth_indep _ 0%Q (f 0%Q)) by (rewrite map_length, linspace_length; exact H). apply map_nth.
Qed.

Section Values.
Variables (func kernel : Q -> Q) (c : conv).
Hypothesis (FR : respects func) (KR : respects kernel).
Hypothesis (NK : Nat.odd (c_nk c) = true) (NK3 : 3 <= c_nk c) (NF : 2 <= c_nf c).
Hypothesis (WK : (0 < width (c_kernel c))%Q) (WF : (0 < width (c_func c))%Q).

Let half := (c_nk c - 1) / 2.
Lemma half_odd : c_nk c = 2 * half + 1.
Proof. apply Nat.odd_spec in NK. destruct NK as [m H]. unfold half. rewrite H. replace (2 * m + 1 - 1) with (m * 2) by lia. rewrite Nat.div_mul by lia. lia. Qed.

Lemma spacing_pos l n : (0 < width l)%Q -> 2 <= n -> (0 < spacing l n)%Q.
Proof.
  intros W N. unfold spacing. apply Qlt_shift_div_l; [|lra].
  assert (A := proj1 (qn_le 2 n) N). change (qn 2) with 2%Q in A. lra.
Qed.
Lemma HF : (0 < spacing (c_func c) (c_nf c))%Q.
Proof. apply spacing_pos; assumption. Qed.
Lemma HK : (0 < spacing (c_kernel c) (c_nk c))%Q.
Proof. apply spacing_pos; [assumption|lia]. Qed.

(** The value of the func at the point with the index [z], zero outside of the grid *)
Definition fat (z : Z) : Q := restricted (c_func c) func (fst (c_func c) + inject_Z z * spacing (c_func c) (c_nf c))%Q.

Lemma last_node l n : 2 <= n -> (snd l == fst l + (qn n - 1) * spacing l n)%Q.
Proof.
  intros N. unfold spacing, width. assert (A := proj1 (qn_le 2 n) N). change (qn 2) with 2%Q in A. field. lra.
Qed.

Lemma restricted_index (g : Q -> Q) z : restricted (c_func c) g (fst (c_func c) + inject_Z z * spacing (c_func c) (c_nf c))%Q =
  if Z.leb 0 z && Z.ltb z (Z.of_nat (c_nf c)) then g (fst (c_func c) + inject_Z z * spacing (c_func c) (c_nf c))%Q else 0%Q.
Proof.
  assert (P := HF). unfold restricted. set (h := spacing (c_func c) (c_nf c)) in *.
  assert (A : Qle_bool (fst (c_func c)) (fst (c_func c) + inject_Z z * h) = Z.leb 0 z).
  { apply eq_true_iff_eq. rewrite Qle_bool_iff, Z.leb_le, Zle_Qle. change (inject_Z 0) with 0%Q. split; intros; nra. }
  assert (B : Qle_bool (fst (c_func c) + inject_Z z * h) (snd (c_func c)) = Z.ltb z (Z.of_nat (c_nf c))).
  { apply eq_true_iff_eq. rewrite Qle_bool_iff, Z.ltb_lt. rewrite (last_node (c_func c) (c_nf c) NF). fold h. unfold qn.
    assert (E : (z < Z.of_nat (c_nf c))%Z <-> (inject_Z z <= inject_Z (Z.of_nat (c_nf c)) - 1)%Q).
    { change 1%Q with (inject_Z 1). unfold Qminus. rewrite <- inject_Z_opp, <- inject_Z_plus, <- Zle_Qle. lia. }
    rewrite E. split; intros; nra. }
  rewrite A, B. reflexivity.
Qed.

Lemma restricted_eq l g x y : respects g -> (x == y)%Q -> (restricted l g x == restricted l g y)%Q.
Proof.
  intros R E. unfold restricted.
  assert (A : Qle_bool (fst l) x = Qle_bool (fst l) y) by (apply eq_true_iff_eq; rewrite !Qle_bool_iff, E; tauto).
  assert (B : Qle_bool x (snd l) = Qle_bool y (snd l)) by (apply eq_true_iff_eq; rewrite !Qle_bool_iff, E; tauto).
  rewrite A, B. destruct (_ && _); [apply R, E|reflexivity].
Qed.

Lemma at_or_zero_fat z : (at_or_zero (map func (linspace (fst (c_func c)) (snd (c_func c)) (c_nf c))) z == fat z)%Q.
Proof.
  unfold fat. rewrite restricted_index. unfold at_or_zero. destruct (Z.ltb_spec z 0) as [A|A].
  - destruct (Z.leb_spec 0 z); [lia|]. reflexivity.
  - destruct (Z.leb_spec 0 z); [|lia]. cbn [andb]. destruct (Z.ltb_spec z (Z.of_nat (c_nf c))) as [B|B].
    + rewrite map_linspace by lia. apply FR. rewrite linspace_node by lia. unfold node, qn. rewrite Z2Nat.id by lia. reflexivity.
    + rewrite nth_overflow; [reflexivity|]. rewrite map_length, linspace_length. lia.
Qed.

Lemma values_length : length (conv_values func kernel c) = c_nf c.
Proof. unfold conv_values, correlate_same. rewrite map_length, seq_length, map_length, linspace_length. reflexivity. Qed.

Lemma values_index i : i < c_nf c ->
  (nth i (conv_values func kernel c) 0 ==
   total (c_nk c) (fun j => kernel (node (c_kernel c) (c_nk c) j) * fat (Z.of_nat i + (Z.of_nat half - Z.of_nat j))%Z))%Q.
Proof.
  intros Hi. unfold conv_values, correlate_same.
  set (yf := map func (linspace (fst (c_func c)) (snd (c_func c)) (c_nf c))).
  set (yk := map kernel (linspace (fst (c_kernel c)) (snd (c_kernel c)) (c_nk c))).
  assert (LF : length yf = c_nf c) by (unfold yf; rewrite map_length, linspace_length; reflexivity).
  assert (LK : length yk = c_nk c) by (unfold yk; rewrite map_length, linspace_length; reflexivity).
  rewrite rev_length, LK, LF. fold half.
  set (g := fun i0 : nat => sumf (c_nk c) (fun j => (at_or_zero yf (Z.of_nat i0 + Z.of_nat j - Z.of_nat half) * nth j (rev yk) 0)%Q)).
  rewrite (nth_indep _ 0%Q (g 0)) by (rewrite map_length, seq_length; exact Hi). rewrite (map_nth g), seq_nth by exact Hi.
  unfold g. rewrite sumf_total, total_rev. apply total_ext. intros j Hj. cbv beta.
  rewrite rev_nth by (rewrite LK; lia). rewrite LK. assert (HO := half_odd).
  replace (c_nk c - S (c_nk c - 1 - j)) with j by lia.
  replace (Z.of_nat (0 + i) + Z.of_nat (c_nk c - 1 - j) - Z.of_nat half)%Z with (Z.of_nat i + (Z.of_nat half - Z.of_nat j))%Z by lia.
  unfold yk. rewrite map_linspace by exact Hj. rewrite (KR _ _ (linspace_node (c_kernel c) (c_nk c) j 0%Q Hj)).
  unfold yf. rewrite at_or_zero_fat. ring.
Qed.

Lemma kernel_node j : (node (c_kernel c) (c_nk c) j - centre (c_kernel c) == inject_Z (Z.of_nat j - Z.of_nat half) * spacing (c_kernel c) (c_nk c))%Q.
Proof.
  unfold node, centre. assert (E := last_node (c_kernel c) (c_nk c) ltac:(lia)).
  assert (N : (qn (c_nk c) == 2 * inject_Z (Z.of_nat half) + 1)%Q).
  { unfold qn. rewrite half_odd at 1. replace (Z.of_nat (2 * half + 1)) with (2 * Z.of_nat half + 1)%Z by lia.
    rewrite inject_Z_plus, inject_Z_mult. reflexivity. }
  set (h := spacing (c_kernel c) (c_nk c)) in *. clearbody h. set (s := snd (c_kernel c)) in *. clearbody s.
  rewrite E, N. unfold qn, Z.sub. rewrite inject_Z_plus, inject_Z_opp. field.
Qed.
Lemma squeezed_node j : (squeezed c (node (c_kernel c) (c_nk c) j) == centre (c_kernel c) + inject_Z (Z.of_nat j - Z.of_nat half) * spacing (c_func c) (c_nf c))%Q.
Proof.
  unfold squeezed. rewrite kernel_node. unfold squeeze. assert (P := HK). field. lra.
Qed.

Lemma position_minus i j : (position c i - squeezed c (node (c_kernel c) (c_nk c) j) ==
  fst (c_func c) + inject_Z (Z.of_nat i + (Z.of_nat half - Z.of_nat j)) * spacing (c_func c) (c_nf c))%Q.
Proof.
  rewrite squeezed_node. unfold position, node, qn. unfold Z.sub. repeat (rewrite inject_Z_plus || rewrite inject_Z_opp). ring.
Qed.

Theorem values_convolved i : i < c_nf c ->
  (nth i (conv_values func kernel c) 0 == convolved (squeezed c) c func kernel (position c i))%Q.
Proof.
  intros Hi. rewrite values_index by exact Hi. unfold convolved. apply total_ext. intros j Hj. cbv zeta.
  rewrite (restricted_eq (c_func c) func _ _ FR (position_minus i j)). reflexivity.
Qed.

(** The law of the sum *)
Theorem values_law (g : Q -> Q) : respects g -> 2 * half <= c_nf c ->
  (forall m, m < c_nf c -> m < half \/ c_nf c - half <= m -> (func (node (c_func c) (c_nf c) m) == 0)%Q) ->
  (total (c_nf c) (fun i => nth i (conv_values func kernel c) 0 * g (position c i)) ==
   total (c_nf c) (fun m => total (c_nk c) (fun j =>
     let y := node (c_func c) (c_nf c) m in let t := node (c_kernel c) (c_nk c) j in
     func y * kernel t * g (y + squeezed c t))))%Q.
Proof.
  intros GR H2 HZ.
  assert (FZ : forall z, (z < Z.of_nat half)%Z \/ (Z.of_nat (c_nf c) - Z.of_nat half <= z)%Z -> (fat z == 0)%Q).
  { intros z Hz. unfold fat. rewrite restricted_index. destruct (Z.leb_spec 0 z); [|reflexivity].
    destruct (Z.ltb_spec z (Z.of_nat (c_nf c))); [|reflexivity]. cbn [andb].
    rewrite (FR _ (node (c_func c) (c_nf c) (Z.to_nat z))). 2:{ unfold node, qn. rewrite Z2Nat.id by lia. reflexivity. }
    apply HZ; lia. }
  set (k := fun j => kernel (node (c_kernel c) (c_nk c) j)).
  set (gp := fun z : Z => g (fst (c_func c) + inject_Z z * spacing (c_func c) (c_nf c) + centre (c_kernel c))%Q).
  transitivity (total (c_nf c) (fun i => total (c_nk c) (fun j => k j * (fat (Z.of_nat i + (Z.of_nat half - Z.of_nat j))%Z * gp (Z.of_nat i)))%Q)).
  { apply total_ext. intros i Hi. rewrite values_index by exact Hi. rewrite Qmult_comm. rewrite <- total_scale. apply total_ext. intros j Hj.
    unfold gp, k, position, node, qn. ring. }
  rewrite total_swap. rewrite (total_swap (c_nf c) (c_nk c)). apply total_ext. intros j Hj. cbv zeta.
  rewrite total_scale. assert (HO := half_odd).
  rewrite (shift_sum (c_nf c) half fat gp (Z.of_nat half - Z.of_nat j)%Z FZ) by lia.
  rewrite <- total_scale. apply total_ext. intros m Hm.
  assert (E1 : (fat (Z.of_nat m) == func (node (c_func c) (c_nf c) m))%Q).
  { unfold fat. rewrite restricted_index. destruct (Z.leb_spec 0 (Z.of_nat m)); [|lia]. destruct (Z.ltb_spec (Z.of_nat m) (Z.of_nat (c_nf c))); [|lia].
    cbn [andb]. reflexivity. }
  rewrite E1. unfold gp. rewrite (GR _ (node (c_func c) (c_nf c) m + squeezed c (node (c_kernel c) (c_nk c) j))%Q).
  - unfold k. ring.
  - rewrite squeezed_node. unfold node, qn. unfold Z.sub. repeat (rewrite inject_Z_plus || rewrite inject_Z_opp). ring.
Qed.
End Values.
