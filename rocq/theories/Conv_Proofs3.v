(** Proofs about the numerical convolution: the grid, the interpolation, what is covered. *)
From Verif Require Import Base BaseLemmas AccRej_Model Conv_Model Conv_Spec Conv_Proofs Conv_Proofs2.
From Coq Require Import Lqa Qround Setoid Morphisms.
#[local] Open Scope nat_scope.

Lemma qlt_t a b : Qlt_bool a b = true <-> (a < b)%Q.
Proof. unfold Qlt_bool. rewrite negb_true_iff. rewrite <- not_true_iff_false, Qle_bool_iff. lra. Qed.
Lemma qlt_f a b : Qlt_bool a b = false <-> (b <= a)%Q.
Proof. unfold Qlt_bool. rewrite negb_false_iff. apply Qle_bool_iff. Qed.

Lemma floor_at z x : (inject_Z z <= x < inject_Z z + 1)%Q -> Qfloor x = z.
Proof.
  intros [A B]. assert (F := Qfloor_le x). assert (G := Qlt_floor x). rewrite inject_Z_plus in G. change (inject_Z 1) with 1%Q in G.
  assert (C : (inject_Z z < inject_Z (Qfloor x) + 1)%Q) by lra. assert (D : (inject_Z (Qfloor x) < inject_Z z + 1)%Q) by lra.
  change 1%Q with (inject_Z 1) in C, D. rewrite <- inject_Z_plus, <- Zlt_Qlt in C, D. lia.
Qed.

(** ** The interpolation *)
Lemma interp_idx (lo hi x : Q) ys i : (lo < hi)%Q -> S i < length ys ->
  let idx := ((x - lo) / (hi - lo) * inject_Z (Z.of_nat (length ys) - 1))%Q in
  (qn i <= idx <= qn i + 1)%Q ->
  (interp_regular x lo hi ys == nth i ys 0 + (idx - qn i) * (nth (S i) ys 0 - nth i ys 0))%Q.
Proof.
  intros L Hi idx [A B]. unfold interp_regular. fold idx.
  assert (LB : (0 <= qn i)%Q) by (unfold qn; change 0%Q with (inject_Z 0); rewrite <- Zle_Qle; lia).
  assert (UB : (qn i + 1 <= inject_Z (Z.of_nat (length ys) - 1))%Q).
  { unfold qn. change 1%Q with (inject_Z 1). rewrite <- inject_Z_plus, <- Zle_Qle. lia. }
  assert (C : clip idx 0 (inject_Z (Z.of_nat (length ys) - 1)) = idx).
  { unfold clip. rewrite (proj2 (qlt_f idx 0)) by lra.
    rewrite (proj2 (qlt_f (inject_Z (Z.of_nat (length ys) - 1)) idx)) by lra. reflexivity. }
  rewrite C. destruct (Qlt_le_dec idx (qn i + 1)) as [D|D].
  - rewrite (floor_at (Z.of_nat i) idx) by (split; assumption).
    replace (Z.min (Z.of_nat i + 1) (Z.of_nat (length ys) - 1)) with (Z.of_nat (S i)) by lia. rewrite !Nat2Z.id.
    unfold qn. ring.
  - assert (E : (idx == qn i + 1)%Q) by lra.
    rewrite (floor_at (Z.of_nat (S i)) idx).
    2:{ replace (Z.of_nat (S i)) with (Z.of_nat i + 1)%Z by lia. rewrite inject_Z_plus. change (inject_Z 1) with 1%Q. fold (qn i). lra. }
    rewrite Nat2Z.id. set (y2 := nth (Z.to_nat _) ys 0%Q). rewrite E. unfold qn.
    replace (Z.of_nat (S i)) with (Z.of_nat i + 1)%Z by lia. rewrite inject_Z_plus. change (inject_Z 1) with 1%Q. ring.
Qed.
Lemma interp_below (lo hi x : Q) ys : (lo < hi)%Q -> 1 <= length ys -> (x <= lo)%Q -> (interp_regular x lo hi ys == nth 0 ys 0)%Q.
Proof.
  intros L Hl X. unfold interp_regular. set (last := inject_Z (Z.of_nat (length ys) - 1)).
  assert (P : (0 <= last)%Q) by (unfold last; change 0%Q with (inject_Z 0); rewrite <- Zle_Qle; lia).
  assert (N : ((x - lo) / (hi - lo) * last <= 0)%Q).
  { assert (A : ((x - lo) / (hi - lo) <= 0)%Q) by (apply Qle_shift_div_r; lra). nra. }
  assert (C : (clip ((x - lo) / (hi - lo) * last) 0 last == 0)%Q).
  { unfold clip. destruct (Qlt_bool ((x - lo) / (hi - lo) * last) 0) eqn:E; [reflexivity|]. apply qlt_f in E.
    rewrite (proj2 (qlt_f last ((x - lo) / (hi - lo) * last))) by lra. lra. }
  set (cl := clip ((x - lo) / (hi - lo) * last) 0 last) in *. clearbody cl.
  rewrite (floor_at 0 cl) by (change (inject_Z 0) with 0%Q; lra). set (y2 := nth (Z.to_nat (Z.min _ _)) ys 0%Q). rewrite C. cbn [Z.to_nat]. change (inject_Z 0) with 0%Q. ring.
Qed.
Lemma interp_above (lo hi x : Q) ys : (lo < hi)%Q -> 1 <= length ys -> (hi <= x)%Q ->
  (interp_regular x lo hi ys == nth (length ys - 1) ys 0)%Q.
Proof.
  intros L Hl X. unfold interp_regular. set (last := inject_Z (Z.of_nat (length ys) - 1)).
  assert (P : (0 <= last)%Q) by (unfold last; change 0%Q with (inject_Z 0); rewrite <- Zle_Qle; lia).
  assert (N : (last <= (x - lo) / (hi - lo) * last)%Q).
  { assert (A : (1 <= (x - lo) / (hi - lo))%Q) by (apply Qle_shift_div_l; lra). nra. }
  assert (C : (clip ((x - lo) / (hi - lo) * last) 0 last == last)%Q).
  { unfold clip. rewrite (proj2 (qlt_f ((x - lo) / (hi - lo) * last) 0)) by lra.
    destruct (Qlt_bool last ((x - lo) / (hi - lo) * last)) eqn:E; [reflexivity|]. apply qlt_f in E. lra. }
  set (cl := clip ((x - lo) / (hi - lo) * last) 0 last) in *. clearbody cl.
  rewrite (floor_at (Z.of_nat (length ys) - 1) cl) by (fold last; lra). fold last. set (y2 := nth (Z.to_nat (Z.min _ _)) ys 0%Q). rewrite C.
  replace (Z.to_nat (Z.of_nat (length ys) - 1)) with (length ys - 1) by lia. ring.
Qed.

(** ** A convolution that was built *)
Section Built.
Variables (lf lk : Q * Q) (n : nat) (c : conv).
Hypothesis B : built lf lk n c.

Lemma built_facts : Nat.odd (c_nk c) = true /\ 3 <= c_nk c /\ 2 * c_nk c <= c_nf c /\ c_nf c >= 6 /\ c_kernel c = lk /\ c_limits_func c = lf /\
  (0 < width lk)%Q /\ (width lk <= width lf)%Q.
Proof.
  assert (B' := B). destruct B' as (W & V & N & _). destruct (built_char _ _ _ _ B) as (E1 & E2 & E3 & _ & _ & _ & _ & E4).
  rewrite E3. destruct (Nat.even n) eqn:EV.
  - assert (Nat.odd (S n) = true) by (rewrite Nat.odd_succ; exact EV). repeat split; auto; lia.
  - assert (O : Nat.odd n = true) by (unfold Nat.odd; rewrite EV; reflexivity).
    assert (n <> 2) by (intros ->; discriminate). repeat split; auto; lia.
Qed.

Lemma qn_pos k : 1 <= k -> (0 < qn k)%Q.
Proof. intros H. unfold qn. change 0%Q with (inject_Z 0). rewrite <- Zlt_Qlt. lia. Qed.

(** bins of the func have the width of those of the kernel *)
Lemma built_grid : (width (c_func c) == qn (c_nf c) * (width lk / qn (c_nk c)))%Q /\
  (centre (c_func c) == centre lf + centre lk)%Q /\
  (width lf + width lk <= width (c_func c) < width lf + width lk + width lk / qn (c_nk c))%Q.
Proof.
  destruct built_facts as (O & N3 & NF & _ & _ & _ & W & V).
  destruct (built_char _ _ _ _ B) as (E1 & E2 & E3 & E4 & E5 & E6 & E7 & E8). rewrite <- E3 in E4, E5, E6, E7, E8.
  set (nf := Qceiling ((width lf + width lk) / width lk * qn (c_nk c))) in *.
  assert (K := qn_pos (c_nk c) ltac:(lia)). set (k := qn (c_nk c)) in *.
  assert (EW : (width (c_func c) == qn (c_nf c) * (width lk / k))%Q).
  { unfold width at 1. rewrite E5, E6, E7. unfold width. field. lra. }
  split; [exact EW|]. split.
  { unfold centre. rewrite E5, E6. unfold width. field. lra. }
  rewrite EW, E7. set (y := ((width lf + width lk) / width lk * k)%Q) in *.
  assert (U : (y <= inject_Z nf)%Q) by apply Qle_ceiling.
  assert (D : (inject_Z nf < y + 1)%Q).
  { assert (D := Qceiling_lt y). fold nf in D. unfold Z.sub in D. rewrite inject_Z_plus, inject_Z_opp in D. change (inject_Z 1) with 1%Q in D. lra. }
  assert (Y : (y * (width lk / k) == width lf + width lk)%Q) by (unfold y; field; lra).
  assert (P : (0 < width lk / k)%Q) by (apply Qlt_shift_div_l; lra). split; nra.
Qed.

Lemma func_width_pos : (0 < width (c_func c))%Q.
Proof. destruct built_facts as (_ & _ & _ & _ & _ & _ & W & V). destruct built_grid as (_ & _ & G & _). lra. Qed.

Lemma squeeze_value : (squeeze c == qn (c_nf c) * (qn (c_nk c) - 1) / ((qn (c_nf c) - 1) * qn (c_nk c)))%Q /\ (0 < squeeze c < 1)%Q.
Proof.
  destruct built_facts as (O & N3 & NF & N6 & EK & EF & W & V). destruct built_grid as (EW & _).
  assert (A := proj1 (qn_le 3 (c_nk c)) N3). assert (A' := proj1 (qn_le 6 (c_nf c)) N6).
  change (qn 3) with 3%Q in A. change (qn 6) with 6%Q in A'.
  assert (NF' : (2 * qn (c_nk c) <= qn (c_nf c))%Q).
  { assert (X := proj1 (qn_le _ _) NF). unfold qn in X at 1. rewrite Nat2Z.inj_mul, inject_Z_mult in X. exact X. }
  assert (E : (squeeze c == qn (c_nf c) * (qn (c_nk c) - 1) / ((qn (c_nf c) - 1) * qn (c_nk c)))%Q).
  { unfold squeeze, spacing. rewrite EW, EK. field. repeat split; lra. }
  split; [exact E|]. rewrite E. set (f := qn (c_nf c)) in *. set (k := qn (c_nk c)) in *.
  assert (P : (0 < (f - 1) * k)%Q) by nra. split.
  - apply Qlt_shift_div_l; [exact P|]. nra.
  - apply Qlt_shift_div_r; [exact P|]. nra.
Qed.

Lemma shift_centre : (kernel_shift c == centre (c_kernel c))%Q.
Proof. unfold kernel_shift, centre. field. Qed.

Lemma positions_nth i d : i < c_nf c -> (nth i (conv_positions c) d == position c i)%Q.
Proof.
  intros H. unfold conv_positions, position. set (f := fun x => (x + kernel_shift c)%Q).
  rewrite (nth_indep _ d (f 0%Q)) by (rewrite map_length, linspace_length; exact H). rewrite (map_nth f). unfold f.
  rewrite linspace_node by exact H. rewrite shift_centre. reflexivity.
Qed.

(** The value at a point between two positions *)
Lemma pdf_between func kernel i x : S i < c_nf c -> (position c i <= x <= position c (S i))%Q ->
  let v := conv_values func kernel c in
  (conv_pdf func kernel c x ==
   nth i v 0 + (x - position c i) / (position c (S i) - position c i) * (nth (S i) v 0 - nth i v 0))%Q.
Proof.
  intros Hi HX v. destruct built_facts as (O & N3 & NF & N6 & EK & EF & W & V). assert (WF := func_width_pos).
  assert (NF2 : 2 <= c_nf c) by lia.
  assert (HP := spacing_pos (c_func c) (c_nf c) WF NF2). set (h := spacing (c_func c) (c_nf c)) in *.
  assert (LV : length v = c_nf c) by (unfold v; apply values_length).
  unfold conv_pdf. fold v.
  assert (L : (fst (c_func c) + kernel_shift c < snd (c_func c) + kernel_shift c)%Q) by (unfold width in WF; lra).
  assert (S1 : (position c i == fst (c_func c) + kernel_shift c + qn i * h)%Q).
  { unfold position, node. rewrite shift_centre. fold h. ring. }
  assert (S2 : (position c (S i) == fst (c_func c) + kernel_shift c + (qn i + 1) * h)%Q).
  { unfold position, node. rewrite shift_centre. fold h. unfold qn. replace (Z.of_nat (S i)) with (Z.of_nat i + 1)%Z by lia.
    rewrite inject_Z_plus. change (inject_Z 1) with 1%Q. ring. }
  assert (HE : (snd (c_func c) + kernel_shift c - (fst (c_func c) + kernel_shift c) == inject_Z (Z.of_nat (length v) - 1) * h)%Q).
  { rewrite (last_node (c_func c) (c_nf c) NF2). fold h. rewrite LV. unfold Z.sub. rewrite inject_Z_plus, inject_Z_opp. unfold qn. change (inject_Z 1) with 1%Q. ring. }
  assert (LP : (0 < inject_Z (Z.of_nat (length v) - 1))%Q) by (change 0%Q with (inject_Z 0); rewrite <- Zlt_Qlt; lia).
  assert (ID : ((x - (fst (c_func c) + kernel_shift c)) / (snd (c_func c) + kernel_shift c - (fst (c_func c) + kernel_shift c)) *
                inject_Z (Z.of_nat (length v) - 1) == (x - (fst (c_func c) + kernel_shift c)) / h)%Q).
  { rewrite HE. field. split; lra. }
  rewrite (interp_idx _ _ x v i L); [|lia|].
  - rewrite ID. rewrite S1, S2. field_simplify_eq; [ring|lra].
  - rewrite ID. split; [apply Qle_shift_div_l; [exact HP|]|apply Qle_shift_div_r; [exact HP|]]; lra.
Qed.

Lemma pdf_outside func kernel x : let v := conv_values func kernel c in
  ((x <= position c 0)%Q -> (conv_pdf func kernel c x == nth 0 v 0)%Q) /\
  ((position c (c_nf c - 1) <= x)%Q -> (conv_pdf func kernel c x == nth (c_nf c - 1) v 0)%Q).
Proof.
  intros v. destruct built_facts as (O & N3 & NF & N6 & EK & EF & W & V). assert (WF := func_width_pos).
  assert (NF2 : 2 <= c_nf c) by lia.
  assert (LV : length v = c_nf c) by (unfold v; apply values_length).
  assert (L : (fst (c_func c) + kernel_shift c < snd (c_func c) + kernel_shift c)%Q) by (unfold width in WF; lra).
  unfold conv_pdf. fold v. split; intros HX.
  - apply interp_below; [exact L|lia|]. unfold position, node in HX. change (qn 0) with 0%Q in HX. rewrite <- shift_centre in HX. lra.
  - rewrite <- LV. apply interp_above; [exact L|lia|]. rewrite (last_node (c_func c) (c_nf c) NF2).
    unfold position, node in HX. rewrite <- shift_centre in HX. unfold qn in HX at 1. rewrite qn_pred in HX by lia. lra.
Qed.

Lemma position_ends : (position c 0 == fst (c_func c) + centre lk)%Q /\ (position c (c_nf c - 1) == snd (c_func c) + centre lk)%Q.
Proof.
  destruct built_facts as (O & N3 & NF & N6 & EK & EF & W & V). unfold position. rewrite EK. split.
  - unfold node. change (qn 0) with 0%Q. ring.
  - rewrite (last_node (c_func c) (c_nf c)) by lia. unfold node. unfold qn at 1. rewrite qn_pred by lia. ring.
Qed.
End Built.
