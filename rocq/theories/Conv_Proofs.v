(** Proofs about the numerical convolution: the values on the grid. *)
From Verif Require Import Base BaseLemmas AccRej_Model Conv_Model Conv_Spec.
From Coq Require Import Lqa Qround Setoid Morphisms.
#[local] Open Scope nat_scope.

Lemma total_ext n f g : (forall i, i < n -> (f i == g i)%Q) -> (total n f == total n g)%Q.
Proof.
  induction n as [|n IH]; cbn; [reflexivity|]. intros H. rewrite IH by (intros; apply H; lia). rewrite H by lia. reflexivity.
Qed.
Lemma total_plus n f g : (total n (fun i => f i + g i) == total n f + total n g)%Q.
Proof. induction n as [|n IH]; cbn; [ring|]. rewrite IH. ring. Qed.
Lemma total_scale n c f : (total n (fun i => c * f i) == c * total n f)%Q.
Proof. induction n as [|n IH]; cbn; [ring|]. rewrite IH. ring. Qed.
Lemma total_zero n f : (forall i, i < n -> (f i == 0)%Q) -> (total n f == 0)%Q.
Proof.
  induction n as [|n IH]; cbn; intros H; [reflexivity|]. rewrite IH by (intros; apply H; lia). rewrite H by lia. reflexivity.
Qed.
Lemma total_nonneg n f : (forall i, i < n -> (0 <= f i)%Q) -> (0 <= total n f)%Q.
Proof.
  induction n as [|n IH]; cbn; intros H; [lra|]. assert (A := IH (fun i K => H i (Nat.lt_trans _ _ _ K (Nat.lt_succ_diag_r n)))).
  assert (B := H n (Nat.lt_succ_diag_r n)). lra.
Qed.
Lemma total_split a b f : (total (a + b) f == total a f + total b (fun i => f (a + i)%nat))%Q.
Proof.
  induction b as [|b IH]; [rewrite Nat.add_0_r; cbn; ring|]. rewrite Nat.add_succ_r. cbn. rewrite IH. ring.
Qed.
Lemma total_first n f : (total (S n) f == f 0%nat + total n (fun i => f (S i)))%Q.
Proof. change (S n) with (1 + n). rewrite total_split. cbn. ring. Qed.
Lemma total_rev n f : (total n f == total n (fun i => f (n - 1 - i)%nat))%Q.
Proof.
  induction n as [|n IH]; [reflexivity|]. rewrite total_first. cbn [total]. rewrite Qplus_comm.
  assert (A : (total n (fun i => f (S i)) == total n (fun i => f (S n - 1 - i)%nat))%Q).
  { clear. revert f. induction n as [|n IH]; intros f; [reflexivity|].
    rewrite (total_first n (fun i => f (S (S n) - 1 - i)%nat)). cbn [total]. rewrite (IH f).
    replace (S (S n) - 1 - 0) with (S n) by lia.
    rewrite (total_ext n (fun i => f (S (S n) - 1 - S i)%nat) (fun i => f (S n - 1 - i)%nat)).
    - ring.
    - intros i H. replace (S (S n) - 1 - S i) with (S n - 1 - i) by lia. reflexivity. }
  rewrite A. replace (S n - 1 - n) with 0 by lia. reflexivity.
Qed.
Lemma total_swap a b f : (total a (fun i => total b (fun j => f i j)) == total b (fun j => total a (fun i => f i j)))%Q.
Proof.
  induction a as [|a IH]; cbn.
  - symmetry. apply total_zero. reflexivity.
  - rewrite IH. rewrite <- total_plus. reflexivity.
Qed.
Lemma sumf_total n f : sumf n f = total n f.
Proof. induction n as [|n IH]; cbn; [reflexivity|rewrite IH; reflexivity]. Qed.

(** Sums over shifted indices *)
Lemma total_low a d f : (forall i, i < d -> (f i == 0)%Q) -> (total (a + d) f == total a (fun i => f (i + d)%nat))%Q.
Proof.
  intros H. rewrite Nat.add_comm. rewrite total_split. rewrite total_zero by exact H.
  rewrite (total_ext a (fun i => f (d + i)%nat) (fun i => f (i + d)%nat)); [ring|]. intros. rewrite Nat.add_comm. reflexivity.
Qed.
Lemma total_high a d f : (forall i, a <= i -> i < a + d -> (f i == 0)%Q) -> (total (a + d) f == total a f)%Q.
Proof. intros H. rewrite total_split. rewrite (total_zero d) by (intros; apply H; lia). ring. Qed.

Lemma shift_sum n b (F G : Z -> Q) d : (forall z, (z < Z.of_nat b)%Z \/ (Z.of_nat n - Z.of_nat b <= z)%Z -> (F z == 0)%Q) ->
  (Z.abs d <= Z.of_nat b)%Z -> (Z.abs d <= Z.of_nat n)%Z ->
  (total n (fun i => F (Z.of_nat i + d)%Z * G (Z.of_nat i)) == total n (fun m => F (Z.of_nat m) * G (Z.of_nat m - d)%Z))%Q.
Proof.
  intros HF Hd Hn. destruct (Z_le_gt_dec 0 d) as [P|P].
  - remember (Z.to_nat d) as k eqn:K'. assert (K : d = Z.of_nat k) by lia. remember (n - k) as a eqn:A'. assert (A : n = a + k) by lia.
    subst n. rewrite total_high. 2:{ intros i H1 H2. rewrite HF by lia. ring. }
    rewrite (total_low a k (fun m => F (Z.of_nat m) * G (Z.of_nat m - d)%Z)%Q). 2:{ intros i H1. rewrite HF by lia. ring. }
    apply total_ext. intros i Hi. replace (Z.of_nat (i + k) - d)%Z with (Z.of_nat i) by lia.
    replace (Z.of_nat (i + k)) with (Z.of_nat i + d)%Z by lia. reflexivity.
  - remember (Z.to_nat (- d)) as k eqn:K'. assert (K : d = (- Z.of_nat k)%Z) by lia. remember (n - k) as a eqn:A'. assert (A : n = a + k) by lia.
    subst n. rewrite total_low. 2:{ intros i H1. rewrite HF by lia. ring. }
    rewrite (total_high a k (fun m => F (Z.of_nat m) * G (Z.of_nat m - d)%Z)%Q). 2:{ intros i H1 H2. rewrite HF by lia. ring. }
    apply total_ext. intros i Hi. replace (Z.of_nat (i + k) + d)%Z with (Z.of_nat i) by lia.
    replace (Z.of_nat (i + k)) with (Z.of_nat i - d)%Z by lia. reflexivity.
Qed.

(** ** The constructor *)
Lemma built_char lf lk n c : built lf lk n c ->
  let nk := if Nat.even n then S n else n in
  let nf := Qceiling ((width lf + width lk) / width lk * qn nk) in
  let e := ((width lk / qn nk * inject_Z nf - (width lf + width lk)) / 2)%Q in
  c_kernel c = lk /\ c_limits_func c = lf /\ c_nk c = nk /\ c_nf c = Z.to_nat nf /\
  (fst (c_func c) == fst lf + fst lk - e)%Q /\ (snd (c_func c) == snd lf + snd lk + e)%Q /\
  (qn (c_nf c) == inject_Z nf)%Q /\ 2 * nk <= c_nf c.
Proof.
  intros (W & V & N & int & n1 & n2 & ip & E). unfold conv_init in E. cbn [Nat.ltb Nat.leb Nat.eqb negb one_interval bind] in E.
  destruct (parse_interpolation int ip) as [i|]; cbn [bind] in E; [|discriminate].
  destruct (Qlt_bool (snd lf - fst lf) (snd lk - fst lk)); [discriminate|]. injection E as <-. cbn zeta.
  set (nk := if Nat.even n then S n else n). assert (NK : points (Some (Z.of_nat n)) = Z.of_nat nk).
  { unfold points, nk. assert (EV : Z.even (Z.of_nat n) = Nat.even n).
    { destruct (Nat.even n) eqn:H.
      - apply Nat.even_spec in H. destruct H as [m ->]. apply Z.even_spec. exists (Z.of_nat m). lia.
      - destruct (Z.even (Z.of_nat n)) eqn:H'; [|reflexivity]. apply Z.even_spec in H'. destruct H' as [m H'].
        assert (n = 2 * Z.to_nat m)%nat by lia. assert (Nat.even n = true) by (apply Nat.even_spec; exists (Z.to_nat m); assumption).
        congruence. }
    rewrite EV. destruct (Nat.even n); lia. }
  rewrite NK. unfold grid_of, width. cbn [fst snd c_kernel c_limits_func c_nk c_nf c_func].
  assert (EQ : ((snd lf + snd lk - (fst lf + fst lk)) / (snd lk - fst lk) * inject_Z (Z.of_nat nk) ==
            (snd lf - fst lf + (snd lk - fst lk)) / (snd lk - fst lk) * qn nk)%Q).
  { unfold qn, width in *. field. lra. }
  assert (CE : Qceiling ((snd lf + snd lk - (fst lf + fst lk)) / (snd lk - fst lk) * inject_Z (Z.of_nat nk)) =
            Qceiling ((snd lf - fst lf + (snd lk - fst lk)) / (snd lk - fst lk) * qn nk)) by (apply Qceiling_comp; exact EQ).
  rewrite CE. clear CE EQ. set (nf := Qceiling ((snd lf - fst lf + (snd lk - fst lk)) / (snd lk - fst lk) * qn nk)).
  assert (NF : (2 * Z.of_nat nk <= nf)%Z).
  { assert (A : (inject_Z (2 * Z.of_nat nk) <= (snd lf - fst lf + (snd lk - fst lk)) / (snd lk - fst lk) * qn nk)%Q).
    { rewrite inject_Z_mult. fold (qn nk). unfold width in *.
      assert (K : (0 <= qn nk)%Q) by (unfold qn; change 0%Q with (inject_Z 0); rewrite <- Zle_Qle; lia).
      assert (R : (2 <= (snd lf - fst lf + (snd lk - fst lk)) / (snd lk - fst lk))%Q).
      { apply Qle_shift_div_l; lra. }
      change (inject_Z 2) with 2%Q. nra. }
    assert (B := Qle_ceiling ((snd lf - fst lf + (snd lk - fst lk)) / (snd lk - fst lk) * qn nk)). fold nf in B.
    assert (C := Qle_trans _ _ _ A B). rewrite <- Zle_Qle in C. exact C. }
  repeat match goal with |- _ /\ _ => split end; try reflexivity; try lia.
  - unfold qn. field. assert (~ (inject_Z (Z.of_nat nk) == 0)%Q); [|assumption].
    change 0%Q with (inject_Z 0). rewrite inject_Z_injective. unfold nk. destruct (Nat.even n); lia.
  - unfold qn. field. change 0%Q with (inject_Z 0). rewrite inject_Z_injective. unfold nk. destruct (Nat.even n); lia.
  - unfold qn. rewrite Z2Nat.id by lia. reflexivity.
Qed.
