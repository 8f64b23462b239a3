(** Proofs about the numerical convolution: the law of the sum, moments, sign. *)
From Verif Require Import Base BaseLemmas AccRej_Model Conv_Model Conv_Spec Conv_Proofs Conv_Proofs2 Conv_Proofs3.
From Coq Require Import Lqa Qround Setoid Morphisms.
#[local] Open Scope nat_scope.

Lemma total_prod a b (f g : nat -> Q) : (total a (fun i => total b (fun j => f i * g j)) == total a f * total b g)%Q.
Proof.
  rewrite (total_ext a _ (fun i => total b g * f i)%Q).
  - rewrite total_scale. ring.
  - intros i Hi. rewrite total_scale. ring.
Qed.
Lemma total2_ext a b f g : (forall i j, i < a -> j < b -> (f i j == g i j)%Q) ->
  (total a (fun i => total b (fun j => f i j)) == total a (fun i => total b (fun j => g i j)))%Q.
Proof. intros H. apply total_ext. intros i Hi. apply total_ext. auto. Qed.
Lemma total2_plus a b f g : (total a (fun i => total b (fun j => f i j + g i j)) ==
  total a (fun i => total b (fun j => f i j)) + total a (fun i => total b (fun j => g i j)))%Q.
Proof. rewrite <- total_plus. apply total_ext. intros i Hi. apply total_plus. Qed.

Section Law.
Variables (lf lk : Q * Q) (n : nat) (c : conv) (func kernel : Q -> Q).
Hypothesis (B : built lf lk n c) (FR : respects func) (KR : respects kernel).

Lemma law (g : Q -> Q) : respects g -> margin c func ->
  (total (c_nf c) (fun i => nth i (conv_values func kernel c) 0 * g (position c i)) ==
   total (c_nf c) (fun m => total (c_nk c) (fun j =>
     let y := node (c_func c) (c_nf c) m in let t := node (c_kernel c) (c_nk c) j in
     func y * kernel t * g (y + squeezed c t))))%Q.
Proof.
  intros GR M. destruct (built_facts _ _ _ _ B) as (O & N3 & NF & N6 & EK & _ & W & _).
  assert (HO := half_odd c O).
  apply values_law; auto; try lia.
  - rewrite EK. exact W.
  - eapply func_width_pos; eauto.
  - intros m Hm H. apply M; [exact Hm|]. lia.
Qed.

Let cw (i : nat) := nth i (conv_values func kernel c) 0%Q.
Let fw := on_grid (c_func c) (c_nf c) func.
Let kw := on_grid (c_kernel c) (c_nk c) kernel.
Let fx := node (c_func c) (c_nf c).
Let kx (j : nat) := squeezed c (node (c_kernel c) (c_nk c) j).

Hypothesis M : margin c func.
Lemma mass_sum : (mass (c_nf c) cw == mass (c_nf c) fw * mass (c_nk c) kw)%Q.
Proof.
  unfold mass. rewrite <- total_prod. assert (L := law (fun _ => 1%Q) ltac:(intros x y _; reflexivity) M). cbv zeta beta in L.
  rewrite (total_ext (c_nf c) cw (fun i => nth i (conv_values func kernel c) 0 * 1)%Q).
  - rewrite L. apply total2_ext. intros i j _ _. unfold fw, kw, on_grid. ring.
  - intros i _. unfold cw. ring.
Qed.
Hypothesis (MF : ~ (mass (c_nf c) fw == 0)%Q) (MK : ~ (mass (c_nk c) kw == 0)%Q).
Lemma mean_sum : (mean (c_nf c) cw (position c) == mean (c_nf c) fw fx + mean (c_nk c) kw kx)%Q.
Proof.
  unfold mean at 1. rewrite mass_sum. unfold cw.
  rewrite (law (fun x => x) ltac:(intros x y H; exact H) M). cbv zeta.
  rewrite (total2_ext _ _ _ (fun m j => (fw m * fx m) * kw j + fw m * (kw j * kx j))%Q).
  2:{ intros i j _ _. unfold fw, kw, fx, kx, on_grid. ring. }
  rewrite total2_plus, !total_prod. unfold mean, mass in *. field. auto.
Qed.
Lemma centred m w x : ~ (mass m w == 0)%Q -> (total m (fun i => w i * (x i - mean m w x)) == 0)%Q.
Proof.
  intros NZ. rewrite (total_ext m _ (fun i => w i * x i + - mean m w x * w i)%Q) by (intros; ring).
  rewrite total_plus, total_scale. unfold mean, mass in *. field. exact NZ.
Qed.
Lemma variance_sum : (variance (c_nf c) cw (position c) == variance (c_nf c) fw fx + variance (c_nk c) kw kx)%Q.
Proof.
  unfold variance at 1. rewrite mass_sum. set (mu := mean (c_nf c) cw (position c)).
  assert (MU : (mu == mean (c_nf c) fw fx + mean (c_nk c) kw kx)%Q) by apply mean_sum.
  unfold cw. rewrite (law (fun x => (x - mu) * (x - mu))%Q).
  2:{ intros x y ->. reflexivity. }
  2: exact M.
  cbv zeta. set (mf := mean (c_nf c) fw fx) in *. set (mk := mean (c_nk c) kw kx) in *.
  rewrite (total2_ext _ _ _ (fun m j => (fw m * ((fx m - mf) * (fx m - mf))) * kw j + (2 * (fw m * (fx m - mf)) * (kw j * (kx j - mk)) + fw m * (kw j * ((kx j - mk) * (kx j - mk)))))%Q).
  2:{ intros i j _ _. rewrite MU. unfold fw, kw, fx, kx, on_grid. ring. }
  rewrite !total2_plus, !total_prod. rewrite (total_scale (c_nf c) 2 (fun m => fw m * (fx m - mf))%Q).
  rewrite (centred (c_nf c) fw fx MF : (total (c_nf c) (fun m => fw m * (fx m - mf)) == 0)%Q).
  unfold variance. fold mf mk. unfold mass in *. field. auto.
Qed.
Lemma squeezed_mean : (mean (c_nk c) kw kx == squeezed c (mean (c_nk c) kw (node (c_kernel c) (c_nk c))))%Q.
Proof.
  set (x := node (c_kernel c) (c_nk c)). unfold mean.
  rewrite (total_ext (c_nk c) (fun i => kw i * kx i)%Q (fun i => centre (c_kernel c) * (1 - squeeze c) * kw i + squeeze c * (kw i * x i))%Q).
  2:{ intros i _. unfold kx, squeezed, x. ring. }
  rewrite total_plus, !total_scale. unfold squeezed. unfold mass in *. field. exact MK.
Qed.
Lemma squeezed_variance : (variance (c_nk c) kw kx == squeeze c * squeeze c * variance (c_nk c) kw (node (c_kernel c) (c_nk c)))%Q.
Proof.
  assert (SM := squeezed_mean). set (x := node (c_kernel c) (c_nk c)) in *. unfold variance. set (mk := mean (c_nk c) kw kx) in *. set (mx := mean (c_nk c) kw x) in *.
  rewrite (total_ext (c_nk c) (fun i => kw i * ((kx i - mk) * (kx i - mk)))%Q (fun i => squeeze c * squeeze c * (kw i * ((x i - mx) * (x i - mx))))%Q).
  2:{ intros i _. rewrite SM. unfold kx, squeezed, x. ring. }
  rewrite total_scale. unfold mass in *. field. exact MK.
Qed.
End Law.

(** ** Sign and linearity *)
Section More.
Variables (lf lk : Q * Q) (n : nat) (c : conv).
Hypothesis B : built lf lk n c.

(** Every point lies below the first position, above the last, or between two *)
Lemma locate x : (x <= position c 0)%Q \/ (position c (c_nf c - 1) <= x)%Q \/
  exists i, S i < c_nf c /\ (position c i <= x <= position c (S i))%Q.
Proof.
  assert (G : forall k, (x <= position c 0)%Q \/ (position c k <= x)%Q \/ exists i, i < k /\ (position c i <= x <= position c (S i))%Q).
  { induction k as [|k IH].
    - destruct (Qlt_le_dec x (position c 0)); [left; lra|right; left; assumption].
    - destruct IH as [H|[H|(i & Hi & H)]]; [auto| |right; right; exists i; split; [lia|exact H]].
      destruct (Qlt_le_dec x (position c (S k))); [|auto]. right. right. exists k. split; [lia|lra]. }
  destruct (built_facts _ _ _ _ B) as (O & N3 & NF & N6 & _).
  destruct (G (c_nf c - 1)) as [H|[H|(i & Hi & H)]]; auto. right. right. exists i. split; [lia|exact H].
Qed.

Lemma position_step i : (position c i < position c (S i))%Q.
Proof.
  destruct (built_facts _ _ _ _ B) as (O & N3 & NF & N6 & _). assert (P := spacing_pos (c_func c) (c_nf c) (func_width_pos _ _ _ _ B) ltac:(lia)).
  unfold position, node, qn. replace (Z.of_nat (S i)) with (Z.of_nat i + 1)%Z by lia. rewrite inject_Z_plus. change (inject_Z 1) with 1%Q. nra.
Qed.

Lemma pdf_pointwise x : exists i j t, i < c_nf c /\ j < c_nf c /\ (0 <= t <= 1)%Q /\
  forall func kernel, let v := conv_values func kernel c in (conv_pdf func kernel c x == (1 - t) * nth i v 0 + t * nth j v 0)%Q.
Proof.
  destruct (built_facts _ _ _ _ B) as (O & N3 & NF & N6 & _).
  destruct (locate x) as [H|[H|(i & Hi & H)]].
  - exists 0, 0, 0%Q. split; [lia|]. split; [lia|]. split; [lra|]. intros f k v. rewrite (proj1 (pdf_outside _ _ _ _ B f k x) H). fold v. ring.
  - exists (c_nf c - 1), (c_nf c - 1), 0%Q. split; [lia|]. split; [lia|]. split; [lra|]. intros f k v. rewrite (proj2 (pdf_outside _ _ _ _ B f k x) H). fold v. ring.
  - exists i, (S i), ((x - position c i) / (position c (S i) - position c i))%Q. split; [lia|]. split; [lia|]. assert (P := position_step i). split.
    + split; [apply Qle_shift_div_l; lra|apply Qle_shift_div_r; lra].
    + intros f k v. rewrite (pdf_between _ _ _ _ B f k i x Hi H). fold v. field. lra.
Qed.

Lemma values_nonneg func kernel i : respects func -> respects kernel -> (forall y, within (c_func c) y -> (0 <= func y)%Q) -> (forall t, within lk t -> (0 <= kernel t)%Q) ->
  i < c_nf c -> (0 <= nth i (conv_values func kernel c) 0)%Q.
Proof.
  intros FR KR FP KP Hi. destruct (built_facts _ _ _ _ B) as (O & N3 & NF & N6 & EK & _ & W & _).
  rewrite values_convolved; auto; try lia; [|rewrite EK; exact W|eapply func_width_pos; eauto].
  unfold convolved. apply total_nonneg. intros j Hj. cbv zeta. apply Qmult_le_0_compat.
  - apply KP. rewrite EK. assert (P := spacing_pos lk (c_nk c) W ltac:(lia)). unfold within. rewrite (last_node lk (c_nk c)) by lia.
    unfold node. assert (A : (0 <= qn j)%Q) by (unfold qn; change 0%Q with (inject_Z 0); rewrite <- Zle_Qle; lia).
    assert (A' : (qn j <= qn (c_nk c) - 1)%Q). { rewrite <- qn_pred by lia. unfold qn. rewrite <- Zle_Qle. lia. }
    split; nra.
  - unfold restricted. destruct (Qle_bool _ _ && Qle_bool _ _) eqn:E; [|lra]. apply FP. apply andb_true_iff in E. rewrite !Qle_bool_iff in E. exact E.
Qed.

Lemma values_linear a b f1 f2 kernel i : respects f1 -> respects f2 -> respects kernel -> i < c_nf c ->
  (nth i (conv_values (fun y => a * f1 y + b * f2 y) kernel c) 0 == a * nth i (conv_values f1 kernel c) 0 + b * nth i (conv_values f2 kernel c) 0)%Q.
Proof.
  intros R1 R2 KR Hi. destruct (built_facts _ _ _ _ B) as (O & N3 & NF & N6 & EK & _ & W & _).
  assert (R3 : respects (fun y => a * f1 y + b * f2 y)%Q) by (intros x y E; rewrite (R1 _ _ E), (R2 _ _ E); reflexivity).
  assert (WF := func_width_pos _ _ _ _ B). assert (WK : (0 < width (c_kernel c))%Q) by (rewrite EK; exact W).
  rewrite !values_convolved; auto; try lia.
  unfold convolved. rewrite <- !total_scale, <- total_plus. apply total_ext. intros j Hj. cbv zeta. unfold restricted.
  destruct (_ && _); ring.
Qed.
End More.
