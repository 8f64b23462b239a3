(** Filling histograms. *)
From Verif Require Import Base BaseLemmas Hist_Model Hist_Spec Hist_Proofs Hist_Proofs2.
From Coq Require Import Sorted Permutation Qround Lqa.
#[local] Open Scope nat_scope.

(** ** Sums *)
Lemma qsum_cons a l : (qsum (a :: l) = a + qsum l)%Q.
Proof. reflexivity. Qed.
Lemma qsum_app a b : (qsum (a ++ b) == qsum a + qsum b)%Q.
Proof. induction a as [|x a IH]; cbn [app]; rewrite ?qsum_cons; [cbn; ring|]. rewrite IH. ring. Qed.
Lemma qsum_ext {A} (f g : A -> Q) l :
  (forall x, In x l -> f x == g x)%Q -> (qsum (map f l) == qsum (map g l))%Q.
Proof.
  induction l as [|x l IH]; intros H; [reflexivity|]. cbn [map]. rewrite !qsum_cons.
  rewrite IH by (intros y Hy; apply H; right; exact Hy). rewrite (H x) by (left; reflexivity). reflexivity.
Qed.
Lemma qsum_plus {A} (f g : A -> Q) l :
  (qsum (map (fun x => f x + g x) l) == qsum (map f l) + qsum (map g l))%Q.
Proof. induction l as [|x l IH]; [cbn; ring|]. cbn [map]. rewrite !qsum_cons, IH. ring. Qed.
Lemma qsum_zero {A} (f : A -> Q) l : (forall x, In x l -> f x == 0)%Q -> (qsum (map f l) == 0)%Q.
Proof.
  induction l as [|x l IH]; intros H; [reflexivity|]. cbn [map]. rewrite qsum_cons.
  rewrite IH by (intros y Hy; apply H; right; exact Hy). rewrite (H x) by (left; reflexivity). ring.
Qed.
Lemma qsum_scale {A} (c : Q) (f : A -> Q) l : (qsum (map (fun x => c * f x) l) == c * qsum (map f l))%Q.
Proof. induction l as [|x l IH]; [cbn; ring|]. cbn [map]. rewrite !qsum_cons, IH. ring. Qed.
Lemma qsum_swap {A B} (f : A -> B -> Q) la lb :
  (qsum (map (fun a => qsum (map (f a) lb)) la) == qsum (map (fun b => qsum (map (fun a => f a b) la)) lb))%Q.
Proof.
  induction la as [|a la IH].
  - cbn [map]. rewrite qsum_zero; [reflexivity|]. intros; reflexivity.
  - cbn [map]. rewrite qsum_cons, IH. rewrite <- qsum_plus. apply qsum_ext. intros b _. reflexivity.
Qed.
(** A sum with one non-zero term. *)
Lemma qsum_pick {A} (dec : forall x y : A, {x = y} + {x <> y}) (f : A -> Q) l a :
  NoDup l -> In a l -> (qsum (map (fun x => if dec x a then f x else 0) l) == f a)%Q.
Proof.
  induction l as [|x l IH]; intros N I; [destruct I|]. inversion N as [|? ? N1 N2]; subst. cbn [map]. rewrite qsum_cons.
  destruct (dec x a) as [E|E].
  - subst x. rewrite qsum_zero; [ring|]. intros y Hy. destruct (dec y a) as [Ey|Ey]; [subst; contradiction|reflexivity].
  - destruct I as [I|I]; [contradiction|]. rewrite IH by assumption. ring.
Qed.

(** ** Indices of a shape *)
Lemma indices_in shape idx : In idx (indices shape) <-> in_shape idx shape.
Proof.
  unfold in_shape. revert idx. induction shape as [|n r IH]; intros idx; cbn [indices].
  - split; [intros [H|[]]; subst; constructor|intros H; inversion H; left; reflexivity].
  - rewrite in_flat_map. split.
    + intros [i [Hi H]]. apply in_seq in Hi. apply in_map_iff in H. destruct H as [s [E Hs]]. subst idx.
      constructor; [lia|]. apply IH. exact Hs.
    + intros H. inversion H as [|i ? s ? Hi Hs]; subst. exists i. split; [apply in_seq; lia|].
      apply in_map. apply IH. exact Hs.
Qed.

Lemma NoDup_app_intro {A} (a b : list A) :
  NoDup a -> NoDup b -> (forall x, In x a -> ~ In x b) -> NoDup (a ++ b).
Proof.
  induction a as [|x a IH]; intros Ha Hb H; [exact Hb|]. inversion Ha as [|? ? N1 N2]; subst. cbn. constructor.
  - rewrite in_app_iff. intros [H1|H1]; [contradiction|]. apply (H x (or_introl eq_refl) H1).
  - apply IH; [exact N2|exact Hb|]. intros y Hy. apply H. right. exact Hy.
Qed.

Lemma indices_nodup shape : NoDup (indices shape).
Proof.
  induction shape as [|n r IH]; cbn [indices]; [repeat constructor; intros []|].
  assert (A : forall l, NoDup l -> NoDup (flat_map (fun i => map (cons i) (indices r)) l)).
  { induction l as [|i l IHl]; intros N; [constructor|]. inversion N as [|? ? N1 N2]; subst. cbn [flat_map].
    apply NoDup_app_intro.
    - apply FinFun.Injective_map_NoDup; [|exact IH]. intros a b E. congruence.
    - apply IHl, N2.
    - intros x Hx Hy. apply in_map_iff in Hx. destruct Hx as [s [E _]]. subst x.
      apply in_flat_map in Hy. destruct Hy as [j [Hj Hs]]. apply in_map_iff in Hs. destruct Hs as [s' [E' _]].
      congruence. }
  apply A, seq_NoDup.
Qed.

(** ** One axis *)
Lemma Qlt_bool_iff a b : Qlt_bool a b = true <-> (a < b)%Q.
Proof.
  unfold Qlt_bool. rewrite negb_true_iff. split.
  - intros H. apply Qnot_le_lt. intros L. apply Qle_bool_iff in L. congruence.
  - intros H. destruct (Qle_bool b a) eqn:E; [|reflexivity]. apply Qle_bool_iff in E. lra.
Qed.

Lemma ub_below edges x i e :
  nth_error edges i = Some e -> i < upper_bound edges x -> (e <= x)%Q.
Proof.
  revert i. induction edges as [|a r IH]; intros i H L; [destruct i; discriminate|]. cbn [upper_bound] in L.
  destruct (Qle_bool a x) eqn:E; [|lia]. apply Qle_bool_iff in E.
  destruct i as [|i]; cbn in H; [congruence|]. apply (IH i H). lia.
Qed.
Lemma ub_above edges x e : nth_error edges (upper_bound edges x) = Some e -> (x < e)%Q.
Proof.
  induction edges as [|a r IH]; intros H; [discriminate|]. cbn [upper_bound] in H.
  destruct (Qle_bool a x) eqn:E; [apply IH; exact H|]. cbn in H. injection H as H. subst e.
  apply Qnot_le_lt. intros L. apply Qle_bool_iff in L. congruence.
Qed.
Lemma ub_le edges x : upper_bound edges x <= length edges.
Proof. induction edges as [|a r IH]; cbn; [lia|]. destruct (Qle_bool a x); lia. Qed.

Lemma increasing_nth edges i j a b :
  increasing edges -> i < j -> nth_error edges i = Some a -> nth_error edges j = Some b -> (a < b)%Q.
Proof.
  intros S. revert i j. induction S as [|x l S IH F]; intros i j H Ha Hb; [destruct i; discriminate|].
  destruct j as [|j]; [lia|]. cbn in Hb. destruct i as [|i]; cbn in Ha.
  - injection Ha as Ha. subst a. rewrite Forall_forall in F. apply F. apply nth_error_In with j. exact Hb.
  - apply (IH i j); [lia|exact Ha|exact Hb].
Qed.

Lemma last_nth (l : list Q) : l <> [] -> nth_error l (length l - 1) = Some (last l 0%Q).
Proof.
  intros H. rewrite (app_removelast_last 0%Q H) at 1. rewrite nth_error_app2.
  - assert (L : length (removelast l) = length l - 1).
    { assert (E := f_equal (@length Q) (app_removelast_last 0%Q H)). rewrite app_length in E. cbn in E. lia. }
    rewrite L, Nat.sub_diag. reflexivity.
  - assert (E := f_equal (@length Q) (app_removelast_last 0%Q H)). rewrite app_length in E. cbn in E. lia.
Qed.

Lemma in_bin_iff closed edges k x :
  in_bin closed edges k x = true <->
  exists lo hi, nth_error edges k = Some lo /\ nth_error edges (S k) = Some hi /\ (lo <= x)%Q /\
    ((x < hi)%Q \/ (closed = true /\ S (S k) = length edges /\ (x == hi)%Q)).
Proof.
  unfold in_bin. destruct (nth_error edges k) as [lo|], (nth_error edges (S k)) as [hi|].
  2-4: split; [discriminate|intros (?&?&?&?&_); discriminate].
  rewrite andb_true_iff, orb_true_iff, !andb_true_iff, Qle_bool_iff, Qlt_bool_iff, Nat.eqb_eq, Qeq_bool_iff.
  split.
  - intros [H1 H2]. exists lo, hi. repeat (split; [reflexivity|]). split; [exact H1|]. tauto.
  - intros (lo'&hi'&E1&E2&H1&H2). injection E1 as <-. injection E2 as <-. split; [exact H1|]. tauto.
Qed.

Lemma in_bin_lt closed edges k x : in_bin closed edges k x = true -> k < length edges - 1.
Proof.
  intros H. apply in_bin_iff in H. destruct H as (lo&hi&_&E&_).
  assert (S k < length edges) by (apply nth_error_Some; congruence). lia.
Qed.

Lemma in_bin_unique closed edges k k' x :
  increasing edges -> in_bin closed edges k x = true -> in_bin closed edges k' x = true -> k = k'.
Proof.
  intros S.
  assert (A : forall k k', k < k' -> in_bin closed edges k x = true -> in_bin closed edges k' x = true -> False).
  { clear k k'. intros k k' L H H'. pose proof (in_bin_lt _ _ _ _ H') as L'.
    apply in_bin_iff in H, H'. destruct H as (lo&hi&E1&E2&H1&H2), H' as (lo'&hi'&E1'&E2'&H1'&_).
    assert (hi <= lo')%Q.
    { destruct (Nat.eq_dec (Datatypes.S k) k') as [E|E]; [subst; rewrite E1' in E2; injection E2 as <-; lra|].
      apply Qlt_le_weak. apply (increasing_nth edges (Datatypes.S k) k'); try assumption; lia. }
    destruct H2 as [H2|[_ [H2 _]]]; [lra|lia]. }
  intros H H'. destruct (Nat.lt_trichotomy k k') as [L|[L|L]]; [|exact L|]; exfalso; [apply (A k k')|apply (A k' k)]; assumption.
Qed.

Lemma axis_index_sound closed edges x k :
  increasing edges -> axis_index closed edges x = Some k -> in_bin closed edges k x = true.
Proof.
  intros S. unfold axis_index. destruct (closed && Nat.ltb 0 (length edges - 1) && Qeq_bool x (last edges 0%Q)) eqn:C.
  - intros H. injection H as H. apply andb_true_iff in C as [C C3]. apply andb_true_iff in C as [C1 C2].
    apply Nat.ltb_lt in C2. apply Qeq_bool_iff in C3. apply in_bin_iff. subst k.
    assert (NE : edges <> []) by (destruct edges; [cbn in C2; lia|discriminate]).
    pose proof (last_nth edges NE) as LN.
    destruct (nth_error edges (length edges - 1 - 1)) as [lo|] eqn:E; [|apply nth_error_None in E; lia].
    exists lo, (last edges 0%Q). replace (Datatypes.S (length edges - 1 - 1)) with (length edges - 1) by lia.
    split; [reflexivity|split; [exact LN|split]].
    + assert (lo < last edges 0)%Q by (apply (increasing_nth edges (length edges - 1 - 1) (length edges - 1)); try assumption; lia). lra.
    + right. split; [exact C1|split; [lia|exact C3]].
  - destruct (upper_bound edges x) as [|u] eqn:U; [discriminate|].
    destruct (Nat.ltb u (length edges - 1)) eqn:L; [|discriminate]. intros H. injection H as H. subst u.
    apply Nat.ltb_lt in L. apply in_bin_iff.
    destruct (nth_error edges k) as [lo|] eqn:E1; [|apply nth_error_None in E1; lia].
    destruct (nth_error edges (Datatypes.S k)) as [hi|] eqn:E2; [|apply nth_error_None in E2; lia].
    exists lo, hi. repeat (split; [reflexivity|]). split.
    + apply (ub_below edges x k lo E1). lia.
    + left. apply (ub_above edges x hi). rewrite U. exact E2.
Qed.

Lemma axis_index_complete closed edges x k :
  increasing edges -> in_bin closed edges k x = true -> axis_index closed edges x = Some k.
Proof.
  intros S H. destruct (axis_index closed edges x) as [k'|] eqn:E.
  - apply axis_index_sound in E; [|exact S]. f_equal. apply (in_bin_unique closed edges k' k x S E H).
  - exfalso. unfold axis_index in E.
    destruct (closed && Nat.ltb 0 (length edges - 1) && Qeq_bool x (last edges 0%Q)) eqn:C; [discriminate|].
    apply in_bin_iff in H. destruct H as (lo&hi&E1&E2&H1&H2).
    assert (LK : Datatypes.S k < length edges) by (apply nth_error_Some; congruence).
    destruct H2 as [H2|[Hc [Hk Hx]]].
    + pose proof (ub_le edges x) as UL.
      assert (U1 : k < upper_bound edges x).
      { destruct (Nat.lt_ge_cases k (upper_bound edges x)) as [L|L]; [exact L|].
        destruct (nth_error edges (upper_bound edges x)) as [e|] eqn:Ee; [|apply nth_error_None in Ee; lia].
        pose proof (ub_above edges x e Ee).
        destruct (Nat.eq_dec (upper_bound edges x) k) as [EK|EK]; [rewrite EK in Ee; rewrite E1 in Ee; injection Ee as <-; lra|].
        assert (e < lo)%Q by (apply (increasing_nth edges (upper_bound edges x) k); try assumption; lia). lra. }
      assert (U2 : upper_bound edges x <= Datatypes.S k).
      { destruct (Nat.lt_ge_cases (Datatypes.S k) (upper_bound edges x)) as [L|L]; [|exact L].
        pose proof (ub_below edges x _ hi E2 L). lra. }
      destruct (upper_bound edges x) as [|u]; [lia|]. assert (u = k) by lia. subst u.
      destruct (Nat.ltb k (length edges - 1)) eqn:L; [discriminate|]. apply Nat.ltb_ge in L. lia.
    + assert (NE : edges <> []) by (destruct edges; [cbn in LK; lia|discriminate]).
      pose proof (last_nth edges NE) as LN. replace (length edges - 1) with (Datatypes.S k) in LN by lia.
      rewrite E2 in LN. injection LN as LN. subst hi closed.
      apply Qeq_bool_iff in Hx. rewrite Hx in C.
      replace (Nat.ltb 0 (length edges - 1)) with true in C by (symmetry; apply Nat.ltb_lt; lia). discriminate.
Qed.

Lemma axis_index_iff closed edges x k :
  increasing edges -> axis_index closed edges x = Some k <-> in_bin closed edges k x = true.
Proof. intros S. split; [apply axis_index_sound, S|apply axis_index_complete, S]. Qed.

(** In range exactly when in a bin. *)
Lemma in_range_bin closed edges x :
  increasing edges -> in_range closed edges x = true <-> exists k, in_bin closed edges k x = true.
Proof.
  intros S. unfold in_range. rewrite !andb_true_iff, orb_true_iff, andb_true_iff, Nat.ltb_lt, Qle_bool_iff, Qlt_bool_iff, Qeq_bool_iff.
  destruct edges as [|e0 r]; [split; [cbn; intros [[H _] _]; lia|intros [k H]; apply in_bin_lt in H; cbn in H; lia]|].
  set (edges := e0 :: r) in *. assert (NE : edges <> []) by discriminate. pose proof (last_nth edges NE) as LN.
  change (hd 0%Q edges) with e0. assert (E0 : nth_error edges 0 = Some e0) by reflexivity. clearbody edges. split.
  - intros [[L1 L2] L3].
    destruct L3 as [L3|[Hc Hx]].
    + pose proof (ub_le edges x) as UL.
      destruct (upper_bound edges x) as [|u] eqn:U.
      { pose proof (ub_above edges x e0) as A. rewrite U in A. specialize (A E0). lra. }
      assert (LU : Datatypes.S u < length edges).
      { destruct (Nat.lt_ge_cases (Datatypes.S u) (length edges)) as [L|L]; [exact L|].
        pose proof (ub_below edges x (length edges - 1) _ LN). rewrite U in H. specialize (H ltac:(lia)). lra. }
      exists u. apply in_bin_iff.
      destruct (nth_error edges u) as [lo|] eqn:E1; [|apply nth_error_None in E1; lia].
      destruct (nth_error edges (Datatypes.S u)) as [hi|] eqn:E2; [|apply nth_error_None in E2; lia].
      exists lo, hi. repeat (split; [reflexivity|]). split; [apply (ub_below edges x u lo E1); lia|].
      left. apply (ub_above edges x hi). rewrite U. exact E2.
    + exists (length edges - 1 - 1). apply in_bin_iff.
      destruct (nth_error edges (length edges - 1 - 1)) as [lo|] eqn:E; [|apply nth_error_None in E; lia].
      exists lo, (last edges 0%Q). replace (Datatypes.S (length edges - 1 - 1)) with (length edges - 1) by lia.
      split; [reflexivity|split; [exact LN|split]].
      * assert (lo < last edges 0)%Q by (apply (increasing_nth edges (length edges - 1 - 1) (length edges - 1)); try assumption; lia). lra.
      * right. split; [exact Hc|split; [lia|exact Hx]].
  - intros [k H]. pose proof (in_bin_lt _ _ _ _ H) as LK. apply in_bin_iff in H. destruct H as (lo&hi&E1&E2&H1&H2).
    split; [split; [lia|]|].
    + destruct k as [|k]; [rewrite E0 in E1; injection E1 as <-; exact H1|].
      assert (e0 < lo)%Q by (apply (increasing_nth edges 0 (Datatypes.S k)); try assumption; lia). lra.
    + destruct H2 as [H2|[Hc [Hk Hx]]].
      * left. destruct (Nat.eq_dec (Datatypes.S k) (length edges - 1)) as [E|E].
        -- rewrite E in E2. rewrite LN in E2. injection E2 as <-. exact H2.
        -- assert (hi < last edges 0)%Q by (apply (increasing_nth edges (Datatypes.S k) (length edges - 1)); try assumption; lia). lra.
      * right. split; [exact Hc|]. replace (length edges - 1) with (Datatypes.S k) in LN by lia.
        rewrite E2 in LN. injection LN as LN. subst hi. exact Hx.
Qed.

(** ** Rows *)
Lemma row_index_iff closed edges row idx :
  Forall increasing edges -> length row = length edges ->
  row_index closed edges row = Some idx <->
  (length idx = length edges /\
   forall k e x i, nth_error edges k = Some e -> nth_error row k = Some x -> nth_error idx k = Some i ->
     in_bin closed e i x = true).
Proof.
  revert row idx. induction edges as [|e edges IH]; intros [|x row] idx HF L; try discriminate.
  - cbn. split.
    + intros H. injection H as H. subst idx. split; [reflexivity|]. intros k. destruct k; discriminate.
    + intros [H _]. destruct idx; [reflexivity|discriminate].
  - inversion HF as [|? ? HI HF']; subst. injection L as L.
    unfold row_index. cbn [combine map all_some fst snd]. fold (row_index closed edges row).
    destruct (axis_index closed e x) as [i|] eqn:E.
    + apply axis_index_iff in E; [|exact HI].
      destruct (row_index closed edges row) as [r|] eqn:ER.
      * destruct (proj1 (IH row r HF' L) ER) as [L1 A]. split.
        -- intros H. injection H as H. subst idx. split; [cbn; congruence|].
           intros [|k] e' x' i' H1 H2 H3; cbn in *; [congruence|]. apply (A k); assumption.
        -- intros [L2 B]. destruct idx as [|i' idx]; [discriminate|].
           assert (i' = i) by (apply (in_bin_unique closed e i' i x HI); [apply (B 0); reflexivity|exact E]). subst i'.
           assert (Some r = Some idx); [|congruence]. rewrite <- ER. apply IH; [exact HF'|exact L|].
           split; [cbn in L2; congruence|]. intros k e' x' i' H1 H2 H3. apply (B (S k)); assumption.
      * split; [discriminate|]. intros [L2 B]. destruct idx as [|i' idx]; [discriminate|].
        assert (@None (list nat) = Some idx); [|discriminate]. rewrite <- ER. apply IH; [exact HF'|exact L|].
        split; [cbn in L2; congruence|]. intros k e' x' j H1 H2 H3. apply (B (S k)); assumption.
    + split; [discriminate|]. intros [L2 B]. destruct idx as [|i' idx]; [discriminate|].
      assert (H : in_bin closed e i' x = true) by (apply (B 0); reflexivity).
      apply axis_index_iff in H; [|exact HI]. congruence.
Qed.

Lemma row_index_shape closed edges row idx :
  Forall increasing edges -> length row = length edges -> row_index closed edges row = Some idx ->
  in_shape idx (map (fun e => length e - 1) edges).
Proof.
  intros HF L H. apply row_index_iff in H; [|exact HF|exact L]. destruct H as [LI A].
  unfold in_shape. revert row idx L LI A. induction edges as [|e edges IH]; intros [|x row] [|i idx] L LI A; try discriminate; [constructor|].
  inversion HF; subst. cbn. constructor.
  - apply (in_bin_lt closed e i x). apply (A 0); reflexivity.
  - apply (IH H2 row); [cbn in L; congruence|cbn in LI; congruence|]. intros k e' x' i' H3 H4 H5. apply (A (S k)); assumption.
Qed.

(** ** The fill *)
Definition hit (closed : bool) (edges : list (list Q)) (idx : list nat) (row : list Q) : bool :=
  match row_index closed edges row with Some i => shape_eqb idx i | None => false end.

Lemma fill_get closed edges evs st idx :
  (fst (fold_left (fill1 closed edges) evs st) idx
   == fst st idx + qsum (map (fun ev => if hit closed edges idx (fst ev) then snd ev else 0) evs))%Q /\
  (snd (fold_left (fill1 closed edges) evs st) idx
   == snd st idx + qsum (map (fun ev => if hit closed edges idx (fst ev) then snd ev * snd ev else 0) evs))%Q.
Proof.
  revert st. induction evs as [|ev evs IH]; intros st; [cbn; split; ring|].
  cbn [fold_left map]. rewrite !qsum_cons. destruct (IH (fill1 closed edges st ev)) as [A B]. rewrite A, B. clear A B IH.
  change (hit closed edges idx (fst ev)) with
    (match row_index closed edges (fst ev) with Some i => shape_eqb idx i | None => false end).
  unfold fill1. destruct (row_index closed edges (fst ev)) as [i|]; cbn [fst snd].
  - unfold add_at. destruct (shape_eqb idx i); split; ring.
  - split; ring.
Qed.

Lemma hit_total closed edges (g : Q -> Q) evs :
  Forall increasing edges -> Forall (fun ev => length (fst ev) = length edges) evs ->
  (qsum (map (fun idx => qsum (map (fun ev : list Q * Q => if hit closed edges idx (fst ev) then g (snd ev) else 0) evs))
        (indices (map (fun e => length e - 1)%nat edges)))
   == qsum (map (fun ev => if match row_index closed edges (fst ev) with Some _ => true | None => false end
                           then g (snd ev) else 0) evs))%Q.
Proof.
  intros HF HL. rewrite qsum_swap. apply qsum_ext. intros ev Hev. rewrite Forall_forall in HL. specialize (HL _ Hev).
  unfold hit. destruct (row_index closed edges (fst ev)) as [i|] eqn:E.
  - rewrite (qsum_ext _ (fun x => if list_eq_dec Nat.eq_dec x i then g (snd ev) else 0%Q)).
    + apply (qsum_pick (list_eq_dec Nat.eq_dec) (fun _ => g (snd ev))); [apply indices_nodup|].
      apply indices_in. apply (row_index_shape closed edges (fst ev)); assumption.
    + intros x _. destruct (list_eq_dec Nat.eq_dec x i) as [Ex|Ex].
      * subst. rewrite shape_eqb_refl. reflexivity.
      * destruct (shape_eqb x i) eqn:S; [apply shape_eqb_eq in S; contradiction|reflexivity].
  - apply qsum_zero. intros; reflexivity.
Qed.
