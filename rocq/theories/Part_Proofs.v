(** Lemmas about iterated integrals. *)
From Coq Require Import Permutation.
From Verif Require Import Base BaseLemmas Part_Model Part_Spec.
Open Scope string_scope.
Open Scope list_scope.

Lemma smem_In o l : mem String.eqb o l = true <-> In o l.
Proof. apply (mem_In _ string_eqb_ok). Qed.
Lemma smem_false o l : mem String.eqb o l = false <-> ~ In o l.
Proof. rewrite <- smem_In. destruct (mem String.eqb o l); split; intros; congruence. Qed.

Section I.
Context (I : interval -> (Q -> Q) -> Q) (OK : integral_ok I).
Notation Int := (Int I).
Notation Ints := (Ints I).

Lemma I_ext l f g : (forall t, f t == g t)%Q -> (I l f == I l g)%Q.
Proof. destruct OK as (H & _). apply H. Qed.
Lemma I_add l f g : (I l (fun t => f t + g t) == I l f + I l g)%Q.
Proof. destruct OK as (_ & H & _). apply H. Qed.
Lemma I_scal l c f : (I l (fun t => c * f t) == c * I l f)%Q.
Proof. destruct OK as (_ & _ & H & _). apply H. Qed.
Lemma I_swap l m f : (I l (fun s => I m (fun t => f s t)) == I m (fun t => I l (fun s => f s t)))%Q.
Proof. destruct OK as (_ & _ & _ & H). apply H. Qed.

Lemma upd_same x o t : upd x o t o = t.
Proof. unfold upd. now rewrite String.eqb_refl. Qed.
Lemma upd_other x o t o' : o' <> o -> upd x o t o' = x o'.
Proof. intros H. unfold upd. apply String.eqb_neq in H. now rewrite H. Qed.

Lemma Int_ext b f g x : (forall y, f y == g y)%Q -> (Int b f x == Int b g x)%Q.
Proof.
  intros H. revert x. induction b as [|[o l] b IH]; intros x; cbn; [apply H|].
  apply I_ext. intros t. apply IH.
Qed.
Lemma Int_scal b c f x : (Int b (fun y => c * f y) x == c * Int b f x)%Q.
Proof.
  revert x. induction b as [|[o l] b IH]; intros x; cbn; [reflexivity|].
  rewrite <- I_scal. apply I_ext. intros t. apply IH.
Qed.
Lemma Int_add b f g x : (Int b (fun y => f y + g y) x == Int b f x + Int b g x)%Q.
Proof.
  revert x. induction b as [|[o l] b IH]; intros x; cbn; [reflexivity|].
  rewrite <- I_add. apply I_ext. intros t. apply IH.
Qed.
Lemma Int_zero b x : (Int b (fun _ => 0) x == 0)%Q.
Proof.
  rewrite (Int_ext b _ (fun y => 0 * 0)%Q x) by (intros; ring). rewrite Int_scal. ring.
Qed.
Lemma Int_sum {A} b (l : list A) (f : A -> point -> Q) x :
  (Int b (fun y => sumQ (map (fun a => f a y) l)) x == sumQ (map (fun a => Int b (f a) x) l))%Q.
Proof.
  induction l as [|a l IH]; cbn [map sumQ fold_right]; [apply Int_zero|].
  rewrite (Int_add b (f a) (fun y => sumQ (map (fun a0 => f a0 y) l))). now rewrite IH.
Qed.

Lemma Int_depends b f x y obs : depends obs f ->
  (forall o, In o obs -> ~ In o (box_obs b) -> x o == y o)%Q -> (Int b f x == Int b f y)%Q.
Proof.
  intros D. revert x y. induction b as [|[o l] b IH]; intros x y H; cbn.
  - apply D. intros o I0. apply H; auto.
  - apply I_ext. intros t. apply IH. intros o' I0 N. unfold upd. destruct (String.eqb o' o) eqn:E; [reflexivity|].
    apply H; auto. apply String.eqb_neq in E. cbn. intuition.
Qed.
(** the integral depends on the other observables only *)
Lemma Int_depends_rest b f obs : depends obs f ->
  depends (filter (fun o => negb (mem String.eqb o (box_obs b))) obs) (Int b f).
Proof.
  intros D x y H. apply (Int_depends b f x y obs D). intros o I0 N. apply H. apply filter_In.
  split; [auto|]. apply smem_false in N. now rewrite N.
Qed.

Lemma Int_app a b f x : (Int (a ++ b) f x == Int a (Int b f) x)%Q.
Proof.
  revert x. induction a as [|[o l] a IH]; intros x; [reflexivity|]. cbn. apply I_ext. intros t. apply IH.
Qed.

Lemma Int_perm b b' f x obs : depends obs f -> Permutation b b' -> NoDup (box_obs b) ->
  (Int b f x == Int b' f x)%Q.
Proof.
  intros D P. revert x. induction P as [|[o l] b b' P IH|[o l] [o' l'] b|b b' b'' P1 IH1 P2 IH2]; intros x ND.
  - reflexivity.
  - cbn. apply I_ext. intros t. apply IH. now inversion ND.
  - cbn. rewrite I_swap. apply I_ext. intros t. apply I_ext. intros s.
    apply (Int_depends b f _ _ obs D). intros o2 _ _. unfold upd.
    destruct (String.eqb o2 o) eqn:E1, (String.eqb o2 o') eqn:E2; try reflexivity.
    apply String.eqb_eq in E1, E2. subst. cbn in ND. inversion ND. cbn in *. tauto.
  - rewrite IH1 by auto. apply IH2. unfold box_obs in *. apply (Permutation_NoDup (Permutation_map fst P1) ND).
Qed.

(** ** A part of a box *)
Lemma in_sub o l obs b : In (o, l) (sub obs b) <-> In o obs /\ lookup String.eqb o b = Some l.
Proof.
  unfold sub. rewrite in_flat_map. split.
  - intros (o' & I1 & I2). destruct (lookup String.eqb o' b) as [l'|] eqn:E; [|destruct I2].
    destruct I2 as [I2|[]]. injection I2 as -> ->. auto.
  - intros (I1 & E). exists o. rewrite E. split; [auto|now left].
Qed.
Lemma lookup_In_box o l b : NoDup (box_obs b) -> (lookup String.eqb o b = Some l <-> In (o, l) b).
Proof.
  induction b as [|[o' l'] b IH]; intros ND; cbn; [split; [discriminate|tauto]|].
  inversion ND as [|? ? N1 N2]; subst. destruct (String.eqb o o') eqn:E.
  - apply String.eqb_eq in E. subst. split.
    + intros H. injection H as ->. now left.
    + intros [H|H]; [now injection H as ->|]. exfalso. apply N1. apply in_map_iff. exists (o', l). auto.
  - rewrite (IH N2). apply String.eqb_neq in E. split; [tauto|]. intros [H|H]; [|auto]. injection H as -> ->. congruence.
Qed.
Lemma lookup_box o b : (exists l, lookup String.eqb o b = Some l) <-> In o (box_obs b).
Proof.
  induction b as [|[o' l'] b IH]; cbn; [split; [intros [? H]; discriminate|tauto]|].
  destruct (String.eqb o o') eqn:E.
  - apply String.eqb_eq in E. subst. split; eauto.
  - apply String.eqb_neq in E. rewrite IH. split; [tauto|]. intros [H|H]; [congruence|auto].
Qed.
Lemma box_sub o obs b : In o (box_obs (sub obs b)) <-> In o obs /\ In o (box_obs b).
Proof.
  unfold box_obs at 1. rewrite in_map_iff. split.
  - intros ([o' l] & <- & I0). apply in_sub in I0. cbn. split; [tauto|]. apply lookup_box. exists l. tauto.
  - intros (I1 & I2). apply lookup_box in I2. destruct I2 as (l & E). exists (o, l). split; [auto|].
    apply in_sub. auto.
Qed.
Lemma nodup_sub obs b : NoDup obs -> NoDup (box_obs (sub obs b)).
Proof.
  intros ND. induction ND as [|o obs N ND IH]; [constructor|]. unfold sub. cbn [flat_map].
  destruct (lookup String.eqb o b) as [l|] eqn:E; [|exact IH]. cbn. constructor; [|exact IH].
  intros H. apply box_sub in H. tauto.
Qed.
Lemma nodup_keys (b : box) : NoDup (box_obs b) -> NoDup b.
Proof. apply NoDup_map_inv. Qed.
Lemma sub_perm obs b : NoDup obs -> NoDup (box_obs b) ->
  Permutation (sub obs b) (filter (fun ol => mem String.eqb (fst ol) obs) b).
Proof.
  intros N1 N2. apply NoDup_Permutation.
  - apply nodup_keys, nodup_sub, N1.
  - apply NoDup_filter, nodup_keys, N2.
  - intros [o l]. rewrite in_sub, filter_In, lookup_In_box by auto. cbn. rewrite smem_In. tauto.
Qed.
Lemma sub_perm_all obs b : NoDup obs -> NoDup (box_obs b) -> (forall o, In o (box_obs b) -> In o obs) ->
  Permutation (sub obs b) b.
Proof.
  intros N1 N2 H. rewrite sub_perm by auto. clear N2. induction b as [|[o l] b IH]; cbn; [constructor|].
  rewrite (proj2 (smem_In o obs)) by (apply H; now left). constructor. apply IH. intros o' I0. apply H. now right.
Qed.
Lemma lookup_sub o obs b : In o obs -> lookup String.eqb o (sub obs b) = lookup String.eqb o b.
Proof.
  induction obs as [|a obs IH]; intros H; [destruct H|]. unfold sub in *. cbn [flat_map].
  destruct (String.eqb o a) eqn:E.
  - apply String.eqb_eq in E. subst a. destruct (lookup String.eqb o b) as [l|] eqn:L.
    + cbn. now rewrite String.eqb_refl.
    + cbn. destruct (in_dec string_dec o obs) as [I0|N]; [now rewrite IH by auto|].
      assert (Z : ~ In o (box_obs (sub obs b))) by (rewrite box_sub; tauto).
      destruct (lookup String.eqb o (flat_map _ obs)) eqn:L2; [|reflexivity].
      exfalso. apply Z. apply lookup_box. unfold sub. eauto.
  - assert (H' : In o obs).
    { destruct H as [->|H]; [now rewrite String.eqb_refl in E|auto]. }
    destruct (lookup String.eqb a b); cbn; [rewrite E|]; now apply IH.
Qed.
Lemma sub_sub obs obs' b : (forall o, In o obs' -> In o obs) -> sub obs' (sub obs b) = sub obs' b.
Proof.
  intros H. induction obs' as [|o obs' IH]; [reflexivity|]. unfold sub at 1 3. cbn [flat_map].
  rewrite lookup_sub by (apply H; now left). f_equal. apply IH. intros o' I0. apply H. now right.
Qed.

(** ** Products *)
Definition disj (a b : list string) : Prop := forall o, In o a -> ~ In o b.
Lemma Int_mult A B f g b x : depends A f -> depends B g -> disj A B ->
  (forall o, In o (box_obs b) -> In o A \/ In o B) ->
  (Int b (fun y => f y * g y) x
   == Int (filter (fun ol => mem String.eqb (fst ol) A) b) f x
      * Int (filter (fun ol => mem String.eqb (fst ol) B) b) g x)%Q.
Proof.
  intros DA DB DI. revert x. induction b as [|[o l] b IH]; intros x H; cbn; [reflexivity|].
  assert (H' : forall o0, In o0 (box_obs b) -> In o0 A \/ In o0 B) by (intros o0 I0; apply H; now right).
  destruct (H o (or_introl eq_refl)) as [IA|IB].
  - rewrite (proj2 (smem_In o A) IA). assert (NB : ~ In o B) by (apply DI, IA).
    rewrite (proj2 (smem_false o B) NB). cbn.
    rewrite Qmult_comm, <- I_scal. apply I_ext. intros t. rewrite IH by auto.
    rewrite (Int_depends _ g (upd x o t) x B DB).
    + ring.
    + intros o' I' _. rewrite upd_other by congruence. reflexivity.
  - assert (NA : ~ In o A) by (intros IA; exact (DI o IA IB)).
    rewrite (proj2 (smem_In o B) IB), (proj2 (smem_false o A) NA). cbn.
    rewrite <- I_scal. apply I_ext. intros t. rewrite IH by auto.
    rewrite (Int_depends _ f (upd x o t) x A DA).
    + ring.
    + intros o' I' _. rewrite upd_other by congruence. reflexivity.
Qed.

Lemma filter_filter_sub (A B : list string) (b : box) :
  (forall o, In o A -> In o B) ->
  filter (fun ol => mem String.eqb (fst ol) A) (filter (fun ol => mem String.eqb (fst ol) B) b)
  = filter (fun ol : string * interval => mem String.eqb (fst ol) A) b.
Proof.
  intros H. induction b as [|[o l] b IH]; cbn; [reflexivity|].
  destruct (mem String.eqb o B) eqn:EB; cbn; rewrite IH; [reflexivity|].
  assert (mem String.eqb o A = false) as -> by (apply smem_false; intros I0; apply smem_false in EB; auto).
  reflexivity.
Qed.
Lemma depends_prod (cs : list (list string * (point -> Q))) :
  Forall (fun c => depends (fst c) (snd c)) cs ->
  depends (flat_map fst cs) (fun y => prodQ (map (fun c => snd c y) cs)).
Proof.
  induction 1 as [|c cs D F IH]; intros x y H; cbn; [reflexivity|].
  rewrite (D x y), (IH x y); [reflexivity| |].
  - intros o I0. apply H. cbn. apply in_or_app. auto.
  - intros o I0. apply H. cbn. apply in_or_app. auto.
Qed.
Lemma Int_prod (cs : list (list string * (point -> Q))) b x :
  Forall (fun c => NoDup (fst c) /\ depends (fst c) (snd c)) cs ->
  ForallOrdPairs (fun c d => disj (fst c) (fst d)) cs ->
  NoDup (box_obs b) -> (forall o, In o (box_obs b) -> In o (flat_map fst cs)) ->
  (Int b (fun y => prodQ (map (fun c => snd c y) cs)) x
   == prodQ (map (fun c => Int (sub (fst c) b) (snd c) x) cs))%Q.
Proof.
  intros F P ND. revert b ND. induction cs as [|[A f] cs IH]; intros b ND H; cbn [map prodQ fold_right].
  - destruct b as [|[o l] b]; [reflexivity|]. destruct (H o (or_introl eq_refl)).
  - inversion F as [|? ? [NA DA] F']; subst. inversion P as [|? ? PD P']; subst. cbn [fst snd] in *.
    set (B := flat_map fst cs) in *.
    assert (DB : depends B (fun y => prodQ (map (fun c => snd c y) cs))).
    { apply depends_prod. apply Forall_impl with (2 := F'). tauto. }
    assert (DI : disj A B).
    { intros o IA IB. apply in_flat_map in IB. destruct IB as (c & Ic & Io).
      rewrite Forall_forall in PD. exact (PD c Ic o IA Io). }
    change (fold_right Qmult 1%Q) with prodQ.
    rewrite (Int_mult A B f (fun y => prodQ (map (fun c => snd c y) cs)) b x DA DB DI).
    2:{ intros o I0. specialize (H o I0). cbn in H. apply in_app_or in H. exact H. }
    rewrite IH.
    + assert (E1 : (Int (filter (fun ol => mem String.eqb (fst ol) A) b) f x == Int (sub A b) f x)%Q).
      { symmetry. apply (Int_perm _ _ f x A DA); [now apply sub_perm|now apply nodup_sub]. }
      rewrite E1. apply Qmult_comp; [reflexivity|].
      assert (M : forall l : list (list string * (point -> Q)), (forall c, In c l -> In c cs) ->
        (prodQ (map (fun c => Int (sub (fst c) (filter (fun ol => mem String.eqb (fst ol) B) b)) (snd c) x) l)
         == prodQ (map (fun c => Int (sub (fst c) b) (snd c) x) l))%Q).
      { induction l as [|c l IHl]; intros Hl; cbn; [reflexivity|].
        change (fold_right Qmult 1%Q) with prodQ. rewrite IHl by (intros c' I'; apply Hl; now right).
        apply Qmult_comp; [|reflexivity].
        assert (Ic : In c cs) by (apply Hl; now left).
        rewrite Forall_forall in F'. destruct (F' c Ic) as [Nc Dc].
        apply (Int_perm _ _ _ x (fst c) Dc).
        - rewrite sub_perm; auto.
          + rewrite filter_filter_sub; [symmetry; now apply sub_perm|].
            intros o I0. apply in_flat_map. eauto.
          + clear - ND. unfold box_obs in *. induction b as [|[o l0] b IHb]; cbn; [constructor|].
            inversion ND; subst. destruct (mem String.eqb o B); cbn; auto. constructor; auto.
            intros I0. apply in_map_iff in I0. destruct I0 as (q & E & Iq). apply filter_In in Iq.
            apply H1. apply in_map_iff. exists q. tauto.
        - now apply nodup_sub. }
      apply M. auto.
    + apply Forall_impl with (2 := F'). tauto.
    + exact P'.
    + clear - ND. unfold box_obs in *. induction b as [|[o l0] b IHb]; cbn; [constructor|].
      inversion ND; subst. destruct (mem String.eqb o B); cbn; auto. constructor; auto.
      intros I0. apply in_map_iff in I0. destruct I0 as (q & E & Iq). apply filter_In in Iq.
      apply H1. apply in_map_iff. exists q. tauto.
    + intros o I0. unfold box_obs in I0. apply in_map_iff in I0. destruct I0 as ([o' l] & <- & I0).
      apply filter_In in I0. apply smem_In. tauto.
Qed.

(** ** Numerical integrals at the data *)
Lemma IntAt_Int have b f x : (forall o, In o (box_obs b) -> ~ In o have) -> (IntAt I have b f x == Int b f x)%Q.
Proof.
  revert x. induction b as [|[o l] b IH]; intros x H; cbn; [reflexivity|].
  rewrite (proj2 (smem_false o have)) by (apply H; now left).
  apply I_ext. intros t. apply IH. intros o' I0. apply H. now right.
Qed.
End I.
