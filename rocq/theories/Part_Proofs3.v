(** The values of partial integrals. *)
From Coq Require Import Permutation.
From Verif Require Import Base BaseLemmas PGraph_Proofs Part_Model Part_Spec Part_Proofs Part_Proofs2.
Open Scope string_scope.
Open Scope list_scope.

Section I.
Context (I : interval -> (Q -> Q) -> Q) (OK : integral_ok I).
Notation Int := (Int I).
Notation Ints := (Ints I).
Notation unnorm := (unnorm I).
Notation normed := (normed I).
Notation k := (k I).
Notation comps := (comps I).

Lemma prod_mult {A} (f g : A -> Q) l : (prodQ (map (fun a => f a * g a) l) == prodQ (map f l) * prodQ (map g l))%Q.
Proof.
  induction l as [|a l IH]; [reflexivity|].
  change (f a * g a * prodQ (map (fun a => f a * g a) l) == f a * prodQ (map f l) * (g a * prodQ (map g l)))%Q.
  rewrite IH. ring.
Qed.
Lemma prod_inv {A} (f : A -> Q) l : (prodQ (map (fun a => / f a) l) == / prodQ (map f l))%Q.
Proof.
  induction l as [|a l IH]; [reflexivity|].
  change (/ f a * prodQ (map (fun a => / f a) l) == / (f a * prodQ (map f l)))%Q.
  rewrite IH. now rewrite Qinv_mult_distr.
Qed.
Lemma prod_one {A} (l : list A) : (prodQ (map (fun _ => 1) l) == 1)%Q.
Proof. induction l as [|a l IH]; [reflexivity|]. change (1 * prodQ (map (fun _ => 1) l) == 1)%Q. rewrite IH. ring. Qed.
Lemma prod_nonzero {A} (f : A -> Q) l : (forall a, In a l -> ~ f a == 0)%Q -> (~ prodQ (map f l) == 0)%Q.
Proof.
  induction l as [|a l IH]; intros H.
  - discriminate.
  - change (~ f a * prodQ (map f l) == 0)%Q. intros E. apply Qmult_integral in E. destruct E as [E|E].
    + apply (H a); [now left|exact E].
    + apply IH; [|exact E]. intros a' I0. apply H. now right.
Qed.

Lemma sub_same_obs obs obs' b u x D : NoDup obs -> NoDup obs' -> NoDup (box_obs b) ->
  (forall o, In o obs' <-> In o obs) -> depends D u ->
  (Int (sub obs b) u x == Int (sub obs' b) u x)%Q.
Proof.
  intros N1 N2 N3 H Du. apply (Int_perm I OK _ _ u x D Du); [|now apply nodup_sub].
  rewrite !sub_perm by auto. rewrite (filter_ext (fun ol : string * interval => mem String.eqb (fst ol) obs) (fun ol => mem String.eqb (fst ol) obs')); [reflexivity|].
  intros [o l]. apply eq_true_iff_eq. rewrite !smem_In. now rewrite H.
Qed.

(** what a sum gives *)
Lemma sum_partial obs fr ds nm have b x n :
  wf (Sum obs fr ds nm) -> splits obs have b ->
  (forall d, In d ds ->
     exists v, partial I d (filter (fun o => mem String.eqb o obs) have) x [sub obs b] (N (p_nm d)) = Ok v
       /\ (v == Int (sub (p_obs d) b) (unnorm d) x / Ints (p_nm d) (unnorm d) x)%Q) ->
  exists v, partial I (Sum obs fr ds nm) have x [b] n = Ok v
    /\ (v == normed (unnorm (Sum obs fr ds nm)) n x (Int (sub obs b) (unnorm (Sum obs fr ds nm)) x))%Q.
Proof.
  intros W SP HD. apply wf_sum in W. destruct W as (NO & _ & _ & W).
  cbn [partial p_obs map].
  set (h := filter (fun o => mem String.eqb o obs) have) in *.
  assert (A : exists vs, mapM (fun r => r) (map (fun d => partial I d h x [sub obs b] (N (p_nm d))) ds) = Ok vs
     /\ Forall2 (fun d v => v == Int (sub obs b) (unnorm d) x / Ints (p_nm d) (unnorm d) x)%Q ds vs).
  { clearbody h. clear fr n. induction ds as [|d ds IH]; [exists []; split; [reflexivity|constructor]|].
    inversion W as [|? ? [W1 W2] W']; subst.
    destruct IH as (vs & E & F); [exact W'|intros d' I'; apply HD; now right|].
    destruct (HD d (or_introl eq_refl)) as (v & Ev & Pv). cbn. rewrite Ev. cbn. rewrite E. cbn.
    exists (v :: vs). split; [reflexivity|]. constructor; [|exact F]. rewrite Pv.
    rewrite (sub_same_obs obs (p_obs d) b (unnorm d) x (p_obs d)); [reflexivity| | | | |]; auto.
    - now apply wf_nodup.
    - apply SP.
    - now apply unnorm_depends. }
  destruct A as (vs & -> & F). cbn [bind]. eexists. split; [reflexivity|]. apply normed_ext.
  cbn [Part_Model.unnorm]. clear HD. revert fr. clear - OK W F.
  induction F as [|d v ds vs E F IH]; intros fr.
  - cbn [map]. destruct fr; cbn [combine map]; symmetry; apply (Int_zero I OK).
  - destruct fr as [|r fr]; [cbn [combine map]; symmetry; apply (Int_zero I OK)|].
    inversion W as [|? ? [W1 W2] W']; subst. specialize (IH W' fr). cbn [map combine sumQ fold_right fst snd].
    rewrite (Int_ext I OK _ _ (fun y => (r * / Ints (p_nm d) (unnorm d) x) * unnorm d y
       + sumQ (map (fun rd => fst rd * snd rd) (combine fr (map (fun d => unnorm d y / Ints (p_nm d) (unnorm d) y) ds))))%Q).
    + rewrite (Int_add I OK), (Int_scal I OK). rewrite <- IH, E. unfold Qdiv, sumQ. ring.
    + intros y. rewrite (range_const I OK (p_obs d) (p_nm d) (unnorm d) y x (wf_range d W1) (unnorm_depends I OK d W1)).
      unfold Qdiv, sumQ. ring.
Qed.

(** ** With the default normalisation, or without factors in both *)
Lemma comps_range obs ds nm snm bs x : wf (Prod obs ds nm snm) -> is_range obs bs ->
  (Ints bs (unnorm (Prod obs ds nm snm)) x
   == prodQ (map (fun c => Ints (map (sub (c_obs c)) bs) (c_u c) x) (comps ds snm)))%Q.
Proof.
  intros W (b & -> & ND & H). rewrite Ints_one. rewrite (Int_comps I OK) by (auto; intros o; apply H).
  apply prod_ext. intros c _. cbn [map]. now rewrite Ints_one.
Qed.
Lemma con_comps obs ds nm snm c x : wf (Prod obs ds nm snm) -> consistent (Prod obs ds nm snm) ->
  In c (comps ds snm) -> (Ints (map (sub (c_obs c)) nm) (c_u c) x == Ints (c_nm c) (c_u c) x)%Q.
Proof.
  intros W C Ic. pose proof (comps_ok I OK obs ds nm snm W) as K. rewrite Forall_forall in K.
  destruct (K c Ic) as (K1 & _ & K3 & K4 & _). apply con_prod in C. destruct C as (C1 & C2).
  assert (E : map (sub (c_obs c)) nm = map (sub (c_obs c)) (c_nm c)).
  { unfold Part_Proofs2.comps in Ic. apply in_app_or in Ic. destruct Ic as [Ic|Ic].
    - apply in_map_iff in Ic. destruct Ic as (d & <- & Id). unfold c_obs, c_nm. cbn.
      rewrite Forall_forall in C2. apply C2. apply filter_In in Id. tauto.
    - fold (same ds) in C1. destruct (same ds) as [|s l]; [destruct Ic|].
      destruct Ic as [<-|[]]. unfold c_obs, c_nm. cbn [fst snd]. apply C1. discriminate. }
  rewrite E. now apply range_sub.
Qed.

Lemma partial_value p : wf p -> consistent p -> forall have b x n,
  splits (p_obs p) have b -> nrm_ok (p_obs p) n -> n = N (p_nm p) \/ separate p have b ->
  exists v, partial I p have x [b] n = Ok v
    /\ (v == normed (unnorm p) n x (Int (sub (p_obs p) b) (unnorm p) x))%Q.
Proof.
  induction p as [obs f nm ana|obs fr ds nm IH|obs ds nm snm IH] using pdf_ind'; intros W C have b x n SP NOK Hn.
  - cbn [p_obs] in *. cbn [partial p_obs map Part_Model.unnorm]. apply (generic_ok I OK); auto. apply W.
  - cbn [p_obs] in *. apply sum_partial; auto. intros d Id.
    apply wf_sum in W. apply con_sum in C. rewrite Forall_forall in IH, C.
    destruct W as (NO & _ & _ & W). rewrite Forall_forall in W. destruct (W d Id) as (W1 & W2).
    destruct (IH d Id W1 (C d Id) (filter (fun o => mem String.eqb o obs) have) (sub obs b) x (N (p_nm d))) as (v & E & P).
    + apply splits_sub; auto. intros o; apply W2.
    + now apply wf_range.
    + auto.
    + exists v. split; [exact E|]. rewrite P. cbn [Part_Model.normed]. rewrite sub_sub by (intros o; apply W2). reflexivity.
  - cbn [p_obs] in *. destruct (forallb (overlaps ds) ds) eqn:AO.
    { cbn [partial p_obs map]. rewrite AO. apply (generic_ok I OK); auto. apply wf_prod in W. apply W. }
    destruct (prod_partial I OK obs ds nm snm have b x n W SP AO) as (v & E & P).
    { intros d Id Ov St. pose proof W as W0. apply wf_prod in W0. pose proof C as C0. apply con_prod in C0.
      destruct W0 as (NO & _ & _ & _ & HO & WD). destruct C0 as (_ & C0). rewrite Forall_forall in IH, C0, WD.
      destruct (IH d Id (WD d Id) (proj1 (C0 d Id)) (filter (fun o => mem String.eqb o obs) have) (sub obs b) x (N (p_nm d))) as (v & E & P).
      + apply splits_sub; auto. intros o I0. apply HO. eauto.
      + apply wf_range. auto.
      + auto.
      + exists v. split; [exact E|]. rewrite P. cbn [Part_Model.normed]. rewrite sub_sub; [reflexivity|].
        intros o I0. apply HO. eauto. }
    exists v. split; [exact E|]. rewrite P. pose proof W as W0. apply wf_prod in W0. destruct W0 as (NO & _).
    assert (K : forall c, In c (comps ds snm) ->
      (k have b n x c == match n with NFalse => 1 | N bs => / Ints (map (sub (c_obs c)) bs) (c_u c) x end)%Q).
    { intros c Ic. unfold Part_Proofs2.k. destruct (sb (c_obs c) have b) eqn:Sb; [|reflexivity].
      destruct Hn as [->|Sep].
      - now rewrite (con_comps obs ds nm snm c x W C Ic).
      - exfalso. cbn in Sep. apply andb_true_iff in Sb. destruct Sb as (S1 & S2).
        apply intersects_iff in S1, S2. destruct Sep as [Sep|[Sep1 Sep2]].
        + rewrite <- not_true_iff_false in AO. apply AO. apply forallb_forall. exact Sep.
        + unfold Part_Proofs2.comps in Ic. apply in_app_or in Ic. destruct Ic as [Ic|Ic].
          * apply in_map_iff in Ic. destruct Ic as (d & <- & Id). unfold c_obs in *. cbn in *.
            apply filter_In in Id. destruct Id as (Id & Ov). apply negb_true_iff in Ov.
            apply (Sep1 d Id Ov). split; [destruct S2 as (o & A & B)|destruct S1 as (o & A & B)]; eauto.
          * fold (same ds) in Sep2. destruct (same ds) as [|s l]; [destruct Ic|].
            destruct Ic as [<-|[]]. unfold c_obs in *. cbn [fst snd] in *.
            apply Sep2. split; [destruct S2 as (o & A & B)|destruct S1 as (o & A & B)]; eauto. }
    rewrite (prod_ext (comps ds snm) _ (fun c => (match n with NFalse => 1 | N bs => / Ints (map (sub (c_obs c)) bs) (c_u c) x end
       * Int (sub (c_obs c) b) (c_u c) x)%Q)) by (intros c Ic; now rewrite (K c Ic)).
    rewrite prod_mult.
    assert (EI : (Int (sub obs b) (unnorm (Prod obs ds nm snm)) x
      == prodQ (map (fun c => Int (sub (c_obs c) b) (c_u c) x) (comps ds snm)))%Q).
    { rewrite (Int_comps I OK obs ds nm snm (sub obs b) x W); [|now apply nodup_sub|intros o I0; apply box_sub in I0; tauto].
      apply prod_ext. intros c Ic. rewrite sub_sub; [reflexivity|].
      pose proof (comps_ok I OK obs ds nm snm W) as Kc. rewrite Forall_forall in Kc. apply (Kc c Ic). }
    destruct n as [|bs].
    + rewrite prod_one. cbn [Part_Model.normed]. rewrite EI. ring.
    + rewrite prod_inv. cbn [Part_Model.normed].
      rewrite (comps_range obs ds nm snm bs x W) by exact NOK. rewrite EI. unfold Qdiv. ring.
Qed.

(** ** Projections: always a multiple of the integral *)
Notation normalisable := (normalisable I).

Lemma prod_scaled obs ds nm snm have b : wf (Prod obs ds nm snm) -> consistent (Prod obs ds nm snm) ->
  normalisable (Prod obs ds nm snm) -> splits obs have b ->
  exists c, (~ c == 0)%Q /\ forall x, exists v, partial I (Prod obs ds nm snm) have x [b] NFalse = Ok v
    /\ (v == c * Int (sub obs b) (unnorm (Prod obs ds nm snm)) x)%Q.
Proof.
  intros W C NZ SP. destruct (forallb (overlaps ds) ds) eqn:AO.
  { exists 1%Q. split; [discriminate|]. intros x. cbn [partial p_obs map]. rewrite AO.
    destruct (generic_ok I OK obs (unnorm (Prod obs ds nm snm)) (fun _ => false) have b x NFalse) as (v & E & P); auto.
    - apply wf_prod in W. apply W.
    - exists v. split; [exact E|]. rewrite P. cbn [Part_Model.normed]. ring. }
  pose (x0 := (fun _ => 0%Q) : point).
  exists (prodQ (map (k have b NFalse x0) (comps ds snm))). split.
  - apply prod_nonzero. intros c Ic. unfold Part_Proofs2.k. destruct (sb _ _ _); [|discriminate].
    cbn in NZ. destruct NZ as (NZ1 & NZ2). rewrite Forall_forall in NZ2.
    assert (~ Ints (c_nm c) (c_u c) x0 == 0)%Q as HN.
    { unfold Part_Proofs2.comps in Ic. apply in_app_or in Ic. destruct Ic as [Ic|Ic].
      - apply in_map_iff in Ic. destruct Ic as (d & <- & Id). unfold c_obs, c_nm. cbn.
        apply NZ2. apply filter_In in Id. tauto.
      - fold (same ds) in NZ1. destruct (same ds) as [|s l] eqn:Es; [destruct Ic|].
        destruct Ic as [<-|[]]. unfold c_obs, c_nm, c_u. cbn [fst snd]. unfold same_u. rewrite Es. apply NZ1. discriminate. }
    intros Z. apply HN. rewrite <- (Qinv_involutive (Ints (c_nm c) (c_u c) x0)). rewrite Z. reflexivity.
  - intros x.
    destruct (prod_partial I OK obs ds nm snm have b x NFalse W SP AO) as (v & E & P).
    { intros d Id Ov St. pose proof W as W0. apply wf_prod in W0. pose proof C as C0. apply con_prod in C0.
      destruct W0 as (NO & _ & _ & _ & HO & WD). destruct C0 as (_ & C0). rewrite Forall_forall in C0, WD.
      destruct (partial_value d (WD d Id) (proj1 (C0 d Id)) (filter (fun o => mem String.eqb o obs) have) (sub obs b) x (N (p_nm d))) as (v & E & P).
      + apply splits_sub; auto. intros o I0. apply HO. eauto.
      + apply wf_range. auto.
      + auto.
      + exists v. split; [exact E|]. rewrite P. cbn [Part_Model.normed]. rewrite sub_sub; [reflexivity|].
        intros o I0. apply HO. eauto. }
    exists v. split; [exact E|]. rewrite P. rewrite prod_mult. apply Qmult_comp.
    + apply prod_ext. intros c Ic. unfold Part_Proofs2.k. destruct (sb _ _ _); [|reflexivity].
      pose proof (comps_ok I OK obs ds nm snm W) as Kc. rewrite Forall_forall in Kc.
      destruct (Kc c Ic) as (_ & _ & K3 & K4 & _). now rewrite (range_const I OK _ _ _ x x0 K4 K3).
    + pose proof W as W0. apply wf_prod in W0. destruct W0 as (NO & _). symmetry.
      rewrite (Int_comps I OK obs ds nm snm (sub obs b) x W); [|now apply nodup_sub|intros o I0; apply box_sub in I0; tauto].
      apply prod_ext. intros c Ic. rewrite sub_sub; [reflexivity|].
      pose proof (comps_ok I OK obs ds nm snm W) as Kc. rewrite Forall_forall in Kc. apply (Kc c Ic).
Qed.
Lemma scaled p have b : wf p -> consistent p -> normalisable p -> splits (p_obs p) have b ->
  exists c, (~ c == 0)%Q /\ forall x, exists v, partial I p have x [b] NFalse = Ok v
    /\ (v == c * Int (sub (p_obs p) b) (unnorm p) x)%Q.
Proof.
  intros W C NZ SP. destruct p as [obs f nm ana|obs fr ds nm|obs ds nm snm]; [| |now apply prod_scaled].
  all: exists 1%Q; split; [discriminate|]; intros x.
  all: destruct (partial_value _ W C have b x NFalse SP Logic.I (or_intror Logic.I)) as (v & E & P).
  all: exists v; split; [exact E|]; rewrite P; cbn [Part_Model.normed]; ring.
Qed.
End I.
