(** Partial integrals and projections. *)
From Coq Require Import Permutation.
From Verif Require Import Base BaseLemmas Part_Model Part_Spec Part_Proofs Part_Proofs2 Part_Proofs3.
Open Scope string_scope.
Open Scope list_scope.

(** Limits and data that together have all the observables: the partial integral is the integral
    over the limits at the data, divided by the integral over the normalisation range. With another
    normalisation than the default one this needs a product without a factor in both. *)
Theorem C85_partial_partial : forall I, integral_ok I -> forall p have b x n,
  wf p -> consistent p -> splits (p_obs p) have b -> (forall o, In o (box_obs b) -> In o (p_obs p)) ->
  nrm_ok (p_obs p) n -> n = N (p_nm p) \/ separate p have b ->
  exists v, partial I p have x [b] n = Ok v
    /\ (v == match n with
             | NFalse => Int I b (unnorm I p) x
             | N bs => Int I b (unnorm I p) x / Ints I bs (unnorm I p) x
             end)%Q.
Proof.
  intros I OK p have b x n W C SP H NOK Hn.
  destruct (partial_value I OK p W C have b x n SP NOK Hn) as (v & E & P). exists v. split; [exact E|].
  rewrite P. assert (EI : (Int I (sub (p_obs p) b) (unnorm I p) x == Int I b (unnorm I p) x)%Q).
  { apply (Int_perm I OK _ _ _ x (p_obs p) (unnorm_depends I OK p W)).
    - apply sub_perm_all; auto; [now apply wf_nodup|apply SP].
    - apply nodup_sub. now apply wf_nodup. }
  destruct n; cbn [normed]; now rewrite EI.
Qed.

(** The order of the observables in the limits does not matter. *)
Theorem C85_order : forall I, integral_ok I -> forall p have b b' x,
  wf p -> consistent p -> splits (p_obs p) have b -> (forall o, In o (box_obs b) -> In o (p_obs p)) ->
  Permutation b b' ->
  exists v v', partial I p have x [b] (N (p_nm p)) = Ok v /\ partial I p have x [b'] (N (p_nm p)) = Ok v' /\ (v == v')%Q.
Proof.
  intros I OK p have b b' x W C SP H P.
  assert (PO : Permutation (box_obs b) (box_obs b')) by now apply Permutation_map.
  destruct (C85_partial_partial I OK p have b x (N (p_nm p)) W C SP H (wf_range p W) (or_introl eq_refl)) as (v & E & Ev).
  destruct (C85_partial_partial I OK p have b' x (N (p_nm p)) W C) as (v' & E' & Ev').
  - destruct SP as (ND & SP). split; [now apply (Permutation_NoDup PO)|].
    intros o Io. specialize (SP o Io).
    assert (In o (box_obs b) <-> In o (box_obs b')) by (split; apply Permutation_in; auto; now apply Permutation_sym).
    tauto.
  - intros o Io. apply H. apply (Permutation_in o (Permutation_sym PO) Io).
  - now apply wf_range.
  - auto.
  - exists v, v'. split; [exact E|]. split; [exact E'|]. rewrite Ev, Ev'.
    now rewrite (Int_perm I OK b b' _ x (p_obs p) (unnorm_depends I OK p W) P (proj1 SP)).
Qed.

(** A part of the normalisation range integrated out: what remains integrates to one over the rest
    of the range. *)
Theorem C85_marginal : forall I, integral_ok I -> forall p nb (h b : box) x,
  wf p -> consistent p -> p_nm p = [nb] -> Permutation nb (h ++ b) ->
  (~ Ints I [nb] (unnorm I p) x == 0)%Q ->
  (Int I h (fun y => value (partial I p (box_obs h) y [b] (N [nb]))) x == 1)%Q.
Proof.
  intros I OK p nb h b x W C En P NZ. pose proof (wf_range p W) as R. destruct R as (nb' & En' & ND & HR).
  rewrite En in En'. injection En' as <-.
  pose proof (Permutation_map fst P) as PO. fold (box_obs nb) in PO. rewrite map_app in PO. fold (box_obs h) (box_obs b) in PO.
  assert (ND' : NoDup (box_obs h ++ box_obs b)) by now apply (Permutation_NoDup PO).
  assert (Hin : forall o, In o (p_obs p) <-> In o (box_obs h) \/ In o (box_obs b)).
  { intros o. rewrite <- HR, <- in_app_iff. split; apply Permutation_in; [exact PO|now apply Permutation_sym]. }
  assert (V : forall y, (value (partial I p (box_obs h) y [b] (N [nb])) == / Ints I [nb] (unnorm I p) x * Int I b (unnorm I p) y)%Q).
  { intros y. rewrite <- En. destruct (C85_partial_partial I OK p (box_obs h) b y (N (p_nm p)) W C) as (v & E & Ev).
    - split.
      + clear - ND'. induction (box_obs h) as [|a l IH]; [exact ND'|]. apply IH. now inversion ND'.
      + intros o Io. apply Hin in Io.
        assert (~ (In o (box_obs h) /\ In o (box_obs b))).
        { clear - ND'. intros [A B]. induction (box_obs h) as [|a l IH]; [destruct A|]. inversion ND'; subst.
          destruct A as [->|A]; [|now apply IH]. apply H1. apply in_or_app. now right. }
        tauto.
    - intros o Io. apply Hin. now right.
    - rewrite En. now exists nb.
    - auto.
    - rewrite E. cbn [value]. rewrite Ev, En.
      rewrite (range_const I OK (p_obs p) [nb] (unnorm I p) y x); [unfold Qdiv; ring|now exists nb|now apply unnorm_depends]. }
  rewrite (Int_ext I OK h _ _ x V), (Int_scal I OK), <- (Int_app I OK).
  rewrite <- (Int_perm I OK nb (h ++ b) _ x (p_obs p) (unnorm_depends I OK p W) P ND).
  rewrite Ints_one in *. field. exact NZ.
Qed.

(** A projection, asked for by what is integrated or by what remains: the two parts split the
    observables, limits that are not given are those of the PDF, and the density is the integral over
    what is integrated divided by the integral over everything. *)
Lemma sub_obs obs space : (forall o, In o obs -> In o (box_obs space)) -> box_obs (sub obs space) = obs.
Proof.
  intros H. induction obs as [|o obs IH]; [reflexivity|]. unfold sub. cbn [flat_map].
  destruct (proj2 (lookup_box o space) (H o (or_introl eq_refl))) as (l & E). rewrite E. cbn. f_equal.
  apply IH. intros o' I'. apply H. now right.
Qed.
Lemma with_obs space s : (forall o, In o (spc_obs s) -> In o (box_obs space)) -> box_obs (with_limits space s) = spc_obs s.
Proof. destruct s; cbn; [apply sub_obs|reflexivity]. Qed.
Definition rest (obs os : list string) : list string := filter (fun a => negb (mem String.eqb a os)) obs.
Lemma in_rest o obs os : In o (rest obs os) <-> In o obs /\ ~ In o os.
Proof. unfold rest. rewrite filter_In, negb_true_iff, smem_false. tauto. Qed.

Lemma projection_density I : integral_ok I -> forall p l o x,
  wf p -> consistent p -> normalisable I p -> NoDup (box_obs l) ->
  (forall a, In a (p_obs p) <-> In a (box_obs l) \/ In a (box_obs o)) ->
  (forall a, In a (box_obs l) -> ~ In a (box_obs o)) ->
  exists v, projected I p l o x = Ok v
    /\ (v / Int I o (fun y => value (projected I p l o y)) x
        == Int I l (unnorm I p) x / Int I (o ++ l) (unnorm I p) x)%Q.
Proof.
  intros OK p l o x W C NZ ND H D.
  destruct (scaled I OK p (box_obs o) l W C NZ) as (c & Hc & V).
  { split; [exact ND|]. intros a Ia. specialize (D a). apply H in Ia. tauto. }
  destruct (V x) as (v & E & Ev). exists v. split; [exact E|].
  assert (EI : forall y, (Int I (sub (p_obs p) l) (unnorm I p) y == Int I l (unnorm I p) y)%Q).
  { intros y. apply (Int_perm I OK _ _ _ y (p_obs p) (unnorm_depends I OK p W)).
    - apply sub_perm_all; auto; [now apply wf_nodup|]. intros a Ia. apply H. now left.
    - apply nodup_sub. now apply wf_nodup. }
  rewrite (Int_ext I OK o _ (fun y => c * Int I l (unnorm I p) y)%Q).
  - rewrite (Int_scal I OK), <- (Int_app I OK), Ev, EI. unfold Qdiv. rewrite Qinv_mult_distr.
    rewrite <- (Qmult_1_l (Int I l (unnorm I p) x * / Int I (o ++ l) (unnorm I p) x)).
    rewrite <- (Qmult_inv_r c Hc). ring.
  - intros y. destruct (V y) as (w & Ew & Pw). unfold projected. rewrite Ew. cbn [value]. now rewrite Pw, EI.
Qed.

Theorem C85_projection : forall I, integral_ok I -> forall p space s,
  wf p -> consistent p -> normalisable I p -> box_obs space = p_obs p -> part_of (p_obs p) s ->
  let r := sub (rest (p_obs p) (spc_obs s)) space in
  projection space (Some s) None = Ok (with_limits space s, r)
  /\ projection space None (Some s) = Ok (r, with_limits space s)
  /\ (forall l o, (l = with_limits space s /\ o = r) \/ (l = r /\ o = with_limits space s) ->
      (forall a, In a (p_obs p) <-> In a (box_obs l) \/ In a (box_obs o))
      /\ (forall a, In a (box_obs l) -> ~ In a (box_obs o))
      /\ forall x, exists v, projected I p l o x = Ok v
          /\ (v / Int I o (fun y => value (projected I p l o y)) x
              == Int I l (unnorm I p) x / Int I (o ++ l) (unnorm I p) x)%Q).
Proof.
  intros I OK p space s W C NZ ES (ND & Sub & (a0 & A1 & A2)) r.
  assert (EO : box_obs (with_limits space s) = spc_obs s) by (apply with_obs; rewrite ES; exact Sub).
  assert (ER : box_obs r = rest (p_obs p) (spc_obs s)).
  { apply sub_obs. intros o I0. rewrite ES. apply in_rest in I0. tauto. }
  repeat split.
  - unfold projection. rewrite ES, EO. reflexivity.
  - unfold projection. rewrite ES. fold (rest (p_obs p) (spc_obs s)).
    assert (In a0 (rest (p_obs p) (spc_obs s))) as N by (apply in_rest; auto).
    unfold r. destruct (rest (p_obs p) (spc_obs s)) as [|z zs] eqn:E; [destruct N|]. reflexivity.
  - intros Ia. destruct H as [[-> ->]|[-> ->]]; rewrite EO, ER, in_rest;
      destruct (in_dec string_dec a (spc_obs s)); tauto.
  - intros Ia. destruct H as [[-> ->]|[-> ->]]; rewrite EO, ER, in_rest in Ia; destruct Ia as [Ia|Ia]; try tauto; now apply Sub.
  - intros a Ia. destruct H as [[-> ->]|[-> ->]]; rewrite EO, ER, in_rest in *; tauto.
  - intros x. apply projection_density; auto.
    + destruct H as [[-> ->]|[-> ->]]; [now rewrite EO|]. rewrite ER. apply NoDup_filter. now apply wf_nodup.
    + intros a. destruct H as [[-> ->]|[-> ->]]; rewrite EO, ER, in_rest;
        (destruct (in_dec string_dec a (spc_obs s)); (split; [tauto|intros [Ia|Ia]; try tauto; now apply Sub])).
    + intros a Ia. destruct H as [[-> ->]|[-> ->]]; rewrite EO, ER, in_rest in *; tauto.
Qed.

(** The arguments of a projection: something has to be given, what is integrated and what remains
    must not overlap, and something has to be integrated; if both are given and do not overlap, they
    are used. *)
Theorem C85_projection_arguments : forall space,
  projection space None None = Err ValueError
  /\ (forall o, (forall a, In a (box_obs space) -> In a (spc_obs o)) ->
       projection space None (Some o) = Err ValueError)
  /\ (forall l o, (forall a, In a (spc_obs l) -> In a (box_obs space)) ->
        (forall a, In a (spc_obs o) -> In a (box_obs space)) ->
        ((exists a, In a (spc_obs l) /\ In a (spc_obs o)) -> projection space (Some l) (Some o) = Err ValueError)
        /\ ((forall a, In a (spc_obs l) -> ~ In a (spc_obs o)) ->
             projection space (Some l) (Some o) = Ok (with_limits space l, with_limits space o))).
Proof.
  intros space. split; [reflexivity|]. split.
  - intros o H. unfold projection.
    assert (E : filter (fun a => negb (mem String.eqb a (spc_obs o))) (box_obs space) = []).
    { clear - H. induction (box_obs space) as [|a l IH]; [reflexivity|]. cbn.
      assert (mem String.eqb a (spc_obs o) = true) as -> by (apply smem_In, H; now left). apply IH. intros b Ib. apply H. now right. }
    now rewrite E.
  - intros l o Hl Ho. unfold projection. rewrite !with_obs by assumption.
    pose proof (intersectsb_iff _ string_eqb_ok (spc_obs o) (spc_obs l)) as J. split.
    + intros (a & Ia & Ib). assert (intersectsb String.eqb (spc_obs o) (spc_obs l) = true) as ->; [|reflexivity].
      apply J. eauto.
    + intros N. destruct (intersectsb String.eqb (spc_obs o) (spc_obs l)) eqn:E; [|reflexivity].
      destruct (proj1 J eq_refl) as (a & Ia & Ib). now destruct (N a Ib).
Qed.

(** ** Cases *)
(** Simpson's rule is such an integral. *)
Definition simpson (l : interval) (f : Q -> Q) : Q :=
  ((snd l - fst l) * (1 # 6) * (f (fst l) + (4 * f ((fst l + snd l) * (1 # 2)) + f (snd l))))%Q.
Example simpson_ok : integral_ok simpson.
Proof.
  repeat split; intros; unfold simpson.
  - now rewrite !H.
  - ring.
  - ring.
  - ring.
Qed.
Definition fx : pdf := Leaf ["x"] (fun p => p "x") [[("x", (0, 2)%Q)]] (fun _ => true).
Definition fyz : pdf := Leaf ["y"; "z"] (fun p => p "y" + p "z")%Q [[("y", (0, 1)%Q); ("z", (0, 2)%Q)]] (fun _ => false).
Definition pxyz : pdf :=
  Prod ["x"; "y"; "z"] [fx; fyz] [[("x", (0, 2)%Q); ("y", (0, 1)%Q); ("z", (0, 2)%Q)]] [].
Definition at1 : point := fun _ => 1%Q.
Example pxyz_wf : wf pxyz /\ consistent pxyz /\ normalisable simpson pxyz.
Proof.
  assert (R : forall b : box, NoDup (box_obs b) -> is_range (box_obs b) [b]).
  { intros b H. exists b. repeat split; auto. }
  split; [|split].
  - cbn [wf pxyz fx fyz]. split; [repeat constructor; cbn; intuition congruence|]. split; [discriminate|].
    split; [apply (R [("x", (0, 2)%Q); ("y", (0, 1)%Q); ("z", (0, 2)%Q)]); repeat constructor; cbn; intuition congruence|].
    split; [intros H; exfalso; apply H; reflexivity|]. split.
    + intros o. split.
      * intros [<-|[<-|[<-|[]]]]; [exists fx|exists fyz|exists fyz]; cbn; auto.
      * intros (d & [<-|[<-|[]]] & Io); cbn in *; tauto.
    + split; [|split; [|exact Logic.I]].
      * split; [repeat constructor; cbn; tauto|]. split; [discriminate|].
        split; [apply (R [("x", (0, 2)%Q)]); repeat constructor; cbn; tauto|]. intros a b H. apply H. now left.
      * split; [repeat constructor; cbn; intuition congruence|]. split; [discriminate|].
        split; [apply (R [("y", (0, 1)%Q); ("z", (0, 2)%Q)]); repeat constructor; cbn; intuition congruence|].
        intros a b H. rewrite (H "y"), (H "z") by (cbn; auto). reflexivity.
  - cbn. unfold same_range. repeat split. intros H; exfalso; now apply H.
  - cbn [normalisable pxyz]. split; [intros H; exfalso; apply H; reflexivity|].
    repeat constructor; intros x E; vm_compute in E; discriminate.
Qed.
Example C85_case : splits (p_obs pxyz) ["x"; "y"] [("z", (0, 1)%Q)]
  /\ (forall v, partial simpson pxyz ["x"; "y"] at1 [[("z", (0, 1)%Q)]] (N (p_nm pxyz)) = Ok v -> v == 1 # 4)%Q
  /\ separate pxyz ["x"] [("y", (0, 1)%Q); ("z", (0, 2)%Q)]
  /\ part_of (p_obs pxyz) (SObs ["z"; "x"]).
Proof.
  repeat split.
  - repeat constructor. cbn. tauto.
  - intros o [<-|[<-|[<-|[]]]]; cbn; intuition congruence.
  - intros v E. injection E as <-. vm_compute. reflexivity.
  - right. split.
    + intros d [<-|[<-|[]]] _ ((o & A & B) & (o' & A' & B')); cbn in *; intuition (subst; congruence).
    + intros ((o & A & B) & _). cbn in A. tauto.
  - repeat constructor; cbn; intuition congruence.
  - cbn. tauto.
  - exists "y". cbn. intuition congruence.
Qed.

(** ** Findings *)
(** A product with a factor both in the limits and in the data: with [norm=False] the factor is
    normalised all the same, with another range it is normalised over its own range. *)
Theorem C85_straddling_refuted :
  exists p have b x, wf p /\ consistent p /\ splits (p_obs p) have b
    /\ (exists v, partial simpson p have x [b] NFalse = Ok v /\ ~ v == Int simpson b (unnorm simpson p) x)%Q
    /\ (exists bs v, is_range (p_obs p) bs /\ partial simpson p have x [b] (N bs) = Ok v
          /\ ~ v == Int simpson b (unnorm simpson p) x / Ints simpson bs (unnorm simpson p) x)%Q.
Proof.
  exists pxyz, ["x"; "y"], [("z", (0, 1)%Q)], at1. destruct pxyz_wf as (A & B & _).
  split; [exact A|]. split; [exact B|]. split; [apply C85_case|]. split.
  - eexists. split; [reflexivity|]. intros E. vm_compute in E. discriminate.
  - exists [[("x", (0, 1)%Q); ("y", (0, 1)%Q); ("z", (0, 1)%Q)]]. eexists. split; [|split].
    + exists [("x", (0, 1)%Q); ("y", (0, 1)%Q); ("z", (0, 1)%Q)]. split; [reflexivity|]. split.
      * repeat constructor; cbn; intuition congruence.
      * intros o. reflexivity.
    + reflexivity.
    + intros E. vm_compute in E. discriminate.
Qed.

(** Several limits: an error for a function without a special integral; a product takes all
    combinations of the parts of the limits instead of the sum over the limits. *)
Theorem C85_limits_refuted :
  (forall I f ana nm n x b c, partial I (Leaf ["x"; "y"] f nm ana) ["x"] x [b; c] n = Err ValueError)
  /\ exists p ls have x v, wf p /\ consistent p /\ (forall b, In b ls -> splits (p_obs p) have b)
       /\ partial simpson p have x ls NFalse = Ok v /\ (~ v == Ints simpson ls (unnorm simpson p) x)%Q.
Proof.
  split; [reflexivity|].
  pose (one := fun o => Leaf [o] (fun p => p o) [[(o, (0, 2)%Q)]] (fun _ => true)).
  exists (Prod ["x"; "y"; "z"] [one "x"; one "y"; one "z"] [[("x", (0, 2)%Q); ("y", (0, 2)%Q); ("z", (0, 2)%Q)]] []),
    [[("x", (0, 1)%Q); ("y", (0, 1)%Q)]; [("x", (1, 2)%Q); ("y", (1, 2)%Q)]], ["z"], at1.
  eexists. split; [|split; [|split; [|split]]].
  - assert (R : forall b : box, NoDup (box_obs b) -> is_range (box_obs b) [b]).
    { intros b H. exists b. repeat split; auto. }
    cbn [wf one]. split; [repeat constructor; cbn; intuition congruence|]. split; [discriminate|].
    split; [apply (R [("x", (0, 2)%Q); ("y", (0, 2)%Q); ("z", (0, 2)%Q)]); repeat constructor; cbn; intuition congruence|].
    split; [intros H; exfalso; apply H; reflexivity|]. split.
    + intros o. split.
      * intros [<-|[<-|[<-|[]]]]; [exists (one "x")|exists (one "y")|exists (one "z")]; cbn; auto.
      * intros (d & [<-|[<-|[<-|[]]]] & Io); cbn in *; tauto.
    + assert (L : forall o, wf (one o)).
      { intros o. cbn. split; [repeat constructor; cbn; tauto|]. split; [discriminate|].
        split; [apply (R [(o, (0, 2)%Q)]); repeat constructor; cbn; tauto|]. intros a b H. apply H. now left. }
      repeat split; apply L.
  - cbn. unfold same_range. repeat split. intros H; exfalso; now apply H.
  - intros b [<-|[<-|[]]]; (split; [repeat constructor; cbn; intuition congruence|]);
      intros o [<-|[<-|[<-|[]]]]; cbn; intuition congruence.
  - reflexivity.
  - intros E. vm_compute in E. discriminate.
Qed.

(** Data with the integrated observable: it is not integrated, the value at the data is multiplied
    with the width. *)
Theorem C85_data_refuted :
  exists p have b x v, wf p /\ consistent p /\ (forall o, In o (p_obs p) -> In o have \/ In o (box_obs b))
    /\ partial simpson p have x [b] NFalse = Ok v /\ (~ v == Int simpson b (unnorm simpson p) x)%Q
    /\ (v == unnorm simpson p x)%Q.
Proof.
  exists fyz, ["y"; "z"], [("z", (0, 1)%Q)], at1. eexists.
  destruct pxyz_wf as (A & _). split; [apply A|]. split; [exact Logic.I|]. split; [cbn; tauto|].
  split; [reflexivity|]. split.
  - intros E. vm_compute in E. discriminate.
  - vm_compute. reflexivity.
Qed.

(** A projection with limits and observables that leave one out can be made, and fails when it is
    evaluated. *)
Theorem C85_left_out_refuted : forall I n f ana nm x,
  projection [("x", (0, 1)%Q); ("y", (0, 1)%Q); ("z", (0, 1)%Q)] (Some (SObs ["x"])) (Some (SObs ["y"]))
    = Ok ([("x", (0, 1)%Q)], [("y", (0, 1)%Q)])
  /\ partial I (Leaf ["x"; "y"; "z"] f nm ana) ["y"] x [[("x", (0, 1)%Q)]] n = Err ObsIncompatibleError.
Proof. intros. split; reflexivity. Qed.
