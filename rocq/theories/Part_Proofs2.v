(** Lemmas about partial integrals. *)
From Coq Require Import Permutation.
From Verif Require Import Base BaseLemmas PGraph_Proofs Part_Model Part_Spec Part_Proofs.
Open Scope string_scope.
Open Scope list_scope.

Section PdfInd.
Context (P : pdf -> Prop)
  (HL : forall obs f nm ana, P (Leaf obs f nm ana))
  (HS : forall obs fr ds nm, Forall P ds -> P (Sum obs fr ds nm))
  (HP : forall obs ds nm snm, Forall P ds -> P (Prod obs ds nm snm)).
Fixpoint pdf_ind' (p : pdf) : P p :=
  let go := fix go (l : list pdf) : Forall P l :=
    match l with [] => Forall_nil _ | d :: l => Forall_cons _ (pdf_ind' d) (go l) end in
  match p with
  | Leaf obs f nm ana => HL obs f nm ana
  | Sum obs fr ds nm => HS obs fr ds nm (go ds)
  | Prod obs ds nm snm => HP obs ds nm snm (go ds)
  end.
End PdfInd.

Lemma wf_sum obs fr ds nm : wf (Sum obs fr ds nm) <->
  NoDup obs /\ obs <> [] /\ is_range obs nm /\ Forall (fun d => wf d /\ forall o, In o (p_obs d) <-> In o obs) ds.
Proof.
  cbn [wf]. do 3 (apply and_iff_compat_l). induction ds as [|d ds IH]; [split; auto|].
  split.
  - intros [A B]. constructor; [exact A|]. now apply IH.
  - intros F. inversion F; subst. split; [assumption|]. now apply IH.
Qed.
Lemma wf_prod obs ds nm snm : wf (Prod obs ds nm snm) <->
  NoDup obs /\ obs <> [] /\ is_range obs nm
  /\ (filter (overlaps ds) ds <> [] -> is_range (all_obs (filter (overlaps ds) ds)) snm)
  /\ (forall o, In o obs <-> exists d, In d ds /\ In o (p_obs d)) /\ Forall wf ds.
Proof.
  cbn [wf]. do 5 (apply and_iff_compat_l). induction ds as [|d l IH]; [split; auto|].
  split.
  - intros [A B]. constructor; [exact A|]. now apply IH.
  - intros F. inversion F; subst. split; [assumption|]. now apply IH.
Qed.
Lemma con_sum obs fr ds nm : consistent (Sum obs fr ds nm) <-> Forall consistent ds.
Proof.
  cbn [consistent]. induction ds as [|d l IH]; [split; auto|].
  split.
  - intros [A B]. constructor; [exact A|]. now apply IH.
  - intros F. inversion F; subst. split; [assumption|]. now apply IH.
Qed.
Lemma con_prod obs ds nm snm : consistent (Prod obs ds nm snm) <->
  (filter (overlaps ds) ds <> [] -> same_range (all_obs (filter (overlaps ds) ds)) nm snm)
  /\ Forall (fun d => consistent d /\ same_range (p_obs d) nm (p_nm d)) ds.
Proof.
  cbn [consistent]. apply and_iff_compat_l. induction ds as [|d l IH]; [split; auto|].
  split.
  - intros [A B]. constructor; [exact A|]. now apply IH.
  - intros F. inversion F; subst. split; [assumption|]. now apply IH.
Qed.
Lemma wf_nodup p : wf p -> NoDup (p_obs p).
Proof. destruct p; intros H; [|apply wf_sum in H|apply wf_prod in H]; apply H. Qed.
Lemma wf_nonempty p : wf p -> p_obs p <> [].
Proof. destruct p; intros H; [|apply wf_sum in H|apply wf_prod in H]; apply H. Qed.
Lemma wf_range p : wf p -> is_range (p_obs p) (p_nm p).
Proof. destruct p; intros H; [|apply wf_sum in H|apply wf_prod in H]; apply H. Qed.

Lemma intersects_iff a b : intersectsb String.eqb a b = true <-> exists o, In o a /\ In o b.
Proof. apply (intersectsb_iff _ string_eqb_ok). Qed.

Section I.
Context (I : interval -> (Q -> Q) -> Q) (OK : integral_ok I).
Notation Int := (Int I).
Notation Ints := (Ints I).
Notation unnorm := (unnorm I).
Notation normed := (normed I).

Lemma Ints_one b f x : (Ints [b] f x == Int b f x)%Q.
Proof. unfold Part_Model.Ints. cbn. ring. Qed.
Lemma Ints_ext bs f g x : (forall y, f y == g y)%Q -> (Ints bs f x == Ints bs g x)%Q.
Proof.
  intros H. unfold Part_Model.Ints. induction bs as [|b bs IH]; cbn; [reflexivity|].
  rewrite (Int_ext I OK b f g x H). now rewrite IH.
Qed.
Lemma range_const obs bs u x y : is_range obs bs -> depends obs u -> (Ints bs u x == Ints bs u y)%Q.
Proof.
  intros (b & -> & ND & H) D. rewrite !Ints_one. apply (Int_depends I OK b u x y obs D).
  intros o I0 N. exfalso. apply N. now apply H.
Qed.
Lemma range_sub obs bs u x : NoDup obs -> is_range obs bs -> depends obs u ->
  (Ints (map (sub obs) bs) u x == Ints bs u x)%Q.
Proof.
  intros NO (b & -> & ND & H) D. cbn [map]. rewrite !Ints_one.
  apply (Int_perm I OK _ _ u x obs D); [|now apply nodup_sub].
  apply sub_perm_all; auto. intros o I0. now apply H.
Qed.
Lemma normed_ext u n x v w : (v == w)%Q -> (normed u n x v == normed u n x w)%Q.
Proof. intros H. unfold Part_Model.normed. destruct n; now rewrite H. Qed.

Lemma sum_combine_ext fr l m : Forall2 Qeq l m ->
  (sumQ (map (fun rd => fst rd * snd rd) (combine fr l)) == sumQ (map (fun rd => fst rd * snd rd) (combine fr m)))%Q.
Proof.
  intros F. revert fr. induction F as [|a b l m E F IH]; intros [|r fr]; cbn; try reflexivity.
  change (fold_right Qplus 0%Q) with sumQ. rewrite E. now rewrite IH.
Qed.
Lemma prod_ext {A} (l : list A) (f g : A -> Q) : (forall a, In a l -> f a == g a)%Q ->
  (prodQ (map f l) == prodQ (map g l))%Q.
Proof.
  induction l as [|a l IH]; intros H; cbn; [reflexivity|]. change (fold_right Qmult 1%Q) with prodQ.
  rewrite (H a) by now left. rewrite IH; [reflexivity|]. intros b I0. apply H. now right.
Qed.

Lemma unnorm_depends p : wf p -> depends (p_obs p) (unnorm p).
Proof.
  induction p as [obs f nm ana|obs fr ds nm IH|obs ds nm snm IH] using pdf_ind'; intros W x y H.
  - cbn in *. now apply W.
  - apply wf_sum in W. destruct W as (_ & _ & _ & W). cbn [Part_Model.unnorm]. apply sum_combine_ext.
    cbn [p_obs] in H. clear fr. induction ds as [|d ds IHd]; cbn; constructor.
    + inversion IH; subst. inversion W as [|? ? [W1 W2] W']; subst.
      assert (D : depends (p_obs d) (unnorm d)) by auto.
      rewrite (D x y) by (intros o I0; apply H; now apply W2).
      rewrite (range_const (p_obs d) (p_nm d) (unnorm d) x y); auto; [reflexivity|now apply wf_range].
    + inversion IH; subst. inversion W; subst. apply IHd; auto.
  - apply wf_prod in W. destruct W as (_ & _ & _ & _ & HO & W). cbn [Part_Model.unnorm]. apply prod_ext.
    intros d Id. rewrite Forall_forall in IH, W. apply (IH d Id (W d Id)). intros o I0. apply H.
    cbn. apply HO. eauto.
Qed.

(** ** A function without a special integral *)
Lemma splits_sub obs obs' have b : splits obs have b -> NoDup obs ->
  (forall o, In o obs' -> In o obs) ->
  splits obs' (filter (fun o => mem String.eqb o obs) have) (sub obs b).
Proof.
  intros (ND & H) NO S. split; [now apply nodup_sub|].
  intros o I0. specialize (S o I0). specialize (H o S). rewrite filter_In, smem_In, box_sub. tauto.
Qed.
Lemma generic_ok obs u ana have b x n : NoDup obs -> splits obs have b ->
  exists v, generic I obs u ana (filter (fun o => mem String.eqb o obs) have) x [sub obs b] n = Ok v
    /\ (v == normed u n x (Int (sub obs b) u x))%Q.
Proof.
  intros NO SP. destruct (splits_sub obs obs have b SP NO (fun o H => H)) as (ND & H).
  unfold generic.
  assert (forallb (fun o => mem String.eqb o (filter (fun o0 => mem String.eqb o0 obs) have)
                            || mem String.eqb o (box_obs (sub obs b))) obs = true) as ->.
  { apply forallb_forall. intros o I0. apply orb_true_iff. rewrite !smem_In. specialize (H o I0). tauto. }
  eexists. split; [reflexivity|]. destruct (ana (sub obs b)); [reflexivity|].
  apply normed_ext. apply (IntAt_Int I OK). intros o I0 I1.
  assert (Io : In o obs) by (apply box_sub in I0; tauto). specialize (H o Io). tauto.
Qed.

(** ** Factors *)
Definition comp := (list string * (point -> Q) * list box)%type.
Definition c_obs (c : comp) := fst (fst c).
Definition c_u (c : comp) := snd (fst c).
Definition c_nm (c : comp) := snd c.
Definition sb (obs have : list string) (b : box) : bool :=
  intersectsb String.eqb obs (box_obs b) && intersectsb String.eqb obs have.
(** the normalisation of what a factor contributes *)
Definition k (have : list string) (b : box) (n : nrm) (x : point) (c : comp) : Q :=
  if sb (c_obs c) have b then (/ Ints (c_nm c) (c_u c) x)%Q
  else match n with NFalse => 1%Q | N bs => (/ Ints (map (sub (c_obs c)) bs) (c_u c) x)%Q end.

Lemma factor_ok obs os u part have b x n nm :
  NoDup obs -> splits obs have b -> os <> [] -> (forall o, In o os -> In o obs) ->
  (straddles os have b -> exists v, part = Ok v /\ (v == Int (sub os b) u x / Ints nm u x)%Q) ->
  exists v, factor I os u part (filter (fun o => mem String.eqb o obs) have) x [sub obs b] n = Ok v
    /\ (v == k have b n x (os, u, nm) * Int (sub os b) u x)%Q.
Proof.
  intros NO SP NE S HP. destruct SP as (ND & H). unfold factor, k, c_obs, c_u, c_nm. cbn [fst snd existsb map].
  rewrite orb_false_r.
  assert (E1 : intersectsb String.eqb os (box_obs (sub obs b)) = intersectsb String.eqb os (box_obs b)).
  { apply eq_true_iff_eq. rewrite !intersects_iff. split; intros (o & A & B); exists o; (split; [auto|]).
    - apply box_sub in B. tauto.
    - apply box_sub. auto. }
  assert (E2 : intersectsb String.eqb os (filter (fun o => mem String.eqb o obs) have) = intersectsb String.eqb os have).
  { apply eq_true_iff_eq. rewrite !intersects_iff. split; intros (o & A & B); exists o; (split; [auto|]).
    - apply filter_In in B. tauto.
    - apply filter_In. rewrite smem_In. auto. }
  rewrite E1, E2. unfold sb. rewrite sub_sub by auto.
  destruct (intersectsb String.eqb os (box_obs b)) eqn:L, (intersectsb String.eqb os have) eqn:D; cbn [andb negb].
  - destruct HP as (v & -> & E).
    { apply intersects_iff in L, D. split; [destruct D as (o & A & B)|destruct L as (o & A & B)]; eauto. }
    exists v. split; [reflexivity|]. rewrite E. unfold Qdiv. ring.
  - eexists. split; [reflexivity|]. unfold Part_Model.normed, sub_nrm. destruct n as [|bs].
    + rewrite Ints_one. ring.
    + rewrite Ints_one. unfold Qdiv. ring.
  - assert (Z : sub os b = []).
    { destruct (sub os b) as [|[o l] r] eqn:Es; [reflexivity|]. exfalso.
      assert (Io : In o (box_obs (sub os b))) by (rewrite Es; now left). apply box_sub in Io.
      assert (intersectsb String.eqb os (box_obs b) = true) by (apply intersects_iff; eauto). congruence. }
    rewrite Z. cbn [Part_Model.Int]. eexists. split; [reflexivity|]. unfold Part_Model.normed, sub_nrm.
    destruct n as [|bs]; [ring|]. unfold Qdiv. ring.
  - exfalso. destruct os as [|o os]; [contradiction|]. specialize (H o (S o (or_introl eq_refl))).
    destruct H as [[A _]|[_ A]].
    + assert (intersectsb String.eqb (o :: os) have = true) by (apply intersects_iff; exists o; split; [now left|auto]). congruence.
    + assert (intersectsb String.eqb (o :: os) (box_obs b) = true) by (apply intersects_iff; exists o; split; [now left|auto]). congruence.
Qed.

(** ** The parts of a product *)
Definition alone (ds : list pdf) : list pdf := filter (fun d => negb (overlaps ds d)) ds.
Definition same (ds : list pdf) : list pdf := filter (overlaps ds) ds.
Definition same_u (ds : list pdf) : point -> Q := fun y => prodQ (map (fun d => unnorm d y) (same ds)).
Definition comps (ds : list pdf) (snm : list box) : list comp :=
  map (fun d => (p_obs d, unnorm d, p_nm d)) (alone ds)
  ++ match same ds with [] => [] | _ => [(all_obs (same ds), same_u ds, snm)] end.

Lemma prod_app l m : (prodQ (l ++ m) == prodQ l * prodQ m)%Q.
Proof.
  induction l as [|a l IH].
  - change (prodQ m == 1 * prodQ m)%Q. ring.
  - change (a * prodQ (l ++ m) == a * prodQ l * prodQ m)%Q. rewrite IH. ring.
Qed.
Lemma prod_split {A} (f : A -> bool) (g : A -> Q) l :
  (prodQ (map g l) == prodQ (map g (filter (fun a => negb (f a)) l)) * prodQ (map g (filter f l)))%Q.
Proof.
  induction l as [|a l IH]; [reflexivity|]. cbn [map filter]. 
  destruct (f a); cbn [negb map prodQ fold_right]; change (fold_right Qmult 1%Q) with prodQ; rewrite IH; ring.
Qed.
Lemma unnorm_comps obs ds nm snm y :
  (unnorm (Prod obs ds nm snm) y == prodQ (map (fun c => c_u c y) (comps ds snm)))%Q.
Proof.
  cbn [Part_Model.unnorm]. rewrite (prod_split (overlaps ds)). unfold comps.
  rewrite map_app, prod_app, map_map. cbn [c_u fst snd]. apply Qmult_comp; [reflexivity|].
  fold (same ds). unfold same_u. destruct (same ds) as [|s l] eqn:E; [reflexivity|].
  cbn [map prodQ fold_right c_u fst snd]. ring.
Qed.

Lemma count_split (f : pdf -> bool) o ds :
  count o ds = count o (filter (fun d => negb (f d)) ds) + count o (filter f ds).
Proof.
  unfold count. induction ds as [|d ds IH]; [reflexivity|]. cbn.
  destruct (f d) eqn:Ef, (mem String.eqb o (p_obs d)) eqn:Em; cbn; rewrite ?Em; cbn; rewrite ?Em; cbn; lia.
Qed.
Lemma count_pos o d ds : In d ds -> In o (p_obs d) -> 1 <= count o ds.
Proof.
  intros I0 I1. unfold count. assert (In d (filter (fun d => mem String.eqb o (p_obs d)) ds)) as H.
  { apply filter_In. rewrite smem_In. auto. }
  destruct (filter _ ds); [destruct H|cbn; lia].
Qed.
Lemma alone_count ds d o : In d (alone ds) -> In o (p_obs d) -> count o ds <= 1.
Proof.
  intros I0 I1. apply filter_In in I0. destruct I0 as [_ H]. apply negb_true_iff in H.
  unfold overlaps in H. destruct (Nat.ltb 1 (count o ds)) eqn:E; [|now apply Nat.ltb_ge in E].
  assert (existsb (fun o => Nat.ltb 1 (count o ds)) (p_obs d) = true) by (apply existsb_exists; eauto). congruence.
Qed.
Lemma alone_disjoint l : (forall d o, In d l -> In o (p_obs d) -> count o l <= 1) ->
  ForallOrdPairs (fun c d => disj (p_obs c) (p_obs d)) l.
Proof.
  induction l as [|d l IH]; intros H; constructor.
  - apply Forall_forall. intros d' I' o A B.
    specialize (H d o (or_introl eq_refl) A). unfold count in H. cbn in H.
    rewrite (proj2 (smem_In o (p_obs d)) A) in H. cbn in H. pose proof (count_pos o d' l I' B) as C. unfold count in C. lia.
  - apply IH. intros d' o I' A. specialize (H d' o (or_intror I') A). unfold count in *. cbn in H.
    destruct (mem String.eqb o (p_obs d)); cbn in H; lia.
Qed.
Lemma fop_map {A B} (f : A -> B) (R : B -> B -> Prop) l :
  ForallOrdPairs (fun a b => R (f a) (f b)) l -> ForallOrdPairs R (map f l).
Proof.
  induction 1 as [|a l F P IH]; cbn; constructor; auto. rewrite Forall_map. exact F.
Qed.
Lemma fop_snoc {A} (R : A -> A -> Prop) l x :
  ForallOrdPairs R l -> Forall (fun a => R a x) l -> ForallOrdPairs R (l ++ [x]).
Proof.
  induction 1 as [|a l F P IH]; intros G; cbn; [repeat constructor|].
  inversion G; subst. constructor; auto. apply Forall_app. split; auto.
Qed.
Lemma in_all_obs o ds : In o (all_obs ds) <-> exists d, In d ds /\ In o (p_obs d).
Proof. unfold all_obs. rewrite nodup_In, in_flat_map. reflexivity. Qed.
Lemma comps_disjoint ds snm : ForallOrdPairs (fun c d => disj (c_obs c) (c_obs d)) (comps ds snm).
Proof.
  assert (A : ForallOrdPairs (fun c d => disj (c_obs c) (c_obs d))
                (map (fun d => (p_obs d, unnorm d, p_nm d)) (alone ds))).
  { apply fop_map. cbn. apply alone_disjoint. intros d o I0 I1.
    pose proof (alone_count ds d o I0 I1) as C. rewrite (count_split (overlaps ds)) in C.
    unfold alone. lia. }
  unfold comps. destruct (same ds) as [|s l] eqn:E; [now rewrite app_nil_r|].
  apply fop_snoc; [exact A|]. rewrite Forall_map. apply Forall_forall. intros d Id o I0 I1.
  cbn in I0, I1. change (In o (all_obs (s :: l))) in I1. rewrite <- E in I1. apply in_all_obs in I1.
  destruct I1 as (d' & Id' & Io'). pose proof (alone_count ds d o Id I0) as C.
  rewrite (count_split (overlaps ds)) in C.
  pose proof (count_pos o d _ Id I0) as C1. pose proof (count_pos o d' _ Id' Io') as C2.
  unfold alone, same in *. lia.
Qed.
Lemma same_u_depends ds : Forall wf ds -> depends (all_obs (same ds)) (same_u ds).
Proof.
  intros W x y H. unfold same_u. apply prod_ext. intros d Id.
  assert (In d ds) by (apply filter_In in Id; tauto). rewrite Forall_forall in W.
  apply (unnorm_depends d (W d H0)). intros o I0. apply H. apply in_all_obs. eauto.
Qed.
Lemma comps_ok obs ds nm snm : wf (Prod obs ds nm snm) ->
  Forall (fun c => NoDup (c_obs c) /\ c_obs c <> [] /\ depends (c_obs c) (c_u c)
                   /\ is_range (c_obs c) (c_nm c) /\ forall o, In o (c_obs c) -> In o obs) (comps ds snm).
Proof.
  intros W. apply wf_prod in W. destruct W as (NO & _ & _ & HS & HO & W). unfold comps. apply Forall_app. split.
  - rewrite Forall_map. apply Forall_forall. intros d Id. cbn.
    assert (In d ds) as Id' by (apply filter_In in Id; tauto). rewrite Forall_forall in W. specialize (W d Id').
    repeat split.
    + now apply wf_nodup.
    + now apply wf_nonempty.
    + now apply unnorm_depends.
    + now apply wf_range.
    + intros o I0. apply HO. eauto.
  - fold (same ds) in HS. destruct (same ds) as [|s l] eqn:E; constructor; [|constructor].
    rewrite <- E in *. unfold c_obs, c_u, c_nm. cbn [fst snd]. repeat split.
    + apply NoDup_nodup.
    + assert (Is : In s (same ds)) by (rewrite E; now left).
      assert (Is' : In s ds) by (apply filter_In in Is; tauto).
      rewrite Forall_forall in W. pose proof (wf_nonempty s (W s Is')) as NE.
      destruct (p_obs s) as [|o os] eqn:Eo; [contradiction|].
      intros Z. assert (In o (all_obs (same ds))) as B by (apply in_all_obs; exists s; rewrite Eo; split; [auto|now left]).
      rewrite Z in B. destruct B.
    + now apply same_u_depends.
    + apply HS. rewrite E. discriminate.
    + intros o I0. apply in_all_obs in I0. destruct I0 as (d & A & B). apply HO. exists d.
      apply filter_In in A. tauto.
Qed.
Lemma comps_cover obs ds nm snm o : wf (Prod obs ds nm snm) -> In o obs -> In o (flat_map c_obs (comps ds snm)).
Proof.
  intros W I0. apply wf_prod in W. destruct W as (_ & _ & _ & _ & HO & _). apply HO in I0.
  destruct I0 as (d & Id & Io). unfold comps. rewrite flat_map_app. apply in_or_app.
  destruct (overlaps ds d) eqn:E.
  - right. assert (Is : In d (same ds)) by (apply filter_In; auto).
    destruct (same ds) as [|s l] eqn:Es; [destruct Is|]. rewrite <- Es in *. cbn. apply in_or_app. left.
    unfold c_obs. cbn. change (In o (all_obs (same ds))). apply in_all_obs. eauto.
  - left. apply in_flat_map. exists (p_obs d, unnorm d, p_nm d). split; [|exact Io].
    apply in_map_iff. exists d. split; [reflexivity|]. apply filter_In. rewrite E. auto.
Qed.
(** the integral of a product *)
Lemma Int_comps obs ds nm snm b x : wf (Prod obs ds nm snm) -> NoDup (box_obs b) ->
  (forall o, In o (box_obs b) -> In o obs) ->
  (Int b (unnorm (Prod obs ds nm snm)) x
   == prodQ (map (fun c => Int (sub (c_obs c) b) (c_u c) x) (comps ds snm)))%Q.
Proof.
  intros W ND H. rewrite (Int_ext I OK b _ _ x (unnorm_comps obs ds nm snm)).
  pose proof (Int_prod I OK (map (fun c => (c_obs c, c_u c)) (comps ds snm)) b x) as E.
  rewrite !map_map in E. cbn [fst snd] in E.
  rewrite (Int_ext I OK b _ (fun y => prodQ (map (fun c => snd c y) (map (fun c => (c_obs c, c_u c)) (comps ds snm)))) x).
  - apply E.
    + rewrite Forall_map. apply Forall_impl with (2 := comps_ok obs ds nm snm W). cbn. tauto.
    + apply fop_map. cbn. apply comps_disjoint.
    + exact ND.
    + intros o I0. specialize (comps_cover obs ds nm snm o W (H o I0)) as C.
      apply in_flat_map in C. destruct C as (c & A & B). apply in_flat_map. exists (c_obs c, c_u c).
      split; [|exact B]. apply in_map_iff. eauto.
  - intros y. rewrite map_map. reflexivity.
Qed.

(** what a product gives *)
Lemma mapM_ones (ds : list pdf) (f : pdf -> bool) (r : pdf -> result Q) (w : pdf -> Q) :
  (forall d, In d ds -> f d = false -> exists v, r d = Ok v /\ (v == w d)%Q) ->
  exists vs, mapM (fun r => r) (map (fun d => if f d then Ok 1%Q else r d) ds) = Ok vs
    /\ (prodQ vs == prodQ (map w (filter (fun d => negb (f d)) ds)))%Q.
Proof.
  induction ds as [|d ds IH]; intros H; cbn; [eexists; split; reflexivity|].
  destruct IH as (vs & E & P); [intros d' I'; apply H; now right|].
  destruct (f d) eqn:F; cbn.
  - rewrite E. cbn. eexists. split; [reflexivity|]. cbn [prodQ fold_right]. change (fold_right Qmult 1%Q) with prodQ. rewrite P. ring.
  - destruct (H d (or_introl eq_refl) F) as (v & -> & Ev). cbn. rewrite E. cbn. eexists. split; [reflexivity|].
    cbn [map prodQ fold_right]. change (fold_right Qmult 1%Q) with prodQ. rewrite P, Ev. reflexivity.
Qed.
Lemma prod_partial obs ds nm snm have b x n :
  wf (Prod obs ds nm snm) -> splits obs have b -> forallb (overlaps ds) ds = false ->
  (forall d, In d ds -> overlaps ds d = false -> straddles (p_obs d) have b ->
     exists v, partial I d (filter (fun o => mem String.eqb o obs) have) x [sub obs b] (N (p_nm d)) = Ok v
       /\ (v == Int (sub (p_obs d) b) (unnorm d) x / Ints (p_nm d) (unnorm d) x)%Q) ->
  exists v, partial I (Prod obs ds nm snm) have x [b] n = Ok v
    /\ (v == prodQ (map (fun c => k have b n x c * Int (sub (c_obs c) b) (c_u c) x) (comps ds snm)))%Q.
Proof.
  intros W SP NA HD. pose proof (comps_ok obs ds nm snm W) as C.
  pose proof W as W0. apply wf_prod in W0. destruct W0 as (NO & _ & _ & _ & HO & WD). rewrite Forall_forall in WD.
  cbn [partial p_obs map]. rewrite NA.
  destruct (mapM_ones ds (overlaps ds)
    (fun d => factor I (p_obs d) (unnorm d)
       (partial I d (filter (fun o => mem String.eqb o obs) have) x [sub obs b] (N (p_nm d)))
       (filter (fun o => mem String.eqb o obs) have) x [sub obs b] n)
    (fun d => k have b n x (p_obs d, unnorm d, p_nm d) * Int (sub (p_obs d) b) (unnorm d) x)%Q)
    as (vs & -> & PV).
  { intros d Id Eo. apply factor_ok; auto.
    - apply wf_nonempty. auto.
    - intros o I0. apply HO. eauto. }
  cbn [bind]. fold (same ds). unfold comps. rewrite map_app.
  destruct (same ds) as [|s l] eqn:Es.
  - cbn [bind map]. eexists. split; [reflexivity|]. rewrite PV, app_nil_r, map_map.
    unfold alone. cbn [c_obs c_u fst snd]. ring.
  - rewrite <- Es in *.
    assert (Cs : In (all_obs (same ds), same_u ds, snm) (comps ds snm)).
    { unfold comps. apply in_or_app. right. rewrite Es. now left. }
    rewrite Forall_forall in C. specialize (C _ Cs). unfold c_obs, c_u, c_nm in C. cbn [fst snd] in C.
    destruct C as (C1 & C2 & C3 & C4 & C5).
    destruct (factor_ok obs (all_obs (same ds)) (same_u ds)
       (generic I (all_obs (same ds)) (same_u ds) (fun _ => false)
          (filter (fun o => mem String.eqb o (all_obs (same ds))) (filter (fun o => mem String.eqb o obs) have))
          x (map (sub (all_obs (same ds))) [sub obs b]) (N snm)) have b x n snm NO SP C2 C5) as (v & Ev & Pv).
    { intros _. cbn [map].
      destruct (generic_ok (all_obs (same ds)) (same_u ds) (fun _ => false)
        (filter (fun o => mem String.eqb o obs) have) (sub obs b) x (N snm) C1) as (v & E & P).
      { now apply splits_sub. }
      exists v. split; [exact E|]. rewrite P. cbn [Part_Model.normed]. now rewrite sub_sub. }
    unfold same_u in Ev at 1 2. cbn [map] in Ev.
    match goal with |- exists v0, bind ?a ?g = _ /\ _ => assert (EA : a = Ok v) end.
    { clear - Ev Es. rewrite Es in Ev |- *. exact Ev. }
    rewrite EA. cbn [bind]. eexists. split; [reflexivity|].
    rewrite PV, Pv, prod_app, map_map. unfold alone.
    apply Qmult_comp; [reflexivity|]. cbn [map prodQ fold_right c_obs c_u fst snd]. ring.
Qed.
End I.
