(** Proofs for spaces, part 3: every rectangular space of the API is well formed; combination. *)
From Coq Require Import Permutation Lqa.
From Verif Require Import Base BaseLemmas Coord_Model Coord_Spec Coord_Proofs Space_Model Space_Spec
  Space_Proofs Space_Proofs2.

Definition made (s : space) : Prop :=
  exists c od da b, coords_ok c /\ space_of_dict c od da b = Ok s.

Lemma made_full s os f : wf_rect s os f -> made s -> wf_full s os f.
Proof.
  intros W [c [od [da [b [Hok H]]]]]. split; [exact W|]. pose proof W as [Ho [Hnd [Hne [d [Hd Hw]]]]].
  pose proof (space_of_dict_coords _ _ _ _ _ H) as Hc. unfold s_obs in Ho. rewrite Hc in Ho.
  unfold coords_ok in Hok. rewrite Ho in Hok.
  unfold space_of_dict in H. bindn H nn Hn. destruct nn as [no na]. bindn H b' Hb. inversion H; clear H. subst s.
  unfold axes_ok, binning_ok, s_axes. simpl in *. split.
  - unfold convert_limits_dict in Hn. destruct os as [|o0 os]; [congruence|].
    rewrite Ho in Hn. destruct od as [od|]; [|destruct da as [da|]; [|discriminate]];
      bindn Hn no' Hno; bindn Hn na' Hna; inversion Hn; clear Hn Hno; subst no' na';
      destruct (c_axes c) as [[|ax axs]|] eqn:Ea; try discriminate; try (inversion Hna; reflexivity);
      (split; [exact Hok|]).
    + destruct da as [da|]; [inversion Hna; eexists; reflexivity|].
      bindn Hna x Hx. inversion Hna; subst. eexists; reflexivity.
    + inversion Hna. eexists; reflexivity.
  - destruct b' as [b'|]; [|exact I]. destruct b as [b|]; [|discriminate].
    destruct (sort_binning_names _ _ _ _ Ho Hb) as [l [El Hl]]. inversion El; subst. reflexivity.
Qed.

Lemma made_make os axs i b s : make_space os axs i b = Ok s -> made s.
Proof.
  unfold make_space. intros H. bindn H c Hc. bindn H l Hl. repeat eexists; [|exact H]. eapply make_coords_ok, Hc.
Qed.
Lemma made_with_obs s req sup sub s' : s_with_obs s (Some req) sup sub = Ok s' -> made s'.
Proof.
  unfold s_with_obs. intros H. bindn H c Hc. bindn H b Hb. repeat eexists; [|exact H].
  eapply with_obs_coords_ok, Hc.
Qed.
Lemma made_with_axes s req sup sub s' : s_with_axes s req sup sub = Ok s' -> made s' \/ s' = s.
Proof.
  unfold s_with_axes. destruct req as [a|].
  - destruct (s_axes s).
    + intros H. bindn H c Hc. left. repeat eexists; [|exact H]. eapply with_axes_coords_ok, Hc.
    + destruct (negb _); [discriminate|]. intros H. bindn H c Hc. left. repeat eexists; [|exact H].
      eapply make_coords_ok, Hc.
  - destruct (s_axes s); [|intros H; inversion H; auto]. destruct (s_obs s); [|discriminate].
    intros H. bindn H c Hc. left. repeat eexists; [|exact H]. eapply make_coords_ok, Hc.
Qed.
Lemma made_autofill s ow s' : s_with_autofill_axes s ow = Ok s' -> made s' \/ s' = s.
Proof.
  unfold s_with_autofill_axes. intros H. bindn H nc Hnc.
  destruct (s_axes s); [destruct ow; [|inversion H; auto]|];
    bindn H c Hc; left; repeat eexists; try exact H; eapply make_coords_ok, Hc.
Qed.
Lemma made_subspace s req s' : s_get_subspace s req = Ok s' -> made s'.
Proof.
  unfold s_get_subspace. intros H. bindn H d' Hd. bindn H c Hc.
  repeat eexists; [|exact H]. eapply with_obs_coords_ok, Hc.
Qed.

(* ---------- ordered union ---------- *)
Lemma add_new_In acc o x : In x (add_new String.eqb acc o) <-> In x acc \/ x = o.
Proof.
  unfold add_new. destruct (mem String.eqb o acc) eqn:E.
  - apply (mem_In _ string_eqb_ok) in E. split; [auto|]. intros [H| ->]; assumption.
  - rewrite in_app_iff. simpl. intuition.
Qed.
Lemma add_new_nodup acc o : NoDup acc -> NoDup (add_new String.eqb acc o).
Proof.
  intros H. unfold add_new. destruct (mem String.eqb o acc) eqn:E; [exact H|].
  apply (mem_false _ string_eqb_ok) in E. apply NoDup_app_intro'; [exact H|constructor; [intros []|constructor]|].
  intros x Hx [<-|[]]. contradiction.
Qed.
Lemma union1_spec l : forall acc, NoDup acc ->
  NoDup (fold_left (add_new String.eqb) l acc)
  /\ (forall x, In x (fold_left (add_new String.eqb) l acc) <-> In x acc \/ In x l)
  /\ exists ext, fold_left (add_new String.eqb) l acc = acc ++ ext.
Proof.
  induction l as [|o l IH]; intros acc Hnd; simpl.
  - split; [exact Hnd|]. split; [intros x; tauto|]. exists []. rewrite app_nil_r. reflexivity.
  - destruct (IH (add_new String.eqb acc o) (add_new_nodup _ _ Hnd)) as [H1 [H2 [ext H3]]].
    split; [exact H1|]. split.
    + intros x. rewrite H2, add_new_In. split; intros H; [destruct H as [[H|H]|H]|destruct H as [H|[H|H]]]; auto.
    + rewrite H3. unfold add_new. destruct (mem String.eqb o acc); [exists ext; reflexivity|].
      exists (o :: ext). rewrite <- app_assoc. reflexivity.
Qed.
Lemma union_spec ls : forall acc, NoDup acc ->
  let r := fold_left (fun acc l => fold_left (add_new String.eqb) l acc) ls acc in
  NoDup r /\ (forall x, In x r <-> In x acc \/ exists l, In l ls /\ In x l) /\ exists ext, r = acc ++ ext.
Proof.
  induction ls as [|l ls IH]; intros acc Hnd; simpl.
  - split; [exact Hnd|]. split; [|exists []; rewrite app_nil_r; reflexivity].
    intros x. split; [auto|]. intros [H|[l [[] _]]]. exact H.
  - destruct (union1_spec l acc Hnd) as [H1 [H2 [e1 H3]]]. destruct (IH _ H1) as [H4 [H5 [e2 H6]]].
    split; [exact H4|]. split.
    + intros x. rewrite H5, H2. split.
      * intros [[H|H]|[l' [Ha Hb]]]; [auto|right; exists l; auto|right; exists l'; auto].
      * intros [H|[l' [[<-|Ha] Hb]]]; [auto|auto|right; exists l'; auto].
    + exists (e1 ++ e2). rewrite H6, H3, app_assoc. reflexivity.
Qed.
Lemma union_order ls A l1 l l2 p c q o :
  ordered_union String.eqb ls = A -> ls = l1 ++ l :: l2 -> A = p ++ c :: q ->
  (forall l', In l' l1 -> ~ In c l') -> (exists l', In l' l1 /\ In o l') -> In o p.
Proof.
  intros E -> EA Hc Ho. unfold ordered_union in E. rewrite fold_left_app in E.
  set (B := fold_left (fun acc l => fold_left (add_new String.eqb) l acc) l1 []) in *.
  destruct (union_spec l1 [] (NoDup_nil _)) as [B1 [B2 _]]. fold B in B1, B2.
  destruct (union_spec (l :: l2) B B1) as [C1 [C2 [ext C3]]]. rewrite E in C1, C3. rewrite C3 in EA.
  assert (HcB : ~ In c B). { intros H. apply B2 in H. destruct H as [[]|[l' [H1 H2]]]. eapply Hc; eassumption. }
  assert (HoB : In o B) by (apply B2; right; exact Ho).
  clear - EA HcB HoB. revert p EA HcB HoB. induction B as [|b B IH]; intros p EA Hc Ho; [destruct Ho|].
  destruct p as [|x p]; simpl in EA; inversion EA; subst.
  - exfalso. apply Hc. left. reflexivity.
  - destruct Ho as [<-|Ho]; [left; reflexivity|]. right. apply IH; [assumption| |exact Ho].
    intros H. apply Hc. right. exact H.
Qed.
Lemma union_first_appearance_gen ls : forall acc,
  exists out, first_appearance acc ls out
    /\ fold_left (fun acc l => fold_left (add_new String.eqb) l acc) ls acc = acc ++ out.
Proof.
  assert (Hext : forall seen ls out, first_appearance seen ls out -> forall seen',
             (forall o, In o seen <-> In o seen') -> first_appearance seen' ls out).
  { intros seen ls' out H. induction H; intros seen' Hs.
    - constructor. - constructor; auto. - apply fa_old; [apply Hs; assumption|auto].
    - apply fa_new; [intros C; apply Hs in C; contradiction|]. apply IHfirst_appearance. intros x. simpl. rewrite Hs. tauto. }
  induction ls as [|l ls IH]; intros acc; simpl.
  - exists []. split; [constructor|rewrite app_nil_r; reflexivity].
  - revert acc. induction l as [|o l IHl]; intros acc; simpl.
    + destruct (IH acc) as [out [H1 H2]]. exists out. split; [constructor; exact H1|exact H2].
    + destruct (IHl (add_new String.eqb acc o)) as [out [H1 H2]]. unfold add_new in *.
      destruct (mem String.eqb o acc) eqn:E.
      * exists out. split; [apply fa_old; [apply (mem_In _ string_eqb_ok), E|exact H1]|exact H2].
      * apply (mem_false _ string_eqb_ok) in E. exists (o :: out). split; [|rewrite H2, <- app_assoc; reflexivity].
        apply fa_new; [exact E|]. eapply Hext; [exact H1|]. intros x. rewrite in_app_iff. simpl. tauto.
Qed.
Lemma union_first_appearance ls : first_appearance [] ls (ordered_union String.eqb ls).
Proof.
  destruct (union_first_appearance_gen ls []) as [out [H1 H2]]. unfold ordered_union. rewrite H2. exact H1.
Qed.

(* ---------- combine ---------- *)
Lemma common_obs_good ss : (forall s, In s ss -> good s) ->
  common_obs ss = Some (ordered_union String.eqb (map obs_list ss)).
Proof.
  intros H. unfold common_obs. assert (E : all_some (map s_obs ss) = Some (map obs_list ss)).
  { induction ss as [|s ss IH]; [reflexivity|]. simpl. destruct (H s (or_introl eq_refl)) as [[Ho _] _]. rewrite Ho.
    rewrite IH; [reflexivity|]. intros s' Hs'. apply H. right. exact Hs'. }
  rewrite E. reflexivity.
Qed.

Definition related (s s' : space) : Prop :=
  (forall o, In o (obs_list s') <-> In o (obs_list s)) /\ (forall o, In o (obs_list s) -> lim_at s' o = lim_at s o).
Lemma related_filter ss ss' o : Forall2 related ss ss' ->
  Forall2 (fun s s' => related s s') (filter (has_coord o) ss) (filter (has_coord o) ss').
Proof.
  induction 1 as [|s s' ss ss' [H1 H2] H IH]; [constructor|]. simpl.
  assert (E : has_coord o s' = has_coord o s).
  { destruct (has_coord o s) eqn:E; [apply has_coord_In, H1, has_coord_In, E|].
    destruct (has_coord o s') eqn:E'; [|reflexivity]. apply has_coord_In, H1, has_coord_In in E'. congruence. }
  rewrite E. destruct (has_coord o s); [constructor; [split; assumption|exact IH]|exact IH].
Qed.
Lemma related_F ss ss' o : Forall2 related ss ss' -> F ss' o = F ss o.
Proof.
  intros H. pose proof (related_filter _ _ o H) as G. unfold F.
  destruct (filter (has_coord o) ss) as [|s r] eqn:E; inversion G as [|? s' ? ? [H1 H2] ? E1 E2]; subst; [reflexivity|].
  apply H2. assert (X : In s (filter (has_coord o) ss)) by (rewrite E; left; reflexivity).
  apply filter_In in X. apply has_coord_In, X.
Qed.
Lemma related_count ss ss' o : Forall2 related ss ss' -> count_with o ss' = count_with o ss.
Proof. intros H. unfold count_with. symmetry. eapply Forall2_length', related_filter, H. Qed.
Lemma related_In ss ss' : Forall2 related ss ss' ->
  (forall s', In s' ss' -> exists s, In s ss /\ related s s') /\ (forall s, In s ss -> exists s', In s' ss' /\ related s s').
Proof.
  induction 1 as [|s s' ss ss' R H [IH1 IH2]]; [split; intros ? []|]. split; intros x [<-|Hx].
  - exists s. split; [left; reflexivity|exact R].
  - destruct (IH1 x Hx) as [y [Hy Ry]]. exists y. split; [right; exact Hy|exact Ry].
  - exists s'. split; [left; reflexivity|exact R].
  - destruct (IH2 x Hx) as [y [Hy Ry]]. exists y. split; [right; exact Hy|exact Ry].
Qed.

Lemma combine_reorder ss all : (forall s, In s ss -> good s) -> NoDup all ->
  (forall o s, In s ss -> In o (obs_list s) -> In o all) ->
  exists ss', mapM (fun s => s_with_obs s (Some all) true true) ss = Ok ss'
    /\ Forall2 related ss ss' /\ (forall s, In s ss' -> good s).
Proof.
  intros Hg Hnd Hall. induction ss as [|s ss IH]; [exists []; split; [reflexivity|]; split; [constructor|intros ? []]|].
  destruct IH as [ss' [E [R G]]]; [intros x Hx; apply Hg; right; exact Hx|intros o x Hx; apply Hall; right; exact Hx|].
  pose proof (Hg s (or_introl eq_refl)) as Gs.
  destruct (s_with_obs_total _ _ _ all true true Gs Hnd) as [s' [Es [Ws _]]].
  { split; [|split; discriminate]. destruct Gs as [[_ [_ [Hne _]]] _]. destruct (obs_list s) as [|o os] eqn:Eo; [congruence|].
    exists o. split; [|left; reflexivity]. apply (Hall o s); [left; reflexivity|rewrite Eo; left; reflexivity]. }
  exists (s' :: ss'). cbn [mapM]. rewrite Es. cbn [bind]. rewrite E. cbn [bind]. split; [reflexivity|]. split.
  - constructor; [|exact R]. split.
    + intros o. rewrite (wf_obs_list _ _ _ (wf_full_rect _ _ _ Ws)), sel_In. split; [tauto|].
      intros Ho. split; [apply (Hall o s); [left; reflexivity|exact Ho]|exact Ho].
    + intros o Ho. apply (wf_lim_at _ _ _ _ (wf_full_rect _ _ _ Ws)). apply sel_In. split; [|exact Ho].
      apply (Hall o s); [left; reflexivity|exact Ho].
  - intros x [<-|Hx]; [eapply wf_good, Ws|apply G, Hx].
Qed.

Definition all_of (ss : list space) : list string := ordered_union String.eqb (map obs_list ss).
Lemma all_of_nodup ss : NoDup (all_of ss).
Proof. unfold all_of, ordered_union. apply (union_spec _ [] (NoDup_nil _)). Qed.
Lemma all_of_In ss o : In o (all_of ss) <-> exists s, In s ss /\ In o (obs_list s).
Proof.
  unfold all_of, ordered_union. destruct (union_spec (map obs_list ss) [] (NoDup_nil _)) as [_ [H _]]. rewrite H.
  split.
  - intros [[]|[l [Hl Ho]]]. apply in_map_iff in Hl. destruct Hl as [s [<- Hs]]. eauto.
  - intros [s [Hs Ho]]. right. exists (obs_list s). split; [apply in_map, Hs|exact Ho].
Qed.

Lemma related_not_before ss ss' o c p q : Forall2 related ss ss' ->
  all_of ss = p ++ c :: q -> ~ In o p -> not_before ss' o c.
Proof.
  intros R EA Hp l1 sp l2 E Hc Hl s Hs Ho.
  rewrite E in R. apply Forall2_app_inv_r in R. destruct R as [k1 [k2' [R1 [R2 ->]]]].
  inversion R2 as [|sp0 ? k2 ? Rs R2']; subst.
  apply Hp. eapply (union_order _ _ (map obs_list k1) (obs_list sp0) (map obs_list k2)); [reflexivity| |exact EA| |].
  - rewrite map_app. reflexivity.
  - intros l' Hl' Hin. apply in_map_iff in Hl'. destruct Hl' as [s0 [<- Hs0]].
    destruct (proj2 (related_In _ _ R1) s0 Hs0) as [s1 [Hs1 [Ra _]]]. apply (Hl s1 Hs1), Ra, Hin.
  - destruct (proj1 (related_In _ _ R1) s Hs) as [s0 [Hs0 [Ra _]]]. exists (obs_list s0).
    split; [apply in_map, Hs0|apply Ra, Ho].
Qed.

Lemma all_false_good ss : (forall s, In s ss -> good s) -> ss <> [] ->
  forallb s_limits_are_false ss = false /\ forallb (fun s => negb (s_limits_are_set s)) ss = false
  /\ forallb s_has_limits ss = true.
Proof.
  intros Hg Hne. assert (H : forall s, In s ss -> s_limits_are_false s = false /\ s_limits_are_set s = true /\ s_has_limits s = true).
  { intros s Hs. pose proof (wf_full_rect _ _ _ (Hg s Hs)) as W.
    split; [eapply wf_not_false, W|split; [eapply wf_set, W|eapply wf_has_limits, W]]. }
  split; [|split].
  - destruct ss as [|s r]; [congruence|]. simpl. rewrite (proj1 (H s (or_introl eq_refl))). reflexivity.
  - destruct ss as [|s r]; [congruence|]. simpl. rewrite (proj1 (proj2 (H s (or_introl eq_refl)))). reflexivity.
  - apply forallb_forall. intros s Hs. apply (H s Hs).
Qed.

(** Whatever is combined without an error has the observables of all, and for every observable
    the limits of the first space that has it. *)
Lemma combine_full ss s' : (forall s, In s ss -> good s) -> combine_spaces ss = Ok s' ->
  wf_full s' (all_of ss) (F ss).
Proof.
  intros Hg H. unfold combine_spaces in H. rewrite (common_obs_good _ Hg) in H. fold (all_of ss) in H.
  cbv zeta in H. destruct (negb _) in H; [discriminate|]. bindn H b Hb.
  destruct (combine_reorder ss (all_of ss) Hg (all_of_nodup ss)) as [ss' [E [R G]]].
  { intros o s Hs Ho. apply all_of_In. eauto. }
  rewrite E in H. cbn [bind] in H.
  destruct ss as [|s0 ss0].
  { inversion R; subst. simpl in H. unfold make_space in H. destruct b; simpl in H; discriminate. }
  assert (Hne : ss' <> []) by (inversion R; discriminate).
  destruct (all_false_good ss' G Hne) as [E1 [E2 E3]]. rewrite E1, E2, E3 in H. cbn [negb] in H.
  bindn H st Hst. destruct st as [[d U] N]. bindn H c Hc. apply make_coords_fields in Hc as Hc'. destruct Hc' as [Hc1 Hc2].
  set (ss := s0 :: ss0) in *.
  assert (HA : forall o, In o (all_of ss) <-> exists s, In s ss' /\ In o (obs_list s)).
  { intros o. rewrite all_of_In. destruct (related_In _ _ R) as [R1 R2]. split.
    - intros [s [Hs Ho]]. destruct (R2 s Hs) as [s1 [Hs1 [Ra _]]]. exists s1. split; [exact Hs1|apply Ra, Ho].
    - intros [s [Hs Ho]]. destruct (R1 s Hs) as [s1 [Hs1 [Ra _]]]. exists s1. split; [exact Hs1|apply Ra, Ho]. }
  destruct (inv_init ss' (all_of ss) HA (all_of_nodup ss)) as [I0 _].
  destruct (loop_weak ss' G (all_of ss) (all_of ss) [] _ (d, U, N) I0 eq_refl) as [I Hf].
  - intros o [].
  - intros o c0 p q EA Hp Ho. eapply related_not_before; eassumption.
  - exact Hst.
  - pose proof (inv_final ss' (all_of ss) d U N I Hf) as Hw.
    assert (Hw' : dict_wf d (all_of ss) (F ss)).
    { eapply dict_wf_ext; [|exact Hw]. intros o _. apply related_F, R. }
    eapply space_of_dict_full; [exact Hw'|apply incl_refl|apply all_of_nodup| |exact Hc1| |exact H].
    + eapply make_coords_nonempty, Hc.
    + eapply make_coords_ok, Hc.
Qed.

Definition unbinned (s : space) : Prop := s_binning s = None.

Lemma combine_total ss : (forall s, In s ss -> good s) -> (forall s, In s ss -> unbinned s) -> ss <> [] -> unnested ss ->
  (exists s', combine_spaces ss = Ok s' /\
     forall o s, In s ss -> In o (obs_list s) -> agree (F ss o) (lim_at s o))
  \/ (combine_spaces ss = Err LimitsIncompatibleError /\
      exists o s, In s ss /\ In o (obs_list s) /\ ~ agree (F ss o) (lim_at s o)).
Proof.
  intros Hg Hub Hne0 Hun. unfold combine_spaces. rewrite (common_obs_good _ Hg). fold (all_of ss).
  cbv zeta. assert (X1 : existsb is_binned ss = false).
  { destruct (existsb is_binned ss) eqn:E; [|reflexivity]. apply existsb_exists in E. destruct E as [s [Hs E]].
    unfold is_binned in E. rewrite (Hub s Hs) in E. discriminate. }
  assert (X2 : forallb is_binned ss = false).
  { destruct ss as [|s r]; [congruence|]. simpl in *. apply orb_false_iff in X1. destruct X1 as [-> _]. reflexivity. }
  rewrite X1, X2. cbn [negb orb bind].
  destruct (combine_reorder ss (all_of ss) Hg (all_of_nodup ss)) as [ss' [E [R G]]].
  { intros o s Hs Ho. apply all_of_In. eauto. }
  rewrite E. cbn [bind].
  assert (Hne : ss' <> []) by (destruct ss; [congruence|inversion R; discriminate]).
  destruct (all_false_good ss' G Hne) as [E1 [E2 E3]]. rewrite E1, E2, E3. cbn [negb].
  assert (HA : forall o, In o (all_of ss) <-> exists s, In s ss' /\ In o (obs_list s)).
  { intros o. rewrite all_of_In. destruct (related_In _ _ R) as [R1 R2]. split.
    - intros [s [Hs Ho]]. destruct (R2 s Hs) as [s1 [Hs1 [Ra _]]]. exists s1. split; [exact Hs1|apply Ra, Ho].
    - intros [s [Hs Ho]]. destruct (R1 s Hs) as [s1 [Hs1 [Ra _]]]. exists s1. split; [exact Hs1|apply Ra, Ho]. }
  destruct (inv_init ss' (all_of ss) HA (all_of_nodup ss)) as [I0 [I6 I7]].
  assert (Hun' : unnested ss').
  { intros o o' C1 C2 Hs. rewrite (related_count _ _ o R) in C1; rewrite (related_count _ _ o' R) in C2. destruct (related_In _ _ R) as [R1 R2].
    assert (Hs0 : same_spaces ss o o').
    { apply Hun; [exact C1|exact C2|]. intros s Hin Ho. destruct (R2 s Hin) as [s1 [Hs1 [Ra _]]].
      apply Ra, (Hs s1 Hs1), Ra, Ho. }
    intros s Hin. destruct (R1 s Hin) as [s1 [Hs1 [Ra _]]]. rewrite !Ra. apply Hs0, Hs1. }
  assert (Hord : forall o c p q, all_of ss = p ++ c :: q -> ~ In o p -> In o (all_of ss) -> not_before ss' o c).
  { intros o c0 p q EA Hp Ho. eapply related_not_before; eassumption. }
  assert (Hpre : forall o, In o (@nil string) -> ~ In o (snd (fst ((([] : dict string), filter (fun o => Nat.leb (count_with o ss') 1) (all_of ss)), filter (fun o => Nat.ltb 1 (count_with o ss')) (all_of ss)))) /\ ~ In o (filter (fun o => Nat.ltb 1 (count_with o ss')) (all_of ss))) by (intros o []).
  destruct (loop_strong ss' G (all_of ss) HA (all_of ss) Hun' [] _ I0 I6 I7 eq_refl Hpre Hord) as [[st [Est J6]]|[Est [o [s [H1 [H2 H3]]]]]].
  - left. rewrite Est. cbn [bind]. destruct st as [[d U] N].
    destruct (loop_weak ss' G (all_of ss) (all_of ss) [] _ _ I0 eq_refl Hpre Hord Est) as [I Hf].
    pose proof (inv_final ss' (all_of ss) d U N I Hf) as Hw.
    assert (Hane : all_of ss <> []).
    { destruct ss as [|s r] eqn:Es; [congruence|]. destruct (Hg s (or_introl eq_refl)) as [[_ [_ [Hn _]]] _].
      destruct (obs_list s) as [|o os] eqn:Eo; [congruence|]. intros C.
      assert (Hin : In o (all_of (s :: r))) by (apply all_of_In; exists s; rewrite Eo; split; left; reflexivity).
      rewrite C in Hin. exact Hin. }
    rewrite (make_coords_total _ None Hane) by discriminate. cbn [bind].
    destruct (space_of_dict_total (mkCoords (Some (all_of ss)) None) d None None (all_of ss) (all_of ss) (F ss') Hw) as [s' [Es' _]];
      [apply incl_refl|apply all_of_nodup|exact Hane|reflexivity|exact Logic.I|intros C; exfalso; apply C; reflexivity|discriminate|].
    exists s'. split; [exact Es'|]. intros o s Hs Ho.
    destruct (proj2 (related_In _ _ R) s Hs) as [s1 [Hs1 [Ra Rb]]].
    rewrite <- (related_F _ _ o R), <- (Rb o Ho).
    destruct (Nat.le_gt_cases (count_with o ss') 1) as [Hc|Hc].
    + rewrite (unique_F ss' o s1 Hc Hs1); [apply agree_refl|]. apply Ra, Ho.
    + assert (HoA : In o (all_of ss)) by (apply all_of_In; eauto).
      apply (J6 o HoA (proj2 (Hf o HoA)) Hc s1 Hs1). apply Ra, Ho.
  - right. rewrite Est. split; [reflexivity|]. destruct (proj1 (related_In _ _ R) s H1) as [s0 [Hs0 [Ra Rb]]].
    exists o, s0. split; [exact Hs0|]. split; [apply Ra, H2|]. rewrite <- (related_F _ _ o R), <- Rb; [exact H3|]. apply Ra, H2.
Qed.

(* ---------- every rectangular space of the API ---------- *)
Lemma rect_space_full : forall s, rect_space s -> exists os f, wf_full s os f.
Proof.
  fix IH 2. intros s H. destruct H.
  - destruct (make_space_wf _ _ _ _ _ _ H H0) as [_ [_ W]]. do 2 eexists. eapply made_full; [exact W|eapply made_make, H0].
  - destruct (make_space_binned_wf _ _ _ _ H H0) as [ivs [_ W]]. do 2 eexists. eapply made_full; [exact W|eapply made_make, H0].
  - destruct (IH _ H) as [os [f W]]. pose proof (with_obs_wf _ _ _ _ _ _ _ (wf_full_rect _ _ _ W) H0 H1) as W'.
    do 2 eexists. eapply made_full; [exact W'|eapply made_with_obs, H1].
  - destruct (IH _ H) as [os [f W]].
    destruct (with_axes_wf _ _ _ _ _ _ _ (wf_full_rect _ _ _ W) (fun r (E : None = Some r) => ltac:(discriminate)) H0) as [os' [_ W']].
    destruct (made_with_axes _ _ _ _ _ H0) as [M| ->]; [|exists os, f; exact W]. exists os', f. eapply made_full; eassumption.
  - destruct (IH _ H) as [os [f W]].
    assert (Hr : forall r, Some req = Some r -> NoDup r) by (intros r E; inversion E; subst; exact H0).
    destruct (with_axes_wf _ _ _ _ _ _ _ (wf_full_rect _ _ _ W) Hr H1) as [os' [_ W']].
    destruct (made_with_axes _ _ _ _ _ H1) as [M| ->]; [|exists os, f; exact W]. exists os', f. eapply made_full; eassumption.
  - destruct (IH _ H) as [os [f W]]. pose proof (autofill_wf _ _ _ _ _ (wf_full_rect _ _ _ W) H0) as W'.
    destruct (made_autofill _ _ _ H0) as [M| ->]; [|exists os, f; exact W]. exists os, f. eapply made_full; eassumption.
  - destruct (IH _ H) as [os [f W]]. pose proof (subspace_wf _ _ _ _ _ (wf_full_rect _ _ _ W) H0 H1) as W'.
    do 2 eexists. eapply made_full; [exact W'|eapply made_subspace, H1].
  - exists (all_of ss), (F ss). apply combine_full; [|exact H0].
    clear H0. revert ss H. fix IHl 2. intros ss H. destruct H as [|x l Hx Hl]; [intros s []|].
    intros s [<-|Hs]; [destruct (IH _ Hx) as [os [f W]]; eapply wf_good, W|exact (IHl l Hl s Hs)].
Qed.
