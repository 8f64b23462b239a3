(** Proofs for unbinned data, part 1: spaces with or without limits. *)
From Coq Require Import Permutation.
From Verif Require Import Base BaseLemmas Coord_Model Coord_Spec Coord_Proofs Space_Model Space_Spec
  Space_Proofs Space_Proofs2 Space_Proofs3 Space_Proofs4 Data_Model Data_Spec.

(** The limits of a data space: an interval per observable, none, or False. *)
Inductive lk := KR (f : string -> Q * Q) | KN | KF.
Definition limk (k : lk) (o : string) : limit :=
  match k with KR f => LRect [f o] | KN => LNone 1 | KF => LFalse 1 end.

Definition dict_g (d : list (list string * limit)) (os : list string) (g : string -> limit) : Prop :=
  (forall k l, In (k, l) d -> exists o, k = [o] /\ In o os /\ l = g o)
  /\ (forall o, In o os -> In ([o], g o) d)
  /\ NoDup (map fst d).

Definition sp_ok (s : space) (os : list string) (k : lk) : Prop :=
  s_obs s = Some os /\ NoDup os /\ os <> [] /\ (exists d, s_dobs s = Some d /\ dict_g d os (limk k))
  /\ axes_ok s os /\ s_binning s = None.

Lemma dict_g_filter d os os' g :
  dict_g d os g -> incl os' os -> dict_g (filter (head_in String.eqb os') d) os' g.
Proof.
  intros [H1 [H2 H3]] Hi. split; [|split].
  - intros k l Hin. apply filter_In in Hin. destruct Hin as [Hin Hh].
    destruct (H1 _ _ Hin) as [o [-> [Ho ->]]]. exists o. split; [reflexivity|]. split; [|reflexivity].
    apply (mem_In _ string_eqb_ok). exact Hh.
  - intros o Ho. apply filter_In. split; [apply H2, Hi, Ho|].
    unfold head_in. simpl. apply (mem_In _ string_eqb_ok). exact Ho.
  - clear H1 H2. induction d as [|e d IH]; simpl in *; [constructor|].
    inversion H3 as [|? ? Hn Hnd]; subst.
    destruct (head_in String.eqb os' e); simpl; [|apply IH, Hnd].
    constructor; [|apply IH, Hnd]. intros Hin. apply Hn.
    apply in_map_iff in Hin. destruct Hin as [x [Hx Hin]]. apply filter_In in Hin.
    apply in_map_iff. exists x. split; [exact Hx|apply Hin].
Qed.

Lemma relabel_total_g d os (axs : list Z) g :
  dict_g d os g -> length axs = length os -> exists r, relabel_dict String.eqb (Some os) axs d = Ok r.
Proof.
  intros [H1 _] Hl. unfold relabel_dict.
  induction d as [|[k l] d IH]; [exists []; reflexivity|].
  destruct IH as [r Hr]; [intros k' l' Hin; apply H1; right; exact Hin|].
  destruct (H1 k l (or_introl eq_refl)) as [o [-> [Ho ->]]].
  destruct (index_of_in _ string_eqb_ok _ _ Ho) as [i Hi].
  pose proof (index_of_lt _ string_eqb_ok _ _ _ Hi) as Hlt.
  destruct (nth_error axs i) as [v|] eqn:Ev; [|apply nth_error_None in Ev; lia].
  cbn [mapM fst snd]. unfold relabel_key at 1. cbn [mapM]. rewrite Hi, Ev. cbn [opt_result bind].
  rewrite Hr. eexists; reflexivity.
Qed.

Lemma sp_of_dict c d da os os' k :
  dict_g d os (limk k) -> incl os' os -> NoDup os' -> os' <> [] -> c_obs c = Some os' -> coords_ok c ->
  (c_axes c <> None -> da = None -> incl os os') ->
  exists s, space_of_dict c (Some d) da None = Ok s /\ sp_ok s os' k /\ s_coords s = c.
Proof.
  intros Hd Hi Hnd Hne Hc Hok Hda.
  unfold coords_ok in Hok. rewrite Hc in Hok.
  assert (R : exists s, space_of_dict c (Some d) da None = Ok s
      /\ s_coords s = c /\ s_dobs s = Some (filter (head_in String.eqb os') d)
      /\ (c_axes c = None -> s_daxes s = None) /\ (c_axes c <> None -> exists e, s_daxes s = Some e)
      /\ s_binning s = None).
  { unfold space_of_dict, convert_limits_dict. rewrite Hc. destruct os' as [|o0 os']; [congruence|].
    cbn [bind]. destruct (c_axes c) as [[|ax axs]|] eqn:Ea.
    - discriminate.
    - destruct da as [da|].
      + cbn. eexists. split; [reflexivity|]. cbn. repeat split; try discriminate. intros _. eexists; reflexivity.
      + assert (Hw' : dict_g d (o0 :: os') (limk k)).
        { destruct Hd as [H1 [H2 H3]]. split; [|split; [|exact H3]].
          - intros k' l Hin. destruct (H1 k' l Hin) as [o [-> [Ho ->]]]. exists o.
            split; [reflexivity|]. split; [|reflexivity]. apply Hda; [discriminate|reflexivity|exact Ho].
          - intros o Ho. apply H2, Hi, Ho. }
        destruct (relabel_total_g d (o0 :: os') (ax :: axs) _ Hw' Hok) as [r Hr].
        rewrite Hr. cbn. eexists. split; [reflexivity|]. cbn. repeat split; try discriminate. intros _. eexists; reflexivity.
    - cbn. exists (mkSpace c (Some (filter (head_in String.eqb (o0 :: os')) d)) None None).
      destruct da; (split; [reflexivity|]; cbn; repeat split; intros X; congruence). }
  destruct R as [s [E [E1 [E2 [E3 [E4 E5]]]]]]. exists s. split; [exact E|]. split; [|exact E1].
  split; [unfold s_obs; rewrite E1; exact Hc|]. split; [exact Hnd|]. split; [exact Hne|].
  split; [exists (filter (head_in String.eqb os') d); split; [exact E2|eapply dict_g_filter; eassumption]|].
  split; [|exact E5]. unfold axes_ok, s_axes. rewrite E1. destruct (c_axes c) as [a|]; [|apply E3; reflexivity].
  split; [exact Hok|]. apply E4. discriminate.
Qed.

Lemma sp_coords_ok s os k : sp_ok s os k -> coords_ok (s_coords s).
Proof.
  intros [Ho [_ [_ [_ [Ha _]]]]]. unfold coords_ok, axes_ok, s_obs, s_axes in *. rewrite Ho.
  destruct (c_axes (s_coords s)); [apply Ha|exact Logic.I].
Qed.

(** with_obs *)
Lemma sp_with_obs s os k req sup sub :
  sp_ok s os k -> NoDup req -> req_ok os req sup sub ->
  exists s' c, with_obs (s_coords s) (Some req) sup sub = Ok c /\ s_with_obs s (Some req) sup sub = Ok s'
    /\ sp_ok s' (sel os req) k /\ s_coords s' = c.
Proof.
  intros S Hr Hok. pose proof (sp_coords_ok _ _ _ S) as Hcok.
  destruct S as [Ho [Hnd [Hne [[d [Hd Hdg]] [Ha Hb]]]]].
  destruct (coords_with_obs_total _ _ _ _ _ Ho Hcok Hok) as [ax [Hc [Hax1 Hax2]]].
  assert (Hsne : sel os req <> []).
  { destruct Hok as [[o [H1 H2]] _]. intros E. assert (Hin : In o (sel os req)) by (apply sel_In; auto).
    rewrite E in Hin. exact Hin. }
  destruct (sp_of_dict (mkCoords (Some (sel os req)) ax) d (s_daxes s) os (sel os req) k) as [s' [E1 [E2 E3]]].
  - exact Hdg.
  - intros o Hin. apply sel_In in Hin. apply Hin.
  - apply sel_nodup, Hr.
  - exact Hsne.
  - reflexivity.
  - eapply with_obs_coords_ok, Hc.
  - simpl. intros Hax E. exfalso. unfold axes_ok, s_axes in *.
    destruct (c_axes (s_coords s)) as [a|]; [destruct Ha as [_ [da Hda]]; congruence|].
    apply Hax. apply Hax1. reflexivity.
  - exists s', (mkCoords (Some (sel os req)) ax). split; [exact Hc|]. split; [|split; [exact E2|exact E3]].
    unfold s_with_obs. rewrite Hc. cbn [bind]. rewrite Hb. cbn [bind]. rewrite Hd. exact E1.
Qed.
Lemma sp_with_obs_err s os k req sup sub :
  sp_ok s os k -> ~ req_ok os req sup sub -> s_with_obs s (Some req) sup sub = Err ObsIncompatibleError.
Proof.
  intros [Ho _] Hok. unfold s_with_obs. unfold s_obs in Ho.
  assert (X : with_obs (s_coords s) (Some req) sup sub = Err ObsIncompatibleError).
  { unfold with_obs. rewrite Ho. rewrite <- req_check in Hok.
    destruct (negb (intersectsb String.eqb req os)); [reflexivity|].
    destruct (_ && _ && _); [reflexivity|]. destruct (_ && _ && _); [reflexivity|]. congruence. }
  rewrite X. reflexivity.
Qed.

(** with_autofill_axes(overwrite=True) *)
Definition numbered (s : space) (os : list string) : Prop := s_axes s = Some (range_axes (length os)).
Lemma range_length n : length (range_axes n) = n.
Proof. unfold range_axes. rewrite map_length, seq_length. reflexivity. Qed.
Lemma sp_autofill s os k : sp_ok s os k ->
  exists s', s_with_autofill_axes s true = Ok s' /\ sp_ok s' os k /\ numbered s' os.
Proof.
  intros S. destruct S as [Ho [Hnd [Hne [[d [Hd Hdg]] [Ha Hb]]]]].
  assert (Hn : n_obs (s_coords s) = length os) by (unfold n_obs; unfold s_obs in Ho; rewrite Ho; reflexivity).
  assert (Hc : make_coords (Some os) (Some (range_axes (length os))) = Ok (mkCoords (Some os) (Some (range_axes (length os))))).
  { apply make_coords_total; [exact Hne|]. intros l E. inversion E; subst. apply range_length. }
  unfold s_with_autofill_axes, with_autofill_axes. rewrite andb_false_r. unfold s_obs in Ho. rewrite Ho, Hn, Hc.
  cbn [bind c_axes].
  destruct (sp_of_dict (mkCoords (Some os) (Some (range_axes (length os)))) d (s_daxes s) os os k) as [s' [E1 [E2 E3]]];
    [exact Hdg|apply incl_refl|exact Hnd|exact Hne|reflexivity|unfold coords_ok; simpl; apply range_length|intros _ _; apply incl_refl|].
  exists s'. unfold s_obs. rewrite Ho, Hc. cbn [bind]. rewrite Hd, Hb.
  split; [destruct (s_axes s); exact E1|]. split; [exact E2|]. unfold numbered, s_axes. rewrite E3. reflexivity.
Qed.

Lemma range_nth n i : (i < n)%nat -> nth_error (range_axes n) i = Some (Z.of_nat i).
Proof.
  intros H. unfold range_axes. rewrite nth_error_map.
  replace (nth_error (seq 0 n) i) with (Some i); [reflexivity|].
  symmetry. rewrite nth_error_nth' with (d := 0%nat) by (rewrite seq_length; exact H).
  rewrite seq_nth by exact H. reflexivity.
Qed.
Lemma range_In n z : In z (range_axes n) <-> exists i, (i < n)%nat /\ z = Z.of_nat i.
Proof.
  unfold range_axes. rewrite in_map_iff. split.
  - intros [i [<- Hi]]. apply in_seq in Hi. exists i. split; [lia|reflexivity].
  - intros [i [Hi ->]]. exists i. split; [reflexivity|]. apply in_seq. lia.
Qed.
Lemma range_nodup n : NoDup (range_axes n).
Proof. unfold range_axes. apply FinFun.Injective_map_NoDup; [intros a b; lia|apply seq_NoDup]. Qed.

(** the axes of a numbered space after with_obs are the positions of the names *)
Definition pos (os : list string) (o : string) : nat :=
  match index_of String.eqb o os with Some i => i | None => 0%nat end.
Lemma pos_in os o : In o os -> index_of String.eqb o os = Some (pos os o) /\ (pos os o < length os)%nat.
Proof.
  intros H. destruct (index_of_in _ string_eqb_ok _ _ H) as [i Hi]. unfold pos. rewrite Hi.
  split; [reflexivity|]. eapply index_of_lt; [exact string_eqb_ok|exact Hi].
Qed.
Lemma pos_nth os o : In o os -> nth_error os (pos os o) = Some o.
Proof. intros H. apply (index_of_nth _ string_eqb_ok). apply pos_in, H. Qed.
Lemma pos_at os i o : NoDup os -> nth_error os i = Some o -> pos os o = i.
Proof. intros Hnd H. unfold pos. rewrite (nodup_index_of _ string_eqb_ok _ _ _ Hnd H). reflexivity. Qed.
Lemma reorder_pos os l : incl l os -> reorder_indices String.eqb os l = Ok (map (pos os) l).
Proof.
  intros H. apply reorder_indices_ok. induction l as [|o l IH]; [constructor|].
  constructor; [apply pos_in, H; left; reflexivity|apply IH; intros x Hx; apply H; right; exact Hx].
Qed.
Lemma sel_incl os req : incl (sel os req) os.
Proof. intros o H. apply sel_In in H. apply H. Qed.

Lemma sp_with_obs_axes s os k req sup sub :
  sp_ok s os k -> numbered s os -> NoDup req -> req_ok os req sup sub ->
  exists s', s_with_obs s (Some req) sup sub = Ok s' /\ sp_ok s' (sel os req) k
    /\ s_axes s' = Some (map (fun o => Z.of_nat (pos os o)) (sel os req)).
Proof.
  intros S Hn Hr Hok. destruct (sp_with_obs _ _ _ _ _ _ S Hr Hok) as [s' [c [Ec [E [S' Es]]]]].
  exists s'. split; [exact E|]. split; [exact S'|].
  destruct S as [Ho _]. unfold s_obs, numbered, s_axes in *.
  assert (Hl : length os = length (range_axes (length os))) by (rewrite range_length; reflexivity).
  destruct (with_obs_labelled (s_coords s) os (range_axes (length os)) req sup sub Ho Hn Hl) as [W _].
  destruct (W Hok) as [idx [axs' [E1 [E2 E3]]]]. rewrite Ec in E3. injection E3 as E3.
  rewrite Es, E3. cbn [c_axes]. f_equal. fold (sel os req) in E1.
  rewrite (reorder_pos _ _ (sel_incl os req)) in E1. injection E1 as <-.
  apply gather_forall2 in E2. clear - E2.
  assert (I : incl (sel os req) os) by apply sel_incl.
  revert axs' E2. induction (sel os req) as [|o l IH]; intros axs' E2; simpl in *; inversion E2; subst; [reflexivity|].
  f_equal.
  - destruct (pos_in os o (I o (or_introl eq_refl))) as [_ Hlt]. rewrite range_nth in H1 by exact Hlt.
    inversion H1. reflexivity.
  - apply IH; [intros x Hx; apply I; right; exact Hx|assumption].
Qed.

(** with_obs(None) *)
Lemma sp_with_obs_none s os k : sp_ok s os k -> numbered s os ->
  exists s', s_with_obs s None true true = Ok s' /\ s_axes s' = Some (range_axes (length os)).
Proof.
  intros [Ho [Hnd [Hne [[d [Hd Hdg]] [Ha Hb]]]]] Hn. unfold s_with_obs. rewrite Ho.
  unfold axes_ok in Ha. unfold numbered in Hn. rewrite Hn in *. destruct Ha as [Hl [da Hda]].
  unfold make_coords. assert (Hz : range_axes (length os) <> []) by (destruct os; [congruence|discriminate]).
  assert (E : (if negb (nonempty (Some (range_axes (length os)))) then Err CoordinatesUnderdefinedError
               else Ok (mkCoords None (Some (range_axes (length os))))) = Ok (mkCoords None (Some (range_axes (length os))))).
  { destruct (range_axes (length os)); [congruence|reflexivity]. }
  destruct (range_axes (length os)) as [|z zs] eqn:Ez; [congruence|]. cbn.
  rewrite Hd, Hda, Hb. unfold space_of_dict, convert_limits_dict. cbn. eexists. split; reflexivity.
Qed.

(** one axis of a numbered space *)
Lemma sp_with_axis s os k i o : sp_ok s os k -> numbered s os -> nth_error os i = Some o ->
  exists s', s_with_axes s (Some [Z.of_nat i]) true true = Ok s' /\ sp_ok s' [o] k.
Proof.
  intros [Ho [Hnd [Hne [[d [Hd Hdg]] [Ha Hb]]]]] Hn Hi. unfold s_with_axes.
  unfold numbered in Hn. rewrite Hn.
  assert (Hil : (i < length os)%nat) by (apply nth_error_Some; congruence).
  assert (Hl : length os = length (range_axes (length os))) by (rewrite range_length; reflexivity).
  assert (Hz : range_axes (length os) <> []) by (destruct os; [congruence|discriminate]).
  assert (Hin : In (Z.of_nat i) (range_axes (length os))) by (apply range_In; exists i; auto).
  assert (Hok : areq_ok (range_axes (length os)) [Z.of_nat i] true true).
  { split; [|split; discriminate]. exists (Z.of_nat i). split; [left; reflexivity|exact Hin]. }
  destruct (with_axes_labelled (s_coords s) os (range_axes (length os)) [Z.of_nat i] true true Ho Hn Hl Hz) as [W _].
  destruct (W Hok) as [idx [os' [E1 [E2 E3]]]].
  assert (Ef : filter (fun x => mem Z.eqb x (range_axes (length os))) [Z.of_nat i] = [Z.of_nat i]).
  { cbn [filter]. rewrite (proj2 (mem_In _ Z_eqb_ok _ _) Hin). reflexivity. }
  rewrite Ef in *.
  assert (Ei : idx = [i]).
  { apply reorder_indices_ok in E1. inversion E1 as [|? j ? r Hj Hr]; subst. inversion Hr; subst. f_equal.
    rewrite (nodup_index_of _ Z_eqb_ok _ _ i (range_nodup _)) in Hj; [inversion Hj; reflexivity|]. apply range_nth, Hil. }
  subst idx. apply gather_forall2 in E2. inversion E2 as [|? o' ? r Ho' Hr]; subst. inversion Hr; subst.
  rewrite Hi in Ho'. inversion Ho'; subst o'.
  rewrite E3. cbn [bind]. rewrite Hd, Hb.
  destruct (sp_of_dict (mkCoords (Some [o]) (Some [Z.of_nat i])) d (s_daxes s) os [o] k) as [s' [G1 [G2 G3]]].
  - exact Hdg.
  - intros x [<-|[]]. eapply nth_error_In, Hi.
  - constructor; [intros []|constructor].
  - discriminate.
  - reflexivity.
  - reflexivity.
  - intros _ E. unfold axes_ok in Ha. rewrite Hn in Ha. destruct Ha as [_ [da Hda]]. congruence.
  - exists s'. split; [exact G1|exact G2].
Qed.

(** limits *)
Lemma sp_own_limits s os k : sp_ok s os k ->
  own_limits s <> [] /\ forall l, In l (own_limits s) -> exists o, In o os /\ l = limk k o.
Proof.
  intros [Ho [Hnd [Hne [[d [Hd [H1 [H2 H3]]]] _]]]]. unfold own_limits. rewrite Ho.
  destruct os as [|o0 os]; [congruence|]. cbn [nonempty]. rewrite Hd. split.
  - intros E. specialize (H2 o0 (or_introl eq_refl)). apply (in_map snd) in H2. rewrite E in H2. exact H2.
  - intros l Hin. apply in_map_iff in Hin. destruct Hin as [[k' l'] [<- Hin]]. destruct (H1 _ _ Hin) as [o [_ [Hio ->]]].
    exists o. split; [exact Hio|reflexivity].
Qed.
Lemma sp_rect s os f : sp_ok s os (KR f) -> wf_rect s os f.
Proof. intros [Ho [Hnd [Hne [H _]]]]. split; [exact Ho|]. split; [exact Hnd|]. split; [exact Hne|]. exact H. Qed.
Lemma sp_has_limits s os k : sp_ok s os k -> s_has_limits s = match k with KR _ => true | _ => false end.
Proof.
  intros S. destruct (sp_own_limits _ _ _ S) as [Hn Ho]. destruct k as [f| |].
  - apply (wf_has_limits _ _ _ (sp_rect _ _ _ S)).
  - unfold s_has_limits, s_limits_are_set. destruct (own_limits s) as [|l r]; [congruence|].
    destruct (Ho l (or_introl eq_refl)) as [o [_ ->]]. reflexivity.
  - unfold s_has_limits. replace (s_limits_are_false s) with true; [apply andb_false_r|].
    symmetry. unfold s_limits_are_false. apply forallb_forall. intros l Hl.
    destruct (Ho l Hl) as [o [_ ->]]. reflexivity.
Qed.
Definition inbox (k : lk) (os : list string) (x : list Q) : Prop :=
  match k with KR f => forall o v, column os x o v -> between (f o) v | _ => True end.
Lemma sp_limit_of_plain s os k : sp_ok s os k -> k = KN \/ k = KF -> forall o iv, ~ limit_of s o iv.
Proof.
  intros S K o iv [os' [ivs [_ [E _]]]]. unfold s_limits, fail_not_rect in E.
  rewrite (sp_has_limits _ _ _ S) in E.
  assert (E' : rect_limits_z s = Ok ivs) by (destruct K as [-> | ->]; exact E). clear E. rename E' into E.
  destruct S as [Ho [Hnd [Hne [[d [Hd [H1 [H2 H3]]]] _]]]].
  unfold rect_limits_z in E. rewrite Ho, Hd in E. apply bind_ok in E. destruct E as [l [El _]].
  destruct os as [|o0 os]; [congruence|]. specialize (H2 o0 (or_introl eq_refl)).
  clear - K H2 El. revert l El. induction d as [|e d IH]; intros l El; [destruct H2|].
  cbn [mapM] in El. apply bind_ok in El. destruct El as [a [Ea El]].
  apply bind_ok in El. destruct El as [b [Eb El]].
  destruct H2 as [->|H2]; [|eapply IH; eassumption].
  destruct K as [-> | ->]; discriminate.
Qed.
Lemma sp_in_box s os k x : sp_ok s os k -> (in_box os x (limit_of s) <-> inbox k os x).
Proof.
  intros S. destruct k as [f| |].
  - apply wf_in_box, sp_rect, S.
  - split; [intros _; exact Logic.I|]. intros _ o v iv _ H. destruct (sp_limit_of_plain _ _ _ S (or_introl eq_refl) _ _ H).
  - split; [intros _; exact Logic.I|]. intros _ o v iv _ H. destruct (sp_limit_of_plain _ _ _ S (or_intror eq_refl) _ _ H).
Qed.
Lemma sp_inside s os f x : sp_ok s os (KR f) -> length x = length os ->
  exists b, s_inside s x false = Ok b /\ (b = true <-> inbox (KR f) os x).
Proof. intros S Hl. apply wf_inside; [apply sp_rect, S|exact Hl]. Qed.

(** every data space *)
Lemma rect_sp s : rect_space s -> s_binning s = None -> exists os f, sp_ok s os (KR f).
Proof.
  intros R B. destruct (rect_space_full s R) as [os [f [[Ho [Hnd [Hne Hd]]] [Ha _]]]].
  exists os, f. split; [exact Ho|]. split; [exact Hnd|]. split; [exact Hne|]. split; [exact Hd|]. split; [exact Ha|exact B].
Qed.

Lemma slice_plain (os : list string) (l : limit) : lim_n_obs l = 1%nat -> slice_dict os (repeat l (length os)) = map (fun o => ([o], l)) os.
Proof. intros H. induction os as [|o os IH]; simpl; [reflexivity|]. rewrite H. simpl. f_equal. exact IH. Qed.
Lemma slice_plain_Z (os : list Z) (l : limit) : lim_n_obs l = 1%nat -> slice_dict os (repeat l (length os)) = map (fun o => ([o], l)) os.
Proof. intros H. induction os as [|o os IH]; simpl; [reflexivity|]. rewrite H. simpl. f_equal. exact IH. Qed.

Lemma plain_make os axs i s : NoDup os -> i = INone \/ i = IFalse ->
  make_space (Some os) axs i None = Ok s -> sp_ok s os KN \/ sp_ok s os KF.
Proof.
  intros Hnd Hi H. unfold make_space in H.
  replace (match axs with Some _ => Some os | None => Some os end) with (Some os) in H by (destruct axs; reflexivity).
  apply bind_ok in H. destruct H as [c [Ec H]]. pose proof (make_coords_fields _ _ _ Ec) as [Eo Ea].
  pose proof (make_coords_nonempty _ _ _ Ec) as Hne. pose proof (make_coords_ok _ _ _ Ec) as Hcok.
  assert (En : n_obs c = length os) by (unfold n_obs; rewrite Eo; reflexivity).
  assert (G : forall k, k = KN \/ k = KF -> forall l, sublimits l = repeat (limk k ""%string) (length os) ->
     space_of_dict c (option_map (fun o => slice_dict o (sublimits l)) (c_obs c))
                     (option_map (fun a => slice_dict a (sublimits l)) (c_axes c)) None = Ok s -> sp_ok s os k).
  { intros k Hk l El Hs. rewrite El, Eo in Hs. cbn [option_map] in Hs.
    assert (E1 : lim_n_obs (limk k ""%string) = 1%nat) by (destruct Hk as [-> | ->]; reflexivity).
    rewrite slice_plain in Hs by exact E1.
    destruct (sp_of_dict c (map (fun o => ([o], limk k ""%string)) os)
      (option_map (fun a => slice_dict a (repeat (limk k ""%string) (length os))) (c_axes c)) os os k) as [s' [G1 [G2 _]]].
    - split; [|split].
      + intros k' l' Hin. apply in_map_iff in Hin. destruct Hin as [o [E Hin]]. inversion E; subst.
        exists o. split; [reflexivity|]. split; [exact Hin|]. destruct Hk as [-> | ->]; reflexivity.
      + intros o Hin. apply in_map_iff. exists o. split; [|exact Hin]. destruct Hk as [-> | ->]; reflexivity.
      + rewrite map_map. simpl. apply FinFun.Injective_map_NoDup; [intros a b E; inversion E; reflexivity|exact Hnd].
    - apply incl_refl.
    - exact Hnd.
    - exact Hne.
    - exact Eo.
    - exact Hcok.
    - intros _ _. apply incl_refl.
    - rewrite G1 in Hs. inversion Hs; subst. exact G2. }
  rewrite En in H. assert (Hpos : (0 < length os)%nat) by (destruct os; [congruence|simpl; lia]).
  destruct Hi as [-> | ->]; cbn [make_limit bind] in H.
  - left. apply (G KN (or_introl eq_refl) (LNone (length os))); [|exact H].
    cbn [sublimits]. destruct (Nat.ltb_spec 1 (length os)); [reflexivity|].
    replace (length os) with 1%nat by lia. reflexivity.
  - right. apply (G KF (or_intror eq_refl) (LFalse (length os))); [|exact H].
    cbn [sublimits]. destruct (Nat.ltb_spec 1 (length os)); [reflexivity|].
    replace (length os) with 1%nat by lia. reflexivity.
Qed.

Lemma plain_sp s : plain_space s -> exists os, sp_ok s os KN \/ sp_ok s os KF.
Proof.
  induction 1 as [os axs i s Hnd Hi H|s req sup sub s' P [os IH] Hr H|s s' P [os IH] H].
  - exists os. eapply plain_make; eassumption.
  - exists (sel os req). destruct (req_ok_dec os req sup sub) as [Hok|Hok].
    + destruct IH as [IH|IH]; destruct (sp_with_obs _ _ _ _ _ _ IH Hr Hok) as [s2 [c [_ [E [S' _]]]]];
        rewrite E in H; inversion H; subst; [left|right]; exact S'.
    + destruct IH as [IH|IH]; rewrite (sp_with_obs_err _ _ _ _ _ _ IH Hok) in H; discriminate.
  - exists os. destruct IH as [IH|IH]; destruct (sp_autofill _ _ _ IH) as [s2 [E [S' _]]];
      rewrite E in H; inversion H; subst; [left|right]; exact S'.
Qed.

Lemma data_space_sp s : data_space s -> exists os k, sp_ok s os k.
Proof.
  intros [[R B]|P]; [destruct (rect_sp s R B) as [os [f S]]; eauto|].
  destruct (plain_sp s P) as [os [S|S]]; eauto.
Qed.
Lemma sp_obs s os os' k : sp_ok s os k -> s_obs s = Some os' -> os = os'.
Proof. intros [Ho _] H. congruence. Qed.
Lemma sp_n_obs s os k : sp_ok s os k -> s_n_obs s = length os.
Proof. intros [Ho _]. unfold s_n_obs, n_obs. unfold s_obs in Ho. rewrite Ho. reflexivity. Qed.
