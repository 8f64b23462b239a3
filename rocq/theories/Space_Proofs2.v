(** Proofs for spaces, part 2: totality, equality, combination. *)
From Coq Require Import Permutation Lqa.
From Verif Require Import Base BaseLemmas Coord_Model Coord_Spec Coord_Proofs Space_Model Space_Spec Space_Proofs.

Definition coords_ok (c : coords) : Prop :=
  match c_obs c, c_axes c with Some o, Some a => length a = length o | _, _ => True end.

Lemma make_coords_ok o a c : make_coords o a = Ok c -> coords_ok c.
Proof.
  intros H. pose proof (make_coords_fields _ _ _ H) as [E1 E2]. unfold coords_ok. rewrite E1, E2.
  unfold make_coords in H. destruct o as [o|], a as [a|]; auto.
  destruct (Nat.eqb_spec (length o) (length a)); [congruence|discriminate].
Qed.

Lemma with_obs_coords_ok c r sup sub c' : with_obs c r sup sub = Ok c' -> coords_ok c'.
Proof.
  unfold with_obs. destruct r as [r|].
  - destruct (c_obs c).
    + destruct (negb _); [discriminate|]. destruct (_ && _ && _); [discriminate|].
      destruct (_ && _ && _); [discriminate|]. intros H. inv_bind H. inv_bind H. inv_bind H.
      eapply make_coords_ok, H.
    + intros H. eapply make_coords_ok, H.
  - destruct (c_axes c); [|discriminate]. intros H. eapply make_coords_ok, H.
Qed.
Lemma with_axes_coords_ok c r sup sub c' : with_axes c r sup sub = Ok c' -> coords_ok c'.
Proof.
  unfold with_axes. destruct r as [r|].
  - destruct (_ && _); [discriminate|]. destruct (c_axes c).
    + destruct (negb _); [discriminate|]. destruct (_ && _ && _); [discriminate|].
      destruct (_ && _ && _); [discriminate|]. intros H. inv_bind H. inv_bind H. inv_bind H.
      eapply make_coords_ok, H.
    + intros H. eapply make_coords_ok, H.
  - destruct (c_obs c); [|discriminate]. intros H. eapply make_coords_ok, H.
Qed.

Lemma make_coords_total os a : os <> [] -> (forall l, a = Some l -> length l = length os) ->
  make_coords (Some os) a = Ok (mkCoords (Some os) a).
Proof.
  intros Hne Hl. unfold make_coords. destruct a as [a|].
  - rewrite (Hl a eq_refl), Nat.eqb_refl. destruct os; [congruence|]. reflexivity.
  - destruct os; [congruence|]. reflexivity.
Qed.

Lemma coords_with_obs_total c os req sup sub :
  c_obs c = Some os -> coords_ok c -> req_ok os req sup sub ->
  exists ax, with_obs c (Some req) sup sub = Ok (mkCoords (Some (sel os req)) ax)
    /\ (c_axes c = None -> ax = None) /\ (c_axes c <> None -> ax <> None).
Proof.
  intros Ho Hok Hr. unfold coords_ok in Hok. rewrite Ho in Hok.
  destruct (c_axes c) as [a|] eqn:Ea.
  - destruct (proj1 (with_obs_labelled c os a req sup sub Ho Ea (eq_sym Hok)) Hr) as [idx [axs' [H1 [H2 H3]]]].
    exists (Some axs'). split; [exact H3|]. split; [discriminate|discriminate].
  - exists None. split; [apply with_obs_total; assumption|]. split; [reflexivity|congruence].
Qed.

Definition axes_ok (s : space) (os : list string) : Prop :=
  match s_axes s with None => s_daxes s = None | Some a => length a = length os /\ exists da, s_daxes s = Some da end.
Definition binning_ok (s : space) (os : list string) : Prop :=
  match s_binning s with None => True | Some b => map fst b = os end.
Definition wf_full (s : space) (os : list string) (f : string -> Q * Q) : Prop :=
  wf_rect s os f /\ axes_ok s os /\ binning_ok s os.

Lemma wf_coords_ok s os f : wf_full s os f -> coords_ok (s_coords s).
Proof.
  intros [[Ho _] [Ha _]]. unfold coords_ok, axes_ok, s_obs, s_axes in *. rewrite Ho.
  destruct (c_axes (s_coords s)); [apply Ha|exact I].
Qed.

Lemma sort_binning_names c os b b' : c_obs c = Some os -> sort_binning c (Some b) = Ok b' ->
  exists l, b' = Some l /\ map fst l = os.
Proof.
  intros Hc H. unfold sort_binning in H. rewrite Hc in H.
  destruct (negb _) in H; [discriminate|]. destruct (negb _) in H; [discriminate|].
  inv_bind H. inversion H; subst. exists a. split; [reflexivity|].
  apply mapM_ok in E. clear - E. induction E as [|o p os l Hp _ IH]; [reflexivity|].
  simpl. f_equal; [|exact IH]. destruct (lookup String.eqb o b); simpl in Hp; [|discriminate].
  inversion Hp; reflexivity.
Qed.
Lemma sort_binning_total c os b : c_obs c = Some os ->
  (forall o, In o (map fst b) <-> In o os) ->
  exists l, sort_binning c (Some b) = Ok (Some l) /\ map fst l = os.
Proof.
  intros Hc Hn. unfold sort_binning. rewrite Hc.
  assert (E1 : subsetb String.eqb (map fst b) os = true)
    by (apply (subsetb_incl _ string_eqb_ok); intros o Ho; apply Hn, Ho).
  assert (E2 : subsetb String.eqb os (map fst b) = true)
    by (apply (subsetb_incl _ string_eqb_ok); intros o Ho; apply Hn, Ho).
  rewrite E1, E2. simpl.
  assert (G : exists l, mapM (fun o => let* e := opt_result KeyError (lookup String.eqb o b) in Ok (o, e)) os = Ok l
                        /\ map fst l = os).
  { assert (Hi : incl os (map fst b)) by (intros o Ho; apply Hn, Ho). clear - Hi.
    induction os as [|o os IH]; [exists []; split; reflexivity|].
    destruct IH as [l [El Hl]]; [intros x Hx; apply Hi; right; exact Hx|].
    destruct (lookup_some_key _ string_eqb_ok o b (Hi o (or_introl eq_refl))) as [e He].
    exists ((o, e) :: l). simpl. rewrite He. simpl. rewrite El. simpl. split; [reflexivity|f_equal; exact Hl]. }
  destruct G as [l [El Hl]]. rewrite El. simpl. exists l. split; [reflexivity|exact Hl].
Qed.

Lemma space_of_dict_full c d da b os os' f s :
  dict_wf d os f -> incl os' os -> NoDup os' -> os' <> [] -> c_obs c = Some os' -> coords_ok c ->
  space_of_dict c (Some d) da b = Ok s -> wf_full s os' f.
Proof.
  intros Hd Hi Hnd Hne Hc Hok H. split; [eapply space_of_dict_wf; eassumption|].
  unfold coords_ok in Hok. rewrite Hc in Hok.
  unfold space_of_dict in H. inv_bind H. destruct a as [no na]. inv_bind H. inversion H; subst. clear H.
  unfold axes_ok, binning_ok, s_axes. simpl. split.
  - unfold convert_limits_dict in E. destruct os' as [|o0 os']; [congruence|].
    rewrite Hc in E. cbn [bind] in E. destruct (c_axes c) as [[|ax axs]|] eqn:Ea.
    + discriminate.
    + split; [exact Hok|]. inv_bind E. inversion E; subst. clear E.
      destruct da as [da|].
      * inversion E1; subst. eexists; reflexivity.
      * inv_bind E1. inversion E1; subst. eexists; reflexivity.
    + inversion E. reflexivity.
  - destruct a as [b'|]; [|exact I]. destruct b as [b|]; [|discriminate].
    destruct (sort_binning_names _ _ _ _ Hc E0) as [l [El Hl]]. inversion El; subst. reflexivity.
Qed.

Lemma relabel_total d os (axs : list Z) f :
  dict_wf d os f -> length axs = length os -> exists r, relabel_dict String.eqb (Some os) axs d = Ok r.
Proof.
  intros [H1 _] Hl. unfold relabel_dict.
  induction d as [|[k l] d IH]; [exists []; reflexivity|].
  destruct IH as [r Hr]; [intros k' l' Hin; apply H1; right; exact Hin|].
  destruct (H1 k l (or_introl eq_refl)) as [o [-> [Ho ->]]].
  destruct (index_of_in _ string_eqb_ok _ _ Ho) as [i Hi].
  pose proof (index_of_lt _ string_eqb_ok _ _ _ Hi) as Hlt.
  destruct (nth_error axs i) as [v|] eqn:Ev; [|apply nth_error_None in Ev; lia].
  cbn [mapM fst snd]. unfold relabel_key at 1. cbn [mapM]. rewrite Hi, Ev. cbn [opt_result bind].
  rewrite Hr. eexists; reflexivity.
Qed.

Lemma space_of_dict_total c d da b os os' f :
  dict_wf d os f -> incl os' os -> NoDup os' -> os' <> [] -> c_obs c = Some os' -> coords_ok c ->
  (c_axes c <> None -> da = None -> incl os os') ->
  (forall l, b = Some l -> forall o, In o (map fst l) <-> In o os') ->
  exists s, space_of_dict c (Some d) da b = Ok s /\ wf_full s os' f /\ s_coords s = c.
Proof.
  intros Hd Hi Hnd Hne Hc Hok Hda Hb.
  assert (G : exists s, space_of_dict c (Some d) da b = Ok s).
  { unfold space_of_dict, convert_limits_dict. rewrite Hc. destruct os' as [|o0 os']; [congruence|].
    unfold coords_ok in Hok. rewrite Hc in Hok.
    assert (Gb : exists b', sort_binning c b = Ok b').
    { destruct b as [b|]; [|exists None; reflexivity].
      destruct (sort_binning_total c _ b Hc (Hb b eq_refl)) as [l [El _]]. eexists; exact El. }
    destruct Gb as [b' Gb].
    destruct (c_axes c) as [[|ax axs]|] eqn:Ea.
    - discriminate.
    - destruct da as [da|].
      + cbn [bind]. rewrite Gb. eexists; reflexivity.
      + assert (Hw' : dict_wf d (o0 :: os') f).
        { destruct Hd as [H1 [H2 H3]]. split; [|split; [|exact H3]].
          - intros k l Hin. destruct (H1 k l Hin) as [o [-> [Ho ->]]]. exists o.
            split; [reflexivity|]. split; [|reflexivity]. apply Hda; [discriminate|reflexivity|exact Ho].
          - intros o Ho. apply H2, Hi, Ho. }
        destruct (relabel_total d (o0 :: os') (ax :: axs) f Hw' Hok) as [r Hr].
        cbn [bind]. rewrite Hr. cbn [bind]. rewrite Gb. eexists; reflexivity.
    - cbn [bind]. rewrite Gb. destruct da; eexists; reflexivity. }
  destruct G as [s Hs]. exists s. split; [exact Hs|]. split; [eapply space_of_dict_full; eassumption|].
  eapply space_of_dict_coords, Hs.
Qed.

Lemma dict_wf_of s os f : wf_full s os f -> exists d, s_dobs s = Some d /\ dict_wf d os f.
Proof. intros [[_ [_ [_ H]]] _]. exact H. Qed.

Lemma filter_lookup_total (b : binning) (os req : list string) :
  map fst b = os ->
  exists es, mapM (fun ob => let* e := opt_result KeyError (lookup String.eqb ob b) in Ok (ob, e)) (sel os req) = Ok es
    /\ map fst es = sel os req.
Proof.
  intros Hb. assert (Hi : incl (sel os req) (map fst b)) by (intros o Ho; apply sel_In in Ho; rewrite Hb; apply Ho).
  clear Hb. induction (sel os req) as [|o l IH]; [exists []; split; reflexivity|].
  destruct IH as [es [E1 E2]]; [intros x Hx; apply Hi; right; exact Hx|].
  destruct (lookup_some_key _ string_eqb_ok o b (Hi o (or_introl eq_refl))) as [e He].
  exists ((o, e) :: es). simpl. rewrite He. simpl. rewrite E1. simpl. split; [reflexivity|f_equal; exact E2].
Qed.

(** [with_obs] succeeds exactly when the request is acceptable, and keeps the limits. *)
Lemma s_with_obs_total s os f req sup sub :
  wf_full s os f -> NoDup req -> req_ok os req sup sub ->
  exists s', s_with_obs s (Some req) sup sub = Ok s' /\ wf_full s' (sel os req) f
    /\ (s_axes s = None -> s_axes s' = None) /\ (s_binning s = None -> s_binning s' = None).
Proof.
  intros Hw Hr Hok. pose proof (wf_coords_ok _ _ _ Hw) as Hcok. pose proof (dict_wf_of _ _ _ Hw) as [d [Hd Hdw]].
  destruct Hw as [[Ho [Hnd [Hne _]]] [Ha Hb]].
  destruct (coords_with_obs_total _ _ _ _ _ Ho Hcok Hok) as [ax [Hc [Hax1 Hax2]]].
  unfold s_with_obs. rewrite Hc. cbn [bind]. rewrite Ho, Hd.
  assert (Hsne : sel os req <> []).
  { destruct Hok as [[o [H1 H2]] _]. intros E. assert (Hin : In o (sel os req)) by (apply sel_In; auto).
    rewrite E in Hin. exact Hin. }
  set (bb := match s_binning s with None => Ok None | Some b => _ end).
  assert (Gb : exists b', bb = Ok b' /\ (s_binning s = None -> b' = None) /\ forall l, b' = Some l -> map fst l = sel os req).
  { unfold bb. unfold binning_ok in Hb. destruct (s_binning s) as [b|].
    - destruct (filter_lookup_total b os req Hb) as [es [E1 E2]]. unfold sel in E1 at 1. rewrite E1. cbn [bind].
      exists (Some es). split; [reflexivity|]. split; [discriminate|]. intros l El. inversion El; subst. exact E2.
    - exists None. split; [reflexivity|]. split; [reflexivity|discriminate]. }
  destruct Gb as [b' [-> [Hb0 Hb']]]. cbn [bind].
  destruct (space_of_dict_total (mkCoords (Some (sel os req)) ax) d (s_daxes s) b' os (sel os req) f) as [s' [Hs' [Hw' Hc']]].
  - exact Hdw.
  - intros o Hin. apply sel_In in Hin. apply Hin.
  - apply sel_nodup, Hr.
  - exact Hsne.
  - reflexivity.
  - eapply with_obs_coords_ok, Hc.
  - simpl. intros Hax E. exfalso. unfold axes_ok, s_axes in *.
    destruct (c_axes (s_coords s)) as [a|]; [destruct Ha as [_ [da Hda]]; congruence|].
    apply Hax. apply Hax1. reflexivity.
  - intros l El o. rewrite (Hb' l El). reflexivity.
  - exists s'. split; [exact Hs'|]. split; [exact Hw'|]. split.
    + intros E. unfold s_axes in *. rewrite Hc'. simpl. apply Hax1, E.
    + intros E. rewrite (Hb0 E) in Hs'. unfold space_of_dict in Hs'.
      inv_bind Hs'. destruct a. simpl in Hs'. inversion Hs'. reflexivity.
Qed.

Lemma s_get_subspace_total s os f req :
  wf_full s os f -> NoDup req -> (exists o, In o req /\ In o os) ->
  exists s', s_get_subspace s req = Ok s' /\ wf_full s' (sel os req) f /\ s_binning s' = None.
Proof.
  intros Hw Hr Hex. pose proof (wf_coords_ok _ _ _ Hw) as Hcok. pose proof (dict_wf_of _ _ _ Hw) as [d [Hd Hdw]].
  destruct Hw as [[Ho [Hnd [Hne _]]] [Ha Hb]].
  assert (Hok : req_ok os req true true) by (split; [exact Hex|split; discriminate]).
  destruct (coords_with_obs_total _ _ _ _ _ Ho Hcok Hok) as [ax [Hc [Hax1 Hax2]]].
  destruct (extract_ok _ _ _ req Hdw) as [d' Ed].
  unfold s_get_subspace. rewrite Hd, Ed. cbn [bind]. rewrite Hc. cbn [bind].
  destruct (space_of_dict_total (mkCoords (Some (sel os req)) ax) d' None None (sel os req) (sel os req) f) as [s' [Hs' [Hw' Hc']]].
  - eapply extract_wf; [exact Hdw|intros o; apply sel_In|exact Ed].
  - apply incl_refl.
  - apply sel_nodup, Hr.
  - destruct Hex as [o [H1 H2]]. intros E. assert (Hin : In o (sel os req)) by (apply sel_In; auto).
    rewrite E in Hin. exact Hin.
  - reflexivity.
  - eapply with_obs_coords_ok, Hc.
  - intros _ _. apply incl_refl.
  - discriminate.
  - exists s'. split; [exact Hs'|]. split; [exact Hw'|].
    unfold space_of_dict in Hs'. inv_bind Hs'. destruct a. simpl in Hs'. inversion Hs'. reflexivity.
Qed.

(* ---------- equality ---------- *)
Lemma s_drop_axes_total s os f :
  wf_full s os f -> exists s', s_with_axes s None true true = Ok s' /\ wf_full s' os f /\ s_axes s' = None.
Proof.
  intros Hw. pose proof (dict_wf_of _ _ _ Hw) as [d [Hd Hdw]].
  pose proof Hw as [[Ho [Hnd [Hne _]]] [Ha Hb]]. unfold s_with_axes.
  destruct (s_axes s) as [a|] eqn:Ea; [|exists s; auto].
  rewrite Ho. rewrite make_coords_total; [|exact Hne|discriminate]. cbn [bind]. rewrite Hd.
  destruct (space_of_dict_total (mkCoords (Some os) None) d (s_daxes s) (s_binning s) os os f) as [s' [Hs' [Hw' Hc']]];
    auto using incl_refl.
  - exact I.
  - intros l El o. unfold binning_ok in Hb. rewrite El in Hb. rewrite Hb. reflexivity.
  - exists s'. split; [exact Hs'|]. split; [exact Hw'|]. unfold s_axes. rewrite Hc'. reflexivity.
Qed.

Lemma s_set_axes_total s os f a :
  wf_full s os f -> s_axes s = None -> length a = length os ->
  exists s', s_with_axes s (Some a) true true = Ok s' /\ wf_full s' os f.
Proof.
  intros Hw Ea Hl. pose proof (dict_wf_of _ _ _ Hw) as [d [Hd Hdw]].
  pose proof Hw as [[Ho [Hnd [Hne _]]] [Ha Hb]]. unfold s_with_axes. rewrite Ea, Ho.
  rewrite Hl, Nat.eqb_refl. cbn [negb]. rewrite make_coords_total; [|exact Hne|intros l E; inversion E; subst; exact Hl].
  cbn [bind]. rewrite Hd.
  destruct (space_of_dict_total (mkCoords (Some os) (Some a)) d (s_daxes s) (s_binning s) os os f) as [s' [Hs' [Hw' Hc']]];
    auto using incl_refl.
  - intros l El o. unfold binning_ok in Hb. rewrite El in Hb. rewrite Hb. reflexivity.
  - exists s'. auto.
Qed.

Lemma sel_same os os' : (forall o, In o os' -> In o os) -> sel os os' = os'.
Proof. intros H. apply filter_mem_self. exact H. Qed.

Lemma s_with_coords_total s1 os1 f1 s2 os2 f2 :
  wf_full s1 os1 f1 -> wf_full s2 os2 f2 -> (forall o, In o os1 <-> In o os2) ->
  exists s', s_with_coords s2 (s_coords s1) false false = Ok s' /\ wf_full s' os1 f2.
Proof.
  intros W1 W2 Hs. pose proof (wf_coords_ok _ _ _ W1) as Hc1.
  pose proof W1 as [[Ho1 [Hnd1 [Hne1 _]]] [Ha1 Hb1]]. pose proof W2 as [[Ho2 [Hnd2 [Hne2 _]]] [Ha2 Hb2]].
  unfold s_with_coords. rewrite Ho2. unfold s_obs in Ho1. rewrite Ho1.
  assert (Hok : req_ok os2 os1 false false).
  { split; [|split; intros _ o Hin; apply Hs; exact Hin].
    destruct os1 as [|o os1]; [congruence|]. exists o. split; [left; reflexivity|]. apply Hs. left; reflexivity. }
  destruct (s_with_obs_total s2 os2 f2 os1 false false W2 Hnd1 Hok) as [s3 [E3 [W3 _]]].
  rewrite (sel_same os2 os1) in W3 by (intros o Hin; apply Hs, Hin).
  rewrite E3. cbn [bind].
  destruct (c_axes (s_coords s1)) as [a1|] eqn:Ea1; [|exists s3; auto].
  assert (G : exists s4, match s_axes s3 with None => Ok s3 | Some _ => s_with_axes s3 None true true end = Ok s4
              /\ wf_full s4 os1 f2 /\ s_axes s4 = None).
  { destruct (s_axes s3) as [a3|] eqn:Ea3; [apply s_drop_axes_total, W3|exists s3; auto]. }
  destruct G as [s4 [E4 [W4 Ea4]]]. rewrite E4. cbn [bind].
  pose proof W4 as [[Ho4 _] _]. rewrite Ho4.
  assert (Hok' : req_ok os1 os1 false false).
  { split; [|split; intros _; apply incl_refl].
    destruct os1 as [|o os1]; [congruence|]. exists o. split; left; reflexivity. }
  destruct (coords_with_obs_total _ _ _ _ _ Ho1 Hc1 Hok') as [ax [Ex [_ Hx]]].
  rewrite Ex. cbn [bind c_axes]. pose proof (with_obs_coords_ok _ _ _ _ _ Ex) as Hcx.
  destruct ax as [ax|]; [|exfalso; apply Hx; [congruence|reflexivity]].
  unfold coords_ok in Hcx. simpl in Hcx. rewrite (sel_same os1 os1) in Hcx by auto.
  apply s_set_axes_total; assumption.
Qed.

Lemma s_with_coords_incompatible s1 os1 f1 s2 os2 f2 :
  wf_full s1 os1 f1 -> wf_full s2 os2 f2 -> ~ (forall o, In o os1 <-> In o os2) ->
  s_with_coords s2 (s_coords s1) false false = Err ObsIncompatibleError.
Proof.
  intros W1 W2 Hs. pose proof W1 as [[Ho1 [Hnd1 [Hne1 _]]] _].
  pose proof W2 as [[Ho2 [Hnd2 [Hne2 _]]] _]. pose proof (wf_coords_ok _ _ _ W2) as Hc2.
  unfold s_with_coords. rewrite Ho2. unfold s_obs in Ho1. rewrite Ho1.
  assert (Hno : ~ req_ok os2 os1 false false).
  { intros [_ [H1 H2]]. apply Hs. intros o. split; [apply H1; reflexivity|apply H2; reflexivity]. }
  unfold s_with_obs.
  assert (E : with_obs (s_coords s2) (Some os1) false false = Err ObsIncompatibleError).
  { unfold s_obs in Ho2. unfold with_obs. rewrite Ho2. rewrite <- req_check in Hno.
    destruct (negb (intersectsb String.eqb os1 os2)); [reflexivity|].
    destruct (_ && _ && _); [reflexivity|]. destruct (_ && _ && _); [reflexivity|]. congruence. }
  rewrite E. reflexivity.
Qed.

Lemma Qabs'_lt q t : Qlt_bool (Qabs' q) t = true <-> (- t < q /\ q < t)%Q.
Proof.
  unfold Qlt_bool, Qabs'. rewrite negb_true_iff.
  destruct (Qle_bool 0 q) eqn:E.
  - apply Qle_bool_iff in E. split.
    + intros H. assert (~ (t <= q)%Q) by (intros C; apply Qle_bool_iff in C; congruence).
      apply Qnot_le_lt in H0. split; [|exact H0]. lra.
    + intros [_ H]. apply not_true_iff_false. intros C. apply Qle_bool_iff in C. lra.
  - assert (E' : ~ (0 <= q)%Q) by (intros C; apply Qle_bool_iff in C; congruence). apply Qnot_le_lt in E'.
    split.
    + intros H. assert (H0 : ~ (t <= - q)%Q) by (intros C; apply Qle_bool_iff in C; congruence).
      apply Qnot_le_lt in H0. split; lra.
    + intros [H _]. apply not_true_iff_false. intros C. apply Qle_bool_iff in C. lra.
Qed.

Lemma agree_bool a b :
  Qlt_bool (Qabs' (fst a - fst b)) static_tol && Qlt_bool (Qabs' (snd a - snd b)) static_tol = true <-> agree a b.
Proof. rewrite andb_true_iff, !Qabs'_lt. unfold agree, static_tol. tauto. Qed.

Lemma all2_map {A B C} (p : B -> C -> bool) (f : A -> B) (g : A -> C) l :
  all2 p (map f l) (map g l) = forallb (fun a => p (f a) (g a)) l.
Proof.
  unfold all2. rewrite !map_length, Nat.eqb_refl. simpl.
  induction l as [|a l IH]; simpl; [reflexivity|]. rewrite IH. reflexivity.
Qed.

Lemma wf_full_rect s os f : wf_full s os f -> wf_rect s os f.
Proof. intros [H _]. exact H. Qed.

Lemma In_set_dec (a b : list string) :
  (forall o, In o a <-> In o b) \/ ~ (forall o, In o a <-> In o b).
Proof.
  destruct (set_eqb String.eqb a b) eqn:E.
  - left. apply (set_eqb_iff _ string_eqb_ok), E.
  - right. intros H. apply (set_eqb_iff _ string_eqb_ok) in H. congruence.
Qed.

Lemma s_eq_full s1 os1 f1 s2 os2 f2 :
  wf_full s1 os1 f1 -> wf_full s2 os2 f2 ->
  exists b, s_eq s1 s2 = Ok b /\
    (b = true <-> (forall o, In o os1 <-> In o os2) /\ (forall o, In o os1 -> agree (f1 o) (f2 o))).
Proof.
  intros W1 W2. unfold s_eq. rewrite (wf_limits _ _ _ (wf_full_rect _ _ _ W1)), (wf_limits _ _ _ (wf_full_rect _ _ _ W2)).
  unfold compare_static. destruct (In_set_dec os1 os2) as [Hs|Hs].
  - destruct (s_with_coords_total _ _ _ _ _ _ W1 W2 Hs) as [s' [E W]]. rewrite E.
    rewrite (wf_limits _ _ _ (wf_full_rect _ _ _ W1)), (wf_limits _ _ _ (wf_full_rect _ _ _ W)).
    eexists. split; [reflexivity|]. rewrite all2_map, forallb_forall. split.
    + intros H. split; [exact Hs|]. intros o Ho. apply agree_bool, H, Ho.
    + intros [_ H] o Ho. apply agree_bool, H, Ho.
  - rewrite (s_with_coords_incompatible _ _ _ _ _ _ W1 W2 Hs). simpl. exists false. split; [reflexivity|].
    split; [discriminate|]. intros [H _]. contradiction.
Qed.

(* ---------- combine_spaces ---------- *)
Definition lim_at (s : space) (o : string) : Q * Q :=
  match s_limits s with Ok ivs => limf (obs_list s) ivs o | Err _ => (0, 0)%Q end.

Lemma wf_obs_list s os f : wf_rect s os f -> obs_list s = os.
Proof. intros [H _]. unfold obs_list. rewrite H. reflexivity. Qed.

Lemma limf_map os f o : NoDup os -> In o os -> limf os (map f os) o = f o.
Proof.
  intros Hnd Hin. apply limf_in; [exact Hnd|rewrite map_length; reflexivity|].
  apply In_nth_error in Hin. destruct Hin as [k Hk]. apply combine_In_nth. exists k. split; [exact Hk|].
  rewrite nth_error_map, Hk. reflexivity.
Qed.

Lemma wf_lim_at s os f o : wf_rect s os f -> In o os -> lim_at s o = f o.
Proof.
  intros W Hin. unfold lim_at. rewrite (wf_limits _ _ _ W), (wf_obs_list _ _ _ W).
  destruct W as [_ [Hnd _]]. apply limf_map; assumption.
Qed.

Lemma dict_wf_ext d os f g : (forall o, In o os -> f o = g o) -> dict_wf d os f -> dict_wf d os g.
Proof.
  intros E [H1 [H2 H3]]. split; [|split; [|exact H3]].
  - intros k l Hin. destruct (H1 k l Hin) as [o [-> [Ho ->]]]. exists o. rewrite <- (E o Ho). auto.
  - intros o Ho. rewrite <- (E o Ho). apply H2, Ho.
Qed.
Lemma wf_rect_ext s os f g : (forall o, In o os -> f o = g o) -> wf_rect s os f -> wf_rect s os g.
Proof.
  intros E [H1 [H2 [H3 [d [H4 H5]]]]]. repeat (split; [assumption|]). exists d. split; [exact H4|].
  eapply dict_wf_ext; eassumption.
Qed.
Definition good (s : space) : Prop := wf_full s (obs_list s) (lim_at s).
Lemma wf_good s os f : wf_full s os f -> good s.
Proof.
  intros [W H]. unfold good. rewrite (wf_obs_list _ _ _ W). split; [|exact H].
  eapply wf_rect_ext; [|exact W]. intros o Ho. symmetry. apply (wf_lim_at _ _ _ _ W Ho).
Qed.
Lemma good_nodup s : good s -> NoDup (obs_list s).
Proof. intros [[_ [H _]] _]. exact H. Qed.
Lemma has_coord_In o s : has_coord o s = true <-> In o (obs_list s).
Proof.
  unfold has_coord, obs_list. destruct (s_obs s) as [os|]; [apply (mem_In _ string_eqb_ok)|].
  split; [discriminate|intros []].
Qed.

Lemma list_eqb_ok {A} (eqb : A -> A -> bool) : eqb_spec eqb -> eqb_spec (list_eqb eqb).
Proof.
  intros H a. induction a as [|x a IH]; intros [|y b]; simpl; split; intros E; try discriminate; try reflexivity.
  - apply andb_true_iff in E. destruct E as [E1 E2]. apply H in E1. apply IH in E2. congruence.
  - inversion E; subst. apply andb_true_iff. split; [apply H; reflexivity|apply IH; reflexivity].
Qed.

Lemma dict_set_fresh {K} (eqb : K -> K -> bool) (d : list (list K * limit)) k l :
  eqb_spec eqb -> ~ In k (map fst d) -> dict_set eqb d k l = d ++ [(k, l)].
Proof.
  intros H Hn. induction d as [|[k' l'] d IH]; simpl; [reflexivity|].
  destruct (list_eqb eqb k k') eqn:E.
  - apply (list_eqb_ok _ H) in E. exfalso. apply Hn. left. simpl. congruence.
  - f_equal. apply IH. intros Hin. apply Hn. right. exact Hin.
Qed.
Lemma dict_update_fresh {K} (eqb : K -> K -> bool) (d e : list (list K * limit)) :
  eqb_spec eqb -> NoDup (map fst e) -> (forall k, In k (map fst e) -> ~ In k (map fst d)) ->
  dict_update eqb d e = d ++ e.
Proof.
  intros H. unfold dict_update. revert d. induction e as [|[k l] e IH]; intros d Hnd Hf; simpl.
  - rewrite app_nil_r. reflexivity.
  - inversion Hnd as [|? ? Hn Hnd']; subst.
    rewrite (dict_set_fresh _ _ _ _ H) by (apply Hf; left; reflexivity).
    rewrite IH; [rewrite <- app_assoc; reflexivity|exact Hnd'|].
    intros k' Hk' Hin. rewrite map_app in Hin. apply in_app_or in Hin. destruct Hin as [Hin|[Hin|[]]].
    + eapply Hf; [right; exact Hk'|exact Hin].
    + simpl in Hin. subst k'. contradiction.
Qed.

Lemma set_remove_all_spec l : forall S S', set_remove_all S l = Ok S' ->
  (forall o, In o S' <-> In o S /\ ~ In o l) /\ incl l S /\ (NoDup S -> NoDup S').
Proof.
  induction l as [|o l IH]; intros S S' H; simpl in H.
  - inversion H; subst. split; [|split; [intros x []|auto]]. intros o. simpl. tauto.
  - destruct (mem String.eqb o S) eqn:E; [|discriminate]. apply (mem_In _ string_eqb_ok) in E.
    destruct (IH _ _ H) as [H1 [H2 H3]]. split; [|split].
    + intros x. rewrite H1. rewrite filter_In, negb_true_iff, (eqb_false _ string_eqb_ok). simpl. split.
      * intros [[A B] C]. split; [exact A|]. intros [D|D]; [congruence|contradiction].
      * intros [A B]. split; [split; [exact A|intros D; apply B; left; congruence]|]. intros D. apply B. right. exact D.
    + intros x [<-|Hx]; [exact E|]. apply H2 in Hx. apply filter_In in Hx. apply Hx.
    + intros Hnd. apply H3. apply NoDup_filter, Hnd.
Qed.
Lemma set_remove_all_total l : forall S, NoDup l -> incl l S -> exists S', set_remove_all S l = Ok S'.
Proof.
  induction l as [|o l IH]; intros S Hnd Hi; simpl; [eexists; reflexivity|].
  assert (E : mem String.eqb o S = true) by (apply (mem_In _ string_eqb_ok), Hi; left; reflexivity).
  rewrite E. inversion Hnd as [|? ? Hn Hnd']; subst. apply IH; [exact Hnd'|].
  intros x Hx. apply filter_In. split; [apply Hi; right; exact Hx|].
  rewrite negb_true_iff, (eqb_false _ string_eqb_ok). intros ->. contradiction.
Qed.

Lemma NoDup_app_intro' {T} (a b : list T) :
  NoDup a -> NoDup b -> (forall x, In x a -> In x b -> False) -> NoDup (a ++ b).
Proof.
  intros Ha Hb H. induction a as [|x a IH]; [exact Hb|]. inversion Ha as [|? ? Hn Ha']; subst. simpl.
  constructor.
  - intros C. apply in_app_or in C. destruct C as [C|C]; [contradiction|]. apply (H x); [left; reflexivity|exact C].
  - apply IH; [exact Ha'|]. intros y Hy. apply H. right. exact Hy.
Qed.

Section Combine.
Variable ss : list space.
Hypothesis Hgood : forall s, In s ss -> good s.
Variable A : list string.
Hypothesis HA : forall o, In o A <-> exists s, In s ss /\ In o (obs_list s).

Definition F (o : string) : Q * Q :=
  match filter (has_coord o) ss with s :: _ => lim_at s o | [] => (0, 0)%Q end.

Record inv (st : combine_state) : Prop := {
  inv_entry : forall k l, In (k, l) (fst (fst st)) ->
      exists o, k = [o] /\ In o A /\ ~ In o (snd (fst st)) /\ ~ In o (snd st) /\ l = LRect [F o];
  inv_all : forall o, In o A -> In o (snd (fst st)) \/ In o (snd st) \/ In ([o], LRect [F o]) (fst (fst st));
  inv_keys : NoDup (map fst (fst (fst st)));
  inv_u : NoDup (snd (fst st)) /\ incl (snd (fst st)) A;
  inv_n : NoDup (snd st) /\ incl (snd st) A;
  inv_uc : forall o, In o (snd (fst st)) -> count_with o ss <= 1;
  inv_nc : forall o, In o (snd st) -> 1 < count_with o ss }.

Lemma first_with o s r : filter (has_coord o) ss = s :: r -> In s ss /\ In o (obs_list s).
Proof.
  intros H. assert (Hin : In s (filter (has_coord o) ss)) by (rewrite H; left; reflexivity).
  apply filter_In in Hin. destruct Hin as [H1 H2]. apply has_coord_In in H2. auto.
Qed.
Lemma F_first o s r : filter (has_coord o) ss = s :: r -> F o = lim_at s o.
Proof. intros H. unfold F. rewrite H. reflexivity. Qed.

Lemma unique_F o s : count_with o ss <= 1 -> In s ss -> In o (obs_list s) -> F o = lim_at s o.
Proof.
  intros Hc Hin Ho. unfold count_with in Hc. unfold F.
  assert (Hf : In s (filter (has_coord o) ss)) by (apply filter_In; split; [exact Hin|apply has_coord_In, Ho]).
  destruct (filter (has_coord o) ss) as [|s1 [|s2 r]]; [destruct Hf| |simpl in Hc; lia].
  destruct Hf as [->|[]]. reflexivity.
Qed.

Lemma sub_dict_facts sub os f : wf_rect sub os f ->
  exists e, s_dobs sub = Some e /\ dict_wf e os f /\ obs_list sub = os.
Proof.
  intros W. pose proof (wf_obs_list _ _ _ W) as E. destruct W as [_ [_ [_ [e [He Hw]]]]]. exists e. auto.
Qed.

(** Moving a block of observables [os] with the limits of [sub] out of the sets. *)
Lemma inv_move d U N U' N' e os g :
  inv (d, U, N) -> dict_wf e os g ->
  (forall o, In o os -> In o U \/ In o N) ->
  (forall o, In o os -> g o = F o) ->
  (forall o, In o U' <-> In o U /\ ~ In o os) -> (forall o, In o N' <-> In o N /\ ~ In o os) ->
  NoDup U' -> NoDup N' ->
  inv (dict_update String.eqb d e, U', N').
Proof.
  intros I Hw Hos Hg HU HN HdU HdN. pose proof Hw as [W1 [W2 W3]].
  assert (E : dict_update String.eqb d e = d ++ e).
  { apply dict_update_fresh; [auto|exact W3|]. intros k Hk Hin.
    apply in_map_iff in Hk. destruct Hk as [[k1 l1] [<- Hk]]. destruct (W1 _ _ Hk) as [o [-> [Ho ->]]].
    apply in_map_iff in Hin. destruct Hin as [[k2 l2] [Ek Hin]]. simpl in Ek. subst k2.
    destruct (inv_entry _ I _ _ Hin) as [o' [Ek [_ [HnU [HnN _]]]]]. inversion Ek; subst o'. simpl in *.
    destruct (Hos o Ho); contradiction. }
  rewrite E. constructor; simpl.
  - intros k l Hin. apply in_app_or in Hin. destruct Hin as [Hin|Hin].
    + destruct (inv_entry _ I _ _ Hin) as [o [-> [HoA [H1 [H2 ->]]]]]. simpl in *. exists o.
      split; [reflexivity|]. split; [exact HoA|]. split; [intros C; apply HU in C; apply H1, C|].
      split; [intros C; apply HN in C; apply H2, C|reflexivity].
    + destruct (W1 _ _ Hin) as [o [-> [Ho ->]]]. exists o. split; [reflexivity|].
      split; [destruct (Hos o Ho) as [C|C]; [apply (proj2 (inv_u _ I)), C|apply (proj2 (inv_n _ I)), C]|].
      split; [intros C; apply HU in C; apply (proj2 C), Ho|].
      split; [intros C; apply HN in C; apply (proj2 C), Ho|]. rewrite (Hg o Ho). reflexivity.
  - intros o HoA. destruct (eqb_In_dec _ string_eqb_ok o os) as [Hi|Hi].
    + right. right. apply in_or_app. right. rewrite <- (Hg o Hi). apply W2, Hi.
    + destruct (inv_all _ I o HoA) as [C|[C|C]]; simpl in C.
      * left. apply HU. auto.
      * right. left. apply HN. auto.
      * right. right. apply in_or_app. left. exact C.
  - rewrite map_app. apply NoDup_app_intro'; [exact (inv_keys _ I)|exact W3|].
    intros k Hk Hk2.
    apply in_map_iff in Hk2. destruct Hk2 as [[k1 l1] [<- Hk2]]. destruct (W1 _ _ Hk2) as [o [-> [Ho ->]]].
    apply in_map_iff in Hk. destruct Hk as [[k2 l2] [Ek Hin]]. simpl in Ek. subst k2.
    destruct (inv_entry _ I _ _ Hin) as [o' [Ek [_ [HnU [HnN _]]]]]. inversion Ek; subst o'. simpl in *.
    destruct (Hos o Ho); contradiction.
  - split; [exact HdU|]. intros o C. apply HU in C. apply (proj2 (inv_u _ I)), C.
  - split; [exact HdN|]. intros o C. apply HN in C. apply (proj2 (inv_n _ I)), C.
  - intros o C. apply HU in C. apply (inv_uc _ I), C.
  - intros o C. apply HN in C. apply (inv_nc _ I), C.
Qed.

Lemma dobs_default sub e : s_dobs sub = Some e -> match s_dobs sub with Some e => e | None => [] end = e.
Proof. intros ->. reflexivity. Qed.

Lemma filter_first {T} (p : T -> bool) l a r : filter p l = a :: r ->
  exists l1 l2, l = l1 ++ a :: l2 /\ forall x, In x l1 -> p x = false.
Proof.
  induction l as [|b l IH]; simpl; intros H; [discriminate|]. destruct (p b) eqn:E.
  - inversion H; subst. exists [], l. split; [reflexivity|]. intros x [].
  - destruct (IH H) as [l1 [l2 [-> H2]]]. exists (b :: l1), l2. split; [reflexivity|].
    intros x [<-|Hx]; [exact E|apply H2, Hx].
Qed.
(** [o] is not an observable of a space that comes before the first space with [c]. *)
Definition not_before (o c : string) : Prop :=
  forall l1 sp l2, ss = l1 ++ sp :: l2 -> In c (obs_list sp) ->
    (forall s, In s l1 -> ~ In c (obs_list s)) -> forall s, In s l1 -> ~ In o (obs_list s).
Lemma not_before_F o c sp rest : not_before o c -> filter (has_coord c) ss = sp :: rest ->
  In o (obs_list sp) -> F o = lim_at sp o.
Proof.
  intros Hn Ef Ho. destruct (first_with _ _ _ Ef) as [_ Hc].
  destruct (filter_first _ _ _ _ Ef) as [l1 [l2 [E Hl]]].
  assert (H1 : forall s, In s l1 -> ~ In o (obs_list s)).
  { apply (Hn _ _ _ E Hc). intros s Hs Hin. apply has_coord_In in Hin. rewrite (Hl s Hs) in Hin. discriminate. }
  unfold F. rewrite E, filter_app.
  assert (X : filter (has_coord o) l1 = []).
  { clear - H1. induction l1 as [|s l1 IH]; [reflexivity|]. simpl. destruct (has_coord o s) eqn:Eo.
    - apply has_coord_In in Eo. exfalso. apply (H1 s); [left; reflexivity|exact Eo].
    - apply IH. intros s' Hs'. apply H1. right. exact Hs'. }
  rewrite X. simpl. apply has_coord_In in Ho. rewrite Ho. reflexivity.
Qed.

Lemma step_weak d U N c d' U' N' :
  inv (d, U, N) -> In c A ->
  (forall o, In o N -> not_before o c) ->
  combine_step ss (d, U, N) c = Ok (d', U', N') ->
  inv (d', U', N') /\ ~ In c U' /\ ~ In c N' /\ incl U' U /\ incl N' N.
Proof.
  intros I HcA Hord H. unfold combine_step in H.
  destruct (mem String.eqb c U) eqn:EU.
  - apply (mem_In _ string_eqb_ok) in EU.
    destruct (filter (has_coord c) ss) as [|sp rest] eqn:Ef; [discriminate|].
    bindn H sub Hsub. bindn H U1 HU1. inversion H; subst; clear H.
    destruct (first_with _ _ _ Ef) as [Hsp Hc].
    pose proof (Hgood _ Hsp) as G. pose proof (wf_full_rect _ _ _ G) as W.
    pose proof (subspace_wf _ _ _ _ _ W (proj1 (inv_u _ I)) Hsub) as Ws. simpl in Ws.
    destruct (sub_dict_facts _ _ _ Ws) as [e [He [Hw Ho]]]. rewrite (dobs_default _ _ He).
    destruct (set_remove_all_spec _ _ _ HU1) as [R1 [R2 R3]]. rewrite Ho in R1, R2.
    pose proof (proj1 (inv_u _ I)) as HndU. simpl in HndU.
    assert (HcS : In c (sel (obs_list sp) U)) by (apply sel_In; auto).
    assert (Hdisj : forall o, In o N' -> In o U -> False).
    { intros o H1 H2. pose proof (inv_uc _ I o H2). pose proof (inv_nc _ I o H1). lia. }
    split; [|split; [|split; [|split]]].
    + apply (inv_move _ _ _ _ _ _ _ _ I Hw).
      * intros o Hin. left. apply R2, Hin.
      * intros o Hin. apply sel_In in Hin. symmetry. apply unique_F; [|exact Hsp|apply Hin].
        apply (inv_uc _ I). apply Hin.
      * exact R1.
      * intros o. split; [|tauto]. intros Hin. split; [exact Hin|]. intros C. apply R2 in C. eapply Hdisj; eassumption.
      * apply R3, HndU.
      * apply (proj1 (inv_n _ I)).
    + intros C. apply R1 in C. apply (proj2 C), HcS.
    + intros C. eapply Hdisj; eassumption.
    + intros o C. apply R1 in C. apply C.
    + apply incl_refl.
  - apply (mem_false _ string_eqb_ok) in EU. destruct (mem String.eqb c N) eqn:EN.
    + apply (mem_In _ string_eqb_ok) in EN.
      destruct (filter (has_coord c) ss) as [|sp rest] eqn:Ef; [discriminate|].
      cbv zeta in H. set (common := filter (fun o => forallb (has_coord o) rest) (obs_list sp)) in *.
      bindn H subs Hsubs. destruct subs as [|sub0 subs']; [discriminate|].
      bindn H ne Hne. destruct ne; [discriminate|]. bindn H N1 HN1. inversion H; subst; clear H.
      destruct (first_with _ _ _ Ef) as [Hsp Hc].
      cbn [mapM] in Hsubs. bindn Hsubs sub0' Hsub. bindn Hsubs subs'' Hrest. inversion Hsubs; subst; clear Hsubs.
      pose proof (Hgood _ Hsp) as G. pose proof (wf_full_rect _ _ _ G) as W.
      assert (Hndc : NoDup common) by (apply NoDup_filter, good_nodup, G).
      pose proof (subspace_wf _ _ _ _ _ W Hndc Hsub) as Ws.
      assert (Esel : sel (obs_list sp) common = common).
      { apply sel_same. intros o Ho. apply filter_In in Ho. apply Ho. }
      rewrite Esel in Ws.
      destruct (sub_dict_facts _ _ _ Ws) as [e [He [Hw Ho]]]. rewrite (dobs_default _ _ He).
      destruct (set_remove_all_spec _ _ _ HN1) as [R1 [R2 R3]]. rewrite Ho in R1, R2.
      assert (HcS : In c common).
      { apply filter_In. split; [exact Hc|]. apply forallb_forall. intros s Hs.
        assert (X : In s (filter (has_coord c) ss)) by (rewrite Ef; right; exact Hs).
        apply filter_In in X. apply X. }
      assert (Hdisj : forall o, In o N -> In o U' -> False).
      { intros o H1 H2. pose proof (inv_uc _ I o H2). pose proof (inv_nc _ I o H1). lia. }
      split; [|split; [|split; [|split]]].
      * apply (inv_move _ _ _ _ _ _ _ _ I Hw).
        -- intros o Hin. right. apply R2, Hin.
        -- intros o Hin. apply R2 in Hin as HinN.
           unfold common in Hin. apply filter_In in Hin. destruct Hin as [Hin Hall].
           symmetry. exact (not_before_F _ _ _ _ (Hord o HinN) Ef Hin).
        -- intros o. split; [|tauto]. intros Hin. split; [exact Hin|]. intros C. apply R2 in C. eapply Hdisj; eassumption.
        -- exact R1.
        -- apply (proj1 (inv_u _ I)).
        -- apply R3, (proj1 (inv_n _ I)).
      * exact EU.
      * intros C. apply R1 in C. apply (proj2 C), HcS.
      * apply incl_refl.
      * intros o C. apply R1 in C. apply C.
    + apply (mem_false _ string_eqb_ok) in EN. inversion H; subst. split; [exact I|].
      split; [exact EU|]. split; [exact EN|]. split; apply incl_refl.
Qed.

Lemma agree_refl a : agree a a.
Proof. unfold agree. repeat split; lra. Qed.

Definition same_spaces (o o' : string) : Prop := forall s, In s ss -> In o (obs_list s) <-> In o' (obs_list s).
Definition unnested : Prop :=
  forall o o', 1 < count_with o ss -> 1 < count_with o' ss ->
    (forall s, In s ss -> In o (obs_list s) -> In o' (obs_list s)) -> same_spaces o o'.
Definition inv6 (st : combine_state) : Prop :=
  forall o, In o A -> ~ In o (snd st) -> 1 < count_with o ss ->
    forall s, In s ss -> In o (obs_list s) -> agree (F o) (lim_at s o).
Definition inv7 (st : combine_state) : Prop :=
  forall o o', same_spaces o o' -> In o (snd st) -> In o' (snd st).

Lemma any_ne_full sub0 f0 common : wf_full sub0 common f0 -> forall subs sps,
  Forall2 (fun s sub => wf_full sub common (lim_at s)) sps subs ->
  exists b, any_ne sub0 subs = Ok b /\
    (b = false -> forall s, In s sps -> forall o, In o common -> agree (f0 o) (lim_at s o)) /\
    (b = true -> exists s o, In s sps /\ In o common /\ ~ agree (f0 o) (lim_at s o)).
Proof.
  intros W0 subs sps H. induction H as [|s sub sps subs W H IH]; simpl.
  - exists false. split; [reflexivity|]. split; [intros _ s []|discriminate].
  - unfold s_ne at 1. destruct (s_eq_full _ _ _ _ _ _ W0 W) as [b [-> Hb]]. simpl.
    destruct b; simpl.
    + destruct IH as [b [E [H1 H2]]]. exists b. split; [exact E|]. split.
      * intros Hf s' [<-|Hs'] o Ho; [apply (proj1 Hb eq_refl), Ho|apply (H1 Hf s' Hs' o Ho)].
      * intros Ht. destruct (H2 Ht) as [s' [o [A1 A2]]]. exists s', o. split; [right; exact A1|exact A2].
    + exists true. split; [reflexivity|]. split; [discriminate|]. intros _.
      destruct (existsb (fun o => negb (Qlt_bool (Qabs' (fst (f0 o) - fst (lim_at s o))) static_tol
                   && Qlt_bool (Qabs' (snd (f0 o) - snd (lim_at s o))) static_tol)) common) eqn:E.
      * apply existsb_exists in E. destruct E as [o [Ho E]]. exists s, o. split; [left; reflexivity|].
        split; [exact Ho|]. intros C. apply agree_bool in C. rewrite C in E. discriminate.
      * exfalso. assert (X : false = true); [|discriminate]. apply Hb. split; [tauto|].
        intros o Ho. apply agree_bool. rewrite <- negb_false_iff.
        destruct (negb _) eqn:En; [|reflexivity]. rewrite <- E. symmetry. apply existsb_exists. exists o. auto.
Qed.

Lemma count_same o o' : same_spaces o o' -> count_with o ss = count_with o' ss.
Proof.
  intros H. unfold count_with. f_equal. apply filter_ext_in. intros s Hs.
  destruct (has_coord o s) eqn:E1, (has_coord o' s) eqn:E2; try reflexivity.
  - apply has_coord_In in E1. apply (H s Hs), has_coord_In in E1. congruence.
  - apply has_coord_In in E2. apply (H s Hs), has_coord_In in E2. congruence.
Qed.

Lemma count_mono o o' : (forall s, In s ss -> In o (obs_list s) -> In o' (obs_list s)) ->
  count_with o ss <= count_with o' ss.
Proof.
  unfold count_with. clear. induction ss as [|s l IH]; intros H; simpl; [lia|].
  assert (IH' := IH (fun s' Hs' => H s' (or_intror Hs'))).
  destruct (has_coord o s) eqn:E; simpl.
  - apply has_coord_In, (H s (or_introl eq_refl)), has_coord_In in E. rewrite E. simpl. lia.
  - destruct (has_coord o' s); simpl; lia.
Qed.

Lemma filter_none_false o : filter (has_coord o) ss = [] -> In o A -> False.
Proof.
  intros Ef Ho. apply HA in Ho. destruct Ho as [s [Hs Hin]].
  assert (X : In s (filter (has_coord o) ss)) by (apply filter_In; split; [exact Hs|apply has_coord_In, Hin]).
  rewrite Ef in X. exact X.
Qed.

Lemma step_strong d U N c :
  unnested -> inv (d, U, N) -> inv6 (d, U, N) -> inv7 (d, U, N) -> In c A ->
  (forall o, In o N -> not_before o c) ->
  (exists st', combine_step ss (d, U, N) c = Ok st' /\ inv6 st' /\ inv7 st')
  \/ (combine_step ss (d, U, N) c = Err LimitsIncompatibleError
      /\ exists o s, In s ss /\ In o (obs_list s) /\ ~ agree (F o) (lim_at s o)).
Proof.
  intros Hun I I6 I7 HcA Hord. unfold combine_step.
  destruct (mem String.eqb c U) eqn:EU.
  - apply (mem_In _ string_eqb_ok) in EU. left.
    destruct (filter (has_coord c) ss) as [|sp rest] eqn:Ef; [exfalso; eapply filter_none_false; eassumption|].
    destruct (first_with _ _ _ Ef) as [Hsp Hc]. pose proof (Hgood _ Hsp) as G.
    destruct (s_get_subspace_total _ _ _ U G (proj1 (inv_u _ I))) as [sub [Hsub [Wsub _]]]; [exists c; auto|].
    rewrite Hsub. cbn [bind]. rewrite (wf_obs_list _ _ _ (wf_full_rect _ _ _ Wsub)).
    destruct (set_remove_all_total (sel (obs_list sp) U) U) as [U' HU'].
    { apply sel_nodup, (proj1 (inv_u _ I)). } { intros o Ho. apply sel_In in Ho. apply Ho. }
    rewrite HU'. cbn [bind]. eexists. split; [reflexivity|]. split; [exact I6|exact I7].
  - destruct (mem String.eqb c N) eqn:EN.
    + apply (mem_In _ string_eqb_ok) in EN.
      destruct (filter (has_coord c) ss) as [|sp rest] eqn:Ef; [exfalso; eapply filter_none_false; eassumption|].
      cbv zeta. set (common := filter (fun o => forallb (has_coord o) rest) (obs_list sp)).
      destruct (first_with _ _ _ Ef) as [Hsp Hc]. pose proof (Hgood _ Hsp) as G.
      assert (Hndc : NoDup common) by (apply NoDup_filter, good_nodup, G).
      assert (HS : forall s, In s ss -> (In c (obs_list s) <-> In s (sp :: rest))).
      { intros s Hs. rewrite <- Ef, filter_In, has_coord_In. tauto. }
      assert (Hss : forall s, In s (sp :: rest) -> In s ss).
      { intros s Hs. rewrite <- Ef in Hs. apply filter_In in Hs. apply Hs. }
      assert (Hcom : forall o, In o common <-> (forall s, In s (sp :: rest) -> In o (obs_list s))).
      { intros o. unfold common. rewrite filter_In, forallb_forall. split.
        - intros [H1 H2] s [<-|Hs]; [exact H1|]. apply has_coord_In, H2, Hs.
        - intros H. split; [apply H; left; reflexivity|]. intros s Hs. apply has_coord_In, H. right. exact Hs. }
      assert (HcS : In c common).
      { apply Hcom. intros s Hs. apply HS; [apply Hss, Hs|exact Hs]. }
      assert (Hsubs : exists subs, mapM (fun s => s_get_subspace s common) (sp :: rest) = Ok subs
                       /\ Forall2 (fun s sub => wf_full sub common (lim_at s)) (sp :: rest) subs).
      { assert (Hl : forall l, incl l (sp :: rest) -> exists subs, mapM (fun s => s_get_subspace s common) l = Ok subs
                       /\ Forall2 (fun s sub => wf_full sub common (lim_at s)) l subs).
        { induction l as [|s l IH]; intros Hl; [exists []; split; [reflexivity|constructor]|].
          destruct IH as [subs [E1 E2]]; [intros x Hx; apply Hl; right; exact Hx|].
          assert (Hs : In s (sp :: rest)) by (apply Hl; left; reflexivity).
          pose proof (Hgood _ (Hss s Hs)) as Gs.
          destruct (s_get_subspace_total _ _ _ common Gs Hndc) as [sub [Es [Ws _]]].
          { exists c. split; [exact HcS|]. apply HS; [apply Hss, Hs|exact Hs]. }
          exists (sub :: subs). cbn [mapM]. rewrite Es. cbn [bind]. rewrite E1. cbn [bind]. split; [reflexivity|].
          constructor; [|exact E2]. rewrite sel_same in Ws; [exact Ws|]. intros o Ho. apply (proj1 (Hcom o) Ho s Hs). }
        apply Hl, incl_refl. }
      destruct Hsubs as [subs [Esubs Fsubs]]. rewrite Esubs. cbn [bind].
      inversion Fsubs as [|? sub0 ? subs' W0 Fr]; subst.
      destruct (any_ne_full _ _ _ W0 _ _ Fr) as [b [Eb [Hb1 Hb2]]]. rewrite Eb. cbn [bind].
      assert (Hrc : 1 < count_with c ss) by (apply (inv_nc _ I), EN).
      assert (Hsame : forall o, In o common -> same_spaces c o).
      { intros o Ho.
        assert (Hsub : forall s, In s ss -> In c (obs_list s) -> In o (obs_list s)).
        { intros s Hs Hin. apply (proj1 (Hcom o) Ho). apply HS; assumption. }
        apply Hun; [exact Hrc| |exact Hsub]. pose proof (count_mono _ _ Hsub). lia. }
      assert (HF : forall o, In o common -> F o = lim_at sp o).
      { intros o Ho. pose proof (I7 c o (Hsame o Ho) EN) as HoN.
        apply (not_before_F _ _ _ _ (Hord o HoN) Ef). apply (proj1 (Hcom o) Ho). left. reflexivity. }
      destruct b.
      * right. split; [reflexivity|]. destruct (Hb2 eq_refl) as [s [o [A1 [A2 A3]]]]. exists o, s.
        split; [apply Hss; right; exact A1|]. split; [apply (proj1 (Hcom o) A2); right; exact A1|].
        rewrite (HF o A2). exact A3.
      * left. rewrite (wf_obs_list _ _ _ (wf_full_rect _ _ _ W0)).
        destruct (set_remove_all_total common N Hndc) as [N' HN'].
        { intros o Ho. apply (I7 c o (Hsame o Ho) EN). }
        rewrite HN'. cbn [bind]. eexists. split; [reflexivity|].
        destruct (set_remove_all_spec _ _ _ HN') as [R1 _]. split.
        -- intros o HoA HoN Hcnt s Hs Ho. simpl in HoN.
           destruct (eqb_In_dec _ string_eqb_ok o N) as [HN|HN].
           ++ assert (Hoc : In o common).
              { destruct (eqb_In_dec _ string_eqb_ok o common) as [X|X]; [exact X|]. exfalso. apply HoN, R1. auto. }
              rewrite (HF o Hoc). assert (Hs' : In s (sp :: rest)).
              { apply HS; [exact Hs|]. apply (Hsame o Hoc s Hs), Ho. }
              destruct Hs' as [<-|Hs']; [apply agree_refl|]. apply (Hb1 eq_refl s Hs' o Hoc).
           ++ apply (I6 o HoA HN Hcnt s Hs Ho).
        -- intros o o' Hso HoN. simpl in *. apply R1 in HoN. destruct HoN as [HoN Hnc]. apply R1.
           split; [apply (I7 o o' Hso HoN)|]. intros C. apply Hnc. apply Hcom. intros s Hs.
           apply (Hso s (Hss s Hs)). apply (proj1 (Hcom o') C s Hs).
    + left. eexists. split; [reflexivity|]. split; assumption.
Qed.

(** The loop over all observables in order. *)
Lemma loop_weak post : forall pre st st',
  inv st -> A = pre ++ post ->
  (forall o, In o pre -> ~ In o (snd (fst st)) /\ ~ In o (snd st)) ->
  (forall o c p q, A = p ++ c :: q -> ~ In o p -> In o A -> not_before o c) ->
  foldM (combine_step ss) st post = Ok st' ->
  inv st' /\ forall o, In o A -> ~ In o (snd (fst st')) /\ ~ In o (snd st').
Proof.
  induction post as [|c post IH]; intros pre st st' I EA Hpre Hord H; simpl in H.
  - inversion H; subst. split; [exact I|]. rewrite EA, app_nil_r. exact Hpre.
  - destruct st as [[d U] N]. bindn H st1 Hst1. destruct st1 as [[d1 U1] N1].
    destruct (step_weak d U N c d1 U1 N1) as [I1 [C1 [C2 [C3 C4]]]]; [exact I| | |exact Hst1|].
    + rewrite EA. apply in_or_app. right. left. reflexivity.
    + intros o Ho. eapply Hord; [exact EA| |apply (proj2 (inv_n _ I)), Ho]. intros C. apply (Hpre o C), Ho.
    + apply (IH (pre ++ [c]) _ _ I1); [rewrite <- app_assoc; exact EA| |exact Hord|exact H].
      intros o Ho. apply in_app_or in Ho. simpl. destruct Ho as [Ho|[<-|[]]].
      * destruct (Hpre o Ho) as [P1 P2]. simpl in P1, P2. split; intros C; [apply P1, C3, C|apply P2, C4, C].
      * auto.
Qed.

Lemma loop_strong post : unnested -> forall pre st,
  inv st -> inv6 st -> inv7 st -> A = pre ++ post ->
  (forall o, In o pre -> ~ In o (snd (fst st)) /\ ~ In o (snd st)) ->
  (forall o c p q, A = p ++ c :: q -> ~ In o p -> In o A -> not_before o c) ->
  (exists st', foldM (combine_step ss) st post = Ok st' /\ inv6 st')
  \/ (foldM (combine_step ss) st post = Err LimitsIncompatibleError
      /\ exists o s, In s ss /\ In o (obs_list s) /\ ~ agree (F o) (lim_at s o)).
Proof.
  intros Hun. induction post as [|c post IH]; intros pre st I I6 I7 EA Hpre Hord; simpl.
  - left. exists st. auto.
  - destruct st as [[d U] N].
    assert (HcA : In c A) by (rewrite EA; apply in_or_app; right; left; reflexivity).
    assert (Hc2 : forall o, In o N -> not_before o c).
    { intros o Ho. eapply Hord; [exact EA| |apply (proj2 (inv_n _ I)), Ho]. intros C. apply (Hpre o C), Ho. }
    destruct (step_strong d U N c Hun I I6 I7 HcA Hc2) as [[st1 [E [J6 J7]]]|[E X]].
    + rewrite E. cbn [bind]. destruct st1 as [[d1 U1] N1].
      destruct (step_weak d U N c d1 U1 N1 I HcA Hc2 E) as [I1 [C1 [C2 [C3 C4]]]].
      apply (IH (pre ++ [c]) _ I1 J6 J7); [rewrite <- app_assoc; exact EA| |exact Hord].
      intros o Ho. apply in_app_or in Ho. simpl. destruct Ho as [Ho|[<-|[]]].
      * destruct (Hpre o Ho) as [P1 P2]. simpl in P1, P2. split; intros C; [apply P1, C3, C|apply P2, C4, C].
      * auto.
    + right. rewrite E. cbn [bind]. auto.
Qed.

Lemma inv_init : NoDup A ->
  let st := (([], filter (fun o => Nat.leb (count_with o ss) 1) A), filter (fun o => Nat.ltb 1 (count_with o ss)) A) in
  inv st /\ inv6 st /\ inv7 st.
Proof.
  intros Hnd st. assert (HN : forall o, In o (snd st) <-> In o A /\ 1 < count_with o ss).
  { intros o. unfold st. simpl. rewrite filter_In, Nat.ltb_lt. tauto. }
  split; [constructor; simpl|split].
  - intros k l [].
  - intros o Ho. rewrite !filter_In, Nat.leb_le, Nat.ltb_lt. destruct (Nat.le_gt_cases (count_with o ss) 1); auto.
  - constructor.
  - split; [apply NoDup_filter, Hnd|]. intros o Ho. apply filter_In in Ho. apply Ho.
  - split; [apply NoDup_filter, Hnd|]. intros o Ho. apply filter_In in Ho. apply Ho.
  - intros o Ho. apply filter_In in Ho. apply Nat.leb_le, Ho.
  - intros o Ho. apply filter_In in Ho. apply Nat.ltb_lt, Ho.
  - intros o Ho Hn Hc. exfalso. apply Hn, HN. auto.
  - intros o o' Hs Ho. apply HN in Ho. apply HN. rewrite <- (count_same _ _ Hs). split; [|apply Ho].
    destruct Ho as [Ho _]. apply HA in Ho. destruct Ho as [s [H1 H2]]. apply HA. exists s. split; [exact H1|]. apply (Hs s H1), H2.
Qed.

Lemma inv_final d U N : inv (d, U, N) -> (forall o, In o A -> ~ In o U /\ ~ In o N) -> dict_wf d A F.
Proof.
  intros I H. split; [|split].
  - intros k l Hin. destruct (inv_entry _ I k l Hin) as [o [-> [Ho [_ [_ ->]]]]]. eauto.
  - intros o Ho. destruct (inv_all _ I o Ho) as [C|[C|C]]; simpl in C; [destruct (H o Ho); contradiction|destruct (H o Ho); contradiction|exact C].
  - exact (inv_keys _ I).
Qed.
End Combine.
