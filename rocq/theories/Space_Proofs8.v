(** Proofs for spaces, part 8: sums of spaces that cannot be added, sums without limits. *)
From Coq Require Import Permutation Lqa.
From Verif Require Import Base BaseLemmas Coord_Model Coord_Spec Coord_Proofs Space_Model Space_Spec
  Space_Proofs Space_Proofs2 Space_Proofs3 Space_Proofs4 Space_Proofs5 PGraph_Proofs Data_Model Data_Spec Data_Proofs
  Space_Proofs6 Space_Proofs7.
#[local] Open Scope nat_scope.

Lemma mapM_one_err {A B} (f : A -> result B) (e : error) l : (forall a, In a l -> (exists b, f a = Ok b) \/ f a = Err e) ->
  (exists a, In a l /\ f a = Err e) -> mapM f l = Err e.
Proof.
  intros H [a [Ha E]]. induction l as [|x l IH]; [destruct Ha|]. cbn [mapM]. destruct (H x (or_introl eq_refl)) as [[b Eb]|Ex].
  - rewrite Eb. cbn [bind]. destruct Ha as [->|Ha]; [congruence|]. rewrite IH; [reflexivity| |exact Ha]. intros y Hy. apply H. right. exact Hy.
  - rewrite Ex. reflexivity.
Qed.
Lemma add_obs_differ s0 r os0 : Forall data_space (s0 :: r) -> s_obs s0 = Some os0 ->
  (exists s os, In s r /\ s_obs s = Some os /\ ~ (forall o, In o os <-> In o os0)) ->
  add_spaces (map ZSimple (s0 :: r)) = Err ObsIncompatibleError.
Proof.
  intros D Ho0 [s [os [Hs [Hos Hd]]]]. rewrite Forall_forall in D.
  assert (G : forall t, In t (s0 :: r) -> exists os k, sp_ok t os k) by (intros t Ht; apply data_space_sp, D, Ht).
  unfold add_spaces, make_multi. rewrite flatten_simple. cbv zeta.
  assert (Eb : forallb (fun s => binning_eqb (s_binning s) (s_binning s0)) (s0 :: r) = true).
  { apply forallb_forall. intros t Ht. destruct (G t Ht) as [ot [kt St]]. destruct (G s0 (or_introl eq_refl)) as [o1 [k1 S1]].
    destruct St as [_ [_ [_ [_ [_ ->]]]]]. destruct S1 as [_ [_ [_ [_ [_ ->]]]]]. reflexivity. }
  rewrite Eb. cbn [negb].
  assert (Eo : forallb (fun s => match s_obs s with Some _ => true | None => false end) (s0 :: r) = true).
  { apply forallb_forall. intros t Ht. destruct (G t Ht) as [ot [kt [E _]]]. rewrite E. reflexivity. }
  rewrite Eo, Ho0. destruct (G s0 (or_introl eq_refl)) as [o0 [k0 S0]]. pose proof (sp_obs _ _ _ _ S0 Ho0) as <-.
  pose proof S0 as [_ [Hnd _]].
  rewrite (mapM_one_err _ ObsIncompatibleError); [reflexivity| |].
  - intros t Ht. destruct (G t Ht) as [ot [kt St]].
    assert (X : req_ok ot o0 false false \/ ~ req_ok ot o0 false false).
    { rewrite <- req_check. match goal with |- ?b = false \/ _ => destruct b end; [right; discriminate|left; reflexivity]. }
    destruct X as [X|X].
    + left. destruct (sp_with_obs _ _ _ _ _ _ St Hnd X) as [t' [c [_ [E _]]]]. exists t'. exact E.
    + right. apply (sp_with_obs_err _ _ _ _ _ _ St X).
  - exists s. split; [right; exact Hs|]. destruct (G s (or_intror Hs)) as [ot [kt St]]. pose proof (sp_obs _ _ _ _ St Hos) as <-.
    apply (sp_with_obs_err _ _ _ _ _ _ St). intros [_ [X Y]]. apply Hd. intros o. split; [apply Y|apply X]; reflexivity.
Qed.
Lemma add_mixed s0 r os0 : Forall data_space (s0 :: r) -> s_obs s0 = Some os0 ->
  (forall s, In s (s0 :: r) -> s_axes s = None /\ exists os, s_obs s = Some os /\ forall o, In o os <-> In o os0) ->
  ((exists s, In s (s0 :: r) /\ s_has_limits s = true) -> (exists s, In s (s0 :: r) /\ s_has_limits s = false) ->
     add_spaces (map ZSimple (s0 :: r)) = Err LimitsIncompatibleError)
  /\ ((forall s, In s (s0 :: r) -> s_has_limits s = false) ->
     exists s, add_spaces (map ZSimple (s0 :: r)) = Ok (ZSimple s) /\ s_obs s = Some os0 /\ s_has_limits s = false
       /\ s_limits_are_set s = s_limits_are_set s0).
Proof.
  intros D Ho0 Hall. rewrite Forall_forall in D.
  assert (G : forall t, In t (s0 :: r) -> exists os k, sp_ok t os k) by (intros t Ht; apply data_space_sp, D, Ht).
  unfold add_spaces, make_multi. rewrite flatten_simple. cbv zeta.
  assert (Eb : forallb (fun s => binning_eqb (s_binning s) (s_binning s0)) (s0 :: r) = true).
  { apply forallb_forall. intros t Ht. destruct (G t Ht) as [ot [kt St]]. destruct (G s0 (or_introl eq_refl)) as [o1 [k1 S1]].
    destruct St as [_ [_ [_ [_ [_ ->]]]]]. destruct S1 as [_ [_ [_ [_ [_ ->]]]]]. reflexivity. }
  rewrite Eb. cbn [negb].
  assert (Eo : forallb (fun s => match s_obs s with Some _ => true | None => false end) (s0 :: r) = true).
  { apply forallb_forall. intros t Ht. destruct (G t Ht) as [ot [kt [E _]]]. rewrite E. reflexivity. }
  assert (Ea : forallb (fun s => match s_axes s with Some _ => true | None => false end) (s0 :: r) = false).
  { cbn [forallb]. destruct (Hall s0 (or_introl eq_refl)) as [-> _]. reflexivity. }
  rewrite Eo, Ea, Ho0. destruct (G s0 (or_introl eq_refl)) as [o0 [k0 S0]]. pose proof (sp_obs _ _ _ _ S0 Ho0) as <-.
  pose proof S0 as [_ [Hnd [Hne _]]].
  destruct (mapM_forall2 (fun s => s_with_obs s (Some o0) false false)
     (fun s s' => s_axes s' = None /\ exists os k, sp_ok s os k /\ sp_ok s' o0 k) (s0 :: r)) as [sp [Esp Fsp]].
  { intros t Ht. destruct (G t Ht) as [ot [kt St]]. destruct (Hall t Ht) as [At [os [Eos Hos]]]. pose proof (sp_obs _ _ _ _ St Eos) as <-.
    assert (X : req_ok ot o0 false false).
    { split; [|split; intros _ o Ho; apply Hos; exact Ho]. destruct o0 as [|o o0]; [congruence|]. exists o. split; [left; reflexivity|]. apply Hos. left. reflexivity. }
    destruct (sp_with_obs _ _ _ _ _ _ St Hnd X) as [t' [c [Ec [E [S' Es]]]]]. exists t'. split; [exact E|].
    rewrite sel_same in S' by (intros o Ho; apply Hos, Ho). split; [|exists ot, kt; auto].
    unfold s_axes. rewrite Es. unfold s_axes in At. destruct (coords_with_obs_total _ _ _ _ _ Eos (sp_coords_ok _ _ _ St) X) as [ax [Ew [Hax _]]].
    rewrite Ew in Ec. injection Ec as <-. cbn. apply Hax, At. }
  rewrite Esp. cbn [bind andb].
  assert (E2 : mapM (fun s => s_with_axes s None true true) sp = Ok sp).
  { clear - Fsp. induction Fsp as [|a b l l' [Hb _] F IH]; [reflexivity|]. cbn [mapM]. unfold s_with_axes at 1. rewrite Hb. cbn [bind]. rewrite IH. reflexivity. }
  rewrite E2. cbn [bind].
  assert (FL : Forall2 (fun s s' => s_has_limits s' = s_has_limits s /\ s_limits_are_set s' = s_limits_are_set s /\ s_obs s' = Some o0) (s0 :: r) sp).
  { clear - Fsp. induction Fsp as [|a b l l' [_ [os [k [A B]]]] F IH]; constructor; [|exact IH].
    rewrite (sp_has_limits _ _ _ A), (sp_has_limits _ _ _ B). split; [reflexivity|]. split; [|apply B].
    destruct (sp_flags _ _ _ A) as [-> _]. destruct (sp_flags _ _ _ B) as [-> _]. reflexivity. }
  split.
  - intros [s [Hs Es]] [t [Ht Et]].
    destruct (Forall2_In_l _ _ _ _ FL Hs) as [s' [Hs' [Es' _]]]. destruct (Forall2_In_l _ _ _ _ FL Ht) as [t' [Ht' [Et' _]]].
    assert (X1 : forallb s_has_limits sp = false) by (apply not_true_iff_false; intros C; rewrite forallb_forall in C; specialize (C _ Ht'); congruence).
    assert (X2 : existsb s_has_limits sp = true) by (apply existsb_exists; exists s'; split; [exact Hs'|congruence]).
    rewrite X1, X2. reflexivity.
  - intros Hn. inversion FL as [|a s' l l' [L1 [L2 L3]] FL' E3 E4]; subst.
    assert (X1 : forallb s_has_limits (s' :: l') = false) by (cbn; rewrite L1, Hn by (left; reflexivity); reflexivity).
    assert (X2 : existsb s_has_limits (s' :: l') = false).
    { apply not_true_iff_false. intros C. apply existsb_exists in C. destruct C as [t' [Ht' Et']].
      destruct (Forall2_In_r _ _ _ _ FL Ht') as [t [Ht [Et _]]]. rewrite (Hn t Ht) in Et. congruence. }
    rewrite X1, X2. cbn [negb bind]. exists s'. split; [reflexivity|]. split; [exact L3|]. split; [|exact L2].
    rewrite L1. apply Hn. left. reflexivity.
Qed.
Lemma combine_mixed ss : (exists s, In s ss /\ s_binning s = None) -> (exists s, In s ss /\ s_binning s <> None) ->
  (forall s, In s ss -> exists os, s_obs s = Some os) -> combine_spaces ss = Err ValueError.
Proof.
  intros [s [Hs Es]] [t [Ht Et]] Ho. unfold combine_spaces.
  destruct (common_obs ss) as [all|] eqn:Ec.
  - assert (X1 : forallb is_binned ss = false).
    { apply not_true_iff_false. intros C. rewrite forallb_forall in C. specialize (C _ Hs). unfold is_binned in C. rewrite Es in C. discriminate. }
    assert (X2 : existsb is_binned ss = true).
    { apply existsb_exists. exists t. split; [exact Ht|]. unfold is_binned. destruct (s_binning t); [reflexivity|congruence]. }
    rewrite X1, X2. reflexivity.
  - exfalso. unfold common_obs in Ec. destruct (all_some (map s_obs ss)) eqn:E; [discriminate|]. clear - E Ho.
    induction ss as [|a ss IH]; [discriminate|]. cbn in E. destruct (Ho a (or_introl eq_refl)) as [os Eo]. rewrite Eo in E.
    destruct (all_some (map s_obs ss)); [discriminate|]. apply IH; [|reflexivity]. intros s Hs. apply Ho. right. exact Hs.
Qed.
Lemma add_binnings_differ s0 r : (exists s, In s r /\ ~ same_binning (s_binning s) (s_binning s0)) ->
  add_spaces (map ZSimple (s0 :: r)) = Err ValueError.
Proof.
  intros [s [Hs Hd]]. unfold add_spaces, make_multi. rewrite flatten_simple. cbv zeta.
  assert (Eb : forallb (fun s => binning_eqb (s_binning s) (s_binning s0)) (s0 :: r) = false).
  { apply not_true_iff_false. intros C. rewrite forallb_forall in C. specialize (C s (or_intror Hs)). apply Hd, binning_eqb_iff, C. }
  rewrite Eb. reflexivity.
Qed.

Lemma wf_limit_iff s os f o iv : wf_rect s os f -> (limit_of s o iv <-> In o os /\ iv = f o).
Proof. intros W. apply (wf_limit_of _ _ _ _ _ W). Qed.
Lemma paired_in c os axs o a : c_obs c = Some os -> c_axes c = Some axs -> paired c o a -> In o os /\ In a axs.
Proof.
  intros Ho Ha P. unfold paired in P. 
  destruct P as [os' [axs' [i [E1 [E2 [E3 E4]]]]]]. rewrite Ho in E1. rewrite Ha in E2. injection E1 as <-. injection E2 as <-.
  split; eapply nth_error_In; eassumption.
Qed.
Lemma paired_ex_l c os axs o : c_obs c = Some os -> c_axes c = Some axs -> length os = length axs -> In o os -> exists a, paired c o a.
Proof.
  intros Ho Ha Hl Hin. apply In_nth_error in Hin. destruct Hin as [i Hi].
  assert (i < length axs) by (rewrite <- Hl; apply nth_error_Some; congruence).
  destruct (nth_error axs i) as [a|] eqn:E; [|apply nth_error_None in E; lia].
  exists a. exists os, axs, i. auto.
Qed.
Lemma with_axes_limits s axs req sup sub s' : rect_space s -> s_axes s = Some axs -> NoDup axs -> NoDup req ->
  s_with_axes s (Some req) sup sub = Ok s' ->
  s_axes s' = Some (filter (fun a => existsb (Z.eqb a) axs) req)
  /\ (forall o a, paired (s_coords s') o a <-> paired (s_coords s) o a /\ In a req)
  /\ (forall o iv, limit_of s' o iv <-> limit_of s o iv /\ exists a, In a req /\ paired (s_coords s) o a).
Proof.
  intros R Ha Hna Hnr H. destruct (rect_space_full s R) as [os [f W]]. pose proof (wf_full_rect _ _ _ W) as V.
  assert (Hnr' : forall r, Some req = Some r -> NoDup r) by (intros r E; injection E as <-; exact Hnr).
  destruct (with_axes_wf _ _ _ _ _ _ _ V Hnr' H) as [os' [Hi V']].
  pose proof W as [[Ho [Hnd [Hne _]]] [Hax _]]. unfold axes_ok in Hax. rewrite Ha in Hax. destruct Hax as [Hl _].
  assert (L : labelled (s_coords s) os axs).
  { split; [exact Ho|]. split; [exact Ha|]. split; [symmetry; exact Hl || exact Hl|]. split; [exact Hnd|]. split; [exact Hna|exact Hne]. }
  unfold s_with_axes in H. rewrite Ha in H. bindn H c Hc. apply space_of_dict_coords in H.
  destruct (with_axes_correct _ _ _ _ _ _ _ L Hc) as [os2 [axs2 [E1 [E2 [E3 [E4 E5]]]]]].
  assert (Ein : forall a, In a axs2 <-> In a req /\ In a axs).
  { intros a. rewrite E4, filter_In, existsb_exists. split.
    - intros [A [b [B C]]]. apply Z.eqb_eq in C. subst b. auto.
    - intros [A B]. split; [exact A|]. exists a. split; [exact B|apply Z.eqb_refl]. }
  assert (EP : forall o a, paired (s_coords s') o a <-> paired (s_coords s) o a /\ In a req).
  { intros o a. rewrite H. split.
    - intros P. destruct (paired_in _ _ _ _ _ E1 E2 P) as [_ Pa]. split; [apply E5; assumption|apply Ein, Pa].
    - intros [P Pr]. apply E5; [|exact P]. apply Ein. split; [exact Pr|]. apply (paired_in _ _ _ _ _ Ho Ha P). }
  split; [unfold s_axes; rewrite H, E2, E4; reflexivity|]. split; [exact EP|].
  assert (Eos : os' = os2).
  { destruct V' as [Ho' _]. unfold s_obs in Ho'. rewrite H, E1 in Ho'. congruence. }
  subst os2. intros o iv. rewrite (wf_limit_iff _ _ _ _ _ V'), (wf_limit_iff _ _ _ _ _ V). split.
  - intros [A ->]. destruct (paired_ex_l c _ _ _ E1 E2 E3 A) as [a P]. rewrite <- H in P. apply EP in P.
    split; [split; [apply Hi, A|reflexivity]|]. exists a. tauto.
  - intros [[A ->] [a [B P]]]. split; [|reflexivity]. pose proof (proj2 (EP o a) (conj P B)) as P'. rewrite H in P'.
    apply (paired_in _ _ _ _ _ E1 E2 P').
Qed.
Lemma set_axes_limits s os a sup sub : rect_space s -> s_obs s = Some os -> s_axes s = None ->
  (length a = length os -> exists s', s_with_axes s (Some a) sup sub = Ok s' /\ s_obs s' = Some os /\ s_axes s' = Some a
     /\ s_limits s' = s_limits s)
  /\ (length a <> length os -> s_with_axes s (Some a) sup sub = Err AxesIncompatibleError).
Proof.
  intros R Ho Ha. destruct (rect_space_full s R) as [os' [f W]]. pose proof (full_obs _ _ _ _ W Ho) as E. subst.
  split; intros Hl.
  - destruct (s_set_axes_total _ _ _ a W Ha Hl) as [s' [E W']]. exists s'.
    assert (E0 : s_with_axes s (Some a) sup sub = s_with_axes s (Some a) true true) by (unfold s_with_axes; rewrite Ha; reflexivity).
    rewrite E0. split; [exact E|]. pose proof (wf_full_rect _ _ _ W) as V. pose proof (wf_full_rect _ _ _ W') as V'.
    split; [apply V'|]. split; [|rewrite (wf_limits _ _ _ V), (wf_limits _ _ _ V'); reflexivity].
    unfold s_with_axes in E. rewrite Ha, Ho, Hl, Nat.eqb_refl in E. cbn [negb] in E. bindn E c Hc. apply space_of_dict_coords in E.
    unfold s_axes. rewrite E. apply (make_coords_fields _ _ _ Hc).
  - unfold s_with_axes. rewrite Ha, Ho. apply Nat.eqb_neq in Hl. rewrite Hl. reflexivity.
Qed.
Lemma rect_flags s : rect_space s ->
  s_limits_are_set s = true /\ s_limits_are_false s = false /\ s_has_limits s = true /\ s_has_rect s = true.
Proof.
  intros R. destruct (rect_space_full s R) as [os [f W]]. pose proof (wf_full_rect _ _ _ W) as V.
  split; [apply (wf_set _ _ _ V)|]. split; [apply (wf_not_false _ _ _ V)|]. split; [apply (wf_has_limits _ _ _ V)|apply (wf_has_rect _ _ _ V)].
Qed.
