(** Proofs for spaces, part 7: functional limits, binnings in comparisons, limits_overlap. *)
From Coq Require Import Permutation Lqa.
From Verif Require Import Base BaseLemmas Coord_Model Coord_Spec Coord_Proofs Space_Model Space_Spec
  Space_Proofs Space_Proofs2 Space_Proofs3 Space_Proofs4 Space_Proofs5 Data_Model Data_Spec Data_Proofs Space_Proofs6.
#[local] Open Scope nat_scope.

Lemma Qabs'_cases b : (0 <= Qabs' b /\ (Qabs' b == b \/ Qabs' b == - b))%Q.
Proof.
  unfold Qabs'. destruct (Qle_bool 0 b) eqn:E.
  - apply Qle_bool_iff in E. split; [exact E|left; reflexivity].
  - assert (~ (0 <= b)%Q) by (intros C; apply Qle_bool_iff in C; congruence). split; [lra|right; reflexivity].
Qed.
Lemma close_near a b : close a b = true <-> near a b.
Proof.
  rewrite close_iff. unfold near, rtol, atol. split.
  - intros H. exists (Qabs' b). destruct (Qabs'_cases b) as [H0 H1]. split; [exact H0|]. split; [exact H1|]. lra.
  - intros [m [H0 [H1 H2]]]. destruct (Qabs'_cases b) as [A0 A1].
    assert (m == Qabs' b)%Q by (destruct H1, A1; lra). lra.
Qed.
Lemma near_dec a b : near a b \/ ~ near a b.
Proof. rewrite <- close_near. destruct (close a b); [left; reflexivity|right; discriminate]. Qed.

Lemma lim_equal_rect i1 i2 : exists b, lim_equal (LRect i1) (LRect i2) = Ok b
  /\ (b = true <-> Forall2 (fun p q => near (fst p) (fst q) /\ near (snd p) (snd q)) i1 i2).
Proof.
  unfold lim_equal. cbn [lim_has_rect orb negb xorb lim_rect_limits bind fid_eqb]. eexists. split; [reflexivity|].
  rewrite !andb_true_iff.
  rewrite (all2_iff _ (fun p q => near (fst p) (fst q))) by (intros; apply close_near).
  rewrite (all2_iff _ (fun p q => near (snd p) (snd q))) by (intros; apply close_near).
  split.
  - intros [[F1 F2] _]. induction F1; inversion F2; subst; constructor; auto.
  - intros F. split; [|reflexivity]. split; induction F as [|? ? ? ? [? ?]]; constructor; auto.
Qed.
Lemma lim_le_set l1 l2 i1 i2 : lim_rect_limits l1 = Ok i1 -> lim_rect_limits l2 = Ok i2 ->
  exists b, lim_less_equal l1 l2 = Ok b
  /\ (b = true <-> Forall2 (fun p q => (fst p <= fst q /\ snd p <= snd q)%Q) i1 i2
        /\ (forall g, lim_fid l2 = Some g -> lim_fid l1 = Some g)).
Proof.
  intros E1 E2. unfold lim_less_equal. rewrite E1, E2. cbn [bind]. eexists. split; [reflexivity|].
  rewrite !andb_true_iff.
  rewrite (all2_iff _ (fun p q => (fst p <= fst q)%Q)) by (intros; apply Qle_bool_iff).
  rewrite (all2_iff _ (fun p q => (snd p <= snd q)%Q)) by (intros; apply Qle_bool_iff).
  assert (Fz : Forall2 (fun p q : Q * Q => (fst p <= fst q)%Q) i1 i2 /\ Forall2 (fun p q : Q * Q => (snd p <= snd q)%Q) i1 i2
     <-> Forall2 (fun p q => (fst p <= fst q /\ snd p <= snd q)%Q) i1 i2).
  { clear E1 E2. split; [intros [F1 F2]; induction F1; inversion F2; subst; constructor; auto
           |intros F; split; induction F as [|? ? ? ? [? ?]]; constructor; auto]. }
  rewrite Fz. assert (Gg : (if negb (lim_has_rect l1) && lim_has_rect l2 then true else fid_eqb l1 l2) = true
    <-> (forall g, lim_fid l2 = Some g -> lim_fid l1 = Some g)).
  { destruct l1 as [n|n|r|f fn r], l2 as [n'|n'|r'|g gn r']; cbn in E1, E2; try discriminate; cbn.
    - split; [intros _; discriminate|reflexivity].
    - split; [discriminate|]. intros X. discriminate (X _ eq_refl).
    - split; [intros _; discriminate|reflexivity].
    - rewrite Nat.eqb_eq. split; [intros ->; auto|]. intros X. specialize (X g eq_refl). congruence. }
  rewrite Gg. reflexivity.
Qed.

(** functional limits *)
Lemma make_fun os f fn lo up s : os <> [] -> make_space (Some os) None (IFun f fn lo up) None = Ok s ->
  length lo = length os /\ s = mkSpace (mkCoords (Some os) None) (Some [(os, LFun f fn (combine lo up))]) None None.
Proof.
  intros Hne H. unfold make_space in H. rewrite make_coords_total in H by (assumption || discriminate). cbn [bind make_limit] in H.
  unfold n_obs in H. cbn [c_obs] in H. bindn H l Hl. bindn Hl ivs Hi. injection Hl as <-.
  destruct (check_rect_ok _ _ _ _ Hi) as [L1 [L2 [-> _]]]. split; [exact L1|].
  unfold space_of_dict, convert_limits_dict in H. cbn [c_obs c_axes option_map sublimits slice_dict lim_n_obs] in H.
  destruct os as [|o os]; [congruence|]. cbn [bind] in H.
  rewrite firstn_all2 in H by (rewrite combine_length; lia).
  assert (E : filter (head_in String.eqb (o :: os)) [(o :: os, LFun f fn (combine lo up))] = [(o :: os, LFun f fn (combine lo up))]).
  { cbn [filter]. unfold head_in. cbn [fst]. rewrite (proj2 (mem_In _ string_eqb_ok o (o :: os)) (or_introl eq_refl)). reflexivity. }
  rewrite E in H. cbn in H. injection H as <-. reflexivity.
Qed.
Lemma fun_equal os1 os2 f g fn gn lo1 up1 lo2 up2 s1 s2 : os1 <> [] -> os2 <> [] -> NoDup os1 ->
  make_space (Some os1) None (IFun f fn lo1 up1) None = Ok s1 -> make_space (Some os2) None (IFun g gn lo2 up2) None = Ok s2 ->
  exists b, s_eq s1 s2 = Ok b /\ (b = true <-> (forall o, In o os1 <-> In o os2) /\ f = g).
Proof.
  intros N1 N2 Hnd M1 M2. destruct (make_fun _ _ _ _ _ _ N1 M1) as [L1 ->]. destruct (make_fun _ _ _ _ _ _ N2 M2) as [L2 ->].
  unfold s_eq, s_limits at 1, fail_not_rect. unfold s_has_limits, s_limits_are_set, s_limits_are_false, s_has_rect, own_limits, s_obs.
  cbn [s_coords c_obs s_dobs]. destruct os1 as [|a os1]; [congruence|]. cbn [nonempty map snd forallb lim_is_set lim_is_false lim_has_rect andb negb].
  unfold compare_spaces, s_obs. cbn [s_coords c_obs].
  destruct (set_eqb String.eqb (a :: os1) os2) eqn:Es; cbn [negb].
  - pose proof (proj1 (set_eqb_iff _ string_eqb_ok _ _) Es) as Hs. cbn [s_binning binning_eqb negb].
    unfold s_limits_are_set, s_limits_are_false, s_has_limits, s_limits_are_set, s_limits_are_false, own_limits, s_obs. cbn [s_coords c_obs s_dobs nonempty map snd forallb lim_is_set lim_is_false andb negb].
    destruct os2 as [|b os2]; [congruence|]. cbn [nonempty map snd forallb lim_is_set lim_is_false andb negb].
    unfold s_with_coords, s_obs. cbn [s_coords c_obs].
    assert (W : s_with_obs (mkSpace (mkCoords (Some (b :: os2)) None) (Some [(b :: os2, LFun g gn (combine lo2 up2))]) None None) (Some (a :: os1)) true true
      = Ok (mkSpace (mkCoords (Some (a :: os1)) None) (Some [(b :: os2, LFun g gn (combine lo2 up2))]) None None)).
    { unfold s_with_obs. cbn [s_coords s_binning s_dobs s_daxes]. rewrite (with_obs_total (mkCoords (Some (b :: os2)) None) (b :: os2) (a :: os1) true true eq_refl eq_refl).
      - rewrite sel_same by (intros o Ho; apply Hs, Ho). cbn [bind]. unfold space_of_dict, convert_limits_dict. cbn [c_obs c_axes s_dobs s_daxes bind].
        assert (E : filter (head_in String.eqb (a :: os1)) [(b :: os2, LFun g gn (combine lo2 up2))] = [(b :: os2, LFun g gn (combine lo2 up2))]).
        { cbn [filter]. unfold head_in. cbn [fst]. rewrite (proj2 (mem_In _ string_eqb_ok b (a :: os1))); [reflexivity|]. apply Hs. left. reflexivity. }
        rewrite E. reflexivity.
      - split; [|split; discriminate]. exists a. split; [left; reflexivity|apply Hs; left; reflexivity]. }
    rewrite W. cbn [bind c_axes]. unfold compare_limits_coords_dict. cbn [s_dobs s_daxes].
    cbn [compare_limits_dict pop_match].
    assert (Es' : set_eqb String.eqb (b :: os2) (a :: os1) = true) by (apply (set_eqb_iff _ string_eqb_ok); intros o; symmetry; apply Hs).
    rewrite Es'. cbn [lim_equal lim_has_rect orb negb fid_eqb bind]. exists (f =? g). split; [rewrite !andb_true_r; reflexivity|].
    rewrite Nat.eqb_eq. tauto.
  - exists false. split; [reflexivity|]. split; [discriminate|]. intros [Hs _].
    apply (proj2 (set_eqb_iff _ string_eqb_ok _ _)) in Hs. congruence.
Qed.

(** <= with binnings *)
Lemma list_eqb_iff {A} (e : A -> A -> bool) (P : A -> A -> Prop) a b : (forall x y, e x y = true <-> P x y) -> (list_eqb e a b = true <-> Forall2 P a b).
Proof.
  intros He. revert b. induction a as [|x a IH]; intros [|y b]; cbn.
  - split; [constructor|reflexivity].
  - split; [discriminate|intros H; inversion H].
  - split; [discriminate|intros H; inversion H].
  - rewrite andb_true_iff, He, IH. split; [intros [? ?]; constructor; assumption|intros H; inversion H; auto].
Qed.
Lemma binning_eqb_iff a b : binning_eqb a b = true <-> same_binning a b.
Proof.
  destruct a as [x|], b as [y|]; cbn.
  - apply list_eqb_iff. intros [p r] [q t]. rewrite andb_true_iff, (string_eqb_ok p q). cbn [fst snd].
    rewrite (list_eqb_iff Qeq_bool Qeq) by (intros; apply Qeq_bool_iff). reflexivity.
  - split; [discriminate|intros []].
  - split; [discriminate|intros []].
  - split; auto.
Qed.
Lemma le_binned s1 s2 os1 os2 : rect_space s1 -> rect_space s2 -> s_obs s1 = Some os1 -> s_obs s2 = Some os2 ->
  s_axes s1 = None -> s_axes s2 = None ->
  exists b, s_le s1 s2 = Ok b /\
    (b = true <-> (forall o, In o os1 <-> In o os2) /\ same_binning (s_binning s1) (s_binning s2) /\
       forall o l1 u1 l2 u2, limit_of s1 o (l1, u1) -> limit_of s2 o (l2, u2) -> (l1 <= l2 /\ u1 <= u2)%Q).
Proof.
  intros R1 R2 H1 H2 X1 X2. destruct (rect_space_full s1 R1) as [o1 [f1 W1]]. destruct (rect_space_full s2 R2) as [o2 [f2 W2]].
  pose proof (full_obs _ _ _ _ W1 H1) as EE1; pose proof (full_obs _ _ _ _ W2 H2) as EE2; subst.
  pose proof (wf_full_rect _ _ _ W1) as V1. pose proof (wf_full_rect _ _ _ W2) as V2.
  assert (Hiff : (forall o, In o o1 <-> In o o2) ->
     ((forall o, In o o1 -> (fst (f1 o) <= fst (f2 o) /\ snd (f1 o) <= snd (f2 o))%Q) <->
      (forall o l1 u1 l2 u2, limit_of s1 o (l1, u1) -> limit_of s2 o (l2, u2) -> (l1 <= l2 /\ u1 <= u2)%Q))).
  { intros Hs. split.
    - intros G o l1 u1 l2 u2 L1 L2. apply (wf_limit_of _ _ _ _ _ V1) in L1. apply (wf_limit_of _ _ _ _ _ V2) in L2.
      destruct L1 as [L1 E1], L2 as [L2 E2]. specialize (G o L1). rewrite <- E1, <- E2 in G. exact G.
    - intros G o Ho. apply (G o); [apply (wf_limit_of _ _ _ _ _ V1)|apply (wf_limit_of _ _ _ _ _ V2)].
      + split; [exact Ho|]. destruct (f1 o); reflexivity. + split; [apply Hs, Ho|]. destruct (f2 o); reflexivity. }
  unfold s_le, compare_spaces. rewrite H1, H2.
  destruct (set_eqb String.eqb o1 o2) eqn:Es.
  - pose proof (proj1 (set_eqb_iff _ string_eqb_ok o1 o2) Es) as Es0; clear Es; rename Es0 into Es. cbn [negb].
    destruct (binning_eqb (s_binning s1) (s_binning s2)) eqn:Eb0; cbn [negb].
    2: { exists false. split; [reflexivity|]. split; [discriminate|]. intros [_ [C _]]. apply binning_eqb_iff in C. congruence. }
    apply binning_eqb_iff in Eb0.
    rewrite (wf_set _ _ _ V1), (wf_not_false _ _ _ V1), (wf_has_limits _ _ _ V1), (wf_has_limits _ _ _ V2). cbn [negb andb].
    unfold s_with_coords. rewrite H2. unfold s_obs in H1. rewrite H1.
    assert (Hok : req_ok o2 o1 true true).
    { split; [|split; discriminate]. destruct V1 as [_ [_ [Hne _]]]. destruct o1 as [|o o1]; [congruence|]. exists o.
      split; [left; reflexivity|apply Es; left; reflexivity]. }
    destruct (s_with_obs_total _ _ _ o1 true true W2) as [s' [E' [W' [A' _]]]]; [apply V1|exact Hok|]. rewrite E'. cbn [bind].
    unfold s_axes in X1. rewrite X1. cbn [bind]. rewrite sel_same in W' by (intros o Ho; apply Es, Ho).
    unfold compare_limits_coords_dict.
    destruct (dict_wf_of _ _ _ W1) as [d1 [Ed1 Wd1]]. destruct (dict_wf_of _ _ _ W') as [d2 [Ed2 Wd2]]. rewrite Ed1, Ed2.
    destruct (compare_dict_le d1 d2 o1 o1 f1 f2 Wd1 Wd2 (incl_refl _)) as [b [Eb Hb]]. rewrite Eb. cbn [bind].
    destruct W1 as [_ [Ha1 _]]. unfold axes_ok, s_axes in Ha1. rewrite X1 in Ha1. rewrite Ha1. cbn [bind]. rewrite andb_true_r.
    exists b. split; [reflexivity|]. rewrite Hb, (Hiff Es). tauto.
  - cbn [negb]. exists false. split; [reflexivity|]. split; [discriminate|]. intros [C _].
    apply (set_eqb_iff _ string_eqb_ok) in C. congruence.
Qed.

(** limits_overlap *)
Lemma overlaps_earlier_iff ae a b : overlaps_earlier ae a b = true <-> end_inside ae a b.
Proof.
  destruct a as [ol ou], b as [l u]. unfold overlaps_earlier, end_inside. cbn [fst snd].
  destruct (ae && close ol l && close ou u) eqn:E.
  - split; [discriminate|]. intros [X _]. exfalso. apply X. apply andb_true_iff in E. destruct E as [E E3]. apply andb_true_iff in E. destruct E as [E1 E2].
    split; [exact E1|]. split; apply close_near; assumption.
  - rewrite orb_true_iff, !andb_true_iff, !Qlt_bool_spec. unfold eps. split.
    + intros H. split; [|exact H]. intros [E1 [E2 E3]]. apply close_near in E2, E3. rewrite E1, E2, E3 in E. discriminate.
    + intros [_ H]. exact H.
Qed.
Lemma overlap_1d_iff ae rest : forall seen, overlap_1d ae seen rest = true <->
  (exists a b, In a seen /\ In b rest /\ end_inside ae a b) \/ exists l1 a l2 b l3, rest = l1 ++ a :: l2 ++ b :: l3 /\ end_inside ae a b.
Proof.
  induction rest as [|iv r IH]; intros seen; cbn [overlap_1d].
  - split; [discriminate|]. intros [[a [b [_ [[] _]]]]|[l1 [a [l2 [b [l3 [E _]]]]]]]. destruct l1; discriminate.
  - rewrite orb_true_iff, IH, existsb_exists. split.
    + intros [[a [Ha E]]|[[a [b [Ha [Hb E]]]]|[l1 [a [l2 [b [l3 [E1 E2]]]]]]]].
      * left. exists a, iv. split; [exact Ha|]. split; [left; reflexivity|apply overlaps_earlier_iff, E].
      * apply in_app_or in Ha. destruct Ha as [Ha|[<-|[]]].
        -- left. exists a, b. split; [exact Ha|]. split; [right; exact Hb|exact E].
        -- right. apply in_split in Hb. destruct Hb as [l2 [l3 ->]]. exists [], iv, l2, b, l3. split; [reflexivity|exact E].
      * right. exists (iv :: l1), a, l2, b, l3. split; [rewrite E1; reflexivity|exact E2].
    + intros [[a [b [Ha [[<-|Hb] E]]]]|[l1 [a [l2 [b [l3 [E1 E2]]]]]]].
      * left. exists a. split; [exact Ha|apply overlaps_earlier_iff, E].
      * right. left. exists a, b. split; [apply in_or_app; left; exact Ha|]. split; [exact Hb|exact E].
      * destruct l1 as [|x l1]; injection E1 as -> ->.
        -- right. left. exists a, b. split; [apply in_or_app; right; left; reflexivity|]. split; [apply in_or_app; right; left; reflexivity|exact E2].
        -- right. right. exists l1, a, l2, b, l3. auto.
Qed.
Lemma along_ok o ss : Forall rect_space ss ->
  intervals_along o (map ZSimple ss) = Ok (map (fun s => lim_at s o) (filter (has_coord o) ss)).
Proof.
  intros R. pose proof (rect_all_good _ R) as Hg. unfold intervals_along.
  assert (E : forall l, (forall s, In s l -> good s) -> 
     mapM (fun z => mapM (fun s => match s_obs s with
            | Some os => match index_of String.eqb o os with
                         | Some i => let* l := s_limits s in let* iv := opt_result IndexError (nth_error l i) in Ok [iv]
                         | None => Ok [] end
            | None => Ok [] end) (filter s_has_limits (flatten1 z))) (map ZSimple l)
     = Ok (map (fun s => [if has_coord o s then [lim_at s o] else []]) l)).
  { induction l as [|s l IH]; intros G; [reflexivity|]. cbn [map mapM flatten1 filter].
    pose proof (G s (or_introl eq_refl)) as W. pose proof (wf_full_rect _ _ _ W) as V. rewrite (wf_has_limits _ _ _ V). cbn [mapM].
    pose proof V as [Ho _]. rewrite Ho.
    assert (E : match index_of String.eqb o (obs_list s) with
        | Some i => let* l := s_limits s in let* iv := opt_result IndexError (nth_error l i) in Ok [iv]
        | None => Ok [] end = Ok (if has_coord o s then [lim_at s o] else [])).
    { unfold has_coord. rewrite Ho. destruct (index_of String.eqb o (obs_list s)) as [i|] eqn:Ei.
      - rewrite (wf_limits _ _ _ V). cbn [bind]. pose proof (index_of_nth _ string_eqb_ok _ _ _ Ei) as En. rewrite nth_error_map, En. cbn.
        rewrite (proj2 (mem_In _ string_eqb_ok _ _) (nth_error_In _ _ En)). reflexivity.
      - destruct (mem String.eqb o (obs_list s)) eqn:Em; [|reflexivity]. apply (mem_In _ string_eqb_ok) in Em.
        destruct (index_of_in _ string_eqb_ok _ _ Em) as [j Hj]. congruence. }
    rewrite E. cbn [bind]. rewrite IH by (intros t Ht; apply G; right; exact Ht). reflexivity. }
  rewrite (E ss Hg). cbn [bind]. f_equal. clear. induction ss as [|s ss IH]; [reflexivity|]. cbn [map concat filter app].
  rewrite IH. destruct (has_coord o s); reflexivity.
Qed.
Lemma filter_two {A} (p : A -> bool) l k1 a k2 b k3 : filter p l = k1 ++ a :: k2 ++ b :: k3 ->
  exists l1 l2 l3, l = l1 ++ a :: l2 ++ b :: l3.
Proof.
  assert (G : forall l k1 a k, filter p l = k1 ++ a :: k -> exists l1 l2, l = l1 ++ a :: l2 /\ filter p l2 = k).
  { clear. induction l as [|x l IH]; intros k1 a k E; cbn in E; [destruct k1; discriminate|]. destruct (p x).
    - destruct k1 as [|y k1]; injection E as -> E; [exists [], l; auto|]. destruct (IH _ _ _ E) as [l1 [l2 [-> E2]]]. exists (y :: l1), l2. auto.
    - destruct (IH _ _ _ E) as [l1 [l2 [-> E2]]]. exists (x :: l1), l2. auto. }
  intros E. destruct (G _ _ _ _ E) as [l1 [l2 [-> E2]]]. destruct (G _ _ _ _ E2) as [l3 [l4 [-> _]]]. exists l1, l3, l4. reflexivity.
Qed.
Lemma overlap_rule ss ae : Forall rect_space ss ->
  exists b, limits_overlap (map ZSimple ss) ae = Ok b /\
    (b = true <-> exists l1 s l2 t l3 o a b, ss = l1 ++ s :: l2 ++ t :: l3 /\ limit_of s o a /\ limit_of t o b /\ end_inside ae a b).
Proof.
  intros R. pose proof (rect_all_good _ R) as Hg. unfold limits_overlap.
  assert (E : all_some (map z_obs (map ZSimple ss)) = Some (map obs_list ss)).
  { rewrite map_map. cbn [z_obs]. clear R. induction ss as [|s ss IH]; [reflexivity|]. cbn [map all_some].
    destruct (Hg s (or_introl eq_refl)) as [[Ho _] _]. rewrite Ho, IH by (intros t Ht; apply Hg; right; exact Ht). reflexivity. }
  rewrite E. fold (all_of ss).
  assert (EM : mapM (fun o => let* ivs := intervals_along o (map ZSimple ss) in Ok (overlap_1d ae [] ivs)) (all_of ss)
    = Ok (map (fun o => overlap_1d ae [] (map (fun s => lim_at s o) (filter (has_coord o) ss))) (all_of ss))).
  { apply mapM_map_ok. intros o _. rewrite (along_ok o ss R). reflexivity. }
  rewrite EM. cbn [bind]. eexists. split; [reflexivity|]. rewrite existsb_exists.
  assert (Hlim : forall s o iv, In s ss -> (limit_of s o iv <-> In o (obs_list s) /\ iv = lim_at s o)).
  { intros s o iv Hs. apply wf_limit_of, Hg, Hs. }
  split.
  - intros [x [Hx ->]]. apply in_map_iff in Hx. destruct Hx as [o [Ex _]]. apply overlap_1d_iff in Ex.
    destruct Ex as [[a [b [[] _]]]|[l1 [a [l2 [b [l3 [Em En]]]]]]].
    assert (Y : exists k1 s k2 t k3, filter (has_coord o) ss = k1 ++ s :: k2 ++ t :: k3 /\ a = lim_at s o /\ b = lim_at t o).
    { clear - Em. revert Em. generalize (filter (has_coord o) ss) as m. intros m Em.
      apply map_eq_app in Em. destruct Em as [m1 [m2 [-> [_ Em]]]]. destruct m2 as [|s m2]; [discriminate|]. injection Em as <- Em.
      apply map_eq_app in Em. destruct Em as [m3 [m4 [-> [_ Em]]]]. destruct m4 as [|t m4]; [discriminate|]. injection Em as <- Em.
      exists m1, s, m3, t, m4. auto. }
    destruct Y as [k1 [s [k2 [t [k3 [Y [-> ->]]]]]]]. destruct (filter_two _ _ _ _ _ _ _ Y) as [p1 [p2 [p3 Ess]]].
    assert (Hs : In s (filter (has_coord o) ss)) by (rewrite Y; apply in_or_app; right; left; reflexivity).
    assert (Ht : In t (filter (has_coord o) ss)) by (rewrite Y; apply in_or_app; right; right; apply in_or_app; right; left; reflexivity).
    apply filter_In in Hs, Ht. destruct Hs as [Hs1 Hs2], Ht as [Ht1 Ht2].
    exists p1, s, p2, t, p3, o, (lim_at s o), (lim_at t o). split; [exact Ess|].
    split; [apply Hlim; [exact Hs1|]; split; [apply has_coord_In, Hs2|reflexivity]|].
    split; [apply Hlim; [exact Ht1|]; split; [apply has_coord_In, Ht2|reflexivity]|exact En].
  - intros [l1 [s [l2 [t [l3 [o [a [b [Ess [La [Lb En]]]]]]]]]]].
    assert (Hs : In s ss) by (rewrite Ess; apply in_or_app; right; left; reflexivity).
    assert (Ht : In t ss) by (rewrite Ess; apply in_or_app; right; right; apply in_or_app; right; left; reflexivity).
    apply Hlim in La; [|exact Hs]. apply Hlim in Lb; [|exact Ht]. destruct La as [Os ->], Lb as [Ot ->].
    exists true. split; [|reflexivity]. apply in_map_iff. exists o. split; [|apply all_of_In; exists s; auto].
    apply overlap_1d_iff. right. rewrite Ess. rewrite filter_app. cbn [filter]. rewrite (proj2 (has_coord_In o s) Os).
    rewrite filter_app. cbn [filter]. rewrite (proj2 (has_coord_In o t) Ot). rewrite map_app. cbn [map]. rewrite map_app. cbn [map].
    do 5 eexists. split; [reflexivity|exact En].
Qed.
