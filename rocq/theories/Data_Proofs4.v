(** Proofs for unbinned data, part 4: concatenation, and the invariant of all data sets. *)
From Coq Require Import Permutation.
From Verif Require Import Base BaseLemmas Coord_Model Coord_Spec Coord_Proofs Space_Model Space_Spec
  Space_Proofs Space_Proofs2 Space_Proofs3 Space_Proofs4 Data_Model Data_Spec Data_Proofs Data_Proofs2 Data_Proofs3.

Lemma bool_dec_eq (b b' : bool) : (b = true <-> b' = true) -> b = b'.
Proof. destruct b, b'; tauto || (intros [H1 H2]; try (symmetry; apply H1; reflexivity); apply H2; reflexivity). Qed.

(** Two spaces without common observables *)
Lemma add_all l acc : NoDup (acc ++ l) -> fold_left (add_new String.eqb) l acc = acc ++ l.
Proof.
  revert acc. induction l as [|o l IH]; intros acc H; simpl; [rewrite app_nil_r; reflexivity|].
  unfold add_new. assert (E : mem String.eqb o acc = false).
  { apply (mem_false _ string_eqb_ok). apply NoDup_remove_2 in H. intros C. apply H. apply in_app_iff. left. exact C. }
  rewrite E, IH; [rewrite <- app_assoc; reflexivity|rewrite <- app_assoc; exact H].
Qed.
Lemma NoDup_app_l {A} (a b : list A) : NoDup (a ++ b) -> NoDup a.
Proof.
  induction a as [|x a IH]; intros H; [constructor|]. inversion H; subst. constructor; [|apply IH; assumption].
  intros C. apply H2. apply in_app_iff. left. exact C.
Qed.
Lemma NoDup_app_r {A} (a b : list A) : NoDup (a ++ b) -> NoDup b.
Proof. induction a as [|x a IH]; intros H; [exact H|]. inversion H; subst. apply IH. assumption. Qed.
Lemma NoDup_app_disj {A} (a b : list A) x : NoDup (a ++ b) -> In x a -> ~ In x b.
Proof.
  induction a as [|y a IH]; intros H Hx Hb; [destruct Hx|]. inversion H; subst. destruct Hx as [<-|Hx].
  - apply H2. apply in_app_iff. right. exact Hb.
  - exact (IH H3 Hx Hb).
Qed.
Lemma union_two a b : NoDup (a ++ b) -> ordered_union String.eqb [a; b] = a ++ b.
Proof.
  intros H. unfold ordered_union. cbn [fold_left]. rewrite (add_all a []).
  - apply add_all, H.
  - simpl. apply (NoDup_app_l _ _ H).
Qed.
Lemma sel_all os all : incl os all -> NoDup all -> NoDup os -> sel os all = filter (fun o => mem String.eqb o os) all.
Proof. reflexivity. Qed.

Lemma sp_flags s os k : sp_ok s os k ->
  s_limits_are_false s = match k with KF => true | _ => false end
  /\ s_limits_are_set s = match k with KN => false | _ => true end.
Proof.
  intros S. destruct (sp_own_limits _ _ _ S) as [Hne Ho].
  unfold s_limits_are_false, s_limits_are_set.
  destruct (own_limits s) as [|l r]; [congruence|].
  destruct k as [f| |].
  - split; [|apply forallb_forall; intros x Hx; destruct (Ho x Hx) as [o [_ ->]]; reflexivity].
    cbn [forallb]. destruct (Ho l (or_introl eq_refl)) as [o [_ ->]]. reflexivity.
  - split; cbn [forallb]; destruct (Ho l (or_introl eq_refl)) as [o [_ ->]]; reflexivity.
  - split; apply forallb_forall; intros x Hx; destruct (Ho x Hx) as [o [_ ->]]; reflexivity.
Qed.
Lemma make_space_unbinned obs axs i s : make_space obs axs i None = Ok s -> s_binning s = None.
Proof.
  unfold make_space. intros H. apply bind_ok in H. destruct H as [c [_ H]]. apply bind_ok in H. destruct H as [l [_ H]].
  unfold space_of_dict in H. apply bind_ok in H. destruct H as [[no na] [_ H]]. simpl in H. inversion H. reflexivity.
Qed.
Lemma combine_unbinned ss s' : existsb is_binned ss = false -> ss <> [] -> combine_spaces ss = Ok s' -> s_binning s' = None.
Proof.
  intros X1 Hne H. assert (X2 : forallb is_binned ss = false).
  { destruct ss as [|s r]; [congruence|]. simpl in *. apply orb_false_iff in X1. destruct X1 as [-> _]. reflexivity. }
  unfold combine_spaces in H. destruct (common_obs ss) as [all|]; [|discriminate]. rewrite X1, X2 in H. cbn [negb orb bind] in H.
  apply bind_ok in H. destruct H as [ss' [_ H]].
  destruct (forallb s_limits_are_false ss'); [eapply make_space_unbinned, H|].
  destruct (forallb _ ss'); [eapply make_space_unbinned, H|].
  destruct (negb _); [discriminate|]. apply bind_ok in H. destruct H as [[[d U] N] [_ H]].
  apply bind_ok in H. destruct H as [c [_ H]]. unfold space_of_dict in H. apply bind_ok in H. destruct H as [[no na] [_ H]].
  simpl in H. inversion H. reflexivity.
Qed.

Definition joinf (os1 : list string) (f1 f2 : string -> Q * Q) (o : string) : Q * Q :=
  if mem String.eqb o os1 then f1 o else f2 o.
Definition joink (os1 : list string) (k1 k2 : lk) : option lk :=
  match k1, k2 with
  | KR f1, KR f2 => Some (KR (joinf os1 f1 f2))
  | KN, KN => Some KN
  | KF, KF => Some KF
  | _, _ => None
  end.
Lemma data_space_rect s os f : data_space s -> sp_ok s os (KR f) -> rect_space s.
Proof.
  intros [[R _]|P] S; [exact R|]. destruct (plain_sp s P) as [os' H].
  pose proof (sp_flags _ _ _ S) as [E1 E2]. destruct H as [H|H]; pose proof (sp_flags _ _ _ H) as [E3 E4]; congruence.
Qed.
Lemma dict_g_ext d os g g' : (forall o, In o os -> g o = g' o) -> dict_g d os g -> dict_g d os g'.
Proof.
  intros He [H1 [H2 H3]]. split; [|split; [|exact H3]].
  - intros k l Hin. destruct (H1 k l Hin) as [o [-> [Ho ->]]]. exists o. rewrite He by exact Ho. auto.
  - intros o Ho. rewrite <- He by exact Ho. apply H2, Ho.
Qed.
Lemma wf_sp s os f : wf_full s os f -> s_binning s = None -> sp_ok s os (KR f).
Proof. intros [[Ho [Hnd [Hne Hd]]] [Ha _]] B. repeat (split; try assumption). Qed.
Lemma sp_good s os f : sp_ok s os (KR f) -> rect_space s -> good s /\ obs_list s = os /\ forall o, In o os -> lim_at s o = f o.
Proof.
  intros S R. pose proof (rect_all_good [s] (Forall_cons _ R (Forall_nil _)) s (or_introl eq_refl)) as G.
  assert (Eo : obs_list s = os) by (unfold obs_list; rewrite (proj1 S); reflexivity).
  split; [exact G|]. split; [exact Eo|]. intros o Ho. apply (wf_lim_at _ _ _ _ (sp_rect _ _ _ S) Ho).
Qed.

Lemma plain_total os i k : NoDup os -> os <> [] -> (i = INone /\ k = KN) \/ (i = IFalse /\ k = KF) ->
  exists s, make_space (Some os) None i None = Ok s /\ sp_ok s os k.
Proof.
  intros Hnd Hne Hk. unfold make_space. rewrite (make_coords_total os None Hne) by discriminate. cbn [bind].
  assert (Hpos : (0 < length os)%nat) by (destruct os; [congruence|simpl; lia]).
  assert (E : exists l, make_limit (match i with INone => INone | _ => i end) (length os) = Ok l /\ sublimits l = repeat (limk k ""%string) (length os)).
  { destruct Hk as [[-> ->]|[-> ->]]; eexists; (split; [reflexivity|]); cbn [sublimits];
    (destruct (Nat.ltb_spec 1 (length os)); [reflexivity|replace (length os) with 1%nat by lia; reflexivity]). }
  destruct E as [l [El Es]].
  assert (El' : make_limit i (n_obs (mkCoords (Some os) None)) = Ok l) by (destruct i; exact El).
  replace (match i with INone => i | _ => i end) with i by (destruct i; reflexivity).
  rewrite El'. cbn [bind c_obs c_axes option_map]. rewrite Es.
  assert (E1 : lim_n_obs (limk k ""%string) = 1%nat) by (destruct Hk as [[_ ->]|[_ ->]]; reflexivity).
  rewrite slice_plain by exact E1.
  destruct (sp_of_dict (mkCoords (Some os) None) (map (fun o => ([o], limk k ""%string)) os) None os os k) as [s' [G1 [G2 _]]].
  - split; [|split].
    + intros k' l' Hin. apply in_map_iff in Hin. destruct Hin as [o [E Hin]]. inversion E; subst.
      exists o. split; [reflexivity|]. split; [exact Hin|]. destruct Hk as [[_ ->]|[_ ->]]; reflexivity.
    + intros o Hin. apply in_map_iff. exists o. split; [|exact Hin]. destruct Hk as [[_ ->]|[_ ->]]; reflexivity.
    + rewrite map_map. simpl. apply FinFun.Injective_map_NoDup; [intros a b E; inversion E; reflexivity|exact Hnd].
  - apply incl_refl.
  - exact Hnd.
  - exact Hne.
  - reflexivity.
  - exact Logic.I.
  - intros _ _. apply incl_refl.
  - exists s'. split; [exact G1|exact G2].
Qed.

Lemma comb s1 s2 os1 os2 k1 k2 : data_space s1 -> data_space s2 -> sp_ok s1 os1 k1 -> sp_ok s2 os2 k2 -> NoDup (os1 ++ os2) ->
  match joink os1 k1 k2 with
  | Some k => exists s', combine_spaces [s1; s2] = Ok s' /\ data_space s' /\ sp_ok s' (os1 ++ os2) k
  | None => combine_spaces [s1; s2] = Err LimitsNotSpecifiedError
  end.
Proof.
  intros D1 D2 S1 S2 Hnd.
  assert (Hne : os1 ++ os2 <> []).
  { destruct S1 as [_ [_ [H _]]]. destruct os1; [congruence|discriminate]. }
  assert (Ec : common_obs [s1; s2] = Some (os1 ++ os2)).
  { unfold common_obs. cbn [map]. rewrite (proj1 S1), (proj1 S2). simpl all_some. cbn [option_map].
    rewrite (union_two _ _ Hnd). reflexivity. }
  assert (Hok : forall s os k, sp_ok s os k -> incl os (os1 ++ os2) ->
    exists s', s_with_obs s (Some (os1 ++ os2)) true true = Ok s' /\ sp_ok s' (sel os (os1 ++ os2)) k).
  { intros s os k S Hi. destruct (sp_with_obs s os k (os1 ++ os2) true true S Hnd) as [s' [c [_ [E [S' _]]]]].
    - split; [|split; discriminate]. destruct S as [_ [_ [H _]]]. destruct os as [|o os]; [congruence|].
      exists o. split; [apply Hi|]; left; reflexivity.
    - exists s'. split; assumption. }
  destruct (Hok _ _ _ S1 (incl_appl _ (incl_refl _))) as [t1 [E1 T1]].
  destruct (Hok _ _ _ S2 (incl_appr _ (incl_refl _))) as [t2 [E2 T2]].
  pose proof (sp_flags _ _ _ T1) as [F1 G1]. pose proof (sp_flags _ _ _ T2) as [F2 G2].
  pose proof (sp_has_limits _ _ _ T1) as H1. pose proof (sp_has_limits _ _ _ T2) as H2.
  assert (U : combine_spaces [s1; s2] = if forallb s_limits_are_false [t1; t2] then make_space (Some (os1 ++ os2)) None IFalse None
      else if forallb (fun s => negb (s_limits_are_set s)) [t1; t2] then make_space (Some (os1 ++ os2)) None INone None
      else if negb (forallb s_has_limits [t1; t2]) then Err LimitsNotSpecifiedError
      else combine_spaces [s1; s2]).
  { unfold combine_spaces at 1. rewrite Ec. cbn [forallb existsb].
    rewrite (sp_unbinned _ _ _ S1), (sp_unbinned _ _ _ S2). cbn [andb orb negb bind mapM]. rewrite E1. cbn [bind]. rewrite E2. cbn [bind forallb].
    destruct (s_limits_are_false t1 && _); [reflexivity|]. destruct (negb (s_limits_are_set t1) && _); [reflexivity|].
    destruct (negb (s_has_limits t1 && _)) eqn:En; [reflexivity|].
    unfold combine_spaces. rewrite Ec. cbn [forallb existsb].
    rewrite (sp_unbinned _ _ _ S1), (sp_unbinned _ _ _ S2). cbn [andb orb negb bind mapM]. rewrite E1. cbn [bind]. rewrite E2. cbn [bind forallb].
    rewrite F1, F2, G1, G2, H1, H2. rewrite H1, H2 in En. destruct k1, k2; try discriminate En. reflexivity. }
  destruct k1 as [f1| |], k2 as [f2| |]; cbn [joink]; rewrite ?F1, ?F2, ?G1, ?G2, ?H1, ?H2 in U; cbn [forallb] in U;
    rewrite ?F1, ?F2, ?G1, ?G2, ?H1, ?H2 in U; cbn [andb negb] in U; try exact U.
  - pose proof (data_space_rect _ _ _ D1 S1) as R1. pose proof (data_space_rect _ _ _ D2 S2) as R2.
    destruct (C06_raises [s1; s2]) as [_ HR].
    + repeat constructor; assumption.
    + intros s [<-|[<-|[]]]; [apply S1|apply S2].
    + discriminate.
    + apply two_not_nested.
    + destruct HR as [s' Es'].
      { intros [o [l1 [s [l2 [t [iv [iv' [E [L1 [_ [Ht [L2 _]]]]]]]]]]]].
        assert (O : forall s os k, sp_ok s os k -> forall o iv, limit_of s o iv -> In o os).
        { intros s0 os0 k0 S0 o0 iv0 [os' [ivs [Eo [_ [j [Ej _]]]]]]. rewrite (proj1 S0) in Eo. inversion Eo; subst. eapply nth_error_In, Ej. }
        destruct l1 as [|a [|b l1]]; simpl in E; inversion E; subst.
        - destruct Ht as [<-|[]]. eapply NoDup_app_disj; [exact Hnd|eapply O; [exact S1|exact L1]|eapply O; [exact S2|exact L2]].
        - destruct Ht.
        - destruct l1; discriminate. }
      exists s'. split; [exact Es'|].
      assert (B : s_binning s' = None).
      { eapply combine_unbinned; [| |exact Es']; [|discriminate]. cbn [existsb].
        rewrite (sp_unbinned _ _ _ S1), (sp_unbinned _ _ _ S2). reflexivity. }
      assert (R' : rect_space s') by (apply (rs_combine [s1; s2]); [repeat constructor; assumption|exact Es']).
      split; [left; split; assumption|].
      assert (Hg : forall s, In s [s1; s2] -> good s).
      { intros s [<-|[<-|[]]]; [apply (sp_good _ _ _ S1 R1)|apply (sp_good _ _ _ S2 R2)]. }
      pose proof (combine_full _ _ Hg Es') as W. unfold all_of in W. cbn [map] in W.
      destruct (sp_good _ _ _ S1 R1) as [_ [O1 L1]]. destruct (sp_good _ _ _ S2 R2) as [_ [O2 L2]].
      rewrite O1, O2, (union_two _ _ Hnd) in W. apply wf_sp in W; [|exact B].
      destruct W as [W1 [W2 [W3 [[d [W4 W5]] W6]]]]. split; [exact W1|]. split; [exact W2|]. split; [exact W3|].
      split; [|exact W6]. exists d. split; [exact W4|]. eapply dict_g_ext; [|exact W5]. intros o Ho. cbn [limk]. f_equal. f_equal.
      unfold F, joinf. cbn [filter]. unfold has_coord. rewrite (proj1 S1), (proj1 S2).
      destruct (mem String.eqb o os1) eqn:E; [apply L1, (mem_In _ string_eqb_ok), E|].
      apply (mem_false _ string_eqb_ok) in E. apply in_app_iff in Ho. destruct Ho as [Ho|Ho]; [contradiction|].
      rewrite (proj2 (mem_In _ string_eqb_ok _ _) Ho). apply L2, Ho.
  - destruct (plain_total (os1 ++ os2) INone KN Hnd Hne) as [s' [E' S']]; [left; split; reflexivity|].
    exists s'. rewrite U. split; [exact E'|]. split; [|exact S']. right. eapply ps_make; [exact Hnd|left; reflexivity|exact E'].
  - destruct (plain_total (os1 ++ os2) IFalse KF Hnd Hne) as [s' [E' S']]; [right; split; reflexivity|].
    exists s'. rewrite U. split; [exact E'|]. split; [|exact S']. right. eapply ps_make; [exact Hnd|right; reflexivity|exact E'].
Qed.

(** Products of several spaces *)
Inductive chain : list data -> list (list string) -> list lk -> list (list (list Q)) -> list nat -> Prop :=
| ch_nil : chain [] [] [] [] []
| ch_cons d ds os oss k ks cols colss N Ns :
    inv d os k cols N -> chain ds oss ks colss Ns -> chain (d :: ds) (os :: oss) (k :: ks) (cols :: colss) (N :: Ns).
Lemma chain_of ds : (forall d, In d ds -> exists os k cols N, inv d os k cols N) ->
  exists oss ks colss Ns, chain ds oss ks colss Ns.
Proof.
  induction ds as [|d ds IH]; intros H; [do 4 eexists; constructor|].
  destruct IH as [oss [ks [colss [Ns C]]]]; [intros x Hx; apply H; right; exact Hx|].
  destruct (H d (or_introl eq_refl)) as [os [k [cols [N V]]]]. do 4 eexists. constructor; eassumption.
Qed.

Lemma mul_inv ds oss ks colss Ns : chain ds oss ks colss Ns -> forall acc os k s', data_space acc -> sp_ok acc os k ->
  NoDup (os ++ concat oss) -> mul_spaces acc (map d_space ds) = Ok s' ->
  exists k', data_space s' /\ sp_ok s' (os ++ concat oss) k'.
Proof.
  induction 1 as [|d ds osd oss kd ks cols colss N Ns V C IH]; intros acc os k s' Da Sa Hnd H; cbn [map mul_spaces concat] in *.
  - inversion H; subst. rewrite app_nil_r. exists k. split; assumption.
  - rewrite app_assoc in *. pose proof V as [Dd Sd _ _ _ _].
    pose proof (comb _ _ _ _ _ _ Da Dd Sa Sd (NoDup_app_l _ _ Hnd)) as Hc.
    destruct (joink os k kd) as [k2|]; [|rewrite Hc in H; discriminate].
    destruct Hc as [s2 [E2 [D2 S2]]]. rewrite E2 in H. cbn [bind] in H. exact (IH _ _ _ _ D2 S2 Hnd H).
Qed.
Lemma mul_KN ds oss ks colss Ns : chain ds oss ks colss Ns -> (forall k, In k ks -> k = KN) -> forall acc os, data_space acc ->
  sp_ok acc os KN -> NoDup (os ++ concat oss) ->
  exists s', mul_spaces acc (map d_space ds) = Ok s' /\ data_space s' /\ sp_ok s' (os ++ concat oss) KN.
Proof.
  induction 1 as [|d ds osd oss kd ks cols colss N Ns V C IH]; intros Hk acc os Da Sa Hnd; cbn [map mul_spaces concat] in *.
  - exists acc. rewrite app_nil_r. auto.
  - rewrite app_assoc in *. pose proof V as [Dd Sd _ _ _ _]. rewrite (Hk kd (or_introl eq_refl)) in Sd.
    pose proof (comb _ _ _ _ _ _ Da Dd Sa Sd (NoDup_app_l _ _ Hnd)) as Hc. cbn [joink] in Hc.
    destruct Hc as [s2 [E2 [D2 S2]]]. rewrite E2. cbn [bind].
    apply IH; [intros x Hx; apply Hk; right; exact Hx|exact D2|exact S2|exact Hnd].
Qed.
Definition is_KR (k : lk) : Prop := match k with KR _ => True | _ => False end.
Lemma mul_KR ds oss ks colss Ns : chain ds oss ks colss Ns -> (forall k, In k ks -> is_KR k) -> forall acc os f, data_space acc ->
  sp_ok acc os (KR f) -> NoDup (os ++ concat oss) ->
  exists s' g, mul_spaces acc (map d_space ds) = Ok s' /\ data_space s' /\ sp_ok s' (os ++ concat oss) (KR g)
    /\ (forall o, In o os -> g o = f o)
    /\ (forall d osd o fd, In d ds -> sp_ok (d_space d) osd (KR fd) -> In o osd -> g o = fd o).
Proof.
  induction 1 as [|d ds osd oss kd ks cols colss N Ns V C IH]; intros Hk acc os f Da Sa Hnd; cbn [map mul_spaces concat] in *.
  - exists acc, f. rewrite app_nil_r. split; [reflexivity|]. split; [exact Da|]. split; [exact Sa|]. split; [reflexivity|]. intros d osd o fd [].
  - rewrite app_assoc in *. pose proof V as [Dd Sd _ _ _ _].
    pose proof (Hk kd (or_introl eq_refl)) as K. destruct kd as [fd| |]; try destruct K.
    pose proof (comb _ _ _ _ _ _ Da Dd Sa Sd (NoDup_app_l _ _ Hnd)) as Hc. cbn [joink] in Hc.
    destruct Hc as [s2 [E2 [D2 S2]]]. rewrite E2. cbn [bind].
    destruct (IH (fun x Hx => Hk x (or_intror Hx)) _ _ _ D2 S2 Hnd) as [s' [g [E' [D' [S' [G1 G2]]]]]].
    exists s', g. split; [exact E'|]. split; [exact D'|]. split; [exact S'|]. split.
    + intros o Ho. rewrite G1 by (apply in_app_iff; left; exact Ho). unfold joinf.
      rewrite (proj2 (mem_In _ string_eqb_ok _ _) Ho). reflexivity.
    + intros d0 os0 o f0 [<-|Hd] S0 Ho; [|eapply G2; eassumption].
      assert (os0 = osd) by (destruct S0 as [X _], Sd as [Y _]; congruence). subst os0.
      rewrite G1 by (apply in_app_iff; right; exact Ho). unfold joinf.
      assert (E : mem String.eqb o os = false).
      { apply (mem_false _ string_eqb_ok). intros C'. exact (NoDup_app_disj _ _ _ (NoDup_app_l _ _ Hnd) C' Ho). }
      rewrite E. rewrite <- (wf_lim_at _ _ _ _ (sp_rect _ _ _ Sd) Ho). apply (wf_lim_at _ _ _ _ (sp_rect _ _ _ S0) Ho).
Qed.

(** Stacking rows *)
Lemma values_of_ok ds oss ks colss Ns obs : chain ds oss ks colss Ns -> NoDup obs -> obs <> [] ->
  (forall os, In os oss -> forall o, In o obs <-> In o os) ->
  values_of ds obs = Ok (map (fun p => mkT (length obs) (rowsof (snd p) (selcols (fst (fst p)) (snd (fst p)) obs)))
                             (combine (combine oss colss) Ns)).
Proof.
  intros C Hnd Hne. induction C as [|d ds os oss k ks cols colss N Ns V C IH]; intros Ho; [reflexivity|].
  cbn [values_of combine map fst snd].
  destruct (value_some d os k cols N obs V Hnd) as [l [E _]].
  - destruct obs as [|o obs]; [congruence|]. exists o. split; [left; reflexivity|].
    apply (Ho os (or_introl eq_refl)). left. reflexivity.
  - rewrite E. cbn [bind]. rewrite IH by (intros x Hx; apply Ho; right; exact Hx). cbn [bind].
    rewrite (sel_same os obs) by (intros o; apply (Ho os (or_introl eq_refl))). reflexivity.
Qed.
Lemma forallb_sets obs ds oss ks colss Ns : chain ds oss ks colss Ns ->
  forallb (fun d => set_eq_names obs (d_obs d)) ds = true <-> forall os, In os oss -> forall o, In o obs <-> In o os.
Proof.
  intros C. induction C as [|d ds os oss k ks cols colss N Ns V C IH]; [split; [intros _ x []|reflexivity]|].
  cbn [forallb]. rewrite andb_true_iff, IH. unfold d_obs. destruct V as [_ [Eo _] _ _ _ _]. rewrite Eo.
  unfold set_eq_names. rewrite (set_eqb_iff _ string_eqb_ok). split.
  - intros [H1 H2] x [<-|Hx]; [exact H1|apply H2, Hx].
  - intros H. split; [apply H; left; reflexivity|intros x Hx; apply H; right; exact Hx].
Qed.

Lemma concat_rect (obs : list string) (l : list (list string * list (list Q) * nat)) :
  rectangular (mkT (length obs) (concat (map t_rows (map (fun p => mkT (length obs) (rowsof (snd p) (selcols (fst (fst p)) (snd (fst p)) obs))) l)))).
Proof.
  intros r Hr. cbn [t_rows t_width] in *. apply in_concat in Hr. destruct Hr as [rs [H1 H2]].
  rewrite map_map in H1. apply in_map_iff in H1. destruct H1 as [p [<- _]]. cbn [t_rows] in H2.
  apply rowsof_width in H2. rewrite H2. apply selcols_length.
Qed.
Lemma weights_concat (obs : list string) ds oss ks colss Ns : chain ds oss ks colss Ns ->
  let ts := map (fun p => mkT (length obs) (rowsof (snd p) (selcols (fst (fst p)) (snd (fst p)) obs))) (combine (combine oss colss) Ns) in
  length (concat (map (fun p => weights_or_ones (fst p) (snd p)) (combine ds ts))) = length (concat (map t_rows ts)).
Proof.
  intros C. induction C as [|d ds os oss k ks cols colss N Ns V C IH]; [reflexivity|].
  cbn [combine map concat fst snd]. rewrite !app_length. cbv zeta in IH. cbn [t_rows]. f_equal; [|exact IH].
  unfold weights_or_ones. cbn [t_rows]. rewrite rowsof_length. destruct V as [_ _ _ _ _ Hw].
  destruct (d_weights d); [exact Hw|]. apply repeat_length.
Qed.

Lemma concat_index_space ds oss ks colss Ns (o : obs_opt) sp : chain ds oss ks colss Ns -> ds <> [] ->
  match o with NoObs => True | Names l => NoDup l | InSpace s => data_space s end ->
  match o with
  | NoObs => match ds with d0 :: _ => Ok (d_space d0) | [] => Err ValueError end
  | Names l => match ds with d0 :: _ => s_with_obs (d_space d0) (Some l) true true | [] => Err ValueError end
  | InSpace s => Ok s
  end = Ok sp -> data_space sp.
Proof.
  intros C Hne Ho H. destruct C as [|d ds os oss k ks cols colss N Ns V C]; [congruence|]. pose proof V as [D _ _ _ _ _].
  destruct o as [|l|s].
  - inversion H; subst. exact D.
  - eapply data_space_with_obs; [exact D|exact Ho|exact H].
  - inversion H; subst. exact Ho.
Qed.
(** The whole of concat_index once the target space is known *)
Definition parts_of (obs : list string) (oss : list (list string)) (colss : list (list (list Q))) (Ns : list nat) : list (list (list Q)) :=
  map (fun p => rowsof (snd p) (selcols (fst (fst p)) (snd (fst p)) obs)) (combine (combine oss colss) Ns).
Definition ones_or (d : data) (N : nat) : list Q := match d_weights d with Some w => w | None => repeat 1%Q N end.
Lemma concat_index_ok ds oss ks colss Ns o sp obs k0 : chain ds oss ks colss Ns -> ds <> [] ->
  match o with
  | NoObs => match ds with d0 :: _ => Ok (d_space d0) | [] => Err ValueError end
  | Names l => match ds with d0 :: _ => s_with_obs (d_space d0) (Some l) true true | [] => Err ValueError end
  | InSpace s => Ok s
  end = Ok sp -> data_space sp -> sp_ok sp obs k0 -> (forall os, In os oss -> forall o, In o obs <-> In o os) ->
  exists d cols N, concat_index ds o = Ok d /\ inv d obs k0 cols N
    /\ rowsof N cols = concat (parts_of obs oss colss Ns)
    /\ d_weights d = (if existsb d_has_weights ds then Some (concat (map (fun p => ones_or (fst p) (snd p)) (combine ds Ns))) else None)
    /\ is_map d = false.
Proof.
  intros C Hne Hsp D S Hs. unfold concat_index. destruct ds as [|d0 ds0]; [congruence|].
  rewrite Hsp. cbn [bind]. rewrite (proj1 S), (proj2 (forallb_sets obs _ _ _ _ _ C) Hs). cbn [negb].
  assert (Hnd : NoDup obs) by apply S. assert (Hob : obs <> []) by apply S.
  rewrite (values_of_ok _ _ _ _ _ _ C Hnd Hob Hs). cbn [bind].
  set (ts := map _ (combine (combine oss colss) Ns)).
  assert (Er : concat (map t_rows ts) = concat (parts_of obs oss colss Ns)).
  { unfold ts, parts_of. rewrite map_map. reflexivity. }
  assert (Ew : concat (map (fun p => weights_or_ones (fst p) (snd p)) (combine (d0 :: ds0) ts))
               = concat (map (fun p => ones_or (fst p) (snd p)) (combine (d0 :: ds0) Ns))).
  { unfold ts. f_equal. clear - C. induction C as [|d ds os oss k ks cols colss N Ns V C IH]; [reflexivity|].
    cbn [combine map fst snd]. f_equal; [|exact IH]. unfold weights_or_ones, ones_or. cbn [t_rows]. rewrite rowsof_length. reflexivity. }
  rewrite Er, Ew. pose proof (weights_concat obs _ _ _ _ _ C) as Hl. cbv zeta in Hl. fold ts in Hl. rewrite Er, Ew in Hl.
  set (ws := if existsb d_has_weights (d0 :: ds0) then _ else _).
  destruct (from_tensor_keep (mkT (length obs) (concat (parts_of obs oss colss Ns))) sp ws obs k0 D S) as [d [cols [N [E [V [E1 [E2 E3]]]]]]].
  - pose proof (concat_rect obs (combine (combine oss colss) Ns)) as R. fold ts in R. rewrite Er in R. exact R.
  - reflexivity.
  - unfold ws. destruct (existsb _ _); [exact Hl|exact Logic.I].
  - exists d, cols, N. auto.
Qed.
Lemma concat_index_mismatch ds oss ks colss Ns o sp : chain ds oss ks colss Ns -> ds <> [] ->
  match o with
  | NoObs => match ds with d0 :: _ => Ok (d_space d0) | [] => Err ValueError end
  | Names l => match ds with d0 :: _ => s_with_obs (d_space d0) (Some l) true true | [] => Err ValueError end
  | InSpace s => Ok s
  end = Ok sp -> ~ (forall os, In os oss -> forall o, In o (obs_list sp) <-> In o os) -> concat_index ds o = Err ValueError.
Proof.
  intros C Hne Hsp Hs. unfold concat_index. destruct ds as [|d0 ds0]; [congruence|].
  rewrite Hsp. cbn [bind]. change (match s_obs sp with Some l => l | None => [] end) with (obs_list sp).
  destruct (forallb _ (d0 :: ds0)) eqn:E; [|reflexivity]. destruct Hs. apply (forallb_sets _ _ _ _ _ _ C), E.
Qed.
Lemma concat_index_inv ds o d' : (forall d, In d ds -> exists os k cols N, inv d os k cols N) ->
  match o with NoObs => True | Names l => NoDup l | InSpace s => data_space s end ->
  concat_index ds o = Ok d' -> exists os k cols N, inv d' os k cols N.
Proof.
  intros Hd Ho H. destruct (chain_of _ Hd) as [oss [ks [colss [Ns C]]]].
  assert (Hne : ds <> []) by (intros ->; discriminate).
  set (spr := match o with
  | NoObs => match ds with d0 :: _ => Ok (d_space d0) | [] => Err ValueError end
  | Names l => match ds with d0 :: _ => s_with_obs (d_space d0) (Some l) true true | [] => Err ValueError end
  | InSpace s => Ok s
  end).
  destruct spr as [sp|e] eqn:Esp.
  - unfold spr in Esp. pose proof (concat_index_space _ _ _ _ _ _ _ C Hne Ho Esp) as D.
    destruct (data_space_sp _ D) as [obs [k0 S]].
    destruct (forallb (fun d => set_eq_names obs (d_obs d)) ds) eqn:E.
    + destruct (concat_index_ok _ _ _ _ _ _ _ _ _ C Hne Esp D S (proj1 (forallb_sets _ _ _ _ _ _ C) E)) as [d [cols [N [E1 [V _]]]]].
      rewrite E1 in H. inversion H; subst. exists obs, k0, cols, N. exact V.
    + rewrite (concat_index_mismatch _ _ _ _ _ _ _ C Hne Esp) in H; [discriminate|].
      unfold obs_list. rewrite (proj1 S). intros X. apply (forallb_sets _ _ _ _ _ _ C) in X. congruence.
  - exfalso. unfold concat_index in H. destruct ds as [|d0 ds0]; [congruence|]. unfold spr in Esp. destruct o as [|l|s]; try discriminate.
    rewrite Esp in H. discriminate.
Qed.

(** Side by side *)
Lemma rowsof_app n a b : map (fun p => fst p ++ snd p) (combine (rowsof n a) (rowsof n b)) = rowsof n (a ++ b).
Proof.
  unfold rowsof. generalize (seq 0 n) as l. induction l as [|i l IH]; [reflexivity|].
  cbn [map combine fst snd]. rewrite map_app, IH. reflexivity.
Qed.
Lemma rowsof_nil n : rowsof n [] = repeat [] n.
Proof. unfold rowsof. generalize 0%nat as a. induction n as [|n IH]; intros a; [reflexivity|]. cbn [seq map repeat]. rewrite IH. reflexivity. Qed.
Lemma join_ok n colss : join_rows (map (rowsof n) colss) n = rowsof n (concat colss).
Proof.
  induction colss as [|c colss IH]; cbn [map join_rows concat]; [symmetry; apply rowsof_nil|].
  rewrite IH. apply rowsof_app.
Qed.
Lemma all_values_ok ds oss ks colss Ns : chain ds oss ks colss Ns ->
  all_values ds = Ok (map (fun p => mkT (length (fst (fst p))) (rowsof (snd p) (snd (fst p)))) (combine (combine oss colss) Ns)).
Proof.
  induction 1 as [|d ds os oss k ks cols colss N Ns V C IH]; [reflexivity|]. cbn [all_values].
  destruct (value_none _ _ _ _ _ V) as [l [E _]]. rewrite E. cbn [bind]. rewrite IH. reflexivity.
Qed.
Lemma chain_obs ds oss ks colss Ns : chain ds oss ks colss Ns -> map d_obs ds = oss.
Proof.
  induction 1 as [|d ds os oss k ks cols colss N Ns V C IH]; [reflexivity|]. cbn [map]. rewrite IH. unfold d_obs.
  destruct V as [_ [E _] _ _ _ _]. rewrite E. reflexivity.
Qed.
Lemma chain_len ds oss ks colss Ns : chain ds oss ks colss Ns ->
  length oss = length ds /\ length ks = length ds /\ length colss = length ds /\ length Ns = length ds.
Proof. induction 1 as [|d ds os oss k ks cols colss N Ns V C IH]; [auto|]. simpl. lia. Qed.
Lemma has_dup_iff l : has_dup l = false <-> NoDup l.
Proof.
  induction l as [|o l IH]; [split; [constructor|reflexivity]|]. cbn [has_dup]. rewrite orb_false_iff, IH. split.
  - intros [H1 H2]. constructor; [apply (mem_false _ string_eqb_ok), H1|exact H2].
  - intros H. inversion H; subst. split; [apply (mem_false _ string_eqb_ok); assumption|assumption].
Qed.
Lemma chain_rows ds oss ks colss Ns n : chain ds oss ks colss Ns -> (forall m, In m Ns -> m = n) ->
  map (fun p : list string * list (list Q) * nat => rowsof (snd p) (snd (fst p))) (combine (combine oss colss) Ns) = map (rowsof n) colss.
Proof.
  intros C. induction C as [|d ds os oss k ks cols colss N Ns V C IH]; intros Hn; [reflexivity|].
  cbn [combine map fst snd]. rewrite (Hn N (or_introl eq_refl)), IH by (intros m Hm; apply Hn; right; exact Hm). reflexivity.
Qed.
Lemma chain_width ds oss ks colss Ns : chain ds oss ks colss Ns -> length (concat colss) = length (concat oss).
Proof.
  induction 1 as [|d ds os oss k ks cols colss N Ns V C IH]; [reflexivity|]. cbn [concat]. rewrite !app_length, IH.
  destruct V as [_ _ _ _ Hl _]. congruence.
Qed.
Lemma chain_cols ds oss ks colss Ns n : chain ds oss ks colss Ns -> (forall m, In m Ns -> m = n) ->
  forall c, In c (concat colss) -> length c = n.
Proof.
  intros C. induction C as [|d ds os oss k ks cols colss N Ns V C IH]; intros Hn c Hc; [destruct Hc|].
  cbn [concat] in Hc. apply in_app_iff in Hc. destruct Hc as [Hc|Hc].
  - rewrite <- (Hn N (or_introl eq_refl)). destruct V as [_ _ _ L _ _]. eapply lds_ok_cols; [exact L|exact Hc].
  - apply IH; [|exact Hc]. intros m Hm. apply Hn. right. exact Hm.
Qed.
Lemma prod_length (wss : list (list Q)) n : wss <> [] -> (forall w, In w wss -> length w = n) -> length (prod_weights wss) = n.
Proof.
  induction wss as [|w wss IH]; intros Hne H; [congruence|]. destruct wss as [|w' wss]; [apply H; left; reflexivity|].
  change (prod_weights (w :: w' :: wss)) with (map (fun p => (fst p * snd p)%Q) (combine w (prod_weights (w' :: wss)))).
  rewrite map_length, combine_length, IH; [|discriminate|intros x Hx; apply H; right; exact Hx].
  rewrite (H w (or_introl eq_refl)). lia.
Qed.
Lemma chain_weights ds oss ks colss Ns n : chain ds oss ks colss Ns -> (forall m, In m Ns -> m = n) ->
  forall w, In w (weights_list ds) -> length w = n.
Proof.
  intros C. induction C as [|d ds os oss k ks cols colss N Ns V C IH]; intros Hn w Hw; [destruct Hw|].
  unfold weights_list in Hw. cbn [map concat] in Hw. apply in_app_iff in Hw. destruct Hw as [Hw|Hw].
  - rewrite <- (Hn N (or_introl eq_refl)). destruct V as [_ _ _ _ _ W]. destruct (d_weights d) as [w'|]; [|destruct Hw].
    destruct Hw as [<-|[]]. exact W.
  - apply IH; [|exact Hw]. intros m Hm. apply Hn. right. exact Hm.
Qed.

(** The product data set, once the spaces could be multiplied *)
Definition prod_ws (ds : list data) : option (list Q) := match weights_list ds with [] => None | l => Some (prod_weights l) end.
Lemma concat_obs_core d0 ds os0 oss k0 ks cols0 colss N0 Ns sp k :
  chain (d0 :: ds) (os0 :: oss) (k0 :: ks) (cols0 :: colss) (N0 :: Ns) ->
  mul_spaces (d_space d0) (map d_space ds) = Ok sp -> data_space sp -> sp_ok sp (concat (os0 :: oss)) k ->
  NoDup (concat (os0 :: oss)) -> (forall m, In m Ns -> m = N0) -> forallb is_map (d0 :: ds) = false ->
  exists d cols, inv d (concat (os0 :: oss)) k cols N0 /\ rowsof N0 cols = rowsof N0 (cols0 ++ concat colss)
    /\ d_weights d = prod_ws (d0 :: ds) /\ is_map d = false
    /\ forall obs, match obs with Some s => forall o, In o (obs_list s) <-> In o (concat (os0 :: oss)) | None => True end ->
       concat_obs (d0 :: ds) obs = match obs with Some s => d_with_obs d (BySpace s) | None => Ok d end.
Proof.
  intros C Hm D S Hnd Hn Hmap. pose proof (chain_obs _ _ _ _ _ C) as Eo.
  assert (Hn' : forall m, In m (N0 :: Ns) -> m = N0) by (intros m [<-|Hi]; [reflexivity|apply Hn, Hi]).
  set (ts := map (fun p : list string * list (list Q) * nat => mkT (length (fst (fst p))) (rowsof (snd p) (snd (fst p)))) (combine (combine (os0 :: oss) (cols0 :: colss)) (N0 :: Ns))).
  assert (El : map (fun x : list string * list (list Q) * nat => length (rowsof (snd x) (snd (fst x)))) (combine (combine (os0 :: oss) (cols0 :: colss)) (N0 :: Ns)) = N0 :: Ns).
  { clear - C. induction C as [|d ds1 os oss1 k ks1 cols colss1 N Ns1 V C IH]; [reflexivity|].
    cbn [combine map fst snd]. rewrite rowsof_length, IH. reflexivity. }
  assert (Ef : forallb (Nat.eqb N0) Ns = true).
  { apply forallb_forall. intros m Hi. rewrite (Hn m Hi). apply Nat.eqb_refl. }
  assert (Er : map t_rows ts = map (rowsof N0) (cols0 :: colss)).
  { unfold ts. rewrite map_map. cbn [t_rows]. apply (chain_rows _ _ _ _ _ _ C Hn'). }
  assert (Ewd : fold_right Nat.add 0%nat (map t_width ts) = length (concat (os0 :: oss))).
  { unfold ts. rewrite map_map. cbn [t_width]. clear - C. induction C as [|d ds1 os oss1 k ks1 cols colss1 N Ns1 V C IH]; [reflexivity|].
    cbn [combine map fst snd fold_right concat]. rewrite app_length, IH. reflexivity. }
  destruct (from_tensor_keep (mkT (length (concat (os0 :: oss))) (rowsof N0 (concat (cols0 :: colss)))) sp (prod_ws (d0 :: ds)) _ k D S)
    as [d [cols [N [E [V [E1 [E2 E3]]]]]]].
  - intros r Hr. cbn [t_rows t_width] in *. apply rowsof_width in Hr. rewrite Hr. apply (chain_width _ _ _ _ _ C).
  - reflexivity.
  - unfold prod_ws. pose proof (chain_weights _ _ _ _ _ _ C Hn') as Hw. destruct (weights_list (d0 :: ds)) as [|w ws] eqn:Ew; [exact Logic.I|].
    cbn [t_rows]. unfold weights_fit. rewrite rowsof_length. apply prod_length; [discriminate|exact Hw].
  - assert (HN : N = N0).
    { assert (L := f_equal (@length (list Q)) E1). cbn [t_rows] in L. rewrite !rowsof_length in L. exact L. }
    subst N. exists d, cols. split; [exact V|]. split; [exact E1|]. split; [exact E2|]. split; [exact E3|].
    intros obs Hobs. unfold concat_obs. rewrite Eo, (proj2 (has_dup_iff _) Hnd).
    assert (X : match obs with Some s => negb (set_eq_names (match s_obs s with Some l => l | None => [] end) (concat (os0 :: oss))) | None => false end = false).
    { destruct obs as [s|]; [|reflexivity]. unfold set_eq_names. apply negb_false_iff. apply (set_eqb_iff _ string_eqb_ok). exact Hobs. }
    rewrite X, Hmap, (all_values_ok _ _ _ _ _ C). cbn [bind]. rewrite Hm. cbn [bind]. fold ts. rewrite Er, Ewd.
    replace (map (fun t => length (t_rows t)) ts) with (N0 :: Ns) by (unfold ts; rewrite map_map; symmetry; exact El).
    rewrite Ef, join_ok. cbn [negb]. fold (prod_ws (d0 :: ds)). rewrite E. cbn [bind]. reflexivity.
Qed.
Lemma concat_obs_inv ds obs d' : (forall d, In d ds -> exists os k cols N, inv d os k cols N) ->
  match obs with None => True | Some s => data_space s end ->
  concat_obs ds obs = Ok d' -> exists os k cols N, inv d' os k cols N.
Proof.
  intros Hd Ho H. destruct (chain_of _ Hd) as [oss [ks [colss [Ns C]]]].
  destruct ds as [|d0 ds]; [discriminate|]. inversion C as [|? ? os0 oss0 k0 ks0 cols0 colss0 N0 Ns0 V C']; subst.
  pose proof H as H'. unfold concat_obs in H.
  pose proof (chain_obs _ _ _ _ _ C) as Eo. rewrite Eo in H.
  destruct (has_dup (concat (os0 :: oss0))) eqn:Edup; [discriminate|]. apply has_dup_iff in Edup.
  destruct (match obs with Some s => negb (set_eq_names (match s_obs s with Some l => l | None => [] end) (concat (os0 :: oss0))) | None => false end) eqn:X; [discriminate|].
  destruct (forallb is_map (d0 :: ds)) eqn:Emap; [discriminate|].
  rewrite (all_values_ok _ _ _ _ _ C) in H. cbn [bind] in H. apply bind_ok in H. destruct H as [sp [Esp H]].
  rewrite map_map in H. cbn [t_rows] in H.
  assert (El : map (fun x : list string * list (list Q) * nat => length (rowsof (snd x) (snd (fst x)))) (combine (combine (os0 :: oss0) (cols0 :: colss0)) (N0 :: Ns0)) = N0 :: Ns0).
  { clear - C. induction C as [|d ds1 os oss1 k ks1 cols colss1 N Ns1 V C IH]; [reflexivity|].
    cbn [combine map fst snd]. rewrite rowsof_length, IH. reflexivity. }
  rewrite El in H. destruct (forallb (Nat.eqb N0) Ns0) eqn:Ef; [|discriminate].
  pose proof V as [D0 S0 _ _ _ _].
  destruct (mul_inv _ _ _ _ _ C' _ _ _ _ D0 S0 Edup Esp) as [k [D S]].
  destruct (concat_obs_core _ _ _ _ _ _ _ _ _ _ _ _ C Esp D S Edup) as [d [cols [Vd [_ [_ [_ E]]]]]]; [| |specialize (E obs)].
  - intros m Hm. symmetry. apply Nat.eqb_eq. exact (proj1 (forallb_forall _ _) Ef m Hm).
  - exact Emap.
  - assert (Xo : match obs with Some s => forall o, In o (obs_list s) <-> In o (concat (os0 :: oss0)) | None => True end).
    { destruct obs as [s|]; [|exact Logic.I]. apply negb_false_iff in X. exact (proj1 (set_eqb_iff _ string_eqb_ok _ _) X). }
    specialize (E Xo). rewrite H' in E. destruct obs as [s|].
    + destruct (data_space_sp _ Ho) as [os' [k' S']]. apply negb_false_iff in X. rewrite (proj1 S') in X.
      pose proof (proj1 (set_eqb_iff _ string_eqb_ok _ _) X) as X'.
      destruct (with_space _ _ _ _ _ _ _ _ Vd Ho S') as [d2 [cols' [N' [E2 [V2 _]]]]]; [intros o Hi; apply X', Hi|].
      rewrite E2 in E. inversion E; subst. exists os', k', cols', N'. exact V2.
    + inversion E; subst. do 4 eexists. exact Vd.
Qed.

Lemma data_ok_inv d : data_ok d -> exists os k cols N, inv d os k cols N.
Proof.
  induction 1 as [t sp ws g d D R Hg H|m sp ws g d n D Hn Hg H|d req d' H0 IH Hr H|d sp d' H0 IH D H|d ws d' H0 IH H
    |d obs d' t H0 IH Hr H|ds o d' H0 IH Ho H|ds o d' H0 IH Ho H].
  - eapply tensor_inv; eassumption.
  - eapply mapping_inv; try eassumption.
  - destruct IH as [os [k [cols [N V]]]].
    destruct (req_ok_dec os req true true) as [Hok|Hok].
    + destruct (with_names _ _ _ _ _ req V Hr) as [d2 [c2 [N2 [E [V2 _]]]]]; [apply Hok|].
      rewrite E in H. inversion H; subst. do 4 eexists. exact V2.
    + pose proof V as [_ S _ _ _ _]. unfold d_with_obs in H. rewrite (sp_with_obs_err _ _ _ _ _ _ S Hok) in H. discriminate.
  - destruct IH as [os [k [cols [N V]]]]. destruct (data_space_sp _ D) as [os' [k' S']].
    destruct (subsetb String.eqb os' os) eqn:Es.
    + apply (subsetb_incl _ string_eqb_ok) in Es.
      destruct (with_space _ _ _ _ _ _ _ _ V D S' Es) as [d2 [c2 [N2 [E [V2 _]]]]].
      rewrite E in H. inversion H; subst. do 4 eexists. exact V2.
    + pose proof V as [_ S _ _ _ _]. unfold d_with_obs in H. rewrite (proj1 S') in H.
      apply bind_ok in H. destruct H as [sp' [Esp H]]. apply bind_ok in Esp. destruct Esp as [u [_ Esp]]. inversion Esp; subst sp'.
      rewrite (sp_unbinned _ _ _ S') in H.
      apply bind_ok in H. destruct H as [p [H _]]. unfold permutation_indices, d_obs in H. rewrite (proj1 S), (proj1 S'), Es in H. discriminate.
  - destruct IH as [os [k [cols [N V]]]]. destruct (with_weights_ok _ _ _ _ _ _ _ V H) as [V' _]. do 4 eexists. exact V'.
  - destruct IH as [os [k [cols [N V]]]]. destruct obs as [req|].
    + destruct (req_ok_dec os req true true) as [Hok|Hok].
      * destruct (value_some _ _ _ _ _ req V Hr) as [l [E L]]; [apply Hok|]. rewrite E in H. inversion H; subst.
        do 4 eexists. eapply inv_set; eassumption.
      * pose proof V as [_ S _ _ _ _]. unfold d_value in H. rewrite (sp_with_obs_err _ _ _ _ _ _ S Hok) in H. discriminate.
    + destruct (value_none _ _ _ _ _ V) as [l [E L]]. rewrite E in H. inversion H; subst.
      do 4 eexists. eapply inv_set; eassumption.
  - eapply concat_index_inv; eassumption.
  - eapply concat_obs_inv; eassumption.
Qed.
