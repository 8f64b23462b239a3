(** Proofs for unbinned data, part 5: the statements C21 to C23. *)
From Coq Require Import Permutation.
From Verif Require Import Base BaseLemmas Coord_Model Coord_Spec Coord_Proofs Space_Model Space_Spec
  Space_Proofs Space_Proofs2 Space_Proofs3 Space_Proofs4 Data_Model Data_Spec Data_Proofs Data_Proofs2 Data_Proofs3
  Data_Proofs4.
#[local] Open Scope nat_scope.

Lemma inv_shows d os k cols N : inv d os k cols N -> shows d os (rowsof N cols).
Proof.
  intros V. split; [apply (i_sp _ _ _ _ _ V)|]. destruct (value_none _ _ _ _ _ V) as [l [E _]]. eexists. exact E.
Qed.
Lemma shows_inv d os k cols N os' rows : inv d os k cols N -> shows d os' rows -> os' = os /\ rows = rowsof N cols.
Proof.
  intros V [Eo [d' E]]. pose proof (i_sp _ _ _ _ _ V) as S. rewrite (proj1 S) in Eo. inversion Eo; subst os'.
  split; [reflexivity|]. destruct (value_none _ _ _ _ _ V) as [l [E2 _]]. rewrite E2 in E. inversion E. reflexivity.
Qed.

Lemma mask_as_filter {A B} (p : A -> bool) (rows : list A) (w : list B) : length w = length rows ->
  combine (filter p rows) (boolean_mask w (map p rows)) = filter (fun x => p (fst x)) (combine rows w)
  /\ length (boolean_mask w (map p rows)) = length (filter p rows).
Proof.
  revert w. induction rows as [|r rows IH]; intros [|v w] H; try discriminate; [split; reflexivity|].
  simpl in H. injection H as H. destruct (IH w H) as [H1 H2]. cbn [map combine filter fst boolean_mask].
  destruct (p r); cbn [combine length]; [rewrite H1, H2; split; reflexivity|split; assumption].
Qed.

Lemma kw sp os k rows ws : sp_ok sp os k -> weights_fit rows ws ->
  kept_weighted (fun r => in_box os r (limit_of sp)) rows ws (filter (keepb k os) rows) (cutw k os rows ws).
Proof.
  intros S Hw. assert (P : forall r, keepb k os r = true <-> in_box os r (limit_of sp)).
  { intros r. rewrite keepb_inbox. symmetry. apply sp_in_box, S. }
  destruct ws as [w|]; cbn [kept_weighted cutw option_map].
  - cbn [weights_fit] in Hw. destruct (mask_as_filter (keepb k os) rows w Hw) as [H1 H2].
    split; [exact H2|]. rewrite H1. apply filter_kept. intros [r v] _. apply P.
  - apply filter_kept. intros r _. apply P.
Qed.
Lemma combine_inj {A B} (a a' : list A) (b b' : list B) : length b = length a -> length b' = length a' ->
  combine a b = combine a' b' -> a = a' /\ b = b'.
Proof.
  revert a' b b'. induction a as [|x a IH]; intros [|x' a'] [|y b] [|y' b'] H1 H2 H; try discriminate; [split; reflexivity|].
  simpl in *. injection H as -> -> H. destruct (IH a' b b') as [-> ->]; try lia; auto.
Qed.
Lemma kw_all (P : list Q -> Prop) rows ws rows' ws' : weights_fit rows ws -> (forall r, In r rows -> P r) ->
  kept_weighted P rows ws rows' ws' -> rows' = rows /\ ws' = ws.
Proof.
  intros Hf HP H. destruct ws as [w|], ws' as [w'|]; cbn [kept_weighted weights_fit] in *; try contradiction.
  - destruct H as [Hl H].
    assert (K : kept (fun p => P (fst p)) (combine rows w) (combine rows w)).
    { apply kept_all. intros [r v] Hin. apply HP. eapply in_combine_l, Hin. }
    pose proof (kept_det _ _ _ _ H K) as E. destruct (combine_inj _ _ _ _ Hl Hf E) as [-> ->]. split; reflexivity.
  - split; [|reflexivity]. eapply kept_det; [exact H|]. apply kept_all, HP.
Qed.
Lemma kw_fit (P : list Q -> Prop) rows ws rows' ws' : kept_weighted P rows ws rows' ws' -> weights_fit rows' ws'.
Proof. destruct ws, ws'; simpl; tauto. Qed.
Lemma kw_In (P : list Q -> Prop) rows ws rows' ws' : weights_fit rows ws -> kept_weighted P rows ws rows' ws' -> forall r, In r rows' -> P r.
Proof.
  intros Hf H r Hr. destruct ws as [w|], ws' as [w'|]; cbn [kept_weighted] in H; try contradiction.
  - destruct H as [Hl H]. apply In_nth_error in Hr. destruct Hr as [i Hi].
    assert (Hw : exists v, nth_error w' i = Some v).
    { destruct (nth_error w' i) eqn:E; [eauto|]. apply nth_error_None in E.
      assert (i < length rows') by (apply nth_error_Some; congruence). lia. }
    destruct Hw as [v Hv]. assert (Hin : In (r, v) (combine rows' w')) by (apply combine_In_nth; exists i; split; assumption).
    apply (kept_In _ _ _ H) in Hin. apply (proj2 Hin).
  - apply (kept_In _ _ _ H) in Hr. apply Hr.
Qed.

Lemma inv_wfit d os k cols N : inv d os k cols N -> weights_fit (rowsof N cols) (d_weights d).
Proof. intros V. apply (wfit_rows N); [apply rowsof_length|apply (i_w _ _ _ _ _ V)]. Qed.

(** Columns *)
Lemma selcols_columns d os k cols N l : inv d os k cols N -> incl l os -> NoDup l ->
  columns_of os (rowsof N cols) l (rowsof N (selcols os cols l)).
Proof.
  intros V Hi Hnd. pose proof (i_sp _ _ _ _ _ V) as S. pose proof (i_len _ _ _ _ _ V) as Hl. unfold columns_of, rowsof.
  assert (Ho : NoDup os) by apply S.
  generalize (seq 0 N) as is. induction is as [|i is IH]; [constructor|]. cbn [map]. constructor; [|exact IH].
  split; [rewrite map_length; apply selcols_length|].
  intros o v Hol. unfold selcols. rewrite map_map.
  assert (G : forall v, column os (map (fun c => nth i c 0%Q) cols) o v <-> v = nth i (nth (pos os o) cols []) 0%Q).
  { intros u. destruct (pos_in os o (Hi o Hol)) as [E Hp]. split.
    - intros [j [E1 E2]]. rewrite <- (pos_at os j o Ho E1) in E2. rewrite nth_error_map in E2.
      destruct (nth_error cols (pos os o)) as [c|] eqn:Ec; [|discriminate]. simpl in E2. inversion E2; subst.
      rewrite (nth_error_nth _ _ [] Ec). reflexivity.
    - intros ->. exists (pos os o). split; [apply pos_nth, Hi, Hol|]. rewrite nth_error_map.
      rewrite nth_error_nth' with (d := []) by (rewrite Hl; exact Hp). reflexivity. }
  assert (G' : forall v, column l (map (fun x => nth i (nth (pos os x) cols []) 0%Q) l) o v <-> v = nth i (nth (pos os o) cols []) 0%Q).
  { intros u. split.
    - intros [j [E1 E2]]. rewrite nth_error_map, E1 in E2. simpl in E2. inversion E2. reflexivity.
    - intros ->. apply In_nth_error in Hol. destruct Hol as [j Hj]. exists j. split; [exact Hj|]. rewrite nth_error_map, Hj. reflexivity. }
  rewrite G, G'. reflexivity.
Qed.
Lemma sel_selects os req : selects os req (sel os req).
Proof.
  unfold sel. induction req as [|o req IH]; [constructor|]. cbn [filter].
  destruct (mem String.eqb o os) eqn:E; [apply sel_keep; [apply (mem_In _ string_eqb_ok), E|exact IH]|].
  apply sel_drop; [apply (mem_false _ string_eqb_ok), E|exact IH].
Qed.

(* ---------- C21 ---------- *)
Lemma C21_array_l sp os t ws : data_space sp -> s_obs sp = Some os -> rectangular t -> t_width t = length os ->
  weights_fit (t_rows t) ws ->
  exists d out, data_from_tensor t sp ws false = Ok d /\ shows d os out
    /\ kept_weighted (fun r => in_box os r (limit_of sp)) (t_rows t) ws out (d_weights d).
Proof.
  intros D Eo R Hw Hf. destruct (data_space_sp _ D) as [os' [k S]]. pose proof (sp_obs _ _ _ _ S Eo). subst os'.
  destruct (from_tensor_cut t sp ws os k D S R Hw Hf) as [d [cols [N [E [V [E1 E2]]]]]].
  exists d, (filter (keepb k os) (t_rows t)). split; [exact E|]. split; [rewrite <- E1; apply (inv_shows _ _ _ _ _ V)|].
  rewrite E2. apply kw; assumption.
Qed.
Lemma table_cols m os rows : table_of m os rows -> NoDup (map fst m) -> NoDup os -> os <> [] ->
  exists cols, mapM (fun o => opt_result KeyError (lookup String.eqb o m)) os = Ok cols
    /\ length cols = length os /\ (forall c, In c cols -> length c = length rows) /\ rowsof (length rows) cols = rows.
Proof.
  intros [Hw Ht] Hm Hnd Hne.
  assert (Hl : forall o c, In (o, c) m -> lookup String.eqb o m = Some c).
  { intros o c Hin. apply (lookup_nodup _ string_eqb_ok); assumption. }
  assert (G : forall l, incl l os -> exists cols, mapM (fun o => opt_result KeyError (lookup String.eqb o m)) l = Ok cols
     /\ Forall2 (fun o c => In (o, c) m) l cols).
  { induction l as [|o l IH]; intros Hi; [exists []; split; [reflexivity|constructor]|].
    destruct IH as [cols [E F]]; [intros x Hx; apply Hi; right; exact Hx|].
    destruct (Ht o (Hi o (or_introl eq_refl))) as [c [Hc _]]. exists (c :: cols). cbn [mapM].
    rewrite (Hl _ _ Hc). cbn [opt_result bind]. rewrite E. split; [reflexivity|constructor; assumption]. }
  destruct (G os (incl_refl _)) as [cols [E F]]. exists cols. split; [exact E|].
  assert (Hc : forall i o c, nth_error os i = Some o -> nth_error cols i = Some c -> In (o, c) m).
  { clear - F. induction F as [|o c os cols H F IH]; intros [|i] o' c' H1 H2; simpl in *; try discriminate.
    - inversion H1; inversion H2; subst. exact H.
    - eapply IH; eassumption. }
  assert (Elen : length cols = length os) by (clear - F; induction F; simpl; congruence).
  split; [exact Elen|].
  assert (Hcol : forall i o c, nth_error os i = Some o -> nth_error cols i = Some c ->
     length c = length rows /\ forall k v r, nth_error c k = Some v -> nth_error rows k = Some r -> column os r o v).
  { intros i o c H1 H2. destruct (Ht o (nth_error_In _ _ H1)) as [c' [Hc' P]].
    pose proof (Hl _ _ Hc') as L1. rewrite (Hl _ _ (Hc _ _ _ H1 H2)) in L1. inversion L1; subst. exact P. }
  split.
  - intros c Hin. apply In_nth_error in Hin. destruct Hin as [i Hi].
    assert (Ho : exists o, nth_error os i = Some o).
    { destruct (nth_error os i) eqn:X; [eauto|]. apply nth_error_None in X. assert (i < length cols) by (apply nth_error_Some; congruence). lia. }
    destruct Ho as [o Ho]. apply (Hcol _ _ _ Ho Hi).
  - apply nth_error_ext. intros k. destruct (Nat.ltb_spec k (length rows)) as [Hk|Hk].
    + rewrite rowsof_nth by exact Hk.
      destruct (nth_error rows k) as [r|] eqn:Er; [|apply nth_error_None in Er; lia]. f_equal.
      pose proof (Hw r (nth_error_In _ _ Er)) as Hlr. apply nth_error_ext. intros i. rewrite nth_error_map.
      destruct (nth_error cols i) as [c|] eqn:Ec.
      * simpl. assert (Ho : exists o, nth_error os i = Some o).
        { destruct (nth_error os i) eqn:X; [eauto|]. apply nth_error_None in X. assert (i < length cols) by (apply nth_error_Some; congruence). lia. }
        destruct Ho as [o Ho]. destruct (Hcol _ _ _ Ho Ec) as [Hlc P].
        destruct (nth_error c k) as [v|] eqn:Ev; [|apply nth_error_None in Ev; lia].
        rewrite (nth_error_nth _ _ 0%Q Ev). destruct (P k v r Ev Er) as [j [J1 J2]].
        assert (j = i) by (eapply NoDup_nth_error; [exact Hnd|apply nth_error_Some; congruence|congruence]). subst j. symmetry. exact J2.
      * simpl. symmetry. apply nth_error_None. apply nth_error_None in Ec. lia.
    + rewrite (proj2 (nth_error_None _ _)) by (rewrite rowsof_length; exact Hk). symmetry. apply nth_error_None. exact Hk.
Qed.
Lemma C21_mapping_l sp os m rows ws : data_space sp -> s_obs sp = Some os -> NoDup (map fst m) -> table_of m os rows ->
  weights_fit rows ws ->
  exists d out, data_from_mapping m sp ws false = Ok d /\ shows d os out
    /\ kept_weighted (fun r => in_box os r (limit_of sp)) rows ws out (d_weights d).
Proof.
  intros D Eo Hm Ht Hf. destruct (data_space_sp _ D) as [os' [k S]]. pose proof (sp_obs _ _ _ _ S Eo). subst os'.
  assert (Hnd : NoDup os) by apply S. assert (Hne : os <> []) by apply S.
  destruct (table_cols m os rows Ht Hm Hnd Hne) as [cols [E [Hl [Hc Er]]]].
  unfold data_from_mapping. rewrite Eo.
  assert (Hi : subsetb String.eqb os (map fst m) = true).
  { apply (subsetb_incl _ string_eqb_ok). intros o Ho. destruct Ht as [_ Ht]. destruct (Ht o Ho) as [c [Hin _]].
    apply in_map_iff. exists (o, c). split; [reflexivity|exact Hin]. }
  rewrite Hi. cbn [negb]. rewrite E. cbn [bind].
  destruct (init_cut sp os k (LM cols) cols (length rows) ws D S) as [d [cols' [N' [E' [V [E1 E2]]]]]].
  - split; [reflexivity|exact Hc].
  - exact Hl.
  - destruct ws; [exact Hf|exact Logic.I].
  - rewrite Er in E1, E2. exists d, (filter (keepb k os) rows). split; [exact E'|].
    split; [rewrite <- E1; apply (inv_shows _ _ _ _ _ V)|]. rewrite E2. apply kw; assumption.
Qed.
Lemma kw_det (P : list Q -> Prop) rows ws r1 w1 r2 w2 : kept_weighted P rows ws r1 w1 -> kept_weighted P rows ws r2 w2 -> r1 = r2 /\ w1 = w2.
Proof.
  destruct ws as [w|], w1 as [v1|], w2 as [v2|]; cbn [kept_weighted]; try tauto.
  - intros [L1 K1] [L2 K2]. pose proof (kept_det _ _ _ _ K1 K2) as E. destruct (combine_inj _ _ _ _ L1 L2 E) as [-> ->]. auto.
  - intros K1 K2. split; [eapply kept_det; eassumption|reflexivity].
Qed.
Lemma C21_same_l sp os m rows ws : data_space sp -> s_obs sp = Some os -> NoDup (map fst m) -> table_of m os rows ->
  weights_fit rows ws ->
  exists d1 d2 out, data_from_tensor (mkT (length os) rows) sp ws false = Ok d1 /\ data_from_mapping m sp ws false = Ok d2
    /\ shows d1 os out /\ shows d2 os out /\ d_weights d1 = d_weights d2.
Proof.
  intros D Eo Hm Ht Hf.
  destruct (C21_array_l sp os (mkT (length os) rows) ws D Eo) as [d1 [o1 [E1 [S1 K1]]]]; [exact (proj1 Ht)|reflexivity|exact Hf|].
  destruct (C21_mapping_l sp os m rows ws D Eo Hm Ht Hf) as [d2 [o2 [E2 [S2 K2]]]].
  destruct (kw_det _ _ _ _ _ _ _ K1 K2) as [-> E]. exists d1, d2, o2. auto.
Qed.
Lemma C21_idempotent_l sp os t ws d out : data_space sp -> s_obs sp = Some os -> rectangular t -> t_width t = length os ->
  weights_fit (t_rows t) ws -> data_from_tensor t sp ws false = Ok d -> shows d os out ->
  exists d', data_from_tensor (mkT (length os) out) sp (d_weights d) false = Ok d' /\ shows d' os out /\ d_weights d' = d_weights d.
Proof.
  intros D Eo R Hw Hf H Hs. destruct (C21_array_l sp os t ws D Eo R Hw Hf) as [d1 [o1 [E1 [S1 K1]]]].
  rewrite H in E1. inversion E1; subst d1.
  assert (out = o1) by (destruct Hs as [_ [x X]], S1 as [_ [y Y]]; rewrite X in Y; inversion Y; reflexivity). subst o1.
  assert (Hr : rectangular (mkT (length os) out)).
  { intros r Hr. cbn [t_rows t_width] in *. rewrite <- Hw. apply R.
    clear - K1 Hr Hf. destruct ws as [w|], (d_weights d) as [w'|]; cbn [kept_weighted] in K1; try contradiction.
    - destruct K1 as [Hl K]. apply In_nth_error in Hr. destruct Hr as [i Hi].
      destruct (nth_error w' i) as [v|] eqn:Ev; [|apply nth_error_None in Ev; assert (i < length out) by (apply nth_error_Some; congruence); lia].
      assert (Hin : In (r, v) (combine out w')) by (apply combine_In_nth; exists i; split; assumption).
      apply (kept_In _ _ _ K) in Hin. eapply in_combine_l. apply Hin.
    - apply (kept_In _ _ _ K1) in Hr. apply Hr. }
  pose proof (kw_fit _ _ _ _ _ K1) as Hf'.
  destruct (C21_array_l sp os (mkT (length os) out) (d_weights d) D Eo Hr eq_refl Hf') as [d2 [o2 [E2 [S2 K2]]]].
  exists d2. split; [exact E2|]. destruct (kw_all _ _ _ _ _ Hf' (kw_In _ _ _ _ _ Hf K1) K2) as [E3 E4]. cbn [t_rows] in E3. subst o2.
  split; [exact S2|exact E4].
Qed.
Lemma C21_guaranteed_l sp os t ws : data_space sp -> s_obs sp = Some os -> rectangular t -> t_width t = length os ->
  weights_fit (t_rows t) ws ->
  exists d, data_from_tensor t sp ws true = Ok d /\ shows d os (t_rows t) /\ d_weights d = ws.
Proof.
  intros D Eo R Hw Hf. destruct (data_space_sp _ D) as [os' [k S]]. pose proof (sp_obs _ _ _ _ S Eo). subst os'.
  destruct (from_tensor_keep t sp ws os k D S R Hw Hf) as [d [cols [N [E [V [E1 [E2 _]]]]]]].
  exists d. split; [exact E|]. split; [rewrite <- E1; apply (inv_shows _ _ _ _ _ V)|exact E2].
Qed.
Lemma C21_width_l sp os t ws g : data_space sp -> s_obs sp = Some os -> t_width t <> length os ->
  data_from_tensor t sp ws g = Err ShapeIncompatibleError.
Proof.
  intros D Eo H. destruct (data_space_sp _ D) as [os' [k S]]. pose proof (sp_obs _ _ _ _ S Eo). subst os'.
  eapply from_tensor_width; eassumption.
Qed.
Lemma C21_weights_l sp os t w : data_space sp -> s_obs sp = Some os -> rectangular t -> t_width t = length os ->
  length w <> length (t_rows t) -> data_from_tensor t sp (Some w) false = Err ValueError.
Proof.
  intros D Eo R Hw H. destruct (data_space_sp _ D) as [os' [k S]]. pose proof (sp_obs _ _ _ _ S Eo). subst os'.
  unfold data_from_tensor. rewrite (sp_n_obs _ _ _ S), <- Hw.
  assert (Hne : os <> []) by apply S.
  assert (Hz : t_width t <> 0%nat) by (rewrite Hw; destruct os; [congruence|discriminate]).
  destruct (lds_from_tensor_ok t R Hz) as [E [cols [L [Hl Er]]]]. rewrite E. cbn [bind].
  unfold data_init. destruct (sp_autofill _ _ _ S) as [s' [Es' _]]. rewrite Es'. cbn [bind].
  assert (Hcne : cols <> []) by (destruct cols; [simpl in Hl; congruence|discriminate]).
  rewrite (lds_value_none _ _ _ L Hcne). cbn [bind]. unfold check_cut_tensor, check_weights. cbn [t_rows]. rewrite Er.
  destruct (Nat.eqb_spec (length w) (length (t_rows t))); [contradiction|]. reflexivity.
Qed.
Lemma C21_missing_l sp os m ws g o : s_obs sp = Some os -> In o os -> ~ In o (map fst m) ->
  data_from_mapping m sp ws g = Err ValueError.
Proof.
  intros Eo Ho Hm. unfold data_from_mapping. rewrite Eo. destruct (subsetb String.eqb os (map fst m)) eqn:E; [|reflexivity].
  apply (subsetb_incl _ string_eqb_ok) in E. destruct Hm. apply E, Ho.
Qed.

(* ---------- C22 ---------- *)
Lemma C22_value_l d os rows req : data_ok d -> shows d os rows -> NoDup req ->
  (exists o, In o req /\ In o os) ->
  exists d' os' picked, d_value d (Some req) = Ok (d', mkT (length os') picked)
    /\ selects os req os' /\ columns_of os rows os' picked.
Proof.
  intros Hd Hs Hr Hex. destruct (data_ok_inv d Hd) as [os' [k [cols [N V]]]].
  destruct (shows_inv _ _ _ _ _ _ _ V Hs) as [-> ->].
  destruct (value_some _ _ _ _ _ _ V Hr Hex) as [l [E _]].
  eexists _, (sel os' req), _. split; [exact E|]. split; [apply sel_selects|].
  eapply selcols_columns; [exact V|apply sel_incl|apply sel_nodup, Hr].
Qed.
Lemma C22_unknown_l d os rows req : data_ok d -> shows d os rows -> (forall o, In o req -> ~ In o os) ->
  d_value d (Some req) = Err ObsIncompatibleError /\ d_with_obs d (ByNames req) = Err ObsIncompatibleError.
Proof.
  intros Hd Hs Hdis. destruct (data_ok_inv d Hd) as [os' [k [cols [N V]]]].
  destruct (shows_inv _ _ _ _ _ _ _ V Hs) as [-> ->].
  split; [eapply value_disjoint|eapply with_names_disjoint]; eassumption.
Qed.
Lemma sp_limit_iff s os k o iv : sp_ok s os k -> (limit_of s o iv <-> In o os /\ exists f, k = KR f /\ iv = f o).
Proof.
  intros S. destruct k as [f| |].
  - rewrite (wf_limit_of _ _ _ _ _ (sp_rect _ _ _ S)). split.
    + intros [H1 H2]. split; [exact H1|]. exists f. auto.
    + intros [H1 [g [E H2]]]. inversion E; subst. auto.
  - split; [intros H; destruct (sp_limit_of_plain _ _ _ S (or_introl eq_refl) _ _ H)|intros [_ [f [E _]]]; discriminate].
  - split; [intros H; destruct (sp_limit_of_plain _ _ _ S (or_intror eq_refl) _ _ H)|intros [_ [f [E _]]]; discriminate].
Qed.
Lemma C22_with_obs_l d os rows req : data_ok d -> shows d os rows -> NoDup req -> (exists o, In o req /\ In o os) ->
  exists d' os' picked out, d_with_obs d (ByNames req) = Ok d' /\ selects os req os' /\ columns_of os rows os' picked
    /\ shows d' os' out /\ kept_weighted (fun r => in_box os' r (limit_of (d_space d))) picked (d_weights d) out (d_weights d')
    /\ (forall o iv, limit_of (d_space d') o iv <-> In o req /\ limit_of (d_space d) o iv).
Proof.
  intros Hd Hs Hr Hex. destruct (data_ok_inv d Hd) as [os0 [k [cols [N V]]]].
  destruct (shows_inv _ _ _ _ _ _ _ V Hs) as [-> ->].
  destruct (with_names _ _ _ _ _ _ V Hr Hex) as [d' [cols' [N' [E [V' [E1 E2]]]]]].
  exists d', (sel os0 req), (rowsof N (selcols os0 cols (sel os0 req))), (rowsof N' cols').
  split; [exact E|]. split; [apply sel_selects|].
  split; [eapply selcols_columns; [exact V|apply sel_incl|apply sel_nodup, Hr]|].
  split; [apply (inv_shows _ _ _ _ _ V')|].
  pose proof (i_sp _ _ _ _ _ V) as S. pose proof (i_sp _ _ _ _ _ V') as S'.
  assert (L : forall o iv, limit_of (d_space d') o iv <-> In o req /\ limit_of (d_space d) o iv).
  { intros o iv. rewrite (sp_limit_iff _ _ _ o iv S), (sp_limit_iff _ _ _ o iv S'), sel_In. tauto. }
  split; [|exact L].
  rewrite E1, E2.
  assert (Hf : weights_fit (rowsof N (selcols os0 cols (sel os0 req))) (d_weights d)).
  { apply (wfit_rows N); [apply rowsof_length|apply (i_w _ _ _ _ _ V)]. }
  pose proof (kw _ _ _ _ _ S' Hf) as K.
  assert (X : forall r, in_box (sel os0 req) r (limit_of (d_space d')) <-> in_box (sel os0 req) r (limit_of (d_space d))).
  { intros r. unfold in_box. split; intros H o v iv Hc Hl.
    - apply (H o v iv Hc). apply L. split; [|exact Hl]. destruct Hc as [j [Hj _]]. apply nth_error_In in Hj. apply sel_In in Hj. apply Hj.
    - apply L in Hl. apply (H o v iv Hc). apply Hl. }
  destruct (d_weights d) as [w|]; cbn [kept_weighted cutw option_map] in *.
  - split; [apply K|]. eapply kept_ext; [|apply K]. intros p _. apply X.
  - eapply kept_ext; [|exact K]. intros p _. apply X.
Qed.
Lemma C22_with_space_l d os rows sp os' : data_ok d -> shows d os rows -> data_space sp -> s_obs sp = Some os' -> incl os' os ->
  exists d' picked out, d_with_obs d (BySpace sp) = Ok d' /\ columns_of os rows os' picked
    /\ shows d' os' out /\ kept_weighted (fun r => in_box os' r (limit_of sp)) picked (d_weights d) out (d_weights d').
Proof.
  intros Hd Hs D Eo Hi. destruct (data_ok_inv d Hd) as [os0 [k [cols [N V]]]].
  destruct (shows_inv _ _ _ _ _ _ _ V Hs) as [-> ->].
  destruct (data_space_sp _ D) as [os1 [k' S']]. pose proof (sp_obs _ _ _ _ S' Eo). subst os1.
  destruct (with_space _ _ _ _ _ _ _ _ V D S' Hi) as [d' [cols' [N' [E [V' [E1 E2]]]]]].
  exists d', (rowsof N (selcols os0 cols os')), (rowsof N' cols'). split; [exact E|].
  split; [eapply selcols_columns; [exact V|exact Hi|apply S']|].
  split; [apply (inv_shows _ _ _ _ _ V')|]. rewrite E1, E2. apply kw; [exact S'|].
  apply (wfit_rows N); [apply rowsof_length|apply (i_w _ _ _ _ _ V)].
Qed.

(** Nothing is lost if all rows are inside the limits *)
Lemma columns_box os rows os' picked lim : columns_of os rows os' picked -> incl os' os ->
  (forall r, In r rows -> in_box os r lim) -> forall r, In r picked -> in_box os' r lim.
Proof.
  intros F Hi H. induction F as [|r r' rows picked [Hl Hsame] F IH]; intros x Hx; [destruct Hx|].
  destruct Hx as [<-|Hx]; [|apply IH; [intros y Hy; apply H; right; exact Hy|exact Hx]].
  intros o v iv Hc Hl'. apply (H r (or_introl eq_refl) o v iv); [|exact Hl'].
  apply (Hsame o v); [|exact Hc]. destruct Hc as [j [Hj _]]. eapply nth_error_In, Hj.
Qed.
Lemma columns_length os rows os' picked : columns_of os rows os' picked -> length picked = length rows.
Proof. induction 1; simpl; congruence. Qed.
Lemma selects_incl os req os' : selects os req os' -> incl os' os.
Proof.
  induction 1 as [|o req s Ho H IH|o req s Ho H IH]; [intros x []| |exact IH].
  intros x [<-|Hx]; [exact Ho|apply IH, Hx].
Qed.
Lemma data_ok_fit d os rows : data_ok d -> shows d os rows -> weights_fit rows (d_weights d).
Proof.
  intros Hd Hs. destruct (data_ok_inv d Hd) as [os0 [k [cols [N V]]]].
  destruct (shows_inv _ _ _ _ _ _ _ V Hs) as [-> ->]. apply (inv_wfit _ _ _ _ _ V).
Qed.
Lemma C22_keeps_l d os rows req : data_ok d -> shows d os rows -> inside_all d os rows -> NoDup req ->
  (exists o, In o req /\ In o os) ->
  exists d' os' out, d_with_obs d (ByNames req) = Ok d' /\ selects os req os' /\ shows d' os' out /\ columns_of os rows os' out
    /\ d_weights d' = d_weights d /\ inside_all d' os' out.
Proof.
  intros Hd Hs Hin Hr Hex. destruct (C22_with_obs_l d os rows req Hd Hs Hr Hex) as [d' [os' [pk [out [E [Hsel [Hc [Hsh [K L]]]]]]]]].
  pose proof (data_ok_fit _ _ _ Hd Hs) as Hf.
  assert (Hf' : weights_fit pk (d_weights d)).
  { unfold weights_fit in *. rewrite (columns_length _ _ _ _ Hc). exact Hf. }
  pose proof (columns_box _ _ _ _ _ Hc (selects_incl _ _ _ Hsel) Hin) as Hb.
  destruct (kw_all _ _ _ _ _ Hf' Hb K) as [-> Ew].
  exists d', os', pk. split; [exact E|]. split; [exact Hsel|]. split; [exact Hsh|]. split; [exact Hc|]. split; [exact Ew|].
  intros r Hr' o v iv Hcol Hl. apply L in Hl. apply (Hb r Hr' o v iv Hcol), Hl.
Qed.
Lemma columns_trans os rows os1 r1 os2 r2 r3 : columns_of os rows os1 r1 -> columns_of os1 r1 os2 r2 -> columns_of os rows os2 r3 ->
  incl os2 os1 -> NoDup os2 -> r2 = r3.
Proof.
  intros F. revert r2 r3. induction F as [|x y rows r1 [L1 S1] F IH]; intros r2 r3 G H Hi Hnd.
  - inversion G; subst. inversion H; subst. reflexivity.
  - inversion G as [|? y2 ? r2' [L2 S2] G']; subst. inversion H as [|? y3 ? r3' [L3 S3] H']; subst.
    f_equal; [|eapply IH; eassumption]. eapply column_ext; [exact Hnd|exact L2|exact L3|].
    intros o v. split; intros Hc.
    + assert (Ho : In o os2) by (destruct Hc as [j [Hj _]]; eapply nth_error_In, Hj).
      apply (S3 o v Ho), (S1 o v (Hi o Ho)), (S2 o v Ho), Hc.
    + assert (Ho : In o os2) by (destruct Hc as [j [Hj _]]; eapply nth_error_In, Hj).
      apply (S2 o v Ho), (S1 o v (Hi o Ho)), (S3 o v Ho), Hc.
Qed.

Lemma selects_In os req os' : selects os req os' -> forall o, In o os' <-> In o req /\ In o os.
Proof.
  induction 1 as [|o req s Ho H IH|o req s Ho H IH]; intros x; simpl; [tauto| |]; rewrite IH.
  - split; [intros [<-|H']; tauto|intros [[<-|H'] H2]; tauto].
  - split; [tauto|]. intros [[<-|H'] H2]; [contradiction|tauto].
Qed.
Lemma selects_nodup os req os' : selects os req os' -> NoDup req -> NoDup os'.
Proof.
  induction 1 as [|o req s Ho H IH|o req s Ho H IH]; intros Hnd; [constructor| |]; inversion Hnd; subst; [|auto].
  constructor; [|auto]. intros C. apply (selects_In _ _ _ H) in C. tauto.
Qed.
Lemma selects_det os req a b : selects os req a -> selects os req b -> a = b.
Proof.
  intros H. revert b. induction H as [|o req s Ho H IH|o req s Ho H IH]; intros b Hb; inversion Hb; subst; try contradiction; auto.
  f_equal. auto.
Qed.
Lemma selects_own os os' req a b : (forall o, In o req -> (In o os <-> In o os')) -> selects os req a -> selects os' req b -> a = b.
Proof.
  intros He H. revert b. induction H as [|o req s Ho H IH|o req s Ho H IH]; intros b Hb; inversion Hb; subst.
  - reflexivity.
  - f_equal. apply IH; [intros x Hx; apply He; right; exact Hx|assumption].
  - destruct (He o (or_introl eq_refl)); tauto.
  - destruct (He o (or_introl eq_refl)); tauto.
  - apply IH; [intros x Hx; apply He; right; exact Hx|assumption].
Qed.

Lemma data_ok_with_obs d req d' : data_ok d -> NoDup req -> d_with_obs d (ByNames req) = Ok d' -> data_ok d'.
Proof. intros. eapply do_with_obs; eassumption. Qed.
Lemma shows_det d os rows os' rows' : shows d os rows -> shows d os' rows' -> os = os' /\ rows = rows'.
Proof. intros [E [x X]] [E' [y Y]]. rewrite E in E'. inversion E'; subst. rewrite X in Y. inversion Y. auto. Qed.

Lemma C22_compose_l d os rows p q d1 : data_ok d -> shows d os rows -> inside_all d os rows -> NoDup p -> NoDup q ->
  d_with_obs d (ByNames p) = Ok d1 -> (forall o, In o q -> In o os -> In o p) -> (exists o, In o q /\ In o os) ->
  exists d2 d3 os' out, d_with_obs d1 (ByNames q) = Ok d2 /\ d_with_obs d (ByNames q) = Ok d3
    /\ shows d2 os' out /\ shows d3 os' out /\ d_weights d2 = d_weights d /\ d_weights d3 = d_weights d.
Proof.
  intros Hd Hs Hin Hp Hq E1 Hsub Hex.
  destruct (C22_keeps_l d os rows p Hd Hs Hin Hp) as [d1' [os1 [r1 [E1' [Sel1 [S1 [C1 [W1 In1]]]]]]]].
  { destruct Hex as [o [H1 H2]]. exists o. split; [apply Hsub; assumption|exact H2]. }
  rewrite E1 in E1'. inversion E1'; subst d1'.
  pose proof (data_ok_with_obs _ _ _ Hd Hp E1) as Hd1.
  destruct (C22_keeps_l d1 os1 r1 q Hd1 S1 In1 Hq) as [d2 [os2 [r2 [E2 [Sel2 [S2 [C2 [W2 In2]]]]]]]].
  { destruct Hex as [o [H1 H2]]. exists o. split; [exact H1|]. apply (selects_In _ _ _ Sel1). split; [apply Hsub; assumption|exact H2]. }
  destruct (C22_keeps_l d os rows q Hd Hs Hin Hq Hex) as [d3 [os3 [r3 [E3 [Sel3 [S3 [C3 [W3 In3]]]]]]]].
  assert (os2 = os3).
  { eapply selects_own; [|exact Sel2|exact Sel3]. intros o Ho. rewrite (selects_In _ _ _ Sel1). split; [tauto|].
    intros H. split; [apply Hsub; assumption|exact H]. }
  subst os3. assert (r2 = r3).
  { eapply columns_trans; [exact C1|exact C2|exact C3| |eapply selects_nodup; [exact Sel3|exact Hq]].
    intros o Ho. apply (selects_In _ _ _ Sel2) in Ho. apply Ho. }
  subst r3. exists d2, d3, os2, r2. split; [exact E2|]. split; [exact E3|]. split; [exact S2|]. split; [exact S3|]. split; congruence.
Qed.
Lemma shows_nodup d os rows : data_ok d -> shows d os rows -> NoDup os /\ os <> [] /\ forall r, In r rows -> length r = length os.
Proof.
  intros Hd Hs. destruct (data_ok_inv d Hd) as [os0 [k [cols [N V]]]].
  destruct (shows_inv _ _ _ _ _ _ _ V Hs) as [-> ->]. pose proof (i_sp _ _ _ _ _ V) as S.
  split; [apply S|]. split; [apply S|]. intros r Hr. rewrite (rowsof_width _ _ _ Hr). apply (i_len _ _ _ _ _ V).
Qed.
Lemma selects_same os : selects os os os.
Proof. 
  assert (G : forall l, incl l os -> selects os l l).
  { induction l as [|o l IH]; intros H; [constructor|]. apply sel_keep; [apply H; left; reflexivity|apply IH; intros x Hx; apply H; right; exact Hx]. }
  apply G, incl_refl.
Qed.
Lemma C22_undo_l d os rows p d1 : data_ok d -> shows d os rows -> inside_all d os rows -> NoDup p ->
  (forall o, In o p <-> In o os) -> d_with_obs d (ByNames p) = Ok d1 ->
  (exists moved, shows d1 p moved /\ columns_of os rows p moved)
  /\ exists d2, d_with_obs d1 (ByNames os) = Ok d2 /\ shows d2 os rows /\ d_weights d2 = d_weights d.
Proof.
  intros Hd Hs Hin Hp Hperm E1. destruct (shows_nodup _ _ _ Hd Hs) as [Hnd [Hne Hw]].
  assert (Hex : exists o, In o os /\ In o os) by (destruct os as [|o os]; [congruence|]; exists o; split; left; reflexivity).
  destruct (C22_compose_l d os rows p os d1 Hd Hs Hin Hp Hnd E1) as [d2 [d3 [os' [out [E2 [E3 [S2 [S3 [W2 W3]]]]]]]]].
  - intros o _ Ho. apply Hperm, Ho.
  - exact Hex.
  - destruct (C22_keeps_l d os rows os Hd Hs Hin Hnd Hex) as [d3' [os3 [r3 [E3' [Sel3 [S3' [C3 [_ _]]]]]]]].
    rewrite E3 in E3'. inversion E3'; subst d3'. destruct (shows_det _ _ _ _ _ S3 S3') as [-> ->].
    pose proof (selects_det _ _ _ _ Sel3 (selects_same os)). subst os3.
    assert (r3 = rows).
    { clear - C3 Hw Hnd. induction C3 as [|x y rows r3 [L S] F IH]; [reflexivity|]. f_equal.
      - eapply column_ext; [exact Hnd|exact L|apply Hw; left; reflexivity|]. intros o v. split; intros Hc.
        + apply (S o v); [destruct Hc as [j [Hj _]]; eapply nth_error_In, Hj|exact Hc].
        + apply (S o v); [destruct Hc as [j [Hj _]]; eapply nth_error_In, Hj|exact Hc].
      - apply IH. intros r Hr. apply Hw. right. exact Hr. }
    subst r3. split; [|exists d2; auto].
    destruct (C22_keeps_l d os rows p Hd Hs Hin Hp) as [d1' [os1 [r1 [E1' [Sel1 [S1 [C1 _]]]]]]].
    { destruct Hex as [o [H1 _]]. exists o. split; [apply Hperm, H1|exact H1]. }
    rewrite E1 in E1'. inversion E1'; subst d1'.
    assert (os1 = p).
    { eapply selects_own; [|exact Sel1|apply selects_same]. intros o Ho. split; [intros _; exact Ho|intros _; apply Hperm, Ho]. }
    subst os1. exists r1. split; [exact S1|exact C1].
Qed.

(** Reads *)
Lemma value_any d os k cols N q d1 t : inv d os k cols N -> match q with Some req => NoDup req | None => True end ->
  d_value d q = Ok (d1, t) -> inv d1 os k cols N /\ d_weights d1 = d_weights d /\ d_space d1 = d_space d
    /\ forall d', inv d' os k cols N -> exists d2, d_value d' q = Ok (d2, t).
Proof.
  intros V Hq H. destruct q as [req|].
  - destruct (req_ok_dec os req true true) as [Hok|Hok].
    + destruct (value_some _ _ _ _ _ _ V Hq (proj1 Hok)) as [l [E L]]. rewrite E in H. inversion H; subst.
      split; [eapply inv_set; eassumption|]. split; [reflexivity|]. split; [reflexivity|]. intros d' V'.
      destruct (value_some _ _ _ _ _ _ V' Hq (proj1 Hok)) as [l' [E' _]]. eexists. exact E'.
    + pose proof (i_sp _ _ _ _ _ V) as S. unfold d_value in H. rewrite (sp_with_obs_err _ _ _ _ _ _ S Hok) in H. discriminate.
  - destruct (value_none _ _ _ _ _ V) as [l [E L]]. rewrite E in H. inversion H; subst.
    split; [eapply inv_set; eassumption|]. split; [reflexivity|]. split; [reflexivity|]. intros d' V'.
    destruct (value_none _ _ _ _ _ V') as [l' [E' _]]. eexists. exact E'.
Qed.
Definition good_read (q : option (list string)) : Prop := match q with Some req => NoDup req | None => True end.
Lemma reads_inv d qs ts d' : reads d qs ts d' -> Forall good_read qs -> forall os k cols N, inv d os k cols N ->
  inv d' os k cols N /\ d_weights d' = d_weights d /\ d_space d' = d_space d
  /\ Forall2 (fun q t => forall d0, inv d0 os k cols N -> exists x, d_value d0 q = Ok (x, t)) qs ts.
Proof.
  induction 1 as [d|d q t d1 qs ts d2 E H IH]; intros Hq os k cols N V; [split; [exact V|]; repeat split; constructor|].
  inversion Hq; subst. destruct (value_any _ _ _ _ _ _ _ _ V H2 E) as [V1 [W1 [P1 A1]]].
  destruct (IH H3 _ _ _ _ V1) as [V2 [W2 [P2 A2]]]. split; [exact V2|]. split; [congruence|]. split; [congruence|].
  constructor; assumption.
Qed.
Lemma C22_reads_l d qs ts d' : data_ok d -> reads d qs ts d' ->
  Forall (fun q => match q with Some req => NoDup req | None => True end) qs ->
  Forall2 (fun q t => exists x, d_value d q = Ok (x, t)) qs ts
  /\ (forall q t, match q with Some req => NoDup req | None => True end ->
        ((exists x, d_value d' q = Ok (x, t)) <-> (exists x, d_value d q = Ok (x, t))))
  /\ d_weights d' = d_weights d /\ s_obs (d_space d') = s_obs (d_space d).
Proof.
  intros Hd Hr Hq. destruct (data_ok_inv d Hd) as [os [k [cols [N V]]]].
  destruct (reads_inv _ _ _ _ Hr Hq _ _ _ _ V) as [V' [W [P A]]].
  split; [|split; [|split; [exact W|congruence]]].
  - clear - A V. induction A as [|q t qs ts H A IH]; constructor; [apply H, V|exact IH].
  - intros q t Hg. split; intros [x X].
    + destruct (value_any _ _ _ _ _ _ _ _ V' Hg X) as [_ [_ [_ Z]]]. apply Z, V.
    + destruct (value_any _ _ _ _ _ _ _ _ V Hg X) as [_ [_ [_ Z]]]. apply Z, V'.
Qed.

(* ---------- C23 ---------- *)
Lemma chain_of_ok ds : (forall d, In d ds -> data_ok d) -> exists oss ks colss Ns, chain ds oss ks colss Ns.
Proof. intros H. apply chain_of. intros d Hd. apply data_ok_inv, H, Hd. Qed.
Lemma parts_rel obs ds oss ks colss Ns : chain ds oss ks colss Ns -> NoDup obs ->
  (forall os, In os oss -> forall o, In o obs <-> In o os) ->
  Forall2 (fun d part => exists os rows, shows d os rows /\ columns_of os rows obs part) ds (parts_of obs oss colss Ns).
Proof.
  intros C Hnd. induction C as [|d ds os oss k ks cols colss N Ns V C IH]; intros Ho; [constructor|].
  unfold parts_of. cbn [combine map fst snd]. constructor.
  - exists os, (rowsof N cols). split; [apply (inv_shows _ _ _ _ _ V)|].
    eapply selcols_columns; [exact V| |exact Hnd]. intros o Hi. apply (Ho os (or_introl eq_refl)), Hi.
  - apply IH. intros x Hx. apply Ho. right. exact Hx.
Qed.
Lemma weights_rel obs ds oss ks colss Ns : chain ds oss ks colss Ns ->
  Forall2 (fun p ws => match d_weights (fst p) with Some w => ws = w | None => ws = repeat 1%Q (length (snd p)) end)
    (combine ds (parts_of obs oss colss Ns)) (map (fun p => ones_or (fst p) (snd p)) (combine ds Ns)).
Proof.
  induction 1 as [|d ds os oss k ks cols colss N Ns V C IH]; [constructor|]. unfold parts_of. cbn [combine map fst snd].
  constructor; [|exact IH]. unfold ones_or. cbn [fst snd]. destruct (d_weights d); [reflexivity|]. rewrite rowsof_length. reflexivity.
Qed.
Lemma oss_sets ds oss ks colss Ns obs : chain ds oss ks colss Ns ->
  (forall d os, In d ds -> s_obs (d_space d) = Some os -> forall o, In o obs <-> In o os) ->
  forall os, In os oss -> forall o, In o obs <-> In o os.
Proof.
  intros C. induction C as [|d ds os oss k ks cols colss N Ns V C IH]; intros H x Hx; [destruct Hx|].
  destruct Hx as [<-|Hx]; [apply (H d); [left; reflexivity|apply (i_sp _ _ _ _ _ V)]|].
  apply IH; [intros d' os' Hd; apply H; right; exact Hd|exact Hx].
Qed.
Lemma concat_index_final ds o sp obs : (forall d, In d ds -> data_ok d) -> ds <> [] -> data_space sp -> s_obs sp = Some obs ->
  match o with
  | NoObs => match ds with d0 :: _ => Ok (d_space d0) | [] => Err ValueError end
  | Names l => match ds with d0 :: _ => s_with_obs (d_space d0) (Some l) true true | [] => Err ValueError end
  | InSpace s => Ok s
  end = Ok sp ->
  (forall d os, In d ds -> s_obs (d_space d) = Some os -> forall o, In o obs <-> In o os) ->
  exists d' parts, concat_index ds o = Ok d'
    /\ Forall2 (fun d part => exists os rows, shows d os rows /\ columns_of os rows obs part) ds parts
    /\ shows d' obs (concat parts)
    /\ match d_weights d' with
       | None => forall d, In d ds -> d_weights d = None
       | Some w' => (exists d, In d ds /\ d_weights d <> None) /\ exists wss, w' = concat wss
           /\ Forall2 (fun p ws => match d_weights (fst p) with Some w => ws = w | None => ws = repeat 1%Q (length (snd p)) end)
                (combine ds parts) wss
       end.
Proof.
  intros Hd Hne D Eo Hsp Hset. destruct (chain_of_ok ds Hd) as [oss [ks [colss [Ns C]]]].
  destruct (data_space_sp _ D) as [os' [k S]]. pose proof (sp_obs _ _ _ _ S Eo). subst os'.
  pose proof (oss_sets _ _ _ _ _ obs C Hset) as Hos.
  destruct (concat_index_ok _ _ _ _ _ _ _ _ _ C Hne Hsp D S Hos) as [d' [cols [N [E [V [E1 [E2 _]]]]]]].
  exists d', (parts_of obs oss colss Ns). split; [exact E|].
  split; [eapply parts_rel; [exact C|apply S|exact Hos]|].
  split; [rewrite <- E1; apply (inv_shows _ _ _ _ _ V)|]. rewrite E2.
  destruct (existsb d_has_weights ds) eqn:Ex.
  - split.
    + apply existsb_exists in Ex. destruct Ex as [d [H1 H2]]. exists d. split; [exact H1|]. unfold d_has_weights in H2.
      destruct (d_weights d); discriminate.
    + exists (map (fun p => ones_or (fst p) (snd p)) (combine ds Ns)). split; [reflexivity|]. eapply weights_rel, C.
  - intros d H1. destruct (d_weights d) eqn:Ed; [|reflexivity].
    assert (X : existsb d_has_weights ds = true) by (apply existsb_exists; exists d; split; [exact H1|unfold d_has_weights; rewrite Ed; reflexivity]).
    congruence.
Qed.
Lemma concat_index_raises ds o sp d os : (forall d, In d ds -> data_ok d) -> 
  match o with
  | NoObs => match ds with d0 :: _ => Ok (d_space d0) | [] => Err ValueError end
  | Names l => match ds with d0 :: _ => s_with_obs (d_space d0) (Some l) true true | [] => Err ValueError end
  | InSpace s => Ok s
  end = Ok sp -> In d ds -> s_obs (d_space d) = Some os ->
  ~ (forall x, In x (obs_list sp) <-> In x os) -> concat_index ds o = Err ValueError.
Proof.
  intros Hd Hsp Hin Eo Hx. destruct (chain_of_ok ds Hd) as [oss [ks [colss [Ns C]]]].
  assert (Hne : ds <> []) by (intros ->; destruct Hin).
  eapply concat_index_mismatch; [exact C|exact Hne|exact Hsp|]. intros H. apply Hx.
  pose proof (chain_obs _ _ _ _ _ C) as Em. apply H. rewrite <- Em. apply in_map_iff. exists d. split; [|exact Hin].
  unfold d_obs. rewrite Eo. reflexivity.
Qed.

(** the sample size *)
Lemma qsum_app a b : (qsum (a ++ b) == qsum a + qsum b)%Q.
Proof. induction a as [|x a IH]; simpl; [ring|]. rewrite IH. ring. Qed.
Lemma qsum_ones n : (qsum (repeat 1%Q n) == inject_Z (Z.of_nat n))%Q.
Proof.
  induction n as [|n IH]; [reflexivity|]. cbn [repeat]. change (qsum (1%Q :: repeat 1%Q n)) with (1 + qsum (repeat 1%Q n))%Q.
  rewrite IH, Nat2Z.inj_succ. unfold Z.succ. rewrite inject_Z_plus. ring.
Qed.
Lemma samplesize_ones d os k cols N : inv d os k cols N -> (d_samplesize d == qsum (ones_or d N))%Q.
Proof.
  intros V. unfold d_samplesize, ones_or. destruct (d_weights d); [reflexivity|]. rewrite qsum_ones. unfold d_num.
  assert (Hne : os <> []) by apply (i_sp _ _ _ _ _ V).
  rewrite (lds_ok_num _ _ _ (i_set _ _ _ _ _ V) (cols_ne _ _ Hne (i_len _ _ _ _ _ V))). reflexivity.
Qed.
Lemma sum_sizes ds oss ks colss Ns : chain ds oss ks colss Ns ->
  (qsum (concat (map (fun p => ones_or (fst p) (snd p)) (combine ds Ns))) == qsum (map d_samplesize ds))%Q.
Proof.
  induction 1 as [|d ds os oss k ks cols colss N Ns V C IH]; [reflexivity|]. cbn [combine map concat fst snd].
  rewrite qsum_app, IH. change (qsum (d_samplesize d :: map d_samplesize ds)) with (d_samplesize d + qsum (map d_samplesize ds))%Q.
  rewrite (samplesize_ones _ _ _ _ _ V). reflexivity.
Qed.
Lemma ones_concat ds oss ks colss Ns obs : chain ds oss ks colss Ns -> (forall d, In d ds -> d_weights d = None) ->
  concat (map (fun p => ones_or (fst p) (snd p)) (combine ds Ns)) = repeat 1%Q (length (concat (parts_of obs oss colss Ns))).
Proof.
  induction 1 as [|d ds os oss k ks cols colss N Ns V C IH]; intros H; [reflexivity|]. unfold parts_of. cbn [combine map concat fst snd].
  rewrite app_length, rowsof_length, repeat_app. unfold parts_of in IH. rewrite IH by (intros x Hx; apply H; right; exact Hx).
  f_equal. unfold ones_or. rewrite (H d (or_introl eq_refl)). reflexivity.
Qed.
Lemma concat_index_size ds o d' : (forall d, In d ds -> data_ok d) ->
  match o with NoObs => True | Names l => NoDup l | InSpace s => data_space s end ->
  concat_index ds o = Ok d' -> (d_samplesize d' == qsum (map d_samplesize ds))%Q.
Proof.
  intros Hd Ho H. destruct (chain_of_ok ds Hd) as [oss [ks [colss [Ns C]]]].
  assert (Hne : ds <> []) by (intros ->; discriminate).
  set (spr := match o with
  | NoObs => match ds with d0 :: _ => Ok (d_space d0) | [] => Err ValueError end
  | Names l => match ds with d0 :: _ => s_with_obs (d_space d0) (Some l) true true | [] => Err ValueError end
  | InSpace s => Ok s
  end).
  destruct spr as [sp|e] eqn:Esp.
  - unfold spr in Esp. pose proof (concat_index_space _ _ _ _ _ _ _ C Hne Ho Esp) as D.
    destruct (data_space_sp _ D) as [obs [k0 S]].
    destruct (forallb (fun d => set_eq_names obs (d_obs d)) ds) eqn:E.
    + destruct (concat_index_ok _ _ _ _ _ _ _ _ _ C Hne Esp D S (proj1 (forallb_sets _ _ _ _ _ _ C) E)) as [d [cols [N [E1 [V [E2 [E3 _]]]]]]].
      rewrite E1 in H. inversion H; subst d'. rewrite (samplesize_ones _ _ _ _ _ V), <- (sum_sizes _ _ _ _ _ C).
      unfold ones_or at 1. rewrite E3. destruct (existsb d_has_weights ds) eqn:Ex; [reflexivity|].
      rewrite (ones_concat _ _ _ _ _ obs C).
      * rewrite <- E2, rowsof_length. reflexivity.
      * intros x Hx. destruct (d_weights x) eqn:Ed; [|reflexivity].
        assert (X : existsb d_has_weights ds = true) by (apply existsb_exists; exists x; split; [exact Hx|unfold d_has_weights; rewrite Ed; reflexivity]).
        congruence.
    + rewrite (concat_index_mismatch _ _ _ _ _ _ _ C Hne Esp) in H; [discriminate|].
      unfold obs_list. rewrite (proj1 S). intros X. apply (forallb_sets _ _ _ _ _ _ C) in X. congruence.
  - exfalso. unfold concat_index in H. destruct ds as [|d0 ds0]; [congruence|]. unfold spr in Esp. destruct o as [|l|s]; try discriminate.
    rewrite Esp in H. discriminate.
Qed.

(** side by side *)
Lemma rowsof_side n colss : side_by_side (map (rowsof n) colss) (rowsof n (concat colss)).
Proof.
  split; [intros t Ht; apply in_map_iff in Ht; destruct Ht as [c [<- _]]; rewrite !rowsof_length; reflexivity|].
  intros k r Hr. assert (Hk : k < n) by (rewrite <- (rowsof_length n (concat colss)); apply nth_error_Some; congruence).
  rewrite rowsof_nth in Hr by exact Hk. inversion Hr; subst r. clear Hr.
  exists (map (fun cols => map (fun c => nth k c 0%Q) cols) colss). split.
  - induction colss as [|c colss IH]; [constructor|]. cbn [map]. constructor; [apply rowsof_nth, Hk|exact IH].
  - rewrite concat_map. reflexivity.
Qed.
Lemma prod_at wss n k v : wss <> [] -> (forall w, In w wss -> length w = n) -> nth_error (prod_weights wss) k = Some v ->
  exists vs, Forall2 (fun w u => nth_error w k = Some u) wss vs /\ (v == product vs)%Q.
Proof.
  revert v. induction wss as [|w wss IH]; intros v Hne Hl H; [congruence|]. destruct wss as [|w' wss].
  - exists [v]. split; [constructor; [exact H|constructor]|]. unfold product. simpl. ring.
  - change (prod_weights (w :: w' :: wss)) with (map (fun p => (fst p * snd p)%Q) (combine w (prod_weights (w' :: wss)))) in H.
    rewrite nth_error_map in H. destruct (nth_error (combine w (prod_weights (w' :: wss))) k) as [[a b]|] eqn:E; [|discriminate].
    simpl in H. injection H as <-.
    assert (Hab : nth_error w k = Some a /\ nth_error (prod_weights (w' :: wss)) k = Some b).
    { clear - E. revert k E. generalize (prod_weights (w' :: wss)) as y. induction w as [|x w IHw]; intros [|z y] [|k] E; simpl in E; try discriminate.
      - inversion E; subst. split; reflexivity.
      - apply IHw in E. exact E. }
    destruct Hab as [Ha Hb]. destruct (IH b) as [vs [F Hv]]; [discriminate|intros x Hx; apply Hl; right; exact Hx|exact Hb|].
    exists (a :: vs). split; [constructor; assumption|]. unfold product in *. simpl. rewrite Hv. reflexivity.
Qed.
Lemma weights_at ds k vs : Forall2 (fun w u => nth_error w k = Some u) (weights_list ds) vs ->
  exists us, Forall2 (fun d u => weight_at d k u) ds us /\ (product us == product vs)%Q.
Proof.
  revert vs. induction ds as [|d ds IH]; intros vs F.
  - inversion F; subst. exists []. split; [constructor|reflexivity].
  - unfold weights_list in F. cbn [map concat] in F. destruct (d_weights d) as [w|] eqn:E.
    + inversion F as [|? u ? vs' Hu F']; subst. destruct (IH vs' F') as [us [G Hp]]. exists (u :: us).
      split; [constructor; [unfold weight_at; rewrite E; exact Hu|exact G]|]. unfold product in *. simpl. rewrite Hp. reflexivity.
    + destruct (IH vs F) as [us [G Hp]]. exists (1%Q :: us).
      split; [constructor; [unfold weight_at; rewrite E; reflexivity|exact G]|]. unfold product in *. simpl. rewrite Hp. ring.
Qed.
Lemma tables_chain ds oss ks colss Ns tables n : chain ds oss ks colss Ns ->
  Forall2 (fun d t => exists os, shows d os t) ds tables -> (forall t, In t tables -> length t = n) ->
  tables = map (rowsof n) colss /\ forall m, In m Ns -> m = n.
Proof.
  intros C. revert tables. induction C as [|d ds os oss k ks cols colss N Ns V C IH]; intros tables F Hn.
  - inversion F; subst. split; [reflexivity|intros m []].
  - inversion F as [|? t ? ts [os' Ht] F']; subst. destruct (shows_inv _ _ _ _ _ _ _ V Ht) as [-> ->].
    destruct (IH ts F') as [-> HN]; [intros x Hx; apply Hn; right; exact Hx|].
    pose proof (Hn _ (or_introl eq_refl)) as E. rewrite rowsof_length in E. subst N. split; [reflexivity|].
    intros m [<-|Hm]; [reflexivity|apply HN, Hm].
Qed.
Lemma sp_kind s os k : sp_ok s os k -> (s_has_limits s = true -> is_KR k) /\ (s_limits_are_set s = false -> k = KN).
Proof.
  intros S. rewrite (sp_has_limits _ _ _ S), (proj2 (sp_flags _ _ _ S)). destruct k; simpl; split; try tauto; discriminate.
Qed.
Lemma chain_kinds ds oss ks colss Ns : chain ds oss ks colss Ns ->
  ((forall d, In d ds -> s_has_limits (d_space d) = true) -> forall k, In k ks -> is_KR k)
  /\ ((forall d, In d ds -> s_limits_are_set (d_space d) = false) -> forall k, In k ks -> k = KN).
Proof.
  induction 1 as [|d ds os oss k ks cols colss N Ns V C [IH1 IH2]]; [split; intros _ k []|].
  pose proof (sp_kind _ _ _ (i_sp _ _ _ _ _ V)) as [K1 K2]. split; intros H x [<-|Hx].
  - apply K1, H. left. reflexivity.
  - apply IH1; [intros y Hy; apply H; right; exact Hy|exact Hx].
  - apply K2, H. left. reflexivity.
  - apply IH2; [intros y Hy; apply H; right; exact Hy|exact Hx].
Qed.

Lemma concat_obs_final ds tables n : (forall d, In d ds -> data_ok d) -> ds <> [] -> compatible_limits ds ->
  NoDup (concat (map d_obs ds)) -> Forall2 (fun d t => exists os, shows d os t) ds tables ->
  (forall t, In t tables -> length t = n) -> (exists d, In d ds /\ is_map d = false) ->
  exists d' rows, concat_obs ds None = Ok d' /\ data_ok d' /\ shows d' (concat (map d_obs ds)) rows /\ side_by_side tables rows /\ length rows = n
    /\ match d_weights d' with
       | None => forall d, In d ds -> d_weights d = None
       | Some w => length w = n /\ (exists d, In d ds /\ d_weights d <> None)
           /\ forall k v, nth_error w k = Some v -> exists vs, Forall2 (fun d u => weight_at d k u) ds vs /\ (v == product vs)%Q
       end
    /\ (forall o iv, limit_of (d_space d') o iv <-> exists d, In d ds /\ limit_of (d_space d) o iv)
    /\ (forall sp, (forall o, In o (obs_list sp) <-> In o (concat (map d_obs ds))) -> concat_obs ds (Some sp) = d_with_obs d' (BySpace sp)).
Proof.
  intros Hd Hne Hlim Hnd F Hn [dm [Hdm Hmap]]. destruct (chain_of_ok ds Hd) as [oss [ks [colss [Ns C]]]].
  pose proof (chain_obs _ _ _ _ _ C) as Eo. rewrite Eo in *. clear Eo.
  destruct ds as [|d0 ds]; [congruence|]. inversion C as [|? ? os0 oss0 k0 ks0 cols0 colss0 N0 Ns0 V C']; subst.
  destruct (tables_chain _ _ _ _ _ _ _ C F Hn) as [-> HN].
  assert (N0 = n) by (apply HN; left; reflexivity). subst N0.
  assert (HN0 : forall m, In m Ns0 -> m = n) by (intros m Hm; apply HN; right; exact Hm).
  assert (Em : forallb is_map (d0 :: ds) = false).
  { destruct (forallb is_map (d0 :: ds)) eqn:X; [|reflexivity]. rewrite (proj1 (forallb_forall _ _) X _ Hdm) in Hmap. discriminate. }
  pose proof (i_ds _ _ _ _ _ V) as D0. pose proof (i_sp _ _ _ _ _ V) as S0.
  destruct (chain_kinds _ _ _ _ _ C) as [HK1 HK2].
  assert (HM : exists sp k, mul_spaces (d_space d0) (map d_space ds) = Ok sp /\ data_space sp /\ sp_ok sp (os0 ++ concat oss0) k
     /\ forall o iv, limit_of sp o iv <-> exists d, In d (d0 :: ds) /\ limit_of (d_space d) o iv).
  { destruct Hlim as [Hl|Hl].
    - pose proof (HK1 Hl) as K. pose proof (K k0 (or_introl eq_refl)) as K0. destruct k0 as [f0| |]; try destruct K0.
      destruct (mul_KR _ _ _ _ _ C' (fun x Hx => K x (or_intror Hx)) _ _ _ D0 S0 Hnd) as [sp [g [E [D [S [G1 G2]]]]]].
      exists sp, (KR g). split; [exact E|]. split; [exact D|]. split; [exact S|]. intros o iv.
      rewrite (sp_limit_iff _ _ _ o iv S). split.
      + intros [Ho [f [Ef ->]]]. inversion Ef; subst f. apply in_app_iff in Ho. destruct Ho as [Ho|Ho].
        * exists d0. split; [left; reflexivity|]. apply (sp_limit_iff _ _ _ o _ S0). split; [exact Ho|]. exists f0. rewrite (G1 o Ho). auto.
        * apply in_concat in Ho. destruct Ho as [osd [Hosd Ho]].
          assert (X : exists d, In d ds /\ exists fd, sp_ok (d_space d) osd (KR fd)).
          { clear - C' Hosd K. assert (K' : forall k, In k ks0 -> is_KR k) by (intros k Hk; apply K; right; exact Hk). clear K.
            induction C' as [|d ds os oss k ks cols colss N Ns V C IH]; [destruct Hosd|]. destruct Hosd as [<-|Hosd].
            - exists d. split; [left; reflexivity|]. pose proof (K' k (or_introl eq_refl)) as Kk. destruct k as [fd| |]; try destruct Kk.
              exists fd. apply (i_sp _ _ _ _ _ V).
            - destruct (IH Hosd) as [d' [H1 H2]]; [intros x Hx; apply K'; right; exact Hx|]. exists d'. split; [right; exact H1|exact H2]. }
          destruct X as [d [Hdin [fd Sd]]]. exists d. split; [right; exact Hdin|]. apply (sp_limit_iff _ _ _ o _ Sd). split; [exact Ho|].
          exists fd. split; [reflexivity|]. eapply G2; eassumption.
      + intros [d [[<-|Hdin] Hlo]].
        * apply (sp_limit_iff _ _ _ o iv S0) in Hlo. destruct Hlo as [Ho [f [Ef ->]]]. inversion Ef; subst f.
          split; [apply in_app_iff; left; exact Ho|]. exists g. rewrite (G1 o Ho). auto.
        * assert (X : exists osd fd, sp_ok (d_space d) osd (KR fd) /\ In osd oss0).
          { clear - C' Hdin K. assert (K' : forall k, In k ks0 -> is_KR k) by (intros k Hk; apply K; right; exact Hk). clear K.
            induction C' as [|d1 ds os oss k ks cols colss N Ns V C IH]; [destruct Hdin|]. destruct Hdin as [<-|Hdin].
            - exists os. pose proof (K' k (or_introl eq_refl)) as Kk. destruct k as [fd| |]; try destruct Kk.
              exists fd. split; [apply (i_sp _ _ _ _ _ V)|left; reflexivity].
            - destruct (IH Hdin) as [osd [fd [H1 H2]]]; [intros x Hx; apply K'; right; exact Hx|]. exists osd, fd. split; [exact H1|right; exact H2]. }
          destruct X as [osd [fd [Sd Hosd]]]. apply (sp_limit_iff _ _ _ o iv Sd) in Hlo. destruct Hlo as [Ho [f [Ef ->]]]. inversion Ef; subst f.
          split; [apply in_app_iff; right; apply in_concat; exists osd; auto|]. exists g. split; [reflexivity|]. symmetry. eapply G2; eassumption.
    - pose proof (HK2 Hl) as K. rewrite (K k0 (or_introl eq_refl)) in S0.
      destruct (mul_KN _ _ _ _ _ C' (fun x Hx => K x (or_intror Hx)) _ _ D0 S0 Hnd) as [sp [E [D S]]].
      exists sp, KN. split; [exact E|]. split; [exact D|]. split; [exact S|]. intros o iv.
      split; [intros H; destruct (sp_limit_of_plain _ _ _ S (or_introl eq_refl) _ _ H)|].
      intros [d [Hdin Hlo]]. exfalso.
      destruct (data_ok_inv d (Hd d Hdin)) as [osd [kd [cd [Nd Vd]]]]. pose proof (i_sp _ _ _ _ _ Vd) as Sd.
      rewrite (proj2 (sp_kind _ _ _ Sd) (Hl d Hdin)) in Sd. exact (sp_limit_of_plain _ _ _ Sd (or_introl eq_refl) _ _ Hlo). }
  destruct HM as [sp [k [Esp [D [S HL]]]]].
  destruct (concat_obs_core _ _ _ _ _ _ _ _ _ _ _ _ C Esp D S Hnd HN0 Em) as [d' [cols [Vd [Er [Ew [_ EE]]]]]].
  pose proof (EE None Logic.I) as E. cbn beta iota in E.
  exists d', (rowsof n (cols0 ++ concat colss0)). split; [exact E|].
  split; [apply (do_concat_obs (d0 :: ds) None); [exact Hd|exact Logic.I|exact E]|].
  split; [rewrite <- Er; apply (inv_shows _ _ _ _ _ Vd)|].
  split; [exact (rowsof_side n (cols0 :: colss0))|].
  split; [apply rowsof_length|]. split; [|split].
  - rewrite Ew. unfold prod_ws. pose proof (chain_weights _ _ _ _ _ _ C HN) as Hwl.
    destruct (weights_list (d0 :: ds)) as [|w ws] eqn:El.
    + intros x Hx. destruct (d_weights x) as [wx|] eqn:Ex; [|reflexivity]. exfalso.
      assert (Hin : In wx (weights_list (d0 :: ds))).
      { unfold weights_list. apply in_concat. exists [wx]. split; [|left; reflexivity]. apply in_map_iff. exists x. rewrite Ex. auto. }
      rewrite El in Hin. exact Hin.
    + split; [apply prod_length; [discriminate|exact Hwl]|]. split.
      * assert (Hin : In w (weights_list (d0 :: ds))) by (rewrite El; left; reflexivity).
        unfold weights_list in Hin. apply in_concat in Hin. destruct Hin as [l [Hl1 Hl2]]. apply in_map_iff in Hl1.
        destruct Hl1 as [x [<- Hx]]. exists x. split; [exact Hx|]. destruct (d_weights x); [discriminate|destruct Hl2].
      * intros j v Hv. destruct (prod_at (w :: ws) n j v) as [vs [Fv Pv]]; [discriminate|exact Hwl|exact Hv|].
        rewrite <- El in Fv. destruct (weights_at _ _ _ Fv) as [us [Fu Pu]]. exists us. split; [exact Fu|]. rewrite Pv, Pu. reflexivity.
  - intros o iv. rewrite <- HL. 
    assert (Sd := i_sp _ _ _ _ _ Vd). rewrite (sp_limit_iff _ _ _ o iv Sd), (sp_limit_iff _ _ _ o iv S). reflexivity.
  - intros s' Hs'. exact (EE (Some s') Hs').
Qed.
