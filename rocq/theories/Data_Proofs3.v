(** Proofs for unbinned data, part 3: creation, reordering and reading. *)
From Coq Require Import Permutation.
From Verif Require Import Base BaseLemmas Coord_Model Coord_Spec Coord_Proofs Space_Model Space_Spec
  Space_Proofs Space_Proofs2 Space_Proofs3 Space_Proofs4 Data_Model Data_Spec Data_Proofs Data_Proofs2.

Definition wfit (N : nat) (ws : option (list Q)) : Prop := match ws with Some w => length w = N | None => True end.
Record inv (d : data) (os : list string) (k : lk) (cols : list (list Q)) (N : nat) : Prop := mkInv {
  i_ds : data_space (d_space d);
  i_sp : sp_ok (d_space d) os k;
  i_num : numbered (d_space d) os;
  i_set : lds_ok (d_set d) cols N;
  i_len : length cols = length os;
  i_w : wfit N (d_weights d) }.

Lemma data_space_autofill s s' : data_space s -> s_with_autofill_axes s true = Ok s' -> data_space s'.
Proof.
  intros D H. destruct (data_space_sp s D) as [os [k S]]. destruct (sp_autofill _ _ _ S) as [s2 [E [S2 _]]].
  rewrite E in H. inversion H; subst s2. destruct D as [[R B]|P].
  - left. split; [eapply rs_autofill; eassumption|apply S2].
  - right. eapply ps_autofill; eassumption.
Qed.
Lemma data_space_with_obs s req sup sub s' : data_space s -> NoDup req -> s_with_obs s (Some req) sup sub = Ok s' -> data_space s'.
Proof.
  intros D Hr H. destruct (data_space_sp s D) as [os [k S]].
  destruct (req_ok_dec os req sup sub) as [Hok|Hok]; [|rewrite (sp_with_obs_err _ _ _ _ _ _ S Hok) in H; discriminate].
  destruct (sp_with_obs _ _ _ _ _ _ S Hr Hok) as [s2 [c [_ [E [S2 _]]]]]. rewrite E in H. inversion H; subst s2.
  destruct D as [[R B]|P].
  - left. split; [eapply rs_with_obs; eassumption|apply S2].
  - right. eapply ps_with_obs; eassumption.
Qed.

Lemma cols_ne (os : list string) (cols : list (list Q)) : os <> [] -> length cols = length os -> cols <> [].
Proof. intros H1 H2 ->. destruct os; [congruence|discriminate]. Qed.

Lemma cutw_fit k os rows ws : weights_fit rows ws -> weights_fit (filter (keepb k os) rows) (cutw k os rows ws).
Proof.
  destruct ws as [w|]; simpl; [|auto]. intros H. rewrite <- mask_filter. apply mask_length. exact H.
Qed.
Lemma wfit_rows {A} N (rows : list A) ws : length rows = N -> (wfit N ws <-> weights_fit rows ws).
Proof. intros <-. destruct ws; simpl; tauto. Qed.

Lemma init_cut obs os k l cols N ws : data_space obs -> sp_ok obs os k -> lds_ok l cols N -> length cols = length os ->
  wfit N ws ->
  exists d cols' N', data_init obs l ws false = Ok d /\ inv d os k cols' N'
    /\ rowsof N' cols' = filter (keepb k os) (rowsof N cols) /\ d_weights d = cutw k os (rowsof N cols) ws.
Proof.
  intros D S L Hl Hw. destruct (sp_autofill _ _ _ S) as [s' [E [S' Hn]]].
  pose proof (data_space_autofill _ _ D E) as D'. unfold data_init. rewrite E. cbn [bind].
  assert (Hne : os <> []) by apply S. pose proof (cols_ne _ _ Hne Hl) as Hcne.
  pose proof (proj1 (wfit_rows N (rowsof N cols) ws (rowsof_length _ _)) Hw) as Hf.
  pose proof (cutw_fit k os _ _ Hf) as Hf'.
  destruct l as [t m|c].
  - rewrite (lds_value_none _ _ _ L Hcne). cbn [bind].
    assert (Hrect : rectangular (mkT (length cols) (rowsof N cols))) by (intros r Hr; eapply rowsof_width, Hr).
    rewrite (cut_tensor_ok s' os k (mkT (length cols) (rowsof N cols)) ws S' Hrect Hl Hf). cbn [bind t_width t_rows].
    set (t' := mkT (length cols) (filter (keepb k os) (rowsof N cols))).
    assert (Hr' : rectangular t').
    { intros r Hr. apply filter_In in Hr. eapply rowsof_width, Hr. }
    assert (Hw' : t_width t' <> 0%nat) by (cbn; destruct cols; [congruence|discriminate]).
    destruct (lds_from_tensor_ok t' Hr' Hw') as [E1 [cols' [L' [Hl' Er]]]].
    rewrite (sp_n_obs _ _ _ S'), <- Hl. change (length cols) with (t_width t') at 1. rewrite E1. cbn [bind].
    do 3 eexists. split; [reflexivity|]. split; [|split; [exact Er|reflexivity]].
    split; cbn [d_space d_set d_weights]; [exact D'|exact S'|exact Hn|exact L'| |].
    + rewrite Hl'. cbn. exact Hl.
    + apply (wfit_rows _ (filter (keepb k os) (rowsof N cols))); [reflexivity|exact Hf'].
  - destruct L as [-> Hc]. cbn [lds_ok] in *.
    rewrite (cut_map_ok s' os k c N ws S' Hn Hl Hc Hw). cbn [bind].
    destruct (cut_map_rows k os c N Hc Hl) as [N' [H1 [H2 H3]]].
    do 3 eexists. split; [reflexivity|]. split; [|split; [exact H2|reflexivity]].
    split; cbn [d_space d_set d_weights]; [exact D'|exact S'|exact Hn| | |].
    + split; [reflexivity|exact H1].
    + rewrite map_length. exact Hl.
    + rewrite H3. apply (wfit_rows _ (filter (keepb k os) (rowsof N c))); [reflexivity|exact Hf'].
Qed.

Lemma init_keep obs os k l cols N ws : data_space obs -> sp_ok obs os k -> lds_ok l cols N -> length cols = length os ->
  wfit N ws ->
  exists d, data_init obs l ws true = Ok d /\ inv d os k cols N /\ d_weights d = ws /\ d_set d = l.
Proof.
  intros D S L Hl Hw. destruct (sp_autofill _ _ _ S) as [s' [E [S' Hn]]].
  pose proof (data_space_autofill _ _ D E) as D'. unfold data_init. rewrite E. cbn [bind].
  eexists. split; [reflexivity|]. split; [|split; reflexivity].
  split; cbn [d_space d_set d_weights]; assumption.
Qed.

(** Reading *)
Lemma keys_pos os l : keys_of (map (fun o => Z.of_nat (pos os o)) l) = Ok (map (pos os) l).
Proof.
  unfold keys_of. induction l as [|o l IH]; cbn [map mapM]; [reflexivity|].
  destruct (Z.ltb_spec (Z.of_nat (pos os o)) 0); [lia|]. cbn [bind]. rewrite IH. cbn [bind]. rewrite Nat2Z.id. reflexivity.
Qed.
Lemma keys_range n : keys_of (range_axes n) = Ok (seq 0 n).
Proof.
  unfold keys_of, range_axes. generalize 0%nat as a. induction n as [|n IH]; intros a; cbn [seq map mapM]; [reflexivity|].
  destruct (Z.ltb_spec (Z.of_nat a) 0); [lia|]. cbn [bind]. rewrite IH. cbn [bind]. rewrite Nat2Z.id. reflexivity.
Qed.

Definition selcols (os : list string) (cols : list (list Q)) (l : list string) : list (list Q) :=
  map (fun o => nth (pos os o) cols []) l.

Lemma inv_set d os k cols N l : inv d os k cols N -> lds_ok l cols N -> inv (set_lds d l) os k cols N.
Proof. intros [D S Hn L Hl Hw] L'. split; assumption. Qed.

Lemma value_none d os k cols N : inv d os k cols N ->
  exists l, d_value d None = Ok (set_lds d l, mkT (length os) (rowsof N cols)) /\ lds_ok l cols N.
Proof.
  intros [D S Hn L Hl Hw]. unfold d_value. destruct (sp_with_obs_none _ _ _ S Hn) as [s' [E Ea]].
  rewrite E. cbn [bind]. rewrite Ea. unfold d_value_ix. rewrite keys_range. cbn [bind].
  assert (Hne : os <> []) by apply S.
  destruct (lds_value_ok _ _ _ (seq 0 (length os)) L) as [l [E1 L1]].
  - destruct os; [congruence|discriminate].
  - intros i Hi. apply in_seq in Hi. lia.
  - rewrite E1. cbn [bind]. exists l. split; [|exact L1]. rewrite seq_length, <- Hl, map_nth_seq. reflexivity.
Qed.
Lemma value_some d os k cols N req : inv d os k cols N -> NoDup req -> (exists o, In o req /\ In o os) ->
  exists l, d_value d (Some req) = Ok (set_lds d l, mkT (length (sel os req)) (rowsof N (selcols os cols (sel os req))))
    /\ lds_ok l cols N.
Proof.
  intros [D S Hn L Hl Hw] Hr Hex. unfold d_value.
  assert (Hok : req_ok os req true true) by (split; [exact Hex|split; discriminate]).
  destruct (sp_with_obs_axes _ _ _ _ _ _ S Hn Hr Hok) as [s' [E [S' Ea]]].
  rewrite E. cbn [bind]. rewrite Ea. unfold d_value_ix. rewrite keys_pos. cbn [bind].
  assert (Hne : sel os req <> []) by apply S'.
  destruct (lds_value_ok _ _ _ (map (pos os) (sel os req)) L) as [l [E1 L1]].
  - destruct (sel os req); [congruence|discriminate].
  - intros i Hi. apply in_map_iff in Hi. destruct Hi as [o [<- Ho]]. rewrite Hl. apply pos_in. eapply sel_incl, Ho.
  - rewrite E1. cbn [bind]. exists l. split; [|exact L1]. rewrite map_length, map_map. reflexivity.
Qed.
Lemma value_disjoint d os k cols N req : inv d os k cols N -> (forall o, In o req -> ~ In o os) ->
  d_value d (Some req) = Err ObsIncompatibleError.
Proof.
  intros [D S Hn L Hl Hw] Hd. unfold d_value. rewrite (sp_with_obs_err _ _ _ _ _ _ S); [reflexivity|].
  intros [[o [H1 H2]] _]. exact (Hd o H1 H2).
Qed.

(** Reordering *)
Lemma perm_indices d os k cols N l : inv d os k cols N -> incl l os -> permutation_indices d l = Ok (map (pos os) l).
Proof.
  intros [D S Hn L Hl Hw] Hi. unfold permutation_indices, d_obs. destruct S as [Ho _]. rewrite Ho.
  rewrite (proj2 (subsetb_incl _ string_eqb_ok _ _) Hi). cbn [negb]. unfold get_reorder_indices. unfold s_obs in Ho. rewrite Ho.
  rewrite (filter_mem_self _ _ Hi). apply reorder_pos, Hi.
Qed.
Lemma selcols_ok d os k cols N l : inv d os k cols N -> incl l os ->
  exists ls, lds_with_indices (d_set d) (map (pos os) l) = Ok ls /\ lds_ok ls (selcols os cols l) N.
Proof.
  intros [D S Hn L Hl Hw] Hi. destruct (lds_with_indices_ok _ _ _ (map (pos os) l) L) as [ls [E H]].
  - intros i Hin. apply in_map_iff in Hin. destruct Hin as [o [<- Ho]]. rewrite Hl. apply pos_in, Hi, Ho.
  - exists ls. split; [exact E|]. rewrite map_map in H. exact H.
Qed.
Lemma selcols_length os cols l : length (selcols os cols l) = length l.
Proof. apply map_length. Qed.

Lemma sp_unbinned s os k : sp_ok s os k -> is_binned s = false.
Proof. intros [_ [_ [_ [_ [_ H]]]]]. unfold is_binned. rewrite H. reflexivity. Qed.

Lemma with_space d os k cols N sp os' k' : inv d os k cols N -> data_space sp -> sp_ok sp os' k' -> incl os' os ->
  exists d' cols' N', d_with_obs d (BySpace sp) = Ok d' /\ inv d' os' k' cols' N'
    /\ rowsof N' cols' = filter (keepb k' os') (rowsof N (selcols os cols os'))
    /\ d_weights d' = cutw k' os' (rowsof N (selcols os cols os')) (d_weights d).
Proof.
  intros V D' S' Hi. pose proof V as [D S Hn L Hl Hw]. unfold d_with_obs.
  assert (Eo : s_obs sp = Some os') by apply S'.
  assert (Hok : req_ok os os' true true).
  { split; [|split; discriminate]. destruct S' as [_ [_ [Hne _]]]. destruct os' as [|o os']; [congruence|].
    exists o. split; [left; reflexivity|]. apply Hi. left. reflexivity. }
  destruct (sp_with_obs _ _ _ os' true true S) as [s2 [c [_ [E2 _]]]]; [apply S'|exact Hok|].
  rewrite Eo, E2. cbn [bind]. rewrite (sp_unbinned _ _ _ S'), Eo, (perm_indices _ _ _ _ _ _ V Hi). cbn [bind].
  destruct (selcols_ok _ _ _ _ _ _ V Hi) as [ls [E3 L3]]. rewrite E3. cbn [bind].
  apply init_cut; [exact D'|exact S'|exact L3|apply selcols_length|exact Hw].
Qed.
Lemma with_names d os k cols N req : inv d os k cols N -> NoDup req -> (exists o, In o req /\ In o os) ->
  exists d' cols' N', d_with_obs d (ByNames req) = Ok d' /\ inv d' (sel os req) k cols' N'
    /\ rowsof N' cols' = filter (keepb k (sel os req)) (rowsof N (selcols os cols (sel os req)))
    /\ d_weights d' = cutw k (sel os req) (rowsof N (selcols os cols (sel os req))) (d_weights d).
Proof.
  intros V Hr Hex. pose proof V as [D S Hn L Hl Hw]. unfold d_with_obs.
  assert (Hok : req_ok os req true true) by (split; [exact Hex|split; discriminate]).
  destruct (sp_with_obs _ _ _ _ true true S Hr Hok) as [s2 [c [_ [E2 [S2 _]]]]].
  pose proof (data_space_with_obs _ _ _ _ _ D Hr E2) as D2.
  rewrite E2. cbn [bind]. rewrite (sp_unbinned _ _ _ S2). rewrite (proj1 S2), (perm_indices _ _ _ _ _ _ V (sel_incl _ _)). cbn [bind].
  destruct (selcols_ok _ _ _ _ _ _ V (sel_incl os req)) as [ls [E3 L3]]. rewrite E3. cbn [bind].
  apply init_cut; [exact D2|exact S2|exact L3|apply selcols_length|exact Hw].
Qed.
Lemma with_names_disjoint d os k cols N req : inv d os k cols N -> (forall o, In o req -> ~ In o os) ->
  d_with_obs d (ByNames req) = Err ObsIncompatibleError.
Proof.
  intros [D S Hn L Hl Hw] Hd. unfold d_with_obs. rewrite (sp_with_obs_err _ _ _ _ _ _ S); [reflexivity|].
  intros [[o [H1 H2]] _]. exact (Hd o H1 H2).
Qed.
(** Weights *)
Lemma with_weights_ok d os k cols N ws d' : inv d os k cols N -> d_with_weights d ws = Ok d' ->
  inv d' os k cols N /\ d_weights d' = ws /\ d_set d' = d_set d.
Proof.
  intros V H. pose proof V as [D S Hn L Hl Hw]. unfold d_with_weights in H.
  assert (Hne : os <> []) by apply S.
  assert (Hnum : d_num d = N) by (apply (lds_ok_num _ _ _ L), (cols_ne _ _ Hne Hl)).
  assert (Hf : wfit N ws /\ data_init (d_space d) (d_set d) ws true = Ok d').
  { destruct ws as [w|]; [|split; [exact Logic.I|exact H]]. destruct (Nat.eqb_spec (length w) (d_num d)) as [E|E]; [|discriminate].
    split; [simpl; congruence|exact H]. }
  destruct Hf as [Hf H']. destruct (init_keep _ _ _ _ _ _ ws D S L Hl Hf) as [d2 [E [V2 [W2 W3]]]].
  rewrite E in H'. inversion H'; subst. split; [exact V2|]. split; [reflexivity|exact W3].
Qed.

(** Creation *)
Lemma from_tensor_cut t sp ws os k : data_space sp -> sp_ok sp os k -> rectangular t -> t_width t = length os ->
  weights_fit (t_rows t) ws ->
  exists d cols N, data_from_tensor t sp ws false = Ok d /\ inv d os k cols N
    /\ rowsof N cols = filter (keepb k os) (t_rows t) /\ d_weights d = cutw k os (t_rows t) ws.
Proof.
  intros D S Hr Hw Hf. unfold data_from_tensor. rewrite (sp_n_obs _ _ _ S), <- Hw.
  assert (Hne : os <> []) by apply S.
  assert (Hz : t_width t <> 0%nat) by (rewrite Hw; destruct os; [congruence|discriminate]).
  destruct (lds_from_tensor_ok t Hr Hz) as [E [cols [L [Hl Er]]]]. rewrite E. cbn [bind].
  destruct (init_cut sp os k _ cols _ ws D S L) as [d [cols' [N' [E1 [V [E2 E3]]]]]].
  - congruence.
  - destruct ws; [exact Hf|exact Logic.I].
  - exists d, cols', N'. rewrite Er in *. auto.
Qed.
Lemma from_tensor_keep t sp ws os k : data_space sp -> sp_ok sp os k -> rectangular t -> t_width t = length os ->
  weights_fit (t_rows t) ws ->
  exists d cols N, data_from_tensor t sp ws true = Ok d /\ inv d os k cols N
    /\ rowsof N cols = t_rows t /\ d_weights d = ws /\ is_map d = false.
Proof.
  intros D S Hr Hw Hf. unfold data_from_tensor. rewrite (sp_n_obs _ _ _ S), <- Hw.
  assert (Hne : os <> []) by apply S.
  assert (Hz : t_width t <> 0%nat) by (rewrite Hw; destruct os; [congruence|discriminate]).
  destruct (lds_from_tensor_ok t Hr Hz) as [E [cols [L [Hl Er]]]]. rewrite E. cbn [bind].
  destruct (init_keep sp os k _ cols _ ws D S L) as [d [E1 [V [E2 E3]]]].
  - congruence.
  - destruct ws; [exact Hf|exact Logic.I].
  - exists d, cols, (length (t_rows t)). unfold is_map. rewrite E3. auto.
Qed.
Lemma from_tensor_width t sp ws os k g : sp_ok sp os k -> t_width t <> length os ->
  data_from_tensor t sp ws g = Err ShapeIncompatibleError.
Proof.
  intros S H. unfold data_from_tensor. rewrite (sp_n_obs _ _ _ S). unfold lds_from_tensor.
  destruct (Nat.eqb_spec (t_width t) (length os)); [contradiction|reflexivity].
Qed.

Lemma from_mapping_cols (m : list (string * list Q)) os n : (forall o c, In (o, c) m -> length c = n) -> incl os (map fst m) ->
  exists cols, mapM (fun o => opt_result KeyError (lookup String.eqb o m)) os = Ok cols /\ length cols = length os
    /\ (forall c, In c cols -> length c = n) /\ Forall2 (fun o c => lookup String.eqb o m = Some c) os cols.
Proof.
  intros Hn Hi. induction os as [|o os IH]; [exists []; repeat split; [intros c []|constructor]|].
  destruct IH as [cols [E [Hl [Hc F]]]]; [intros x Hx; apply Hi; right; exact Hx|].
  destruct (lookup_some_key _ string_eqb_ok o m) as [c Ec]; [apply Hi; left; reflexivity|].
  exists (c :: cols). cbn [mapM]. rewrite Ec. cbn [opt_result bind]. rewrite E. cbn [bind].
  split; [reflexivity|]. split; [simpl; congruence|]. split; [|constructor; assumption].
  intros x [<-|Hx]; [|apply Hc, Hx]. eapply Hn. apply (lookup_in _ string_eqb_ok), Ec.
Qed.

(** Every data set a user can obtain *)
Lemma mapping_inv (m : list (string * list Q)) sp ws g d n : data_space sp -> (forall o c, In (o, c) m -> length c = n) ->
  (g = true -> wfit n ws) -> data_from_mapping m sp ws g = Ok d -> exists os k cols N, inv d os k cols N.
Proof.
  intros D Hn Hg H. destruct (data_space_sp _ D) as [os [k S]]. unfold data_from_mapping in H.
  rewrite (proj1 S) in H. destruct (subsetb String.eqb os (map fst m)) eqn:Es; [|discriminate]. cbn [negb] in H.
  apply (subsetb_incl _ string_eqb_ok) in Es.
  destruct (from_mapping_cols m os n Hn Es) as [cols [E [Hl [Hc _]]]]. rewrite E in H. cbn [bind] in H.
  assert (L : lds_ok (LM cols) cols n) by (split; [reflexivity|exact Hc]).
  destruct g.
  - destruct (init_keep _ _ _ _ _ _ ws D S L Hl (Hg eq_refl)) as [d' [E' [V _]]]. rewrite E' in H. inversion H; subst.
    exists os, k, cols, n. exact V.
  - assert (Hw : wfit n ws).
    { unfold data_init in H. destruct (sp_autofill _ _ _ S) as [s' [Es' _]]. rewrite Es' in H. cbn [bind] in H.
      unfold check_cut_map in H. apply bind_ok in H. destruct H as [p [H _]]. apply bind_ok in H. destruct H as [u [H _]].
      destruct ws as [w|]; [|exact Logic.I]. simpl in H.
      destruct (Nat.eqb_spec (length w) (length (hd [] cols))) as [E1|E1]; [|discriminate]. simpl. rewrite E1.
      apply Hc. assert (Hne : os <> []) by apply S. pose proof (cols_ne _ _ Hne Hl). destruct cols; [congruence|]. left. reflexivity. }
    destruct (init_cut _ _ _ _ _ _ ws D S L Hl Hw) as [d' [cols' [N' [E' [V _]]]]]. rewrite E' in H. inversion H; subst.
    exists os, k, cols', N'. exact V.
Qed.
Lemma tensor_inv t sp ws g d : data_space sp -> rectangular t -> (g = true -> weights_fit (t_rows t) ws) ->
  data_from_tensor t sp ws g = Ok d -> exists os k cols N, inv d os k cols N.
Proof.
  intros D Hr Hg H. destruct (data_space_sp _ D) as [os [k S]].
  destruct (Nat.eq_dec (t_width t) (length os)) as [Hw|Hw]; [|rewrite (from_tensor_width _ _ _ _ _ _ S Hw) in H; discriminate].
  destruct g.
  - destruct (from_tensor_keep t sp ws os k D S Hr Hw (Hg eq_refl)) as [d' [cols [N [E [V _]]]]].
    rewrite E in H. inversion H; subst. exists os, k, cols, N. exact V.
  - assert (Hf : weights_fit (t_rows t) ws).
    { unfold data_from_tensor in H. apply bind_ok in H. destruct H as [l [El H]].
      assert (Hne : os <> []) by apply S.
      assert (Hz : t_width t <> 0%nat) by (rewrite Hw; destruct os; [congruence|discriminate]).
      destruct (lds_from_tensor_ok t Hr Hz) as [E [cols [L [Hl Er]]]].
      rewrite (sp_n_obs _ _ _ S), <- Hw, E in El. inversion El; subst l.
      unfold data_init in H. destruct (sp_autofill _ _ _ S) as [s' [Es' _]]. rewrite Es' in H. cbn [bind] in H.
      assert (Hcne : cols <> []) by (destruct cols; [simpl in Hl; congruence|discriminate]).
      rewrite (lds_value_none _ _ _ L Hcne) in H. cbn [bind] in H. unfold check_cut_tensor in H.
      apply bind_ok in H. destruct H as [p [H _]]. apply bind_ok in H. destruct H as [u [H _]]. cbn [t_rows] in H. rewrite Er in H.
      destruct ws as [w|]; [|exact Logic.I]. simpl in *.
      destruct (Nat.eqb_spec (length w) (length (t_rows t))) as [E1|E1]; [exact E1|discriminate]. }
    destruct (from_tensor_cut t sp ws os k D S Hr Hw Hf) as [d' [cols [N [E [V _]]]]].
    rewrite E in H. inversion H; subst. exists os, k, cols, N. exact V.
Qed.
