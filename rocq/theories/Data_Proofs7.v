(** Proofs for unbinned data, part 7: selecting columns by axes. *)
From Verif Require Import Base BaseLemmas Coord_Model Coord_Spec Coord_Proofs Space_Model Space_Spec
  Space_Proofs Space_Proofs2 Space_Proofs3 Space_Proofs4 Data_Model Data_Spec Data_Proofs Data_Proofs2 Data_Proofs3 Data_Proofs4 Data_Proofs5.

Lemma range_In_Z n z : In z (range_axes n) <-> (0 <= z < Z.of_nat n)%Z.
Proof.
  rewrite range_In. split; [intros [i [H1 H2]]; lia|]. intros H. exists (Z.to_nat z). lia.
Qed.
Lemma keys_in_range l : (forall z, In z l -> 0 <= z)%Z -> keys_of l = Ok (map Z.to_nat l).
Proof.
  unfold keys_of. induction l as [|z l IH]; intros H; cbn [map mapM]; [reflexivity|].
  destruct (Z.ltb_spec z 0) as [X|X]; [specialize (H z (or_introl eq_refl)); lia|]. cbn [bind].
  rewrite IH by (intros y Hy; apply H; right; exact Hy). reflexivity.
Qed.

Lemma C22_value_axes_l d os rows l : data_ok d -> shows d os rows -> l <> [] -> axes_of os l ->
  exists d' picked, d_value_axes d l = Ok (d', mkT (length l) picked)
    /\ Forall2 (fun r r' => Forall2 (fun z v => nth_error r (Z.to_nat z) = Some v) l r') rows picked.
Proof.
  intros Hd Hs Hne Ha. destruct (data_ok_inv d Hd) as [os' [k [cols [N V]]]].
  destruct (shows_inv _ _ _ _ _ _ _ V Hs) as [-> ->]. pose proof V as [D S Hn L Hl Hw].
  unfold d_value_axes. unfold numbered in Hn. rewrite Hn.
  rewrite (proj2 (subsetb_incl _ Z_eqb_ok _ _)) by (intros z Hz; apply range_In_Z, Ha, Hz). cbn [negb].
  unfold d_value_ix. rewrite keys_in_range by (intros z Hz; apply Ha in Hz; lia). cbn [bind].
  destruct (lds_value_ok _ _ _ (map Z.to_nat l) L) as [l1 [E1 L1]].
  - destruct l; [congruence|discriminate].
  - intros i Hi. apply in_map_iff in Hi. destruct Hi as [z [<- Hz]]. apply Ha in Hz. lia.
  - rewrite E1. cbn [bind]. rewrite map_length. eexists. eexists. split; [reflexivity|].
    unfold rowsof. rewrite map_map. generalize (seq 0 N) as is. intros is.
    induction is as [|i is IH]; cbn [map]; constructor; [|exact IH]. rewrite map_map. clear - Ha Hl.
    induction l as [|z l IH]; cbn [map]; constructor.
    + rewrite nth_error_map. assert (X := Ha z (or_introl eq_refl)).
      rewrite nth_error_nth' with (d := []) by lia. reflexivity.
    + apply IH. intros y Hy. apply Ha. right. exact Hy.
Qed.
Lemma C22_axes_raise_l d os rows l : data_ok d -> shows d os rows -> ~ axes_of os l -> d_value_axes d l = Err ValueError.
Proof.
  intros Hd Hs Ha. destruct (data_ok_inv d Hd) as [os' [k [cols [N V]]]].
  destruct (shows_inv _ _ _ _ _ _ _ V Hs) as [-> ->]. pose proof V as [D S Hn L Hl Hw].
  unfold d_value_axes. unfold numbered in Hn. rewrite Hn.
  destruct (subsetb Z.eqb l (range_axes (length os'))) eqn:E; [|reflexivity].
  exfalso. apply Ha. intros z Hz. apply range_In_Z. apply (proj1 (subsetb_incl _ Z_eqb_ok _ _) E). exact Hz.
Qed.

Lemma reorder_back {A} (eqb : A -> A -> bool) (ok : forall x y, eqb x y = true <-> x = y) own idx l :
  NoDup own -> Forall2 (fun i x => nth_error own i = Some x) idx l -> reorder_indices eqb own l = Ok idx.
Proof.
  intros Hnd H. apply reorder_indices_ok. induction H as [|i x idx l H F IH]; constructor; [|exact IH].
  apply (nodup_index_of _ ok); assumption.
Qed.
Lemma names_at_filter (os : list string) (l : list Z) : Forall2 (fun i o => nth_error os i = Some o)
  (map Z.to_nat (filter (fun x => mem Z.eqb x (range_axes (length os))) l)) (names_at os l).
Proof.
  induction l as [|z l IH]; cbn [filter]; [constructor|]. unfold names_at. cbn [flat_map]. fold (names_at os l).
  destruct (mem Z.eqb z (range_axes (length os))) eqn:E.
  - apply (mem_In _ Z_eqb_ok), range_In_Z in E. destruct (Z.ltb_spec z 0); [lia|].
    destruct (nth_error os (Z.to_nat z)) as [o|] eqn:Eo; [|apply nth_error_None in Eo; lia].
    cbn [map app]. constructor; assumption.
  - apply (mem_false _ Z_eqb_ok) in E. rewrite range_In_Z in E. destruct (Z.ltb_spec z 0); [exact IH|].
    destruct (nth_error os (Z.to_nat z)) as [o|] eqn:Eo; [|exact IH].
    assert (X : Z.to_nat z < length os) by (apply nth_error_Some; congruence). lia.
Qed.
Lemma range_to_nat n l : Forall2 (fun z i => index_of Z.eqb z (range_axes n) = Some i)
  (filter (fun x => mem Z.eqb x (range_axes n)) l) (map Z.to_nat (filter (fun x => mem Z.eqb x (range_axes n)) l)).
Proof.
  induction l as [|z l IH]; cbn [filter]; [constructor|]. destruct (mem Z.eqb z (range_axes n)) eqn:E; [|exact IH].
  cbn [map]. constructor; [|exact IH]. apply (mem_In _ Z_eqb_ok), range_In_Z in E.
  apply (nodup_index_of _ Z_eqb_ok); [apply range_nodup|]. rewrite range_nth by lia. f_equal. lia.
Qed.

Lemma sp_axes_names s os k l : sp_ok s os k -> numbered s os -> (exists z, In z l /\ (0 <= z < Z.of_nat (length os))%Z) ->
  s_with_axes s (Some l) true true = s_with_obs s (Some (names_at os l)) true true.
Proof.
  intros S Hn [z [Hz Hb]]. pose proof S as [Ho [Hnd [Hne [_ [_ Hbin]]]]]. unfold s_with_axes.
  unfold numbered in Hn. rewrite Hn.
  assert (Hl : length os = length (range_axes (length os))) by (rewrite range_length; reflexivity).
  assert (Hr : range_axes (length os) <> []) by (destruct os; [congruence|discriminate]).
  assert (Hok : areq_ok (range_axes (length os)) l true true).
  { split; [|split; discriminate]. exists z. split; [exact Hz|apply range_In_Z, Hb]. }
  destruct (with_axes_labelled (s_coords s) os (range_axes (length os)) l true true Ho Hn Hl Hr) as [W _].
  destruct (W Hok) as [idx [os' [E1 [E2 E3]]]]. rewrite E3. cbn [bind].
  pose proof (range_to_nat (length os) l) as R. apply reorder_indices_ok in R; [|exact Z_eqb_ok..].
  rewrite R in E1. injection E1 as <-. pose proof (names_at_filter os l) as NA. 
  rewrite (proj2 (gather_forall2 _ _ _) NA) in E2. injection E2 as <-.
  set (fl := filter (fun x => mem Z.eqb x (range_axes (length os))) l) in *.
  assert (Hi : incl (names_at os l) os).
  { intros o Hin. clear - NA Hin. induction NA as [|i x a b H F IH]; [destruct Hin|]. destruct Hin as [<-|Hin]; [eapply nth_error_In, H|apply IH, Hin]. }
  assert (Hnn : names_at os l <> []).
  { intros E. rewrite E in NA. inversion NA as [Em|]. symmetry in Em. apply map_eq_nil in Em.
    assert (X : In z fl) by (apply filter_In; split; [exact Hz|apply (mem_In _ Z_eqb_ok), range_In_Z, Hb]). rewrite Em in X. exact X. }
  assert (Hok' : req_ok os (names_at os l) true true).
  { split; [|split; discriminate]. destruct (names_at os l) as [|o r]; [congruence|]. exists o. split; [left; reflexivity|apply Hi; left; reflexivity]. }
  destruct (with_obs_labelled (s_coords s) os (range_axes (length os)) (names_at os l) true true Ho Hn Hl) as [W' _].
  destruct (W' Hok') as [idx [axs' [F1 [F2 F3]]]]. rewrite (filter_mem_self _ _ Hi) in *.
  rewrite (reorder_back _ string_eqb_ok _ _ _ Hnd NA) in F1. injection F1 as <-.
  assert (G : gather (range_axes (length os)) (map Z.to_nat fl) = Some fl).
  { eapply reorder_gather_self; [exact Z_eqb_ok|exact R]. }
  rewrite G in F2. injection F2 as <-.
  unfold s_with_obs. rewrite F3. cbn [bind]. rewrite Hbin. reflexivity.
Qed.
Lemma C22_with_axes_l d os rows l : data_ok d -> shows d os rows -> (exists z, In z l /\ (0 <= z < Z.of_nat (length os))%Z) ->
  d_with_obs d (ByAxes l) = d_with_obs d (ByNames (names_at os l)).
Proof.
  intros Hd Hs He. destruct (data_ok_inv d Hd) as [os' [k [cols [N V]]]].
  destruct (shows_inv _ _ _ _ _ _ _ V Hs) as [-> ->]. pose proof V as [D S Hn L Hl Hw].
  unfold d_with_obs. rewrite (sp_axes_names _ _ _ _ S Hn He). reflexivity.
Qed.
Lemma names_at_nodup os l : NoDup os -> NoDup l -> NoDup (names_at os l).
Proof.
  intros Ho Hl. pose proof (names_at_filter os l) as NA.
  set (fl := filter _ l) in *. assert (Hn : NoDup (map Z.to_nat fl)).
  { assert (X : NoDup fl) by (apply NoDup_filter, Hl).
    assert (P : forall z, In z fl -> (0 <= z)%Z).
    { intros z Hz. apply filter_In in Hz. destruct Hz as [_ Hz]. apply (mem_In _ Z_eqb_ok), range_In_Z in Hz. lia. }
    clear - X P. induction X as [|z f Hz X IH]; cbn [map]; constructor.
    - intros Hin. apply in_map_iff in Hin. destruct Hin as [y [Ey Hy]]. apply Hz.
      replace z with y; [exact Hy|]. pose proof (P z (or_introl eq_refl)). pose proof (P y (or_intror Hy)). lia.
    - apply IH. intros y Hy. apply P. right. exact Hy. }
  clear - NA Hn Ho. induction NA as [|i x a b H F IH]; constructor.
  - intros Hin. inversion Hn as [|? ? Hni Hn']; subst. apply Hni. clear - F Hin H Ho.
    induction F as [|j y a b Hj F IH]; [destruct Hin|]. destruct Hin as [->|Hin]; [left|right; apply IH, Hin].
    rewrite NoDup_nth_error in Ho. apply Ho; [apply nth_error_Some; congruence|congruence].
  - apply IH. inversion Hn; assumption.
Qed.
Lemma C22_with_axes_full_l d os rows l : data_ok d -> shows d os rows -> NoDup l ->
  (exists z, In z l /\ (0 <= z < Z.of_nat (length os))%Z) ->
  exists d' picked out, d_with_obs d (ByAxes l) = Ok d' /\ columns_of os rows (names_at os l) picked
    /\ shows d' (names_at os l) out
    /\ kept_weighted (fun r => in_box (names_at os l) r (limit_of (d_space d))) picked (d_weights d) out (d_weights d').
Proof.
  intros Hd Hs Hl He. rewrite (C22_with_axes_l d os rows l Hd Hs He).
  destruct (shows_nodup _ _ _ Hd Hs) as [Ho [Hne _]].
  assert (Hi : incl (names_at os l) os).
  { pose proof (names_at_filter os l) as NA. intros o Hin. clear - NA Hin. induction NA as [|i x a b H F IH]; [destruct Hin|]. destruct Hin as [<-|Hin]; [eapply nth_error_In, H|apply IH, Hin]. }
  destruct (C22_with_obs_l d os rows (names_at os l) Hd Hs) as [d' [os' [picked [out [E [Hsel [Hc [Hs' [Hk _]]]]]]]]].
  - apply names_at_nodup; assumption.
  - destruct He as [z [Hz Hb]]. destruct (nth_error os (Z.to_nat z)) as [o|] eqn:Eo; [|apply nth_error_None in Eo; lia].
    exists o. split; [|eapply nth_error_In, Eo]. unfold names_at. apply in_flat_map. exists z. split; [exact Hz|].
    destruct (Z.ltb_spec z 0); [lia|]. rewrite Eo. left. reflexivity.
  - assert (os' = names_at os l).
    { eapply selects_det; [exact Hsel|]. clear - Hi. induction (names_at os l) as [|o r IH]; [constructor|].
      apply sel_keep; [apply Hi; left; reflexivity|apply IH; intros x Hx; apply Hi; right; exact Hx]. }
    subst os'. exists d', picked, out. auto.
Qed.
Lemma C22_axes_foreign_l d os rows l : data_ok d -> shows d os rows -> (forall z, In z l -> ~ (0 <= z < Z.of_nat (length os))%Z) ->
  d_with_obs d (ByAxes l) = Err AxesIncompatibleError.
Proof.
  intros Hd Hs Hf. destruct (data_ok_inv d Hd) as [os' [k [cols [N V]]]].
  destruct (shows_inv _ _ _ _ _ _ _ V Hs) as [-> ->]. pose proof V as [D S Hn L Hl Hw].
  pose proof S as [Ho [Hnd [Hne _]]]. unfold d_with_obs, s_with_axes.
  unfold numbered in Hn. rewrite Hn.
  assert (Hlen : length os' = length (range_axes (length os'))) by (rewrite range_length; reflexivity).
  assert (Hr : range_axes (length os') <> []) by (destruct os'; [congruence|discriminate]).
  destruct (with_axes_labelled (s_coords (d_space d)) os' (range_axes (length os')) l true true Ho Hn Hlen Hr) as [_ W].
  rewrite W; [reflexivity|]. intros [[z [Hz Hb]] _]. apply (Hf z Hz), range_In_Z, Hb.
Qed.
