(** Shares, reading out, and what goes wrong. *)
From Verif Require Import Base BaseLemmas Hist_Model Hist_Spec Hist_Proofs Hist_Proofs2 Hist_Proofs3 Hist_Theorems
  BInt_Model BInt_Spec Bpdf_Model Bpdf_Spec Bpdf_Proofs Bpdf_Proofs2 Bpdf_Proofs3.
From Coq Require Import Lqa Permutation.
#[local] Open Scope nat_scope.

Lemma with_own_ranges b s : l_ranges (with_own_binning b s) = l_ranges s.
Proof. unfold with_own_binning. destruct (l_binning s); reflexivity. Qed.
Lemma factor_share b v total norm i :
  (factor b v (/ total) (convert_norm b norm) * v i == share b v total norm i)%Q.
Proof.
  unfold share, Qdiv. destruct norm as [[|s]|]; cbn [convert_norm factor]; rewrite ?with_own_ranges; ring.
Qed.
Section Ext.
Variables (b : bpdf) (n : nat) (norm : option normarg) (r r' : list nat -> Q).
Hypothesis E : forall i, (r i == r' i)%Q.
Lemma plain_ext : plain_views b n norm r -> plain_views b n norm r'.
Proof.
  intros [H1 H2]. split; [apply (shows_ext _ _ r); [intros; apply E|exact H1]|].
  eapply shows_ext; [|exact H2]. intros i _. cbn beta. rewrite E. reflexivity.
Qed.
Lemma counts_ext : counts_view b n norm r -> counts_view b n norm r'.
Proof. intros H y Y. eapply shows_ext; [|exact (H y Y)]. intros i _. cbn beta. rewrite E. reflexivity. Qed.
Lemma ext_ext : ext_view b n norm r -> ext_view b n norm r'.
Proof. intros H y Y. eapply shows_ext; [|exact (H y Y)]. intros i _. cbn beta. rewrite E. reflexivity. Qed.
Lemma integral_ext : integral_views b n norm r -> integral_views b n norm r'.
Proof.
  intros H rs B. destruct (H rs B) as [(x&X1&X2) H2].
  assert (EB : (in_box (own_edges b) rs r == in_box (own_edges b) rs r')%Q) by (apply in_box_ext; intros; apply E).
  split; [exists x; split; [exact X1|rewrite X2; exact EB]|].
  intros y Y. destruct (H2 y Y) as (z&Z1&Z2). exists z. split; [exact Z1|]. rewrite Z2, EB. reflexivity.
Qed.
Lemma normalised_ext : normalised b norm r -> normalised b norm r'.
Proof. intros H rs NB. rewrite <- (H rs NB). apply in_box_ext. intros. symmetry. apply E. Qed.
End Ext.

Lemma views_share b v total norm n : stands_for b v (/ total) (convert_norm b norm) ->
  let r := share b v total norm in
  plain_views b (5 + n) norm r /\ counts_view b (5 + n) norm r /\ integral_views b (5 + n) norm r /\ normalised b norm r /\
  (ext_honest b v (/ total) (convert_norm b norm) -> ext_view b (5 + n) norm r).
Proof.
  intros H r. destruct (views_gen b v (/ total) norm n H) as (A&B&C&D&F).
  pose proof (factor_share b v total norm) as E.
  split; [apply (plain_ext _ _ _ _ _ E A)|]. split; [apply (counts_ext _ _ _ _ _ E B)|].
  split; [apply (integral_ext _ _ _ _ _ E D)|]. split; [apply (normalised_ext _ _ _ _ E F)|].
  intros X. apply (ext_ext _ _ _ _ _ E (C X)).
Qed.

(** A norm over everything is the space of the PDF. *)
Lemma asks_for_all_space b norm : pdf_space_ok b -> asks_for_all b norm ->
  match convert_norm b norm with NFalse => True | NSpace s => lspace_eqb (p_space b) s = true end.
Proof.
  intros [OK E] H. destruct norm as [[|s]|]; cbn [convert_norm].
  - exact I.
  - destruct H as [H1 H2]. unfold with_own_binning. rewrite E.
    destruct H2 as [H2|H2]; rewrite H2; unfold lspace_eqb; cbn [l_ranges l_binning]; rewrite ?H1, ?H2;
      rewrite (list_eqb_refl range_eqb) by exact range_eqb_refl; cbn [andb];
      apply list_eqb_refl; intros x; apply list_eqb_refl; intros q; apply Qeq_bool_iff; reflexivity.
  - cbn [asks_for_all] in H. unfold norm_of. rewrite H. unfold with_own_binning. rewrite E. cbn [l_binning]. apply lspace_eqb_refl.
Qed.

(** ** Reading out *)
Lemma unpad_some idx shape r : unpad idx shape = Some r <-> idx = map S r /\ in_shape r shape.
Proof.
  revert shape r. induction idx as [|i idx IH]; intros [|n shape] r; cbn [unpad].
  - split; [intros H; injection H as <-; split; [reflexivity|constructor]|intros [H _]; destruct r; [reflexivity|discriminate H]].
  - split; [discriminate|]. intros [H1 H2]. destruct r; [inversion H2|discriminate H1].
  - split; [destruct i; discriminate|]. intros [H1 H2]. inversion H2; subst. discriminate H1.
  - destruct i as [|i].
    + split; [discriminate|]. intros [H1 _]. destruct r; discriminate H1.
    + destruct (Nat.ltb_spec i n).
      * destruct (unpad idx shape) as [q|] eqn:E.
        -- split.
           ++ intros H'. injection H' as <-. destruct (proj1 (IH shape q) E) as [-> S1]. split; [reflexivity|]. constructor; assumption.
           ++ intros [H1 H2]. destruct r as [|k r]; [discriminate H1|]. injection H1 as -> H1. inversion H2; subst.
              assert (Some q = Some r) by (rewrite <- E; apply IH; split; [reflexivity|assumption]). congruence.
        -- split; [discriminate|]. intros [H1 H2]. destruct r as [|k r]; [discriminate H1|]. injection H1 as -> H1. inversion H2; subst.
           assert (unpad (map S r) shape = Some r) by (apply IH; split; [reflexivity|assumption]). congruence.
      * split; [discriminate|]. intros [H1 H2]. destruct r as [|k r]; [discriminate H1|]. injection H1 as -> H1. inversion H2; subst. lia.
Qed.

Lemma events_read own d values f :
  space_ok own -> udata_ok d -> Forall increasing (b_edges own) -> incl (b_obs own) (u_obs d) ->
  shows (b_edges own) values f ->
  exists l, read_out own (XEvents d) values = Ok (inl l) /\ length l = length (u_rows d) /\
    forall i row q, nth_error (u_rows d) i = Some row -> nth_error l i = Some q ->
      (forall idx, event_in own (u_obs d) row idx -> (q == f idx)%Q) /\
      (event_outside own (u_obs d) row -> (q == 0)%Q).
Proof.
  intros SO UO INC IN (t&->&S1&V).
  destruct (C26_bin_numbers d own SO UO INC IN) as (l&EL&LL&HL).
  cbn [read_out]. unfold unbinned_to_binindex_flow. rewrite EL. cbn [bind].
  eexists. split; [reflexivity|]. split; [rewrite !map_length; exact LL|].
  intros i row q HR HQ. rewrite !nth_error_map in HQ.
  destruct (nth_error l i) as [out|] eqn:EO; [|discriminate HQ]. cbn in HQ. injection HQ as <-.
  destruct (HL i row out HR EO) as [LO HO]. rewrite S1.
  destruct SO as [ND LE].
  assert (FL : forall j, j < length (b_obs own) -> exists o e r, nth_error (b_obs own) j = Some o /\ nth_error (b_edges own) j = Some e /\
             nth_error out j = Some r /\ match r with
          | Some b => in_bin true e b (value_of (u_obs d) row o) = true
          | None => in_range true e (value_of (u_obs d) row o) = false
          end).
  { intros j Hj. destruct (nth_error (b_obs own) j) as [o|] eqn:E1; [|apply nth_error_None in E1; lia].
    destruct (nth_error (b_edges own) j) as [e|] eqn:E2; [|apply nth_error_None in E2; lia].
    destruct (HO j o e E1 E2) as (r&H1&H2). exists o, e, r. repeat split; assumption. }
  assert (INCj : forall j e, nth_error (b_edges own) j = Some e -> increasing e).
  { intros j e H. rewrite Forall_forall in INC. apply INC, (nth_error_In _ _ H). }
  split.
  - intros idx [LI EI].
    assert (EX : map flow_index out = map S idx).
    { apply nth_error_ext. intros j. rewrite !nth_error_map.
      destruct (Nat.lt_ge_cases j (length (b_obs own))) as [Hj|Hj].
      - destruct (FL j Hj) as (o&e&r&E1&E2&E3&H). rewrite E3.
        destruct (nth_error idx j) as [k|] eqn:E4; [|apply nth_error_None in E4; lia].
        pose proof (EI j o e k E1 E2 E4) as IB. cbn. f_equal.
        destruct r as [b'|].
        + cbn [flow_index]. f_equal. apply (in_bin_unique true e b' k (value_of (u_obs d) row o) (INCj _ _ E2) H IB).
        + exfalso. assert (in_range true e (value_of (u_obs d) row o) = true) by (apply in_range_bin; [apply (INCj _ _ E2)|exists k; exact IB]). congruence.
      - assert (nth_error out j = None) as -> by (apply nth_error_None; lia).
        assert (nth_error idx j = None) as -> by (apply nth_error_None; lia). reflexivity. }
    rewrite EX.
    assert (IS : in_shape idx (shape_of (b_edges own))).
    { unfold in_shape, shape_of. apply Forall2_nth. split; [rewrite map_length; lia|].
      intros j k nb E4 E5. rewrite nth_error_map in E5.
      assert (Hj : j < length (b_obs own)) by (rewrite <- LI; apply nth_error_Some; congruence).
      destruct (FL j Hj) as (o&e&r&E1&E2&_). rewrite E2 in E5. injection E5 as <-.
      apply (in_bin_lt true e k (value_of (u_obs d) row o)). apply (EI j o e k E1 E2 E4). }
    rewrite (proj2 (unpad_some (map S idx) (shape_of (b_edges own)) idx)) by (split; [reflexivity|exact IS]).
    apply V, IS.
  - intros (o&e&(k&K1&K2)&NR).
    destruct (unpad (map flow_index out) (shape_of (b_edges own))) as [r|] eqn:EU; [|reflexivity]. exfalso.
    apply unpad_some in EU. destruct EU as [EU _].
    destruct (HO k o e K1 K2) as (r'&H1&H2).
    assert (EQ : nth_error (map flow_index out) k = nth_error (map S r) k) by (rewrite EU; reflexivity).
    rewrite !nth_error_map, H1 in EQ. cbn in EQ. destruct (nth_error r k); [|discriminate EQ]. cbn in EQ. injection EQ as EQ.
    destruct r' as [b'|]; [|discriminate EQ].
    assert (in_range true e (value_of (u_obs d) row o) = true) by (apply in_range_bin; [apply (INCj _ _ K2)|exists b'; exact H2]). congruence.
Qed.

Lemma intersects_self own new : (forall o, In o own <-> In o new) -> own <> [] -> intersectsb String.eqb own new = true.
Proof.
  intros S1 NE. apply (intersectsb_iff _ string_eqb_ok). destruct own as [|o own]; [elim NE; reflexivity|].
  exists o. split; [left; reflexivity|apply S1; left; reflexivity].
Qed.
Lemma binned_read own s values f :
  space_ok own -> space_ok s -> (forall o, In o (b_obs own) <-> In o (b_obs s)) -> b_obs own <> [] ->
  trades_places (b_obs own) (b_obs s) -> shows (b_edges own) values f ->
  exists t t', values = Ok t /\ read_out own (XBinned s) values = Ok (inr t') /\
    forall g, content (b_obs s) t' g = content (b_obs own) t g.
Proof.
  intros SO SS SM NE TP (t&->&S1&V). exists t. cbn [read_out].
  destruct SO as [ND LE]. destruct SS as [ND2 LE2].
  assert (RK : length (t_shape t) = length (b_obs own)) by (rewrite S1; unfold shape_of; rewrite map_length; congruence).
  assert (G : forall l, incl l (b_obs s) -> exists es, all_some (map (fun o => lookup String.eqb o (combine (b_obs s) (b_edges s))) l) = Some es).
  { induction l as [|o l IH]; intros HI; [exists []; reflexivity|]. cbn [map all_some].
    assert (Ho : In o (b_obs s)) by (apply HI; left; reflexivity).
    destruct (IH (fun x I => HI x (or_intror I))) as [es E]. rewrite E.
    destruct (lookup String.eqb o (combine (b_obs s) (b_edges s))) as [e|] eqn:EL; [eexists; reflexivity|].
    exfalso. apply (lookup_none _ string_eqb_ok) in EL. apply EL.
    replace (map fst (combine (b_obs s) (b_edges s))) with (b_obs s); [exact Ho|].
    revert LE2. clear. generalize (b_edges s). induction (b_obs s) as [|x l IH]; intros [|y r] H; try discriminate H; [reflexivity|].
    cbn. f_equal. apply IH. cbn in H. congruence. }
  assert (W : exists z, bspace_with_obs s (b_obs own) = Ok z).
  { unfold bspace_with_obs. rewrite intersects_self by assumption. cbn [negb].
    destruct (G (filter (fun o => mem String.eqb o (b_obs s)) (b_obs own))) as [es E].
    - intros o Ho. apply filter_In in Ho. destruct Ho as [_ Ho]. apply (mem_In _ string_eqb_ok) in Ho. exact Ho.
    - rewrite E. eexists. reflexivity. }
  destruct W as [z ->]. cbn [bind].
  destruct (positions_total (b_obs own) (b_obs s)) as [sg P]; [intros o Ho; apply SM, Ho|].
  unfold move_axis_obs. unfold positions in P. rewrite P. cbn [opt_result bind fst].
  eexists. split; [reflexivity|]. split; [reflexivity|]. intros g.
  assert (LL : length (b_obs s) = length (b_obs own)).
  { apply Permutation_length, NoDup_Permutation; [exact ND2|exact ND|intros o; symmetry; apply SM]. }
  rewrite LL. apply traded_content; try assumption.
Qed.

(** ** Extended densities and norms *)
Section Twice.
Variables (e : list (list Q)) (data : tensor) (ext : ext_arg) (norm0 : option lspace).
Hypothesis OK : Forall edges_ok e.
Hypothesis SH : t_shape data = shape_of e.
Let v := t_get data.
Let T := in_all e v.
Hypothesis T0 : ~ (T == 0)%Q.
Hypothesis AU : ext = ExtNone \/ ext = ExtTrue.
Let b := histogram_pdf (LSpace (whole e) (Some e)) data ext norm0.
Lemma hist_twice s n : space_for b v s -> lspace_eqb (p_space b) (with_own_binning b s) = false ->
  shows e (ext_pdf b (5 + n) (Some (NSpace s))) (fun i => T * (T * share b v T (Some (NSpace s)) i / volume e i))%Q.
Proof.
  intros SF NE. unfold ext_pdf. cbn [convert_norm]. set (s' := with_own_binning b s) in *.
  pose proof (hist_stands e data ext norm0 OK SH T0 (Some (NSpace s)) SF) as ST.
  destruct ST as [E C A [R RF] [K KF] [B BF] P N (I1&I2&I3)]. cbn [convert_norm] in A.
  assert (YB : get_yield b = Ok T) by (unfold b, get_yield; destruct AU as [-> | ->]; cbn [p_yield histogram_pdf opt_result]; rewrite (tsum_in_all e data SH); reflexivity).
  rewrite YB. cbn [bind]. unfold call_ext_pdf. apply suppress_shows. unfold auto.
  assert (EX : forall nm, deco b (p_ext_pdf b) nm = match nm with NFalse => divide_areas b (Ok data) | NSpace s => if lspace_eqb (p_space b) s then divide_areas b (Ok data) else Err NormNotImplemented end).
  { intros [|q]; unfold b; destruct AU as [-> | ->]; cbn [p_ext_pdf histogram_pdf deco k_true k_space k_norm k_fun orb andb p_space]; try reflexivity;
      rewrite orb_false_r; destruct (lspace_eqb _ q); reflexivity. }
  rewrite !EX, NE. unfold ext_normalization. rewrite YB. replace (p_ext_normalization b) with (@None (lspace -> result Q)) by reflexivity. cbn [bind suppress].
  assert (NG : gives (normalization b (5 + n) (NSpace s')) (/ T * in_box e (l_ranges s') v)%Q).
  { eapply (norm_gives b v (/ T)); eassumption. }
  destruct NG as (z&EZ&VZ). rewrite EZ. cbn [bind].
  pose proof (shows_areas b (Ok data) v (shows_ok e data SH)) as D.
  eapply shows_ext; [|apply (shows_scale e _ _ (z / T)%Q D)].
  intros i I. cbn beta. change (own_edges b) with e. unfold share. change (own_edges b) with e.
  assert (RS : l_ranges s' = l_ranges s) by apply with_own_ranges.
  destruct A as (_&_&A). fold s' in A. change (own_edges b) with e in A. rewrite VZ. rewrite RS in *. fold v in A.
  pose proof (volume_pos e i OK I). field. repeat split; first [exact T0|exact (proj2 (proj2 SF))|lra].
Qed.
End Twice.

(** ** Templates with a norm of their own *)
Section TemplateNorm.
Variables (e : list (list Q)) (data : tensor) (sysshape : option tensor) (ext : ext_arg) (s0 : lspace).
Hypothesis OK : Forall edges_ok e.
Hypothesis SH : t_shape data = shape_of e.
Let contents := match sysshape with None => data | Some s => tmap2 Qmult data s end.
Let v := t_get contents.
Let T := in_all e v.
Hypothesis T0 : ~ (T == 0)%Q.
Let b := template_pdf (LSpace (whole e) (Some e)) data sysshape ext (Some s0).
Hypothesis SB : l_binning s0 = Some e.
Hypothesis SO : box_ok e (l_ranges s0).
Hypothesis S0 : ~ (in_box e (l_ranges s0) v == 0)%Q.
Lemma tmpl_own_norm n :
  shows e (rel_counts_of b (5 + n) None) (fun i => v i / T)%Q /\
  shows e (pdf b (5 + n) None) (fun i => v i / in_box e (l_ranges s0) v / volume e i)%Q.
Proof.
  assert (CS : t_shape contents = shape_of e) by (unfold contents; destruct sysshape; exact SH).
  assert (CN : convert_norm b None = NSpace s0).
  { unfold convert_norm, norm_of. cbn [p_norm b template_pdf]. unfold with_own_binning. rewrite SB. reflexivity. }
  assert (RL : forall nm, nm = NFalse \/ nm = NSpace s0 -> deco b (p_rel_counts b) nm = Ok (rel_counts contents)).
  { intros nm [-> | ->]; [reflexivity|]. unfold deco. cbn [p_rel_counts b template_pdf k_true k_space k_norm k_fun orb andb].
    unfold norm_of. cbn [p_norm]. rewrite lspace_eqb_refl. reflexivity. }
  assert (RS : shows e (Ok (rel_counts contents)) (fun i => v i / T)%Q) by (apply rel_shows; [apply shows_ok, CS|reflexivity]).
  assert (RF : forall k nm, nm = NFalse \/ nm = NSpace s0 -> shows e (call_rel_counts b (S k) nm) (fun i => v i / T)%Q).
  { intros k nm H. rewrite call_rel_S. apply suppress_shows, auto_shows. rewrite (RL nm H). exact RS. }
  split; [unfold rel_counts_of; rewrite CN; apply RF; right; reflexivity|].
  unfold pdf. rewrite CN. change (5 + n) with (S (S (S (S (S n))))). rewrite call_pdf_S. cbn [p_pdf b template_pdf]. apply suppress_shows. unfold auto. cbn [deco k_true k_space k_norm orb andb k_fun].
  rewrite normalization_S. cbn [p_normalization b template_pdf]. unfold suppress. rewrite call_integrate_S. cbn [p_integrate b template_pdf]. unfold suppress.
  destruct s0 as [rs bn]. cbn [l_binning l_ranges] in *. subst bn.
  destruct (rect_gives e rs _ _ SO (RF (S n) NFalse (or_introl eq_refl))) as (z&EZ&VZ).
  fold b. rewrite EZ. cbn [bind].
  pose proof (shows_areas b _ _ RS) as D. change (own_edges b) with e in D.
  eapply shows_ext; [|apply (shows_scale e _ _ z D)].
  intros i I. cbn beta. rewrite VZ, (in_box_div e rs v T T0).
  pose proof (volume_pos e i OK I). field. repeat split; try assumption; lra.
Qed.
End TemplateNorm.
