(** Densities and integrals of the step function. *)
From Verif Require Import Base BaseLemmas Hist_Model Hist_Spec Hist_Proofs Hist_Proofs2 Hist_Proofs3 Hist_Proofs4
  BInt_Model BInt_Spec BInt_Proofs Bpdf_Model Bpdf_Spec Bpdf_Proofs Bpdf_Proofs2 Bpdf_Proofs3 Bpdf_Proofs4
  Disp_Model Ufb_Model Ufb_Spec.
From Coq Require Import Lqa Qreals.
#[local] Open Scope nat_scope.

(** ** One event *)
Lemma step_ok u r h row : names_ok u -> Forall Hist_Spec.increasing (own_edges (f_binned u)) ->
  shows (own_edges (f_binned u)) r h -> length row = length (f_obs u) ->
  exists q, step_value u r row = Ok q /\
    (forall idx, event_in (own_bins u) (f_obs u) row idx -> (q == h idx)%Q) /\
    (event_outside (own_bins u) (f_obs u) row -> (q == 0)%Q).
Proof.
  intros (SO&ND&IN) INC SH LR.
  destruct (events_read (own_bins u) (UData (f_obs u) [row] None) r h SO) as (l&EL&LL&HL).
  - split; [exact ND|]. split; [repeat constructor; exact LR|]. intros w H. discriminate H.
  - exact INC.
  - intros o Ho. apply IN, Ho.
  - exact SH.
  - cbn [read_out] in EL. unfold unbinned_to_binindex_flow, unbinned_to_binindex in EL. cbn [u_rows u_obs mapM] in EL.
    unfold step_value. destruct (binindex_row (own_bins u) (f_obs u) row) as [idx|]; [|discriminate EL].
    cbn [bind map] in EL |- *. destruct r as [t|]; [|discriminate EL]. cbn [bind] in EL |- *. injection EL as EL.
    specialize (HL 0 row (t_get (pad t) (map flow_index idx)) eq_refl). rewrite <- EL in HL. specialize (HL eq_refl).
    eexists. split; [reflexivity|]. exact HL.
Qed.
Lemma step_steps u f h r : names_ok u -> Forall Hist_Spec.increasing (own_edges (f_binned u)) ->
  shows (own_edges (f_binned u)) r h ->
  (forall row q, length row = length (f_obs u) -> step_value u r row = Ok q -> f row = Val (Q2R q)) -> steps u f h.
Proof.
  intros N INC SH E row LR. destruct (step_ok u r h row N INC SH LR) as (q&EQ&A&B). rewrite (E row q LR EQ). split.
  - intros i Hi. f_equal. apply Qeq_eqR. apply A, Hi.
  - intros Ho. rewrite (Qeq_eqR _ 0%Q (B Ho)). rewrite RMicromega.Q2R_0. reflexivity.
Qed.

Lemma steps_ext u f g h h' : (forall row, length row = length (f_obs u) -> f row = g row) ->
  Forall edges_ok (own_edges (f_binned u)) -> names_ok u ->
  (forall i, in_shape i (shape_of (own_edges (f_binned u))) -> (h i == h' i)%Q) -> steps u f h -> steps u g h'.
Proof.
  intros E OK NO EH S row L. destruct (S row L) as [A B]. rewrite <- (E row L). split; [|exact B].
  intros idx Hi. rewrite (A idx Hi). f_equal. apply Qeq_eqR, EH.
  destruct Hi as [LI EI]. destruct NO as [[_ LE] _]. cbn [own_bins b_obs b_edges] in *.
  unfold shape_of. revert LE LI EI. generalize (f_bobs u) as bo. generalize (own_edges (f_binned u)) as es. clear.
  intros es. revert idx. induction es as [|e es IH]; intros idx bo LE LI EI.
  - destruct bo; [|discriminate LE]. destruct idx; [constructor|discriminate LI].
  - destruct bo as [|o bo]; [discriminate LE|]. destruct idx as [|i idx]; [discriminate LI|].
    cbn in LE, LI. constructor.
    + apply (in_bin_lt true e i (value_of (f_obs u) row o)). exact (EI 0 o e i eq_refl eq_refl eq_refl).
    + apply (IH idx bo); [lia|lia|]. intros k o' e' j H1 H2 H3. exact (EI (S k) o' e' j H1 H2 H3).
Qed.

Lemma steps_div u f h d : ~ (d == 0)%Q -> steps u f h ->
  steps u (fun row => quotient (f row) (Val (Q2R d))) (fun i => h i / d)%Q.
Proof.
  intros D S row L. destruct (S row L) as [A B]. split.
  - intros idx Hi. rewrite (A idx Hi). cbn [quotient]. rewrite Q2R_div by exact D. reflexivity.
  - intros Ho. rewrite (B Ho). cbn [quotient]. f_equal. unfold Rdiv. rewrite Rmult_0_l. reflexivity.
Qed.

(** ** The hooks *)
Section Hooks.
Variables (u : ufb) (m : nat).
Let b := f_binned u.
Let e := own_edges b.

Lemma norm_arg_call_pdf row nm : nm = NoNorm \/ nm = NormFalse ->
  pcall (ufb_model u m) (m_pdf (ufb_model u m)) row nm = of_q (step_value u (Bpdf_Model.pdf b m (Some NFalse)) row).
Proof. intros [-> | ->]; reflexivity. Qed.
Lemma norm_own_pdf row l : region_eqb (f_norm u) l = true ->
  pcall (ufb_model u m) (m_pdf (ufb_model u m)) row (Norm [l]) = of_q (step_value u (Bpdf_Model.pdf b m None) row).
Proof. intros H. cbn. rewrite H. reflexivity. Qed.
Lemma norm_other_pdf row l : region_eqb (f_norm u) l = false ->
  pcall (ufb_model u m) (m_pdf (ufb_model u m)) row (Norm [l]) = ENorm.
Proof. intros H. cbn. rewrite H. reflexivity. Qed.

Definition not_steering (o : outcome) : Prop := match o with Val _ | EOther => True | _ => False end.

Lemma pdf_false row : not_steering (of_q (step_value u (Bpdf_Model.pdf b m (Some NFalse)) row)) ->
  ufb_pdf u m row UFalse = of_q (step_value u (Bpdf_Model.pdf b m (Some NFalse)) row).
Proof.
  intros N. unfold ufb_pdf, pdf, call_pdf, norm_arg. rewrite norm_arg_call_pdf by (right; reflexivity).
  destruct (of_q _); try contradiction; reflexivity.
Qed.
Lemma pdf_own row nm l : norm_arg u nm = Norm [l] -> region_eqb (f_norm u) l = true ->
  not_steering (of_q (step_value u (Bpdf_Model.pdf b m None) row)) ->
  ufb_pdf u m row nm = of_q (step_value u (Bpdf_Model.pdf b m None) row).
Proof.
  intros A E N. unfold ufb_pdf, pdf, call_pdf. rewrite A, norm_own_pdf by exact E.
  destruct (of_q _); try contradiction; reflexivity.
Qed.
Lemma pdf_other row nm l : norm_arg u nm = Norm [l] -> region_eqb (f_norm u) l = false ->
  not_steering (of_q (step_value u (Bpdf_Model.pdf b m (Some NFalse)) row)) ->
  ufb_pdf u m row nm = quotient (of_q (step_value u (Bpdf_Model.pdf b m (Some NFalse)) row)) (ufb_integrate u m [l] UFalse).
Proof.
  intros A E N. unfold ufb_pdf, pdf, call_pdf. rewrite A, norm_other_pdf by exact E.
  rewrite norm_arg_call_pdf by (right; reflexivity).
  destruct (of_q _); try contradiction; reflexivity.
Qed.

(** The extended density. *)
Lemma norm_arg_call_ext row nm : nm = NoNorm \/ nm = NormFalse ->
  pcall (ufb_model u m) (m_ext_pdf (ufb_model u m)) row nm = of_q (step_value u (Bpdf_Model.ext_pdf b m (Some NFalse)) row).
Proof. intros [-> | ->]; reflexivity. Qed.
Lemma norm_own_ext row l : region_eqb (f_norm u) l = true ->
  pcall (ufb_model u m) (m_ext_pdf (ufb_model u m)) row (Norm [l]) = of_q (step_value u (Bpdf_Model.ext_pdf b m None) row).
Proof. intros H. cbn. rewrite H. reflexivity. Qed.
Lemma norm_other_ext row l : region_eqb (f_norm u) l = false ->
  pcall (ufb_model u m) (m_ext_pdf (ufb_model u m)) row (Norm [l]) = ENorm.
Proof. intros H. cbn. rewrite H. reflexivity. Qed.
Lemma ext_false row y : f_yield u = Some y -> not_steering (of_q (step_value u (Bpdf_Model.ext_pdf b m (Some NFalse)) row)) ->
  ufb_ext_pdf u m row UFalse = of_q (step_value u (Bpdf_Model.ext_pdf b m (Some NFalse)) row).
Proof.
  intros Y N. unfold ufb_ext_pdf, ext_pdf. unfold norm_arg. rewrite norm_arg_call_ext by (right; reflexivity).
  cbn [m_yield ufb_model]. rewrite Y. cbn [option_map].
  destruct (of_q _); try contradiction; reflexivity.
Qed.
Lemma ext_own row y nm l : f_yield u = Some y -> norm_arg u nm = Norm [l] -> region_eqb (f_norm u) l = true ->
  not_steering (of_q (step_value u (Bpdf_Model.ext_pdf b m None) row)) ->
  ufb_ext_pdf u m row nm = of_q (step_value u (Bpdf_Model.ext_pdf b m None) row).
Proof.
  intros Y A E N. unfold ufb_ext_pdf, ext_pdf. rewrite A, norm_own_ext by exact E.
  cbn [m_yield ufb_model]. rewrite Y. cbn [option_map].
  destruct (of_q _); try contradiction; reflexivity.
Qed.
Lemma ext_other row y nm l : f_yield u = Some y -> norm_arg u nm = Norm [l] -> region_eqb (f_norm u) l = false ->
  not_steering (of_q (step_value u (Bpdf_Model.ext_pdf b m (Some NFalse)) row)) ->
  not_steering (ufb_integrate u m [l] UFalse) ->
  ufb_ext_pdf u m row nm = quotient (of_q (step_value u (Bpdf_Model.ext_pdf b m (Some NFalse)) row)) (ufb_integrate u m [l] UFalse).
Proof.
  intros Y A E N N2. unfold ufb_ext_pdf, ext_pdf. rewrite A, norm_other_ext by exact E.
  rewrite norm_arg_call_ext by (left; reflexivity).
  change (normalization (ufb_model u m) [l]) with (ufb_integrate u m [l] UFalse).
  cbn [m_yield ufb_model]. rewrite Y. cbn [option_map].
  destruct (of_q _); try contradiction; [|reflexivity].
  destruct (ufb_integrate u m [l] UFalse); try contradiction; reflexivity.
Qed.

(** The integral. *)
Definition binned_integral (l : region) (norm : option normarg) : outcome :=
  of_q (let* s := binned_limits u l in Bpdf_Model.integrate b m (Some s) norm).
Lemma call_int_false l nm : nm = NoNorm \/ nm = NormFalse -> not_steering (binned_integral l (Some NFalse)) ->
  limits_with (call_integrate (ufb_model u m)) [l] nm = binned_integral l (Some NFalse).
Proof.
  intros H N. unfold limits_with, call_integrate.
  assert (E : call (ufb_model u m) (m_integrate (ufb_model u m)) [l] nm = binned_integral l (Some NFalse)) by (destruct H as [-> | ->]; reflexivity).
  rewrite E. destruct (binned_integral _ _); try contradiction; reflexivity.
Qed.
Lemma call_int_own l l' : region_eqb (f_norm u) l' = true -> not_steering (binned_integral l None) ->
  limits_with (call_integrate (ufb_model u m)) [l] (Norm [l']) = binned_integral l None.
Proof.
  intros H N. unfold limits_with, call_integrate.
  assert (E : call (ufb_model u m) (m_integrate (ufb_model u m)) [l] (Norm [l']) = binned_integral l None) by (cbn; rewrite H; reflexivity).
  rewrite E. destruct (binned_integral _ _); try contradiction; reflexivity.
Qed.
Lemma call_int_other l l' : region_eqb (f_norm u) l' = false ->
  limits_with (call_integrate (ufb_model u m)) [l] (Norm [l']) = ENorm.
Proof.
  intros H. unfold limits_with, call_integrate.
  assert (E : call (ufb_model u m) (m_integrate (ufb_model u m)) [l] (Norm [l']) = ENorm) by (cbn; rewrite H; reflexivity).
  rewrite E. reflexivity.
Qed.
Lemma integrate_false l : not_steering (binned_integral l (Some NFalse)) ->
  ufb_integrate u m [l] UFalse = binned_integral l (Some NFalse).
Proof.
  intros N. unfold ufb_integrate, integrate, norm_arg, norm_with. rewrite call_int_false by (auto || exact N).
  destruct (binned_integral _ _); try contradiction; reflexivity.
Qed.
Lemma integrate_own l nm l' : norm_arg u nm = Norm [l'] -> region_eqb (f_norm u) l' = true ->
  not_steering (binned_integral l None) -> ufb_integrate u m [l] nm = binned_integral l None.
Proof.
  intros A E N. unfold ufb_integrate, integrate, norm_with. rewrite A, call_int_own by assumption.
  destruct (binned_integral _ _); try contradiction; reflexivity.
Qed.
Lemma integrate_other l nm l' : norm_arg u nm = Norm [l'] -> region_eqb (f_norm u) l' = false ->
  not_steering (binned_integral l (Some NFalse)) -> not_steering (binned_integral l' (Some NFalse)) ->
  ufb_integrate u m [l] nm = quotient (binned_integral l (Some NFalse)) (binned_integral l' (Some NFalse)).
Proof.
  intros A E N N'. unfold ufb_integrate, integrate, norm_with. rewrite A, call_int_other by assumption.
  rewrite !call_int_false by (auto; assumption). reflexivity.
Qed.
End Hooks.

(** ** Numbers *)
Section Values.
Variables (u : ufb) (v : list nat -> Q) (total : Q) (m : nat).
Let b := f_binned u.
Let e := own_edges b.
Hypothesis HO : histogram_of u v total.

Lemma edges_fine : Forall edges_ok e.
Proof. apply (sf_edges _ _ _ _ (proj1 HO)). Qed.
Lemma total_pos : ~ (total == 0)%Q.
Proof.
  intros H. apply (sf_c _ _ _ _ (proj1 HO)). rewrite H. reflexivity.
Qed.
Lemma norm_box_pos : ~ (in_box e (l_ranges (norm_of b)) v == 0)%Q.
Proof.
  destruct HO as [_ H]. pose proof (sf_norm _ _ _ _ H) as (_&_&A). cbn in A. rewrite with_own_ranges in A. exact A.
Qed.
Lemma increasing_edges : Forall Hist_Spec.increasing e.
Proof. eapply Forall_impl; [|apply edges_fine]. intros x [I _]. exact I. Qed.

Lemma shows_false : shows e (Bpdf_Model.pdf b (5 + m) (Some NFalse)) (height u v total).
Proof.
  destruct HO as [H _]. destruct (views_share b v total (Some NFalse) m H) as ((_&A)&_). exact A.
Qed.
Lemma shows_own : shows e (Bpdf_Model.pdf b (5 + m) None) (height u v (in_box e (l_ranges (norm_of b)) v)).
Proof.
  destruct HO as [_ H]. destruct (views_share b v total None m H) as ((_&A)&_). exact A.
Qed.
Lemma shows_ext_false y : ext_histogram_of u v total -> p_yield b = Some y ->
  shows e (Bpdf_Model.ext_pdf b (5 + m) (Some NFalse)) (fun i => y * (v i / total) / volume e i)%Q.
Proof.
  intros [X _] Y. destruct HO as [H _]. destruct (views_share b v total (Some NFalse) m H) as (_&_&_&_&A). exact (A X y Y).
Qed.
Lemma shows_ext_own y : ext_histogram_of u v total -> p_yield b = Some y ->
  shows e (Bpdf_Model.ext_pdf b (5 + m) None) (fun i => y * (v i / in_box e (l_ranges (norm_of b)) v) / volume e i)%Q.
Proof.
  intros [_ X] Y. destruct HO as [_ H]. destruct (views_share b v total None m H) as (_&_&_&_&A). exact (A X y Y).
Qed.

Lemma limits_fine l : f_obs u = f_bobs u -> names_ok u -> binned_limits u l = Ok (LSpace l (Some e)).
Proof.
  intros SO ((ND&LE)&_). unfold binned_limits. cbn [own_bins b_obs b_edges] in *.
  rewrite SO. fold b in LE |- *. fold e in LE |- *.
  assert (MF : map fst (combine (f_bobs u) e) = f_bobs u).
  { clear ND. revert LE. generalize (f_bobs u) as o. generalize e as es. induction es as [|x es IH]; intros [|a o] L; try discriminate L; [reflexivity|].
    cbn. f_equal. apply IH. cbn in L. lia. }
  destruct (with_binning_ok (f_bobs u) (combine (f_bobs u) e) ND) as (s&ES&OS&(_&LS)&HS).
  { rewrite MF. exact ND. }
  { intros o. rewrite MF. reflexivity. }
  rewrite ES. cbn [bind]. f_equal. f_equal. f_equal.
  apply nth_error_ext. intros k. rewrite OS in LS.
  destruct (nth_error (f_bobs u) k) as [o|] eqn:EO.
  - assert (K : k < length (f_bobs u)) by (apply nth_error_Some; congruence).
    destruct (nth_error e k) as [x|] eqn:EX; [|apply nth_error_None in EX; lia].
    assert (I : In (o, x) (combine (f_bobs u) e)).
    { clear - EO EX. revert EO EX. generalize (f_bobs u) as os. generalize e as es. induction k as [|k IH]; intros [|y es] [|a os] EO EX; try discriminate; cbn in *.
      - left. congruence.
      - right. apply (IH es os EO EX). }
    apply HS in I. destruct I as (k'&H1&H2). rewrite OS in H1.
    assert (k' = k) by (apply (proj1 (NoDup_nth_error (f_bobs u)) ND); [apply nth_error_Some; congruence|congruence]). subst k'. exact H2.
  - apply nth_error_None in EO. transitivity (@None (list Q)); [apply nth_error_None; lia|symmetry; apply nth_error_None; lia].
Qed.

(** Integrals over boxes. *)
Lemma integral_false l : f_obs u = f_bobs u -> names_ok u -> box_ok e l ->
  exists q, binned_integral u (5 + m) l (Some NFalse) = Val (Q2R q) /\ (q == in_box e l v / total)%Q.
Proof.
  intros SO NO BO. unfold binned_integral. rewrite limits_fine by assumption. cbn [bind].
  destruct HO as [H _]. destruct (views_share b v total (Some NFalse) m H) as (_&_&A&_).
  destruct (A l BO) as ((x&EX&VX)&_).
  exists x. split; [exact (f_equal of_q EX)|]. rewrite VX. unfold share.
  apply in_box_div. apply total_pos.
Qed.
Lemma integral_own l : f_obs u = f_bobs u -> names_ok u -> box_ok e l ->
  exists q, binned_integral u (5 + m) l None = Val (Q2R q) /\ (q == in_box e l v / in_box e (l_ranges (norm_of b)) v)%Q.
Proof.
  intros SO NO BO. unfold binned_integral. rewrite limits_fine by assumption. cbn [bind].
  destruct HO as [_ H]. destruct (views_share b v total None m H) as (_&_&A&_).
  destruct (A l BO) as ((x&EX&VX)&_).
  exists x. split; [exact (f_equal of_q EX)|]. rewrite VX. unfold share.
  apply in_box_div. apply norm_box_pos.
Qed.

(** What the code divides by. *)
Definition divisor_of (nm : unorm) : Q :=
  match nm with
  | UFalse => total
  | UOwn => in_box e (l_ranges (norm_of b)) v
  | UBox l => if region_eqb (f_norm u) l then in_box e (l_ranges (norm_of b)) v else in_box e l v
  end.
Lemma region_eqb_refl l : region_eqb l l = true.
Proof.
  unfold region_eqb. apply list_eqb_F2. induction l as [|x l IH]; constructor; [|exact IH].
  unfold range_eqb. apply andb_true_intro. split; apply Qeq_bool_iff; reflexivity.
Qed.
Lemma divisor_asked nm : same_norm u -> (divisor_of nm == asked u v total nm)%Q.
Proof.
  intros SN.
  assert (E : region_eqb (f_norm u) (l_ranges (norm_of b)) = true).
  { unfold region_eqb. apply list_eqb_F2. unfold same_norm in SN. fold b in SN. induction SN as [|a c la lc [H1 H2] SN IH]; constructor; [|exact IH].
    unfold range_eqb. apply andb_true_intro. split; apply Qeq_bool_iff; assumption. }
  destruct nm as [| |l]; cbn [divisor_of asked].
  - symmetry. apply in_box_same, E.
  - reflexivity.
  - destruct (region_eqb (f_norm u) l) eqn:EL; [|reflexivity].
    rewrite <- (in_box_same e _ _ v E). apply (in_box_same e _ _ v EL).
Qed.
Lemma divisor_pos nm : norm_fine u v nm -> ~ (divisor_of nm == 0)%Q.
Proof.
  intros NF. destruct nm as [| |l]; cbn [divisor_of].
  - apply norm_box_pos.
  - apply total_pos.
  - destruct (region_eqb (f_norm u) l); [apply norm_box_pos|]. apply (NF l). left. reflexivity.
Qed.

Lemma density_gen nm : names_ok u -> norm_fine u v nm -> nm = UFalse \/ f_obs u = f_bobs u ->
  steps u (fun row => ufb_pdf u (5 + m) row nm) (height u v (divisor_of nm)).
Proof.
  intros NO NF SO.
  assert (OWN : forall nm, (exists l, norm_arg u nm = Norm [l] /\ region_eqb (f_norm u) l = true) ->
    steps u (fun row => ufb_pdf u (5 + m) row nm) (height u v (in_box e (l_ranges (norm_of b)) v))).
  { intros nm' (l&A&EL). apply (step_steps u _ _ _ NO increasing_edges shows_own). intros row q LR EQ.
    rewrite (pdf_own u (5 + m) row nm' l A EL); fold b; rewrite EQ; [reflexivity|exact I]. }
  assert (FAL : steps u (fun row => ufb_pdf u (5 + m) row UFalse) (height u v total)).
  { apply (step_steps u _ _ _ NO increasing_edges shows_false). intros row q LR EQ.
    rewrite (pdf_false u (5 + m) row); fold b; rewrite EQ; [reflexivity|exact I]. }
  destruct nm as [| |l]; cbn [divisor_of].
  - apply OWN. exists (f_norm u). split; [reflexivity|apply region_eqb_refl].
  - exact FAL.
  - destruct (region_eqb (f_norm u) l) eqn:EL.
    + apply OWN. exists l. split; [reflexivity|exact EL].
    + destruct SO as [SO|SO]; [discriminate SO|]. destruct (NF l (or_introl eq_refl)) as [BO BP].
      destruct (integral_false l SO NO BO) as (z&EZ&VZ).
      assert (ZP : ~ (z == 0)%Q).
      { rewrite VZ. intros H. apply BP. apply (Qmult_inj_r _ _ (/ total)).
        - intros K. apply total_pos. rewrite <- (Qinv_involutive total), K. reflexivity.
        - unfold Qdiv in H. unfold e, b in H. rewrite H. ring. }
      refine (steps_ext u _ _ (fun i => height u v total i / z)%Q _ _ edges_fine NO _ (steps_div u _ _ z ZP FAL)).
      * intros row LR. destruct (step_ok u _ _ row NO increasing_edges shows_false LR) as (q&EQ&_).
        rewrite (pdf_other u (5 + m) row (UBox l) l eq_refl EL); fold b; rewrite ?EQ; [|exact I].
        rewrite (pdf_false u (5 + m) row); fold b; rewrite ?EQ; [|exact I].
        rewrite integrate_false, EZ; [reflexivity|]. rewrite EZ. exact I.
      * intros i Hi. pose proof (volume_pos _ _ edges_fine Hi) as VP. unfold height. rewrite VZ. fold b. fold e.
        field. split; [|split]; [exact BP| |apply total_pos]. intros K. unfold e, b in *. rewrite K in VP. lra.
Qed.

Lemma ext_density_gen nm y y' : names_ok u -> norm_fine u v nm -> nm = UFalse \/ f_obs u = f_bobs u ->
  ext_histogram_of u v total -> p_yield b = Some y -> f_yield u = Some y' ->
  steps u (fun row => ufb_ext_pdf u (5 + m) row nm) (fun i => y * height u v (divisor_of nm) i)%Q.
Proof.
  intros NO NF SO EH Y Y'.
  assert (OWN : forall nm, (exists l, norm_arg u nm = Norm [l] /\ region_eqb (f_norm u) l = true) ->
    steps u (fun row => ufb_ext_pdf u (5 + m) row nm) (fun i => y * height u v (in_box e (l_ranges (norm_of b)) v) i)%Q).
  { intros nm' (l&A&EL).
    refine (steps_ext u _ _ _ _ (fun row _ => eq_refl) edges_fine NO _
             (step_steps u _ _ _ NO increasing_edges (shows_ext_own y EH Y) _)).
    - intros i Hi. pose proof (volume_pos _ _ edges_fine Hi) as VP. unfold height. fold b. fold e. assert (VN : ~ (volume e i == 0)%Q) by (intros K; apply (Qlt_not_eq _ _ VP); symmetry; exact K).
      field. repeat split; (exact VN || apply norm_box_pos).
    - intros row q LR EQ. rewrite (ext_own u (5 + m) row y' nm' l Y' A EL); fold b; rewrite EQ; [reflexivity|exact I]. }
  assert (FAL : steps u (fun row => ufb_ext_pdf u (5 + m) row UFalse) (fun i => y * height u v total i)%Q).
  { refine (steps_ext u _ _ _ _ (fun row _ => eq_refl) edges_fine NO _
             (step_steps u _ _ _ NO increasing_edges (shows_ext_false y EH Y) _)).
    - intros i Hi. pose proof (volume_pos _ _ edges_fine Hi) as VP. unfold height. fold b. fold e. assert (VN : ~ (volume e i == 0)%Q) by (intros K; apply (Qlt_not_eq _ _ VP); symmetry; exact K).
      field. repeat split; (exact VN || apply total_pos).
    - intros row q LR EQ. rewrite (ext_false u (5 + m) row y' Y'); fold b; rewrite EQ; [reflexivity|exact I]. }
  destruct nm as [| |l]; cbn [divisor_of].
  - apply OWN. exists (f_norm u). split; [reflexivity|apply region_eqb_refl].
  - exact FAL.
  - destruct (region_eqb (f_norm u) l) eqn:EL.
    + apply OWN. exists l. split; [reflexivity|exact EL].
    + destruct SO as [SO|SO]; [discriminate SO|]. destruct (NF l (or_introl eq_refl)) as [BO BP].
      destruct (integral_false l SO NO BO) as (z&EZ&VZ).
      assert (ZP : ~ (z == 0)%Q).
      { rewrite VZ. intros H. apply BP. apply (Qmult_inj_r _ _ (/ total)).
        - intros K. apply total_pos. rewrite <- (Qinv_involutive total), K. reflexivity.
        - unfold Qdiv in H. unfold e, b in H. rewrite H. ring. }
      refine (steps_ext u _ _ (fun i => y * height u v total i / z)%Q _ _ edges_fine NO _ (steps_div u _ _ z ZP FAL)).
      * intros row LR. destruct (step_ok u _ _ row NO increasing_edges (shows_ext_false y EH Y) LR) as (q&EQ&_).
        assert (IV : ufb_integrate u (5 + m) [l] UFalse = Val (Q2R z)) by (rewrite integrate_false, EZ; [reflexivity|]; rewrite EZ; exact I).
        rewrite (ext_other u (5 + m) row y' (UBox l) l Y' eq_refl EL); fold b; rewrite ?EQ, ?IV; [|exact I|exact I].
        rewrite (ext_false u (5 + m) row y' Y'); fold b; rewrite ?EQ; [|exact I]. reflexivity.
      * intros i Hi. pose proof (volume_pos _ _ edges_fine Hi) as VP. unfold height. rewrite VZ. fold b. fold e.
        assert (VN : ~ (volume e i == 0)%Q) by (intros K; apply (Qlt_not_eq _ _ VP); symmetry; exact K).
        field. repeat split; (exact VN || exact BP || apply total_pos).
Qed.

(** The integral of the step function. *)
Lemma weights_of es l idx : length es = length l -> Forall edges_ok es -> in_shape idx (shape_of es) ->
  (bin_weight length_of (box es l) idx / volume es idx == bin_weight fraction_of (box es l) idx)%Q.
Proof.
  intros L OK. unfold shape_of, bin_weight, box, volume. revert l L idx.
  induction OK as [|x es O OK IH]; intros [|r l] L [|y idx] H; cbn [map] in H; try (inversion H; fail); try discriminate L.
  - reflexivity.
  - assert (HY : y < length x - 1 /\ in_shape idx (shape_of es)) by (inversion H; subst; split; assumption).
    destruct HY as [HY H2]. specialize (IH l ltac:(cbn in L; lia) idx H2). pose proof (volume_pos es idx OK H2) as VP.
    cbn [combine map product fst snd]. unfold length_of at 1, fraction_of at 1. cbn [fst snd]. unfold fraction.
    rewrite <- IH. unfold volume in VP.
    assert (W : (0 < width x y)%Q).
    { destruct O as [I0 L0]. unfold width. pose proof (inc_nth x y (S y) I0) as Q1. cut (nth y x 0 < nth (S y) x 0)%Q; [intros; lra|]. apply Q1; lia. }
    field. split; intros K; [apply (Qlt_not_eq _ _ VP)|apply (Qlt_not_eq _ _ W)]; symmetry; exact K.
Qed.
Lemma step_integral_box l d : ~ (d == 0)%Q -> box_ok e l ->
  (step_integral e (height u v d) l == in_box e l v / d)%Q.
Proof.
  intros D BO. unfold step_integral, height. fold b. fold e.
  rewrite <- in_box_div by exact D. unfold in_box. apply qsum_ext. intros i Hi. apply indices_in in Hi.
  rewrite <- (weights_of e l i (Forall2_length' _ _ _ BO) edges_fine Hi).
  pose proof (volume_pos _ _ edges_fine Hi) as VP. assert (VN : ~ (volume e i == 0)%Q) by (intros K; apply (Qlt_not_eq _ _ VP); symmetry; exact K).
  field. repeat split; (exact VN || exact D).
Qed.
Lemma integral_gen nm (l : region) : names_ok u -> norm_fine u v nm -> f_obs u = f_bobs u -> box_ok e l ->
  ufb_integrate u (5 + m) [l] nm = Val (Q2R (in_box e l v / divisor_of nm)).
Proof.
  intros NO NF SO BO.
  assert (OWN : forall nm, (exists l, norm_arg u nm = Norm [l] /\ region_eqb (f_norm u) l = true) ->
     ufb_integrate u (5 + m) [l] nm = Val (Q2R (in_box e l v / in_box e (l_ranges (norm_of b)) v))).
  { intros nm' (l'&A&EL). destruct (integral_own l SO NO BO) as (q&EQ&VQ).
    etransitivity; [apply (integrate_own u (5 + m) l nm' l' A EL); rewrite EQ; exact I|]. rewrite EQ. f_equal. apply Qeq_eqR, VQ. }
  destruct (integral_false l SO NO BO) as (q&EQ&VQ).
  destruct nm as [| |l']; cbn [divisor_of].
  - apply OWN. exists (f_norm u). split; [reflexivity|apply region_eqb_refl].
  - etransitivity; [apply (integrate_false u (5 + m) l); rewrite EQ; exact I|]. rewrite EQ. f_equal. apply Qeq_eqR, VQ.
  - destruct (region_eqb (f_norm u) l') eqn:EL.
    + apply OWN. exists l'. split; [reflexivity|exact EL].
    + destruct (NF l' (or_introl eq_refl)) as [BO' BP].
      destruct (integral_false l' SO NO BO') as (z&EZ&VZ).
      etransitivity; [apply (integrate_other u (5 + m) l (UBox l') l' eq_refl EL); rewrite ?EQ, ?EZ; exact I|]. rewrite EQ, EZ. cbn [quotient].
      assert (ZP : ~ (z == 0)%Q).
      { rewrite VZ. intros H. apply BP. apply (Qmult_inj_r _ _ (/ total)).
        - intros K. apply total_pos. rewrite <- (Qinv_involutive total), K. reflexivity.
        - unfold Qdiv in H. unfold e, b in H. rewrite H. ring. }
      rewrite <- Q2R_div by exact ZP. f_equal. apply Qeq_eqR. rewrite VQ, VZ. field. repeat split; (exact BP || apply total_pos).
Qed.
End Values.
