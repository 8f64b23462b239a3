(** C68: the views of a binned PDF agree. *)
From Verif Require Import Base BaseLemmas Hist_Model Hist_Spec Hist_Proofs3 BInt_Model BInt_Spec
  Bpdf_Model Bpdf_Spec Bpdf_Proofs Bpdf_Proofs2 Bpdf_Proofs3 Bpdf_Proofs4.
From Coq Require Import Lqa.
#[local] Open Scope string_scope.
#[local] Open Scope list_scope.
#[local] Open Scope nat_scope.

(** ** Classes of users *)

(** A class that implements relative contents, or contents and a yield, and maybe more, each
    with or without support for norms: [pdf], [rel_counts], [counts], [ext_pdf], [integrate] and
    [ext_integrate] all tell the same histogram, and it is normalised as asked for. *)
Theorem C68_views_agree : forall b v total norm n,
  stands_for b v (/ total) (convert_norm b norm) -> ext_honest b v (/ total) (convert_norm b norm) ->
  views b (5 + n) norm (share b v total norm) /\ normalised b norm (share b v total norm).
Proof.
  intros b v total norm n S1 S2. destruct (views_share b v total norm n S1) as (A&B&C&D&E).
  split; [split; [exact A|split; [exact B|split; [apply E, S2|exact C]]]|exact D].
Qed.
Print Assumptions C68_views_agree.
(** [values], which plotting and histogram tools call: the contents of an extended PDF, the relative contents otherwise *)
Theorem C68_values : forall b v total n,
  stands_for b v (/ total) (convert_norm b None) -> ext_honest b v (/ total) (convert_norm b None) ->
  shows (own_edges b) (hist_values b (5 + n))
    (fun i => match p_yield b with Some y => y * share b v total None i | None => share b v total None i end)%Q.
Proof.
  intros b v total n S1 S2. destruct (C68_views_agree b v total None n S1 S2) as [[[A _] [B _]] _]. unfold hist_values.
  destruct (p_yield b) as [y|] eqn:Y; [exact (B y Y)|exact A].
Qed.
Print Assumptions C68_values.

(** Two bins [0,1], [1,3] *)
Definition ex_e : list (list Q) := [[0; 1; 3]%Q].
Definition ex_space : lspace := LSpace (whole ex_e) (Some ex_e).
Definition one_axis (l : list Q) : tensor := Tensor [length l] (fun i => match i with [k] => nth k l 0%Q | _ => 0%Q end).
Definition ex_data : tensor := one_axis [1; 3]%Q.
Lemma ex_e_ok : Forall edges_ok ex_e.
Proof. constructor; [|constructor]. split; [repeat constructor; unfold Qlt; cbn; lia|cbn; lia]. Qed.
Definition first_bin : lspace := LSpace [(0, 1)%Q] None.
Lemma ex_box : box_ok ex_e [(0, 1)%Q].
Proof. repeat constructor; unfold Qlt, Qle; cbn; lia. Qed.

(** A class with contents only, and only without norm. *)
Definition ex_user : bpdf :=
  Bpdf ex_space None (Some 8%Q) None None (Some (Hook false false false (fun _ => Ok ex_data))) None None None None None None None None.
Lemma ex_show l f : length l = 2 -> (f [0%nat] == nth 0 l 0)%Q -> (f [1%nat] == nth 1 l 0)%Q -> shows ex_e (Ok (one_axis l)) f.
Proof.
  intros L H0 H1. eexists. split; [reflexivity|]. split; [cbn; rewrite L; reflexivity|].
  intros idx H. cbn in H. inversion H as [|k ? r ? K R]; subst. inversion R; subst.
  destruct k as [|[|k]]; cbn [one_axis t_get]; [symmetry; exact H0|symmetry; exact H1|lia].
Qed.
Example ex_user_stands :
  stands_for ex_user (t_get ex_data) (/ 8) (convert_norm ex_user (Some (NSpace first_bin))) /\
  ext_honest ex_user (t_get ex_data) (/ 8) (convert_norm ex_user (Some (NSpace first_bin))).
Proof.
  split; [constructor|].
  - exact ex_e_ok.
  - discriminate.
  - split; [reflexivity|]. split; [exact ex_box|]. vm_compute. discriminate.
  - split; apply H_absent; left; reflexivity.
  - split; [|right]; intros y Y; injection Y as <-; [apply H_without|apply H_direct]; try reflexivity;
      (apply ex_show; [reflexivity| |]; vm_compute; reflexivity).
  - assert (P : forall nm, present (deco ex_user (p_counts ex_user)) nm).
    { intros [|s]; intros [A|[A B]]; discriminate. }
    split; right; (split; [exists 8%Q; split; [reflexivity|discriminate]|apply P]).
  - intros h E. discriminate E.
  - left. reflexivity.
  - repeat split.
  - intros y Y. injection Y as <-. split; [discriminate|]. apply H_absent. left. reflexivity.
Qed.
Example ex_user_values : exists t, pdf ex_user 5 (Some (NSpace first_bin)) = Ok t /\ (t_get t [1%nat] == 3 # 2)%Q.
Proof. eexists. split; [vm_compute; reflexivity|vm_compute; reflexivity]. Qed.

(** A class that implements the unnormalised density only: nothing can be computed, [pdf] and
    [rel_counts] call each other for ever; the density of the base class for PDFs is there, but
    is not reached. *)
Theorem C68_unnormalized_only_refuted : forall space norm0 yield t n norm,
  let b := Bpdf space norm0 yield None None None None None (Some (Ok t)) None None None None None in
  pdf b n norm = Err RuntimeError /\ rel_counts_of b n norm = Err RuntimeError.
Proof.
  intros space norm0 yield t n norm b. unfold pdf, rel_counts_of. generalize (convert_norm b norm). intros nm.
  revert nm. induction n as [|n IH]; intros nm; [split; reflexivity|].
  destruct (IH nm) as [I1 I2]. rewrite call_pdf_S, call_rel_S.
  change (p_pdf b) with (@None hook). change (p_rel_counts b) with (@None hook). change (p_counts b) with (@None hook).
  unfold auto. rewrite I1, I2. split; reflexivity.
Qed.
Print Assumptions C68_unnormalized_only_refuted.

(** A class that implements the density for every norm only, and has a yield: the relative
    contents and the extended density are right, the contents raise. *)
Theorem C68_density_only_refuted : forall space norm0 y f n norm,
  let b := Bpdf space norm0 (Some y) (Some (Hook true false false f)) None None None None None None None None None None in
  (forall r, Forall edges_ok (own_edges b) -> shows (own_edges b) (f (convert_norm b norm)) (fun i => r i / volume (own_edges b) i)%Q ->
     plain_views b (2 + n) norm r /\ ext_view b (2 + n) norm r) /\
  counts b n norm = Err SpecificFunctionNotImplemented.
Proof.
  intros space norm0 y f n norm b. split; [|reflexivity].
  intros r OK S1. set (nm := convert_norm b norm) in *.
  assert (P : forall k, shows (own_edges b) (call_pdf b (S k) nm) (fun i => r i / volume (own_edges b) i)%Q).
  { intros k. rewrite call_pdf_S. change (p_pdf b) with (Some (Hook true false false f)). apply suppress_shows.
    apply (auto_shows (own_edges b) (deco b (Some (Hook true false false f)))). rewrite deco_true. exact S1. }
  split; [split|].
  - unfold rel_counts_of. fold nm. change (2 + n) with (S (S n)). rewrite call_rel_S.
    change (p_rel_counts b) with (@None hook). change (p_counts b) with (@None hook). cbn [deco auto suppress bind].
    apply shows_times_areas; [exact OK|apply P].
  - apply (P (S n)).
  - intros y' Y. injection Y as <-. unfold ext_pdf, get_yield, call_ext_pdf.
    change (p_yield b) with (Some y). change (p_ext_pdf b) with (@None hook). change (p_counts b) with (@None hook).
    cbn [opt_result bind deco auto suppress divide_areas]. fold nm. apply (shows_ext _ _ (fun i => r i / volume (own_edges b) i * y)%Q).
    { intros i _. unfold Qdiv. ring. }
    apply (shows_times _ _ (fun i => r i / volume (own_edges b) i)%Q). apply (P (S n)).
Qed.
Print Assumptions C68_density_only_refuted.

(** ** HistogramPDF *)
Theorem C68_histogram : forall e data extended norm0 norm n,
  Forall edges_ok e -> t_shape data = shape_of e ->
  let total := in_all e (t_get data) in
  let b := histogram_pdf (LSpace (whole e) (Some e)) data extended norm0 in
  let r := share b (t_get data) total norm in
  ~ (total == 0)%Q -> norm_for b (t_get data) norm ->
  plain_views b (5 + n) norm r /\ counts_view b (5 + n) norm r /\ integral_views b (5 + n) norm r /\ normalised b norm r /\
  (yield_given extended \/ asks_for_all b norm -> ext_view b (5 + n) norm r).
Proof.
  intros e data extended norm0 norm n OK SH total b r T0 NF.
  destruct (views_share b (t_get data) total norm n (hist_stands e data extended norm0 OK SH T0 norm NF)) as (A&B&C&D&E).
  split; [exact A|]. split; [exact B|]. split; [exact C|]. split; [exact D|]. intros H. apply E.
  apply (hist_ext_honest e data extended norm0 OK SH T0). unfold hist_ext_ok. fold b.
  destruct H as [H|H].
  - destruct extended; try elim H; exact H.
  - pose proof (asks_for_all_space b norm (conj OK eq_refl) H) as G.
    destruct extended; try exact I; exact G.
Qed.
Print Assumptions C68_histogram.
Example ex_histogram : forall norm, norm = None \/ norm = Some (NSpace first_bin) ->
  ~ (in_all ex_e (t_get ex_data) == 0)%Q /\ norm_for (histogram_pdf ex_space ex_data ExtNone None) (t_get ex_data) norm.
Proof.
  intros norm H. split; [vm_compute; discriminate|].
  destruct H as [-> | ->].
  - split; [right; reflexivity|]. split; [apply whole_ok, ex_e_ok|]. vm_compute. discriminate.
  - split; [left; reflexivity|]. split; [exact ex_box|]. vm_compute. discriminate.
Qed.

(** The extended density of a histogram whose yield is its total, with another norm than its
    space: the yield is there twice. *)
Theorem C68_histogram_ext_norm_refuted : forall e data extended norm0 s n,
  Forall edges_ok e -> t_shape data = shape_of e -> extended = ExtNone \/ extended = ExtTrue ->
  let total := in_all e (t_get data) in
  let b := histogram_pdf (LSpace (whole e) (Some e)) data extended norm0 in
  let r := share b (t_get data) total (Some (NSpace s)) in
  ~ (total == 0)%Q -> space_for b (t_get data) s -> lspace_eqb (p_space b) (with_own_binning b s) = false ->
  p_yield b = Some (tsum data) /\ tsum data = total /\
  shows e (ext_pdf b (5 + n) (Some (NSpace s))) (fun i => total * (total * r i / volume e i))%Q.
Proof.
  intros e data extended norm0 s n OK SH AU total b r T0 SF NE.
  split; [unfold b; destruct AU as [-> | ->]; reflexivity|]. split; [apply (tsum_in_all e data SH)|].
  apply (hist_twice e data extended norm0 OK SH T0 AU s n SF NE).
Qed.
Print Assumptions C68_histogram_ext_norm_refuted.
Example ex_twice : exists t, ext_pdf (histogram_pdf ex_space ex_data ExtNone None) 5 (Some (NSpace first_bin)) = Ok t /\
  (t_get t [0%nat] == 16)%Q /\ ~ (t_get t [0%nat] == 4)%Q.
Proof. eexists. split; [vm_compute; reflexivity|]. split; [vm_compute; reflexivity|vm_compute; discriminate]. Qed.

(** ** BinnedTemplatePDFV1 *)
Theorem C68_template : forall e data sysshape extended norm n,
  Forall edges_ok e -> t_shape data = shape_of e ->
  let contents i := (t_get data i * match sysshape with None => 1 | Some s => t_get s i end)%Q in
  let total := in_all e contents in
  let b := template_pdf (LSpace (whole e) (Some e)) data sysshape extended None in
  let r := share b contents total norm in
  ~ (total == 0)%Q -> norm_for b contents norm ->
  plain_views b (5 + n) norm r /\ counts_view b (5 + n) norm r /\ integral_views b (5 + n) norm r /\ normalised b norm r /\
  (yield_given extended \/ asks_for_all b norm -> ext_view b (5 + n) norm r).
Proof.
  intros e data sysshape extended norm n OK SH contents total b r T0 NF.
  set (v := t_get match sysshape with None => data | Some s => tmap2 Qmult data s end).
  assert (EV : forall i, (contents i == v i)%Q).
  { intros i. unfold contents, v. destruct sysshape as [s|]; cbn [tmap2 t_get]; ring. }
  assert (ET : (total == in_all e v)%Q) by (apply in_all_ext; intros; apply EV).
  assert (EB : forall rs, (in_box e rs contents == in_box e rs v)%Q) by (intros; apply in_box_ext; intros; apply EV).
  assert (T0' : ~ (in_all e v == 0)%Q) by (rewrite <- ET; exact T0).
  assert (NB : (in_box e (l_ranges (norm_of b)) v == in_all e v)%Q) by (apply in_box_whole, OK).
  assert (NF' : norm_for b v norm).
  { destruct norm as [[|s]|]; [exact I| |]; destruct NF as (N1&N2&N3); (split; [exact N1|]); (split; [exact N2|]);
      intros H; apply N3; change (own_edges b) with e; rewrite EB; exact H. }
  assert (ER : forall i, (share b v (in_all e v) norm i == r i)%Q).
  { intros i. unfold r, share. change (own_edges b) with e. rewrite (EV i).
    destruct norm as [[|s]|]; rewrite ?EB, ?ET; reflexivity. }
  destruct (views_share b v (in_all e v) norm n (tmpl_stands e data sysshape extended None OK SH T0' NB norm NF')) as (A&B&C&D&E).
  split; [apply (plain_ext _ _ _ _ _ ER A)|]. split; [apply (counts_ext _ _ _ _ _ ER B)|].
  split; [apply (integral_ext _ _ _ _ _ ER C)|]. split; [apply (normalised_ext _ _ _ _ ER D)|].
  intros H. apply (ext_ext _ _ _ _ _ ER). apply E. apply (tmpl_ext_honest e data sysshape extended None OK SH T0' NB).
  unfold tmpl_ext_ok. fold b. destruct H as [H|H].
  - destruct extended; try elim H; exact H.
  - pose proof (asks_for_all_space b norm (conj OK eq_refl) H) as G. destruct extended; try exact I; exact G.
Qed.
Print Assumptions C68_template.
Definition ex_factors : tensor := one_axis [2; 1]%Q.
Example ex_template : exists t, counts (template_pdf ex_space ex_data (Some ex_factors) ExtNone None) 5 (Some (NSpace first_bin)) = Ok t /\
  (t_get t [0%nat] == 5)%Q /\ (t_get t [1%nat] == 15 # 2)%Q.
Proof. eexists. split; [vm_compute; reflexivity|]. split; vm_compute; reflexivity. Qed.

(** A template with a norm of its own: [rel_counts] are relative to everything, [pdf] to the
    norm. *)
Theorem C68_template_norm_refuted : forall e data sysshape extended rs n,
  Forall edges_ok e -> t_shape data = shape_of e ->
  let v := t_get match sysshape with None => data | Some s => tmap2 Qmult data s end in
  let b := template_pdf (LSpace (whole e) (Some e)) data sysshape extended (Some (LSpace rs (Some e))) in
  ~ (in_all e v == 0)%Q -> box_ok e rs -> ~ (in_box e rs v == 0)%Q -> ~ (in_box e rs v == in_all e v)%Q ->
  shows e (rel_counts_of b (5 + n) None) (fun i => v i / in_all e v)%Q /\
  shows e (pdf b (5 + n) None) (fun i => v i / in_box e rs v / volume e i)%Q /\
  forall r, plain_views b (5 + n) None r -> forall i, in_shape i (shape_of e) -> (v i == 0)%Q.
Proof.
  intros e data sysshape extended rs n OK SH v b T0 BO S0 NE.
  destruct (tmpl_own_norm e data sysshape extended (LSpace rs (Some e)) OK SH T0 eq_refl BO S0 n) as [A B].
  split; [exact A|]. split; [exact B|]. intros r [P1 P2] i I. fold b in A, B.
  destruct A as (t&A1&_&A3). destruct B as (u&B1&_&B3). destruct P1 as (t'&P1&_&P1'). destruct P2 as (u'&P2&_&P2').
  change (own_edges b) with e in *.
  assert (t' = t) by congruence. assert (u' = u) by congruence. subst t' u'.
  pose proof (volume_pos e i OK I) as VP.
  assert (E : (v i / in_all e v == v i / in_box e rs v)%Q).
  { fold v in A3, B3. cbn [l_ranges] in B3. rewrite <- (A3 i I), (P1' i I).
    assert (r i / volume e i == v i / in_box e rs v / volume e i)%Q by (rewrite <- (P2' i I); apply B3, I).
    apply (Qmult_inj_r _ _ (/ volume e i)); [|exact H].
    intros Z. assert (volume e i == 0)%Q by (rewrite <- (Qinv_involutive (volume e i)), Z; reflexivity). lra. }
  destruct (Qeq_dec (v i) 0) as [Z|Z]; [exact Z|]. elim NE.
  assert (E2 : (v i * in_box e rs v == v i * in_all e v)%Q).
  { assert (H : (v i / in_all e v * (in_all e v * in_box e rs v) == v i / in_box e rs v * (in_all e v * in_box e rs v))%Q) by (rewrite E; reflexivity).
    transitivity (v i / in_all e v * (in_all e v * in_box e rs v))%Q; [field; exact T0|]. rewrite H. field. exact S0. }
  apply (Qmult_inj_l _ _ (v i)); assumption.
Qed.
Print Assumptions C68_template_norm_refuted.
Example ex_template_norm : box_ok ex_e [(0, 1)%Q] /\ ~ (in_box ex_e [(0, 1)%Q] (t_get ex_data) == in_all ex_e (t_get ex_data))%Q.
Proof. split; [exact ex_box|vm_compute; discriminate]. Qed.

(** ** BinwiseScaleModifier *)

(** Of a PDF whose contents are the same without norm and normalised to its space (as those of
    a histogram). With its own automatic yield: for the norms over everything; with a given
    yield or none: for all norms. *)
Theorem C68_modifier : forall m d modifiers extended w b norm n,
  modifier_pdf m d modifiers extended None = Ok b -> pdf_space_ok d ->
  let e := own_edges d in
  shows e (counts d m (Some NFalse)) w ->
  (forall s, lspace_eqb (p_space d) s = true -> shows e (counts d m (Some (NSpace s))) w) ->
  (forall y, p_yield d = Some y -> (in_all e w == y)%Q) ->
  let contents i := (w i * match modifiers with None => 1 | Some s => t_get s i end)%Q in
  let total := in_all e contents in
  let r := share b contents total norm in
  ~ (total == 0)%Q -> norm_for b contents norm -> yield_given extended \/ asks_for_all b norm ->
  views b (5 + n) norm r /\ normalised b norm r.
Proof.
  intros m d modifiers extended w b norm n B SP e D0 D1 DY contents total r T0 NF H.
  assert (Y1 : modifiers = None -> forall y, p_yield d = Some y -> (y == total)%Q).
  { intros EM y Y. rewrite <- (DY y Y). apply in_all_ext. intros i _. unfold contents. rewrite EM. ring. }
  destruct (mod_own m d modifiers extended w D1 T0 Y1 b B) as (E1&E2&_).
  assert (SB : pdf_space_ok b) by (unfold pdf_space_ok; rewrite E1, E2; exact SP).
  assert (MN : mod_norm_ok d extended b norm).
  { unfold mod_norm_ok. destruct H as [H|H].
    - destruct extended; try elim H; exact I.
    - pose proof (asks_for_all_space b norm SB H) as G. rewrite E1 in G. destruct extended; try exact I; exact G. }
  pose proof (mod_stands m d modifiers extended w SP D0 D1 T0 Y1 b B norm NF MN) as ST.
  destruct (views_share b contents total norm n ST) as (V1&V2&V3&V4&V5).
  split; [|exact V4]. split; [exact V1|]. split; [exact V2|]. split; [|exact V3].
  apply V5. eapply mod_ext_honest; eassumption.
Qed.
Print Assumptions C68_modifier.
Definition ex_hist : bpdf := histogram_pdf ex_space ex_data ExtNone None.
Definition ex_modified : bpdf :=
  match modifier_pdf 5 ex_hist (Some ex_factors) ExtNone None with Ok b => b | Err _ => ex_hist end.
Example ex_modifier :
  modifier_pdf 5 ex_hist (Some ex_factors) ExtNone None = Ok ex_modified /\ pdf_space_ok ex_hist /\
  shows ex_e (counts ex_hist 5 (Some NFalse)) (t_get ex_data) /\
  (forall s, lspace_eqb (p_space ex_hist) s = true -> shows ex_e (counts ex_hist 5 (Some (NSpace s))) (t_get ex_data)) /\
  (forall y, p_yield ex_hist = Some y -> (in_all ex_e (t_get ex_data) == y)%Q) /\
  asks_for_all ex_modified None /\ exists y, p_yield ex_modified = Some y /\ (y == 5)%Q.
Proof.
  split; [reflexivity|]. split; [split; [exact ex_e_ok|reflexivity]|].
  split; [exact (shows_ok ex_e ex_data eq_refl)|]. split.
  { intros s H. unfold counts, call_counts. cbn [p_yield ex_hist histogram_pdf get_yield opt_result bind].
    assert (E : with_own_binning ex_hist s = s).
    { unfold with_own_binning, lspace_eqb in *. destruct (l_binning s); [reflexivity|]. apply andb_prop in H. destruct H as [_ H]. discriminate H. }
    apply suppress_shows, auto_shows. cbn [convert_norm]. rewrite E. unfold deco. cbn [p_counts ex_hist histogram_pdf k_true k_space k_norm orb andb k_fun].
    change (p_space (histogram_pdf ex_space ex_data ExtNone None)) with (p_space ex_hist). rewrite H. cbn [orb].
    exact (shows_ok ex_e ex_data eq_refl). }
  split; [intros y Y; injection Y as <-; vm_compute; reflexivity|]. split; [reflexivity|]. eexists. split; [reflexivity|]. vm_compute. reflexivity.
Qed.

(** Of a PDF that is not extended: the relative contents and the density raise, for they are
    taken from the contents of the daughter. *)
Theorem C68_modifier_not_extended_refuted : forall m d modifiers extended norm0 b n norm,
  p_yield d = None -> modifier_pdf m d modifiers extended norm0 = Ok b ->
  rel_counts_of b (1 + n) norm = Err NotExtendedPDFError /\ pdf b (2 + n) norm = Err NotExtendedPDFError.
Proof.
  intros m d modifiers extended norm0 b n norm Y B.
  assert (M : forall nm, modified m d modifiers nm = Err NotExtendedPDFError).
  { intros nm. unfold modified, counts, get_yield. rewrite Y. reflexivity. }
  assert (F : p_pdf b = None /\ exists h, p_rel_counts b = Some h /\ forall nm, k_fun h nm = Err NotExtendedPDFError).
  { unfold modifier_pdf in B. cbn zeta in B. destruct (match match extended with ExtNone => _ | _ => _ end with ExtNone => _ | _ => _ end) as [y|]; [|discriminate B].
    cbn [bind] in B. injection B as <-. split; [reflexivity|]. eexists. split; [reflexivity|]. intros nm. cbn [k_fun]. rewrite M. reflexivity. }
  destruct F as [F1 (h&F2&F3)].
  assert (R : forall k nm, call_rel_counts b (S k) nm = Err NotExtendedPDFError).
  { intros k nm. rewrite call_rel_S, F2. unfold auto, deco. destruct nm as [|s]; [rewrite F3; reflexivity|].
    destruct (_ || _); rewrite F3; reflexivity. }
  split; [apply R|]. unfold pdf. change (2 + n) with (S (S n)). rewrite call_pdf_S, F1. unfold auto. rewrite R. reflexivity.
Qed.
Print Assumptions C68_modifier_not_extended_refuted.
Example ex_modifier_not_extended : exists b,
  modifier_pdf 5 (histogram_pdf ex_space ex_data ExtFalse None) (Some ex_factors) ExtNone None = Ok b.
Proof. eexists. reflexivity. Qed.

(** The automatic contents with another norm: the contents of the daughter for that norm are
    modified, which is not yield times relative contents. *)
Theorem C68_modifier_norm_refuted : exists m d modifiers b norm n t u y i,
  modifier_pdf m d modifiers ExtNone None = Ok b /\ pdf_space_ok d /\
  rel_counts_of b n norm = Ok t /\ counts b n norm = Ok u /\ p_yield b = Some y /\
  in_shape i (shape_of (own_edges b)) /\ ~ (t_get u i == y * t_get t i)%Q.
Proof.
  exists 5, ex_hist, (Some ex_factors), ex_modified, (Some (NSpace first_bin)), 5. eexists. eexists. eexists. exists [0].
  split; [reflexivity|]. split; [split; [exact ex_e_ok|reflexivity]|].
  split; [reflexivity|]. split; [reflexivity|]. split; [reflexivity|].
  split; [constructor; [cbn; lia|constructor]|]. vm_compute. discriminate.
Qed.
Print Assumptions C68_modifier_norm_refuted.

(** ** BinnedSumPDF *)

(** Daughters, fractions and relative contents (each normalised to the norm of its daughter).
    If the sum is extended, the fractions are those of the yields of the daughters. *)
Theorem C68_sum : forall m e (xs : list (bpdf * Q * (list nat -> Q))) yield norm n,
  Forall edges_ok e ->
  (forall d f r, In (d, f, r) xs -> own_edges d = e /\ plain_views d m None r /\ (in_box e (l_ranges (norm_of d)) r == 1)%Q) ->
  (qsum (map (fun x => snd (fst x)) xs) == 1)%Q ->
  (forall y, yield = Some y -> forall d f r, In (d, f, r) xs ->
     counts_view d m None r /\ ext_view d m None r /\ exists yd, p_yield d = Some yd /\ (f * y == yd)%Q) ->
  let b := sum_pdf m (LSpace (whole e) (Some e)) (map fst xs) yield in
  let contents i := qsum (map (fun x => snd (fst x) * snd x i)%Q xs) in
  let r := share b contents 1 norm in
  norm_for b contents norm ->
  plain_views b (5 + n) norm r /\ counts_view b (5 + n) norm r /\ integral_views b (5 + n) norm r /\ normalised b norm r /\
  (asks_for_all b norm /\ (forall d f r, In (d, f, r) xs -> norm_of d = LSpace (whole e) (Some e)) -> ext_view b (5 + n) norm r).
Proof.
  intros m e xs yield norm n OK Own F1 Ext b contents r NF.
  destruct (views_share b contents 1 norm n (sum_stands m e yield xs OK Own F1 Ext norm NF)) as (A&B&C&D&E).
  split; [exact A|]. split; [exact B|]. split; [exact C|]. split; [exact D|]. intros [H1 H2]. apply E.
  apply (sum_ext_honest m e yield xs Own F1 Ext norm).
  pose proof (asks_for_all_space b norm (conj OK eq_refl) H1) as G. fold b.
  destruct (convert_norm b norm) as [|s]; [reflexivity|]. cbn [equal_norms]. apply forallb_forall.
  intros [d f] I. apply in_map_iff in I. destruct I as ([[d' f'] r']&I1&I2). cbn in I1. injection I1 as -> ->.
  cbn [fst]. rewrite (H2 d f r' I2). exact G.
Qed.
Print Assumptions C68_sum.

(** Without fractions: the fractions are those of the yields, and everything is in the contents. *)
Theorem C68_sum_extended : forall m e (zs : list (bpdf * Q * (list nat -> Q))) norm n,
  Forall edges_ok e ->
  (forall d y r, In (d, y, r) zs -> own_edges d = e /\ p_yield d = Some y /\ plain_views d m None r /\
     counts_view d m None r /\ ext_view d m None r /\ (in_box e (l_ranges (norm_of d)) r == 1)%Q) ->
  let total := qsum (map (fun x => snd (fst x)) zs) in
  ~ (total == 0)%Q ->
  exists b, sum_pdf_extended m (LSpace (whole e) (Some e)) (map (fun x => fst (fst x)) zs) = Ok b /\
    (exists y, p_yield b = Some y /\ (y == total)%Q) /\
    let contents i := qsum (map (fun x => snd (fst x) * snd x i)%Q zs) in
    let r := share b contents total norm in
    (norm_for b contents norm ->
     plain_views b (5 + n) norm r /\ counts_view b (5 + n) norm r /\ integral_views b (5 + n) norm r /\ normalised b norm r).
Proof.
  intros m e zs norm n OK Own total T0.
  assert (EY : mapM get_yield (map (fun x => fst (fst x)) zs) = Ok (map (fun x => snd (fst x)) zs)).
  { assert (H : forall d y r, In (d, y, r) zs -> p_yield d = Some y) by (intros d y r I; apply (Own d y r I)). clear - H.
    induction zs as [|[[d y] r] l IH]; [reflexivity|]. cbn [map mapM fst snd].
    unfold get_yield at 1. rewrite (H d y r (or_introl eq_refl)). cbn [opt_result bind].
    rewrite IH; [reflexivity|]. intros d' y' r' I. apply (H d' y' r'). right. exact I. }
  unfold sum_pdf_extended. rewrite EY. cbn [bind]. eexists. split; [reflexivity|].
  split; [exists total; split; reflexivity|]. fold total.
  set (xs := map (fun x => (fst (fst x), (snd (fst x) / total)%Q, snd x)) zs).
  assert (EX : combine (map (fun x => fst (fst x)) zs) (map (fun y => (y / total)%Q) (map (fun x => snd (fst x)) zs)) = map fst xs).
  { unfold xs. generalize total. clear. intros tt. induction zs as [|x l IH]; [reflexivity|]. cbn. rewrite IH. reflexivity. }
  rewrite EX. intros NF. set (contents := fun i => qsum (map (fun x => snd (fst x) * snd x i)%Q zs)) in *. set (b := sum_pdf m (LSpace (whole e) (Some e)) (map fst xs) (Some total)) in *.
  set (r := share b contents total norm) in *.
  assert (IX : forall d f r, In (d, f, r) xs -> exists y, In (d, y, r) zs /\ f = (y / total)%Q).
  { intros d f r' I. unfold xs in I. apply in_map_iff in I. destruct I as ([[d' y'] r'']&I1&I2). cbn in I1. injection I1 as <- <- <-. exists y'. split; [exact I2|reflexivity]. }
  set (v := fun i => qsum (map (fun x => snd (fst x) * snd x i)%Q xs)).
  assert (EV : forall i, (v i == / total * contents i)%Q).
  { intros i. unfold v, contents, xs. rewrite <- qsum_scale, map_map. apply qsum_ext. intros [[d y] r'] _. cbn [fst snd]. unfold Qdiv. ring. }
  assert (EB : forall rs, (in_box e rs v == / total * in_box e rs contents)%Q).
  { intros rs. rewrite <- in_box_scale. apply in_box_ext. intros i _. apply EV. }
  assert (I0 : ~ (/ total == 0)%Q) by (apply inv_nonzero, T0).
  assert (NF' : norm_for b v norm).
  { assert (G : forall s, space_for b contents s -> space_for b v s).
    { intros s (A1&A2&A3). split; [exact A1|]. split; [exact A2|]. change (own_edges b) with e in *. rewrite EB.
      intros H. destruct (Qmult_integral _ _ H); contradiction. }
    destruct norm as [[|s]|]; [exact I| |]; apply G, NF. }
  assert (ER : forall i, norm <> Some NFalse \/ True -> (share b v 1 norm i == r i)%Q).
  { intros i _. unfold r, share. change (own_edges b) with e. rewrite (EV i).
    destruct norm as [[|s]|].
    - field. exact T0.
    - destruct NF as (_&_&N0). change (own_edges b) with e in N0. rewrite EB. field. split; assumption.
    - destruct NF as (_&_&N0). change (own_edges b) with e in N0. rewrite EB. field. split; assumption. }
  assert (ER' : forall i, (share b v 1 norm i == r i)%Q) by (intros i; apply ER; right; exact I).
  destruct (C68_sum m e xs (Some total) norm n OK) as (A&B&C&D&_).
  - intros d f r' I. destruct (IX d f r' I) as (y&I2&_). destruct (Own d y r' I2) as (O1&_&O3&_&_&O6). split; [exact O1|]. split; assumption.
  - unfold xs. rewrite map_map. cbn [fst snd].
    transitivity (/ total * total)%Q; [|field; exact T0].
    transitivity (qsum (map (fun x => / total * snd (fst x))%Q zs)); [|exact (qsum_scale (/ total)%Q (fun x => snd (fst x)) zs)]. apply qsum_ext. intros x _. unfold Qdiv. ring.
  - intros y Y d f r' I. injection Y as <-. destruct (IX d f r' I) as (y&I2&->). destruct (Own d y r' I2) as (_&O2&_&O4&O5&_).
    split; [exact O4|]. split; [exact O5|]. exists y. split; [exact O2|]. field. exact T0.
  - exact NF'.
  - fold b v in A, B, C, D. split; [apply (plain_ext _ _ _ _ _ ER' A)|]. split; [apply (counts_ext _ _ _ _ _ ER' B)|].
    split; [apply (integral_ext _ _ _ _ _ ER' C)|apply (normalised_ext _ _ _ _ ER' D)].
Qed.
Print Assumptions C68_sum_extended.

(** Two histograms of the same bins. *)
Definition ex_data2 : tensor := one_axis [2; 2]%Q.
Definition ex_hist2 : bpdf := histogram_pdf ex_space ex_data2 (ExtYield 6) None.
Definition ex_parts : list (bpdf * Q * (list nat -> Q)) :=
  [(ex_hist, 4%Q, fun i => t_get ex_data i / 4)%Q; (ex_hist2, 6%Q, fun i => t_get ex_data2 i / 4)%Q].
Example ex_sum_extended :
  (forall d y r, In (d, y, r) ex_parts -> own_edges d = ex_e /\ p_yield d = Some y /\ plain_views d 5 None r /\
     counts_view d 5 None r /\ ext_view d 5 None r /\ (in_box ex_e (l_ranges (norm_of d)) r == 1)%Q) /\
  ~ (qsum (map (fun x => snd (fst x)) ex_parts) == 0)%Q.
Proof.
  split; [|vm_compute; discriminate].
  assert (S : forall t f, t_shape t = [2] -> (t_get t [0%nat] == f [0%nat])%Q -> (t_get t [1%nat] == f [1%nat])%Q -> shows ex_e (Ok t) f).
  { intros t f H0 H1 H2. exists t. split; [reflexivity|]. split; [exact H0|]. intros idx I.
    apply (Forall2_nth) in I. destruct I as [L I]. destruct idx as [|k [|? ?]]; try discriminate L.
    pose proof (I 0 k 2 eq_refl eq_refl) as K. destruct k as [|[|k]]; [exact H1|exact H2|exfalso; lia]. }
  intros d y r [E|[E|[]]]; injection E as <- <- <-; (split; [reflexivity|]); (split; [reflexivity|]).
  all: split; [split; (eapply S; [reflexivity|vm_compute; reflexivity|vm_compute; reflexivity])|].
  all: split; [intros y Y; injection Y as <-; (eapply S; [reflexivity|vm_compute; reflexivity|vm_compute; reflexivity])|].
  all: split; [intros y Y; injection Y as <-; (eapply S; [reflexivity|vm_compute; reflexivity|vm_compute; reflexivity])|].
  all: vm_compute; reflexivity.
Qed.

(** A yield that is given is not used for the contents: they are those of the daughters,
    added. *)
Theorem C68_sum_yield_refuted : forall m e (xs : list (bpdf * Q * (list nat -> Q))) y norm n,
  (forall d yd r, In (d, yd, r) xs -> own_edges d = e /\ p_yield d = Some yd /\ counts_view d m None r) ->
  norm = Some NFalse \/ norm = None /\ (forall d yd r, In (d, yd, r) xs -> norm_of d = LSpace (whole e) (Some e)) ->
  forall fs, length fs = length xs ->
  let b := sum_pdf m (LSpace (whole e) (Some e)) (combine (map (fun x => fst (fst x)) xs) fs) (Some y) in
  shows e (counts b n norm) (fun i => qsum (map (fun x => snd (fst x) * snd x i) xs))%Q.
Proof.
  intros m e xs y norm n Own NN fs LF b.
  unfold counts. cbn [p_yield b sum_pdf get_yield opt_result bind]. unfold call_counts. apply suppress_shows, auto_shows.
  cbn [p_counts b sum_pdf]. unfold checked. rewrite deco_true.
  assert (EN : equal_norms (combine (map (fun x => fst (fst x)) xs) fs) (convert_norm b norm) = true).
  { destruct NN as [-> | [-> NN]]; [reflexivity|].
    assert (EC : convert_norm b None = NSpace (LSpace (whole e) (Some e))) by reflexivity.
    rewrite EC. cbn [equal_norms]. apply forallb_forall. intros [d f] I. apply in_combine_l in I. apply in_map_iff in I.
    destruct I as ([[d' yd] r]&<-&I). cbn [fst]. rewrite (NN _ _ _ I). apply lspace_eqb_refl. }
  fold b. rewrite EN. unfold sum_all_of.
  destruct (tsum_all_shows e xs (fun x => counts (fst (fst x)) m None) (fun x i => snd (fst x) * snd x i)%Q) as (us&E&S1).
  { intros [[d yd] r] I. cbn [fst snd]. destruct (Own d yd r I) as (E1&E2&E3). specialize (E3 yd E2). rewrite E1 in E3. exact E3. }
  replace (mapM (fun d => counts (fst d) m None) (combine (map (fun x => fst (fst x)) xs) fs)) with (mapM (fun x => counts (fst (fst x)) m None) xs).
  - rewrite E. exact S1.
  - clear - LF. revert fs LF. induction xs as [|x l IH]; intros [|f fs] LF; try discriminate LF; [reflexivity|].
    cbn [map combine mapM fst]. rewrite (IH fs) by (cbn in LF; congruence). reflexivity.
Qed.
Print Assumptions C68_sum_yield_refuted.
(** ... and if the first daughter is not extended they raise. *)
Theorem C68_sum_yield_not_extended_refuted : forall m space d f ds y n norm,
  p_yield d = None ->
  let b := sum_pdf m space ((d, f) :: ds) (Some y) in
  counts b n norm = Err NotExtendedPDFError /\ ext_pdf b n norm = Err NotExtendedPDFError.
Proof.
  intros m space d f ds y n norm Y b.
  assert (A : forall g : bpdf * Q -> result tensor, g (d, f) = Err NotExtendedPDFError -> forall z k nm,
     suppress (auto (deco b (Some (checked ((d, f) :: ds) (sum_all_of g space ((d, f) :: ds))))) z nm) k = Err NotExtendedPDFError).
  { intros g E z k nm. unfold checked, auto. rewrite !deco_true. cbn [equal_norms].
    unfold sum_all_of. cbn [mapM]. rewrite E. cbn [bind]. destruct (equal_norms _ nm); reflexivity. }
  unfold counts, ext_pdf. cbn [get_yield p_yield b sum_pdf opt_result bind]. split.
  - unfold call_counts. fold b. change (p_counts b) with (Some (checked ((d, f) :: ds) (sum_all_of (fun d => counts (fst d) m None) space ((d, f) :: ds)))).
    apply A. cbn [fst]. unfold counts, get_yield. rewrite Y. reflexivity.
  - unfold call_ext_pdf. fold b. change (p_ext_pdf b) with (Some (checked ((d, f) :: ds) (sum_all_of (fun d => ext_pdf (fst d) m None) space ((d, f) :: ds)))).
    apply A. cbn [fst]. unfold ext_pdf, get_yield. rewrite Y. reflexivity.
Qed.
Print Assumptions C68_sum_yield_not_extended_refuted.
(** The contents of the two bins *)
Definition ex_read (r : result tensor) : list Q := match r with Ok t => map (fun k => Qred (t_get t [k])) [0; 1] | Err _ => [] end.
(** The daughters above, with equal fractions and the yield 100: the contents are 1 + 3 and
    3 + 3, not 37.5 and 62.5. *)
Example ex_sum_yield :
  let b := sum_pdf 5 ex_space [(ex_hist, 1 # 2); (ex_hist2, 1 # 2)]%Q (Some 100%Q) in
  ex_read (counts b 5 None) = [4; 6]%Q /\ ex_read (rel_counts_of b 5 None) = [3 # 8; 5 # 8]%Q.
Proof. split; vm_compute; reflexivity. Qed.

(** ** SplineMorphingPDF *)

(** Histograms with their weights at the value of the parameter, and their relative contents
    for the norm. *)
Theorem C68_morphing : forall m e (xs : list (bpdf * Q * (list nat -> Q))) extended norm0 b norm n,
  morphing_pdf m (map (fun x => snd (fst x)) xs) (map (fun x => fst (fst x)) xs) extended norm0 = Ok b ->
  (forall d w r, In (d, w, r) xs -> own_edges d = e /\ plain_views d m (Some (convert_norm b norm)) r) ->
  (qsum (map (fun x => snd (fst x)) xs) == 1)%Q ->
  yield_given extended \/
    (exists y0, forall d w r, In (d, w, r) xs -> counts_view d m (Some (convert_norm b norm)) r /\
       ext_view d m (Some (convert_norm b norm)) r /\ exists y, p_yield d = Some y /\ (y == y0)%Q) ->
  let r i := qsum (map (fun x => snd (fst x) * snd x i)%Q xs) in
  views b (2 + n) norm r /\
  forall ranges, (forall d w rd, In (d, w, rd) xs -> (in_box e ranges rd == 1)%Q) -> (in_box e ranges r == 1)%Q.
Proof.
  intros m e xs extended norm0 b norm n B Own W1 YG r. split.
  - apply (morph_views m n e extended norm0 norm b xs B Own). intros AU. split; [exact W1|].
    destruct YG as [YG|YG]; [destruct extended; try elim YG; discriminate AU|exact YG].
  - intros ranges H. apply (morph_in_box e xs ranges W1 H).
Qed.
Print Assumptions C68_morphing.
Definition ex_hist3 : bpdf := histogram_pdf ex_space ex_data2 ExtNone None.
Definition ex_morph : bpdf := match morphing_pdf 5 [1 # 4; 3 # 4]%Q [ex_hist; ex_hist3] ExtNone None with Ok b => b | Err _ => ex_hist end.
Example ex_morphing :
  morphing_pdf 5 [1 # 4; 3 # 4]%Q [ex_hist; ex_hist3] ExtNone None = Ok ex_morph /\
  ex_read (counts ex_morph 5 None) = [7 # 4; 9 # 4]%Q /\ ex_read (rel_counts_of ex_morph 5 None) = [7 # 16; 9 # 16]%Q /\
  exists y, p_yield ex_morph = Some y /\ (y == 4)%Q.
Proof. split; [reflexivity|]. split; [vm_compute; reflexivity|]. split; [vm_compute; reflexivity|]. eexists. split; [reflexivity|vm_compute; reflexivity]. Qed.

(** Two histograms with different yields: the contents are not the yield times the relative
    contents, for contents and relative contents are both interpolated. *)
Theorem C68_morphing_yields_refuted : forall m e d1 d2 w1 w2 r1 r2 y1 y2 norm0 b norm n,
  morphing_pdf m [w1; w2] [d1; d2] ExtNone norm0 = Ok b -> (w1 + w2 == 1)%Q ->
  own_edges d1 = e -> own_edges d2 = e -> p_yield d1 = Some y1 -> p_yield d2 = Some y2 ->
  plain_views d1 m (Some (convert_norm b norm)) r1 -> counts_view d1 m (Some (convert_norm b norm)) r1 ->
  plain_views d2 m (Some (convert_norm b norm)) r2 -> counts_view d2 m (Some (convert_norm b norm)) r2 ->
  exists t u y, rel_counts_of b (2 + n) norm = Ok t /\ counts b (2 + n) norm = Ok u /\ p_yield b = Some y /\
    forall i, in_shape i (shape_of e) -> (t_get u i == y * t_get t i + w1 * w2 * (y1 - y2) * (r1 i - r2 i))%Q.
Proof.
  intros m e d1 d2 w1 w2 r1 r2 y1 y2 norm0 b norm n B W1 E1 E2 Y1 Y2 P1 C1 P2 C2.
  set (xs := [(d1, w1, r1); (d2, w2, r2)]).
  assert (Own : forall d w r, In (d, w, r) xs -> own_edges d = e /\ plain_views d m (Some (convert_norm b norm)) r).
  { intros d w r [I|[I|[]]]; injection I as <- <- <-; split; assumption. }
  assert (AU : morph_auto (map (fun x => fst (fst x)) xs) ExtNone = true).
  { cbn. rewrite Y1, Y2. reflexivity. }
  pose proof (morph_counts m e ExtNone norm0 norm b xs B Own (2 + n) AU) as CT.
  assert (HC : forall d w r, In (d, w, r) xs -> counts_view d m (Some (convert_norm b norm)) r).
  { intros d w r [I|[I|[]]]; injection I as <- <- <-; assumption. }
  destruct (CT HC) as (u&U1&U2&U3).
  destruct (morph_rel m e ExtNone norm0 norm b xs B Own) as [RS _].
  assert (RS' : shows e (rel_counts_of b (2 + n) norm) (fun i => qsum (map (fun x => snd (fst x) * snd x i)%Q xs))).
  { unfold rel_counts_of. change (2 + n) with (S (S n)). rewrite call_rel_S. apply suppress_shows, auto_shows, RS. }
  destruct RS' as (t&T1&T2&T3).
  destruct (morph_form _ _ _ _ _ _ B) as (h&rest&y&EH&EB&HA&_).
  destruct (HA AU) as (ys&EM&EY). cbn in EM. unfold get_yield in EM. rewrite Y1, Y2 in EM. cbn in EM. injection EM as <-.
  exists t, u, (interpolate_scalar [w1; w2] [y1; y2]). split; [exact T1|]. split; [exact U1|].
  split; [rewrite EB; cbn [p_yield morph_of]; exact EY|].
  intros i I. rewrite (U3 i I), (T3 i I). unfold interpolate_scalar. cbn [xs map fst snd combine]. rewrite Y1, Y2, !qsum_cons.
  change (qsum []) with 0%Q. assert (EW : (w2 == 1 - w1)%Q) by lra. setoid_rewrite EW. ring.
Qed.
Print Assumptions C68_morphing_yields_refuted.
Definition ex_hist4 : bpdf := histogram_pdf ex_space (one_axis [6; 2]%Q) ExtNone None.
Definition ex_morph4 : bpdf := match morphing_pdf 5 [1 # 2; 1 # 2]%Q [ex_hist; ex_hist4] ExtNone None with Ok b => b | Err _ => ex_hist end.
Example ex_morphing_yields :
  morphing_pdf 5 [1 # 2; 1 # 2]%Q [ex_hist; ex_hist4] ExtNone None = Ok ex_morph4 /\
  ex_read (counts ex_morph4 5 None) = [7 # 2; 5 # 2]%Q /\ ex_read (rel_counts_of ex_morph4 5 None) = [1 # 2; 1 # 2]%Q /\
  exists y, p_yield ex_morph4 = Some y /\ (y == 6)%Q.
Proof. split; [reflexivity|]. split; [vm_compute; reflexivity|]. split; [vm_compute; reflexivity|]. eexists. split; [reflexivity|vm_compute; reflexivity]. Qed.

(** ** BinnedFromUnbinnedPDF *)

(** [ints]: integrals of the unbinned PDF over the bins; its normalisation is the content of the
    box (a density that is constant in each bin). *)
Theorem C68_from_unbinned : forall e ints unorm uyield extended norm0 norm n,
  Forall edges_ok e -> t_shape ints = shape_of e ->
  (forall s, (unorm s == in_box e (l_ranges s) (t_get ints))%Q) ->
  let b := from_unbinned (LSpace (whole e) (Some e)) ints unorm uyield extended norm0 in
  (forall u y, uyield = Some u -> p_yield b = Some y -> (u == y)%Q) ->
  let r := share b (t_get ints) 1 norm in
  norm_for b (t_get ints) norm -> views b (5 + n) norm r /\ normalised b norm r.
Proof.
  intros e ints unorm uyield extended norm0 norm n OK SH UN b UY r NF.
  destruct (views_share b (t_get ints) 1 norm n (fu_stands e ints unorm uyield extended norm0 OK SH UN UY norm NF)) as (A&B&C&D&E).
  split; [|exact D]. split; [exact A|]. split; [exact B|]. split; [|exact C].
  apply E. apply fu_ext.
Qed.
Print Assumptions C68_from_unbinned.
Definition ex_unorm (s : lspace) : Q := in_box ex_e (l_ranges s) (t_get ex_data).
Example ex_from_unbinned :
  let b := from_unbinned ex_space ex_data ex_unorm (Some 8%Q) ExtNone None in
  norm_for b (t_get ex_data) (Some (NSpace first_bin)) /\ norm_for b (t_get ex_data) None /\
  ex_read (counts b 5 None) = [2; 6]%Q /\ ex_read (counts b 5 (Some (NSpace first_bin))) = [8; 24]%Q.
Proof.
  split; [split; [left; reflexivity|split; [exact ex_box|vm_compute; discriminate]]|].
  split; [split; [right; reflexivity|split; [|vm_compute; discriminate]]|].
  - change (box_ok ex_e [(0, 3)%Q]). repeat constructor; unfold Qlt, Qle; cbn; lia.
  - split; vm_compute; reflexivity.
Qed.

(** A yield that is given while the unbinned PDF has one: the contents are those of the
    unbinned PDF, and the yield of the binned PDF is the other one. *)
Theorem C68_from_unbinned_yield_refuted : forall e ints unorm u y norm0 norm n,
  t_shape ints = shape_of e ->
  (forall s, (unorm s == in_box e (l_ranges s) (t_get ints))%Q) ->
  let b := from_unbinned (LSpace (whole e) (Some e)) ints unorm (Some u) (ExtYield y) norm0 in
  asks_for_all b norm -> norm_for b (t_get ints) norm -> Forall edges_ok e ->
  p_yield b = Some y /\ shows e (counts b n norm) (fun i => u * share b (t_get ints) 1 norm i)%Q.
Proof.
  intros e ints unorm u y norm0 norm n SH UN b AA NF OK. split; [reflexivity|].
  unfold counts. cbn [get_yield p_yield b from_unbinned opt_result bind]. unfold call_counts. apply suppress_shows, auto_shows.
  fold b. pose proof (convert_admissible b (t_get ints) norm NF) as A.
  pose proof (asks_for_all_space b norm (conj OK eq_refl) AA) as SP.
  pose proof (factor_share b (t_get ints) 1 norm) as FS.
  assert (D : deco b (p_counts b) (convert_norm b norm) = k_fun (match p_counts b with Some h => h | None => Hook true true true (fun _ => Ok ints) end) (convert_norm b norm)).
  { cbn [p_counts b from_unbinned]. unfold deco. cbn [k_true k_space k_norm orb andb]. fold b.
    destruct (convert_norm b norm) as [|s]; [reflexivity|]. rewrite SP. reflexivity. }
  rewrite D. cbn [p_counts b from_unbinned k_fun bind]. fold b.
  eapply shows_ext; [|exact (fu_divided e ints unorm (Some u) (ExtYield y) norm0 SH UN (convert_norm b norm) u A)].
  intros i I. cbn beta. fold b. rewrite <- FS. reflexivity.
Qed.
Print Assumptions C68_from_unbinned_yield_refuted.
(** Not extended and asked for contents: an example with the yields 8 and 80. *)
Example ex_from_unbinned_yield :
  ex_read (counts (from_unbinned ex_space ex_data ex_unorm (Some 8%Q) (ExtYield 80) None) 5 None) = [2; 6]%Q.
Proof. vm_compute. reflexivity. Qed.

(** ** What the methods return for [x] *)

(** Events: the content of the bin that the event is in, zero outside of the range. *)
Theorem C68_events : forall own d values f,
  space_ok own -> udata_ok d -> Forall increasing (b_edges own) -> incl (b_obs own) (u_obs d) ->
  shows (b_edges own) values f ->
  exists l, read_out own (XEvents d) values = Ok (inl l) /\ length l = length (u_rows d) /\
    forall i row q, nth_error (u_rows d) i = Some row -> nth_error l i = Some q ->
      (forall idx, event_in own (u_obs d) row idx -> (q == f idx)%Q) /\
      (event_outside own (u_obs d) row -> (q == 0)%Q).
Proof. exact events_read. Qed.
Print Assumptions C68_events.
Definition ex_own : bspace := BSpace ["x"] ex_e.
Definition ex_events : udata := UData ["y"; "x"] [[7; 1 # 2]; [7; 2]; [7; 4]; [7; -1]]%Q None.
Example ex_events_read : space_ok ex_own /\ udata_ok ex_events /\
  match read_out ex_own (XEvents ex_events) (Ok ex_data) with Ok (inl l) => map Qred l | _ => [] end = [1; 3; 0; 0]%Q.
Proof.
  split; [split; [repeat constructor; intros []|reflexivity]|]. split; [|vm_compute; reflexivity].
  repeat split; try (repeat constructor; cbn; intuition discriminate); cbn; try discriminate; auto.
Qed.

(** Binned spaces or data: the axes are those of [x]; for two observables that trade places
    (others: see C25). *)
Theorem C68_axes_partial : forall own s values f,
  space_ok own -> space_ok s -> (forall o, In o (b_obs own) <-> In o (b_obs s)) -> b_obs own <> [] ->
  trades_places (b_obs own) (b_obs s) -> shows (b_edges own) values f ->
  exists t t', values = Ok t /\ read_out own (XBinned s) values = Ok (inr t') /\
    forall g, content (b_obs s) t' g = content (b_obs own) t g.
Proof. exact binned_read. Qed.
Print Assumptions C68_axes_partial.

(** The bins of [x] are not looked at: any binning of the same observables gives the same. *)
Theorem C68_other_binning_refuted : forall own s s' values z z',
  b_obs s = b_obs s' -> bspace_with_obs s (b_obs own) = Ok z -> bspace_with_obs s' (b_obs own) = Ok z' ->
  read_out own (XBinned s) values = read_out own (XBinned s') values.
Proof. intros own s s' values z z' E H1 H2. cbn [read_out]. rewrite H1, H2, E. reflexivity. Qed.
Print Assumptions C68_other_binning_refuted.
(** Asked on four bins, the answer has two. *)
Example ex_other_binning :
  match read_out ex_own (XBinned (BSpace ["x"] [[0; 1; 2; 5 # 2; 3]%Q])) (Ok ex_data) with
  | Ok (inr t) => t_shape t | _ => [] end = [2].
Proof. reflexivity. Qed.

(** ** log_pdf and sample *)

(** Without own method: the logarithm of the density, or the same error. *)
Theorem C68_log_pdf : forall b log n norm, p_log_pdf b = None ->
  log_pdf b log n norm = match pdf b n norm with Ok t => Ok (tmap log t) | Err er => Err er end.
Proof. intros b log n norm H. unfold log_pdf, call_log_pdf, pdf. rewrite H. cbn [deco suppress]. destruct (call_pdf b n _); reflexivity. Qed.
Print Assumptions C68_log_pdf.
Example ex_log_pdf : ex_read (log_pdf ex_hist (fun q => q * q)%Q 5 None) = [1 # 16; 9 # 64]%Q.
Proof. vm_compute. reflexivity. Qed.
(** An own method that only works without norm: asked with any norm, TypeError. *)
Theorem C68_own_log_pdf_refuted : forall b h log n norm t,
  p_log_pdf b = Some h -> k_true h = false -> k_space h = false -> k_norm h = false -> k_fun h NFalse = Ok t ->
  norm <> Some NFalse -> log_pdf b log n norm = Err TypeError.
Proof.
  intros b h log n norm t H K1 K2 K3 F N. unfold log_pdf, call_log_pdf. rewrite H.
  assert (E : exists s, convert_norm b norm = NSpace s) by (destruct norm as [[|s]|]; [elim N; reflexivity|eexists; reflexivity|eexists; reflexivity]).
  destruct E as [s ->]. unfold deco. rewrite K1, K2, K3. cbn [orb andb]. rewrite F. reflexivity.
Qed.
Print Assumptions C68_own_log_pdf_refuted.
Example ex_own_log_pdf :
  log_pdf (Bpdf ex_space None None (Some (Hook false false false (fun _ => Ok ex_data))) None None None
             (Some (Hook false false false (fun _ => Ok ex_data))) None None None None None None) (fun q => q) 5 None = Err TypeError.
Proof. reflexivity. Qed.

(** Samples of the own range: what the multinomial generator gives for the relative contents and
    the number asked for, or the one that the Poisson generator gives for the yield. *)
Theorem C68_sample : forall b poisson multinomial n events r,
  p_sample b = None -> pdf_space_ok b -> rel_counts_of b n None = Ok r ->
  sample b poisson multinomial n events None =
    match events, p_yield b with
    | Some k, _ => Ok (multinomial k r)
    | None, Some y => Ok (multinomial (poisson y) r)
    | None, None => Err ValueError
    end.
Proof.
  intros b poisson multinomial n events r H [_ E] R. unfold sample. rewrite H.
  assert (EL : convert_limits b None = p_space b) by (unfold convert_limits, with_own_binning; rewrite E; reflexivity).
  rewrite EL. destruct events as [k|]; cbn [bind suppress]; [rewrite lspace_eqb_refl, R; reflexivity|].
  destruct (p_yield b); cbn [bind suppress]; [rewrite lspace_eqb_refl, R; reflexivity|reflexivity].
Qed.
Print Assumptions C68_sample.
Example ex_sample : p_sample ex_hist = None /\ pdf_space_ok ex_hist /\
  ex_read (sample ex_hist (fun y => y + 1)%Q (fun k t => tmap (Qmult k) t) 5 None None) = [5 # 4; 15 # 4]%Q.
Proof. split; [reflexivity|]. split; [split; [exact ex_e_ok|reflexivity]|]. vm_compute. reflexivity. Qed.
(** An own method for samples is called and what it returns is dropped. *)
Theorem C68_own_sample_refuted : forall b own poisson multinomial n k t r,
  p_sample b = Some own -> own k (p_space b) = Ok t -> pdf_space_ok b -> rel_counts_of b n None = Ok r ->
  sample b poisson multinomial n (Some k) None = Ok (multinomial k r).
Proof.
  intros b own poisson multinomial n k t r H O [_ E] R. unfold sample. rewrite H.
  assert (EL : convert_limits b None = p_space b) by (unfold convert_limits, with_own_binning; rewrite E; reflexivity).
  rewrite EL. cbn [bind]. rewrite O. cbn [bind suppress]. rewrite lspace_eqb_refl, R. reflexivity.
Qed.
Print Assumptions C68_own_sample_refuted.
Example ex_own_sample :
  ex_read (sample (Bpdf ex_space None None None None None (Some (Hook true false false (fun _ => Ok (one_axis [1 # 4; 3 # 4]%Q)))) None None None None None None
             (Some (fun k _ => Ok (one_axis [k; 0]%Q)))) (fun y => y) (fun k t => tmap (Qmult k) t) 5 (Some 8%Q) None) = [2; 6]%Q.
Proof. vm_compute. reflexivity. Qed.
(** Other limits raise. *)
Theorem C68_sample_limits_refuted : forall b poisson multinomial n k s,
  p_sample b = None -> lspace_eqb (with_own_binning b s) (p_space b) = false ->
  sample b poisson multinomial n (Some k) (Some s) = Err NotImplementedError.
Proof. intros b poisson multinomial n k s H E. unfold sample. rewrite H. cbn [bind suppress convert_limits]. rewrite E. reflexivity. Qed.
Print Assumptions C68_sample_limits_refuted.
Example ex_sample_limits : lspace_eqb (with_own_binning ex_hist first_bin) (p_space ex_hist) = false.
Proof. reflexivity. Qed.
