(** The classes of binned PDFs. *)
From Verif Require Import Base BaseLemmas Hist_Model Hist_Spec Hist_Proofs3 BInt_Model BInt_Spec
  Bpdf_Model Bpdf_Spec Bpdf_Proofs.
From Coq Require Import Lqa.
#[local] Open Scope nat_scope.

Lemma shows_ok e t : t_shape t = shape_of e -> shows e (Ok t) (t_get t).
Proof. intros H. exists t. split; [reflexivity|]. split; [exact H|]. reflexivity. Qed.
Lemma tsum_in_all e t : t_shape t = shape_of e -> tsum t = in_all e (t_get t).
Proof. intros H. unfold tsum, flatten, in_all. rewrite H. reflexivity. Qed.
Lemma in_all_ext e f g : (forall i, in_shape i (shape_of e) -> (f i == g i)%Q) -> (in_all e f == in_all e g)%Q.
Proof. intros H. apply qsum_ext. intros i I. apply H, indices_in, I. Qed.
Lemma rel_shows e t f T : shows e (Ok t) f -> (in_all e f == T)%Q -> shows e (Ok (rel_counts t)) (fun i => f i / T)%Q.
Proof.
  intros (t'&E&S1&V) HT. injection E as <-. unfold rel_counts. eexists. split; [reflexivity|]. cbn [t_shape t_get]. split; [exact S1|].
  intros i I. rewrite (V i I). fold (tsum t). rewrite (tsum_in_all e t S1). rewrite (in_all_ext e _ f V), HT. reflexivity.
Qed.

(** Methods and their decorators *)
Definition supported (b : bpdf) (h : hook) (s : lspace) : bool :=
  k_true h || (k_space h && lspace_eqb (p_space b) s) || (k_norm h && lspace_eqb (norm_of b) s).
Lemma supported_space b h s : k_true h = false -> k_space h = true -> k_norm h = false ->
  supported b h s = true -> lspace_eqb (p_space b) s = true.
Proof. intros K1 K2 K3. unfold supported. rewrite K1, K2, K3. cbn [orb andb]. rewrite orb_false_r. trivial. Qed.
Lemma supported_norm b h s : k_true h = false -> k_space h = false -> k_norm h = true ->
  supported b h s = true -> lspace_eqb (norm_of b) s = true.
Proof. intros K1 K2 K3. unfold supported. rewrite K1, K2, K3. cbn [orb andb]. trivial. Qed.
Lemma honest_hook b h nm asked raw :
  (nm = NFalse -> forall i, (raw i == asked i)%Q) ->
  shows (own_edges b) (k_fun h NFalse) raw ->
  (forall s, nm = NSpace s -> supported b h s = true -> shows (own_edges b) (k_fun h nm) asked) ->
  honest (own_edges b) (deco b (Some h)) nm asked raw.
Proof.
  intros HF H0 HS. destruct nm as [|s].
  - apply H_direct. cbn [deco]. apply (shows_ext _ _ raw); [intros i _; apply HF; reflexivity|exact H0].
  - unfold supported in HS. destruct (k_true h || (k_space h && lspace_eqb (p_space b) s) || (k_norm h && lspace_eqb (norm_of b) s)) eqn:E.
    + apply H_direct. unfold deco. rewrite E. apply (HS s eq_refl E).
    + apply H_without; unfold deco; rewrite ?E; [reflexivity|exact H0].
Qed.
Lemma absent_hook b h nm :
  (forall k, k_fun h k = Err SpecificFunctionNotImplemented) -> absent (deco b (Some h)) nm.
Proof.
  intros H. unfold absent, deco. destruct nm as [|s]; [left; apply H|].
  destruct (_ || _); [left; apply H|right; split; [reflexivity|apply H]].
Qed.
Lemma present_hook b h nm e f :
  shows e (k_fun h NFalse) f ->
  (forall s, nm = NSpace s -> supported b h s = true -> exists f, shows e (k_fun h nm) f) ->
  present (deco b (Some h)) nm.
Proof.
  intros (t0&H0&_) HS. unfold present, absent, deco, supported in *. destruct nm as [|s].
  - intros [A|[A _]]; rewrite H0 in A; discriminate A.
  - destruct (k_true h || (k_space h && lspace_eqb (p_space b) s) || (k_norm h && lspace_eqb (norm_of b) s)) eqn:E.
    + destruct (HS s eq_refl E) as (f'&t&Ht&_). intros [A|[A _]]; rewrite Ht in A; discriminate A.
    + intros [A|[_ A]]; [discriminate A|]. rewrite H0 in A. discriminate A.
Qed.

(** ** HistogramPDF *)
Section Histogram.
Variables (e : list (list Q)) (data : tensor) (ext : ext_arg) (norm0 : option lspace).
Hypothesis OK : Forall edges_ok e.
Hypothesis SH : t_shape data = shape_of e.
Let T := in_all e (t_get data).
Hypothesis T0 : ~ (T == 0)%Q.
Let b := histogram_pdf (LSpace (whole e) (Some e)) data ext norm0.

Lemma hist_space : pdf_space_ok b.
Proof. split; [exact OK|reflexivity]. Qed.
Lemma hist_rel : shows e (Ok (rel_counts data)) (fun i => t_get data i / T)%Q.
Proof. apply rel_shows; [apply shows_ok, SH|reflexivity]. Qed.
Lemma hist_box s : lspace_eqb (p_space b) s = true -> (in_box e (l_ranges s) (t_get data) == T)%Q.
Proof. intros H. apply (space_in_box b s (t_get data) hist_space H). Qed.
Lemma hist_factor s : lspace_eqb (p_space b) s = true -> (factor b (t_get data) (/ T) (NSpace s) == / T)%Q.
Proof. intros H. unfold factor. change (own_edges b) with e. rewrite (hist_box s H). reflexivity. Qed.

Lemma hist_rel_present nm : present (deco b (p_rel_counts b)) nm.
Proof.
  apply (present_hook b _ nm e (fun i => t_get data i / T)%Q); [apply hist_rel|].
  intros s -> _. eexists. apply hist_rel.
Qed.
Lemma hist_rel_honest nm : rel_honest b (t_get data) (/ T) nm.
Proof.
  unfold rel_honest. apply honest_hook.
  - intros -> i. reflexivity.
  - apply (shows_ext e _ (fun i => t_get data i / T)%Q); [intros; unfold Qdiv; ring|apply hist_rel].
  - intros s -> E. apply supported_space in E; try reflexivity.
    apply (shows_ext e _ (fun i => t_get data i / T)%Q); [|apply hist_rel].
    intros i _. rewrite (hist_factor s E). unfold Qdiv. ring.
Qed.
Lemma hist_counts_honest nm : counts_honest b (t_get data) (/ T) nm.
Proof.
  intros y Y.
  assert (A : forall k, k_fun k NFalse = Ok data -> (forall s, k_fun k (NSpace s) = Ok data) -> k_true k = false -> k_norm k = false ->
    k_space k = true -> y = T -> honest e (deco b (Some k)) nm (fun i => y * (factor b (t_get data) (/ T) nm * t_get data i))%Q (fun i => y * (/ T * t_get data i))%Q).
  { intros k K1 K2 K3 K4 K5 ->. apply (honest_hook b k).
    - intros -> i. reflexivity.
    - rewrite K1. apply (shows_ext e _ (t_get data)); [intros; field; exact T0|apply shows_ok, SH].
    - intros s -> E. apply supported_space in E; try assumption. rewrite K2.
      apply (shows_ext e _ (t_get data)); [|apply shows_ok, SH]. intros i _. rewrite (hist_factor s E). field. exact T0. }
  destruct ext; cbn [p_yield b histogram_pdf] in Y; try discriminate Y.
  1,2: injection Y as <-; apply A; try reflexivity; apply (tsum_in_all e data SH).
  apply H_absent. apply absent_hook. reflexivity.
Qed.
Lemma hist_pdf_honest nm : pdf_honest b (t_get data) (/ T) nm.
Proof.
  intros h E. injection E as <-. split; [|right; apply hist_rel_present].
  assert (D : shows e (divide_areas b (Ok (rel_counts data))) (fun i => t_get data i / T / volume e i)%Q) by (apply (shows_areas b), hist_rel).
  apply honest_hook.
  - intros -> i. reflexivity.
  - apply (shows_ext e _ (fun i => t_get data i / T / volume e i)%Q); [|apply D]. intros i _. change (own_edges b) with e. unfold Qdiv; ring.
  - intros s -> E. apply supported_space in E; try reflexivity.
    apply (shows_ext e _ (fun i => t_get data i / T / volume e i)%Q).
    + intros i _. rewrite (hist_factor s E). change (own_edges b) with e. unfold Qdiv; ring.
    + cbn [k_fun deco k_true k_space k_norm orb andb p_space]. change (LSpace (whole e) (Some e)) with (p_space b). rewrite E. apply D.
Qed.
Lemma hist_stands norm : norm_for b (t_get data) norm -> stands_for b (t_get data) (/ T) (convert_norm b norm).
Proof.
  intros NF. constructor.
  - exact OK.
  - intros H. apply T0. rewrite <- (Qinv_involutive T), H. reflexivity.
  - apply convert_admissible, NF.
  - split; apply hist_rel_honest.
  - split; [apply hist_counts_honest|left; apply hist_rel_present].
  - split; left; apply hist_rel_present.
  - apply hist_pdf_honest.
  - left. reflexivity.
  - repeat split.
Qed.
(** Extended densities: given yields, or the norms that the method supports. *)
Definition hist_ext_ok (norm : option normarg) : Prop :=
  match ext with
  | ExtYield _ | ExtFalse => True
  | ExtNone | ExtTrue =>
      match convert_norm b norm with NFalse => True | NSpace s => lspace_eqb (p_space b) s = true end
  end.
Lemma hist_ext_honest norm : hist_ext_ok norm -> ext_honest b (t_get data) (/ T) (convert_norm b norm).
Proof.
  unfold hist_ext_ok. intros H y Y.
  set (nm := convert_norm b norm) in *.
  assert (A : forall k, k_fun k NFalse = divide_areas b (Ok data) ->
    (forall s, lspace_eqb (p_space b) s = true -> k_fun k (NSpace s) = divide_areas b (Ok data)) -> k_true k = false -> k_norm k = false ->
    k_space k = true -> y = T -> match nm with NFalse => True | NSpace s => lspace_eqb (p_space b) s = true end ->
    (present (deco b (Some k)) nm -> deco b (Some k) nm = Err NormNotImplemented -> ~ (y == 0)%Q) /\ honest e (deco b (Some k)) nm (fun i => y * (factor b (t_get data) (/ T) nm * t_get data i) / volume e i)%Q (fun i => / T * t_get data i / volume e i)%Q).
  { intros k K1 K2 K3 K4 K5 -> HN. split; [intros _ _; exact T0|]. apply H_direct.
    assert (D : shows e (divide_areas b (Ok data)) (fun i => t_get data i / volume e i)%Q) by (apply (shows_areas b), shows_ok, SH).
    destruct nm as [|s]; cbn [deco].
    - rewrite K1. apply (shows_ext e _ (fun i => t_get data i / volume e i)%Q); [|exact D].
      intros i I. cbn [factor]. pose proof (volume_pos e i OK I). field; split; first [exact T0|lra].
    - rewrite K3, K4, K5, HN. cbn [orb andb]. rewrite (K2 s HN).
      apply (shows_ext e _ (fun i => t_get data i / volume e i)%Q); [|exact D].
      intros i I. rewrite (hist_factor s HN). pose proof (volume_pos e i OK I). field; split; first [exact T0|lra]. }
  destruct ext; cbn [p_yield b histogram_pdf] in Y; try discriminate Y.
  1,2: injection Y as <-; apply A; try reflexivity; try exact H; try apply (tsum_in_all e data SH);
    intros s E; cbn [k_fun deco k_true k_space k_norm orb andb p_space]; cbn [p_space b histogram_pdf] in E; rewrite E; reflexivity.
  injection Y as <-. pose proof (absent_hook b (match p_ext_pdf b with Some k => k | None => Hook true true true (fun _ => Err TypeError) end) nm (fun _ => eq_refl)) as AB. split; [intros P; elim P; exact AB|]. apply H_absent, AB.
Qed.
End Histogram.

Lemma inv_nonzero T : ~ (T == 0)%Q -> ~ (/ T == 0)%Q.
Proof. intros T0 H. apply T0. rewrite <- (Qinv_involutive T), H. reflexivity. Qed.

(** ** BinnedTemplatePDFV1 *)
Section Template.
Variables (e : list (list Q)) (data : tensor) (sysshape : option tensor) (ext : ext_arg) (norm0 : option lspace).
Hypothesis OK : Forall edges_ok e.
Hypothesis SH : t_shape data = shape_of e.
Let contents := match sysshape with None => data | Some s => tmap2 Qmult data s end.
Let v := t_get contents.
Let T := in_all e v.
Hypothesis T0 : ~ (T == 0)%Q.
Let b := template_pdf (LSpace (whole e) (Some e)) data sysshape ext norm0.
(** The own norm contains everything (as it does if none is given). *)
Hypothesis NB : (in_box e (l_ranges (norm_of b)) v == T)%Q.

Lemma tmpl_shape : t_shape contents = shape_of e.
Proof. assert (G : forall o, t_shape match o with None => data | Some s => tmap2 Qmult data s end = shape_of e) by (intros [s|]; exact SH). apply G. Qed.
Lemma tmpl_rel : shows e (Ok (rel_counts contents)) (fun i => v i / T)%Q.
Proof. apply rel_shows; [apply shows_ok, tmpl_shape|reflexivity]. Qed.
Lemma tmpl_factor s : lspace_eqb (norm_of b) s = true -> (factor b v (/ T) (NSpace s) == / T)%Q.
Proof.
  intros H. unfold factor. change (own_edges b) with e. unfold lspace_eqb in H. apply andb_prop in H.
  rewrite <- (in_box_same _ _ _ v (proj1 H)), NB. reflexivity.
Qed.
Lemma tmpl_rel_present nm : present (deco b (p_rel_counts b)) nm.
Proof.
  apply (present_hook b _ nm e (fun i => v i / T)%Q); [apply tmpl_rel|].
  intros s -> _. eexists. apply tmpl_rel.
Qed.
Lemma tmpl_rel_honest nm : rel_honest b v (/ T) nm.
Proof.
  unfold rel_honest. apply honest_hook.
  - intros -> i. reflexivity.
  - apply (shows_ext e _ (fun i => v i / T)%Q); [intros; unfold Qdiv; ring|apply tmpl_rel].
  - intros s -> E. apply supported_norm in E; try reflexivity.
    apply (shows_ext e _ (fun i => v i / T)%Q); [|apply tmpl_rel].
    intros i _. rewrite (tmpl_factor s E). unfold Qdiv. ring.
Qed.
Lemma tmpl_counts_honest nm : counts_honest b v (/ T) nm.
Proof.
  intros y Y.
  assert (A : forall k, k_fun k NFalse = Ok contents -> (forall s, k_fun k (NSpace s) = Ok contents) -> k_true k = false -> k_space k = false ->
    k_norm k = true -> y = T -> honest e (deco b (Some k)) nm (fun i => y * (factor b v (/ T) nm * v i))%Q (fun i => y * (/ T * v i))%Q).
  { intros k K1 K2 K3 K4 K5 ->. apply (honest_hook b k).
    - intros -> i. reflexivity.
    - rewrite K1. apply (shows_ext e _ v); [intros; field; exact T0|apply shows_ok, tmpl_shape].
    - intros s -> E. apply supported_norm in E; try assumption. rewrite K2.
      apply (shows_ext e _ v); [|apply shows_ok, tmpl_shape]. intros i _. rewrite (tmpl_factor s E). field. exact T0. }
  destruct ext; cbn [p_yield b template_pdf] in Y; try discriminate Y.
  1,2: injection Y as <-; apply A; try reflexivity; apply (tsum_in_all e contents tmpl_shape).
  apply H_absent. apply absent_hook. reflexivity.
Qed.
Lemma tmpl_pdf_honest nm : pdf_honest b v (/ T) nm.
Proof.
  intros h E. injection E as <-. split; [|right; apply tmpl_rel_present].
  assert (D : shows e (divide_areas b (Ok (rel_counts contents))) (fun i => v i / T / volume e i)%Q) by (apply (shows_areas b), tmpl_rel).
  apply honest_hook.
  - intros -> i. reflexivity.
  - apply (shows_ext e _ (fun i => v i / T / volume e i)%Q); [|apply D]. intros i _. change (own_edges b) with e. unfold Qdiv; ring.
  - intros s -> E. discriminate E.
Qed.
Lemma tmpl_stands norm : norm_for b v norm -> stands_for b v (/ T) (convert_norm b norm).
Proof.
  intros NF. constructor.
  - exact OK.
  - apply inv_nonzero, T0.
  - apply convert_admissible, NF.
  - split; apply tmpl_rel_honest.
  - split; [apply tmpl_counts_honest|left; apply tmpl_rel_present].
  - split; left; apply tmpl_rel_present.
  - apply tmpl_pdf_honest.
  - left. reflexivity.
  - repeat split.
Qed.
Definition tmpl_ext_ok (norm : option normarg) : Prop :=
  match ext with
  | ExtYield _ | ExtFalse => True
  | ExtNone | ExtTrue =>
      match convert_norm b norm with NFalse => True | NSpace s => lspace_eqb (norm_of b) s = true end
  end.
Lemma tmpl_ext_honest norm : tmpl_ext_ok norm -> ext_honest b v (/ T) (convert_norm b norm).
Proof.
  unfold tmpl_ext_ok. intros H y Y.
  set (nm := convert_norm b norm) in *.
  assert (A : forall k, k_fun k NFalse = divide_areas b (Ok contents) ->
    (forall s, lspace_eqb (norm_of b) s = true -> k_fun k (NSpace s) = divide_areas b (Ok contents)) -> k_true k = true ->
    y = T -> match nm with NFalse => True | NSpace s => lspace_eqb (norm_of b) s = true end ->
    (present (deco b (Some k)) nm -> deco b (Some k) nm = Err NormNotImplemented -> ~ (y == 0)%Q) /\ honest e (deco b (Some k)) nm (fun i => y * (factor b v (/ T) nm * v i) / volume e i)%Q (fun i => / T * v i / volume e i)%Q).
  { intros k K1 K2 K3 -> HN. split; [intros _ _; exact T0|]. apply H_direct.
    assert (D : shows e (divide_areas b (Ok contents)) (fun i => v i / volume e i)%Q) by (apply (shows_areas b), shows_ok, tmpl_shape).
    destruct nm as [|s]; cbn [deco].
    - rewrite K1. apply (shows_ext e _ (fun i => v i / volume e i)%Q); [|exact D].
      intros i I. cbn [factor]. pose proof (volume_pos e i OK I). field; split; first [exact T0|lra].
    - rewrite K3. cbn [orb andb]. rewrite (K2 s HN).
      apply (shows_ext e _ (fun i => v i / volume e i)%Q); [|exact D].
      intros i I. rewrite (tmpl_factor s HN). pose proof (volume_pos e i OK I). field; split; first [exact T0|lra]. }
  destruct ext; cbn [p_yield b template_pdf] in Y; try discriminate Y.
  1,2: injection Y as <-; apply A; try reflexivity; try exact H; try apply (tsum_in_all e contents tmpl_shape);
    intros s E; cbn [k_fun deco k_true k_space k_norm orb andb p_space]; unfold norm_of in E |- *; cbn [p_norm p_space b template_pdf] in E |- *;
    rewrite E; reflexivity.
  injection Y as <-.
  assert (G : forall base k, (forall nm, k_fun k nm = Err SpecificFunctionNotImplemented) ->
    absent (deco b (Some (Hook true false false (fun nm => divide_areas base (deco base (Some k) nm))))) nm).
  { intros base k K. destruct (absent_hook base k nm K) as [A1|[A1 A2]]; [left|right];
      (destruct nm as [|s]; [cbn [deco] in A1; rewrite K in A1; try discriminate A1|]); cbn [deco k_true k_fun orb] in *; rewrite ?A1, ?A2, ?K; try split; reflexivity. }
  assert (AB : absent (deco b (p_ext_pdf b)) nm) by (apply G; reflexivity).
  split; [intros P; elim P; exact AB|]. apply H_absent, AB.
Qed.
End Template.

(** ** BinwiseScaleModifier *)
Section Modifier.
Variables (m : nat) (d : bpdf) (modifiers : option tensor) (ext : ext_arg) (w : list nat -> Q).
Let e := own_edges d.
Hypothesis SP : pdf_space_ok d.
(** The daughter shows the same contents without norm and normalised to its space. *)
Hypothesis D0 : shows e (counts d m (Some NFalse)) w.
Hypothesis D1 : forall s, lspace_eqb (p_space d) s = true -> shows e (counts d m (Some (NSpace s))) w.
Let v i := (w i * match modifiers with None => 1 | Some s => t_get s i end)%Q.
Let T := in_all e v.
Hypothesis T0 : ~ (T == 0)%Q.
(** Without modifiers the yield is that of the daughter. *)
Hypothesis Y1 : modifiers = None -> forall y, p_yield d = Some y -> (y == T)%Q.

Lemma mod_shows nm : shows e (counts d m (Some nm)) w -> shows e (modified m d modifiers nm) v.
Proof.
  intros (t&E&S1&V). unfold modified. rewrite E. cbn [bind]. eexists. split; [reflexivity|].
  unfold v. destruct modifiers as [s|]; cbn [tmap2 t_shape t_get]; (split; [exact S1|]); intros i I; rewrite (V i I); [reflexivity|ring].
Qed.
Variable b : bpdf.
Hypothesis B : modifier_pdf m d modifiers ext None = Ok b.

Let counts_hook := 
  let ext := match ext with
             | ExtNone => match p_yield d with Some _ => ExtTrue | None => ExtFalse end
             | e => e
             end in
    Hook true false false (fun nm => match ext with
                                     | ExtFalse => Err AttributeError
                                     | ExtYield _ => Err SpecificFunctionNotImplemented
                                     | _ => modified m d modifiers nm
                                     end).
Let rel_hook := Hook false true false (fun nm => let* v := modified m d modifiers nm in Ok (rel_counts v)).
Lemma mod_form : exists y, b = Bpdf (p_space d) None y None None (Some counts_hook) (Some rel_hook) None None None None None None None
  /\ match ext with
     | ExtYield q => y = Some q
     | ExtFalse => y = None
     | _ => forall q, y = Some q -> (q == T)%Q /\ k_fun counts_hook = modified m d modifiers
     end.
Proof.
  pose proof B as B'. unfold modifier_pdf in B'. unfold counts_hook.
  assert (MY : forall q, match modifiers with
           | None => let* y := get_yield d in Ok (Some y)
           | Some _ => let* v := modified m d modifiers (NSpace (p_space d)) in Ok (Some (tsum v))
           end = Ok q -> forall q', q = Some q' -> (q' == T)%Q).
  { intros q. destruct (mod_shows _ (D1 _ (lspace_eqb_refl (p_space d)))) as (t&E&S1&V). rewrite E.
    case_eq modifiers; [intros s EM|intros EM].
    - cbn [bind]. intros H q' ->. injection H as <-. rewrite (tsum_in_all e t S1). apply in_all_ext, V.
    - unfold get_yield. destruct (p_yield d) as [y|]; cbn [opt_result bind]; [|discriminate].
      intros H q' ->. injection H as <-. apply (Y1 EM y eq_refl). }
  case_eq ext; [intros X|intros X|intros X|intros y X]; rewrite X in B'; cbn [bind] in B'.
  - destruct (p_yield d) as [y|]; cbn [bind] in B'.
    + match type of B' with (let* yield := ?z in _) = _ => destruct z as [q|] eqn:EQ end; [|discriminate B'].
      cbn [bind] in B'. injection B' as <-. exists q. split; [reflexivity|]. intros q' E. split; [apply (MY q eq_refl q' E)|reflexivity].
    + injection B' as <-. exists None. split; [reflexivity|]. intros q E. discriminate E.
  - injection B' as <-. exists None. split; reflexivity.
  - match type of B' with (let* yield := ?z in _) = _ => destruct z as [q|] eqn:EQ end; [|discriminate B'].
    cbn [bind] in B'. injection B' as <-. exists q. split; [reflexivity|]. intros q' E. split; [apply (MY q eq_refl q' E)|reflexivity].
  - injection B' as <-. exists (Some y). split; reflexivity.
Qed.

Lemma mod_own : p_space b = p_space d /\ own_edges b = e /\ p_rel_counts b = Some rel_hook /\ p_counts b = Some counts_hook.
Proof. destruct mod_form as (y&->&_). repeat split. Qed.
Lemma mod_space_ok : pdf_space_ok b.
Proof. destruct mod_own as (E1&E2&_). unfold pdf_space_ok. rewrite E1, E2. exact SP. Qed.
Lemma mod_factor s : lspace_eqb (p_space d) s = true -> (factor b v (/ T) (NSpace s) == / T)%Q.
Proof.
  intros H. unfold factor. rewrite (space_in_box b s v mod_space_ok); destruct mod_own as (E1&E2&_).
  - rewrite E2. reflexivity.
  - rewrite E1. exact H.
Qed.
Lemma mod_rel nm : shows e (counts d m (Some nm)) w -> shows e (k_fun rel_hook nm) (fun i => v i / T)%Q.
Proof.
  intros H. cbn [k_fun rel_hook]. pose proof (mod_shows nm H) as (t&E&S1&V). rewrite E. cbn [bind].
  apply (rel_shows e t v T); [exists t; split; [reflexivity|split; assumption]|reflexivity].
Qed.
Lemma mod_rel_present nm : present (deco b (p_rel_counts b)) nm.
Proof.
  destruct mod_own as (E1&E2&E3&_). rewrite E3.
  apply (present_hook b _ nm e (fun i => v i / T)%Q); [apply mod_rel, D0|].
  intros s -> E. apply supported_space in E; try reflexivity. rewrite E1 in E. eexists. apply mod_rel, (D1 s E).
Qed.
Lemma mod_rel_honest nm : rel_honest b v (/ T) nm.
Proof.
  destruct mod_own as (E1&E2&E3&_). unfold rel_honest. rewrite E3. apply honest_hook; rewrite ?E2.
  - intros -> i. reflexivity.
  - apply (shows_ext e _ (fun i => v i / T)%Q); [intros; unfold Qdiv; ring|apply mod_rel, D0].
  - intros s -> E. apply supported_space in E; try reflexivity. rewrite E1 in E.
    apply (shows_ext e _ (fun i => v i / T)%Q); [|apply mod_rel, (D1 s E)].
    intros i _. rewrite (mod_factor s E). unfold Qdiv. ring.
Qed.
(** The automatic contents are right for the norms that leave the daughter alone. *)
Definition mod_norm_ok (norm : option normarg) : Prop :=
  match ext with
  | ExtNone | ExtTrue => match convert_norm b norm with NFalse => True | NSpace s => lspace_eqb (p_space d) s = true end
  | _ => True
  end.
Lemma mod_counts_honest norm : mod_norm_ok norm -> counts_honest b v (/ T) (convert_norm b norm).
Proof.
  intros H y Y. destruct mod_own as (E1&E2&_&E4). rewrite E2, E4. unfold mod_norm_ok in H. destruct mod_form as (y'&EB&HY).
  assert (EY : y' = Some y) by (rewrite EB in Y; exact Y). clear EB.
  set (nm := convert_norm b norm) in *.
  assert (A : (y == T)%Q -> k_fun counts_hook = modified m d modifiers -> k_true counts_hook = true ->
     match nm with NFalse => True | NSpace s => lspace_eqb (p_space d) s = true end ->
     honest e (deco b (Some counts_hook)) nm (fun i => y * (factor b v (/ T) nm * v i))%Q (fun i => y * (/ T * v i))%Q).
  { intros A1 A2 A3 A4. apply H_direct. unfold deco. rewrite A3, A2. cbn [orb]. destruct nm as [|s].
    - apply (shows_ext e _ v); [|apply mod_shows, D0]. intros i _. cbn [factor]. rewrite A1. field. exact T0.
    - apply (shows_ext e _ v); [|apply mod_shows, (D1 s A4)]. intros i _. rewrite (mod_factor s A4), A1. field. exact T0. }
  case_eq ext; [intros X|intros X|intros X|intros q X]; rewrite X in H, HY.
  - destruct (HY y EY) as [H1 H2]. apply A; [exact H1|exact H2|reflexivity|exact H].
  - congruence.
  - destruct (HY y EY) as [H1 H2]. apply A; [exact H1|exact H2|reflexivity|exact H].
  - apply H_absent. apply absent_hook. unfold counts_hook. rewrite X. reflexivity.
Qed.
Lemma mod_stands norm : norm_for b v norm -> mod_norm_ok norm -> stands_for b v (/ T) (convert_norm b norm).
Proof.
  intros NF MN. destruct mod_own as (E1&E2&E3&E4). constructor.
  - rewrite E2. apply SP.
  - apply inv_nonzero, T0.
  - apply convert_admissible, NF.
  - split; apply mod_rel_honest.
  - split; [apply mod_counts_honest, MN|left; apply mod_rel_present].
  - split; left; apply mod_rel_present.
  - destruct mod_form as (y'&->&_). intros h E. discriminate E.
  - left. destruct mod_form as (y'&->&_). reflexivity.
  - destruct mod_form as (y'&->&_). repeat split.
Qed.
Lemma mod_ext_honest norm : ext_honest b v (/ T) (convert_norm b norm).
Proof.
  intros y Y. destruct mod_form as (y'&EB&_).
  replace (p_ext_pdf b) with (@None hook) by (rewrite EB; reflexivity).
  split; [intros P; elim P; left; reflexivity|]. apply H_absent. left. reflexivity.
Qed.
End Modifier.
