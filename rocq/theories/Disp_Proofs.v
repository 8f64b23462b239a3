(** Proofs about the dispatch of integrals and densities. *)
From Verif Require Import Base Disp_Model Disp_Spec.
From Coq Require Import Lra Lia.
#[local] Open Scope R_scope.

Section Proofs.
Context {L X : Type}.
Variable I : L -> R.
Variable f : X -> R.
Notation total := (total I).
Notation integral_of := (integral_of I).

(** Outcomes that a call may have: [a]: the missing analytic integral, [b]: not implemented, [c]: several limits *)
Definition good (a b c : bool) (ls : list L) (n : norm L) (o : outcome) : Prop :=
  match o with
  | Val v => v = integral_of ls n
  | EAnalytic => a = true
  | ENotImpl => b = true
  | ENorm => is_norm n
  | EMulti => c = true /\ (1 < length ls)%nat
  | EOther => False
  end.
Definition wf_norm (n : norm L) : Prop := match n with Norm nls => nls <> [] | _ => True end.

Lemma good_weaken : forall a b c a' b' c' ls n o,
  (a = true -> a' = true) -> (b = true -> b' = true) -> (c = true -> c' = true) ->
  good a b c ls n o -> good a' b' c' ls n o.
Proof. intros a b c a' b' c' ls n [] Ha Hb Hc; simpl; try tauto; intuition. Qed.

Lemma integral_of_cons : forall l ls n, integral_of (l :: ls) n = integral_of [l] n + integral_of ls n.
Proof.
  intros l ls n. destruct n; simpl; unfold Rdiv; ring.
Qed.

Lemma check_norm_some : forall (m : model L X) s n n',
  check_norm m s n = Some n' ->
  (is_norm n' -> is_norm n) /\ (forall ls, integral_of ls n' = integral_of ls n).
Proof.
  intros m s n n' H. destruct n; simpl in H.
  - injection H as <-. split; [auto|]. reflexivity.
  - destruct (s_true s); injection H as <-; (split; [intros [? E]; discriminate E|reflexivity]).
  - destruct (_ || _); [|discriminate H]. injection H as <-. split; [auto|reflexivity].
Qed.
Lemma check_norm_density : forall (m : model L X) s n n',
  check_norm m s n = Some n' -> forall x, density_of I f x n' = density_of I f x n.
Proof.
  intros m s n n' H x. destruct n; simpl in H.
  - injection H as <-. reflexivity.
  - destruct (s_true s); injection H as <-; reflexivity.
  - destruct (_ || _); [|discriminate H]. injection H as <-. reflexivity.
Qed.
Lemma check_norm_none : forall (m : model L X) s n, check_norm m s n = None -> is_norm n.
Proof.
  intros m s n H. destruct n; simpl in H; try discriminate H.
  - destruct (s_true s); discriminate H.
  - eexists; reflexivity.
Qed.

Lemma check_norm_handed : forall (m : model L X) s n n', check_norm m s n = Some n' -> handed_norm s n'.
Proof.
  intros m s n n' H [nls E]. subst n'. destruct n as [| |k]; cbn [check_norm] in H; [discriminate H|destruct (s_true s); discriminate H|].
  destruct (s_true s); [reflexivity|]. destruct (s_space s); [reflexivity|]. destruct (s_norm s); [reflexivity|]. discriminate H.
Qed.
Lemma call_good : forall (m : model L X) a h ls n, ls <> [] -> opt (honest I a) h -> good a true true ls n (call m h ls n).
Proof.
  intros m a [h|] ls n Hls Hh; simpl; [|reflexivity].
  destruct (negb (s_multi (h_supp h)) && Nat.ltb 1 (length ls)) eqn:E.
  - apply andb_prop in E. destruct E as [_ E]. apply Nat.ltb_lt in E. simpl. auto.
  - destruct (check_norm m (h_supp h) n) as [n'|] eqn:En.
    + destruct (check_norm_some _ _ _ _ En) as [H1 H2]. simpl in Hh. assert (Hm : handed_limits (h_supp h) ls).
      { intros Em. rewrite Em in E. cbn [negb andb] in E. apply Nat.ltb_ge in E. exact E. }
      specialize (Hh ls n' Hls Hm (check_norm_handed _ _ _ _ En)).
      destruct (h_fun h ls n'); simpl; auto. rewrite Hh. apply H2.
    + apply (check_norm_none _ _ _ En).
Qed.

Lemma sum_all_good : forall a b (c : list L -> norm L -> outcome) n ls,
  (forall ls, ls <> [] -> good a b true ls n (c ls n)) ->
  good a b false ls n (sum_all (map (fun l => c [l] n) ls)).
Proof.
  intros a b c n ls Hc. induction ls as [|l ls IH].
  - simpl. destruct n; simpl; try reflexivity. unfold Rdiv. ring.
  - cbn [map sum_all]. assert (H1 := Hc [l] ltac:(discriminate)). destruct (c [l] n) as [v| | | | |] eqn:E.
    + destruct (sum_all _) as [w| | | | |]; simpl in IH |- *; auto.
      * rewrite integral_of_cons. simpl in H1. rewrite H1, IH. reflexivity.
      * destruct IH as [IH _]. discriminate IH.
    + exact H1.
    + exact H1.
    + exact H1.
    + simpl in H1. destruct H1 as [_ H1]. lia.
    + exact H1.
Qed.
Lemma limits_with_good : forall a b (c : list L -> norm L -> outcome) n ls, ls <> [] ->
  (forall ls, ls <> [] -> good a b true ls n (c ls n)) ->
  good a b false ls n (limits_with c ls n).
Proof.
  intros a b c n ls Hls Hc. unfold limits_with. assert (H := Hc ls Hls).
  destruct (c ls n) as [v| | | | |] eqn:E; try exact H. apply sum_all_good, Hc.
Qed.

Lemma not_norm_NoNorm : is_norm (@NoNorm L) -> False.
Proof. intros [x E]. discriminate E. Qed.

Lemma norm_with_good : forall (c : list L -> norm L -> outcome) ls n, ls <> [] -> wf_norm n ->
  (forall ls n, ls <> [] -> wf_norm n -> good false false true ls n (c ls n)) ->
  norm_with c ls n = Val (integral_of ls n).
Proof.
  intros c ls n Hls Hn Hc. unfold norm_with.
  assert (H := limits_with_good false false c n ls Hls (fun ls' H' => Hc ls' n H' Hn)).
  destruct (limits_with c ls n) as [v| | | | |] eqn:E; simpl in H; try discriminate H.
  - rewrite H. reflexivity.
  - destruct H as [nls ->]. simpl in Hn.
    assert (H1 := limits_with_good false false c NoNorm ls Hls (fun ls' H' => Hc ls' NoNorm H' Logic.I)).
    assert (H2 := limits_with_good false false c NoNorm nls Hn (fun ls' H' => Hc ls' NoNorm H' Logic.I)).
    destruct (limits_with c ls NoNorm) as [v| | | | |]; simpl in H1; try discriminate H1;
      try (destruct (not_norm_NoNorm H1)); try (destruct H1 as [H1 _]; discriminate H1); try contradiction.
    destruct (limits_with c nls NoNorm) as [w| | | | |]; simpl in H2; try discriminate H2;
      try (destruct (not_norm_NoNorm H2)); try (destruct H2 as [H2 _]; discriminate H2); try contradiction.
    simpl. rewrite H1, H2. reflexivity.
  - destruct H as [H _]. discriminate H.
  - contradiction.
Qed.

Variable m : model L X.
Hypothesis HM : honest_model I m.

Lemma call_analytic_good : forall ls n, ls <> [] -> good true false true ls n (call_analytic m ls n).
Proof.
  intros ls n Hls. unfold call_analytic.
  assert (H := call_good m true (m_analytic m) ls n Hls (hm_analytic I m HM)).
  assert (K : good true false true ls n
     match m_reg m ls with Some h => match call m (Some h) ls n with ENotImpl | EAnalytic => EAnalytic | o => o end | None => EAnalytic end).
  { destruct (m_reg m ls) as [h|] eqn:Er; [|reflexivity].
    assert (H' := call_good m true (Some h) ls n Hls (hm_reg I m HM ls h Er)).
    destruct (call m (Some h) ls n); try exact H'; reflexivity. }
  destruct (call m (m_analytic m) ls n); try exact H; exact K.
Qed.
Lemma norm_analytic_good : forall ls n, ls <> [] -> wf_norm n -> good true false false ls n (norm_analytic m ls n).
Proof.
  intros ls n Hls Hn. unfold norm_analytic.
  assert (G : forall ls n, ls <> [] -> good true false false ls n (limits_with (call_analytic m) ls n)).
  { intros ls' n' H'. apply limits_with_good; [exact H'|]. intros l'' H''. apply call_analytic_good, H''. }
  assert (H := G ls n Hls). destruct (limits_with (call_analytic m) ls n) as [v| | | | |]; try exact H.
  simpl in H. destruct H as [nls ->]. simpl in Hn.
  assert (H1 := G ls NoNorm Hls). assert (H2 := G nls NoNorm Hn).
  destruct (limits_with (call_analytic m) ls NoNorm) as [u| | | | |]; simpl in H1; try discriminate H1;
    try (destruct (not_norm_NoNorm H1)); try (destruct H1 as [H1 _]; discriminate H1); try contradiction.
  - destruct (limits_with (call_analytic m) nls NoNorm) as [d| | | | |]; simpl in H2; try discriminate H2;
    try (destruct (not_norm_NoNorm H2)); try (destruct H2 as [H2 _]; discriminate H2); try contradiction.
    + simpl. rewrite H1, H2. reflexivity.
    + simpl. eexists; reflexivity.
  - reflexivity.
Qed.
Lemma call_numeric_good : forall ls n, ls <> [] -> good false false true ls n (call_numeric m ls n).
Proof.
  intros ls n Hls. unfold call_numeric.
  assert (H := call_good m false (m_numeric m) ls n Hls (hm_numeric I m HM)).
  destruct (call m (m_numeric m) ls n); try exact H.
  destruct n; [rewrite (hm_auto I m HM); reflexivity .. |]. eexists; reflexivity.
Qed.
Lemma numeric_integrate_ok : forall ls n, ls <> [] -> wf_norm n -> numeric_integrate m ls n = Val (integral_of ls n).
Proof. intros ls n Hls Hn. apply norm_with_good; auto. intros; apply call_numeric_good; auto. Qed.
Lemma call_integrate_good : forall ls n, ls <> [] -> wf_norm n -> good false false true ls n (call_integrate m ls n).
Proof.
  intros ls n Hls Hn. unfold call_integrate.
  assert (H := call_good m false (m_integrate m) ls n Hls (hm_integrate I m HM)).
  destruct (call m (m_integrate m) ls n); try exact H.
  assert (H' := norm_analytic_good ls n Hls Hn).
  destruct (norm_analytic m ls n); try exact H'.
  - change (norm_with (call_numeric m) ls n) with (numeric_integrate m ls n). rewrite numeric_integrate_ok by auto. reflexivity.
  - simpl in H'. destruct H' as [H' _]. discriminate H'.
Qed.
Lemma integrate_ok : forall ls n, ls <> [] -> wf_norm n -> integrate m ls n = Val (integral_of ls n).
Proof. intros ls n Hls Hn. apply norm_with_good; auto. exact call_integrate_good. Qed.

(** The analytic integral: a value is always right; otherwise it is an error of one of the two kinds. *)
Lemma analytic_integrate_ok : forall ls n, ls <> [] -> wf_norm n ->
  analytic_integrate m ls n = Val (integral_of ls n) \/ analytic_integrate m ls n = EAnalytic \/
  (analytic_integrate m ls n = ENorm /\ is_norm n).
Proof.
  intros ls n Hls Hn. unfold analytic_integrate. assert (H := norm_analytic_good ls n Hls Hn).
  destruct (norm_analytic m ls n) eqn:E; simpl in H; auto.
  - left. rewrite H. reflexivity.
  - discriminate H.
  - destruct H as [H _]. discriminate H.
  - contradiction.
Qed.

(** The densities *)
Hypothesis HP : honest_pdf I f m.
Notation density_of := (density_of I f).

Lemma normalization_ok : forall nls, nls <> [] -> normalization m nls = Val (total nls).
Proof.
  intros nls Hn. unfold normalization. assert (H := hp_normalization I f m HP).
  destruct (m_normalization m) as [[s g]|]; simpl in H.
  - destruct H as [Hs H]. simpl. rewrite Hs. simpl. destruct (H nls) as [E|E]; rewrite E; auto.
    rewrite integrate_ok; simpl; auto.
  - rewrite integrate_ok; simpl; auto.
Qed.

Definition pgood (value : X -> norm L -> R -> Prop) x n (o : outcome) : Prop :=
  match o with Val v => value x n v | ENotImpl => True | ENorm => is_norm n | _ => False end.
Lemma pcall_good : forall (value : X -> norm L -> R -> Prop) h x n,
  (forall x n n' v, density_of x n' = density_of x n -> value x n' v -> value x n v) ->
  opt (honest_at value) h -> pgood value x n (pcall m h x n).
Proof.
  intros value [h|] x n Hv Hh; simpl; [|exact Logic.I].
  destruct (check_norm m (p_supp h) n) as [n'|] eqn:En.
  - destruct (check_norm_some _ _ _ _ En) as [H1 _]. assert (H2 := check_norm_density _ _ _ _ En). simpl in Hh. specialize (Hh x n' (check_norm_handed _ _ _ _ En)).
    destruct (p_fun h x n'); simpl; auto. apply (Hv x n n'); auto.
  - apply (check_norm_none _ _ _ En).
Qed.

Lemma vpdf : forall x (n n' : norm L) v, density_of x n' = density_of x n -> v = density_of x n' -> v = density_of x n.
Proof. intros; congruence. Qed.
Lemma vlog : forall x (n n' : norm L) v, density_of x n' = density_of x n -> exp v = density_of x n' -> exp v = density_of x n.
Proof. intros; congruence. Qed.
Lemma vext : forall y x (n n' : norm L) v, density_of x n' = density_of x n -> v = y * density_of x n' -> v = y * density_of x n.
Proof. intros; congruence. Qed.
Lemma vextlog : forall y x (n n' : norm L) v, density_of x n' = density_of x n -> exp v = y * density_of x n' -> exp v = y * density_of x n.
Proof. intros; congruence. Qed.

Lemma fallback_pdf_ok : forall x n, wf_norm n -> n <> NoNorm -> fallback_pdf m x n = Val (density_of x n).
Proof.
  intros x n Hn Hd. destruct n as [| |nls]; simpl; [contradiction Hd; reflexivity| |].
  - apply (hp_unnorm I f m HP).
  - rewrite (hp_unnorm I f m HP), normalization_ok by auto. reflexivity.
Qed.

Lemma call_pdf_good : forall x n, wf_norm n -> n <> NoNorm ->
  call_pdf m x n = Val (density_of x n) \/ (call_pdf m x n = ENorm /\ is_norm n).
Proof.
  intros x n Hn Hd. unfold call_pdf.
  assert (H1 := pcall_good _ (m_pdf m) x n vpdf (hp_pdf I f m HP)).
  assert (H2 := pcall_good _ (m_log_pdf m) x n vlog (hp_log I f m HP)).
  destruct (pcall m (m_pdf m) x n) as [v| | | | |]; simpl in H1; try contradiction; [left; congruence| |auto].
  destruct (pcall m (m_log_pdf m) x n) as [w| | | | |]; simpl in H2; try contradiction; simpl; [left; congruence| |auto].
  rewrite (fallback_pdf_ok x n Hn Hd).
  assert (H3 := hp_ext I f m HP). assert (Hy := hp_yield I f m HP). destruct (m_yield m) as [y|]; [|auto].
  assert (H4 := pcall_good _ (m_ext_pdf m) x n (vext y) (H3 y eq_refl)).
  assert (y <> 0) by (specialize (Hy y eq_refl); lra).
  destruct (pcall m (m_ext_pdf m) x n) as [u| | | | |]; simpl in H4; try contradiction; simpl; auto.
  left. rewrite H4. f_equal. field. assumption.
Qed.

Lemma pdf_ok : forall x n, wf_norm n -> n <> NoNorm -> pdf m x n = Val (density_of x n).
Proof.
  intros x n Hn Hd. unfold pdf. destruct (call_pdf_good x n Hn Hd) as [E|[E [nls ->]]]; rewrite E; [reflexivity|].
  simpl in Hn. destruct (call_pdf_good x NormFalse Logic.I ltac:(discriminate)) as [E'|[_ [z E']]]; [|discriminate E'].
  rewrite E', normalization_ok by auto. reflexivity.
Qed.

Lemma ext_integrate_ok : forall ls n y, ls <> [] -> wf_norm n -> m_yield m = Some y ->
  ext_integrate m ls n = Val (integral_of ls n * y).
Proof. intros ls n y Hls Hn Hy. unfold ext_integrate. rewrite Hy, integrate_ok by auto. reflexivity. Qed.

(** The extended density. [_ext_pdf] may decline a norm, but then not the missing norm. *)
Lemma ext_pdf_ok : forall x n y, wf_norm n -> n <> NoNorm -> m_yield m = Some y ->
  (forall nls, n = Norm nls -> pcall m (m_ext_pdf m) x n = ENorm -> exists v, pcall m (m_ext_pdf m) x NoNorm = Val v) ->
  ext_pdf m x n = Val (y * density_of x n).
Proof.
  intros x n y Hn Hd Hy Hdec. unfold ext_pdf. rewrite Hy.
  assert (H := pcall_good _ (m_ext_pdf m) x n (vext y) (hp_ext I f m HP y Hy)).
  destruct (pcall m (m_ext_pdf m) x n) as [v| | | | |] eqn:E; simpl in H; try contradiction.
  - rewrite H. reflexivity.
  - rewrite pdf_ok by auto. simpl. f_equal. ring.
  - destruct H as [nls ->]. simpl in Hn. destruct (Hdec nls eq_refl eq_refl) as [v Ev].
    assert (H' := pcall_good _ (m_ext_pdf m) x NoNorm (vext y) (hp_ext I f m HP y Hy)).
    rewrite Ev in H' |- *. rewrite normalization_ok by auto. simpl in H'. rewrite H'. simpl. f_equal.
    simpl. unfold Rdiv. ring.
Qed.

(** The logarithm of the density *)
Definition declines_norm (h : option (phook L X)) x n : Prop := pcall m h x n = ENorm.

Lemma log_pdf_ok : forall x n, wf_norm n -> n <> NoNorm -> 0 < density_of x n ->
  ~ declines_norm (m_log_pdf m) x n -> ~ declines_norm (m_pdf m) x n ->
  exists v, log_pdf m x n = Val v /\ exp v = density_of x n.
Proof.
  intros x n Hn Hd Hpos N1 N2. unfold log_pdf, call_log_pdf.
  assert (H1 := pcall_good _ (m_pdf m) x n vpdf (hp_pdf I f m HP)).
  assert (H2 := pcall_good _ (m_log_pdf m) x n vlog (hp_log I f m HP)).
  unfold declines_norm in *.
  destruct (pcall m (m_log_pdf m) x n) as [w| | | | |]; simpl in H2; try contradiction; [eauto|].
  destruct (pcall m (m_pdf m) x n) as [v| | | | |]; simpl in H1; try contradiction; simpl.
  - exists (ln v). split; [reflexivity|]. rewrite H1. apply exp_ln, Hpos.
  - rewrite (pdf_ok x n Hn Hd). simpl. eexists. split; [reflexivity|]. apply exp_ln, Hpos.
Qed.

Lemma log_pdf_without_norm : forall x nls v, nls <> [] -> m_log_pdf m = None ->
  declines_norm (m_pdf m) x (Norm nls) -> pcall m (m_pdf m) x NoNorm = Val v ->
  log_pdf m x (Norm nls) = Val (ln (f x) - total nls).
Proof.
  intros x nls v Hn Hl Hdec Hv. unfold log_pdf, call_log_pdf, log_normalization. rewrite Hl. cbn [pcall].
  unfold declines_norm in Hdec. rewrite Hdec. cbn [map_val]. rewrite Hv. simpl. rewrite normalization_ok by auto.
  assert (H1 := pcall_good _ (m_pdf m) x NoNorm vpdf (hp_pdf I f m HP)). rewrite Hv in H1.
  simpl in H1. rewrite H1. reflexivity.
Qed.

Lemma ln_lt_self : forall t, 0 < t -> ln t <> t.
Proof.
  intros t Ht E. assert (H := exp_ln t Ht). rewrite E in H.
  assert (H1 : 1 + t < exp t) by (apply exp_ineq1; lra). lra.
Qed.

Lemma log_pdf_never_right : forall x nls v, nls <> [] -> m_log_pdf m = None ->
  declines_norm (m_pdf m) x (Norm nls) -> pcall m (m_pdf m) x NoNorm = Val v ->
  0 < f x -> 0 < total nls ->
  exists w, log_pdf m x (Norm nls) = Val w /\ exp w <> density_of x (Norm nls).
Proof.
  intros x nls v Hn Hl Hdec Hv Hf Ht. exists (ln (f x) - total nls). split.
  - eapply log_pdf_without_norm; eauto.
  - simpl. intro E. assert (E' := f_equal ln E). rewrite ln_exp in E'.
    unfold Rdiv in E'. rewrite ln_mult in E' by (auto using Rinv_0_lt_compat).
    rewrite ln_Rinv in E' by auto. apply (ln_lt_self (total nls) Ht). lra.
Qed.

Lemma ext_log_pdf_ok : forall x n y, wf_norm n -> n <> NoNorm -> 0 < density_of x n -> m_yield m = Some y ->
  ~ declines_norm (m_log_pdf m) x n -> ~ declines_norm (m_pdf m) x n -> ~ declines_norm (m_ext_log_pdf m) x n ->
  exists v, ext_log_pdf m x n = Val v /\ exp v = y * density_of x n.
Proof.
  intros x n y Hn Hd Hpos Hy N1 N2 N3. unfold ext_log_pdf. rewrite Hy.
  assert (H := pcall_good _ (m_ext_log_pdf m) x n (vextlog y) (hp_ext_log I f m HP y Hy)).
  unfold declines_norm in N3. destruct (pcall m (m_ext_log_pdf m) x n) as [v| | | | |]; simpl in H; try contradiction.
  - eauto.
  - destruct (log_pdf_ok x n Hn Hd Hpos N1 N2) as [v [E Ev]]. rewrite E. simpl.
    exists (v + ln y). split; [reflexivity|]. rewrite exp_plus, exp_ln by (apply (hp_yield I f m HP), Hy). rewrite Ev. ring.
Qed.
End Proofs.
