(** Theorems about the dispatch of integrals (C36) and densities (C57). *)
From Verif Require Import Base Disp_Model Disp_Spec Disp_Proofs.
From Coq Require Import Lra.
#[local] Open Scope R_scope.

Lemma wf_of : forall (L : Type) (n : norm L), (forall nls, n = Norm nls -> nls <> []) -> wf_norm n.
Proof. intros L [| |nls] H; simpl; [exact Logic.I..|]. apply H. reflexivity. Qed.

(** C36: whatever methods a model implements, supports or declines, [integrate] returns the sum of
    the integrals over the limits, divided by the sum over the limits of the norm. *)
Theorem C36_integrate : forall (L X : Type) (I : L -> R) (m : model L X) ls n,
  honest_model I m -> ls <> [] -> (forall nls, n = Norm nls -> nls <> []) ->
  integrate m ls n = Val (integral_of I ls n).
Proof. intros L X I m ls n HM Hls Hn. apply integrate_ok; auto. apply wf_of; exact Hn. Qed.

(** The same for [numeric_integrate]; [analytic_integrate] returns the integral or says that it
    has none (or none for the norm), never a wrong value. *)
Theorem C36_numeric : forall (L X : Type) (I : L -> R) (m : model L X) ls n,
  honest_model I m -> ls <> [] -> (forall nls, n = Norm nls -> nls <> []) ->
  numeric_integrate m ls n = Val (integral_of I ls n).
Proof. intros L X I m ls n HM Hls Hn. apply numeric_integrate_ok; auto. apply wf_of; exact Hn. Qed.
Theorem C36_analytic : forall (L X : Type) (I : L -> R) (m : model L X) ls n,
  honest_model I m -> ls <> [] -> (forall nls, n = Norm nls -> nls <> []) ->
  analytic_integrate m ls n = Val (integral_of I ls n) \/ analytic_integrate m ls n = EAnalytic \/
  (analytic_integrate m ls n = ENorm /\ exists nls, n = Norm nls).
Proof. intros L X I m ls n HM Hls Hn. apply analytic_integrate_ok; auto. apply wf_of; exact Hn. Qed.

(** Consequences: a normalised integral over the norm itself is one; limits add up. *)
Theorem C36_norm_is_one : forall (L X : Type) (I : L -> R) (m : model L X) ls,
  honest_model I m -> ls <> [] -> total I ls <> 0 -> integrate m ls (Norm ls) = Val 1.
Proof.
  intros L X I m ls HM Hls Ht. rewrite (integrate_ok I m HM); [|exact Hls|exact Hls].
  simpl. f_equal. field. exact Ht.
Qed.
Theorem C36_additive : forall (L X : Type) (I : L -> R) (m : model L X) ls ls' n,
  honest_model I m -> ls <> [] -> ls' <> [] -> (forall nls, n = Norm nls -> nls <> []) ->
  exists a b, integrate m ls n = Val a /\ integrate m ls' n = Val b /\ integrate m (ls ++ ls') n = Val (a + b).
Proof.
  intros L X I m ls ls' n HM Hls Hls' Hn. assert (wf_norm n) by (apply wf_of; exact Hn).
  exists (integral_of I ls n), (integral_of I ls' n).
  rewrite !(integrate_ok I m HM) by (auto; (destruct ls; [contradiction Hls; reflexivity|discriminate])).
  split; [reflexivity|]. split; [reflexivity|]. f_equal. clear Hls.
  induction ls as [|l ls IH].
  - simpl. destruct n; simpl; unfold Rdiv; ring.
  - change ((l :: ls) ++ ls') with (l :: (ls ++ ls')). rewrite (integral_of_cons I l ls), integral_of_cons, IH. ring.
Qed.

(** C57: the normalisation, the density, its extended version and the extended integral are what
    they should be for every combination of implemented methods. *)
Theorem C57_normalization : forall (L X : Type) (I : L -> R) (f : X -> R) (m : model L X) nls,
  honest_pdf I f m -> nls <> [] -> normalization m nls = Val (total I nls).
Proof. intros L X I f m nls HP Hn. apply (normalization_ok I f m (hp_model I f m HP) HP nls Hn). Qed.

Theorem C57_pdf : forall (L X : Type) (I : L -> R) (f : X -> R) (m : model L X) x n,
  honest_pdf I f m -> (forall nls, n = Norm nls -> nls <> []) -> n <> NoNorm ->
  pdf m x n = Val (density_of I f x n).
Proof. intros L X I f m x n HP Hn Hd. apply pdf_ok; auto. apply (hp_model I f m HP). apply wf_of; exact Hn. Qed.

Theorem C57_ext_integrate : forall (L X : Type) (I : L -> R) (f : X -> R) (m : model L X) ls n y,
  honest_pdf I f m -> ls <> [] -> (forall nls, n = Norm nls -> nls <> []) -> m_yield m = Some y ->
  ext_integrate m ls n = Val (integral_of I ls n * y).
Proof. intros L X I f m ls n y HP Hls Hn Hy. apply ext_integrate_ok; auto. apply (hp_model I f m HP). apply wf_of; exact Hn. Qed.

(** [ext_pdf]: provided that an [_ext_pdf] that declines the norm gives a value without one *)
Theorem C57_ext_pdf : forall (L X : Type) (I : L -> R) (f : X -> R) (m : model L X) x n y,
  honest_pdf I f m -> (forall nls, n = Norm nls -> nls <> []) -> n <> NoNorm -> m_yield m = Some y ->
  (pcall m (m_ext_pdf m) x n = ENorm -> exists v, pcall m (m_ext_pdf m) x NoNorm = Val v) ->
  ext_pdf m x n = Val (y * density_of I f x n).
Proof.
  intros L X I f m x n y HP Hn Hd Hy Hdec. eapply ext_pdf_ok; eauto. apply (hp_model I f m HP). apply wf_of; exact Hn.
Qed.

(** A PDF without yield refuses the extended methods. *)
Theorem C57_not_extended : forall (L X : Type) (m : model L X) x ls n, m_yield m = None ->
  ext_pdf m x n = EOther /\ ext_log_pdf m x n = EOther /\ ext_integrate m ls n = EOther.
Proof. intros L X m x ls n H. unfold ext_pdf, ext_log_pdf, ext_integrate. rewrite H. auto. Qed.

(** [log_pdf] is the logarithm of the density if every implemented [_pdf] and [_log_pdf] supports
    the norm. Missing: those that do not support it, see the next theorem. *)
Definition supports_norm {L X} (h : phook L X) : Prop :=
  s_true (p_supp h) = true /\ forall x n, p_fun h x n <> ENorm.

Lemma supports_norm_call : forall (L X : Type) (m : model L X) h x n,
  opt supports_norm h -> pcall m h x n <> ENorm.
Proof.
  intros L X m [h|] x n H; simpl; [|discriminate]. destruct H as [Hs H]. unfold check_norm. rewrite Hs.
  destruct n; simpl; apply H.
Qed.

Theorem C57_log_pdf_partial : forall (L X : Type) (I : L -> R) (f : X -> R) (m : model L X) x n,
  honest_pdf I f m -> (forall nls, n = Norm nls -> nls <> []) -> n <> NoNorm -> 0 < density_of I f x n ->
  opt supports_norm (m_pdf m) -> opt supports_norm (m_log_pdf m) ->
  exists v, log_pdf m x n = Val v /\ exp v = density_of I f x n.
Proof.
  intros L X I f m x n HP Hn Hd Hpos H1 H2. eapply log_pdf_ok; eauto using supports_norm_call.
  apply (hp_model I f m HP). apply wf_of; exact Hn.
Qed.
Theorem C57_ext_log_pdf_partial : forall (L X : Type) (I : L -> R) (f : X -> R) (m : model L X) x n y,
  honest_pdf I f m -> (forall nls, n = Norm nls -> nls <> []) -> n <> NoNorm -> 0 < density_of I f x n ->
  m_yield m = Some y ->
  opt supports_norm (m_pdf m) -> opt supports_norm (m_log_pdf m) -> opt supports_norm (m_ext_log_pdf m) ->
  exists v, ext_log_pdf m x n = Val v /\ exp v = y * density_of I f x n.
Proof.
  intros L X I f m x n y HP Hn Hd Hpos Hy H1 H2 H3. eapply ext_log_pdf_ok; eauto; try apply supports_norm_call; auto.
  apply (hp_model I f m HP). apply wf_of; exact Hn.
Qed.

(** For a PDF that implements [_pdf] without support for the norm (the Crystal Ball shapes and the
    polynomials do) [log_pdf] is wrong at every point and for every norm: instead of the logarithm of the
    normalisation it subtracts the normalisation itself. *)
Theorem C57_log_pdf_refuted : forall (L X : Type) (I : L -> R) (f : X -> R) (m : model L X) x nls h v,
  honest_pdf I f m -> nls <> [] ->
  m_log_pdf m = None -> m_pdf m = Some h ->
  p_supp h = mkSupp false false false false -> p_fun h x NoNorm = Val v ->
  0 < f x -> 0 < total I nls ->
  pdf m x (Norm nls) = Val (f x / total I nls) /\
  log_pdf m x (Norm nls) = Val (ln (f x) - total I nls) /\
  exp (ln (f x) - total I nls) <> f x / total I nls.
Proof.
  intros L X I f m x nls h v HP Hn Hl Hm Hs Hv Hf Ht.
  assert (D : declines_norm m (m_pdf m) x (Norm nls)).
  { unfold declines_norm. rewrite Hm. cbn [pcall]. rewrite Hs. reflexivity. }
  assert (N : pcall m (m_pdf m) x NoNorm = Val v).
  { rewrite Hm. cbn [pcall]. rewrite Hs. exact Hv. }
  split; [|split].
  - apply (pdf_ok I f m (hp_model I f m HP) HP x (Norm nls)); [exact Hn|discriminate].
  - eapply (log_pdf_without_norm I f m (hp_model I f m HP) HP); eauto.
  - destruct (log_pdf_never_right I f m (hp_model I f m HP) HP x nls v Hn Hl D N Hf Ht) as [w [E Hw]].
    rewrite (log_pdf_without_norm I f m (hp_model I f m HP) HP x nls v Hn Hl D N) in E. injection E as <-. exact Hw.
Qed.

(** The method that the class implements is the one that is used. *)
Theorem C36_own_method_first : forall (L X : Type) (m : model L X) h ls n v,
  m_integrate m = Some h -> h_supp h = mkSupp true false false true -> h_fun h ls n = Val v ->
  integrate m ls n = Val v.
Proof.
  intros L X m h ls n v Hm Hs Hv. unfold integrate, norm_with, limits_with, call_integrate, call. rewrite Hm, Hs.
  simpl. unfold check_norm. destruct n; simpl; rewrite Hv; reflexivity.
Qed.

(** A method declared to support the norm of the model, or its space, gets the norm if it is equal to that;
    one that does not is never called with it. *)
Theorem C36_supported_norm : forall (L X : Type) (m : model L X) h l nls v,
  m_integrate m = Some h -> h_fun h [l] (Norm nls) = Val v ->
  (s_true (h_supp h) = true \/ (s_space (h_supp h) = true /\ m_eq_space m nls = true) \/
   (s_norm (h_supp h) = true /\ m_eq_norm m nls = true)) ->
  integrate m [l] (Norm nls) = Val v.
Proof.
  intros L X m h l nls v Hm Hv Hs. unfold integrate, norm_with, limits_with, call_integrate, call. rewrite Hm.
  cbn [length Nat.ltb Nat.leb]. rewrite andb_false_r. cbn [check_norm].
  replace (s_true (h_supp h) || _ || _) with true; [rewrite Hv; reflexivity|].
  symmetry. destruct Hs as [->|[[-> ->]|[-> ->]]]; simpl; rewrite ?orb_true_r; reflexivity.
Qed.
Theorem C36_unsupported_norm : forall (L X : Type) (m : model L X) h h' ls nls,
  s_true (h_supp h) = false -> m_eq_space m nls && s_space (h_supp h) = false -> m_eq_norm m nls && s_norm (h_supp h) = false ->
  h_supp h' = h_supp h -> (forall ls n, (forall nls, n <> Norm nls) -> h_fun h' ls n = h_fun h ls n) ->
  call m (Some h') ls (Norm nls) = call m (Some h) ls (Norm nls).
Proof.
  intros L X m h h' ls nls Ht Hs Hn E Ef. unfold call. rewrite E. destruct (negb _ && _); [reflexivity|].
  cbn [check_norm]. rewrite Ht, (andb_comm (s_space _)), Hs, (andb_comm (s_norm _)), Hn. reflexivity.
Qed.

(** Without an own method, the class's analytic integral is used, then a registered one, and
    only then the numeric integral. *)
Theorem C36_analytic_before_numeric : forall (L X : Type) (m : model L X) h ls n v,
  m_integrate m = None -> m_analytic m = Some h -> h_supp h = mkSupp true false false true -> h_fun h ls n = Val v ->
  integrate m ls n = Val v.
Proof.
  intros L X m h ls n v Hi Hm Hs Hv. unfold integrate, norm_with, limits_with at 1, call_integrate, call. rewrite Hi.
  unfold norm_analytic, limits_with, call_analytic, call. rewrite Hm, Hs.
  simpl. unfold check_norm. destruct n; simpl; rewrite Hv; reflexivity.
Qed.
Theorem C36_registered_before_numeric : forall (L X : Type) (m : model L X) h ls n v,
  m_integrate m = None -> m_analytic m = None -> m_reg m ls = Some h ->
  h_supp h = mkSupp true false false true -> h_fun h ls n = Val v ->
  integrate m ls n = Val v.
Proof.
  intros L X m h ls n v Hi Ha Hm Hs Hv. unfold integrate, norm_with, limits_with at 1, call_integrate, call. rewrite Hi.
  unfold norm_analytic, limits_with, call_analytic, call. rewrite Ha, Hm, Hs.
  simpl. unfold check_norm. destruct n; simpl; rewrite Hv; reflexivity.
Qed.

(** Non-vacuity: boxes are intervals, the function is the constant two; the class implements [_integrate] for a single
    limit without norm, but declines limits that start at zero; its analytic integral
    only knows limits that start at one; the rest is numeric. *)
Definition exI (l : R * R) : R := 2 * (snd l - fst l).
Definition ex_integrate : hook (R * R) :=
  mkHook (mkSupp false false false false)
    (fun ls n => match ls, n with
                 | [(a, b)], NoNorm | [(a, b)], NormFalse => if Req_EM_T a 0 then ENotImpl else Val (2 * (b - a))
                 | _, Norm _ => ENorm
                 | _, _ => ENotImpl
                 end).
Definition ex_analytic : hook (R * R) :=
  mkHook (mkSupp false false false false)
    (fun ls n => match ls, n with
                 | [(a, b)], NoNorm => if Req_EM_T a 1 then Val (2 * (b - a)) else EAnalytic
                 | _, _ => ENotImpl
                 end).
Definition ex_pdf : phook (R * R) R :=
  mkPhook (mkSupp false false false false) (fun x n => match n with NoNorm => Val 2 | _ => ENotImpl end).
Definition exM : model (R * R) R :=
  mkModel (fun _ => false) (fun _ => false) (Some ex_integrate) (Some ex_analytic) (fun _ => None) None
    (fun ls => Val (total exI ls)) None (Some ex_pdf) None None None (fun _ => Val 2) (Some 10).

Lemma exM_honest : honest_pdf exI (fun _ => 2) exM.
Proof.
  assert (M : honest_model exI exM).
  { constructor; simpl.
    - intros ls n Hls. simpl. destruct ls as [|[a b] [|]], n; simpl; auto; try (eexists; reflexivity);
      destruct (Req_EM_T a 0); auto; unfold exI; simpl; lra.
    - intros ls n Hls. simpl. destruct ls as [|[a b] [|]], n; simpl; auto;
      destruct (Req_EM_T a 1); auto; unfold exI; simpl; lra.
    - intros ls h H. discriminate H.
    - exact Logic.I.
    - reflexivity. }
  constructor; simpl; auto.
  - intros x n. simpl. destruct n; simpl; auto.
  - intros y H. injection H as <-. lra.
Qed.

Example C36_integrate_ex : integrate exM [(0, 1); (3, 5)] (Norm [(1, 2); (4, 8)]) = Val (6 / 10).
Proof.
  rewrite (C36_integrate _ _ exI exM _ _ (hp_model _ _ _ exM_honest)).
  - simpl. unfold exI. simpl. f_equal. lra.
  - discriminate.
  - intros nls E. injection E as <-. discriminate.
Qed.
Example C57_log_pdf_refuted_ex : pdf exM 0 (Norm [(0, 3)]) = Val (2 / total exI [(0, 3)]) /\
  log_pdf exM 0 (Norm [(0, 3)]) = Val (ln 2 - total exI [(0, 3)]) /\ exp (ln 2 - total exI [(0, 3)]) <> 2 / total exI [(0, 3)].
Proof.
  eapply (C57_log_pdf_refuted _ _ exI (fun _ => 2) exM 0 [(0, 3)] ex_pdf 2); try reflexivity; try discriminate.
  - exact exM_honest.
  - lra.
  - simpl. unfold exI. simpl. lra.
Qed.

(** A PDF with only the unnormalised function: all hypotheses of the remaining theorems hold. *)
Definition exN : model (R * R) R :=
  mkModel (fun _ => false) (fun _ => false) None None (fun _ => None) None
    (fun ls => Val (total exI ls)) None None None None None (fun _ => Val 2) (Some 10).
Example exN_honest : honest_pdf exI (fun _ => 2) exN.
Proof.
  constructor; simpl; auto.
  - constructor; simpl; auto. intros ls h H. discriminate H.
  - intros y H. injection H as <-. lra.
Qed.
Example C57_log_pdf_partial_ex : exists v, log_pdf exN 1 (Norm [(0, 1)]) = Val v /\ exp v = 1.
Proof.
  destruct (C57_log_pdf_partial _ _ exI (fun _ => 2) exN 1 (Norm [(0, 1)]) exN_honest) as [v [E Ev]]; simpl; auto.
  - intros nls E. injection E as <-. discriminate.
  - discriminate.
  - unfold exI. simpl. lra.
  - exists v. split; [exact E|]. rewrite Ev. simpl. unfold exI. simpl. lra.
Qed.
Example C57_ext_pdf_ex : ext_pdf exN 1 (Norm [(0, 1)]) = Val 10.
Proof.
  rewrite (C57_ext_pdf _ _ exI (fun _ => 2) exN 1 (Norm [(0, 1)]) 10 exN_honest); simpl; auto.
  - unfold exI. simpl. f_equal. lra.
  - intros nls E. injection E as <-. discriminate.
  - discriminate.
  - intro E. discriminate E.
Qed.

Print Assumptions C36_integrate.
Print Assumptions C36_numeric.
Print Assumptions C36_analytic.
Print Assumptions C36_norm_is_one.
Print Assumptions C36_additive.
Print Assumptions C36_own_method_first.
Print Assumptions C36_supported_norm.
Print Assumptions C36_unsupported_norm.
Print Assumptions C36_analytic_before_numeric.
Print Assumptions C36_registered_before_numeric.
Print Assumptions C57_normalization.
Print Assumptions C57_pdf.
Print Assumptions C57_ext_integrate.
Print Assumptions C57_ext_pdf.
Print Assumptions C57_not_extended.
Print Assumptions C57_log_pdf_partial.
Print Assumptions C57_ext_log_pdf_partial.
Print Assumptions C57_log_pdf_refuted.
