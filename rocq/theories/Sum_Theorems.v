(** Theorems about sums of PDFs (C33). *)
From Verif Require Import Base BaseLemmas Disp_Model Disp_Spec Disp_Proofs Sum_Model Sum_Spec Sum_Proofs.
From Coq Require Import Lra Lia.
#[local] Open Scope R_scope.

(** ** The fractions *)

(** With one fraction less than PDFs, or without fractions and all PDFs extended, the fractions add up to one. *)
Theorem C33_fractions : forall (L X : Type) checks (pdfs : list (comp L X)) fracs obs ext s,
  sum_init checks pdfs fracs obs ext = Ok s ->
  (forall fs, fracs = Some fs -> length fs <> length pdfs) ->
  (fracs = None \/ fracs = Some [] -> sum_list (map c_yield pdfs) <> 0) ->
  sum_list (s_fracs s) = 1 /\ length (s_fracs s) = length pdfs /\ s_pdfs s = pdfs.
Proof.
  intros L X checks pdfs fracs obs ext s H H1 H2. unfold sum_init in H. destruct (preprocess checks fracs obs pdfs) as [[[fs given] sy]|e] eqn:E; [|discriminate H].
  cbn [bind] in H. destruct (preprocess_fracs _ _ _ _ _ _ _ E) as [P1 [P2 P3]].
  assert (S : s_fracs s = fs /\ s_pdfs s = pdfs).
  { injection H as <-. destruct ext; cbn [andb]; repeat match goal with |- context [if ?b then _ else _] => destruct b end; split; reflexivity. }
  destruct S as [-> ->]. split; [|auto].
  assert (D : fracs = None \/ fracs = Some [] -> fs = map (fun c => c_yield c / sum_list (map c_yield pdfs)) pdfs -> sum_list fs = 1).
  { intros D ->. rewrite (sum_list_div c_yield). field. auto. }
  destruct fracs as [[|a l]|]; [apply D; tauto| |apply D; tauto].
  destruct P3 as [_ [_ [-> | ->]]]; [exfalso; apply (H1 (a :: l) eq_refl); exact P2|].
  rewrite sum_list_app. simpl. ring.
Qed.
(** Which fractions: those given, and what is left to one; or the yields divided by their sum *)
Theorem C33_remaining_fraction : forall (L X : Type) checks (pdfs : list (comp L X)) f fs obs ext s,
  sum_init checks pdfs (Some (f :: fs)) obs ext = Ok s ->
  (length (f :: fs) = length pdfs /\ s_fracs s = f :: fs) \/
  (S (length (f :: fs)) = length pdfs /\ s_fracs s = (f :: fs) ++ [1 - sum_list (f :: fs)]).
Proof.
  intros L X checks pdfs f fs obs ext s H. unfold sum_init in H. destruct (preprocess checks (Some (f :: fs)) obs pdfs) as [[[fr given] sy]|e] eqn:E; [|discriminate H].
  cbn [bind] in H. destruct (preprocess_fracs _ _ _ _ _ _ _ E) as [P1 [P2 [P3 [P4 P5]]]].
  assert (S : s_fracs s = fr).
  { injection H as <-. destruct ext; cbn [andb]; repeat match goal with |- context [if ?b then _ else _] => destruct b end; reflexivity. }
  rewrite S. destruct P5 as [-> | ->]; [left; auto|right; split; [|reflexivity]].
  rewrite <- P2, app_length. simpl. lia.
Qed.
Theorem C33_yield_fractions : forall (L X : Type) checks (pdfs : list (comp L X)) fracs obs ext s,
  sum_init checks pdfs fracs obs ext = Ok s -> fracs = None \/ fracs = Some [] ->
  s_fracs s = map (fun c => c_yield c / sum_list (map c_yield pdfs)) pdfs /\
  (ext = ExtNone \/ ext = ExtTrue -> s_auto s = true /\ s_yield s = Some (sum_list (map c_yield pdfs))).
Proof.
  intros L X checks pdfs fracs obs ext s H F. unfold sum_init in H. destruct (preprocess checks fracs obs pdfs) as [[[fr given] sy]|e] eqn:E; [|discriminate H].
  cbn [bind] in H. destruct (preprocess_fracs _ _ _ _ _ _ _ E) as [P1 [P2 P3]].
  assert (P : given = false /\ forallb c_extended pdfs = true /\ sy = Some (sum_list (map c_yield pdfs)) /\
         fr = map (fun c => c_yield c / sum_list (map c_yield pdfs)) pdfs) by (destruct F as [-> | ->]; exact P3).
  destruct P as [-> [A [-> ->]]]. rewrite A in H. injection H as <-. split.
  - destruct ext; reflexivity.
  - intros [-> | ->]; split; reflexivity.
Qed.
(** When the sum is extended, and with which yield: by default exactly if no fractions are given; [extended=True] with
    fractions gives a yield of one. *)
Theorem C33_yield : forall (L X : Type) checks (pdfs : list (comp L X)) fracs obs ext s,
  sum_init checks pdfs fracs obs ext = Ok s ->
  s_yield s = match ext, fracs with
              | ExtFalse, _ => None
              | ExtYield y, _ => Some y
              | ExtNone, Some (_ :: _) => None
              | ExtTrue, Some (_ :: _) => Some 1
              | _, _ => Some (sum_list (map c_yield pdfs))
              end /\
  (s_auto s = true <-> (fracs = None \/ fracs = Some []) /\ (ext = ExtNone \/ ext = ExtTrue)).
Proof.
  intros L X checks pdfs fracs obs ext s H. unfold sum_init in H. destruct (preprocess checks fracs obs pdfs) as [[[fr given] sy]|e] eqn:E; [|discriminate H].
  cbn [bind] in H. destruct (preprocess_fracs _ _ _ _ _ _ _ E) as [P1 [P2 P3]].
  destruct fracs as [[|a l]|].
  - destruct P3 as [-> [A [-> ->]]]. rewrite A in H. injection H as <-.
    destruct ext; cbn [andb negb s_yield s_auto]; (split; [reflexivity|]); (split; [try discriminate; auto|intros [_ [Hx|Hx]]; try discriminate Hx; reflexivity]).
  - destruct P3 as [-> [-> _]]. injection H as <-.
    destruct ext; rewrite ?andb_false_r; cbn [negb s_yield s_auto]; rewrite ?andb_false_r; cbn [s_yield s_auto]; (split; [reflexivity|]); (split; [discriminate|intros [[Hx|Hx] _]; discriminate Hx]).
  - destruct P3 as [-> [A [-> ->]]]. rewrite A in H. injection H as <-.
    destruct ext; cbn [andb negb s_yield s_auto]; (split; [reflexivity|]); (split; [try discriminate; auto|intros [_ [Hx|Hx]]; try discriminate Hx; reflexivity]).
Qed.
(** Which arguments are accepted *)
Theorem C33_accepts : forall (L X : Type) checks (pdfs : list (comp L X)) fracs obs ext,
  (exists s, sum_init checks pdfs fracs obs ext = Ok s) <->
  (2 <= length pdfs)%nat /\
  (forall c, In c pdfs -> forall o, In o (c_obs c) <-> In o (match obs with Some o => o | None => match pdfs with c :: _ => c_obs c | [] => [] end end)) /\
  match fracs with
  | None | Some [] => forall c, In c pdfs -> m_yield (c_model c) <> None
  | Some fs => length fs = length pdfs \/ (S (length fs) = length pdfs /\ (checks = true -> sum_list fs <= 1))
  end.
Proof.
  intros L X checks pdfs fracs obs ext.
  assert (B : (exists s, sum_init checks pdfs fracs obs ext = Ok s) <-> exists p, preprocess checks fracs obs pdfs = Ok p).
  { unfold sum_init. destruct (preprocess checks fracs obs pdfs) as [[[fr given] sy]|e]; cbn [bind]; split; intros [s H]; try discriminate H; eauto. }
  rewrite B. clear B. unfold preprocess. destruct (Nat.ltb (length pdfs) 2) eqn:E1.
  { apply Nat.ltb_lt in E1. split; [intros [p H]; discriminate H|intros [H _]; lia]. }
  apply Nat.ltb_ge in E1. set (common := match obs with Some o => o | None => _ end).
  destruct (existsb _ pdfs) eqn:E2.
  { split; [intros [p H]; discriminate H|]. intros [_ [H _]]. exfalso. apply existsb_exists in E2. destruct E2 as [c [Hc Ec]].
    apply negb_true_iff in Ec. assert (set_eqb String.eqb (c_obs c) common = true); [|congruence].
    apply (set_eqb_iff _ string_eqb_ok). intro o. apply (H c Hc o). }
  assert (E2' : forall c, In c pdfs -> forall o, In o (c_obs c) <-> In o common).
  { intros c Hc. apply (set_eqb_iff _ string_eqb_ok). destruct (set_eqb String.eqb (c_obs c) common) eqn:Ec; [reflexivity|].
    exfalso. assert (existsb (fun c => negb (set_eqb String.eqb (c_obs c) common)) pdfs = true); [|congruence].
    apply existsb_exists. exists c. rewrite Ec. auto. }
  assert (D : (exists p, (if forallb c_extended pdfs
          then Ok (map (fun c => c_yield c / radd (map c_yield pdfs)) pdfs, false, Some (radd (map c_yield pdfs)))
          else Err ModelIncompatibleError) = Ok p) <-> (forall c, In c pdfs -> m_yield (c_model c) <> None)).
  { destruct (forallb c_extended pdfs) eqn:E3.
    - rewrite forallb_forall in E3. split; [|eauto]. intros _ c Hc. specialize (E3 c Hc). unfold c_extended in E3. destruct (m_yield (c_model c)); discriminate.
    - split; [intros [p H]; discriminate H|]. intro H. exfalso. assert (forallb c_extended pdfs = true); [|congruence].
      apply forallb_forall. intros c Hc. unfold c_extended. specialize (H c Hc). destruct (m_yield (c_model c)); [reflexivity|contradiction H; reflexivity]. }
  destruct fracs as [[|a l]|]; [rewrite D; tauto| |rewrite D; tauto]. clear D.
  set (fs := a :: l). destruct (Nat.eqb (length fs) (length pdfs - 1)) eqn:E4; [apply Nat.eqb_eq in E4|apply Nat.eqb_neq in E4].
  - rewrite radd_sum. destruct checks; cbn [andb].
    + destruct (Rlt_dec (1 - sum_list fs) 0) as [N|N].
      * split; [intros [p H]; discriminate H|]. intros [_ [_ [H|[_ H]]]]; [lia|]. specialize (H eq_refl). lra.
      * split; [|eauto]. intros _. split; [exact E1|]. split; [exact E2'|]. right. split; [lia|]. intros _. lra.
    + split; [|eauto]. intros _. split; [exact E1|]. split; [exact E2'|]. right. split; [lia|]. discriminate.
  - destruct (Nat.eqb (length fs) (length pdfs)) eqn:E5; [apply Nat.eqb_eq in E5|apply Nat.eqb_neq in E5].
    + split; [|eauto]. intros _. split; [exact E1|]. split; [exact E2'|]. left. exact E5.
    + split; [intros [p H]; discriminate H|]. intros [_ [_ [H|[H _]]]]; [contradiction|lia].
Qed.

(** ** The sum as a PDF *)

(** A component that works: it behaves like [f c] with integrals [I c], and its norm is not empty *)
Definition works {L X : Type} okL okX (I : comp L X -> L -> R) (f : comp L X -> X -> R) (c : comp L X) : Prop :=
  behaves okL okX (I c) (f c) (c_model c) /\ limits okL (c_norm c) /\ total (I c) (c_norm c) <> 0.
(** Norms that are taken as equal have equal integrals *)
Definition sound_eq {L X : Type} (I : comp L X -> L -> R) (eqn : list L -> list L -> bool) (pdfs : list (comp L X)) : Prop :=
  forall c nls, In c pdfs -> eqn (c_norm c) nls = true -> total (I c) nls = total (I c) (c_norm c).
(** The normalised component *)
Definition density {L X : Type} (I : comp L X -> L -> R) (f : comp L X -> X -> R) (c : comp L X) (x : X) : R :=
  f c x / total (I c) (c_norm c).
Definition prob {L X : Type} (I : comp L X -> L -> R) (c : comp L X) (ls : list L) : R :=
  total (I c) ls / total (I c) (c_norm c).

(** Sums of PDFs that behave are PDFs that behave, so that sums can be nested. *)
Theorem C33_sum_behaves : forall (L X : Type) (okL : L -> Prop) (okX : X -> Prop) I f eqn es en numeric (s : sumpdf L X),
  (forall c, In c (s_pdfs s) -> works okL okX I f c) -> sound_eq I eqn (s_pdfs s) ->
  length (s_fracs s) = length (s_pdfs s) -> sum_list (s_fracs s) = 1 ->
  behaves okL okX (fun l => wsum (s_fracs s) (map (fun c => prob I c [l]) (s_pdfs s)))
          (fun x => wsum (s_fracs s) (map (fun c => density I f c x) (s_pdfs s)))
          (sum_model eqn es en numeric s).
Proof.
  intros L X okL okX I f eqn es en numeric s HW HE HL HS.
  assert (B : behaves okL okX (I_sum I s) (f_sum I f s) (sum_model eqn es en numeric s)).
  { apply sum_behaves; auto; intros c Hc; destruct (HW c Hc) as [A1 [A2 A3]]; auto. }
  assert (T : forall ls, total (fun l => wsum (s_fracs s) (map (fun c => prob I c [l]) (s_pdfs s))) ls = total (I_sum I s) ls).
  { intro ls. f_equal. unfold I_sum, prob. simpl. apply FunctionalExtensionality.functional_extensionality. intro l.
    apply wsum_ext. intros c _. unfold Rdiv. ring. }
  destruct B as [B1 B2]. split.
  - intros ls n Hls Hn. rewrite B1 by assumption. destruct n; cbn [integral_of]; rewrite ?T; reflexivity.
  - intros x n Hx Hn Hd. rewrite B2 by assumption. destruct n; cbn [density_of]; rewrite ?T; reflexivity.
Qed.

(** The pdf over a common norm is the sum of the components weighted by the fractions ... *)
Theorem C33_pdf : forall (L X : Type) (okL : L -> Prop) (okX : X -> Prop) I f eqn es en numeric (s : sumpdf L X) x nls, okX x ->
  (forall c, In c (s_pdfs s) -> works okL okX I f c) ->
  (forall c, In c (s_pdfs s) -> eqn (c_norm c) nls = true) ->
  pdf (sum_model eqn es en numeric s) x (Norm nls) = Val (wsum (s_fracs s) (map (fun c => density I f c x) (s_pdfs s))).
Proof.
  intros L X okL okX I f eqn es en numeric s x nls Hx HW H. apply (sum_pdf_same okL okX I f).
  - intros c Hc. destruct (HW c Hc) as [A1 [A2 A3]]. auto.
  - exact Hx.
  - apply forallb_forall. exact H.
Qed.
(** ... each of them as returned by its own pdf. *)
Theorem C33_component_values : forall (L X : Type) (okL : L -> Prop) (okX : X -> Prop) I f (c : comp L X) x ls, works okL okX I f c -> okX x -> limits okL ls ->
  pdf (c_model c) x (Norm (c_norm c)) = Val (density I f c x) /\
  integrate (c_model c) ls (Norm (c_norm c)) = Val (prob I c ls).
Proof.
  intros L X okL okX I f c x ls [B [N _]] Hx Hls. split.
  - rewrite (b_pdf _ _ _ _ _ B); [reflexivity|exact Hx|intros nls E; injection E as <-; exact N|discriminate].
  - rewrite (b_integrate _ _ _ _ _ B); [reflexivity|exact Hls|intros nls E; injection E as <-; exact N].
Qed.
(** Over any norm: that divided by its integral *)
Theorem C33_pdf_any_norm : forall (L X : Type) (okL : L -> Prop) (okX : X -> Prop) I f eqn es en numeric (s : sumpdf L X) x nls, okX x -> limits okL nls ->
  (forall c, In c (s_pdfs s) -> works okL okX I f c) -> sound_eq I eqn (s_pdfs s) ->
  length (s_fracs s) = length (s_pdfs s) -> sum_list (s_fracs s) = 1 ->
  pdf (sum_model eqn es en numeric s) x (Norm nls) =
    Val (wsum (s_fracs s) (map (fun c => density I f c x) (s_pdfs s)) / wsum (s_fracs s) (map (fun c => prob I c nls) (s_pdfs s))).
Proof.
  intros L X okL okX I f eqn es en numeric s x nls Hx Hn HW HE HL HS.
  rewrite (sum_pdf okL okX I f); auto; try (intros c Hc; destruct (HW c Hc) as [A1 [A2 A3]]; auto).
  - cbn [density_of]. rewrite total_sum. reflexivity.
  - intros nls' E. injection E as <-. exact Hn.
  - discriminate.
Qed.
(** The integral over the norm is one. *)
Theorem C33_normalised : forall (L X : Type) (okL : L -> Prop) (okX : X -> Prop) I f eqn es en numeric (s : sumpdf L X) nls, limits okL nls ->
  (forall c, In c (s_pdfs s) -> works okL okX I f c) ->
  wsum (s_fracs s) (map (fun c => prob I c nls) (s_pdfs s)) <> 0 ->
  integrate (sum_model eqn es en numeric s) nls (Norm nls) = Val 1.
Proof.
  intros L X okL okX I f eqn es en numeric s nls Hn HW HT. rewrite (sum_integrate okL okX I f).
  - cbn [integral_of]. rewrite total_sum. f_equal. field. exact HT.
  - intros c Hc. destruct (HW c Hc) as [A1 [A2 A3]]. auto.
  - exact Hn.
  - intros nls' E. injection E as <-. exact Hn.
Qed.
(** Analytic integrals: if all the components have one, the weighted sum, normalised; if one of them has none, the sum has none. *)
Theorem C33_analytic : forall (L X : Type) (I : comp L X -> L -> R) eqn es en numeric (s : sumpdf L X) ls nls,
  (forall c, In c (s_pdfs s) -> analytic_integrate (c_model c) ls (Norm (c_norm c)) = Val (prob I c ls) /\
                                analytic_integrate (c_model c) nls (Norm (c_norm c)) = Val (prob I c nls)) ->
  analytic_integrate (sum_model eqn es en numeric s) ls (Norm nls) =
    Val (wsum (s_fracs s) (map (fun c => prob I c ls) (s_pdfs s)) / wsum (s_fracs s) (map (fun c => prob I c nls) (s_pdfs s))) /\
  analytic_integrate (sum_model eqn es en numeric s) ls NoNorm = Val (wsum (s_fracs s) (map (fun c => prob I c ls) (s_pdfs s))).
Proof.
  intros L X I eqn es en numeric s ls nls H.
  assert (W : forall l, l = ls \/ l = nls -> weighted (fun c => comp_analytic c l) s = Val (wsum (s_fracs s) (map (fun c => prob I c l) (s_pdfs s)))).
  { intros l Hl. apply weighted_vals. intros c Hc. destruct (H c Hc) as [A B]. destruct Hl as [-> | ->]; assumption. }
  unfold analytic_integrate, norm_analytic, limits_with, call_analytic, call.
  cbn [m_analytic sum_model sum_analytic_hook h_supp h_fun s_multi check_norm s_true s_space s_norm orb].
  cbn [s_multi negb andb orb s_true s_space s_norm]. rewrite !W by auto. split; reflexivity.
Qed.
Theorem C33_no_analytic : forall (L X : Type) eqn es en numeric (s : sumpdf L X) ls n c fr,
  In (c, fr) (combine (s_pdfs s) (s_fracs s)) -> analytic_integrate (c_model c) ls (Norm (c_norm c)) = EAnalytic ->
  (forall c, In c (s_pdfs s) -> (exists v, analytic_integrate (c_model c) ls (Norm (c_norm c)) = Val v) \/
                                analytic_integrate (c_model c) ls (Norm (c_norm c)) = EAnalytic) ->
  (forall nls, n <> Norm nls) ->
  analytic_integrate (sum_model eqn es en numeric s) ls n = EAnalytic.
Proof.
  intros L X eqn es en numeric s ls n c fr Hc HA HO Hn.
  assert (W : weighted (fun c => comp_analytic c ls) s = EAnalytic).
  { unfold weighted. assert (HO' : forall p, In p (combine (s_pdfs s) (s_fracs s)) ->
      (exists v, comp_analytic (fst p) ls = Val v) \/ comp_analytic (fst p) ls = EAnalytic).
    { intros [c' f'] Hp. apply HO. apply in_combine_l in Hp. exact Hp. }
    revert Hc HO'. generalize (combine (s_pdfs s) (s_fracs s)). induction l as [|[c' f'] l IH]; intros Hc HO'; [destruct Hc|].
    cbn [map sum_all fst snd]. destruct Hc as [E|Hc].
    - injection E as -> ->. unfold comp_analytic. rewrite HA. reflexivity.
    - destruct (HO' (c', f') (or_introl eq_refl)) as [[v V]|V]; cbn [fst] in V; rewrite V; cbn [map_val]; [|reflexivity].
      rewrite IH; [reflexivity|exact Hc|intros p Hp; apply HO'; right; exact Hp]. }
  unfold analytic_integrate, norm_analytic, limits_with, call_analytic, call.
  cbn [m_analytic sum_model sum_analytic_hook h_supp h_fun s_multi check_norm s_true s_space s_norm m_reg].
  destruct n as [| |nls]; [| |destruct (Hn nls eq_refl)]; cbn [check_norm s_true s_multi negb andb]; rewrite W; reflexivity.
Qed.
(** In terms of the values of the pdf, in one dimension: if the integral of each component is given by an antiderivative,
    then the values of the pdf have an antiderivative that grows by one over the norm. *)
Theorem C33_integral_of_pdf_one : forall (okL : R * R -> Prop) (I : comp (R * R) R -> R * R -> R) f F eqn es en numeric (s : sumpdf (R * R) R) a b, okL (a, b) ->
  (forall c, In c (s_pdfs s) -> works okL (fun _ => True) I f c) -> sound_eq I eqn (s_pdfs s) ->
  length (s_fracs s) = length (s_pdfs s) -> sum_list (s_fracs s) = 1 ->
  (forall c, In c (s_pdfs s) -> forall x, derivable_pt_lim (F c) x (f c x)) ->
  (forall c, In c (s_pdfs s) -> I c (a, b) = F c b - F c a) ->
  wsum (s_fracs s) (map (fun c => prob I c [(a, b)]) (s_pdfs s)) <> 0 ->
  exists G, (forall x, exists v, pdf (sum_model eqn es en numeric s) x (Norm [(a, b)]) = Val v /\ derivable_pt_lim G x v) /\ G b - G a = 1.
Proof.
  intros okL I f F eqn es en numeric s a b HO HW HE HL HS HF HI HT.
  set (N := wsum (s_fracs s) (map (fun c => prob I c [(a, b)]) (s_pdfs s))) in *.
  assert (DW : forall (g : comp (R * R) R -> R -> R) (G : comp (R * R) R -> R -> R) ws l x,
    (forall c, In c l -> derivable_pt_lim (G c) x (g c x)) ->
    derivable_pt_lim (fun x => wsum ws (map (fun c => G c x) l)) x (wsum ws (map (fun c => g c x) l))).
  { intros g G ws l x. revert ws. induction l as [|c l IH]; intros [|w ws] H; simpl;
      try (apply (derivable_pt_lim_const 0)).
    apply (derivable_pt_lim_plus (fun x => w * G c x) (fun x => wsum ws (map (fun c => G c x) l))).
    - apply (derivable_pt_lim_scal (G c)). apply H. left. reflexivity.
    - apply IH. intros c' Hc'. apply H. right. exact Hc'. }
  exists (fun x => / N * wsum (s_fracs s) (map (fun c => / total (I c) (c_norm c) * F c x) (s_pdfs s))). split.
  - intro x. eexists. split; [apply (C33_pdf_any_norm _ _ okL (fun _ => True)); auto; split; [discriminate|repeat constructor; exact HO]|]. fold N.
    unfold Rdiv. rewrite Rmult_comm. apply (derivable_pt_lim_scal (fun x => wsum _ _)).
    replace (map (fun c => density I f c x) (s_pdfs s)) with (map (fun c => / total (I c) (c_norm c) * f c x) (s_pdfs s)).
    + apply (DW (fun c x => / total (I c) (c_norm c) * f c x) (fun c x => / total (I c) (c_norm c) * F c x)).
      intros c Hc. apply (derivable_pt_lim_scal (F c)), HF, Hc.
    + apply map_ext. intro c. unfold density, Rdiv. ring.
  - rewrite <- Rmult_minus_distr_l.
    replace (wsum (s_fracs s) (map (fun c => / total (I c) (c_norm c) * F c b) (s_pdfs s))
             - wsum (s_fracs s) (map (fun c => / total (I c) (c_norm c) * F c a) (s_pdfs s))) with N; [field; exact HT|].
    assert (M : forall u v l ws, wsum ws (map u l) - wsum ws (map v l) = wsum ws (map (fun c : comp (R * R) R => u c - v c) l)).
    { intros u v l. induction l as [|c l IH]; intros [|w ws]; simpl; try ring. rewrite <- IH. ring. }
    rewrite M. unfold N. apply wsum_ext. intros c Hc. unfold prob. simpl. rewrite HI by exact Hc. unfold Rdiv. ring.
Qed.
(** It is nowhere negative if the components and the fractions are not. *)
Theorem C33_non_negative : forall (L X : Type) (okL : L -> Prop) (okX : X -> Prop) I f eqn es en numeric (s : sumpdf L X) x nls, okX x ->
  (forall c, In c (s_pdfs s) -> works okL okX I f c) ->
  (forall c, In c (s_pdfs s) -> eqn (c_norm c) nls = true) ->
  Forall (fun w => 0 <= w) (s_fracs s) -> (forall c, In c (s_pdfs s) -> 0 <= density I f c x) ->
  exists v, pdf (sum_model eqn es en numeric s) x (Norm nls) = Val v /\ 0 <= v.
Proof.
  intros L X okL okX I f eqn es en numeric s x nls Hx HW H HF HD. eexists. split; [apply (C33_pdf L X okL okX I f); assumption|].
  apply wsum_nonneg; [exact HF|]. apply Forall_map, Forall_forall. exact HD.
Qed.

(** ** Extended sums *)

(** All components extended and no fractions: the extended pdf is the sum of the extended components, its integral over the
    norm the sum of the yields. *)
Theorem C33_extended : forall (L X : Type) (okL : L -> Prop) (okX : X -> Prop) I f eqn es en numeric (s : sumpdf L X) checks pdfs fracs obs ext x nls,
  sum_init checks pdfs fracs obs ext = Ok s -> fracs = None \/ fracs = Some [] -> ext = ExtNone \/ ext = ExtTrue ->
  (forall c, In c pdfs -> works okL okX I f c /\ exists y, behaves_ext okL okX (I c) (f c) y (c_model c)) -> sound_eq I eqn pdfs ->
  sum_list (map c_yield pdfs) <> 0 -> okX x -> limits okL nls -> (forall c, In c pdfs -> eqn (c_norm c) nls = true) ->
  ext_pdf (sum_model eqn es en numeric s) x (Norm nls) = Val (sum_list (map (fun c => c_yield c * density I f c x) pdfs)) /\
  ext_integrate (sum_model eqn es en numeric s) nls (Norm nls) = Val (sum_list (map c_yield pdfs)).
Proof.
  intros L X okL okX I f eqn es en numeric s checks pdfs fracs obs ext x nls HI HF HX HW HE HY Hx Hn Hs.
  destruct (C33_yield_fractions _ _ _ _ _ _ _ _ HI HF) as [F1 F2]. destruct (F2 HX) as [F3 F4].
  destruct (C33_fractions _ _ _ _ _ _ _ _ HI) as [G1 [G2 G3]].
  { intros fs E. destruct HF as [HF|HF]; rewrite HF in E; [discriminate E|]. injection E as <-.
    intro E0. simpl in E0. symmetry in E0. apply length_zero_iff_nil in E0. apply HY. rewrite E0. reflexivity. }
  { auto. }
  assert (HB : forall c, In c (s_pdfs s) -> behaves okL okX (I c) (f c) (c_model c) /\ limits okL (c_norm c)).
  { rewrite G3. intros c Hc. destruct (HW c Hc) as [[A1 [A2 A3]] _]. auto. }
  assert (HT : forall c, In c (s_pdfs s) -> total (I c) (c_norm c) <> 0).
  { rewrite G3. intros c Hc. destruct (HW c Hc) as [[A1 [A2 A3]] _]. auto. }
  assert (SN : same_norms eqn s (Norm nls) = true) by (cbn [same_norms]; rewrite G3; apply forallb_forall; exact Hs).
  assert (PR : proper okL (Norm nls)) by (intros nls' E; injection E as <-; exact Hn).
  set (y := sum_list (map c_yield pdfs)) in *. split.
  - rewrite (ext_auto okL okX I f eqn es en numeric s HB) with (y := y).
    + rewrite <- (hook_same I f eqn s); auto; [|rewrite G3; exact G2| |discriminate].
      * f_equal. unfold f_sum. rewrite F1, G3, wsum_map_weights, <- sum_list_scale. apply sum_list_ext.
        intros c Hc. unfold density. field. split; [apply HT; rewrite G3; exact Hc|exact HY].
      * rewrite G3. exact HE.
    + rewrite G3. exact G2.
    + exact G1.
    + exact HT.
    + rewrite G3. exact HE.
    + exact Hx.
    + exact F4.
    + exact F3.
    + exact HY.
    + rewrite G3. intros c Hc. apply HW. exact Hc.
    + rewrite G3. exact F1.
    + exact PR.
    + discriminate.
  - unfold ext_integrate. cbn [m_yield sum_model]. rewrite F4.
    rewrite (C33_normalised L X okL okX I f); [cbn [map_val]; f_equal; ring|exact Hn| |].
    + rewrite G3. intros c Hc. apply HW. exact Hc.
    + assert (T : total (I_sum I s) nls = 1) by (apply (same_total I eqn s); auto; rewrite ?G3; auto).
      rewrite total_sum in T. unfold prob. rewrite T. exact R1_neq_R0.
Qed.
(** A yield given to the sum: the density times that yield, over every norm *)
Theorem C33_own_yield : forall (L X : Type) (okL : L -> Prop) (okX : X -> Prop) I f eqn es en numeric (s : sumpdf L X) y x n, okX x ->
  (forall c, In c (s_pdfs s) -> works okL okX I f c) -> sound_eq I eqn (s_pdfs s) ->
  length (s_fracs s) = length (s_pdfs s) -> sum_list (s_fracs s) = 1 ->
  s_auto s = false -> s_yield s = Some y -> proper okL n -> n <> NoNorm ->
  exists v, pdf (sum_model eqn es en numeric s) x n = Val v /\ ext_pdf (sum_model eqn es en numeric s) x n = Val (y * v).
Proof.
  intros L X okL okX I f eqn es en numeric s y x n Hx HW HE HL HS Ha Hy Hp Hn.
  assert (HB : forall c, In c (s_pdfs s) -> behaves okL okX (I c) (f c) (c_model c) /\ limits okL (c_norm c)).
  { intros c Hc. destruct (HW c Hc) as [A1 [A2 A3]]. auto. }
  assert (HT : forall c, In c (s_pdfs s) -> total (I c) (c_norm c) <> 0).
  { intros c Hc. destruct (HW c Hc) as [A1 [A2 A3]]. auto. }
  eexists. split; [apply (sum_pdf okL okX I f); auto|]. apply (ext_by_yield okL okX I f); auto. rewrite Ha. apply andb_false_r.
Qed.

(** ** As many fractions as PDFs

    They are used as they are. If they do not add up to one, then the pdf over the common norm is not normalised: its values
    have an antiderivative that grows by their sum, although [integrate] says one. *)
Theorem C33_all_fractions_refuted : exists (I : comp (R * R) R -> R * R -> R) f eqn (s : sumpdf (R * R) R) a b,
  (exists pdfs fracs, sum_init true pdfs (Some fracs) None ExtNone = Ok s) /\
  (forall c, In c (s_pdfs s) -> works (fun _ => True) (fun _ => True) I f c) /\ sound_eq I eqn (s_pdfs s) /\
  (forall x, pdf (sum_model eqn (fun _ => true) (fun _ => true) (fun _ => Val 0) s) x (Norm [(a, b)]) = Val 2) /\ b - a = 1 /\
  integrate (sum_model eqn (fun _ => true) (fun _ => true) (fun _ => Val 0) s) [(a, b)] (Norm [(a, b)]) = Val 1.
Proof.
  set (I := fun (_ : comp (R * R) R) (l : R * R) => snd l - fst l).
  set (f := fun (_ : comp (R * R) R) (_ : R) => 1).
  set (m := mkModel (fun _ => true) (fun _ => true) None None (fun _ => None) None
              (fun ls => Val (total (fun l : R * R => snd l - fst l) ls)) None None None None None (fun _ : R => Val 1) None : model (R * R) R).
  set (c := mkComp ["x"%string] [(0, 1)] m).
  assert (HP : honest_pdf (fun l : R * R => snd l - fst l) (fun _ : R => 1) m).
  { split; simpl; auto; try discriminate. split; simpl; auto. discriminate. }
  assert (W : works (fun _ => True) (fun _ => True) I f c).
  { split; [|split; [split; [discriminate|repeat constructor]|]].
    - split.
      + intros ls n Hls Hn. apply (integrate_ok _ m (hp_model _ _ _ HP)); [apply Hls|]. destruct n; simpl; auto. apply (Hn ls0 eq_refl).
      + intros x n Hx Hn Hd. apply (pdf_ok _ _ m (hp_model _ _ _ HP) HP); auto. destruct n; simpl; auto. apply (Hn ls eq_refl).
    - unfold I. simpl. lra. }
  set (s := mkSum [c; c] [1; 1] false None).
  set (eqn := fun (_ nls : list (R * R)) => match nls with
                | [(a, b)] => (if Req_EM_T a 0 then true else false) && (if Req_EM_T b 1 then true else false)
                | _ => false end).
  assert (E01 : eqn [(0, 1)] [(0, 1)] = true).
  { unfold eqn. destruct (Req_EM_T 0 0); [|contradiction]. destruct (Req_EM_T 1 1); [reflexivity|contradiction]. }
  exists I, f, eqn, s, 0, 1.
  assert (HW : forall c', In c' (s_pdfs s) -> works (fun _ => True) (fun _ => True) I f c') by (intros c' [<-|[<-|[]]]; exact W).
  split; [|split; [exact HW|split; [|split; [|split]]]].
  - exists [c; c], [1; 1]. reflexivity.
  - intros c' nls Hc H. assert (c_norm c' = [(0, 1)]) as -> by (destruct Hc as [<-|[<-|[]]]; reflexivity).
    unfold eqn in H. destruct nls as [|[a b] [|]]; try discriminate H.
    destruct (Req_EM_T a 0) as [->|]; [|discriminate H]. destruct (Req_EM_T b 1) as [->|]; [reflexivity|discriminate H].
  - intro x. rewrite (C33_pdf _ _ (fun _ => True) (fun _ => True) I f); [|exact Logic.I|exact HW|intros c' [<-|[<-|[]]]; exact E01].
    f_equal. unfold density, f, I. simpl. field.
  - ring.
  - apply (C33_normalised _ _ (fun _ => True) (fun _ => True) I f); [split; [discriminate|repeat constructor]|exact HW|]. unfold prob, I. simpl. lra.
Qed.

(** ** Non-vacuity: two uniform components on [0, 1] and [0, 2] with fractions 1/4 and 3/4 *)
Section Example.
Let I (_ : comp (R * R) R) (l : R * R) := snd l - fst l.
Let f (_ : comp (R * R) R) (_ : R) := 1.
Let m : model (R * R) R := mkModel (fun _ => true) (fun _ => true) None None (fun _ => None) None
              (fun ls => Val (total (fun l : R * R => snd l - fst l) ls)) None None None None None (fun _ : R => Val 1) (Some 3).
Let c1 := mkComp ["x"%string] [(0, 1)] m.
Let c2 := mkComp ["x"%string] [(0, 2)] m.
Let eqn (a b : list (R * R)) := false.
Lemma ex_works : works (fun _ => True) (fun _ => True) I f c1 /\ works (fun _ => True) (fun _ => True) I f c2.
Proof.
  assert (HP : honest_pdf (fun l : R * R => snd l - fst l) (fun _ : R => 1) m).
  { split; simpl; auto; try discriminate; [split; simpl; auto; discriminate|]. intros y E. injection E as <-. lra. }
  split; (split; [split|split; [split; [discriminate|repeat constructor]|]]).
  - intros ls n Hls Hn. apply (integrate_ok _ m (hp_model _ _ _ HP)); [apply Hls|]. destruct n; simpl; auto. apply (Hn ls0 eq_refl).
  - intros x n Hx Hn Hd. apply (pdf_ok _ _ m (hp_model _ _ _ HP) HP); auto. destruct n; simpl; auto. apply (Hn ls eq_refl).
  - unfold I. simpl. lra.
  - intros ls n Hls Hn. apply (integrate_ok _ m (hp_model _ _ _ HP)); [apply Hls|]. destruct n; simpl; auto. apply (Hn ls0 eq_refl).
  - intros x n Hx Hn Hd. apply (pdf_ok _ _ m (hp_model _ _ _ HP) HP); auto. destruct n; simpl; auto. apply (Hn ls eq_refl).
  - unfold I. simpl. lra.
Qed.
Example C33_ex : exists s, sum_init true [c1; c2] (Some [1 / 4]) None ExtNone = Ok s /\
  pdf (sum_model eqn (fun _ => true) (fun _ => true) (fun _ => Val 0) s) (1 / 2) (Norm [(0, 1)]) = Val 1 /\
  pdf (sum_model eqn (fun _ => true) (fun _ => true) (fun _ => Val 0) s) (1 / 2) (Norm [(0, 2)]) = Val (1 / 2).
Proof.
  destruct (proj2 (C33_accepts _ _ true [c1; c2] (Some [1 / 4]) None ExtNone)) as [s Hs].
  { split; [simpl; lia|]. split; [|right; split; [reflexivity|intros _; simpl; lra]].
    intros c [<-|[<-|[]]] o; reflexivity. }
  exists s. split; [exact Hs|]. destruct (C33_fractions _ _ _ _ _ _ _ _ Hs) as [F1 [F2 F3]].
  { intros fs E. injection E as <-. discriminate. } { intros [E|E]; discriminate E. }
  destruct (C33_remaining_fraction _ _ _ _ _ _ _ _ _ Hs) as [[G _]|[_ G]]; [discriminate G|]. destruct ex_works as [W1 W2].
  assert (HW : forall c, In c (s_pdfs s) -> works (fun _ => True) (fun _ => True) I f c) by (rewrite F3; intros c [<-|[<-|[]]]; assumption).
  assert (HE : sound_eq I eqn (s_pdfs s)) by (intros c nls _ E; discriminate E).
  split; (rewrite (C33_pdf_any_norm _ _ (fun _ => True) (fun _ => True) I f); [|exact Logic.I|split; [discriminate|repeat constructor]|exact HW|exact HE|rewrite F3; exact F2|exact F1]);
    rewrite G, F3; unfold density, prob, f, I; simpl; f_equal; field.
Qed.
(** The same without fractions: the yields (3 and 3) give the fractions and the sum is extended *)
Example C33_ex_extended : exists s, sum_init true [c1; c1] None None ExtNone = Ok s /\
  ext_pdf (sum_model (fun _ _ => true) (fun _ => true) (fun _ => true) (fun _ => Val 0) s) (1 / 2) (Norm [(0, 1)]) = Val 6.
Proof.
  exists (mkSum [c1; c1] (map (fun c => c_yield c / radd (map c_yield [c1; c1])) [c1; c1]) true (Some (radd (map c_yield [c1; c1])))).
  split; [reflexivity|]. unfold ext_pdf, sum_model. cbn [m_yield m_ext_pdf s_yield]. cbv [sum_ext_hook pcall check_norm p_supp p_fun s_true].
  cbv [same_norms s_auto s_pdfs forallb orb andb sum_all map]. destruct ex_works as [[W1 [W2 _]] _].
  assert (P : comp_ext_pdf c1 (1 / 2) = Val 3).
  { unfold comp_ext_pdf, ext_pdf. cbn [m_yield c1 c_model m m_ext_pdf pcall].
    rewrite (b_pdf _ _ _ _ _ W1); [|exact Logic.I|intros nls E; injection E as <-; exact W2|discriminate]. cbn [map_val density_of]. f_equal. unfold f, I. simpl. field. }
  rewrite P. f_equal. ring.
Qed.
End Example.

Print Assumptions C33_fractions.
Print Assumptions C33_remaining_fraction.
Print Assumptions C33_yield_fractions.
Print Assumptions C33_yield.
Print Assumptions C33_analytic.
Print Assumptions C33_no_analytic.
Print Assumptions C33_accepts.
Print Assumptions C33_sum_behaves.
Print Assumptions C33_pdf.
Print Assumptions C33_component_values.
Print Assumptions C33_pdf_any_norm.
Print Assumptions C33_normalised.
Print Assumptions C33_integral_of_pdf_one.
Print Assumptions C33_non_negative.
Print Assumptions C33_extended.
Print Assumptions C33_own_yield.
Print Assumptions C33_all_fractions_refuted.
