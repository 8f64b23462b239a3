(** C92: plots of PDFs. *)
From Coq Require Import Lia Lqa Qfield.
From Verif Require Import Base BaseLemmas PGraph_Proofs Plot_Model Plot_Spec Plot_Proofs.
Open Scope Q_scope.
Open Scope string_scope.
Open Scope list_scope.

(** C92: the curve goes through the density times the scale, with the yield if asked for or if there is one, at equal distances over the range, 300 points by default, and has the label of the PDF. *)
Theorem C92_curve m a ob lo hi : range m (a_obs a) = Ok (ob, (lo, hi)) -> (extended_drawn a m = true -> exists y, p_yield m = Some y) ->
  exists c k, plot_model m a = Ok (c, k)
    /\ draws (c_points c) lo hi (match a_num a with Some n => n | None => 300%nat end)
         (fun x => height (extended_drawn a m) m ob x * match a_scale a with Some s => s | None => 1 end)
    /\ c_style c = a_style a
    /\ (a_kwargs a = None -> a_full a <> Some false -> c_label c = Some (p_label m))
    /\ (forall l, a_kwargs a = Some (Some l) -> c_label c = Some l).
Proof.
  intros R E. eexists. eexists. split; [apply (plot_ok m a ob lo hi R E)|]. cbn [c_points c_style c_label]. split; [apply draws_ok|]. split; [reflexivity|]. split.
  - intros -> F. cbn. destruct (a_full a) as [[|]|]; [reflexivity|congruence|reflexivity].
  - intros l ->. reflexivity.
Qed.

(** C92: the range is the one of [obs] if that has limits, else the one the PDF has in this observable. *)
Theorem C92_range m : (forall ob lo hi, range m (Some (Limited ob lo hi)) = Ok (ob, (lo, hi)))
  /\ (forall ob l, In ob (p_obs m) -> p_limits m ob = Some l -> range m (Some (Name ob)) = Ok (ob, l))
  /\ (forall ob l, p_obs m = [ob] -> p_limits m ob = Some l -> range m None = Ok (ob, l)).
Proof.
  split; [reflexivity|]. split.
  - intros ob l I L. cbn. apply (mem_In _ string_eqb_ok) in I. now rewrite I, L.
  - intros ob l O L. unfold range. now rewrite O, L.
Qed.

(** C92: without limits, with several observables and no [obs], or with the yield of a PDF that has none, nothing is drawn. *)
Theorem C92_errors m a :
  (a_obs a = None -> length (p_obs m) <> 1%nat -> plot_model m a = Err ValueError)
  /\ (forall ob, a_obs a = None -> p_obs m = [ob] -> p_limits m ob = None -> plot_model m a = Err ValueError)
  /\ (forall r, range m (a_obs a) = Ok r -> a_extended a = Some true -> p_yield m = None -> a_num a <> Some 0%nat ->
        plot_model m a = Err NotExtendedPDFError).
Proof.
  split; [|split].
  - intros O L. unfold plot_model, range. rewrite O. destruct (p_obs m) as [|ob [|ob2 l]]; [reflexivity|cbn in L; congruence|reflexivity].
  - intros ob O P L. unfold plot_model, range. rewrite O, P, L. reflexivity.
  - intros [ob [lo hi]] R E Y N. unfold plot_model. rewrite R, E. cbn [or_else].
    assert (X : exists n, match a_num a with Some v => v | None => 300%nat end = S n).
    { destruct (a_num a) as [[|n]|]; [congruence|eauto|eauto]. }
    unfold or_else. destruct X as [n X]. rewrite X. unfold linspace. cbn [seq map mapM]. unfold ext_density at 1. now rewrite Y.
Qed.

Lemma fits_all a s ob lo hi : same_range a s ob lo hi -> Forall (fun p => extended_drawn a (fst p) = true -> exists y, p_yield (fst p) = Some y) (s_parts s) ->
  Forall (fun p => fits a ob lo hi (fst p)) (s_parts s).
Proof.
  intros [_ F] G. rewrite Forall_forall in *. intros p I. split; [now apply F|now apply G].
Qed.
Lemma fits_default a (parts : list (pdf * Q)) : a_extended a = None -> Forall (fun p => extended_drawn a (fst p) = true -> exists y, p_yield (fst p) = Some y) parts.
Proof. intros E. apply Forall_forall. intros p _. unfold extended_drawn. rewrite E. destruct (p_yield (fst p)); [eauto|discriminate]. Qed.

(** A sum and its parts, drawn: the curves have the heights with the fractions. *)
Lemma components_drawn s a ob lo hi : same_range a s ob lo hi ->
  Forall (fun p => extended_drawn a (fst p) = true -> exists y, p_yield (fst p) = Some y) (s_parts s) ->
  (extended_drawn a (s_pdf s) = true -> exists y, p_yield (s_pdf s) = Some y) ->
  let xs := linspace lo hi (or_else (a_num a) 300%nat) in
  exists cs k whole k', plot_components s a = (cs, k, Ok tt) /\ plot_model (s_pdf s) a = Ok (whole, k')
    /\ Forall2 (fun p c => c_points c = combine xs (map (fun x => height (extended_drawn a (fst p)) (fst p) ob x * (snd p * or_else (a_scale a) 1)) xs)) (s_parts s) cs
    /\ c_points whole = combine xs (map (fun x => height (extended_drawn a (s_pdf s)) (s_pdf s) ob x * or_else (a_scale a) 1) xs).
Proof.
  intros SR F E. cbv zeta. destruct (parts_ok ob lo hi (or_else (a_scale a) 1) (s_parts s) a (fits_all a s ob lo hi SR F)) as (cs & k & P & FF).
  exists cs, k. eexists. eexists. split; [exact P|]. split; [apply (plot_ok _ _ ob lo hi (proj1 SR) E)|]. split; [|reflexivity].
  clear - FF. induction FF as [|p c ps cs [X _] FF IH]; constructor; [exact X|exact IH].
Qed.

(** C92: the curves of the components add up to the curve of the sum if no yields are drawn. *)
Theorem C92_components_partial s a ob lo hi : is_sum s -> same_range a s ob lo hi -> a_extended a = Some false ->
  exists cs k whole k', plot_components s a = (cs, k, Ok tt) /\ plot_model (s_pdf s) a = Ok (whole, k')
    /\ length cs = length (s_parts s) /\ add_up cs whole 1.
Proof.
  intros S SR E. assert (D : forall m, extended_drawn a m = false) by (intros m; unfold extended_drawn; now rewrite E).
  destruct (components_drawn s a ob lo hi SR) as (cs & k & whole & k' & P & W & F & PW).
  { apply Forall_forall. intros p _. rewrite D. discriminate. }
  { rewrite D. discriminate. }
  exists cs, k, whole, k'. split; [exact P|]. split; [exact W|]. split; [symmetry; apply (Forall2_length' _ _ _ F)|].
  eapply add_up_ok; [exact F|exact PW|]. intros x. cbv beta. rewrite (D (s_pdf s)). unfold height at 2. rewrite S, Qmult_1_r, <- total_scale.
  apply total_ext. intros p _. rewrite D. unfold height. ring.
Qed.

(** C92: also by default, if neither the sum nor a component has a yield. *)
Theorem C92_components_plain s a ob lo hi : is_sum s -> same_range a s ob lo hi -> a_extended a = None ->
  p_yield (s_pdf s) = None -> Forall (fun p => p_yield (fst p) = None) (s_parts s) ->
  exists cs k whole k', plot_components s a = (cs, k, Ok tt) /\ plot_model (s_pdf s) a = Ok (whole, k')
    /\ length cs = length (s_parts s) /\ add_up cs whole 1.
Proof.
  intros S SR E Y YP. assert (D : forall m, p_yield m = None -> extended_drawn a m = false) by (intros m X; unfold extended_drawn; now rewrite E, X).
  destruct (components_drawn s a ob lo hi SR (fits_default a _ E)) as (cs & k & whole & k' & P & W & F & PW).
  { rewrite (D _ Y). discriminate. }
  exists cs, k, whole, k'. split; [exact P|]. split; [exact W|]. split; [symmetry; apply (Forall2_length' _ _ _ F)|].
  eapply add_up_ok; [exact F|exact PW|]. intros x. cbv beta. rewrite (D _ Y). unfold height at 2. rewrite S, Qmult_1_r, <- total_scale.
  apply total_ext. intros p I. rewrite Forall_forall in YP. rewrite (D _ (YP p I)). unfold height. ring.
Qed.

(** C92: "the components of an extended sum add up to it": false for the yield of a sum of PDFs without yields; the components are smaller by the yield. *)
Theorem C92_yield_refuted s a ob lo hi y : is_sum s -> same_range a s ob lo hi -> a_extended a = None ->
  p_yield (s_pdf s) = Some y -> ~ y == 0 -> Forall (fun p => p_yield (fst p) = None) (s_parts s) ->
  exists cs k whole k', plot_components s a = (cs, k, Ok tt) /\ plot_model (s_pdf s) a = Ok (whole, k') /\ add_up cs whole (/ y).
Proof.
  intros S SR E Y Y0 YP. assert (D : forall m, p_yield m = None -> extended_drawn a m = false) by (intros m X; unfold extended_drawn; now rewrite E, X).
  destruct (components_drawn s a ob lo hi SR (fits_default a _ E)) as (cs & k & whole & k' & P & W & F & PW).
  { intros _. eauto. }
  exists cs, k, whole, k'. split; [exact P|]. split; [exact W|].
  assert (DS : extended_drawn a (s_pdf s) = true) by (unfold extended_drawn; now rewrite E, Y).
  eapply add_up_ok; [exact F|exact PW|]. intros x. cbv beta. rewrite DS. unfold height at 2. rewrite Y, S.
  transitivity (total (map (fun p => p_density (fst p) ob x * snd p) (s_parts s)) * or_else (a_scale a) 1); [|field; exact Y0].
  rewrite <- total_scale. apply total_ext. intros p I. rewrite Forall_forall in YP. rewrite (D _ (YP p I)). unfold height. ring.
Qed.

(** The parts of a sum of extended PDFs. *)
Lemma sum_yields_parts label obs limits pdfs s : sum_of_yields label obs limits pdfs = Ok s ->
  exists y, p_yield (s_pdf s) = Some y /\ y = total (map (fun m => match p_yield m with Some v => v | None => 0 end) pdfs) /\ is_sum s
    /\ s_parts s = map (fun m => (m, match p_yield m with Some v => v | None => 0 end / y)) pdfs
    /\ Forall (fun m => exists v, p_yield m = Some v) pdfs.
Proof.
  unfold sum_of_yields. destruct (all_some (map p_yield pdfs)) as [ys|] eqn:A; [|discriminate]. intros H. injection H as <-. cbn [s_pdf s_parts p_yield].
  assert (YS : ys = map (fun m => match p_yield m with Some v => v | None => 0 end) pdfs /\ Forall (fun m => exists v, p_yield m = Some v) pdfs).
  { revert ys A. induction pdfs as [|m l IH]; intros ys A; cbn in A; [injection A as <-; split; [reflexivity|constructor]|].
    destruct (p_yield m) as [v|] eqn:E; [|discriminate]. destruct (all_some (map p_yield l)) as [zs|]; [|discriminate]. injection A as <-.
    destruct (IH zs eq_refl) as (-> & F). cbn. rewrite E. split; [reflexivity|constructor; eauto]. }
  destruct YS as (-> & F). eexists. split; [reflexivity|]. split; [reflexivity|]. split; [intros ob x; reflexivity|]. split; [|exact F].
  rewrite map_map. generalize (total (map (fun m => match p_yield m with Some v => v | None => 0 end) pdfs)). intros y. clear.
  induction pdfs as [|m l IH]; cbn; [reflexivity|now rewrite IH].
Qed.

(** C92: nor for a sum of two or more extended PDFs: each component has its yield and its fraction, so that wherever they are positive the sum of the curves is below the curve of the sum. *)
Theorem C92_components_refuted label obs limits pdfs s a ob lo hi : sum_of_yields label obs limits pdfs = Ok s ->
  same_range a s ob lo hi -> a_extended a = None -> (2 <= length pdfs)%nat -> (forall sc, a_scale a = Some sc -> 0 < sc) ->
  (forall m v, In m pdfs -> p_yield m = Some v -> 0 < v) -> (forall m x, In m pdfs -> 0 < p_density m ob x) ->
  exists cs k whole k', plot_components s a = (cs, k, Ok tt) /\ plot_model (s_pdf s) a = Ok (whole, k')
    /\ forall i x y, nth_error (c_points whole) i = Some (x, y) ->
         exists ys, Forall2 (fun c v => nth_error (c_points c) i = Some (x, v)) cs ys /\ total ys < y.
Proof.
  intros H SR E L SC PY PD. apply sum_yields_parts in H as (y & Y & YE & S & PA & YP).
  destruct (components_drawn s a ob lo hi SR (fits_default a _ E)) as (cs & k & whole & k' & P & W & F & PW).
  { intros _. eauto. }
  exists cs, k, whole, k'. split; [exact P|]. split; [exact W|].
  assert (DS : extended_drawn a (s_pdf s) = true) by (unfold extended_drawn; now rewrite E, Y).
  set (sc := or_else (a_scale a) 1) in *. assert (S0 : 0 < sc). { subst sc. destruct (a_scale a) as [v|]; [now apply SC|reflexivity]. } clearbody sc.
  set (yi := fun m => match p_yield m with Some v => v | None => 0 end) in *.
  assert (Y0 : forall m, In m pdfs -> 0 < yi m).
  { intros m I. rewrite Forall_forall in YP. destruct (YP m I) as [v V]. unfold yi. rewrite V. now apply (PY m v I). }
  assert (LT : forall m, In m pdfs -> yi m < y).
  { rewrite YE. clear - Y0 L. intros m I. apply in_split in I as (l1 & l2 & ->). rewrite map_app. cbn [map].
    assert (A1 : forall l l' : list Q, total (l ++ l') == total l + total l').
    { intros l l'. induction l as [|q l IH]; cbn; [ring|]. rewrite IH. ring. }
    assert (NN : forall l, (forall z, In z l -> 0 < yi z) -> 0 <= total (map yi l) /\ (l <> [] -> 0 < total (map yi l))).
    { intros l. induction l as [|q l IH]; intros Z; cbn; [split; [lra|congruence]|]. destruct (IH (fun z I => Z z (or_intror I))) as [A _].
      assert (B := Z q (or_introl eq_refl)). split; [lra|intros _; lra]. }
    destruct (NN l1) as [P1 P1']; [intros z I; apply Y0, in_or_app; now left|].
    destruct (NN l2) as [P2 P2']; [intros z I; apply Y0, in_or_app; right; now right|].
    rewrite A1. cbn [total]. rewrite app_length in L. cbn in L.
    destruct l1 as [|q l1].
    - destruct l2 as [|q l2]; [cbn in L; lia|]. assert (X := P2' ltac:(discriminate)). lra.
    - assert (X := P1' ltac:(discriminate)). lra. }
  assert (YP0 : 0 < y). { destruct pdfs as [|m l]; [cbn in L; lia|]. assert (A := LT m (or_introl eq_refl)). assert (B := Y0 m (or_introl eq_refl)). lra. }
  assert (YN : ~ y == 0) by (intros Z; rewrite Z in YP0; apply (Qlt_irrefl _ YP0)).
  intros i x v N. rewrite PW in N. apply nth_error_combine in N as (NX & NV). rewrite nth_error_map, NX in NV. cbn in NV. injection NV as <-.
  exists (map (fun p => height (extended_drawn a (fst p)) (fst p) ob x * (snd p * sc)) (s_parts s)). split.
  { clear - F NX. induction F as [|p c ps cs X F IH]; cbn [map]; constructor; [|exact IH].
    rewrite X. apply nth_error_combine. split; [exact NX|]. now rewrite nth_error_map, NX. }
  rewrite DS. unfold height at 2. rewrite Y, S, PA, !map_map. cbn [fst snd].
  assert (EQ : total (map (fun m => p_density m ob x * (yi m / y)) pdfs) * y * sc == total (map (fun m => p_density m ob x * (yi m / y) * (y * sc)) pdfs)).
  { rewrite total_scale. ring. }
  refine (Qlt_le_trans _ _ _ _ (proj2 (Qle_lteq _ _) (or_intror (Qeq_sym _ _ EQ)))). apply total_lt; [destruct pdfs; [cbn in L; lia|discriminate]|].
  intros m I. rewrite Forall_forall in YP. destruct (YP m I) as [w V]. unfold extended_drawn. rewrite E, V. unfold height. rewrite V.
  assert (W0 : yi m = w) by (unfold yi; now rewrite V). rewrite W0 in *. assert (A := LT m I). rewrite W0 in A. assert (B := Y0 m I). rewrite W0 in B. assert (C := PD m x I).
  set (p := p_density m ob x) in *. clearbody p.
  assert (Z : 0 < p * (w / y) * sc).
  { apply Qmult_lt_0_compat; [|exact S0]. apply Qmult_lt_0_compat; [exact C|]. apply Qlt_shift_div_l; [exact YP0|]. rewrite Qmult_0_l. exact B. }
  assert (E1 : p * w * (w / y * sc) == p * (w / y) * sc * w) by ring. assert (E2 : p * (w / y) * (y * sc) == p * (w / y) * sc * y) by ring.
  rewrite E1, E2. apply Qmult_lt_l; assumption.
Qed.

(** C92: drawn with yields, a component without one raises, after those before it have been drawn. *)
Theorem C92_component_error parts m f rest s a r : s_parts s = parts ++ (m, f) :: rest -> a_extended a = Some true -> a_num a <> Some 0%nat ->
  range m (a_obs a) = Ok r -> p_yield m = None ->
  exists cs k e, plot_components s a = (cs, k, Err e) /\ (length cs <= length parts)%nat.
Proof.
  intros P E N R Y. unfold plot_components. rewrite P. generalize (or_else (a_scale a) 1). intros sc. clear P s.
  revert a E N R. induction parts as [|[m1 f1] parts IH]; intros a E N R; cbn [app plot_parts].
  - destruct (C92_errors m (with_scale a (f * sc))) as (_ & _ & X). rewrite (X r R E Y N). exists [], (a_kwargs a), NotExtendedPDFError. split; [reflexivity|cbn; lia].
  - destruct (plot_model m1 (with_scale a (f1 * sc))) as [[c k1]|e].
    + destruct (IH (with_kwargs a k1) E N R) as (cs & k & e & X & L). rewrite X. exists (c :: cs), k, e. split; [reflexivity|cbn; lia].
    + exists [], (a_kwargs a), e. split; [reflexivity|cbn; lia].
Qed.

(** C92: each component has its own label, if no [plotkwargs] are given. *)
Theorem C92_labels_partial s a cs k : a_kwargs a = None -> a_full a <> Some false -> plot_components s a = (cs, k, Ok tt) ->
  Forall2 (fun p c => c_label c = Some (p_label (fst p))) (s_parts s) cs.
Proof. intros K F H. apply (parts_own _ _ _ _ _ K F H). Qed.

(** C92: "each component has its own label": false with [plotkwargs]; the first label is written into the dictionary of the user and given to all. *)
Theorem C92_labels_refuted s a m f rest cs k : s_parts s = (m, f) :: rest -> a_kwargs a = Some None -> a_full a <> Some false ->
  plot_components s a = (cs, k, Ok tt) -> Forall (fun c => c_label c = Some (p_label m)) cs /\ k = Some (Some (p_label m)).
Proof. intros P K F H. unfold plot_components in H. rewrite P in H. apply (parts_label_first _ _ _ _ _ _ _ K F H). Qed.

(** C92: with the function for components, always. *)
Theorem C92_function_refuted s m f rest scale style cs k : s_parts s = (m, f) :: rest ->
  plot_sumpdf_components s scale style None = (cs, k, Ok tt) -> Forall (fun c => c_label c = Some (p_label m)) cs.
Proof.
  intros P H. unfold plot_sumpdf_components in H. rewrite P in H. apply parts_label_first in H; [apply H|reflexivity|discriminate].
Qed.

(** C92: it draws the same points as the plotter of the components, dashed if nothing else is given. *)
Theorem C92_function s ob lo hi scale style : same_range (mkArgs None None (Some scale) None None None None) s ob lo hi ->
  exists cs k cs' k', plot_sumpdf_components s scale style None = (cs, k, Ok tt)
    /\ plot_components s (mkArgs None None (Some scale) None None style None) = (cs', k', Ok tt)
    /\ Forall2 (fun c c' => c_points c = c_points c') cs cs'
    /\ Forall (fun c => c_style c = Some (match style with Some l => l | None => "--" end)) cs.
Proof.
  intros SR. 
  destruct (parts_ok ob lo hi scale (s_parts s) (mkArgs None None None None None (Some (or_else style "--")) (Some None))) as (cs & k & P & F).
  { destruct SR as [_ SR]. rewrite Forall_forall in *. intros p I. split; [apply (SR p I)|]. unfold extended_drawn. cbn. destruct (p_yield (fst p)); [eauto|discriminate]. }
  destruct (parts_ok ob lo hi scale (s_parts s) (mkArgs None None (Some scale) None None style None)) as (cs' & k' & P' & F').
  { destruct SR as [_ SR]. rewrite Forall_forall in *. intros p I. split; [apply (SR p I)|]. unfold extended_drawn. cbn. destruct (p_yield (fst p)); [eauto|discriminate]. }
  exists cs, k, cs', k'. split; [exact P|]. split; [exact P'|]. clear P P' SR. split.
  - revert cs' F'. induction F as [|p c ps cs [X _] F IH]; intros cs' F'; inversion F' as [|? c' ? cs2 [X' _] F2]; subst; constructor; [|now apply IH].
    rewrite X, X'. reflexivity.
  - clear F'. induction F as [|p c ps cs [_ X] F IH]; constructor; [exact X|exact IH].
Qed.

(** C92: a plotter draws its PDF with the arguments, if it has no defaults. *)
Theorem C92_plotter_partial m custom a : plotpdf (mkPlotter (Some m) custom None None None) a = plot_model m a
  /\ plotpdf (mkPlotter None custom None None None) a = Err ValueError.
Proof. destruct a. split; reflexivity. Qed.

(** C92: "arguments take precedence over defaults": false, the defaults replace whatever is given. *)
Theorem C92_defaults_refuted m custom a d n e s s' : 
  plotpdf (mkPlotter (Some m) custom (Some d) n e) (with_scale a s) = plotpdf (mkPlotter (Some m) custom (Some d) n e) (with_scale a s').
Proof. reflexivity. Qed.

(** C92: "a function for plotting that is given to the plotter is used": false, it is never called. *)
Theorem C92_custom_refuted p custom custom' sc n e a :
  plotpdf (mkPlotter p custom sc n e) a = plotpdf (mkPlotter p custom' sc n e) a.
Proof. reflexivity. Qed.

(** ** Examples: two densities on [0, 1], with and without yields *)
Definition unit_range (ob : string) : option (Q * Q) := Some (0, 1).
Definition flat (y : option Q) := mkPdf "flat" ["x"] unit_range y (fun _ _ => 1).
Definition slope (y : option Q) := mkPdf "slope" ["x"] unit_range y (fun _ x => (1 # 2) + x * x).
Definition ex_args (e : option bool) := mkArgs e None None (Some 3%nat) None None None.
Example ex_plot : exists c, plot_model (slope (Some 4)) (ex_args None) = Ok (c, None) /\ map (fun p => Qred (snd p)) (c_points c) = [2; 3; 6] /\ c_label c = Some "slope".
Proof. eexists. split; [vm_compute; reflexivity|]. split; vm_compute; reflexivity. Qed.
Example ex_fracs : let s := sum_of_fracs "sum" ["x"] unit_range None [(flat None, 1 # 4); (slope None, 3 # 4)] in
  is_sum s /\ same_range (ex_args None) s "x" 0 1.
Proof. split; [intros ob x; reflexivity|]. split; [reflexivity|repeat constructor]. Qed.
Example ex_yields : exists s, sum_of_yields "sum" ["x"] unit_range [flat (Some 10); slope (Some 30)] = Ok s /\ same_range (ex_args None) s "x" 0 1
  /\ exists cs k whole k', plot_components s (ex_args None) = (cs, k, Ok tt) /\ plot_model (s_pdf s) (ex_args None) = Ok (whole, k')
     /\ map (fun p => Qred (snd p)) (c_points whole) = [25; 65 # 2; 55]
     /\ map (fun c => map (fun p => Qred (snd p)) (c_points c)) cs = [[5 # 2; 5 # 2; 5 # 2]; [45 # 4; 135 # 8; 135 # 4]].
Proof.
  eexists. split; [vm_compute; reflexivity|]. split; [split; [reflexivity|repeat constructor]|].
  eexists. eexists. eexists. eexists. split; [vm_compute; reflexivity|]. split; [vm_compute; reflexivity|]. split; vm_compute; reflexivity.
Qed.
