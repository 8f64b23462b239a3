(** C78: conditional PDFs. *)
From Verif Require Import Base BaseLemmas Cond_Model Cond_Spec Cond_Proofs Cond_Proofs2 Cond_Proofs3.
From Coq Require Import Lqa.
#[local] Open Scope nat_scope.
#[local] Open Scope string_scope.
#[local] Open Scope list_scope.

(** ** Making one *)

(** Only independent parameters can be made conditional; then the observables are those of the PDF,
    followed by the other ones of the conditions. *)
Theorem C78_made pdf_obs cond C : make_cond pdf_obs cond = Ok C <->
  (forall p b l, In (p, b, l) cond -> b = true) /\
  C = CondPdf pdf_obs (map (fun c => (fst (fst c), snd c)) cond) (unique (pdf_obs ++ flat_map snd cond)).
Proof.
  unfold make_cond. destruct (forallb _ _) eqn:F.
  - rewrite forallb_forall in F. split.
    + intros E. injection E as <-. split; [|reflexivity]. intros p b l I. apply (F (p, b, l) I).
    + intros [_ ->]. reflexivity.
  - split; [discriminate|]. intros [H _]. exfalso. rewrite <- not_true_iff_false in F. apply F. apply forallb_forall.
    intros [[p b] l] I. exact (H p b l I).
Qed.
Theorem C78_observables pdf_obs cond C : make_cond pdf_obs cond = Ok C ->
  NoDup pdf_obs -> NoDup (map (fun c => fst (fst c)) cond) -> (forall p b l, In (p, b, l) cond -> l <> []) ->
  proper C /\ NoDup (c_obs C) /\ (exists r, c_obs C = pdf_obs ++ r) /\
  forall o, In o (c_obs C) <-> In o pdf_obs \/ exists p b l, In (p, b, l) cond /\ In o l.
Proof.
  intros E N1 N2 NE. apply C78_made in E. destruct E as [_ ->]. cbn [c_obs].
  assert (FM : flat_map snd (map (fun c : string * bool * list string => (fst (fst c), snd c)) cond) = flat_map snd cond).
  { clear. induction cond as [|c l IH]; cbn; [reflexivity|]. now rewrite IH. }
  split; [|split; [|split]].
  - repeat split; cbn [c_pdf_obs c_cond c_obs]; [exact N1| | |now rewrite FM].
    + rewrite map_map. exact N2.
    + intros p l I. apply in_map_iff in I. destruct I as (((q&b)&m)&E&I). cbn in E. injection E as <- <-. exact (NE _ _ _ I).
  - apply unique_NoDup.
  - apply unique_app. exact N1.
  - intros o. rewrite unique_In, in_app_iff, in_flat_map. split.
    + intros [H|(((p&b)&l)&I&O)]; [auto|]. right. exists p, b, l. auto.
    + intros [H|(p&b&l&I&O)]; [auto|]. right. exists (p, b, l). auto.
Qed.

(** The parameters of a conditional PDF are those of the PDF, without the conditional ones. *)
Theorem C78_params C params p : In p (cond_params C params) <-> In p params /\ ~ In p (map fst (c_cond C)).
Proof.
  unfold cond_params. rewrite filter_In, negb_true_iff. rewrite (mem_false _ string_eqb_ok). tauto.
Qed.

(** ** The density *)
Section Density.
Variables (C : cond_pdf) (lims : limits_t) (graph : bool).
Variable inner : store -> ranges -> list Q -> result Q.
Hypothesis P : proper C.
Hypothesis NE : c_pdf_obs C <> [].
Hypothesis EXT : forall n x, of_values (fun v => inner v n x).
Notation PDF := (pdf C lims inner graph).

(** For every event the density is that of the PDF for the observables of the PDF, with the conditional
    parameters at the values in the data, whatever the order of the columns and whatever other columns
    there are; the norm range is the part for the observables of the PDF. The first error is passed on.
    What is missing: values outside of the limits of a parameter (see below). *)
Theorem C78_density_partial s norm d : complete C d -> in_limits C lims d ->
  graph = false \/ away_from_limits C lims (visible lims s) ->
  snd (PDF s norm d) =
  mapM (fun row => inner (with_event C d row (visible lims s)) (part (c_pdf_obs C) norm) (map (fun o => column d o row) (c_pdf_obs C))) (rows d).
Proof.
  intros CO IL AW. destruct (pdf_spec C lims graph P inner s norm d NE CO EXT AW) as [-> _].
  apply mapM_ext. intros row I. apply EXT. intros p. unfold with_event_clipped, with_event. destruct (observable_of C p) eqn:E; [|reflexivity].
  apply clip_between. exact (IL row p s0 I E).
Qed.

(** Without that condition, a value outside of the limits of its parameter counts as the limit. *)
Theorem C78_density_outside s norm d : complete C d -> graph = false \/ away_from_limits C lims (visible lims s) ->
  snd (PDF s norm d) =
  mapM (fun row => inner (with_event_clipped C lims d row (visible lims s)) (part (c_pdf_obs C) norm) (map (fun o => column d o row) (c_pdf_obs C))) (rows d).
Proof. intros CO AW. exact (proj1 (pdf_spec C lims graph P inner s norm d NE CO EXT AW)). Qed.

(** The evaluation does not change the values of any parameter. If functions are not compiled this is so
    also after an error. *)
Theorem C78_density_keeps_parameters s norm d : complete C d -> graph = false \/ away_from_limits C lims (visible lims s) ->
  graph = false \/ (exists v, snd (PDF s norm d) = Ok v) -> same (visible lims (fst (PDF s norm d))) (visible lims s).
Proof.
  intros CO AW G. destruct (pdf_spec C lims graph P inner s norm d NE CO EXT AW) as [E K]. apply K. destruct G as [G|(v&V)]; [auto|].
  right. exists v. congruence.
Qed.

(** The density does not depend on the values that the conditional parameters have (they are not
    parameters of the conditional PDF). *)
Theorem C78_density_independent s1 s2 norm d : complete C d ->
  graph = false \/ (away_from_limits C lims (visible lims s1) /\ away_from_limits C lims (visible lims s2)) ->
  (forall p, ~ In p (map fst (c_cond C)) -> s1 p = s2 p) ->
  snd (PDF s1 norm d) = snd (PDF s2 norm d).
Proof.
  intros CO AW H. rewrite !C78_density_outside by tauto. apply mapM_ext. intros row _. apply EXT. intros p.
  unfold with_event_clipped. destruct (observable_of C p) eqn:E; [reflexivity|]. unfold visible. rewrite H; [reflexivity|].
  destruct P as (_&_&NE'&_). assert (M := conditional_iff C p NE'). rewrite E in M. apply (mem_false _ string_eqb_ok). exact M.
Qed.

(** One density for every value of the conditions: if the PDF is normalised, whatever its parameters,
    then so is the conditional PDF as a function of the observables of the PDF alone. [total] is any
    functional, e.g. the integral over the norm range. *)
Definition value_of (r : result (list Q)) : Q := match r with Ok [v] => v | _ => 0%Q end.
Definition inner_value (v : store) (n : ranges) (x : list Q) : Q := match inner v n x with Ok q => q | Err _ => 0%Q end.
Theorem C78_normalised total s norm (y : list Q) : 
  (forall f g, (forall x, length x = length (c_pdf_obs C) -> f x = g x) -> total f = total g :> Q) ->
  (forall v, total (inner_value v (part (c_pdf_obs C) norm)) = 1%Q) ->
  (forall p o, observable_of C p = Some o -> ~ In o (c_pdf_obs C)) ->
  graph = false \/ away_from_limits C lims (visible lims s) ->
  total (fun x => value_of (snd (PDF s norm (Dat (c_obs C) [x ++ y])))) = 1%Q.
Proof.
  intros TE T1 DJ AW. assert (P' := P). destruct P' as (ND&N&NE'&EO). destruct (unique_app (c_pdf_obs C) (flat_map snd (c_cond C)) ND) as (r&ER).
  rewrite <- EO in ER.
  set (x0 := map (fun _ => 0%Q) (c_pdf_obs C)).
  rewrite <- (T1 (with_event_clipped C lims (Dat (c_obs C) [x0 ++ y]) (x0 ++ y) (visible lims s))). apply TE. intros x LX.
  rewrite (C78_density_outside s norm (Dat (c_obs C) [x ++ y])) by (exact AW || (intros o O; exact O)). cbn [rows mapM].
  assert (U : NoDup (c_obs C)) by (rewrite EO; apply unique_NoDup).
  assert (CX : map (fun o => column (Dat (c_obs C) [x ++ y]) o (x ++ y)) (c_pdf_obs C) = x).
  { apply nth_error_ext. intros k. destruct (nth_error (c_pdf_obs C) k) as [o|] eqn:K.
    - erewrite map_nth_error by exact K. unfold column. cbn [cols].
      assert (KL : k < length (c_pdf_obs C)) by (apply nth_error_Some; congruence).
      rewrite (nodup_index_of _ string_eqb_ok o (c_obs C) k U) by (rewrite ER, nth_error_app1; assumption).
      rewrite app_nth1 by lia. symmetry. apply nth_error_nth'. lia.
    - assert (KL := proj1 (nth_error_None _ _) K). rewrite !(proj2 (nth_error_None _ _)); [reflexivity| |rewrite map_length]; lia. }
  rewrite CX. unfold inner_value. erewrite EXT with (b := with_event_clipped C lims (Dat (c_obs C) [x0 ++ y]) (x0 ++ y) (visible lims s)).
  - destruct (inner _ _ x); reflexivity.
  - intros p. unfold with_event_clipped. destruct (observable_of C p) as [o|] eqn:O; [|reflexivity]. f_equal.
    assert (OI : In o (c_obs C)) by (eapply cond_in_obs; eauto). destruct (index_of_in _ string_eqb_ok o _ OI) as (k&K).
    unfold column. cbn [cols]. rewrite K. assert (KN := index_of_nth _ string_eqb_ok _ _ _ K).
    assert (KL : length (c_pdf_obs C) <= k).
    { destruct (Nat.le_gt_cases (length (c_pdf_obs C)) k) as [|G]; [assumption|]. exfalso. rewrite ER, nth_error_app1 in KN by exact G.
      apply nth_error_In in KN. exact (DJ p o O KN). }
    assert (L0 : length x0 = length (c_pdf_obs C)) by apply map_length.
    rewrite !app_nth2 by lia. now rewrite LX, L0.
Qed.
End Density.

(** ** Integrals and samples *)
Section Others.
Variables (C : cond_pdf) (lims : limits_t).
Hypothesis P : proper C.
Hypothesis NE : c_cond C <> [].

(** One integral for each event of the data given: over the part of the limits for the observables of the
    PDF, with the conditional parameters at the values of the event. *)
Theorem C78_integrals_partial inner_int s limits norm d : has_conditions C d -> in_limits C lims d ->
  (forall l n, of_values (fun v => inner_int v l n)) ->
  snd (integrate C lims inner_int s limits norm (Some d)) =
  mapM (fun row => inner_int (with_event C d row (visible lims s)) (part (c_pdf_obs C) limits) (part (c_pdf_obs C) norm)) (rows d).
Proof.
  intros HC IL EXT. rewrite (integrate_spec C lims P inner_int s limits norm d NE HC EXT). apply mapM_ext. intros row I. apply EXT.
  intros p. unfold with_event_clipped, with_event. destruct (observable_of C p) eqn:E; [|reflexivity]. apply clip_between. exact (IL row p s0 I E).
Qed.
(** Finding: _single_hook_integrate does not set the parameters back (142-171, other than _pdf): they
    keep the values of the last event. *)
Theorem C78_integrals_change_parameters inner_int s limits norm d l row v : has_conditions C d -> in_limits C lims d ->
  rows d = (l ++ [row])%list -> snd (integrate C lims inner_int s limits norm (Some d)) = Ok v ->
  same (visible lims (fst (integrate C lims inner_int s limits norm (Some d)))) (with_event C d row (visible lims s)).
Proof.
  intros HC IL R V p. rewrite (integrate_left C lims P inner_int s limits norm d l row v NE HC R V p).
  unfold with_event_clipped, with_event. destruct (observable_of C p) eqn:E; [|reflexivity]. apply clip_between.
  apply (IL row p s0); [|exact E]. rewrite R. apply in_or_app. right. now left.
Qed.

(** A sample of a PDF with one observable: the data gives the conditions, one event for each of its
    events; each is drawn with the conditional parameters at the values of the event, whose values
    follow. The columns have the right names. *)
Theorem C78_sample_partial inner_draw s limits d : length (c_pdf_obs C) = 1 -> has_conditions C d -> in_limits C lims d ->
  (forall o, In o (c_obs C) -> (has d o <-> ~ In o (c_pdf_obs C))) ->
  (forall i l, of_values (fun v => inner_draw i v l)) -> (forall i v l e, inner_draw i v l = Ok e -> length e = 1) ->
  (map fst limits = c_pdf_obs C \/ map fst limits = c_obs C) ->
  forall l, snd (sample C lims inner_draw s (Some (length (rows d))) limits (Some d)) = Ok l ->
  cols l = c_obs C /\ length (rows l) = length (rows d) /\
  forall i row new, nth_error (rows d) i = Some row -> nth_error (rows l) i = Some new ->
    exists e, inner_draw i (with_event C d row (visible lims s)) (part (c_pdf_obs C) limits) = Ok [e] /\
    forall o, In o (c_obs C) -> column l o new = (if mem String.eqb o (c_pdf_obs C) then e else column d o row).
Proof.
  intros L1 HC IL HO EXT LEN LM l E. rewrite (sample_spec C lims P inner_draw s limits d _ L1 NE HO HC eq_refl EXT LEN LM) in E.
  destruct (mapM _ _) as [rs|] eqn:M; [|discriminate]. cbn [bind] in E. injection E as <-. cbn [cols rows]. split; [reflexivity|].
  apply mapM_ok in M. assert (LL := Forall2_length' _ _ _ M). rewrite combine_length, seq_length, Nat.min_id in LL. split; [congruence|].
  intros i row new Hr Hn. assert (F := proj1 (Forall2_nth _ _ _) M). destruct F as [_ F].
  assert (IC : nth_error (combine (seq 0 (length (rows d))) (rows d)) i = Some (i, row)).
  { assert (G : forall (l : list (list Q)) k i, nth_error l i = Some row -> nth_error (combine (seq k (length l)) l) i = Some (k + i, row)).
    { clear. induction l as [|a l IH]; intros k i H; [destruct i; discriminate|]. destruct i as [|i]; cbn in *; [injection H as ->; now rewrite Nat.add_0_r|].
      rewrite (IH (S k) i H). f_equal. f_equal. lia. }
    apply (G (rows d) 0 i Hr). }
  specialize (F i (i, row) new IC Hn). cbn [fst snd] in F.
  rewrite (EXT i (part (c_pdf_obs C) limits) _ (with_event C d row (visible lims s))) in F.
  2:{ intros p. unfold with_event_clipped, with_event. destruct (observable_of C p) eqn:O; [|reflexivity]. apply clip_between.
      apply (IL row p s0); [|exact O]. eapply nth_error_In; eauto. }
  destruct (inner_draw i _ _) as [e|] eqn:D; [|discriminate]. cbn [bind] in F. injection F as <-.
  assert (LE := LEN _ _ _ _ D). destruct e as [|e [|? ?]]; try discriminate. exists e. split; [reflexivity|]. intros o O.
  destruct (conditions_only C P d L1 HO) as [EC DJ]. destruct (c_pdf_obs C) as [|x [|? ?]] eqn:EP; try discriminate. 
  unfold column at 1. cbn [cols]. rewrite EC. cbn [app index_of]. unfold mem. cbn [existsb]. rewrite orb_false_r.
  destruct (String.eqb o x) eqn:OX; [reflexivity|].
  assert (OS : In o (sorted_cols C d)).
  { rewrite EC in O. destruct O as [->|O]; [rewrite String.eqb_refl in OX; discriminate|exact O]. }
  destruct (index_of_in _ string_eqb_ok o _ OS) as (k&K). rewrite K. cbn [nth app]. now apply column_sorted.
Qed.
(** Without the right number of events, or without data, there is no sample. *)
Theorem C78_sample_number inner_draw s limits n d : has_conditions C d -> n <> length (rows d) ->
  snd (sample C lims inner_draw s (Some n) limits (Some d)) = Err InvalidArgumentError.
Proof.
  intros HC N. destruct (conditions_sort C P d NE HC) as (S&_). unfold sample. rewrite S. cbn [cols rows]. rewrite map_length.
  destruct (Nat.eqb n (length (rows d))) eqn:E; [apply Nat.eqb_eq in E; contradiction|]. reflexivity.
Qed.
End Others.

(** ** Examples: a PDF in "x" with the parameters "mu" (between 0 and 10) and "sigma" *)
Definition ex_cond : cond_pdf := CondPdf ["x"] [("mu", ["y"])] ["x"; "y"].
Definition ex_lims : limits_t := fun p => if String.eqb p "mu" then (Some 0%Q, Some 10%Q) else (None, None).
Definition ex_store : store := fun p => if String.eqb p "mu" then 5%Q else 1%Q.
Definition ex_inner (v : store) (_ : ranges) (x : list Q) : result Q := Ok (Qred (nth 0 x 0 - v "mu"))%Q.
Definition ex_norm : ranges := [("x", (0, 1)); ("y", (0, 1))]%Q.
Example ex_proper : proper ex_cond.
Proof.
  repeat split; cbn; repeat constructor; cbn; try tauto; try (intros [|]; discriminate || tauto).
  intros p l [E|[]]. injection E as <- <-. discriminate.
Qed.
Example ex_made : make_cond ["x"] [("mu", true, ["y"])] = Ok ex_cond. Proof. reflexivity. Qed.
Example ex_ext n x : of_values (fun v => ex_inner v n x).
Proof. intros a b H. unfold ex_inner. now rewrite H. Qed.
(** The columns in another order. *)
Definition ex_data : dat := Dat ["y"; "x"] [[1; 7]; [2; 7]]%Q.
Example ex_complete : complete ex_cond ex_data.
Proof. intros o [<-|[<-|[]]]; cbn; auto. Qed.
Example ex_in_limits : in_limits ex_cond ex_lims ex_data.
Proof.
  intros row p o I O. unfold observable_of, ex_cond in O. cbn in O. destruct (String.eqb p "mu") eqn:E; [|discriminate]. injection O as <-.
  unfold ex_lims. rewrite E. destruct I as [<-|[<-|[]]]; cbn; split; vm_compute; discriminate.
Qed.
Example ex_away : away_from_limits ex_cond ex_lims (visible ex_lims ex_store).
Proof. intros p [<-|[]]. split; vm_compute; reflexivity. Qed.
Example ex_density : snd (pdf ex_cond ex_lims ex_inner true ex_store ex_norm ex_data) = Ok [6; 5]%Q.
Proof. vm_compute. reflexivity. Qed.
Definition ex_int (v : store) (l n : ranges) : result Q := Ok (Qred (v "mu" * inject_Z (Z.of_nat (length l))))%Q.
Definition ex_draw (i : nat) (v : store) (l : ranges) : result (list Q) := Ok [Qred (v "mu" + inject_Z (Z.of_nat i))]%Q.
Definition ex_conditions : dat := Dat ["y"] [[1]; [2]]%Q.
Example ex_integrals : snd (integrate ex_cond ex_lims ex_int ex_store ex_norm [] (Some ex_conditions)) = Ok [1; 2]%Q.
Proof. vm_compute. reflexivity. Qed.
Example ex_sample : snd (sample ex_cond ex_lims ex_draw ex_store (Some 2) [("x", (0, 9))]%Q (Some ex_conditions)) =
  Ok (Dat ["x"; "y"] [[1; 1]; [3; 2]]%Q).
Proof. vm_compute. reflexivity. Qed.

(** ** Findings *)

(** Finding: a value of the data outside of the limits of the parameter is replaced by the limit without
    a word, as [assign] (121) does not check. *)
Theorem C78_density_refuted : ~ (forall C lims inner graph s norm d, proper C -> c_pdf_obs C <> [] ->
  (forall n x, of_values (fun v => inner v n x)) -> complete C d -> away_from_limits C lims (visible lims s) ->
  snd (pdf C lims inner graph s norm d) =
  mapM (fun row => inner (with_event C d row (visible lims s)) (part (c_pdf_obs C) norm) (map (fun o => column d o row) (c_pdf_obs C))) (rows d)).
Proof.
  intros H. specialize (H ex_cond ex_lims ex_inner true ex_store ex_norm (Dat ["x"; "y"] [[7; 12]]%Q) ex_proper ltac:(discriminate) ex_ext).
  assert (K := H ltac:(intros o [<-|[<-|[]]]; cbn; auto) ex_away). vm_compute in K. discriminate.
Qed.

(** Finding: data that lacks an observable of the PDF is not refused: [x.with_obs] takes what is there, and
    [: pdf.n_obs] (119) takes the first columns, whatever they are; here the density of "x" is evaluated
    at the value of "y". *)
Theorem C78_missing_observable_refuted : ~ (forall C lims inner graph s norm d v, proper C ->
  snd (pdf C lims inner graph s norm d) = Ok v -> rows d <> [] -> forall o, In o (c_pdf_obs C) -> has d o).
Proof.
  intros H. assert (K := H ex_cond ex_lims ex_inner true ex_store ex_norm (Dat ["y"] [[3]]%Q) _ ex_proper eq_refl ltac:(discriminate) "x" (or_introl eq_refl)).
  destruct K as [K|[]]; discriminate.
Qed.

(** Finding: if the value of a conditional parameter, which does not matter for the density, is at its
    limit, a compiled evaluation fails: [set_values] (124) sets every parameter to its own value, and the
    check in compiled functions (core/parameter.py:608-617) does not allow the limits. *)
Theorem C78_parameter_at_limit_refuted : ~ (forall C lims inner s1 s2 norm d v, proper C -> complete C d ->
  (forall n x, of_values (fun v => inner v n x)) -> (forall p, ~ In p (map fst (c_cond C)) -> s1 p = s2 p) ->
  snd (pdf C lims inner true s1 norm d) = Ok v -> snd (pdf C lims inner true s2 norm d) = Ok v).
Proof.
  intros H. specialize (H ex_cond ex_lims ex_inner ex_store (assign ex_store "mu" 10) ex_norm ex_data [6; 5]%Q ex_proper ex_complete ex_ext).
  assert (K := H ltac:(intros p NI; unfold assign; destruct (String.eqb p "mu") eqn:E; [apply String.eqb_eq in E; subst p; exfalso; apply NI; now left|reflexivity]) eq_refl).
  vm_compute in K. discriminate.
Qed.

(** Finding: if the PDF fails for an event while a compiled function runs, the conditional parameters
    keep the values of that event. *)
Definition ex_fails (v : store) (_ : ranges) (x : list Q) : result Q :=
  if Qle_bool (v "mu") 1 then Ok 1%Q else Err InvalidArgumentError.
Theorem C78_error_keeps_parameters_refuted : ~ (forall C lims inner s norm d, proper C -> complete C d ->
  (forall n x, of_values (fun v => inner v n x)) -> away_from_limits C lims (visible lims s) ->
  same (visible lims (fst (pdf C lims inner true s norm d))) (visible lims s)).
Proof.
  intros H. specialize (H ex_cond ex_lims ex_fails ex_store ex_norm ex_data ex_proper ex_complete).
  assert (K := H ltac:(intros n x a b E; unfold ex_fails; now rewrite E) ex_away "mu"). vm_compute in K. discriminate.
Qed.

(** Finding: integrals and samples change the values of the conditional parameters. *)
Theorem C78_integrals_keep_parameters_refuted : ~ (forall C lims inner_int s limits norm d v, proper C ->
  snd (integrate C lims inner_int s limits norm (Some d)) = Ok v ->
  same (visible lims (fst (integrate C lims inner_int s limits norm (Some d)))) (visible lims s)).
Proof.
  intros H. assert (K := H ex_cond ex_lims ex_int ex_store ex_norm [] ex_conditions _ ex_proper eq_refl "mu"). vm_compute in K. discriminate.
Qed.
(** Finding: sampling changes the values of the conditional parameters. *)
Theorem C78_sample_keeps_parameters_refuted : ~ (forall C lims inner_draw s n limits d l, proper C ->
  snd (sample C lims inner_draw s n limits (Some d)) = Ok l ->
  same (visible lims (fst (sample C lims inner_draw s n limits (Some d)))) (visible lims s)).
Proof.
  intros H. assert (K := H ex_cond ex_lims ex_draw ex_store (Some 2) [("x", (0, 9))]%Q ex_conditions _ ex_proper eq_refl "mu"). vm_compute in K. discriminate.
Qed.

(** Finding: without [var], e.g. in [normalization], every integral fails with an AttributeError; without
    [x], e.g. in a sampler made by [create_sampler], every sample does. *)
Theorem C78_integral_without_data_fails C lims inner_int s limits norm :
  snd (integrate C lims inner_int s limits norm None) = Err AttributeError.
Proof. reflexivity. Qed.
Theorem C78_sample_without_data_fails C lims inner_draw s n limits :
  snd (sample C lims inner_draw s n limits None) = Err AttributeError.
Proof. reflexivity. Qed.

(** Finding: samples of a PDF with more than one observable fail: [[..., 0]] (205) keeps only the first one. *)
Definition ex2_cond : cond_pdf := CondPdf ["x"; "z"] [("mu", ["y"])] ["x"; "z"; "y"].
Theorem C78_sample_two_observables_refuted : ~ (forall C lims inner_draw s limits d, proper C -> has_conditions C d -> rows d <> [] ->
  (forall o, In o (c_obs C) -> (has d o <-> ~ In o (c_pdf_obs C))) ->
  (forall i v l, exists e, inner_draw i v l = Ok e /\ length e = length (c_pdf_obs C)) -> map fst limits = c_pdf_obs C ->
  exists l, snd (sample C lims inner_draw s (Some (length (rows d))) limits (Some d)) = Ok l).
Proof.
  intros H. destruct (H ex2_cond ex_lims (fun i v l => Ok [1; 2]%Q) ex_store [("x", (0, 9)); ("z", (0, 9))]%Q ex_conditions) as (l&E).
  - repeat split; cbn; repeat constructor; cbn; try tauto; try (intros [|[|]]; discriminate || tauto); try (intros [|]; discriminate || tauto).
    intros p l [E|[]]. injection E as <- <-. discriminate.
  - intros p o O. unfold observable_of, ex2_cond in O. cbn in O. destruct (String.eqb p "mu"); [|discriminate]. injection O as <-. now left.
  - discriminate.
  - intros o [<-|[<-|[<-|[]]]]; cbn; split; intros K; try tauto; try (destruct K as [K|[]]; discriminate); try (intros [|[|]]; discriminate || tauto).
    all: exfalso; apply K; auto.
  - intros. eexists. split; reflexivity.
  - reflexivity.
  - vm_compute in E. discriminate.
Qed.
(** Finding: samples fail if the data for the conditions has also the observable of the PDF, e.g. a data set
    of the whole space: the events have then one column too many. *)
Theorem C78_sample_full_data_refuted : ~ (forall C lims inner_draw s limits d, proper C -> complete C d -> length (c_pdf_obs C) = 1 ->
  (forall i v l, exists e, inner_draw i v l = Ok [e]) -> map fst limits = c_pdf_obs C ->
  exists l, snd (sample C lims inner_draw s (Some (length (rows d))) limits (Some d)) = Ok l).
Proof.
  intros H. destruct (H ex_cond ex_lims ex_draw ex_store [("x", (0, 9))]%Q ex_data ex_proper ex_complete eq_refl) as (l&E).
  - intros. eexists. reflexivity.
  - reflexivity.
  - vm_compute in E. discriminate.
Qed.

(** Finding: of the space given for a parameter only the first observable counts (104), the others only become
    observables of the PDF. *)
Theorem C78_other_observables_ignored C lims inner graph s norm d d' : proper C -> c_pdf_obs C <> [] ->
  (forall n x, of_values (fun v => inner v n x)) -> complete C d -> complete C d' ->
  graph = false \/ away_from_limits C lims (visible lims s) ->
  Forall2 (fun row row' => forall o, In o (c_pdf_obs C) \/ (exists p, observable_of C p = Some o) -> column d o row = column d' o row') (rows d) (rows d') ->
  snd (pdf C lims inner graph s norm d) = snd (pdf C lims inner graph s norm d').
Proof.
  intros P NE EXT CO CO' AW F. rewrite !C78_density_outside by assumption.
  induction F as [|row row' l l' R F IH]; [reflexivity|]. cbn [mapM]. rewrite IH. f_equal.
  replace (map (fun o => column d' o row') (c_pdf_obs C)) with (map (fun o => column d o row) (c_pdf_obs C)).
  - apply EXT. intros p. unfold with_event_clipped. destruct (observable_of C p) eqn:O; [|reflexivity]. f_equal. apply R. right. eauto.
  - apply map_ext_in. intros o O. apply R. auto.
Qed.
