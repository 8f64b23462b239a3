(** Proofs about conditional PDFs, continued: the density, integrals and samples. *)
From Verif Require Import Base BaseLemmas Cond_Model Cond_Spec Cond_Proofs.
From Coq Require Import Lqa.
#[local] Open Scope nat_scope.

Lemma first_in {A} (f : A -> bool) l : (exists x, In x l /\ f x = true) -> filter f l <> [].
Proof. intros (x&I&F) E. assert (H : In x (filter f l)) by (apply filter_In; auto). rewrite E in H. exact H. Qed.

Lemma sort_ok C d o : In o (c_obs C) -> has d o ->
  let cs := filter (fun o => mem String.eqb o (cols d)) (c_obs C) in
  sort_x C d = Ok (Dat cs (map (fun row => map (fun o => column d o row) cs) (rows d))).
Proof.
  intros I H cs. unfold sort_x. fold cs. assert (N : cs <> []).
  { apply first_in. exists o. split; [exact I|]. apply (mem_In _ string_eqb_ok). exact H. }
  destruct cs; [contradiction|reflexivity].
Qed.
Lemma cond_in_obs C p o : proper C -> observable_of C p = Some o -> In o (c_obs C).
Proof.
  intros (_&_&_&E) O. rewrite E. apply unique_In. apply in_or_app. right. unfold observable_of in O.
  destruct (lookup String.eqb p (c_cond C)) as [[|o' r]|] eqn:L; try discriminate. injection O as ->.
  apply in_flat_map. exists (p, o :: r). split; [apply (lookup_in _ string_eqb_ok); exact L|now left].
Qed.
Lemma cond_in_sorted C d : proper C -> has_conditions C d -> forall p o r, In (p, o :: r) (c_cond C) ->
  In o (filter (fun o => mem String.eqb o (cols d)) (c_obs C)).
Proof.
  intros P H p o r I. assert (O : observable_of C p = Some o).
  { unfold observable_of. destruct P as (_&N&_). rewrite (proj2 (lookup_nodup _ string_eqb_ok p (c_cond C) (o :: r) N) I). reflexivity. }
  apply filter_In. split; [eapply cond_in_obs; eauto|]. apply (mem_In _ string_eqb_ok). eapply H; eauto.
Qed.

Section Evals.
Variables (C : cond_pdf) (lims : limits_t) (graph : bool).
Hypothesis P : proper C.

(** The values shown while a row is evaluated. *)
Lemma shown_row d cs idx row s s0 : map fst idx = map fst (c_cond C) ->
  (forall p, match lookup String.eqb p (c_cond C), lookup String.eqb p idx with
             | Some (o :: _), Some k => index_of String.eqb o cs = Some k
             | None, None => True
             | _, _ => False
             end) ->
  only_conditional C s s0 ->
  only_conditional C (assign_row idx (map (fun o => column d o row) cs) s) s0 /\
  same (visible lims (assign_row idx (map (fun o => column d o row) cs) s)) (with_event_clipped C lims d row (visible lims s0)).
Proof.
  intros M L O. destruct P as (_&N&_). split.
  - intros p Hp. rewrite (assigned C d cs idx row s p M N L), Hp. apply O. exact Hp.
  - intros p. unfold visible, with_event_clipped. rewrite (assigned C d cs idx row s p M N L).
    destruct (observable_of C p) eqn:E; [reflexivity|]. rewrite (O p E). reflexivity.
Qed.

Lemma set_to_only old s : only_conditional C s old -> only_conditional C (set_to C lims old s) old.
Proof.
  intros O p Hp. destruct P as (_&_&NE&_). rewrite set_to_get, (conditional_iff C p NE), Hp. apply O. exact Hp.
Qed.
Lemma set_to_shows old s : only_conditional C s old -> same (visible lims (set_to C lims old s)) (visible lims old).
Proof.
  intros O p. destruct P as (_&_&NE&_). unfold visible at 1. rewrite set_to_get, (conditional_iff C p NE).
  destruct (observable_of C p) eqn:E.
  - unfold visible. apply clip_clip.
  - rewrite (O p E). reflexivity.
Qed.

Lemma blocked_iff s : blocked C lims graph s = false <-> graph = false \/ away_from_limits C lims (visible lims s).
Proof.
  unfold blocked, cond_names, away_from_limits. destruct graph; cbn [andb]; [|tauto].
  rewrite <- not_true_iff_false, existsb_exists. split.
  - intros H. right. intros p I.
    assert (E : inside (lims p) (visible lims s p) = true).
    { destruct (inside (lims p) (visible lims s p)) eqn:E; [reflexivity|]. exfalso. apply H. exists p. now rewrite E. }
    unfold inside in E. apply andb_true_iff in E. destruct E as [A B].
    split; [destruct (fst (lims p)); [|exact Logic.I]|destruct (snd (lims p)); [|exact Logic.I]].
    + unfold Qlt_bool in A. apply negb_true_iff in A. apply Qnot_le_lt. rewrite <- Qle_bool_iff. congruence.
    + unfold Qlt_bool in B. apply negb_true_iff in B. apply Qnot_le_lt. rewrite <- Qle_bool_iff. congruence.
  - intros [H|H]; [discriminate|]. intros (p&I&E). apply negb_true_iff in E. destruct (H p I) as [A B].
    unfold inside in E. apply andb_false_iff in E. destruct E as [E|E].
    + destruct (fst (lims p)); [|discriminate]. unfold Qlt_bool in E. apply negb_false_iff in E. apply Qle_bool_iff in E. lra.
    + destruct (snd (lims p)); [|discriminate]. unfold Qlt_bool in E. apply negb_false_iff in E. apply Qle_bool_iff in E. lra.
Qed.

Lemma complete_sorted d : complete C d -> filter (fun o => mem String.eqb o (cols d)) (c_obs C) = c_obs C.
Proof. intros H. apply filter_all. intros o O. apply (mem_In _ string_eqb_ok). apply H. exact O. Qed.
Lemma complete_conditions d : complete C d -> has_conditions C d.
Proof. intros H p o O. apply H. eapply cond_in_obs; eauto. Qed.

Lemma first_observables {A} (f : string -> A) : firstn (length (c_pdf_obs C)) (map f (c_obs C)) = map f (c_pdf_obs C).
Proof.
  destruct P as (N&_&_&->). destruct (unique_app (c_pdf_obs C) (flat_map snd (c_cond C)) N) as (r&->).
  rewrite map_app. rewrite <- (map_length f (c_pdf_obs C)). rewrite firstn_app, Nat.sub_diag, firstn_all. cbn. apply app_nil_r.
Qed.

Lemma pdf_spec inner s norm d : c_pdf_obs C <> [] -> complete C d ->
  (forall n x, of_values (fun v => inner v n x)) ->
  (graph = false \/ away_from_limits C lims (visible lims s)) ->
  let r := mapM (fun row => inner (with_event_clipped C lims d row (visible lims s)) (part (c_pdf_obs C) norm)
                              (map (fun o => column d o row) (c_pdf_obs C))) (rows d) in
  snd (pdf C lims inner graph s norm d) = r /\
  (graph = false \/ (exists v, r = Ok v) -> same (visible lims (fst (pdf C lims inner graph s norm d))) (visible lims s)).
Proof.
  intros NE0 CO EXT AW r. assert (P' := P). destruct P' as (ND&N&NE&EO).
  assert (X0 : exists o0, In o0 (c_obs C)).
  { rewrite EO. destruct (c_pdf_obs C) as [|o0 os]; [contradiction|]. exists o0. apply unique_In. now left. }
  destruct X0 as (o0&O0).
  unfold pdf. rewrite (sort_ok C d o0 O0 (CO o0 O0)). rewrite (complete_sorted d CO). cbn [cols rows].
  destruct (indices_ok C (c_obs C) NE) as (idx&EI&M&L).
  { intros p o l I. rewrite <- (complete_sorted d CO). eapply cond_in_sorted; eauto. now apply complete_conditions. }
  rewrite EI. rewrite (proj2 (blocked_iff s) AW).
  destruct (map_rows_spec C (eval_pdf C lims inner idx norm)
    (fun _ row => if Nat.eqb (length (firstn (length (c_pdf_obs C)) row)) (length (c_pdf_obs C))
                  then inner (visible lims (assign_row idx row s)) (part (c_pdf_obs C) norm) (firstn (length (c_pdf_obs C)) row)
                  else Err ShapeIncompatibleError) s) with (l := map (fun row => map (fun o => column d o row) (c_obs C)) (rows d)) (i := 0) (s := set_to C lims s s) as [A B].
  { intros i t row O. unfold eval_pdf. cbn [fst snd]. split.
    - intros p Hp. rewrite assign_row_get by (rewrite M; exact N). specialize (L p). unfold observable_of in Hp.
      destruct (lookup String.eqb p (c_cond C)) as [[|? ?]|] eqn:LC, (lookup String.eqb p idx); try contradiction; try discriminate. apply O.
      unfold observable_of. now rewrite LC.
    - destruct (Nat.eqb _ _); [|reflexivity]. apply EXT. intros p. unfold visible. f_equal.
      rewrite !assign_row_get by (rewrite M; exact N). specialize (L p).
      destruct (lookup String.eqb p idx) eqn:LI; [reflexivity|]. apply O. unfold observable_of.
      destruct (lookup String.eqb p (c_cond C)) as [[|? ?]|]; try contradiction; reflexivity. }
  { apply set_to_only. intros p Hp. reflexivity. }
  rewrite mapM_index with (f := fun row => if Nat.eqb (length (firstn (length (c_pdf_obs C)) row)) (length (c_pdf_obs C))
                  then inner (visible lims (assign_row idx row s)) (part (c_pdf_obs C) norm) (firstn (length (c_pdf_obs C)) row)
                  else Err ShapeIncompatibleError) in B.
  rewrite mapM_map in B.
  assert (R : snd (map_rows (eval_pdf C lims inner idx norm) 0 (set_to C lims s s) (map (fun row => map (fun o => column d o row) (c_obs C)) (rows d))) = r).
  { rewrite B. unfold r. apply mapM_ext. intros row _. rewrite first_observables, map_length, Nat.eqb_refl.
    apply EXT. destruct (shown_row d (c_obs C) idx row s s M L) as [_ S]; [intros p Hp; reflexivity|exact S]. }
  destruct (map_rows _ 0 _ _) as [s' [v|e]]; cbn [fst snd] in *.
  - split; [exact R|]. intros _. now apply set_to_shows.
  - split; [exact R|]. intros [->|(v&V)]; [now apply set_to_shows|congruence].
Qed.

Lemma integrate_spec inner_int s limits norm d : c_cond C <> [] -> has_conditions C d ->
  (forall l n, of_values (fun v => inner_int v l n)) ->
  snd (integrate C lims inner_int s limits norm (Some d)) =
  mapM (fun row => inner_int (with_event_clipped C lims d row (visible lims s)) (part (c_pdf_obs C) limits) (part (c_pdf_obs C) norm)) (rows d).
Proof.
  intros NE0 HC EXT. assert (P' := P). destruct P' as (ND&N&NE&EO).
  assert (EX : exists o, In o (c_obs C) /\ has d o).
  { destruct (c_cond C) as [|[p l] c] eqn:EC; [contradiction|]. destruct l as [|o l]; [exfalso; eapply NE; [now left|reflexivity]|].
    assert (O : observable_of C p = Some o). { unfold observable_of. rewrite EC. cbn. now rewrite String.eqb_refl. }
    exists o. split; [eapply cond_in_obs; eauto|eapply HC; eauto]. }
  destruct EX as (o0&I0&H0). unfold integrate. rewrite (sort_ok C d o0 I0 H0). cbn [cols rows].
  set (cs := filter _ (c_obs C)). destruct (indices_ok C cs NE (cond_in_sorted C d P HC)) as (idx&EI&M&L). rewrite EI.
  match goal with |- snd (map_rows ?F 0 s ?rr) = _ => destruct (map_rows_spec C F
    (fun _ row => inner_int (visible lims (assign_row idx row s)) (part (c_pdf_obs C) limits) (part (c_pdf_obs C) norm)) s) with (l := rr) (i := 0) (s := s) as [A B] end.
  { intros i t row O. cbn [fst snd]. split.
    - intros p Hp. rewrite assign_row_get by (rewrite M; exact N). specialize (L p). unfold observable_of in Hp.
      destruct (lookup String.eqb p (c_cond C)) as [[|? ?]|] eqn:LC, (lookup String.eqb p idx); try contradiction; try discriminate. apply O.
      unfold observable_of. now rewrite LC.
    - apply EXT. intros p. unfold visible. f_equal.
      rewrite !assign_row_get by (rewrite M; exact N). specialize (L p).
      destruct (lookup String.eqb p idx) eqn:LI; [reflexivity|]. apply O. unfold observable_of.
      destruct (lookup String.eqb p (c_cond C)) as [[|? ?]|]; try contradiction; reflexivity. }
  { intros p Hp. reflexivity. }
  rewrite B. rewrite mapM_index with (f := fun row => inner_int (visible lims (assign_row idx row s)) (part (c_pdf_obs C) limits) (part (c_pdf_obs C) norm)).
  rewrite mapM_map. apply mapM_ext. intros row _. apply EXT.
  destruct (shown_row d cs idx row s s M L) as [_ S]; [intros p Hp; reflexivity|exact S].
Qed.
End Evals.
