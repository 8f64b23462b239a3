(** Proofs about conditional PDFs, continued: samples, and what is left behind. *)
From Verif Require Import Base BaseLemmas Cond_Model Cond_Spec Cond_Proofs Cond_Proofs2.
#[local] Open Scope nat_scope.

Lemma left_behind {B} (F : nat -> store -> list Q -> store * result B) idx :
  (forall i s row, fst (F i s row) = assign_row idx row s) ->
  forall l i s v, snd (map_rows F i s l) = Ok v -> fst (map_rows F i s l) = fold_left (fun s row => assign_row idx row s) l s.
Proof.
  intros E. induction l as [|row l IH]; intros i s v H; [reflexivity|]. cbn [map_rows fold_left] in *. specialize (E i s row).
  destruct (F i s row) as [s1 [b|e]]; cbn [fst snd] in *; [|discriminate]. subst s1.
  specialize (IH (S i) (assign_row idx row s)). destruct (map_rows F (S i) (assign_row idx row s) l) as [s2 r]. cbn [fst snd] in *.
  destruct r as [bs|]; [|discriminate]. eapply IH. reflexivity.
Qed.

Lemma unique_all_in a : forall b, incl b a -> NoDup a -> unique (a ++ b) = a.
Proof.
  intros b I N. destruct (unique_app a b N) as (r&E). rewrite E. destruct r as [|x r]; [apply app_nil_r|]. exfalso.
  assert (D := unique_NoDup (a ++ b)). rewrite E in D. assert (X : In x (unique (a ++ b))) by (rewrite E; apply in_or_app; right; now left).
  apply (proj1 (unique_In _ _)) in X. apply in_app_or in X. assert (XA : In x a) by (destruct X; auto). apply NoDup_remove_2 in D. apply D. apply in_or_app. now left.
Qed.
Lemma unique_disjoint a b : NoDup a -> NoDup b -> (forall x, In x a -> ~ In x b) -> unique (a ++ b) = a ++ b.
Proof.
  intros NA NB D. apply unique_fix. induction a as [|x a IH]; [exact NB|]. inversion NA as [|? ? NI N']; subst. cbn. constructor.
  - intros H. apply in_app_or in H. destruct H as [H|H]; [contradiction|]. exact (D x (or_introl eq_refl) H).
  - apply IH; [exact N'|]. intros y Y. apply D. now right.
Qed.

Section Evals.
Variables (C : cond_pdf) (lims : limits_t).
Hypothesis P : proper C.

Definition sorted_cols (d : dat) : list string := filter (fun o => mem String.eqb o (cols d)) (c_obs C).

Lemma conditions_sort d : c_cond C <> [] -> has_conditions C d ->
  sort_x C d = Ok (Dat (sorted_cols d) (map (fun row => map (fun o => column d o row) (sorted_cols d)) (rows d))) /\
  exists idx, indices C (sorted_cols d) = Ok idx /\ map fst idx = map fst (c_cond C) /\
    forall p, match lookup String.eqb p (c_cond C), lookup String.eqb p idx with
              | Some (o :: _), Some k => index_of String.eqb o (sorted_cols d) = Some k
              | None, None => True
              | _, _ => False
              end.
Proof.
  intros NE0 HC. assert (P' := P). destruct P' as (ND&N&NE&EO).
  assert (EX : exists o, In o (c_obs C) /\ has d o).
  { destruct (c_cond C) as [|[p l] c] eqn:EC; [contradiction|]. destruct l as [|o l]; [exfalso; eapply NE; [now left|reflexivity]|].
    assert (O : observable_of C p = Some o). { unfold observable_of. rewrite EC. cbn. now rewrite String.eqb_refl. }
    exists o. split; [eapply cond_in_obs; eauto|eapply HC; eauto]. }
  destruct EX as (o0&I0&H0). split; [exact (sort_ok C d o0 I0 H0)|].
  exact (indices_ok C (sorted_cols d) NE (cond_in_sorted C d P HC)).
Qed.

Lemma last_shown d idx s l row : map fst idx = map fst (c_cond C) ->
  (forall p, match lookup String.eqb p (c_cond C), lookup String.eqb p idx with
             | Some (o :: _), Some k => index_of String.eqb o (sorted_cols d) = Some k
             | None, None => True
             | _, _ => False
             end) ->
  same (visible lims (fold_left (fun s row => assign_row idx row s) (map (fun row => map (fun o => column d o row) (sorted_cols d)) (l ++ [row])) s))
       (with_event_clipped C lims d row (visible lims s)).
Proof.
  intros M L. assert (P' := P). destruct P' as (ND&N&NE&EO). rewrite map_app, fold_left_app. cbn [map fold_left].
  set (s1 := fold_left _ _ s).
  assert (O : only_conditional C s1 s).
  { unfold s1. clear s1. generalize (map (fun row => map (fun o => column d o row) (sorted_cols d)) l). intros rs.
    assert (G : forall t, only_conditional C t s -> only_conditional C (fold_left (fun s row => assign_row idx row s) rs t) s).
    { induction rs as [|r0 rs IH]; intros t O; [exact O|]. cbn. apply IH. intros p Hp. rewrite assign_row_get by (rewrite M; exact N).
      specialize (L p). unfold observable_of in Hp.
      destruct (lookup String.eqb p (c_cond C)) as [[|? ?]|] eqn:LC, (lookup String.eqb p idx); try contradiction; try discriminate. apply O.
      unfold observable_of. now rewrite LC. }
    apply G. intros p Hp. reflexivity. }
  destruct (shown_row C lims P d (sorted_cols d) idx row s1 s M L O) as [_ S]. exact S.
Qed.

Lemma integrate_left inner_int s limits norm d l row v : c_cond C <> [] -> has_conditions C d -> rows d = l ++ [row] ->
  snd (integrate C lims inner_int s limits norm (Some d)) = Ok v ->
  same (visible lims (fst (integrate C lims inner_int s limits norm (Some d)))) (with_event_clipped C lims d row (visible lims s)).
Proof.
  intros NE0 HC R. destruct (conditions_sort d NE0 HC) as (S&idx&EI&M&L). unfold integrate. rewrite S. cbn [cols rows]. rewrite EI.
  intros V. match type of V with snd (map_rows ?F _ _ _) = _ => rewrite (left_behind F idx (fun _ _ _ => eq_refl) _ _ _ _ V) end. rewrite R. now apply last_shown.
Qed.

(** The data for sampling has the conditions, but not the observable of the PDF. *)
Lemma conditions_only d : length (c_pdf_obs C) = 1 -> (forall o, In o (c_obs C) -> (has d o <-> ~ In o (c_pdf_obs C))) ->
  c_obs C = c_pdf_obs C ++ sorted_cols d /\ (forall x, In x (c_pdf_obs C) -> ~ In x (sorted_cols d)).
Proof.
  intros L1 H. assert (P' := P). destruct P' as (ND&N&NE&EO). destruct (unique_app (c_pdf_obs C) (flat_map snd (c_cond C)) ND) as (r&E).
  assert (U := unique_NoDup (c_pdf_obs C ++ flat_map snd (c_cond C))). rewrite <- EO in E, U. unfold sorted_cols. rewrite E in *.
  destruct (c_pdf_obs C) as [|x [|? ?]]; try discriminate. cbn [app] in *. inversion U as [|? ? NI NR]; subst.
  assert (X : mem String.eqb x (cols d) = false).
  { apply (mem_false _ string_eqb_ok). intros I. apply (H x (or_introl eq_refl)); [exact I|now left]. }
  assert (F : filter (fun o => mem String.eqb o (cols d)) (x :: r) = r).
  { cbn [filter]. rewrite X. apply filter_all. intros o O. apply (mem_In _ string_eqb_ok). apply (H o (or_intror O)). intros [->|[]]. contradiction. }
  rewrite F. split; [reflexivity|]. intros y [<-|[]]. exact NI.
Qed.

Lemma sample_spec inner_draw s limits d n : length (c_pdf_obs C) = 1 -> c_cond C <> [] ->
  (forall o, In o (c_obs C) -> (has d o <-> ~ In o (c_pdf_obs C))) -> has_conditions C d -> n = length (rows d) ->
  (forall i l, of_values (fun v => inner_draw i v l)) -> (forall i v l e, inner_draw i v l = Ok e -> length e = 1) ->
  (map fst limits = c_pdf_obs C \/ map fst limits = c_obs C) ->
  let r := mapM (fun ir => let* e := inner_draw (fst ir) (with_event_clipped C lims d (snd ir) (visible lims s)) (part (c_pdf_obs C) limits) in
                           Ok (e ++ map (fun o => column d o (snd ir)) (sorted_cols d))) (combine (seq 0 n) (rows d)) in
  snd (sample C lims inner_draw s (Some n) limits (Some d)) = (let* l := r in Ok (Dat (c_obs C) l)).
Proof.
  intros L1 NE0 HO HC -> EXT LEN LM r. destruct (conditions_only d L1 HO) as [EC DJ].
  destruct (conditions_sort d NE0 HC) as (S&idx&EI&M&L). assert (P' := P). destruct P' as (ND&N&NE&EO).
  assert (U : NoDup (c_obs C)) by (rewrite EO; apply unique_NoDup).
  unfold sample. rewrite S. cbn [cols rows]. rewrite map_length, Nat.eqb_refl. cbn [negb]. rewrite EI.
  assert (NO : unique (map fst limits ++ sorted_cols d) = c_obs C).
  { destruct LM as [E1|E1]; rewrite E1.
    - rewrite <- EC. apply unique_fix. exact U.
    - apply unique_all_in; [|exact U]. intros x X. apply filter_In in X. tauto. }
  rewrite NO.
  match goal with |- context [map_rows ?F 0 s ?rr] => destruct (map_rows_spec C F
    (fun i row => let* e := inner_draw i (visible lims (assign_row idx row s)) (part (c_pdf_obs C) limits) in Ok (firstn 1 e ++ row)) s) with (l := rr) (i := 0) (s := s) as [A B] end.
  { intros i t row O. cbn [fst snd]. split.
    - intros p Hp. rewrite assign_row_get by (rewrite M; exact N). specialize (L p). unfold observable_of in Hp.
      destruct (lookup String.eqb p (c_cond C)) as [[|? ?]|] eqn:LC, (lookup String.eqb p idx); try contradiction; try discriminate. apply O.
      unfold observable_of. now rewrite LC.
    - rewrite (EXT i (part (c_pdf_obs C) limits) (visible lims (assign_row idx row t)) (visible lims (assign_row idx row s))); [reflexivity|].
      intros p. unfold visible. f_equal. rewrite !assign_row_get by (rewrite M; exact N). specialize (L p).
      destruct (lookup String.eqb p idx) eqn:LI; [reflexivity|]. apply O. unfold observable_of.
      destruct (lookup String.eqb p (c_cond C)) as [[|? ?]|]; try contradiction; reflexivity. }
  { intros p Hp. reflexivity. }
  rewrite map_length, combine_map_r, mapM_map in B. cbn [fst snd] in B.
  assert (R : snd (map_rows (fun i s row => let s := assign_row idx row s in
                  (s, let* e := inner_draw i (visible lims s) (part (c_pdf_obs C) limits) in Ok (firstn 1 e ++ row))) 0 s
                  (map (fun row => map (fun o => column d o row) (sorted_cols d)) (rows d))) = r).
  { cbn zeta. rewrite B. unfold r. apply mapM_ext. intros [i row] _. cbn [fst snd].
    rewrite (EXT i (part (c_pdf_obs C) limits) (visible lims (assign_row idx (map (fun o => column d o row) (sorted_cols d)) s)) (with_event_clipped C lims d row (visible lims s))).
    - destruct (inner_draw _ _ _) as [e|] eqn:D; [|reflexivity]. cbn [bind]. assert (LE := LEN _ _ _ _ D). destruct e as [|? [|? ?]]; try discriminate. reflexivity.
    - destruct (shown_row C lims P d (sorted_cols d) idx row s s M L) as [_ S2]; [intros p Hp; reflexivity|exact S2]. }
  destruct (map_rows _ 0 s _) as [s' [l|e]]; cbn [fst snd] in *; rewrite <- R; [|reflexivity]. cbn [bind].
  assert (W : forallb (fun r0 => Nat.eqb (length r0) (length (c_obs C))) l = true).
  { apply forallb_forall. intros row I. apply Nat.eqb_eq. symmetry in R. unfold r in R. apply mapM_ok in R.
    apply In_nth_error in I. destruct I as (k&K). 
    assert (LK := Forall2_length' _ _ _ R). assert (KL : k < length l) by (apply nth_error_Some; congruence).
    destruct (nth_error (combine (seq 0 (length (rows d))) (rows d)) k) as [[i rw]|] eqn:KE; [|apply nth_error_None in KE; lia].
    assert (F := proj1 (Forall2_nth _ _ _) R). clear R.
    destruct F as [_ F]. specialize (F k (i, rw) row KE K). cbn [fst snd] in F.
    destruct (inner_draw _ _ _) as [e|] eqn:D; [|discriminate]. cbn [bind] in F. injection F as <-. rewrite app_length, map_length, (LEN _ _ _ _ D), EC, app_length, L1. reflexivity. }
  rewrite W. reflexivity.
Qed.
End Evals.
