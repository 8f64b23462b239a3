(** C44, C62, C63: the parameters before, during and after a minimisation; results as context
    managers. *)
From Verif Require Import Base BaseLemmas Param_Model Param_Spec Param_Proofs Param_Proofs2 Param_Proofs3 Mini_Model Mini_Spec Mini_Proofs Mini_Proofs2 Mini_Proofs3.

Section T.
Variable deps : string -> list nat.
Variable loss_params : list nat.
Variable supports : fitres -> bool.
Variable core : list nat -> option fitres -> state -> state * ended.
Variable kept : state -> option fitres.
Hypothesis ND_loss : NoDup loss_params.
Notation RUN := (minimize deps loss_params supports core kept).

(** With updates off, a minimisation that returns leaves every parameter at the value at which it
    was when the minimisation began; limits, names and floating flags are as before. *)
Theorem C44_left st li params init st' left_over r : moves_only_its_own core ->
  proper_result li -> proper_result init -> proper_params params ->
  (forall i, ordered_limits (st_par st i)) -> r_auto_update (st_run st) = false ->
  (forall i, minimised deps loss_params st li params i -> In i loss_params) ->
  RUN st li params init = (st', left_over, Ok r) ->
  left_over = false /\ same_but_values st st' /\
  forall i, exists v, start_value deps loss_params st li params init i v /\
    p_value (st_par st' i) = p_value (with_raw (st_par st i) v).
Proof. intros OWN. apply minimize_left; assumption. Qed.

(** So the values are the ones before the call, for every parameter that has no start value in
    the call. *)
Theorem C44_partial st li params init st' left_over r : moves_only_its_own core ->
  proper_result li -> proper_result init -> proper_params params ->
  (forall i, ordered_limits (st_par st i)) -> r_auto_update (st_run st) = false ->
  (forall i, minimised deps loss_params st li params i -> In i loss_params) ->
  RUN st li params init = (st', left_over, Ok r) ->
  forall i, (forall v, ~ start_given loss_params st params i v) ->
    (forall r v, init_used li init = Some r -> ~ In (i, v) (fr_params r)) ->
    p_value (st_par st' i) = p_value (st_par st i).
Proof.
  intros OWN PL PI PP O U SUB E i N1 N2. destruct (C44_left _ _ _ _ _ _ _ OWN PL PI PP O U SUB E) as (_&_&H).
  destruct (H i) as (v&SV&->). inversion SV as [? G|? r0 _ G _ G'|]; subst.
  - exfalso. exact (N1 _ G).
  - exfalso. exact (N2 _ _ G G').
  - rewrite with_own_raw. reflexivity.
Qed.

(** Restoring never makes a minimisation fail: if the loss's parameters have room between their
    limits, the outcome is that of the minimiser, whether updates are on or off. *)
Theorem C44_same_outcome st li params init : moves_only_its_own core ->
  proper_result li -> proper_result init -> proper_params params ->
  (forall i v, In i loss_params -> start_value deps loss_params st li params init i v -> has_room (with_raw (st_par st i) v)) ->
  snd (RUN st li params init) =
  match check_convert_input deps loss_params st li params init with
  | (_, Err e) => Err e
  | (st1, Ok (ids, ini)) => snd (call_minimize supports core kept st1 ids ini)
  end.
Proof. intros OWN. apply minimize_result; assumption. Qed.

(** With updates on, the parameters are left where the minimiser put them. *)
Theorem C44_updates_on st li params init st' left_over r : proper_result li -> proper_result init -> proper_params params ->
  r_auto_update (st_run st) = true ->
  RUN st li params init = (st', left_over, Ok r) ->
  left_over = false /\ exists ids ini s, fst (core ids ini s) = st' /\ (forall i, In i ids <-> minimised deps loss_params st li params i).
Proof.
  intros PL PI PP U E. unfold minimize in E.
  destruct (check_convert_input deps loss_params st li params init) as [st1 [[ids ini]|e]] eqn:CK; [|discriminate].
  destruct (convert_ok deps loss_params ND_loss _ _ _ _ _ _ _ PL PI PP CK) as (_&B1&_&_&IDS&_).
  assert (C := core_start deps loss_params supports core kept ND_loss _ _ _ _ _ _ _ PL PI PP CK).
  destruct (call_minimize supports core kept st1 ids ini) as [st2 [r2|e]] eqn:CL; [|discriminate].
  assert (U1 : r_auto_update (st_run st1) = true) by (destruct B1 as [_ ->]; exact U). rewrite U1 in E. cbn [negb] in E.
  injection E as <- <- <-. split; [reflexivity|]. destruct ini as [r0|].
  - destruct (forallb _ ids).
    + destruct C as (s&C&_). exists ids, (if supports r0 then Some r0 else None), s. split; [|exact IDS].
      rewrite <- (handle_state kept), <- C. reflexivity.
    + discriminate.
  - exists ids, None, st1. split; [|exact IDS]. rewrite <- (handle_state kept), <- C. reflexivity.
Qed.

(** An exception of the minimiser leaves the parameters where it had put them, and the state of
    the minimisation stays in the minimiser. *)
Theorem C44_exception_refuted st st1 e : r_auto_update (st_run st) = false ->
  filter (fun i => p_floating (st_par st i)) loss_params <> [] ->
  core (filter (fun i => p_floating (st_par st i)) loss_params) None st = (st1, Fails e) ->
  e <> MaximumIterationReached -> (e = FailMinimizeNaN \/ e = RuntimeError -> kept st1 = None) ->
  RUN st None PNone None = (st1, true, Err e).
Proof.
  intros U NE C M K. unfold minimize, check_convert_input.
  change (floating_ids st loss_params) with (filter (fun i => p_floating (st_par st i)) loss_params).
  assert (I : floating_ids st (filter (fun i => p_floating (st_par st i)) loss_params) = filter (fun i => p_floating (st_par st i)) loss_params).
  { unfold floating_ids. clear. induction loss_params as [|i l IH]; [reflexivity|]. cbn. destruct (p_floating (st_par st i)) eqn:F; cbn; [rewrite F; f_equal|]; exact IH. }
  rewrite I. destruct (filter _ loss_params) as [|i0 is0] eqn:FL; [congruence|].
  unfold call_minimize. rewrite C. unfold handle. destruct e; try reflexivity; try congruence; rewrite K by auto; reflexivity.
Qed.

(** Start values stay in the parameters. *)
Theorem C44_start_values_refuted st li params init st' left_over r i v : moves_only_its_own core ->
  proper_result li -> proper_result init -> proper_params params ->
  (forall i, ordered_limits (st_par st i)) -> r_auto_update (st_run st) = false ->
  (forall i, minimised deps loss_params st li params i -> In i loss_params) ->
  (forall v', start_given loss_params st params i v' -> v' = v) -> start_given loss_params st params i v ->
  RUN st li params init = (st', left_over, Ok r) ->
  p_value (st_par st' i) = p_value (with_raw (st_par st i) v).
Proof.
  intros OWN PL PI PP O U SUB UQ G E. destruct (C44_left _ _ _ _ _ _ _ OWN PL PI PP O U SUB E) as (_&_&H).
  destruct (H i) as (w&SV&->). inversion SV as [? G1|? r0 G1|G1]; subst.
  - rewrite (UQ _ G1). reflexivity.
  - exfalso. exact (G1 _ G).
  - exfalso. exact (G1 _ G).
Qed.
(** The values of init stay in the minimised parameters. *)
Theorem C44_init_refuted st params init st' left_over r i v : moves_only_its_own core ->
  proper_result (Some init) -> proper_params params ->
  (forall i, ordered_limits (st_par st i)) -> r_auto_update (st_run st) = false ->
  (forall i, minimised deps loss_params st None params i -> In i loss_params) ->
  (forall v, ~ start_given loss_params st params i v) -> minimised deps loss_params st None params i -> In (i, v) (fr_params init) ->
  RUN st None params (Some init) = (st', left_over, Ok r) ->
  p_value (st_par st' i) = p_value (with_raw (st_par st i) v).
Proof.
  intros OWN PI PP O U SUB NG MI HV E. destruct (C44_left st None params (Some init) st' left_over r OWN Logic.I PI PP O U SUB E) as (_&_&H).
  destruct (H i) as (w&SV&->). inversion SV as [? G1|? r0 G1 G2 _ G3|? G2]; subst.
  - exfalso. exact (NG _ G1).
  - injection G2 as <-. rewrite <- (value_in_In _ _ _ PI G3), (value_in_In _ _ _ PI HV). reflexivity.
  - exfalso. exact (G2 _ _ eq_refl MI HV).
Qed.

(** A parameter whose limits are one point cannot be restored: the minimisation succeeds but
    [minimize] raises. *)
Theorem C44_point_limits_refuted st st1 r i l : moves_only_its_own core ->
  r_auto_update (st_run st) = false ->
  In i loss_params -> p_floating (st_par st i) = true -> p_lower (st_par st i) = Some l -> p_upper (st_par st i) = Some l ->
  p_raw (st_par st i) <> NaN ->
  core (filter (fun i => p_floating (st_par st i)) loss_params) None st = (st1, Done r) ->
  snd (RUN st None PNone None) = Err ValueError.
Proof.
  intros OWN U I F L1 L2 NN C. unfold minimize, check_convert_input.
  assert (I' : floating_ids st (floating_ids st loss_params) = floating_ids st loss_params).
  { unfold floating_ids. clear. induction loss_params as [|j l' IH]; [reflexivity|]. cbn. destruct (p_floating (st_par st j)) eqn:FF; cbn; [rewrite FF; f_equal|]; exact IH. }
  rewrite I'. assert (IN : In i (floating_ids st loss_params)) by (apply floating_ids_In; auto).
  destruct (floating_ids st loss_params) as [|i0 is0] eqn:FL; [contradiction|]. rewrite <- FL in *.
  unfold call_minimize. change (filter (fun i => p_floating (st_par st i)) loss_params) with (floating_ids st loss_params) in C. rewrite C. cbn [handle].
  rewrite U. cbn [negb]. rewrite values_each.
  assert (B : same_but_values st st1) by (destruct (OWN (floating_ids st loss_params) None st) as [B _]; rewrite C in B; exact B).
  assert (X := set_each_refused (fun i => p_value (st_par st i)) (floating_ids st loss_params) st1 i IN).
  rewrite (bv_rejects _ _ _ _ B) in X. specialize (X (point_refused _ l L1 L2 NN)).
  destruct (set_each st1 _ _) as [st3 e]. cbn [snd] in X. subst e. reflexivity.
Qed.
End T.
Print Assumptions C44_left. Print Assumptions C44_partial. Print Assumptions C44_same_outcome. Print Assumptions C44_updates_on.
Print Assumptions C44_exception_refuted. Print Assumptions C44_start_values_refuted. Print Assumptions C44_init_refuted.
Print Assumptions C44_point_limits_refuted.

(** Two parameters, x = 1 and y = 2 within [0, 10], and a third, z, outside of the loss. The
    minimiser puts all it is given to 5. *)
Definition m_par (i : nat) : param :=
  match i with
  | 0 => mkParam "x" (Fin 1) None None true
  | 1 => mkParam "y" (Fin 2) (Some 0%Q) (Some 10%Q) true
  | _ => mkParam "z" (Fin 3) None None true
  end.
Definition m_st (updates : bool) : state := mkState m_par (mkRun GAuto default_jit false true false updates) (fun _ => None).
Definition m_core (e : option error) (ids : list nat) (_ : option fitres) (st : state) : state * ended :=
  (assign_each st ids (map (fun _ => Fin 5) ids),
   match e with None => Done (FitRes (map (fun i => (i, Fin 5)) ids)) | Some e => Fails e end).
Definition m_run (updates : bool) (e : option error) params init :=
  minimize (fun _ => []) [0; 1] (fun _ => true) (m_core e) (fun _ => None) (m_st updates) None params init.
Definition m_values (x : state * bool * result (option fitres)) : list num :=
  map (fun i => p_value (st_par (fst (fst x)) i)) [0; 1; 2].

Example C44_case_own e : moves_only_its_own (m_core e).
Proof.
  intros ids ini st. split; [apply assign_each_bv|]. intros i N. cbn.
  assert (O : forall l vs s, (forall j, In j l -> In j ids) -> st_par (assign_each s l vs) i = st_par s i).
  { induction l as [|j l IH]; intros [|v vs] s I; try reflexivity. cbn [assign_each]. rewrite IH by (intros k K; apply I; right; exact K).
    unfold assign, set_par. cbn [st_par]. apply upd_other. intros ->. apply N, I. left. reflexivity. }
  apply O. auto.
Qed.
Example C44_case_ordered u i : ordered_limits (st_par (m_st u) i).
Proof. destruct i as [|[|i]]; cbn; intros l h A B; try discriminate. injection A as <-. injection B as <-. discriminate. Qed.
Example C44_case_off : m_values (m_run false None PNone None) = [Fin 1; Fin 2; Fin 3] /\
  snd (m_run false None PNone None) = Ok (Some (FitRes [(0, Fin 5); (1, Fin 5)])).
Proof. split; reflexivity. Qed.
Example C44_case_on : m_values (m_run true None PNone None) = [Fin 5; Fin 5; Fin 3].
Proof. reflexivity. Qed.
(** The minimiser fails: x and y stay at 5. *)
Example C44_case_exception : m_values (m_run false (Some KeyError) PNone None) = [Fin 5; Fin 5; Fin 3] /\
  snd (fst (m_run false (Some KeyError) PNone None)) = true.
Proof. split; reflexivity. Qed.
(** The start value 4 of x stays; y is restored. *)
Example C44_case_start : m_values (m_run false None (PMap [(OIndep 0, Some (Fin 4)); (OIndep 1, None)]) None) = [Fin 4; Fin 2; Fin 3].
Proof. reflexivity. Qed.
Example C44_case_init : m_values (m_run false None PNone (Some (FitRes [(0, Fin 7); (1, Fin 8)]))) = [Fin 7; Fin 8; Fin 3].
Proof. reflexivity. Qed.
(** Arguments that are refused leave no state behind. *)
Example C44_case_refused : snd (m_run false None (PVals [None]) None) = Err ValueError /\ snd (fst (m_run false None (PVals [None]) None)) = false.
Proof. split; reflexivity. Qed.
(** A parameter that is minimised but does not belong to the loss is not restored. *)
Theorem C44_other_parameters_refuted :
  snd (m_run false None (PParams [OIndep 0; OIndep 2]) None) = Ok (Some (FitRes [(0, Fin 5); (2, Fin 5)])) /\
  m_values (m_run false None (PParams [OIndep 0; OIndep 2]) None) = [Fin 1; Fin 2; Fin 5].
Proof. split; reflexivity. Qed.
(** A minimisation that reaches the maximum number of iterations by an exception returns None. *)
Theorem C44_no_result_refuted : snd (m_run true (Some MaximumIterationReached) PNone None) = Ok None.
Proof. reflexivity. Qed.
Print Assumptions C44_other_parameters_refuted.

(** ** C63: where a minimisation starts *)

(** A minimiser that only reports the values that it finds. *)
Definition observer (ids : list nat) (_ : option fitres) (st : state) : state * ended :=
  (st, Done (FitRes (map (fun i => (i, p_value (st_par st i))) ids))).

Section S.
Variable deps : string -> list nat.
Variable loss_params : list nat.
Variable supports : fitres -> bool.
Variable kept : state -> option fitres.
Hypothesis ND_loss : NoDup loss_params.
Notation SEEN := (minimize deps loss_params supports observer kept).

Lemma seen_inv st li params init st' left_over l : proper_result li -> proper_result init -> proper_params params ->
  SEEN st li params init = (st', left_over, Ok (Some (FitRes l))) ->
  exists st1 ids ini s, check_convert_input deps loss_params st li params init = (st1, Ok (ids, ini)) /\
    l = map (fun i => (i, p_value (st_par s i))) ids /\
    match ini with
    | None => s = st1
    | Some r => incl ids (map fst (fr_params r)) /\
        forall i v, In i ids -> In (i, v) (fr_params r) -> st_par s i = with_raw (st_par st i) v
    end.
Proof.
  intros PL PI PP E. unfold minimize in E.
  destruct (check_convert_input deps loss_params st li params init) as [st1 [[ids ini]|e]] eqn:CK; [|discriminate].
  assert (C := core_start deps loss_params supports observer kept ND_loss _ _ _ _ _ _ _ PL PI PP CK).
  destruct (call_minimize supports observer kept st1 ids ini) as [st2 [r2|e]] eqn:CL; [|discriminate].
  assert (R : r2 = Some (FitRes l)).
  { destruct (negb (r_auto_update (st_run st1))); [|congruence]. destruct (set_values _ _ _ _) as [st3 [e|]]; congruence. }
  subst r2. exists st1, ids, ini. destruct ini as [r|].
  - destruct (forallb _ ids) eqn:A; [|discriminate]. destruct C as (s&C&V). injection C as _ C. exists s. split; [reflexivity|]. split; [exact C|].
    split; [|exact V]. intros i I. rewrite forallb_forall in A. apply (mem_In _ nat_eqb_ok), A, I.
  - injection C as _ C. exists st1. auto.
Qed.

(** The minimised parameters are the floating ones of those asked for. If there are start values
    or an init, but not both, the minimiser finds each parameter at its start value, else at that
    of init, else at its current value (within its limits). *)
Theorem C63_start_partial st li params init st' left_over l : proper_result li -> proper_result init -> proper_params params ->
  (init_used li init = None \/ forall i v, ~ start_given loss_params st params i v) ->
  SEEN st li params init = (st', left_over, Ok (Some (FitRes l))) ->
  (forall i, In i (map fst l) <-> minimised deps loss_params st li params i) /\
  forall i x, In (i, x) l -> exists v, start_value deps loss_params st li params init i v /\ x = p_value (with_raw (st_par st i) v).
Proof.
  intros PL PI PP ONE E. destruct (seen_inv _ _ _ _ _ _ _ PL PI PP E) as (st1&ids&ini&s&CK&->&C).
  destruct (convert_ok deps loss_params ND_loss _ _ _ _ _ _ _ PL PI PP CK) as (EI&B1&ND&_&IDS&START).
  split.
  - intros i. rewrite map_map. cbn [fst]. rewrite map_id. apply IDS.
  - intros i x H. apply in_map_iff in H. destruct H as (j&[= -> <-]&H). destruct ini as [r|].
    + destruct C as [INC V]. destruct ONE as [ONE|ONE]; [congruence|].
      destruct (in_map_iff fst (fr_params r) i) as [K _]. destruct (K (INC i H)) as ([j v]&EJ&HV). cbn in EJ. subst j.
      exists v. split; [|rewrite (V i v H HV); reflexivity].
      apply (start_is_init _ _ _ _ _ _ _ v r); [apply ONE|symmetry; exact EI|apply IDS; exact H|exact HV].
    + subst s. destruct (START i) as (v&SV&->). exists v. auto.
Qed.

(** With an init its values win over the start values, though the start values were set. *)
Theorem C63_init_wins_refuted st li params init r st' left_over l : proper_result li -> proper_result init -> proper_params params ->
  init_used li init = Some r ->
  SEEN st li params init = (st', left_over, Ok (Some (FitRes l))) ->
  forall i x, In (i, x) l -> exists v, In (i, v) (fr_params r) /\ x = p_value (with_raw (st_par st i) v).
Proof.
  intros PL PI PP IU E i x H. destruct (seen_inv _ _ _ _ _ _ _ PL PI PP E) as (st1&ids&ini&s&CK&->&C).
  destruct (convert_ok deps loss_params ND_loss _ _ _ _ _ _ _ PL PI PP CK) as (EI&_).
  assert (IR : ini = Some r) by congruence. clear EI. subst ini. destruct C as [INC V].
  apply in_map_iff in H. destruct H as (j&[= -> <-]&H).
  destruct (in_map_iff fst (fr_params r) i) as [K _]. destruct (K (INC i H)) as ([j v]&EJ&HV). cbn in EJ. subst j.
  exists v. split; [exact HV|]. rewrite (V i v H HV). reflexivity.
Qed.
End S.

(** If a minimised parameter is not in init, no minimiser gives a result. *)
Theorem C63_missing_refuted deps loss_params supports core kept st li params init r i : NoDup loss_params ->
  proper_result li -> proper_result init -> proper_params params ->
  init_used li init = Some r -> minimised deps loss_params st li params i -> (forall v, ~ In (i, v) (fr_params r)) ->
  forall res, snd (minimize deps loss_params supports core kept st li params init) <> Ok res.
Proof.
  intros ND_loss PL PI PP IU MI MISS res E. unfold minimize in E.
  destruct (check_convert_input deps loss_params st li params init) as [st1 [[ids ini]|e]] eqn:CK; [|discriminate].
  destruct (convert_ok deps loss_params ND_loss _ _ _ _ _ _ _ PL PI PP CK) as (EI&_&_&_&IDS&_).
  assert (C := core_start deps loss_params supports core kept ND_loss _ _ _ _ _ _ _ PL PI PP CK).
  assert (IR : ini = Some r) by congruence. clear EI. subst ini.
  assert (forallb (fun i => mem Nat.eqb i (map fst (fr_params r))) ids = false) as F.
  { destruct (forallb _ ids) eqn:A; [|reflexivity]. exfalso. rewrite forallb_forall in A. apply IDS in MI. specialize (A i MI).
    apply mem_keys in A. destruct A as [v A]. exact (MISS v A). }
  rewrite F in C. rewrite C in E. discriminate.
Qed.
Print Assumptions C63_start_partial. Print Assumptions C63_init_wins_refuted. Print Assumptions C63_missing_refuted.

Definition seen params init := snd (minimize (fun s => if String.eqb s "sum" then [0; 1] else []) [0; 1] (fun _ => false) observer (fun _ => None) (m_st true) None params init).
Example C63_case_start : seen (PMap [(OIndep 0, Some (Fin 4)); (OIndep 1, None)]) None = Ok (Some (FitRes [(0, Fin 4); (1, Fin 2)])).
Proof. reflexivity. Qed.
Example C63_case_values : seen (PVals [Some (Fin 4); Some (Fin 12)]) None = Ok (Some (FitRes [(0, Fin 4); (1, Fin 10)])).
Proof. reflexivity. Qed.
Example C63_case_init : seen (PParams [ODep "sum"]) (Some (FitRes [(0, Fin 6); (1, Fin 7); (9, Fin 0)])) = Ok (Some (FitRes [(0, Fin 6); (1, Fin 7)])).
Proof. reflexivity. Qed.
(** The start value 4 for x is given, but init has 6. *)
Example C63_case_both : seen (PMap [(OIndep 0, Some (Fin 4))]) (Some (FitRes [(0, Fin 6)])) = Ok (Some (FitRes [(0, Fin 6)])).
Proof. reflexivity. Qed.
Example C63_case_missing : seen PNone (Some (FitRes [(0, Fin 6)])) = Err ValueError.
Proof. reflexivity. Qed.
Example C63_case_length : seen (PVals [Some (Fin 4)]) None = Err ValueError.
Proof. reflexivity. Qed.

(** ** C62: results as context managers *)

(** A block [with result: ...] around any statements that keep the limits and whose results have
    acceptable values: inside, the parameters have the values of the result; afterwards, whether
    the block ended by an exception or not, they have the values from before. The error is that
    of the statements, and the result can be used again. *)
Theorem C62_block_partial results st ss k body :
  (forall k, NoDup (map fst (fr_params (results k)))) ->
  keeps_limits body -> blocks_accepted results st (RWith k body) ->
  (forall i, In i (map fst (fr_params (results k))) -> has_room (st_par st i)) ->
  exists inside at_end e,
    (forall i v, In (i, v) (fr_params (results k)) -> st_par (fst inside) i = with_raw (st_par st i) v) /\
    (forall i, ~ In i (map fst (fr_params (results k))) -> st_par (fst inside) i = st_par st i) /\
    rexec results body inside = (at_end, e) /\
    snd (rexec results (RWith k body) (st, ss)) = e /\
    (forall j, snd (fst (rexec results (RWith k body) (st, ss))) j = ss j) /\
    (forall i, In i (map fst (fr_params (results k))) ->
       p_value (st_par (fst (fst (rexec results (RWith k body) (st, ss)))) i) = p_value (st_par st i)) /\
    (forall i, ~ In i (map fst (fr_params (results k))) ->
       st_par (fst (fst (rexec results (RWith k body) (st, ss)))) i = st_par (fst at_end) i).
Proof. intros P. apply block. exact P. Qed.

(** A program that changes values only inside such blocks, nested and sequenced in any way and
    however its parts end, changes nothing. *)
Theorem C62_nested_partial results p st ss :
  (forall k, NoDup (map fst (fr_params (results k)))) ->
  scoped results [] p -> blocks_accepted results st p -> (forall i, has_room (st_par st i)) ->
  (forall i, p_value (st_par (fst (fst (rexec results p (st, ss)))) i) = p_value (st_par st i)) /\
  (forall j, snd (fst (rexec results p (st, ss))) j = ss j).
Proof.
  intros P SC A R. split.
  - intros i. apply (scoped_ok results P p [] st ss SC A R). intros [].
  - apply (balanced results P p st ss (scoped_keeps results p [] SC) A).
Qed.
Print Assumptions C62_block_partial. Print Assumptions C62_nested_partial.

Definition r_results (k : nat) : fitres :=
  match k with
  | 0 => FitRes [(0, Fin 5); (1, Fin 6)]
  | 1 => FitRes [(1, Fin 3)]
  | _ => FitRes [(0, Fin 9); (1, Fin 20)]
  end.
(** with r0: (x.set_value(8); try: with r1: raise KeyError; except: pass; with r1: raise) *)
Definition r_prog : rprog :=
  RWith 0 (RSeq (RSet 0 (Fin 8)) (RSeq (RTry (RWith 1 (RRaise KeyError)) RSkip) (RWith 1 (RRaise TypeError)))).
Definition r_values (p : rprog) : list num := map (fun i => p_value (st_par (fst (fst (rexec r_results p (m_st true, fun _ => [])))) i)) [0; 1].
Example C62_case_hyps : scoped r_results [] r_prog /\ blocks_accepted r_results (m_st true) r_prog /\ (forall i, has_room (st_par (m_st true) i)).
Proof.
  split; [cbn; auto|]. split.
  - cbn. repeat split; intros i v; cbn; intros H; repeat (destruct H as [H|H]; [injection H as <- <-; reflexivity|]); contradiction.
  - intros [|[|i]]; cbn; (split; [intros l u A B; try discriminate|intros _; split; discriminate]). injection A as <-. injection B as <-. reflexivity.
Qed.
Example C62_case_values : r_values r_prog = [Fin 1; Fin 2] /\ snd (rexec r_results r_prog (m_st true, fun _ => [])) = Some TypeError.
Proof. split; reflexivity. Qed.
Example C62_case_inside : r_values (RUpdate 0) = [Fin 5; Fin 6].
Proof. reflexivity. Qed.

(** A result whose second value is refused: the block is not entered, but the first parameter
    keeps the value of the result, and the values from before stay on the stack. *)
Theorem C62_refused_entry_refuted body :
  r_values (RWith 2 body) = [Fin 9; Fin 2] /\
  snd (rexec r_results (RWith 2 body) (m_st true, fun _ => [])) = Some ValueError /\
  snd (fst (rexec r_results (RWith 2 body) (m_st true, fun _ => []))) 2 = [[Fin 1; Fin 2]].
Proof. repeat split; reflexivity. Qed.
(** So a failed inner use of the same result makes the outer block restore other values. Here the
    limits are changed for a while inside of the block: y = 2 before and 4 after. *)
Theorem C62_stale_values_refuted :
  let body := RSeq (RLimits 1 (Some 0%Q) (Some 4%Q)) (RSeq (RTry (RWith 0 RSkip) RSkip) (RLimits 1 (Some 0%Q) (Some 10%Q))) in
  r_values (RWith 0 body) = [Fin 5; Fin 4] /\ snd (rexec r_results (RWith 0 body) (m_st true, fun _ => [])) = None.
Proof. split; reflexivity. Qed.
Print Assumptions C62_refused_entry_refuted. Print Assumptions C62_stale_values_refuted.
