From Verif Require Import Base BaseLemmas Param_Model Param_Spec Param_Proofs Param_Proofs2 Param_Proofs3 Mini_Model Mini_Spec Mini_Proofs.

Lemma set_each_done f ids : forall st st', set_each st ids (map f ids) = (st', None) ->
  forall j, st_par st' j = if mem Nat.eqb j ids then with_raw (st_par st j) (f j) else st_par st j.
Proof.
  induction ids as [|i ids IH]; intros st st' H j; cbn [map set_each] in H; [injection H as <-; reflexivity|].
  destruct (set_value_cases st i (f i)) as [[_ E]|[_ E]]; rewrite E in H; [discriminate|].
  rewrite (IH _ _ H j). unfold assign, set_par. cbn [st_par]. cbn [mem existsb]. destruct (Nat.eqb j i) eqn:EQ; cbn [orb].
  - apply Nat.eqb_eq in EQ. subst. rewrite upd_same. match goal with |- (if ?c then _ else _) = _ => destruct c; reflexivity end.
  - apply Nat.eqb_neq in EQ. rewrite upd_other by exact EQ. reflexivity.
Qed.
Lemma set_each_bv ids : forall vs st st' e, set_each st ids vs = (st', e) -> same_but_values st st'.
Proof.
  induction ids as [|i ids IH]; intros [|v vs] st st' e H; cbn [set_each] in H; try (injection H as <- _; apply same_bv_refl).
  destruct (set_value_cases st i v) as [[_ E]|[_ E]]; rewrite E in H; [injection H as <- _; apply same_bv_refl|].
  eapply same_bv_trans; [|eapply IH; exact H]. exact (assign_each_bv [i] [v] st).
Qed.
Lemma bv_rejects a b i v : same_but_values a b -> rejects (st_par b i) v = rejects (st_par a i) v.
Proof. intros [H _]. destruct (H i) as (_&L&U&_). apply rejects_same; assumption. Qed.
Lemma bv_room a b i v : same_but_values a b -> p_value (st_par b i) = p_value (st_par a i) -> has_room (st_par a i) ->
  v = p_value (st_par a i) -> rejects (st_par b i) v = false.
Proof. intros B _ R ->. rewrite (bv_rejects _ _ _ _ B). apply restorable, R. Qed.
Lemma bv_value a b i v : same_but_values a b -> p_value (with_raw (st_par b i) v) = p_value (with_raw (st_par a i) v).
Proof. intros [H _]. destruct (H i) as (_&L&U&_). apply value_same; [exact L|exact U|reflexivity]. Qed.

Lemma values_each st ids f : set_values st (map OIndep ids) (VSeq (map f ids)) false = set_each st ids (map f ids).
Proof. unfold set_values. rewrite convert_seq by apply map_length. reflexivity. Qed.

Section M.
Variable deps : string -> list nat.
Variable loss_params : list nat.
Variable supports : fitres -> bool.
Variable core : list nat -> option fitres -> state -> state * ended.
Variable kept : state -> option fitres.
Hypothesis ND_loss : NoDup loss_params.
Hypothesis OWN : moves_only_its_own core.
Notation CALL := (call_minimize supports core kept).
Notation RUN := (minimize deps loss_params supports core kept).
Notation CHECK := (check_convert_input deps loss_params).

Lemma handle_state x : fst (handle kept x) = fst x.
Proof. destruct x as [st [r|[]]]; cbn; try reflexivity; destruct (kept st); reflexivity. Qed.

Lemma call_bv st ids init : same_but_values st (fst (CALL st ids init)) /\
  (forall i, ~ In i ids -> st_par (fst (CALL st ids init)) i = st_par st i).
Proof.
  unfold call_minimize. destruct init as [r|].
  - unfold assign_values. rewrite convert_result_spec. destruct (forallb _ ids).
    + rewrite handle_state. destruct (OWN ids (if supports r then Some r else None) (assign_each st ids (map (value_in (fr_params r)) ids))) as [A B].
      split; [eapply same_bv_trans; [apply assign_each_bv|exact A]|]. intros i N. rewrite (B i N).
      assert (O : forall l vs s, (forall j, In j l -> In j ids) -> st_par (assign_each s l vs) i = st_par s i).
      { induction l as [|j l IH]; intros [|v vs] s I; try reflexivity. cbn [assign_each]. rewrite IH by (intros k K; apply I; right; exact K).
        unfold assign, set_par. cbn [st_par]. apply upd_other. intros ->. apply N, I. left. reflexivity. }
      apply O. auto.
    + split; [apply same_bv_refl|reflexivity].
  - rewrite handle_state. apply OWN.
Qed.

Lemma minimize_unfold st li params init st1 ids ini st2 r : CHECK st li params init = (st1, Ok (ids, ini)) ->
  CALL st1 ids ini = (st2, Ok r) -> r_auto_update (st_run st1) = false ->
  RUN st li params init =
  match set_each st2 (floating_ids st1 loss_params) (map (fun i => p_value (st_par st1 i)) (floating_ids st1 loss_params)) with
  | (st3, Some e) => (st3, true, Err e)
  | (st3, None) => (st3, false, Ok r)
  end.
Proof. intros E1 E2 U. unfold minimize. rewrite E1, E2, U. cbn [negb]. rewrite values_each. reflexivity. Qed.

Lemma minimize_left st li params init st' flag r :
  proper_result li -> proper_result init -> proper_params params ->
  (forall i, ordered_limits (st_par st i)) ->
  r_auto_update (st_run st) = false ->
  (forall i, minimised deps loss_params st li params i -> In i loss_params) ->
  RUN st li params init = (st', flag, Ok r) ->
  flag = false /\ same_but_values st st' /\
  forall i, exists v, start_value deps loss_params st li params init i v /\ p_value (st_par st' i) = p_value (with_raw (st_par st i) v).
Proof.
  intros PL PI PP ORD U SUB E. unfold minimize in E.
  destruct (CHECK st li params init) as [st1 [[ids ini]|e]] eqn:CK; [|discriminate].
  destruct (convert_ok deps loss_params ND_loss _ _ _ _ _ _ _ PL PI PP CK) as (_&B1&ND&_&IDS&START).
  destruct (call_bv st1 ids ini) as [B2 KEEP].
  destruct (CALL st1 ids ini) as [st2 [r2|e]] eqn:CL; [|discriminate]. cbn [fst] in B2, KEEP.
  assert (U1 : r_auto_update (st_run st1) = false) by (destruct B1 as [_ ->]; exact U).
  rewrite U1 in E. cbn [negb] in E. rewrite values_each in E.
  destruct (set_each st2 _ _) as [st3 [e|]] eqn:SE; [discriminate|]. injection E as <- <- <-.
  split; [reflexivity|].
  assert (B3 := set_each_bv _ _ _ _ _ SE). split; [eapply same_bv_trans; [exact B1|eapply same_bv_trans; [exact B2|exact B3]]|].
  intros i. destruct (START i) as (v&SV&P1). exists v. split; [exact SV|]. rewrite <- P1.
  rewrite (set_each_done _ _ _ _ SE i). destruct (mem Nat.eqb i (floating_ids st1 loss_params)) eqn:M.
  - rewrite (bv_value st1 st2 i _ B2). apply value_idem. intros l u. destruct B1 as [B1 _]. destruct (B1 i) as (_&->&->&_). apply ORD.
  - f_equal. apply KEEP. intros H. apply (mem_false _ nat_eqb_ok) in M. apply M. apply floating_ids_In. split; [apply SUB, IDS, H|].
    apply IDS in H. destruct H as [H _]. destruct B1 as [B1 _]. destruct (B1 i) as (_&_&_&->). exact H.
Qed.

Lemma minimize_result st li params init : proper_result li -> proper_result init -> proper_params params ->
  (forall i v, In i loss_params -> start_value deps loss_params st li params init i v -> has_room (with_raw (st_par st i) v)) ->
  snd (RUN st li params init) =
  match CHECK st li params init with
  | (_, Err e) => Err e
  | (st1, Ok (ids, ini)) => snd (CALL st1 ids ini)
  end.
Proof.
  intros PL PI PP ROOM. unfold minimize.
  destruct (CHECK st li params init) as [st1 [[ids ini]|e]] eqn:CK; [|reflexivity].
  destruct (convert_ok deps loss_params ND_loss _ _ _ _ _ _ _ PL PI PP CK) as (_&B1&_&_&_&START).
  destruct (call_bv st1 ids ini) as [B2 _].
  destruct (CALL st1 ids ini) as [st2 [r|e]]; [|reflexivity]. cbn [fst] in B2.
  destruct (negb (r_auto_update (st_run st1))); [|reflexivity]. rewrite values_each.
  destruct (set_each_map (fun i => p_value (st_par st1 i)) (floating_ids st1 loss_params) st2) as (st3&->&_); [|reflexivity].
  intros i H. rewrite (bv_rejects st1 st2 i _ B2). apply restorable. apply floating_ids_In in H. destruct H as [H _].
  destruct (START i) as (v&SV&->). exact (ROOM i v H SV).
Qed.

(** Where the core starts *)
Lemma core_start st li params init st1 ids ini : proper_result li -> proper_result init -> proper_params params ->
  CHECK st li params init = (st1, Ok (ids, ini)) ->
  match ini with
  | None => CALL st1 ids ini = handle kept (core ids None st1)
  | Some r =>
      if forallb (fun i => mem Nat.eqb i (map fst (fr_params r))) ids then
        exists s, CALL st1 ids ini = handle kept (core ids (if supports r then Some r else None) s) /\
          (forall i v, In i ids -> In (i, v) (fr_params r) -> st_par s i = with_raw (st_par st i) v)
      else CALL st1 ids ini = (st1, Err ValueError)
  end.
Proof.
  intros PL PI PP CK. destruct (convert_ok deps loss_params ND_loss _ _ _ _ _ _ _ PL PI PP CK) as (EI&B1&ND&_&_&START).
  destruct ini as [r|]; [|reflexivity]. unfold call_minimize, assign_values. rewrite convert_result_spec.
  destruct (forallb _ ids) eqn:A; [|reflexivity]. eexists. split; [reflexivity|]. intros i v I HV.
  assert (NDR : NoDup (map fst (fr_params r))).
  { unfold init_used in EI. destruct li as [r0|]; [injection EI as <-; exact PL|subst init; exact PI]. }
  rewrite assign_each_par by (try apply map_length; exact ND). rewrite lookup_map_pairs.
  apply (mem_In _ nat_eqb_ok) in I. rewrite I, (value_in_In _ _ _ NDR HV). destruct (START i) as (w&_&->). reflexivity.
Qed.
End M.

Lemma set_each_refused f ids : forall st i, In i ids -> rejects (st_par st i) (f i) = true ->
  snd (set_each st ids (map f ids)) = Some ValueError.
Proof.
  induction ids as [|j ids IH]; intros st i I R; [contradiction|]. cbn [map set_each].
  destruct (set_value_cases st j (f j)) as [[_ E]|[RJ E]]; rewrite E; [reflexivity|].
  destruct I as [->|I]; [congruence|]. apply (IH _ i I). unfold assign, set_par. cbn [st_par].
  destruct (Nat.eq_dec i j) as [->|N]; [congruence|]. rewrite upd_other by exact N. exact R.
Qed.
Lemma point_refused p l : p_lower p = Some l -> p_upper p = Some l -> p_raw p <> NaN -> rejects p (p_value p) = true.
Proof.
  intros L U N. assert (O : ordered_limits p) by (intros x y X Y; rewrite X in L; rewrite Y in U; injection L as ->; injection U as ->; apply Qle_refl).
  assert (V : exists q, p_value p = Fin q /\ (q == l)%Q).
  { destruct (value_in_limits p O N) as [A B]. specialize (A l L). specialize (B l U).
    inversion A as [x y H E1 E2| |]; subst.
    - rewrite <- E2 in B. inversion B; subst. exists y. split; [reflexivity|apply Qle_antisym; assumption].
    - rewrite <- H1 in B. inversion B. }
  destruct V as (q&->&E). apply (rejects_fin p q O). 
  exists 0%Q. split; [|left; exists l; split; [exact L|rewrite E; apply Qle_lteq; right; ring]].
  unfold tolerance. rewrite L, U. cbv zeta. split; intros H.
  - ring.
  - exfalso. assert (X : ((1 # 100000) * (l - l) == 0)%Q) by ring. rewrite X in H. revert H. apply Qlt_not_le. reflexivity.
Qed.
