From Verif Require Import Base Param_Model LEval_Model LEval_Spec.

Section P.
Variable S : settings.
Hypothesis NP : s_print S = false.

Definition old_flags (n : nat) : list bool :=
  match n with 0 => [] | Datatypes.S k => repeat true k ++ [false] end.

Record inv (hist : list request) (st : ev) : Prop := Inv {
  i_ign : e_ignoring st = Nat.ltb 0 (inside hist);
  i_old : e_old st = old_flags (inside hist);
  i_count : exceeded (s_maxiter S) hist = false ->
            e_nfunc st = asked Func hist /\ e_ngrad st = asked Grad hist /\ e_nhess st = asked Hess hist;
  i_over : forall n, s_maxiter S = Some n -> exceeded (s_maxiter S) hist = true -> n < niter st;
  i_nan : e_nan st = streak (events (s_maxiter S) hist);
  i_val : e_last_value st = last_value (events (s_maxiter S) hist);
  i_grad : e_last_grad st = last_gradient (events (s_maxiter S) hist) }.

Lemma inv_start : inv [] start.
Proof. split; try reflexivity; [intros _; repeat split|]. intros n _ H. unfold exceeded in H. destruct (s_maxiter S); discriminate. Qed.

Lemma exceeded_iff n hist : exceeded (Some n) hist = true <-> n < Nat.max (asked Func hist) (Nat.max (asked Grad hist) (asked Hess hist)).
Proof.
  unfold exceeded. cbn [existsb]. rewrite !orb_true_iff, !Nat.ltb_lt. split; [intros [H|[H|[H|H]]]; try discriminate; lia|].
  intros H. lia.
Qed.
Lemma asked_mono k r hist : asked k hist <= asked k (r :: hist).
Proof. cbn. lia. Qed.
Lemma exceeded_mono m r hist : exceeded m hist = true -> exceeded m (r :: hist) = true.
Proof.
  destruct m as [n|]; [|discriminate]. rewrite !exceeded_iff. intros H.
  assert (H1 := asked_mono Func r hist). assert (H2 := asked_mono Grad r hist). assert (H3 := asked_mono Hess r hist). lia.
Qed.

Lemma same_asked k r hist : asks k r = false -> asked k (r :: hist) = asked k hist.
Proof. intros H. cbn. rewrite H. cbn. lia. Qed.
Lemma quiet_exceeded m r hist : evaluates r = false -> exceeded m (r :: hist) = exceeded m hist.
Proof.
  unfold evaluates. rewrite !orb_false_iff. intros [[H1 H2] H3]. unfold exceeded. destruct m; [|reflexivity].
  cbn [existsb]. rewrite !same_asked by assumption. reflexivity.
Qed.

(** The counting. *)
Definition same_rest (st st' : ev) : Prop :=
  e_ignoring st' = e_ignoring st /\ e_old st' = e_old st /\ e_last_value st' = e_last_value st /\
  e_last_grad st' = e_last_grad st /\ e_nan st' = e_nan st /\ e_at st' = e_at st.
Lemma bump_rest k st : same_rest st (bump k st).
Proof. destruct k; repeat split. Qed.

Lemma count_rest ks st : same_rest st (fst (count S ks st)).
Proof.
  revert st. induction ks as [|k ks IH]; intros st; [repeat split|]. cbn.
  destruct (e_ignoring st) eqn:E; [repeat split; exact E|].
  destruct (maxiter_reached S (bump k st)); cbn [fst].
  - apply bump_rest.
  - destruct (IH (bump k st)) as (A&B&C&D&F&G), (bump_rest k st) as (A'&B'&C'&D'&F'&G').
    repeat split; congruence.
Qed.

Definition kinds_of (r : request) : list kind := filter (fun k => asks k r) [Func; Grad; Hess].

Lemma count_spec hist st r : inv hist st -> evaluates r = true ->
  let (st', over) := count S (kinds_of r) st in
  over = refused (s_maxiter S) hist r /\
  (exceeded (s_maxiter S) (r :: hist) = false ->
     e_nfunc st' = asked Func (r :: hist) /\ e_ngrad st' = asked Grad (r :: hist) /\ e_nhess st' = asked Hess (r :: hist)) /\
  (forall n, s_maxiter S = Some n -> exceeded (s_maxiter S) (r :: hist) = true -> n < niter st').
Proof.
  intros [IG IO IC IV _ _ _] EV. unfold refused.
  destruct (Nat.eq_dec (inside hist) 0) as [Z|Z].
  2:{ (* in a block *)
    assert (EI : e_ignoring st = true) by (rewrite IG; apply Nat.ltb_lt; lia).
    assert (AS : forall k, asked k (r :: hist) = asked k hist).
    { intros k. cbn. destruct (Nat.eqb_spec (inside hist) 0); [contradiction|]. rewrite andb_false_r. lia. }
    assert (EX : exceeded (s_maxiter S) (r :: hist) = exceeded (s_maxiter S) hist).
    { unfold exceeded. destruct (s_maxiter S); [|reflexivity]. cbn [existsb]. rewrite !AS. reflexivity. }
    assert (C : count S (kinds_of r) st = (st, false)).
    { destruct (kinds_of r) as [|k ks]; [reflexivity|]. cbn. rewrite EI. reflexivity. }
    rewrite C, EX, !AS. destruct (Nat.eqb_spec (inside hist) 0); [contradiction|]. split; [reflexivity|]. split; assumption. }
  rewrite Z in IG. cbn in IG. rewrite Z. cbn [Nat.eqb andb].
  assert (AS : forall k, asked k (r :: hist) = asked k hist + (if asks k r then 1 else 0)).
  { intros k. cbn. rewrite Z, andb_true_r. reflexivity. }
  unfold maxiter_reached in *.
  destruct (s_maxiter S) as [n|] eqn:EM.
  - destruct (exceeded (Some n) hist) eqn:EX.
    + (* already beyond *)
      specialize (IV n eq_refl eq_refl). rewrite (exceeded_mono _ r _ EX).
      unfold kinds_of. destruct r; try discriminate EV; cbn [filter asks count]; rewrite IG; unfold maxiter_reached; rewrite EM;
        cbn [e_ignoring bump]; rewrite IG; cbn [negb andb];
        (match goal with |- context [Nat.ltb n (niter ?s)] =>
           assert (L : n < niter s) by (unfold niter in *; cbn [e_nfunc e_ngrad e_nhess bump] in *; lia);
           pose proof (proj2 (Nat.ltb_lt _ _) L) as L'; rewrite L' end);
        (split; [reflexivity|split; [discriminate|intros n' E _; injection E as <-; exact L]]).
    + destruct (IC eq_refl) as (C1&C2&C3).
      assert (NX : ~ n < Nat.max (asked Func hist) (Nat.max (asked Grad hist) (asked Hess hist))).
      { rewrite <- exceeded_iff. rewrite EX. discriminate. }
      assert (XI := exceeded_iff n (r :: hist)). rewrite !AS in *.
      unfold kinds_of. destruct r; try discriminate EV; cbn [filter asks count] in *; rewrite IG; unfold maxiter_reached; rewrite EM;
        cbn [e_ignoring bump]; rewrite IG; cbn [negb andb]; unfold niter; cbn [e_nfunc e_ngrad e_nhess bump];
        rewrite C1, C2, C3;
        repeat match goal with |- context [if Nat.ltb ?a ?b then _ else _] => destruct (Nat.ltb_spec a b) end;
        cbn [e_nfunc e_ngrad e_nhess e_ignoring bump];
        destruct (exceeded (Some n) (_ :: hist)) eqn:EX2;
        try (exfalso; destruct XI as [X1 X2]; first [specialize (X1 eq_refl); lia | (assert (false = true) by (apply X2; lia); discriminate)]);
        (split; [reflexivity|split; [first [discriminate | (intros _; lia)]|
           intros n' E; first [discriminate | (intros _; injection E as <-; lia)]]]).
  - destruct (IC eq_refl) as (C1&C2&C3). rewrite !AS.
    unfold kinds_of. destruct r; try discriminate EV; cbn [filter asks count]; rewrite IG; unfold maxiter_reached; rewrite EM;
      cbn [e_ignoring bump]; rewrite ?IG; cbn [e_nfunc e_ngrad e_nhess bump];
      (split; [reflexivity|split; [intros _; lia|intros n' E; discriminate]]).
Qed.

(** ** One request *)
Ltac fields := cbn [e_ignoring e_old e_nfunc e_ngrad e_nhess e_nan e_last_value e_last_grad e_at assign_at nan_seen good_seen set_ignoring] in *.

Lemma quiet_events hist r : evaluates r = false -> events (s_maxiter S) (r :: hist) = events (s_maxiter S) hist.
Proof. intros H. cbn [events]. destruct (refused (s_maxiter S) hist r); [reflexivity|]. destruct r; cbn in H; try discriminate; reflexivity. Qed.
Lemma refused_events hist r : refused (s_maxiter S) hist r = true -> events (s_maxiter S) (r :: hist) = events (s_maxiter S) hist.
Proof. intros H. cbn [events]. rewrite H. reflexivity. Qed.
Lemma done_events hist r : refused (s_maxiter S) hist r = false ->
  events (s_maxiter S) (r :: hist) = event_of r ++ events (s_maxiter S) hist.
Proof. intros H. cbn [events]. rewrite H. reflexivity. Qed.

Lemma eval_inside r hist : evaluates r = true -> inside (r :: hist) = inside hist.
Proof. destruct r; intros H; cbn in H; try discriminate; reflexivity. Qed.

(** The state after counting, with something done to the rest. *)
Lemma inv_build hist st r st1 over st2 : inv hist st -> evaluates r = true ->
  count S (kinds_of r) st = (st1, over) ->
  e_nfunc st2 = e_nfunc st1 -> e_ngrad st2 = e_ngrad st1 -> e_nhess st2 = e_nhess st1 ->
  e_ignoring st2 = e_ignoring st1 -> e_old st2 = e_old st1 ->
  e_nan st2 = streak (events (s_maxiter S) (r :: hist)) ->
  e_last_value st2 = last_value (events (s_maxiter S) (r :: hist)) ->
  e_last_grad st2 = last_gradient (events (s_maxiter S) (r :: hist)) -> inv (r :: hist) st2.
Proof.
  intros I EV C N1 N2 N3 G O E1 E2 E3. assert (K := count_spec hist st r I EV). rewrite C in K. destruct K as (_&K2&K3).
  assert (R := count_rest (kinds_of r) st). rewrite C in R. destruct R as (R1&R2&_). cbn [fst] in *.
  destruct I as [IG IO _ _ _ _ _].
  split; try assumption.
  - rewrite G, R1, IG, eval_inside by exact EV. reflexivity.
  - rewrite O, R2, IO, eval_inside by exact EV. reflexivity.
  - intros X. rewrite N1, N2, N3. apply K2, X.
  - intros n X Y. unfold niter. rewrite N1, N2, N3. apply (K3 n X Y).
Qed.

Lemma count_facts hist st r st1 over : inv hist st -> evaluates r = true -> count S (kinds_of r) st = (st1, over) ->
  over = refused (s_maxiter S) hist r /\ e_nan st1 = streak (events (s_maxiter S) hist) /\
  e_last_value st1 = last_value (events (s_maxiter S) hist) /\
  e_last_grad st1 = last_gradient (events (s_maxiter S) hist) /\ e_at st1 = e_at st.
Proof.
  intros I EV C. assert (K := count_spec hist st r I EV). rewrite C in K. destruct K as (K1&_).
  assert (R := count_rest (kinds_of r) st). rewrite C in R. destruct R as (_&_&R3&R4&R5&R6). cbn [fst] in *.
  destruct I as [_ _ _ _ A B D]. repeat split; congruence.
Qed.


Lemma value_ok hist st vs o : inv hist st ->
  let r := RValue vs o in
  inv (r :: hist) (fst (value S st vs o)) /\
  (refused (s_maxiter S) hist r = true ->
     snd (value S st vs o) = Err MaximumIterationReached /\ e_at (fst (value S st vs o)) = e_at st) /\
  (refused (s_maxiter S) hist r = false ->
     snd (value S st vs o) = value_answer S hist o /\ e_at (fst (value S st vs o)) = Some vs).
Proof.
  intros I r. unfold value. change [Func] with (kinds_of r). destruct (count S (kinds_of r) st) as [st1 over] eqn:C.
  destruct (count_facts hist st r st1 over I eq_refl C) as (F1&F2&F3&F4&F5).
  destruct over.
  - cbn [fst snd]. split; [|split; [intros _; split; [reflexivity|exact F5]|intros X; congruence]].
    apply (inv_build hist st r st1 true st1 I eq_refl C); try reflexivity; rewrite refused_events by congruence; assumption.
  - assert (DE := done_events hist r (eq_sym F1)). rewrite NP.
    destruct o as [v| |e].
    + unfold r in DE. cbn [event_of] in DE. unfold value_answer. destruct (is_nan v) eqn:EN; cbn [app] in DE.
      * cbn [fst snd]. split; [|split; [congruence|intros _; split; [|reflexivity]]].
        -- apply (inv_build hist st r st1 false _ I eq_refl C); try reflexivity; unfold r; fields; rewrite DE; cbn; rewrite ?F2, ?F3, ?F4; try reflexivity. lia.
        -- fields. unfold minimize_nan. rewrite F2, F3. destruct (Nat.ltb (streak (events (s_maxiter S) hist) + 1) (s_tol S)); [|reflexivity].
           destruct (last_value (events (s_maxiter S) hist)); reflexivity.
      * cbn [fst snd]. split; [|split; [congruence|intros _; split; reflexivity]].
        apply (inv_build hist st r st1 false _ I eq_refl C); try reflexivity; unfold r; fields; rewrite DE; cbn; rewrite ?F2, ?F3, ?F4; reflexivity.
    + unfold r in DE. cbn [event_of app] in DE. cbn [fst snd]. split; [|split; [congruence|intros _; split; [|reflexivity]]].
      * apply (inv_build hist st r st1 false _ I eq_refl C); try reflexivity; unfold r; fields; rewrite DE; cbn; rewrite ?F2, ?F3, ?F4; try reflexivity. lia.
      * fields. unfold minimize_nan, value_answer. rewrite F2, F3. destruct (Nat.ltb (streak (events (s_maxiter S) hist) + 1) (s_tol S)); [|reflexivity].
        destruct (last_value (events (s_maxiter S) hist)); reflexivity.
    + unfold r in DE. cbn [event_of app] in DE. cbn [fst snd]. split; [|split; [congruence|intros _; split; reflexivity]].
      apply (inv_build hist st r st1 false _ I eq_refl C); try reflexivity; unfold r; fields; rewrite DE; assumption.
Qed.


Lemma value_gradient_ok hist st vs o : inv hist st ->
  let r := RValueGradient vs o in
  inv (r :: hist) (fst (value_gradient S st vs o)) /\
  (refused (s_maxiter S) hist r = true ->
     snd (value_gradient S st vs o) = Err MaximumIterationReached /\ e_at (fst (value_gradient S st vs o)) = e_at st) /\
  (refused (s_maxiter S) hist r = false ->
     snd (value_gradient S st vs o) = value_gradient_answer S hist o /\ e_at (fst (value_gradient S st vs o)) = Some vs).
Proof.
  intros I r. unfold value_gradient. change [Func; Grad] with (kinds_of r).
  destruct (count S (kinds_of r) st) as [st1 over] eqn:C.
  destruct (count_facts hist st r st1 over I eq_refl C) as (F1&F2&F3&F4&F5).
  destruct over.
  - cbn [fst snd]. split; [|split; [intros _; split; [reflexivity|exact F5]|intros X; congruence]].
    apply (inv_build hist st r st1 true st1 I eq_refl C); try reflexivity; rewrite refused_events by congruence; assumption.
  - assert (DE := done_events hist r (eq_sym F1)). rewrite NP.
    destruct o as [[v g]| |e].
    + unfold r in DE. cbn [event_of] in DE. unfold value_gradient_answer. destruct (existsb entry_none g) eqn:EO; cbn [app] in DE.
      { cbn [fst snd]. split; [|split; [congruence|intros _; split; reflexivity]].
        apply (inv_build hist st r st1 false _ I eq_refl C); try reflexivity; unfold r; fields; rewrite DE; assumption. }
      destruct (existsb entry_nan g || is_nan v) eqn:EN; cbn [app] in DE.
      * cbn [fst snd]. split; [|split; [congruence|intros _; split; [|reflexivity]]].
        -- apply (inv_build hist st r st1 false _ I eq_refl C); try reflexivity; unfold r; fields; rewrite DE; cbn; rewrite ?F2, ?F3, ?F4; try reflexivity. lia.
        -- fields. unfold minimize_nan. rewrite F2, F3, F4. destruct (Nat.ltb (streak (events (s_maxiter S) hist) + 1) (s_tol S)); [|reflexivity].
           destruct (last_value (events (s_maxiter S) hist)), (last_gradient (events (s_maxiter S) hist)); reflexivity.
      * cbn [fst snd]. split; [|split; [congruence|intros _; split; reflexivity]].
        apply (inv_build hist st r st1 false _ I eq_refl C); try reflexivity; unfold r; fields; rewrite DE; cbn; rewrite ?F2, ?F3, ?F4; reflexivity.
    + unfold r in DE. cbn [event_of app] in DE. cbn [fst snd]. split; [|split; [congruence|intros _; split; [|reflexivity]]].
      * apply (inv_build hist st r st1 false _ I eq_refl C); try reflexivity; unfold r; fields; rewrite DE; cbn; rewrite ?F2, ?F3, ?F4; try reflexivity. lia.
      * fields. unfold minimize_nan, value_gradient_answer. rewrite F2, F3, F4. destruct (Nat.ltb (streak (events (s_maxiter S) hist) + 1) (s_tol S)); [|reflexivity].
        destruct (last_value (events (s_maxiter S) hist)), (last_gradient (events (s_maxiter S) hist)); reflexivity.
    + unfold r in DE. cbn [event_of app] in DE. cbn [fst snd]. split; [|split; [congruence|intros _; split; reflexivity]].
      apply (inv_build hist st r st1 false _ I eq_refl C); try reflexivity; unfold r; fields; rewrite DE; assumption.
Qed.


Lemma gradient_ok hist st vs o : inv hist st ->
  let r := RGradient vs o in
  inv (r :: hist) (fst (gradient S st vs o)) /\
  (refused (s_maxiter S) hist r = true ->
     snd (gradient S st vs o) = Err MaximumIterationReached /\ e_at (fst (gradient S st vs o)) = e_at st) /\
  (refused (s_maxiter S) hist r = false ->
     snd (gradient S st vs o) = gradient_answer S hist o /\ e_at (fst (gradient S st vs o)) = Some vs).
Proof.
  intros I r. unfold gradient. change [Grad] with (kinds_of r).
  destruct (count S (kinds_of r) st) as [st1 over] eqn:C.
  destruct (count_facts hist st r st1 over I eq_refl C) as (F1&F2&F3&F4&F5).
  destruct over.
  - cbn [fst snd]. split; [|split; [intros _; split; [reflexivity|exact F5]|intros X; congruence]].
    apply (inv_build hist st r st1 true st1 I eq_refl C); try reflexivity; rewrite refused_events by congruence; assumption.
  - assert (DE := done_events hist r (eq_sym F1)).
    destruct o as [g| |e].
    + unfold r in DE. cbn [event_of] in DE. unfold gradient_answer. destruct (existsb entry_none g) eqn:EO; cbn [app] in DE.
      { cbn [fst snd]. split; [|split; [congruence|intros _; split; reflexivity]].
        apply (inv_build hist st r st1 false _ I eq_refl C); try reflexivity; unfold r; fields; rewrite DE; assumption. }
      destruct (existsb entry_nan g) eqn:EN; cbn [app] in DE.
      * cbn [fst snd]. split; [|split; [congruence|intros _; split; [|reflexivity]]].
        -- apply (inv_build hist st r st1 false _ I eq_refl C); try reflexivity; unfold r; fields; rewrite DE; cbn; rewrite ?F2, ?F3, ?F4; try reflexivity. lia.
        -- fields. unfold minimize_nan. rewrite F2, F3, F4. destruct (Nat.ltb (streak (events (s_maxiter S) hist) + 1) (s_tol S)); [|reflexivity].
           destruct (last_value (events (s_maxiter S) hist)), (last_gradient (events (s_maxiter S) hist)); reflexivity.
      * cbn [fst snd]. split; [|split; [congruence|intros _; split; reflexivity]].
        apply (inv_build hist st r st1 false _ I eq_refl C); try reflexivity; unfold r; fields; rewrite DE; cbn; rewrite ?F2, ?F3, ?F4; reflexivity.
    + unfold r in DE. cbn [event_of app] in DE. cbn [fst snd]. split; [|split; [congruence|intros _; split; [|reflexivity]]].
      * apply (inv_build hist st r st1 false _ I eq_refl C); try reflexivity; unfold r; fields; rewrite DE; cbn; rewrite ?F2, ?F3, ?F4; try reflexivity. lia.
      * fields. unfold minimize_nan, gradient_answer. rewrite F2, F3, F4. destruct (Nat.ltb (streak (events (s_maxiter S) hist) + 1) (s_tol S)); [|reflexivity].
        destruct (last_value (events (s_maxiter S) hist)), (last_gradient (events (s_maxiter S) hist)); reflexivity.
    + unfold r in DE. cbn [event_of app] in DE. cbn [fst snd]. split; [|split; [congruence|intros _; split; reflexivity]].
      apply (inv_build hist st r st1 false _ I eq_refl C); try reflexivity; unfold r; fields; rewrite DE; assumption.
Qed.

Lemma hessian_ok hist st vs o : inv hist st ->
  let r := RHessian vs o in
  inv (r :: hist) (fst (hessian S st vs o)) /\
  (refused (s_maxiter S) hist r = true ->
     snd (hessian S st vs o) = Err MaximumIterationReached /\ e_at (fst (hessian S st vs o)) = e_at st) /\
  (refused (s_maxiter S) hist r = false ->
     snd (hessian S st vs o) = hessian_answer S hist o /\ e_at (fst (hessian S st vs o)) = Some vs).
Proof.
  intros I r. unfold hessian. change [Hess] with (kinds_of r).
  destruct (count S (kinds_of r) st) as [st1 over] eqn:C.
  destruct (count_facts hist st r st1 over I eq_refl C) as (F1&F2&F3&F4&F5).
  destruct over.
  - cbn [fst snd]. split; [|split; [intros _; split; [reflexivity|exact F5]|intros X; congruence]].
    apply (inv_build hist st r st1 true st1 I eq_refl C); try reflexivity; rewrite refused_events by congruence; assumption.
  - assert (DE := done_events hist r (eq_sym F1)).
    destruct o as [g| |e].
    + unfold r in DE. cbn [event_of] in DE. unfold hessian_answer. destruct (existsb entry_none g) eqn:EO; cbn [app] in DE.
      { cbn [fst snd]. split; [|split; [congruence|intros _; split; reflexivity]].
        apply (inv_build hist st r st1 false _ I eq_refl C); try reflexivity; unfold r; fields; rewrite DE; assumption. }
      destruct (existsb entry_nan g) eqn:EN; cbn [app] in DE.
      * cbn [fst snd]. split; [|split; [congruence|intros _; split; [|reflexivity]]].
        -- apply (inv_build hist st r st1 false _ I eq_refl C); try reflexivity; unfold r; fields; rewrite DE; cbn; rewrite ?F2, ?F3, ?F4; try reflexivity. lia.
        -- fields. unfold minimize_nan. rewrite F2, F3, F4. destruct (Nat.ltb (streak (events (s_maxiter S) hist) + 1) (s_tol S)); [|reflexivity].
           destruct (last_value (events (s_maxiter S) hist)), (last_gradient (events (s_maxiter S) hist)); reflexivity.
      * cbn [fst snd]. split; [|split; [congruence|intros _; split; reflexivity]].
        apply (inv_build hist st r st1 false _ I eq_refl C); try reflexivity; unfold r; fields; rewrite DE; cbn; rewrite ?F2, ?F3, ?F4; reflexivity.
    + unfold r in DE. cbn [event_of app] in DE. cbn [fst snd]. split; [|split; [congruence|intros _; split; [|reflexivity]]].
      * apply (inv_build hist st r st1 false _ I eq_refl C); try reflexivity; unfold r; fields; rewrite DE; cbn; rewrite ?F2, ?F3, ?F4; try reflexivity. lia.
      * fields. unfold minimize_nan, hessian_answer. rewrite F2, F3, F4. destruct (Nat.ltb (streak (events (s_maxiter S) hist) + 1) (s_tol S)); [|reflexivity].
        destruct (last_value (events (s_maxiter S) hist)), (last_gradient (events (s_maxiter S) hist)); reflexivity.
    + unfold r in DE. cbn [event_of app] in DE. cbn [fst snd]. split; [|split; [congruence|intros _; split; reflexivity]].
      apply (inv_build hist st r st1 false _ I eq_refl C); try reflexivity; unfold r; fields; rewrite DE; assumption.
Qed.

Lemma step_inv hist st r : inv hist st -> r <> RAbandon -> inv (r :: hist) (fst (answer S st r)).
Proof.
  intros I N. destruct r as [vs o|vs o|vs o|vs o| | |]; cbn [answer].
  - destruct (value_ok hist st vs o I) as [H _]. destruct (value S st vs o); exact H.
  - destruct (value_gradient_ok hist st vs o I) as [H _]. destruct (value_gradient S st vs o); exact H.
  - destruct (gradient_ok hist st vs o I) as [H _]. destruct (gradient S st vs o); exact H.
  - destruct (hessian_ok hist st vs o I) as [H _]. destruct (hessian S st vs o); exact H.
  - destruct I as [IG IO IC IV A B D]. cbn [fst]. split; fields; rewrite ?quiet_exceeded, ?quiet_events by reflexivity; try assumption.
    + reflexivity.
    + rewrite IG, IO. cbn [inside]. destruct (inside hist) as [|n]; reflexivity.
    + intros X. rewrite !same_asked by reflexivity. apply IC, X.
  - assert (I' := I). destruct I as [IG IO IC IV A B D].
    assert (K : forall b old, b = Nat.ltb 0 (pred (inside hist)) -> old = old_flags (pred (inside hist)) ->
                inv (RLeave :: hist) (set_ignoring b old st)).
    { intros b old E1 E2. split; fields; rewrite ?quiet_exceeded, ?quiet_events by reflexivity; try assumption.
      intros X. rewrite !same_asked by reflexivity. apply IC, X. }
    rewrite IO. destruct (inside hist) as [|n] eqn:EI; cbn [old_flags fst].
    + replace st with (set_ignoring (e_ignoring st) (e_old st) st) by (destruct st; reflexivity).
      apply K; [exact IG|exact IO].
    + destruct n as [|n]; cbn [repeat app fst]; apply K; reflexivity.
  - contradiction.
Qed.

Lemma reached_inv hist : no_abandon hist -> inv hist (reached S hist).
Proof.
  unfold reached, after. induction hist as [|r hist IH]; intros N; [apply inv_start|].
  cbn [rev]. rewrite fold_left_app. cbn [fold_left]. apply step_inv.
  - apply IH. intros H. apply N. right. exact H.
  - intros ->. apply N. left. reflexivity.
Qed.
End P.

Lemma last_value_good m hist v : last_value (events m hist) = Some v -> is_nan v = false.
Proof.
  induction hist as [|r hist IH]; [discriminate|]. cbn [events]. destruct (refused m hist r); [exact IH|].
  assert (G : forall es, event_of r = es -> last_value (es ++ events m hist) = Some v -> is_nan v = false); [|apply G; reflexivity].
  intros es E. destruct r as [vs [a| |e]|vs [[a g]| |e]|vs [a| |e]|vs [a| |e]| | |]; cbn [event_of] in E; subst es; try exact IH.
  - destruct (is_nan a) eqn:N; [exact IH|]. cbn. intros [= <-]. exact N.
  - destruct (existsb entry_none g); [exact IH|]. destruct (existsb entry_nan g || is_nan a) eqn:N; [exact IH|].
    cbn. intros [= <-]. apply orb_false_iff in N. apply N.
  - destruct (existsb entry_none a); [exact IH|]. destruct (existsb entry_nan a); exact IH.
  - destruct (existsb entry_none a); [exact IH|]. destruct (existsb entry_nan a); exact IH.
Qed.
Lemma last_gradient_good m hist g : last_gradient (events m hist) = Some g ->
  existsb entry_nan g = false /\ existsb entry_none g = false.
Proof.
  induction hist as [|r hist IH]; [discriminate|]. cbn [events]. destruct (refused m hist r); [exact IH|].
  assert (G : forall es, event_of r = es -> last_gradient (es ++ events m hist) = Some g -> existsb entry_nan g = false /\ existsb entry_none g = false); [|apply G; reflexivity].
  intros es E. destruct r as [vs [a| |e]|vs [[a g']| |e]|vs [a| |e]|vs [a| |e]| | |]; cbn [event_of] in E; subst es; try exact IH.
  - destruct (is_nan a) eqn:N; exact IH.
  - destruct (existsb entry_none g') eqn:O; [exact IH|]. destruct (existsb entry_nan g' || is_nan a) eqn:N; [exact IH|].
    cbn. intros [= <-]. apply orb_false_iff in N. split; [apply N|exact O].
  - destruct (existsb entry_none a) eqn:O; [exact IH|]. destruct (existsb entry_nan a) eqn:N; [exact IH|]. cbn. intros [= <-]. auto.
  - destruct (existsb entry_none a); [exact IH|]. destruct (existsb entry_nan a); exact IH.
Qed.
Lemma exceeded_app m h1 h2 : exceeded m (h1 ++ h2) = false -> exceeded m h2 = false.
Proof.
  induction h1 as [|r h1 IH]; [auto|]. cbn [app]. intros H. apply IH.
  destruct (exceeded m (h1 ++ h2)) eqn:E; [|reflexivity]. rewrite (exceeded_mono _ r _ E) in H. discriminate.
Qed.
Lemma bads_events m bads hist : Forall bad_request bads -> exceeded m (bads ++ hist) = false ->
  events m (bads ++ hist) = repeat Bad (length bads) ++ events m hist.
Proof.
  induction bads as [|r bads IH]; intros B X; [reflexivity|]. inversion B as [|? ? B1 B2]; subst.
  cbn [app events length repeat]. unfold refused. cbn [app] in X. rewrite X, andb_false_r.
  unfold bad_request in B1. rewrite B1. cbn [app]. f_equal. apply IH; [exact B2|].
  apply (exceeded_app m [r] _ X).
Qed.
Lemma streak_bads n es : streak (repeat Bad n ++ es) = n + streak es.
Proof. induction n; cbn; congruence. Qed.
Lemma last_value_bads n es : last_value (repeat Bad n ++ es) = last_value es.
Proof. induction n; cbn; congruence. Qed.
Lemma last_gradient_bads n es : last_gradient (repeat Bad n ++ es) = last_gradient es.
Proof. induction n; cbn; congruence. Qed.
