(** C98: warnings are given once and can be switched off. *)
From Verif Require Import Base BaseLemmas Wrn_Model Wrn_Spec.
Open Scope string_scope.
Open Scope list_scope.

Lemma entry_ok a b : entry_eqb a b = true <-> a = b.
Proof.
  destruct a as (k & i), b as (k' & i'). unfold entry_eqb. cbn. rewrite andb_true_iff, String.eqb_eq.
  split; [intros (H & ->); destruct k, k'; try discriminate H; reflexivity|]. intros E. injection E as -> ->. split; [destruct k'; reflexivity|reflexivity].
Qed.
Lemma seen_iff s k id : is_seen s k id = true <-> In (k, id) (seen s).
Proof.
  unfold is_seen, mem. rewrite existsb_exists. split.
  - intros (x & I & E). apply entry_ok in E. subst x. exact I.
  - intros I. exists (k, id). split; [exact I|apply entry_ok; reflexivity].
Qed.

(** What is seen is what was given. *)
Lemma step_seen s e : seen s = given s -> seen (step s e) = given (step s e).
Proof.
  intros E. destruct e as [k id|id b|id b]; [|exact E|exact E]. cbn [step]. unfold warn.
  destruct k; match goal with |- context [if ?c then _ else _] => destruct c end; try exact E; cbn; rewrite E; reflexivity.
Qed.
Lemma fold_seen l : forall s, seen s = given s -> seen (fold_left step l s) = given (fold_left step l s).
Proof. induction l as [|e l IH]; intros s E; [exact E|]. cbn. apply IH, step_seen, E. Qed.

Lemma times_zero k id s : times k id s = 0 <-> ~ In (k, id) (given s).
Proof.
  unfold times. split.
  - intros H I. assert (J : In (k, id) (filter (entry_eqb (k, id)) (given s))) by (apply filter_In; split; [exact I|apply entry_ok; reflexivity]).
    destruct (filter _ _); [destruct J|discriminate H].
  - intros N. destruct (filter (entry_eqb (k, id)) (given s)) as [|x r] eqn:F; [reflexivity|]. exfalso. apply N.
    assert (J : In x (filter (entry_eqb (k, id)) (given s))) by (rewrite F; left; reflexivity). apply filter_In in J. destruct J as (J & E). apply entry_ok in E. subst x. exact J.
Qed.
Lemma times_give k id k' id' s : times k id (give s k' id') = (if entry_eqb (k, id) (k', id') then 1 else 0) + times k id s.
Proof. unfold times, give. cbn [given filter]. destruct (entry_eqb (k, id) (k', id')); reflexivity. Qed.

Lemma step_times s e k id : k <> Changing -> seen s = given s -> times k id s <= 1 -> times k id (step s e) <= 1.
Proof.
  intros N E T. destruct e as [k' id'|i b|i b]; [|exact T|exact T]. cbn [step].
  assert (G : is_seen s k' id' = false \/ k' = Changing -> times k id (give s k' id') <= 1).
  { intros H. rewrite times_give. destruct (entry_eqb (k, id) (k', id')) eqn:Q; [|exact T]. apply entry_ok in Q. injection Q as -> ->.
    destruct H as [H|H]; [|contradiction]. assert (Z : times k' id' s = 0); [|rewrite Z; apply le_n].
    apply times_zero. rewrite <- E. intros I. apply seen_iff in I. congruence. }
  unfold warn. destruct k'; match goal with |- context [if ?c then _ else _] => destruct c eqn:C end; try exact T; apply G;
    try (right; reflexivity); left; repeat (apply andb_true_iff in C; destruct C as (? & C)); apply negb_true_iff; exact C.
Qed.

(** C98 (partial): whatever happens in a session, each warning is given at most once for its identifier. Missing: the
    warnings of features that are going to change. *)
Theorem C98_once_partial : forall l k id, k <> Changing -> times k id (session l) <= 1.
Proof.
  intros l k id N. unfold session.
  assert (G : forall l s, seen s = given s -> times k id s <= 1 -> times k id (fold_left step l s) <= 1).
  { clear l. induction l as [|e l IH]; intros s E T; [exact T|]. cbn. apply IH; [apply step_seen, E|apply step_times; assumption]. }
  apply G; [reflexivity|]. unfold times. cbn. apply Nat.le_0_l.
Qed.

Lemma on_true l id : on (map (fun id => (id, true)) l) id = true.
Proof. unfold on. induction l as [|x l IH]; [reflexivity|]. cbn. destruct (String.eqb id x); [reflexivity|exact IH]. Qed.
Lemma on_start_a id : on (sw_advanced start) id = true.
Proof. apply on_true. Qed.
Lemma on_start_c id : on (sw_changed start) id = true.
Proof. apply on_true. Qed.

(** REFUTED: "each warning is given once" for features that are going to change: given at each occasion, but never after
    a warning of the other kind with the same identifier. *)
Theorem C98_changing_refuted :
  (forall n id, times Changing id (session (repeat (Occasion Changing id) n)) = n)
  /\ (forall n id, times Changing id (session (Occasion Changed id :: repeat (Occasion Changing id) n)) = 0).
Proof.
  split; intros n id; unfold session.
  - assert (G : forall n s, ~ In (Changed, id) (seen s) -> times Changing id (fold_left step (repeat (Occasion Changing id) n) s) = n + times Changing id s).
    { clear n. induction n as [|n IH]; intros s N; [reflexivity|]. cbn [repeat fold_left step warn].
      destruct (is_seen s Changed id) eqn:E; [apply seen_iff in E; contradiction|]. cbn [negb]. rewrite IH.
      - rewrite times_give. assert (Q : entry_eqb (Changing, id) (Changing, id) = true) by (apply entry_ok; reflexivity). rewrite Q. cbn. rewrite <- plus_n_Sm. reflexivity.
      - intros [H|H]; [discriminate H|contradiction]. }
    rewrite G; [cbn; rewrite <- plus_n_O; reflexivity|intros []].
  - cbn [fold_left]. set (s := step start (Occasion Changed id)).
    assert (S : is_seen s Changed id = true /\ times Changing id s = 0).
    { assert (O : on (sw_changed start) id = true) by apply on_start_c. assert (W : all_on (sw_changed start) = true) by apply on_start_c.
      assert (E : s = give start Changed id) by (unfold s; cbn [step]; unfold warn; rewrite O, W; reflexivity).
      rewrite E. split; [apply seen_iff; left; reflexivity|]. rewrite times_give. reflexivity. }
    destruct S as (S & T). induction n as [|n IH]; [exact T|]. cbn [repeat fold_left step warn]. rewrite S. cbn [negb]. exact IH.
Qed.

Lemma fold_switch k (f : wstate -> list (string * bool)) :
  (k = Advanced /\ f = sw_advanced \/ k = Changed /\ f = sw_changed) ->
  forall l s id, on (f (fold_left step l s)) id = last_switch k id l (on (f s) id).
Proof.
  intros K. induction l as [|e l IH]; intros s id; [reflexivity|]. cbn [fold_left last_switch]. rewrite IH. f_equal.
  destruct e as [k' i|i b|i b]; cbn [step].
  - assert (E : f (warn s k' i) = f s); [|rewrite E; destruct K as [(-> & _)|(-> & _)]; reflexivity].
    unfold warn. destruct k'; match goal with |- context [if ?c then _ else _] => destruct c end; destruct K as [(_ & ->)|(_ & ->)]; reflexivity.
  - destruct K as [(-> & ->)|(-> & ->)]; cbn; [unfold on; cbn; destruct (String.eqb id i); reflexivity|reflexivity].
  - destruct K as [(-> & ->)|(-> & ->)]; cbn; [reflexivity|unfold on; cbn; destruct (String.eqb id i); reflexivity].
Qed.
Lemma switch_a l id : on (sw_advanced (session l)) id = last_switch Advanced id l true.
Proof. unfold session. rewrite (fold_switch Advanced sw_advanced (or_introl (conj eq_refl eq_refl))), on_start_a. reflexivity. Qed.
Lemma switch_c l id : on (sw_changed (session l)) id = last_switch Changed id l true.
Proof. unfold session. rewrite (fold_switch Changed sw_changed (or_intror (conj eq_refl eq_refl))), on_start_c. reflexivity. Qed.

(** C98: at an occasion after any session, a warning about advanced or changed features is given exactly if it has not
    been given before, its switch is on, and the switch for all is on. *)
Theorem C98_given : forall l k id, k = Advanced \/ k = Changed ->
  (times k id (session (l ++ [Occasion k id])) = S (times k id (session l)) <-> times k id (session l) = 0 /\ switched_on k id l)
  /\ (times k id (session (l ++ [Occasion k id])) = times k id (session l) <-> ~ (times k id (session l) = 0 /\ switched_on k id l)).
Proof.
  intros l k id K. unfold session. rewrite fold_left_app. cbn [fold_left step]. fold (session l).
  assert (E : seen (session l) = given (session l)) by (apply fold_seen; reflexivity).
  assert (G : times k id (warn (session l) k id) = (if last_switch k id l true && last_switch k "all" l true && negb (is_seen (session l) k id) then 1 else 0) + times k id (session l)).
  { destruct K as [-> | ->]; unfold warn, all_on.
    - rewrite !switch_a. match goal with |- context [if ?c then give _ _ _ else _] => destruct c end; [|reflexivity]. rewrite times_give. assert (Q : entry_eqb (Advanced, id) (Advanced, id) = true) by (apply entry_ok; reflexivity). rewrite Q. reflexivity.
    - rewrite !switch_c. match goal with |- context [if ?c then give _ _ _ else _] => destruct c end; [|reflexivity]. rewrite times_give. assert (Q : entry_eqb (Changed, id) (Changed, id) = true) by (apply entry_ok; reflexivity). rewrite Q. reflexivity. }
  assert (Z : is_seen (session l) k id = false <-> times k id (session l) = 0).
  { rewrite times_zero, <- E, <- seen_iff. destruct (is_seen (session l) k id); split; intros H; [discriminate H|contradiction (H eq_refl)|discriminate|reflexivity]. }
  rewrite G. unfold switched_on.
  destruct (last_switch k id l true), (last_switch k "all" l true), (is_seen (session l) k id) eqn:S; cbn [andb negb plus];
    (split; split; [intros H|intros (H & H1 & H2)|intros H (H0 & H1 & H2)|intros H]); try reflexivity; try discriminate; try (exfalso; lia);
    try (apply Z in H; discriminate H); try (apply Z in H0; discriminate H0).
  - split; [apply Z; reflexivity|]. split; reflexivity.
Qed.

Example C98_given_applies :
  switched_on Advanced "a" [SwitchAdvanced "a" false; Occasion Advanced "a"; SwitchAdvanced "a" true]
  /\ times Advanced "a" (session [SwitchAdvanced "a" false; Occasion Advanced "a"; SwitchAdvanced "a" true]) = 0
  /\ times Advanced "a" (session [SwitchAdvanced "a" false; Occasion Advanced "a"; SwitchAdvanced "a" true; Occasion Advanced "a"; Occasion Advanced "a"]) = 1.
Proof. repeat split. Qed.

(** C98: warnings about experimental features and those to be given once are given at the first occasion, whatever is
    switched off, and not again. *)
Theorem C98_first : forall l k id, k = Experimental \/ k = Once ->
  times k id (session (l ++ [Occasion k id])) = 1.
Proof.
  intros l k id K. unfold session. rewrite fold_left_app. cbn [fold_left step]. fold (session l).
  assert (E : seen (session l) = given (session l)) by (apply fold_seen; reflexivity).
  assert (O : times k id (session l) <= 1) by (apply C98_once_partial; destruct K as [-> | ->]; discriminate).
  assert (Z : is_seen (session l) k id = false <-> times k id (session l) = 0).
  { rewrite times_zero, <- E, <- seen_iff. destruct (is_seen (session l) k id); split; intros H; [discriminate H|contradiction (H eq_refl)|discriminate|reflexivity]. }
  assert (Q : entry_eqb (k, id) (k, id) = true) by (apply entry_ok; reflexivity).
  assert (G : times k id (warn (session l) k id) = (if negb (is_seen (session l) k id) then 1 else 0) + times k id (session l)).
  { destruct K as [-> | ->]; unfold warn; destruct (is_seen _ _ _); cbn [negb]; try reflexivity; rewrite times_give, Q; reflexivity. }
  rewrite G. destruct (is_seen (session l) k id) eqn:S; cbn [negb plus].
  - destruct (times k id (session l)) as [|[|n]]; [|reflexivity|lia]. destruct Z as (_ & Z). discriminate (Z eq_refl).
  - rewrite (proj1 Z eq_refl). reflexivity.
Qed.

(** C98: the occasions of other warnings and the switches do not give a warning. *)
Theorem C98_separate : forall l e k id, e <> Occasion k id -> times k id (session (l ++ [e])) = times k id (session l).
Proof.
  intros l e k id N. unfold session. rewrite fold_left_app. cbn [fold_left]. fold (session l). destruct e as [k' id'|i b|i b]; [|reflexivity|reflexivity].
  cbn [step]. assert (Q : entry_eqb (k, id) (k', id') = false).
  { destruct (entry_eqb (k, id) (k', id')) eqn:Q; [|reflexivity]. apply entry_ok in Q. injection Q as -> ->. contradiction (N eq_refl). }
  unfold warn. destruct k'; match goal with |- context [if ?c then _ else _] => destruct c end; try reflexivity; rewrite times_give, Q; reflexivity.
Qed.

Example C98_separate_applies : times Advanced "a" (session ([Occasion Advanced "a"; SwitchAdvanced "all" false] ++ [Occasion Changed "a"])) = 1.
Proof. reflexivity. Qed.

(** REFUTED: "looking at a switch changes nothing". A switch that is not in the settings is off after it was read, so
    that the warning is never given. *)
Theorem C98_read_refuted : exists id, times Advanced id (warn start Advanced id) = 1
  /\ forall n, times Advanced id (fold_left step (repeat (Occasion Advanced id) n) (read_advanced start id)) = 0.
Proof.
  exists "extended_in_BinnedNLL". split; [reflexivity|]. intros n. set (s := read_advanced start "extended_in_BinnedNLL").
  assert (O : on (sw_advanced s) "extended_in_BinnedNLL" = false) by reflexivity. assert (T : times Advanced "extended_in_BinnedNLL" s = 0) by reflexivity.
  induction n as [|n IH]; [exact T|]. cbn [repeat fold_left step warn]. rewrite O. cbn [andb]. exact IH.
Qed.
