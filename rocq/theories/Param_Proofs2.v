(** Proofs about parameters, part 2: programs, context managers, set_values. *)
From Coq Require Import Lqa.
From Verif Require Import Base BaseLemmas Param_Model Param_Spec Param_Proofs.

Lemma upd_same {A} (f : nat -> A) i a : upd f i a i = a.
Proof. unfold upd. rewrite Nat.eqb_refl. reflexivity. Qed.
Lemma upd_other {A} (f : nat -> A) i j a : j <> i -> upd f i a j = f j.
Proof. intros H. unfold upd. apply Nat.eqb_neq in H. rewrite H. reflexivity. Qed.

(* ---------- set_each ---------- *)
Lemma set_value_cases st i v :
  (rejects (st_par st i) v = true /\ set_value st i v = (st, Some ValueError))
  \/ (rejects (st_par st i) v = false /\ set_value st i v = (assign st i v, None)).
Proof. unfold set_value. destruct rejects; auto. Qed.

Lemma set_each_run st ps vs st' e : set_each st ps vs = (st', e) -> st_run st' = st_run st /\ st_weights st' = st_weights st.
Proof.
  revert st vs. induction ps as [|i ps IH]; intros st [|v vs] H; simpl in H; try (inversion H; auto; fail).
  destruct (set_value_cases st i v) as [[_ E]|[_ E]]; rewrite E in H; [inversion H; auto|].
  apply IH in H. exact H.
Qed.

(** Every parameter is either untouched or has an accepted value of the list. *)
Lemma set_each_cases st ps vs st' e : set_each st ps vs = (st', e) ->
  forall j, st_par st' j = st_par st j
    \/ exists v, In (j, v) (combine ps vs) /\ rejects (st_par st j) v = false /\ st_par st' j = with_raw (st_par st j) v.
Proof.
  revert st vs. induction ps as [|i ps IH]; intros st [|v vs] H j; simpl in H; try (inversion H; auto; fail).
  destruct (set_value_cases st i v) as [[_ E]|[Hr E]]; rewrite E in H; [inversion H; auto|].
  specialize (IH _ _ H j). destruct (Nat.eq_dec j i) as [->|Hj].
  - unfold assign, set_par in IH. cbn [st_par] in IH. rewrite upd_same in IH.
    destruct IH as [->|[w [Hin [Hw ->]]]].
    + right. exists v. split; [left; reflexivity|]. auto.
    + right. exists w. split; [right; exact Hin|]. auto.
  - unfold assign, set_par in IH. cbn [st_par] in IH. rewrite upd_other in IH by exact Hj.
    destruct IH as [->|[w [Hin [Hw ->]]]]; [auto|]. right. exists w. split; [right; exact Hin|]. auto.
Qed.
Lemma set_each_outside st ps vs st' e : set_each st ps vs = (st', e) -> forall j, ~ In j ps -> st_par st' j = st_par st j.
Proof.
  intros H j Hj. destruct (set_each_cases _ _ _ _ _ H j) as [E|[v [Hin _]]]; [exact E|].
  apply in_combine_l in Hin. contradiction.
Qed.
(** All accepted. *)
Lemma set_each_ok ps : forall st vs, length ps = length vs ->
  (forall i v, In (i, v) (combine ps vs) -> rejects (st_par st i) v = false) ->
  exists st', set_each st ps vs = (st', None).
Proof.
  induction ps as [|i ps IH]; intros st [|v vs] Hl H; simpl in *; try discriminate; [eauto|].
  destruct (set_value_cases st i v) as [[Hr _]|[_ E]]; [rewrite (H i v (or_introl eq_refl)) in Hr; discriminate|].
  rewrite E. apply IH; [lia|]. intros j w Hin. unfold assign, set_par. cbn [st_par].
  destruct (Nat.eq_dec j i) as [->|Hj]; [rewrite upd_same, rejects_raw|rewrite upd_other by exact Hj]; apply H; right; exact Hin.
Qed.
(** Each parameter gets a value that depends on the parameter only. *)
Lemma set_each_map f ps : forall st, (forall i, In i ps -> rejects (st_par st i) (f i) = false) ->
  exists st', set_each st ps (map f ps) = (st', None)
    /\ (forall j, In j ps -> st_par st' j = with_raw (st_par st j) (f j)).
Proof.
  induction ps as [|i ps IH]; intros st H; [exists st; split; [reflexivity|intros j []]|]. cbn [map set_each].
  destruct (set_value_cases st i (f i)) as [[Hr _]|[_ E]]; [rewrite (H i (or_introl eq_refl)) in Hr; discriminate|].
  rewrite E. destruct (IH (assign st i (f i))) as [st' [E' G]].
  { intros j Hj. unfold assign, set_par. cbn [st_par].
    destruct (Nat.eq_dec j i) as [->|Hji]; [rewrite upd_same, rejects_raw|rewrite upd_other by exact Hji]; apply H; [left; reflexivity|right; exact Hj]. }
  exists st'. split; [exact E'|]. intros j Hj.
  destruct (in_dec Nat.eq_dec j ps) as [Hin|Hn].
  - rewrite (G j Hin). unfold assign, set_par. cbn [st_par]. destruct (Nat.eq_dec j i) as [->|Hji]; [rewrite upd_same; reflexivity|rewrite upd_other by exact Hji; reflexivity].
  - destruct Hj as [<-|Hj]; [|contradiction]. rewrite (set_each_outside _ _ _ _ _ E' i Hn). unfold assign, set_par. cbn [st_par]. apply upd_same.
Qed.

(* ---------- C12 ---------- *)
Definition no_nan_st (st : state) : Prop := forall i, p_raw (st_par st i) <> NaN.
Lemma set_par_raw st i p : no_nan_st st -> p_raw p <> NaN -> no_nan_st (set_par st i p).
Proof. intros H Hp j. unfold set_par. cbn [st_par]. destruct (Nat.eq_dec j i) as [->|E]; [rewrite upd_same; exact Hp|rewrite upd_other by exact E; apply H]. Qed.
Lemma setter_no_nan st c st' e : no_nan_st st -> call_no_nan c -> setter st c = (st', e) -> no_nan_st st'.
Proof.
  intros H Hc E. destruct c as [i v|ps vs|g|b|b|d w]; simpl in E, Hc.
  - destruct (set_value_cases st i v) as [[_ E']|[_ E']]; rewrite E' in E; inversion E; subst; [exact H|]. apply set_par_raw; assumption.
  - intros j. destruct (set_each_cases _ _ _ _ _ E j) as [->|[v [Hin [_ ->]]]]; [apply H|]. simpl. intros ->. apply Hc. eapply in_combine_r, Hin.
  - destruct (set_graph (st_run st) g). inversion E; subst. exact H.
  - inversion E; subst. exact H.
  - inversion E; subst. exact H.
  - inversion E; subst. exact H.
Qed.
Lemma getter_no_nan st c : no_nan_st st -> call_no_nan c -> call_no_nan (getter st c).
Proof.
  intros H Hc. destruct c; simpl; try exact Logic.I.
  - apply value_not_nan, H.
  - intros Hin. apply in_map_iff in Hin. destruct Hin as [i [E _]]. eapply value_not_nan; [apply H|exact E].
Qed.
Lemma exec_no_nan p : forall st st' e, no_nan_st st -> no_nan p -> exec p st = (st', e) -> no_nan_st st'.
Proof.
  induction p as [|a IHa b IHb|x|a IHa b IHb|c|c b IHb|i v|i v|i l|i l|i b]; intros st st' e H Hp E; simpl in E, Hp.
  - inversion E; subst; exact H.
  - destruct (exec a st) as [s1 [x|]] eqn:Ea; [inversion E; subst; eapply IHa; [exact H|apply Hp|exact Ea]|].
    eapply IHb; [|apply Hp|exact E]. eapply IHa; [exact H|apply Hp|exact Ea].
  - inversion E; subst; exact H.
  - destruct (exec a st) as [s1 [x|]] eqn:Ea; [|inversion E; subst; eapply IHa; [exact H|apply Hp|exact Ea]].
    eapply IHb; [|apply Hp|exact E]. eapply IHa; [exact H|apply Hp|exact Ea].
  - eapply setter_no_nan; eassumption.
  - destruct Hp as [Hc Hb]. destruct (setter st c) as [s1 [x|]] eqn:Es; [inversion E; subst; eapply setter_no_nan; eassumption|].
    destruct (exec b s1) as [s2 e2] eqn:Eb.
    assert (H2 : no_nan_st s2) by (eapply IHb; [eapply setter_no_nan; eassumption|exact Hb|exact Eb]).
    assert (H3 : no_nan_st (fst (setter s2 (getter st c)))).
    { destruct (setter s2 (getter st c)) eqn:Es2. exact (setter_no_nan _ _ _ _ H2 (getter_no_nan _ _ H Hc) Es2). }
    destruct (setter s2 (getter st c)) as [s3 [x|]]; inversion E; subst; exact H3.
  - inversion E; subst. apply set_par_raw; [exact H|exact Hp].
  - destruct (set_value_cases st i v) as [[_ E']|[_ E']]; rewrite E' in E; inversion E; subst; [exact H|]. apply set_par_raw; assumption.
  - inversion E; subst. apply set_par_raw; [exact H|apply H].
  - inversion E; subst. apply set_par_raw; [exact H|apply H].
  - inversion E; subst. apply set_par_raw; [exact H|apply H].
Qed.
Lemma C12_in_limits p st st' e i :
  (forall j, p_raw (st_par st j) <> NaN) -> no_nan p -> exec p st = (st', e) ->
  ordered_limits (st_par st' i) -> p_value (st_par st' i) <> NaN /\ in_limits (st_par st' i) (p_value (st_par st' i)).
Proof.
  intros H Hp E Ho. pose proof (exec_no_nan _ _ _ _ H Hp E i) as Hn. split; [apply value_not_nan, Hn|apply value_in_limits; assumption].
Qed.

Definition keeps_raw (i : nat) (st st' : state) : Prop := p_raw (st_par st' i) = p_raw (st_par st i).
Lemma set_par_keeps st i j p : j <> i \/ p_raw p = p_raw (st_par st i) -> keeps_raw i st (set_par st j p).
Proof.
  intros H. unfold keeps_raw, set_par. cbn [st_par]. destruct (Nat.eq_dec i j) as [->|E]; [rewrite upd_same|rewrite upd_other by exact E; reflexivity].
  destruct H as [H|H]; [congruence|exact H].
Qed.
Lemma setter_keeps i st c st' e : call_leaves i c -> setter st c = (st', e) -> keeps_raw i st st'.
Proof.
  intros Hc E. destruct c as [j v|ps vs|g|b|b|d w]; simpl in E, Hc.
  - destruct (set_value_cases st j v) as [[_ E']|[_ E']]; rewrite E' in E; inversion E; subst; [reflexivity|].
    apply set_par_keeps. left. exact Hc.
  - unfold keeps_raw. rewrite (set_each_outside _ _ _ _ _ E i Hc). reflexivity.
  - destruct (set_graph (st_run st) g). inversion E; subst. reflexivity.
  - inversion E; subst. reflexivity. - inversion E; subst. reflexivity. - inversion E; subst. reflexivity.
Qed.
Lemma getter_leaves i st c : call_leaves i c -> call_leaves i (getter st c).
Proof. destruct c; simpl; auto. Qed.
Lemma exec_keeps i p : forall st st' e, leaves i p -> exec p st = (st', e) -> keeps_raw i st st'.
Proof.
  unfold keeps_raw.
  induction p as [|a IHa b IHb|x|a IHa b IHb|c|c b IHb|j v|j v|j l|j l|j b]; intros st st' e Hp E; simpl in E, Hp.
  - inversion E; subst; reflexivity.
  - destruct (exec a st) as [s1 [x|]] eqn:Ea; [inversion E; subst; eapply IHa; [apply Hp|exact Ea]|].
    rewrite (IHb _ _ _ (proj2 Hp) E). eapply IHa; [apply Hp|exact Ea].
  - inversion E; subst; reflexivity.
  - destruct (exec a st) as [s1 [x|]] eqn:Ea; [|inversion E; subst; eapply IHa; [apply Hp|exact Ea]].
    rewrite (IHb _ _ _ (proj2 Hp) E). eapply IHa; [apply Hp|exact Ea].
  - eapply setter_keeps; eassumption.
  - destruct Hp as [Hc Hb]. destruct (setter st c) as [s1 [x|]] eqn:Es; [inversion E; subst; eapply setter_keeps; eassumption|].
    destruct (exec b s1) as [s2 e2] eqn:Eb. pose proof (setter_keeps i _ _ _ _ Hc Es) as K1. unfold keeps_raw in K1.
    pose proof (IHb _ _ _ Hb Eb) as K2.
    assert (K3 : keeps_raw i s2 (fst (setter s2 (getter st c)))).
    { destruct (setter s2 (getter st c)) eqn:Es2. exact (setter_keeps i _ _ _ _ (getter_leaves i st c Hc) Es2). }
    unfold keeps_raw in K3.
    destruct (setter s2 (getter st c)) as [s3 [x|]]; inversion E; subst; simpl in K3; congruence.
  - inversion E; subst. apply set_par_keeps. left. exact Hp.
  - destruct (set_value_cases st j v) as [[_ E']|[_ E']]; rewrite E' in E; inversion E; subst; [reflexivity|]. apply set_par_keeps. left. exact Hp.
  - inversion E; subst. apply set_par_keeps. destruct (Nat.eq_dec j i) as [->|Hj]; [right; reflexivity|left; exact Hj].
  - inversion E; subst. apply set_par_keeps. destruct (Nat.eq_dec j i) as [->|Hj]; [right; reflexivity|left; exact Hj].
  - inversion E; subst. apply set_par_keeps. destruct (Nat.eq_dec j i) as [->|Hj]; [right; reflexivity|left; exact Hj].
Qed.
Lemma C12_last_write w i v p st st1 st' e :
  w = Do (CSet i v) \/ w = Assign i v \/ w = Randomize i v ->
  exec w st = (st1, None) -> leaves i p -> exec p st1 = (st', e) ->
  v <> NaN -> ordered_limits (st_par st' i) -> clipped (st_par st' i) v (p_value (st_par st' i)).
Proof.
  intros Hw E1 Hp E Hv Ho. assert (R1 : p_raw (st_par st1 i) = v).
  { destruct Hw as [->|[->| ->]]; simpl in E1.
    - destruct (set_value_cases st i v) as [[_ E']|[_ E']]; rewrite E' in E1; inversion E1; subst. unfold assign, set_par. cbn [st_par]. rewrite upd_same. reflexivity.
    - inversion E1; subst. unfold assign, set_par. cbn [st_par]. rewrite upd_same. reflexivity.
    - destruct (set_value_cases st i v) as [[_ E']|[_ E']]; rewrite E' in E1; inversion E1; subst. unfold assign, set_par. cbn [st_par]. rewrite upd_same. reflexivity. }
  pose proof (exec_keeps i p _ _ _ Hp E) as K. unfold keeps_raw in K. rewrite R1 in K.
  rewrite <- K. apply value_clipped; [exact Ho|]. rewrite K. exact Hv.
Qed.

(* ---------- C13 ---------- *)
Lemma C13_iff st i q st' e : ordered_limits (st_par st i) -> set_value st i (Fin q) = (st', e) ->
  (e = Some ValueError /\ st' = st /\ beyond (st_par st i) q)
  \/ (e = None /\ ~ beyond (st_par st i) q /\ clipped (st_par st i) (Fin q) (p_value (st_par st' i))
      /\ p_lower (st_par st' i) = p_lower (st_par st i) /\ p_upper (st_par st' i) = p_upper (st_par st i)
      /\ (forall j, j <> i -> st_par st' j = st_par st j) /\ st_run st' = st_run st /\ st_weights st' = st_weights st).
Proof.
  intros Ho E. destruct (set_value_cases st i (Fin q)) as [[Hr E']|[Hr E']]; rewrite E' in E; inversion E; subst.
  - left. split; [reflexivity|]. split; [reflexivity|]. apply rejects_fin; assumption.
  - right. split; [reflexivity|]. split; [intros C; apply (rejects_fin _ _ Ho) in C; congruence|].
    unfold assign, set_par. cbn [st_par st_run st_weights]. rewrite upd_same. split.
    + apply (value_clipped (with_raw (st_par st i) (Fin q))); [exact Ho|discriminate].
    + split; [reflexivity|]. split; [reflexivity|]. split; [|auto]. intros j Hj. apply upd_other, Hj.
Qed.

(* ---------- C14: one block ---------- *)
Definition touched (c : call) (i : nat) : Prop :=
  match c with CSet j _ => i = j | CSetValues ps _ => In i ps | _ => False end.

Lemma getter_shape st c : match c with CSet i _ => exists v, getter st c = CSet i v
  | CSetValues ps _ => exists vs, getter st c = CSetValues ps vs
  | CGraph _ => exists g, getter st c = CGraph g
  | CAutograd _ => exists g, getter st c = CAutograd g
  | CDisableUpdate _ => exists g, getter st c = CDisableUpdate g
  | CWeights d _ => exists g, getter st c = CWeights d g end.
Proof. destruct c; simpl; eauto. Qed.

Lemma block_restores c body st st1 st2 e2 :
  setter st c = (st1, None) -> exec body st1 = (st2, e2) ->
  (forall i, touched c i -> p_lower (st_par st2 i) = p_lower (st_par st i) /\ p_upper (st_par st2 i) = p_upper (st_par st i)
     /\ has_room (st_par st i)) ->
  (forall g, c = CGraph g -> r_graph (st_run st) <> GBad) ->
  exists st3, exec (With c body) st = (st3, e2) /\ getter st3 c = getter st c /\ same_but c st2 st3.
Proof.
  intros Es Eb Hl Hg. simpl exec. rewrite Es, Eb.
  destruct c as [i v|ps vs|g|b|b|d w]; cbn [getter].
  - destruct (Hl i eq_refl) as [L1 [L2 Hr]]. set (old := p_value (st_par st i)).
    assert (Hacc : rejects (st_par st2 i) old = false) by (rewrite (rejects_same (st_par st i)) by assumption; apply restorable, Hr).
    cbn [setter]. unfold set_value. rewrite Hacc. eexists. split; [reflexivity|].
    assert (EP : st_par (assign st2 i old) i = with_raw (st_par st2 i) old) by (unfold assign, set_par; cbn [st_par]; apply upd_same).
    split.
    + simpl getter. rewrite EP. f_equal. rewrite (value_same (with_raw (st_par st i) old)); [|exact L1|exact L2|reflexivity].
      apply value_idem, room_ordered, Hr.
    + split; [intros j Hj; unfold assign, set_par; cbn [st_par]; apply upd_other, Hj|]. split; [|split; [reflexivity|intros; reflexivity]].
      intros j. unfold assign, set_par. cbn [st_par]. destruct (Nat.eq_dec j i) as [->|Hj]; [rewrite upd_same|rewrite upd_other by exact Hj]; auto.
  - set (f := fun i => p_value (st_par st i)).
    destruct (set_each_map f ps st2) as [st3 [E3 G3]].
    { intros i Hi. destruct (Hl i Hi) as [L1 [L2 Hr]]. rewrite (rejects_same (st_par st i)) by assumption. apply restorable, Hr. }
    cbn [setter]. fold f. rewrite E3. exists st3. split; [reflexivity|]. split.
    + simpl getter. f_equal. apply map_ext_in. intros i Hi. destruct (Hl i Hi) as [L1 [L2 Hr]]. rewrite (G3 i Hi).
      rewrite (value_same (with_raw (st_par st i) (f i))); [|exact L1|exact L2|reflexivity]. apply value_idem, room_ordered, Hr.
    + split; [intros j Hj; eapply set_each_outside; eassumption|].
      destruct (set_each_run _ _ _ _ _ E3) as [R1 R2]. split; [|split; [exact R1|intros; rewrite R2; reflexivity]].
      intros j. destruct (set_each_cases _ _ _ _ _ E3 j) as [->|[v [_ [_ ->]]]]; auto.
  - specialize (Hg g eq_refl). cbn [setter].
    assert (X : exists r, set_graph (st_run st2) (r_graph (st_run st)) = (r, None) /\ r_graph r = r_graph (st_run st))
      by (destruct (r_graph (st_run st)); simpl; try congruence; eexists; split; reflexivity).
    destruct X as [r [Er Eg]]. rewrite Er. eexists. split; [reflexivity|]. split; [simpl; rewrite Eg; reflexivity|].
    split; [intros; reflexivity|]. split; [auto|]. split; [exact Logic.I|intros; reflexivity].
  - cbn [setter]. eexists. split; [reflexivity|]. split; [reflexivity|].
    split; [intros; reflexivity|]. split; [auto|]. split; [exact Logic.I|intros; reflexivity].
  - cbn [setter]. eexists. split; [reflexivity|]. split; [simpl; rewrite negb_involutive; reflexivity|].
    split; [intros; reflexivity|]. split; [auto|]. split; [exact Logic.I|intros; reflexivity].
  - cbn [setter]. eexists. split; [reflexivity|]. split; [simpl; rewrite upd_same; reflexivity|].
    split; [intros; reflexivity|]. split; [auto|]. split; [reflexivity|]. intros d' Hd. simpl. apply upd_other, Hd.
Qed.

(* ---------- C14: nested blocks ---------- *)
Lemma same_param_refl p : same_param p p. Proof. repeat split. Qed.
Lemma same_param_trans p q r : same_param p q -> same_param q r -> same_param p r.
Proof. unfold same_param. intros [A [B [C [D E]]]] [A' [B' [C' [D' E']]]]. repeat split; congruence. Qed.
Lemma same_run_refl r : same_run r r. Proof. repeat split. Qed.
Lemma same_run_trans p q r : same_run p q -> same_run q r -> same_run p r.
Proof.
  unfold same_run. intros [A [B [C [D [E F]]]]] [A' [B' [C' [D' [E' F']]]]]. repeat split; try congruence.
Qed.
Lemma same_refl st : same_state st st.
Proof. split; [intros; apply same_param_refl|]. split; [apply same_run_refl|reflexivity]. Qed.
Lemma same_trans a b c : same_state a b -> same_state b c -> same_state a c.
Proof.
  intros [A [B C]] [A' [B' C']]. split; [intros i; eapply same_param_trans; [apply A|apply A']|].
  split; [eapply same_run_trans; eassumption|]. intros d. rewrite C', C. reflexivity.
Qed.

Lemma ordinary_same a b : same_state a b -> ordinary a -> ordinary b.
Proof.
  intros [P [R _]] [Hr Hc]. split.
  - intros i. destruct (P i) as [_ [V [L [U _]]]]. destruct (Hr i) as [A B]. split; [intros l u; rewrite L, U; apply A|].
    rewrite V, L, U. exact B.
  - destruct R as [RG [RB [RA [RN [RU RJ]]]]]. destruct Hc as [K [N M]]. split; [intros k Hk; rewrite RJ; apply K, Hk|].
    split; [congruence|]. rewrite RG, RB. destruct (r_graph (st_run a)); auto; destruct M as [M1 M2]; (split; [exact M1|]);
    intros k x E; rewrite RJ in E; apply (M2 k x E).
Qed.
Lemma rejects_same_state a b : same_state a b -> forall i v, rejects (st_par b i) v = rejects (st_par a i) v.
Proof. intros [P _] i v. destruct (P i) as [_ [_ [L [U _]]]]. apply rejects_same; assumption. Qed.
Definition same_lims (a b : state) : Prop := forall i, p_lower (st_par b i) = p_lower (st_par a i) /\ p_upper (st_par b i) = p_upper (st_par a i).
Lemma temporary_lims a b p : same_lims a b -> temporary a p -> temporary b p.
Proof.
  intros HL H. induction H as [| | | |i v b0 H IH|ps vs b0 Hl Hacc H IH| | | |]; constructor; auto.
  intros i v Hin st1 E. apply (Hacc i v Hin a). unfold set_value in *. destruct (HL i) as [L U].
  rewrite (rejects_same (st_par a i)) in E by assumption. destruct (rejects (st_par a i) v); [reflexivity|discriminate].
Qed.

(* jit dictionaries *)
Lemma jit_set_lookup d k b k' : lookup String.eqb k' (jit_set d k b) = if String.eqb k' k then Some b else lookup String.eqb k' d.
Proof.
  induction d as [|[k0 b0] d IH]; simpl.
  - reflexivity.
  - destruct (String.eqb k k0) eqn:E; simpl.
    + apply String.eqb_eq in E. subst k0. destruct (String.eqb k' k); reflexivity.
    + rewrite IH. destruct (String.eqb k' k0) eqn:E0; [|reflexivity].
      apply String.eqb_eq in E0. subst k0. rewrite String.eqb_sym in E. rewrite E. reflexivity.
Qed.
(** Updating with entries given by a function of the key. *)
Lemma jit_update_fun (f : string -> bool) ks : forall d k,
  lookup String.eqb k (jit_update d (map (fun k => (k, f k)) ks))
  = if mem String.eqb k ks then Some (f k) else lookup String.eqb k d.
Proof.
  unfold jit_update. induction ks as [|k0 ks IH]; intros d k; [reflexivity|].
  cbn [map fold_left fst snd]. rewrite IH. rewrite jit_set_lookup.
  unfold mem. cbn [existsb]. destruct (existsb (String.eqb k) ks) eqn:Ee.
  - rewrite orb_true_r. reflexivity.
  - rewrite orb_false_r. destruct (String.eqb k k0) eqn:E; [|reflexivity].
    apply String.eqb_eq in E. subst. reflexivity.
Qed.
Lemma lookup_mem k (d : list (string * bool)) : mem String.eqb k (map fst d) = match lookup String.eqb k d with Some _ => true | None => false end.
Proof.
  unfold mem. induction d as [|[k0 b0] d IH]; [reflexivity|]. simpl. destruct (String.eqb k k0); [reflexivity|exact IH].
Qed.
Lemma jit_all_lookup d b k : lookup String.eqb k (jit_all d b) = match lookup String.eqb k d with Some _ => Some b | None => None end.
Proof.
  unfold jit_all. replace (map (fun kb : string * bool => (fst kb, b)) d) with (map (fun k => (k, (fun _ => b) k)) (map fst d)) by (rewrite map_map; reflexivity).
  rewrite jit_update_fun, lookup_mem. destruct (lookup String.eqb k d); reflexivity.
Qed.
Lemma default_jit_fun : default_jit = map (fun k => (k, default_of k)) (map fst default_jit).
Proof. reflexivity. Qed.
Lemma mem_app k a b : mem String.eqb k (a ++ b) = mem String.eqb k a || mem String.eqb k b.
Proof. unfold mem. apply existsb_app. Qed.
Lemma mem_cons_s k k0 l : mem String.eqb k (k0 :: l) = (String.eqb k k0 || mem String.eqb k l)%bool.
Proof. reflexivity. Qed.
Lemma mem_rest k ds (d : list (string * bool)) : mem String.eqb k ds = false ->
  mem String.eqb k (map fst (filter (fun kb => negb (mem String.eqb (fst kb) ds)) d)) = mem String.eqb k (map fst d).
Proof.
  intros E. induction d as [|[k0 b0] d IH]; [reflexivity|]. cbn [filter fst].
  destruct (mem String.eqb k0 ds) eqn:E0; cbn [negb map fst]; rewrite !mem_cons_s, ?IH; [|reflexivity].
  destruct (String.eqb k k0) eqn:Ek; [|reflexivity]. apply String.eqb_eq in Ek. subst. congruence.
Qed.
Lemma jit_default_lookup d k : (forall k, In k (map fst default_jit) -> exists b, lookup String.eqb k d = Some b) ->
  lookup String.eqb k (jit_default d) = match lookup String.eqb k d with Some _ => Some (default_of k) | None => None end.
Proof.
  intros Hd. unfold jit_default. rewrite default_jit_fun at 1.
  set (rest := filter _ d).
  replace (map (fun kb : string * bool => (fst kb, default_of (fst kb))) rest) with (map (fun k => (k, default_of k)) (map fst rest)) by (rewrite map_map; reflexivity).
  rewrite <- map_app, jit_update_fun, mem_app.
  destruct (mem String.eqb k (map fst default_jit)) eqn:E; cbn [orb].
  - assert (Hin : In k (map fst default_jit)) by (apply mem_In in E; [exact E|exact string_eqb_ok]).
    destruct (Hd k Hin) as [b ->]. reflexivity.
  - assert (X : mem String.eqb k (map fst rest) = mem String.eqb k (map fst d)).
    { apply mem_rest, E. }
    rewrite X, lookup_mem. destruct (lookup String.eqb k d); reflexivity.
Qed.

Definition plain (g : gmode) : Prop := g = GTrue \/ g = GFalse \/ g = GAuto.
Lemma set_graph_plain r g : plain g -> (forall k, In k (map fst default_jit) -> exists b, lookup String.eqb k (r_jit r) = Some b) ->
  exists r', set_graph r g = (r', None) /\ r_graph r' = g /\ r_autograd r' = r_autograd r /\ r_numgrad r' = r_numgrad r
    /\ r_auto_update r' = r_auto_update r /\ r_backend_eager r' = (match g with GFalse => true | _ => false end)
    /\ forall k, lookup String.eqb k (r_jit r') = match lookup String.eqb k (r_jit r) with
         | Some _ => Some (match g with GTrue => true | GFalse => false | _ => default_of k end) | None => None end.
Proof.
  intros [->|[->| ->]] Hd; simpl; eexists; (split; [reflexivity|]); repeat (split; [reflexivity|]); intros k; simpl.
  - apply jit_all_lookup. - apply jit_all_lookup. - apply jit_default_lookup, Hd.
Qed.

Lemma nested p : forall st st' e, ordinary st -> temporary st p -> exec p st = (st', e) -> same_state st st'.
Proof.
  induction p as [|a IHa b IHb|x|a IHa b IHb|c|c b IHb|i v|i v|i l|i l|i b]; intros st st' e Ho Ht E;
    simpl in E; try (exfalso; inversion Ht; fail).
  - inversion E; subst; apply same_refl.
  - assert (Ta : temporary st a) by (inversion Ht; auto). assert (Tb : temporary st b) by (inversion Ht; auto).
    destruct (exec a st) as [s1 [x|]] eqn:Ea; [inversion E; subst; eapply IHa; eassumption|].
    pose proof (IHa _ _ _ Ho Ta Ea) as S1. eapply same_trans; [exact S1|].
    eapply IHb; [eapply ordinary_same; eassumption| |exact E]. eapply temporary_lims; [|exact Tb].
    intros i. destruct S1 as [P _]. destruct (P i) as [_ [_ [L [U _]]]]. auto.
  - inversion E; subst; apply same_refl.
  - assert (Ta : temporary st a) by (inversion Ht; auto). assert (Tb : temporary st b) by (inversion Ht; auto).
    destruct (exec a st) as [s1 [x|]] eqn:Ea; [|inversion E; subst; eapply IHa; eassumption].
    pose proof (IHa _ _ _ Ho Ta Ea) as S1. eapply same_trans; [exact S1|].
    eapply IHb; [eapply ordinary_same; eassumption| |exact E]. eapply temporary_lims; [|exact Tb].
    intros i. destruct S1 as [P _]. destruct (P i) as [_ [_ [L [U _]]]]. auto.
  - assert (Tb : temporary st b) by (inversion Ht; auto).
    destruct c as [i v|ps vs|g|x|x|d w]; cbn [setter getter] in E.
    + destruct (set_value_cases st i v) as [[Hr E']|[Hr E']]; rewrite E' in E; [inversion E; subst; apply same_refl|].
      set (s1 := assign st i v) in *. destruct (exec b s1) as [s2 e2] eqn:Eb.
      assert (O1 : ordinary s1).
      { split; [|apply Ho]. intros j. unfold s1, assign, set_par. cbn [st_par]. destruct (Nat.eq_dec j i) as [->|Hj];
          [rewrite upd_same; apply accepted_room; [apply Ho|exact Hr]|rewrite upd_other by exact Hj; apply Ho]. }
      assert (L1 : same_lims st s1).
      { intros j. unfold s1, assign, set_par. cbn [st_par]. destruct (Nat.eq_dec j i) as [->|Hj]; [rewrite upd_same|rewrite upd_other by exact Hj]; auto. }
      pose proof (IHb _ _ _ O1 (temporary_lims _ _ _ L1 Tb) Eb) as [P2 [R2 W2]].
      destruct Ho as [Hroom Hc].
      assert (Hacc : rejects (st_par s2 i) (p_value (st_par st i)) = false).
      { destruct (P2 i) as [_ [_ [L [U _]]]]. destruct (L1 i) as [L' U'].
        rewrite (rejects_same (st_par st i)) by congruence. apply restorable, Hroom. }
      unfold set_value in E. rewrite Hacc in E. inversion E; subst. split; [|split; [exact R2|exact W2]].
      intros j. unfold assign, set_par. cbn [st_par]. destruct (Nat.eq_dec j i) as [->|Hj].
      * rewrite upd_same. destruct (P2 i) as [N [_ [L [U F]]]]. unfold s1, assign, set_par in N, L, U, F. cbn [st_par] in N, L, U, F.
        rewrite upd_same in N, L, U, F. simpl in N, L, U, F. unfold same_param. simpl.
        split; [exact N|]. split; [|auto]. rewrite (value_same (with_raw (st_par st i) (p_value (st_par st i)))) by (simpl; auto).
        apply value_idem, room_ordered, Hroom.
      * rewrite upd_other by exact Hj. pose proof (P2 j) as Q. unfold s1, assign, set_par in Q. cbn [st_par] in Q. rewrite upd_other in Q by exact Hj. exact Q.
    + assert (Hlen : length ps = length vs) by (inversion Ht; auto).
      assert (Hacc : forall i v, In (i, v) (combine ps vs) -> rejects (st_par st i) v = false).
      { intros i v Hin. destruct (set_value_cases st i v) as [[_ E']|[Hr _]]; [|exact Hr]. exfalso.
        inversion Ht as [| | | | |ps0 vs0 b0 Hl0 HH Hb0| | | |]; subst. eapply HH; eassumption. }
      destruct (set_each_ok ps st vs Hlen Hacc) as [s1 E1]. rewrite E1 in E. destruct (exec b s1) as [s2 e2] eqn:Eb.
      pose proof (set_each_cases _ _ _ _ _ E1) as C1. destruct (set_each_run _ _ _ _ _ E1) as [RR1 WW1].
      assert (O1 : ordinary s1).
      { split; [|rewrite RR1; apply Ho]. intros j. destruct (C1 j) as [->|[v [_ [Hr ->]]]]; [apply Ho|apply accepted_room; [apply Ho|exact Hr]]. }
      assert (L1 : same_lims st s1).
      { intros j. destruct (C1 j) as [->|[v [_ [Hr ->]]]]; auto. }
      pose proof (IHb _ _ _ O1 (temporary_lims _ _ _ L1 Tb) Eb) as [P2 [R2 W2]].
      destruct Ho as [Hroom Hc]. set (f := fun i => p_value (st_par st i)) in *.
      destruct (set_each_map f ps s2) as [s3 [E3 G3]].
      { intros i Hi. destruct (P2 i) as [_ [_ [L [U _]]]]. destruct (L1 i) as [L' U'].
        rewrite (rejects_same (st_par st i)) by congruence. apply restorable, Hroom. }
      rewrite E3 in E. inversion E; subst. destruct (set_each_run _ _ _ _ _ E3) as [RR3 WW3]. split; [|split].
      * intros j. destruct (P2 j) as [N [V [L [U F]]]]. destruct (L1 j) as [L' U'].
        assert (NF : p_name (st_par s1 j) = p_name (st_par st j) /\ p_floating (st_par s1 j) = p_floating (st_par st j))
          by (destruct (C1 j) as [->|[v [_ [_ ->]]]]; auto). destruct NF as [N' F'].
        destruct (in_dec Nat.eq_dec j ps) as [Hin|Hn].
        -- rewrite (G3 j Hin). unfold same_param. simpl. split; [congruence|]. split; [|repeat split; congruence].
           rewrite (value_same (with_raw (st_par st j) (f j))) by (simpl; congruence). apply value_idem, room_ordered, Hroom.
        -- rewrite (set_each_outside _ _ _ _ _ E3 j Hn). pose proof (set_each_outside _ _ _ _ _ E1 j Hn) as Ej.
           rewrite <- Ej. apply P2.
      * rewrite RR3, <- RR1. exact R2.
      * intros d. rewrite WW3, W2, WW1. reflexivity.
    + assert (Hg : plain g) by (inversion Ht; auto). destruct Ho as [Hroom [Hd [Hn Hm]]].
      destruct (set_graph_plain (st_run st) g Hg Hd) as [r1 [E1 [G1 [A1 [N1 [U1 [B1 J1]]]]]]]. rewrite E1 in E.
      destruct (exec b (set_run st r1)) as [s2 e2] eqn:Eb.
      assert (D1 : forall k, In k (map fst default_jit) -> exists b, lookup String.eqb k (r_jit r1) = Some b)
        by (intros k Hk; rewrite J1; destruct (Hd k Hk) as [x ->]; eauto).
      assert (O1 : ordinary (set_run st r1)).
      { split; [exact Hroom|]. split; [exact D1|]. cbn [st_run set_run]. split; [congruence|]. rewrite G1.
        destruct Hg as [Hg|[Hg|Hg]]; subst g; (split; [exact B1|]); intros k x Ek; rewrite J1 in Ek; destruct (lookup String.eqb k (r_jit (st_run st))); inversion Ek; reflexivity. }
      assert (L1 : same_lims st (set_run st r1)) by (intros j; auto).
      pose proof (IHb _ _ _ O1 (temporary_lims _ _ _ L1 Tb) Eb) as [P2 [R2 W2]].
      destruct R2 as [RG [RB [RA [RN [RU RJ]]]]]. cbn [st_run set_run] in RG, RB, RA, RN, RU, RJ.
      assert (Hold : plain (r_graph (st_run st))) by (unfold plain; destruct (r_graph (st_run st)); auto; contradiction).
      assert (D2 : forall k, In k (map fst default_jit) -> exists b, lookup String.eqb k (r_jit (st_run s2)) = Some b)
        by (intros k Hk; rewrite RJ; apply D1, Hk).
      destruct (set_graph_plain (st_run s2) _ Hold D2) as [r3 [E3 [G3 [A3 [N3 [U3 [B3 J3]]]]]]]. rewrite E3 in E.
      inversion E; subst. split; [exact P2|]. split; [|exact W2]. unfold same_run. cbn [st_run set_run].
      split; [exact G3|]. split.
      { rewrite B3. destruct Hold as [Hold|[Hold|Hold]]; rewrite Hold in *; destruct Hm as [Hm _]; symmetry; exact Hm. }
      split; [congruence|]. split; [congruence|]. split; [congruence|].
      intros k. rewrite J3, RJ, J1. destruct (lookup String.eqb k (r_jit (st_run st))) as [x|] eqn:Ek; [|reflexivity].
      destruct Hold as [Hold|[Hold|Hold]]; rewrite Hold in *; destruct Hm as [_ Hm]; rewrite (Hm k x Ek); reflexivity.
    + destruct (exec b _) as [s2 e2] eqn:Eb in E. set (s1 := set_run st _) in Eb.
      assert (O1 : ordinary s1).
      { destruct Ho as [Hroom [Hd [Hn Hm]]]. split; [exact Hroom|]. split; [exact Hd|]. split; [reflexivity|exact Hm]. }
      assert (L1 : same_lims st s1) by (intros j; auto).
      pose proof (IHb _ _ _ O1 (temporary_lims _ _ _ L1 Tb) Eb) as [P2 [[RG [RB [RA [RN [RU RJ]]]]] W2]].
      destruct Ho as [Hroom [Hd [Hn Hm]]]. inversion E; subst. split; [exact P2|]. split; [|exact W2].
      unfold same_run. cbn. unfold s1 in *. cbn in RG, RB, RA, RN, RU, RJ. repeat split; auto.
    + destruct (exec b _) as [s2 e2] eqn:Eb in E. set (s1 := set_run st _) in Eb.
      assert (O1 : ordinary s1).
      { destruct Ho as [Hroom [Hd [Hn Hm]]]. split; [exact Hroom|]. split; [exact Hd|]. split; [exact Hn|exact Hm]. }
      assert (L1 : same_lims st s1) by (intros j; auto).
      pose proof (IHb _ _ _ O1 (temporary_lims _ _ _ L1 Tb) Eb) as [P2 [[RG [RB [RA [RN [RU RJ]]]]] W2]].
      destruct Ho as [Hroom [Hd [Hn Hm]]]. inversion E; subst. split; [exact P2|]. split; [|exact W2].
      unfold same_run. cbn. unfold s1 in *. cbn in RG, RB, RA, RN, RU, RJ. rewrite negb_involutive. repeat split; auto.
    + destruct (exec b _) as [s2 e2] eqn:Eb in E. set (s1 := mkState _ _ _) in Eb.
      assert (O1 : ordinary s1) by exact Ho.
      assert (L1 : same_lims st s1) by (intros j; auto).
      pose proof (IHb _ _ _ O1 (temporary_lims _ _ _ L1 Tb) Eb) as [P2 [R2 W2]].
      inversion E; subst. split; [exact P2|]. split; [exact R2|]. intros d'. cbn [st_weights].
      destruct (Nat.eq_dec d' d) as [->|Hd]; [rewrite upd_same; reflexivity|rewrite upd_other by exact Hd].
      rewrite W2. unfold s1. cbn [st_weights]. apply upd_other, Hd.
Qed.
