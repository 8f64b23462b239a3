From Verif Require Import Base BaseLemmas Param_Model Param_Spec Param_Proofs Param_Proofs2 Param_Proofs3 Mini_Model Mini_Spec Mini_Proofs Mini_Proofs2.

Section X.
Variable results : nat -> fitres.
Hypothesis PROPER : forall k, NoDup (map fst (fr_params (results k))).
Notation ids_of k := (map fst (fr_params (results k))).

Lemma ids_found r (l : list nat) : incl l (map fst r) -> forallb (fun i => mem Nat.eqb i (map (@fst nat num) r)) l = true.
Proof. intros H. apply forallb_forall. intros i I. apply (mem_In _ nat_eqb_ok). apply H, I. Qed.
Lemma update_each st k : update_params results st k = set_each st (ids_of k) (map (value_in (fr_params (results k))) (ids_of k)).
Proof. unfold update_params, set_values. rewrite convert_result_spec, ids_found by apply incl_refl. reflexivity. Qed.

Lemma update_ok st k : accepts st (results k) -> exists st', update_params results st k = (st', None) /\ same_but_values st st' /\
  (forall j, st_par st' j = if mem Nat.eqb j (ids_of k) then with_raw (st_par st j) (value_in (fr_params (results k)) j) else st_par st j).
Proof.
  intros A. rewrite update_each.
  destruct (set_each_map (value_in (fr_params (results k))) (ids_of k) st) as (st'&E&_).
  - intros i I. apply in_map_iff in I. destruct I as ([j v]&<-&I). cbn. rewrite (value_in_In _ _ _ (PROPER k) I). apply A, I.
  - exists st'. split; [exact E|]. split; [eapply set_each_bv; exact E|]. apply set_each_done. exact E.
Qed.
Lemma update_bv st k st' e : update_params results st k = (st', e) -> same_but_values st st'.
Proof. rewrite update_each. apply set_each_bv. Qed.

Lemma accepts_bv a b r : same_but_values a b -> accepts a r -> accepts b r.
Proof. intros B A i v H. rewrite (bv_rejects _ _ _ _ B). apply A, H. Qed.
Lemma blocks_bv p : forall a b, same_but_values a b -> blocks_accepted results a p -> blocks_accepted results b p.
Proof.
  induction p; intros x y B; cbn; auto.
  - intros [H1 H2]. eauto.
  - intros [H1 H2]. eauto.
  - intros [H1 H2]. split; [eapply accepts_bv; eassumption|eauto].
Qed.

Lemma enter_ok st (ss : stacks) k : accepts st (results k) ->
  exists st', enter results (st, ss) k = ((st', upd ss k (map (fun i => p_value (st_par st i)) (ids_of k) :: ss k)), None) /\
  same_but_values st st' /\
  (forall j, st_par st' j = if mem Nat.eqb j (ids_of k) then with_raw (st_par st j) (value_in (fr_params (results k)) j) else st_par st j).
Proof.
  intros A. destruct (update_ok st k A) as (st'&E&B&C). exists st'. unfold enter. rewrite E. auto.
Qed.
Lemma leave_bv st (ss : stacks) k old rest : ss k = old :: rest ->
  exists st' e, leave results (st, ss) k = ((st', upd ss k rest), e) /\ same_but_values st st'.
Proof.
  intros S. unfold leave. rewrite S. unfold set_values. destruct (convert_values _ _ _ _) as [[l vs]|e].
  - destruct (set_each st l vs) as [st' e] eqn:E. exists st', e. split; [reflexivity|]. eapply set_each_bv; exact E.
  - exists st, (Some e). split; [reflexivity|apply same_bv_refl].
Qed.
Lemma upd_back (ss ss' : stacks) k old : (forall j, ss' j = upd ss k (old :: ss k) j) -> forall j, upd ss' k (ss k) j = ss j.
Proof. intros H j. destruct (Nat.eq_dec j k) as [->|N]; [apply upd_same|]. rewrite upd_other by exact N. rewrite H. apply upd_other, N. Qed.

Lemma balanced p : forall st ss, keeps_limits p -> blocks_accepted results st p ->
  same_but_values st (fst (fst (rexec results p (st, ss)))) /\ (forall k, snd (fst (rexec results p (st, ss))) k = ss k).
Proof.
  induction p as [|a IHa b IHb|e|a IHa b IHb|k b IH|k|i v|i v|i l u]; intros st ss K A; cbn [keeps_limits blocks_accepted] in *.
  - cbn. split; [apply same_bv_refl|reflexivity].
  - destruct K as [K1 K2], A as [A1 A2]. cbn [rexec]. destruct (IHa st ss K1 A1) as [B1 S1].
    destruct (rexec results a (st, ss)) as [[st1 ss1] [e|]]; cbn [fst snd] in *; [auto|].
    destruct (IHb st1 ss1 K2 (blocks_bv _ _ _ B1 A2)) as [B2 S2]. split; [eapply same_bv_trans; eassumption|].
    intros j. rewrite S2. apply S1.
  - cbn. split; [apply same_bv_refl|reflexivity].
  - destruct K as [K1 K2], A as [A1 A2]. cbn [rexec]. destruct (IHa st ss K1 A1) as [B1 S1].
    destruct (rexec results a (st, ss)) as [[st1 ss1] [e|]]; cbn [fst snd] in *; [|auto].
    destruct (IHb st1 ss1 K2 (blocks_bv _ _ _ B1 A2)) as [B2 S2]. split; [eapply same_bv_trans; eassumption|].
    intros j. rewrite S2. apply S1.
  - destruct A as [A1 A2]. destruct (enter_ok st ss k A1) as (st1&E&B1&_). cbn [rexec]. rewrite E.
    destruct (IH st1 (upd ss k (map (fun i => p_value (st_par st i)) (ids_of k) :: ss k)) K (blocks_bv _ _ _ B1 A2)) as [B2 S2].
    destruct (rexec results b _) as [[st2 ss2] e]; cbn [fst snd] in *.
    destruct (leave_bv st2 ss2 k (map (fun i => p_value (st_par st i)) (ids_of k)) (ss k)) as (st3&e'&L&B3); [rewrite S2; apply upd_same|].
    rewrite L. destruct e'; cbn [fst snd]; (split; [eapply same_bv_trans; [exact B1|eapply same_bv_trans; eassumption]|]); apply (upd_back ss ss2 k _ S2).
  - cbn [rexec fst snd]. destruct (update_params results st k) as [st' e] eqn:E. cbn [fst snd]. split; [eapply update_bv; exact E|reflexivity].
  - cbn [rexec fst snd]. destruct (set_value_cases st i v) as [[_ E]|[_ E]]; rewrite E; cbn [fst snd]; (split; [|reflexivity]).
    + apply same_bv_refl.
    + exact (assign_each_bv [i] [v] st).
  - cbn [rexec fst snd]. split; [exact (assign_each_bv [i] [v] st)|reflexivity].
  - contradiction.
Qed.

(** Leaving restores *)
Lemma leave_ok st0 st (ss : stacks) k rest : same_but_values st0 st -> (forall i, In i (ids_of k) -> has_room (st_par st0 i)) ->
  ss k = map (fun i => p_value (st_par st0 i)) (ids_of k) :: rest ->
  exists st', leave results (st, ss) k = ((st', upd ss k rest), None) /\ same_but_values st st' /\
  (forall j, st_par st' j = if mem Nat.eqb j (ids_of k) then with_raw (st_par st j) (p_value (st_par st0 j)) else st_par st j).
Proof.
  intros B R S. unfold leave. rewrite S, values_each.
  destruct (set_each_map (fun i => p_value (st_par st0 i)) (ids_of k) st) as (st'&E&_).
  - intros i I. rewrite (bv_rejects _ _ _ _ B). apply restorable, R, I.
  - rewrite E. exists st'. split; [reflexivity|]. split; [eapply set_each_bv; exact E|]. apply set_each_done. exact E.
Qed.

Lemma block st (ss : stacks) k body : keeps_limits body -> blocks_accepted results st (RWith k body) ->
  (forall i, In i (ids_of k) -> has_room (st_par st i)) ->
  exists w1 w2 e,
    (forall i v, In (i, v) (fr_params (results k)) -> st_par (fst w1) i = with_raw (st_par st i) v) /\
    (forall i, ~ In i (ids_of k) -> st_par (fst w1) i = st_par st i) /\
    rexec results body w1 = (w2, e) /\
    snd (rexec results (RWith k body) (st, ss)) = e /\
    (forall j, snd (fst (rexec results (RWith k body) (st, ss))) j = ss j) /\
    (forall i, In i (ids_of k) -> p_value (st_par (fst (fst (rexec results (RWith k body) (st, ss)))) i) = p_value (st_par st i)) /\
    (forall i, ~ In i (ids_of k) -> st_par (fst (fst (rexec results (RWith k body) (st, ss)))) i = st_par (fst w2) i).
Proof.
  intros K [A1 A2] R. destruct (enter_ok st ss k A1) as (st1&E&B1&V1). cbn [rexec]. rewrite E.
  destruct (balanced body st1 (upd ss k (map (fun i => p_value (st_par st i)) (ids_of k) :: ss k)) K (blocks_bv _ _ _ B1 A2)) as [B2 S2].
  destruct (rexec results body _) as [[st2 ss2] e] eqn:X; cbn [fst snd] in *.
  destruct (leave_ok st st2 ss2 k (ss k)) as (st3&L&B3&V3); [eapply same_bv_trans; eassumption|exact R|rewrite S2; apply upd_same|].
  rewrite L. exists (st1, upd ss k (map (fun i => p_value (st_par st i)) (ids_of k) :: ss k)), (st2, ss2), e. cbn [fst snd].
  split; [|split; [|split; [exact X|split; [reflexivity|split; [apply (upd_back ss ss2 k _ S2)|split]]]]].
  - intros i v H. rewrite V1. assert (mem Nat.eqb i (ids_of k) = true) as -> by (apply (mem_In _ nat_eqb_ok); apply (in_map fst) in H; exact H).
    rewrite (value_in_In _ _ _ (PROPER k) H). reflexivity.
  - intros i H. rewrite V1. apply (mem_false _ nat_eqb_ok) in H. rewrite H. reflexivity.
  - intros i H. rewrite V3. assert (H' := H). apply (mem_In _ nat_eqb_ok) in H'. rewrite H'.
    rewrite (bv_value st st2 i _ (same_bv_trans _ _ _ B1 B2)). apply value_idem, room_ordered, R, H.
  - intros i H. rewrite V3. apply (mem_false _ nat_eqb_ok) in H. rewrite H. reflexivity.
Qed.

(** Scoped programs *)
Lemma scoped_keeps p : forall inside, scoped results inside p -> keeps_limits p.
Proof. induction p; intros inside; cbn; auto; try (intros [H1 H2]; eauto); eauto. Qed.
Lemma bv_has_room_raw a b i : same_but_values a b -> has_room (st_par a i) -> p_value (st_par b i) <> PInf /\ p_value (st_par b i) <> NInf -> has_room (st_par b i).
Proof. intros [B _] [H1 H2] H. destruct (B i) as (_&L&U&_). split; [rewrite L, U; exact H1|intros _; exact H]. Qed.
Lemma finite_room p v : has_room p -> v <> PInf -> v <> NInf -> has_room (with_raw p v).
Proof.
  intros [H1 H2] N1 N2. split; [exact H1|]. intros HL. unfold p_value, has_limits, lower_of, upper_of in *. cbn [with_raw p_lower p_upper p_raw] in *.
  destruct v as [q| | |]; try congruence; destruct (p_lower p), (p_upper p); cbn; repeat (match goal with |- context [if ?c then _ else _] => destruct c end; cbn); try (split; congruence).
Qed.
Lemma set_each_room ids vs st st' e : set_each st ids vs = (st', e) -> (forall i, has_room (st_par st i)) -> forall i, has_room (st_par st' i).
Proof.
  intros E R i. destruct (set_each_cases _ _ _ _ _ E i) as [->|(v&_&RJ&->)]; [apply R|]. apply accepted_room; [apply R|exact RJ].
Qed.

Lemma scoped_ok p : forall inside st ss, scoped results inside p -> blocks_accepted results st p -> (forall i, has_room (st_par st i)) ->
  let w := fst (rexec results p (st, ss)) in
  (forall i, has_room (st_par (fst w) i)) /\ (forall i, ~ In i inside -> p_value (st_par (fst w) i) = p_value (st_par st i)).
Proof.
  induction p as [|a IHa b IHb|e|a IHa b IHb|k b IH|k|i v|i v|i l u]; intros inside st ss SC A R; cbn [scoped blocks_accepted] in *.
  - cbn. auto.
  - destruct SC as [K1 K2], A as [A1 A2]. cbn [rexec]. destruct (IHa inside st ss K1 A1 R) as [R1 V1].
    destruct (balanced a st ss (scoped_keeps _ _ K1) A1) as [B1 _].
    destruct (rexec results a (st, ss)) as [[st1 ss1] [e|]]; cbn [fst snd] in *; [auto|].
    destruct (IHb inside st1 ss1 K2 (blocks_bv _ _ _ B1 A2) R1) as [R2 V2]. split; [exact R2|]. intros i H. rewrite V2, V1 by exact H. reflexivity.
  - cbn. auto.
  - destruct SC as [K1 K2], A as [A1 A2]. cbn [rexec]. destruct (IHa inside st ss K1 A1 R) as [R1 V1].
    destruct (balanced a st ss (scoped_keeps _ _ K1) A1) as [B1 _].
    destruct (rexec results a (st, ss)) as [[st1 ss1] [e|]]; cbn [fst snd] in *; [|auto].
    destruct (IHb inside st1 ss1 K2 (blocks_bv _ _ _ B1 A2) R1) as [R2 V2]. split; [exact R2|]. intros i H. rewrite V2, V1 by exact H. reflexivity.
  - destruct A as [A1 A2]. destruct (enter_ok st ss k A1) as (st1&E&B1&V1). cbn [rexec]. rewrite E.
    assert (R1 : forall i, has_room (st_par st1 i)).
    { intros i. rewrite V1. destruct (mem Nat.eqb i (ids_of k)) eqn:M; [|apply R]. apply accepted_room; [apply R|].
      apply mem_keys in M. destruct M as [v M]. rewrite (value_in_In _ _ _ (PROPER k) M). apply A1, M. }
    set (ss1 := upd ss k (map (fun i => p_value (st_par st i)) (ids_of k) :: ss k)).
    destruct (IH (ids_of k ++ inside) st1 ss1 SC (blocks_bv _ _ _ B1 A2) R1) as [R2 V2].
    destruct (balanced b st1 ss1 (scoped_keeps _ _ SC) (blocks_bv _ _ _ B1 A2)) as [B2 S2].
    destruct (rexec results b _) as [[st2 ss2] e] eqn:X; cbn [fst snd] in *.
    assert (B12 : same_but_values st st2) by (eapply same_bv_trans; eassumption).
    destruct (leave_ok st st2 ss2 k (ss k)) as (st3&L&B3&V3); [exact B12|auto|rewrite S2; apply upd_same|].
    rewrite L. cbn [fst snd]. split.
    + intros i. rewrite V3. destruct (mem Nat.eqb i (ids_of k)); [|apply R2]. apply accepted_room; [apply R2|].
      rewrite (bv_rejects _ _ _ _ B12). apply restorable, R.
    + intros i H. rewrite V3. destruct (mem Nat.eqb i (ids_of k)) eqn:M.
      * rewrite (bv_value st st2 i _ B12). apply value_idem, room_ordered, R.
      * rewrite V2; [rewrite V1, M; reflexivity|]. rewrite in_app_iff. intros [I|I]; [|contradiction].
        apply (mem_In _ nat_eqb_ok) in I. congruence.
  - cbn [rexec fst snd]. destruct (update_params results st k) as [st' e] eqn:E. cbn [fst snd]. rewrite update_each in E.
    split; [eapply set_each_room; eassumption|]. intros i H. rewrite (set_each_outside _ _ _ _ _ E); [reflexivity|]. intros I. apply H, SC, I.
  - cbn [rexec fst snd]. destruct (set_value_cases st i v) as [[_ E]|[RJ E]]; rewrite E; cbn [fst snd]; [auto|].
    unfold assign, set_par. cbn [st_par]. split.
    + intros j. destruct (Nat.eq_dec j i) as [->|N]; [rewrite upd_same; apply accepted_room; [apply R|exact RJ]|rewrite upd_other by exact N; apply R].
    + intros j H. rewrite upd_other; [reflexivity|]. intros ->. contradiction.
  - cbn [rexec fst snd]. destruct SC as (SC&N1&N2). unfold assign, set_par. cbn [st_par]. split.
    + intros j. destruct (Nat.eq_dec j i) as [->|N]; [rewrite upd_same; apply finite_room; auto|rewrite upd_other by exact N; apply R].
    + intros j H. rewrite upd_other; [reflexivity|]. intros ->. contradiction.
  - contradiction.
Qed.
End X.
