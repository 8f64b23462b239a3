From Coq Require Import Lia.
From Verif Require Import Base BaseLemmas Dill_Model Dill_Spec.
Open Scope list_scope.

Section Clear.
Context {St A : Type} (clear reset : St -> St) (func : St -> St * (A + perr)).
Hypothesis PLAIN : forall st e, snd (func st) = inr e -> plain e.
Notation state := (attempt_state clear reset func).

Lemma clear_step t st : retry_clear clear reset func (S t) st =
  match func (reset st) with
  | (st1, inl a) => (st1, inl a)
  | (st1, inr _) => if Nat.eqb t 0 then (st1, inr DillLoadError) else retry_clear clear reset func t (clear st1)
  end.
Proof.
  cbn [retry_clear]. pose proof (PLAIN (reset st)) as P. destruct (func (reset st)) as [st1 [a|e]]; [reflexivity|].
  specialize (P e eq_refl). destruct e; try reflexivity. destruct P.
Qed.

Lemma clear_ok t : forall st st' a, retry_clear clear reset func (S t) st = (st', inl a) <->
  exists k, k <= t /\ (forall i, i < k -> exists e, snd (func (state i st)) = inr e) /\ func (state k st) = (st', inl a).
Proof.
  induction t as [|t IH]; intros st st' a; rewrite clear_step.
  - cbn [Nat.eqb]. split.
    + intros H. exists 0. split; [lia|]. split; [lia|]. cbn [attempt_state]. destruct (func (reset st)) as [st1 [b|e]]; [now injection H as <- <-|discriminate].
    + intros (k & K & _ & H). assert (k = 0) as -> by lia. cbn [attempt_state] in H. rewrite H. reflexivity.
  - cbn [Nat.eqb]. destruct (func (reset st)) as [st1 [b|e]] eqn:F.
    + split.
      * intros H. injection H as <- <-. exists 0. split; [lia|]. split; [lia|]. exact F.
      * intros (k & K & E & H). destruct k as [|k]; [cbn [attempt_state] in H; rewrite F in H; now injection H as <- <-|].
        destruct (E 0 ltac:(lia)) as [e X]. cbn [attempt_state] in X. rewrite F in X. discriminate.
    + rewrite IH. split.
      * intros (k & K & E & H). exists (S k). split; [lia|]. split; [|cbn [attempt_state]; now rewrite F].
        intros [|i] I; [exists e; cbn [attempt_state]; now rewrite F|]. cbn [attempt_state]. rewrite F. apply E. lia.
      * intros (k & K & E & H). destruct k as [|k]; [cbn [attempt_state] in H; rewrite F in H; discriminate|].
        exists k. split; [lia|]. split; [|cbn [attempt_state] in H; now rewrite F in H].
        intros i I. specialize (E (S i) ltac:(lia)). cbn [attempt_state] in E. now rewrite F in E.
Qed.

Lemma clear_err t : forall st e, snd (retry_clear clear reset func (S t) st) = inr e <->
  e = DillLoadError /\ forall k, k <= t -> exists e', snd (func (state k st)) = inr e'.
Proof.
  induction t as [|t IH]; intros st e; rewrite clear_step; cbn [Nat.eqb]; destruct (func (reset st)) as [st1 [b|e1]] eqn:F.
  - split; [discriminate|]. intros (_ & E). destruct (E 0 (le_n _)) as [e' X]. cbn [attempt_state] in X. rewrite F in X. discriminate.
  - cbn [snd]. split.
    + intros H. injection H as <-. split; [reflexivity|]. intros k K. assert (k = 0) as -> by lia. exists e1. cbn [attempt_state]. now rewrite F.
    + now intros (-> & _).
  - split; [discriminate|]. intros (_ & E). destruct (E 0 ltac:(lia)) as [e' X]. cbn [attempt_state] in X. rewrite F in X. discriminate.
  - rewrite IH. split; intros (-> & E); (split; [reflexivity|]); intros k K.
    + destruct k as [|k]; [exists e1; cbn [attempt_state]; now rewrite F|]. cbn [attempt_state]. rewrite F. apply E. lia.
    + specialize (E (S k) ltac:(lia)). cbn [attempt_state] in E. now rewrite F in E.
Qed.
End Clear.

(** without any condition: a success comes from some attempt *)
Lemma clear_success {St A : Type} (clear reset : St -> St) (func : St -> St * (A + perr)) t : forall st st' a,
  retry_clear clear reset func t st = (st', inl a) -> exists s, func (reset s) = (st', inl a).
Proof.
  induction t as [|t IH]; intros st st' a; cbn [retry_clear]; [discriminate|].
  destruct (func (reset st)) as [st1 [b|e]] eqn:F; [intros H; injection H as <- <-; exists st; exact F|].
  destruct e as [? ? ?|?|[]|?]; try discriminate; [destruct (Nat.eqb t 0); [discriminate|]; apply IH|destruct (Nat.eqb t 0); [discriminate|]; apply IH|apply IH|destruct (Nat.eqb t 0); [discriminate|]; apply IH].
Qed.
(** what every step keeps is kept *)
Lemma clear_keeps {St A : Type} (clear reset : St -> St) (func : St -> St * (A + perr)) (P : St -> Prop) :
  (forall s, P s -> P (clear s)) -> (forall s, P s -> P (reset s)) -> (forall s, P s -> P (fst (func s))) ->
  forall t st, P st -> P (fst (retry_clear clear reset func t st)).
Proof.
  intros C R F. induction t as [|t IH]; intros st H; cbn [retry_clear]; [exact H|].
  pose proof (F _ (R _ H)) as H1. destruct (func (reset st)) as [st1 [b|e]]; [exact H1|]. cbn [fst] in H1.
  destruct e as [? ? ?|?|[]|?]; auto; destruct (Nat.eqb t 0); auto.
Qed.
Lemma gc_keeps {St A : Type} (gc : St -> St) (func : St -> St * (A + perr)) (P : St -> Prop) :
  (forall s, P s -> P (gc s)) -> (forall s, P s -> P (fst (func s))) ->
  forall d m st, P st -> P (fst (retry_gc gc func d m st)).
Proof.
  intros G F. induction d as [|d IH]; intros m st H; cbn [retry_gc]; [exact H|].
  pose proof (F _ H) as H1. destruct (func st) as [st1 [a|e]]; [exact H1|]. cbn [fst] in H1.
  destruct e as [fg wg ip|[]|?|?]; auto. destruct (negb _); [exact H1|]. destruct (Nat.eqb m 0); [exact H1|]. auto.
Qed.
Lemma gc_success {St A : Type} (gc : St -> St) (func : St -> St * (A + perr)) d : forall m st st' a,
  retry_gc gc func d m st = (st', inl a) -> exists s, func s = (st', inl a).
Proof.
  induction d as [|d IH]; intros m st st' a; cbn [retry_gc]; [discriminate|].
  destruct (func st) as [st1 [b|e]] eqn:F; [intros H; injection H as <- <-; exists st; exact F|].
  destruct e as [fg wg ip|[]|?|?]; try discriminate; [|apply IH].
  destruct (negb _); [discriminate|]. destruct (Nat.eqb m 0); [discriminate|]. apply IH.
Qed.
(** the number of calls, if no dictionary changes its size *)
Lemma gc_count {St A : Type} (gc : St -> St) (func : St -> St * (A + perr)) (count : St -> nat) :
  (forall s, count (gc s) = count s) -> (forall s, count (fst (func s)) = S (count s)) ->
  (forall s, snd (func s) <> inr (ERuntime true)) ->
  forall d m st, count (fst (retry_gc gc func d m st)) <= count st + S m.
Proof.
  intros G F N. induction d as [|d IH]; intros m st; cbn [retry_gc]; [cbn; lia|].
  pose proof (F st) as H1. pose proof (N st) as H2. destruct (func st) as [st1 [a|e]]; cbn [fst snd] in *; [lia|].
  destruct e as [fg wg ip|[]|?|?]; cbn [fst]; try lia; [|now destruct H2].
  destruct (negb _); cbn [fst]; [lia|]. destruct (Nat.eqb m 0) eqn:M; cbn [fst]; [lia|]. apply Nat.eqb_neq in M.
  specialize (IH (m - 1) (gc st1)). rewrite G in IH. lia.
Qed.
(** and if they always do *)
Lemma gc_endless {St A : Type} (gc : St -> St) (func : St -> St * (A + perr)) (count : St -> nat) :
  (forall s, count (gc s) = count s) -> (forall s, count (fst (func s)) = S (count s)) ->
  (forall s, snd (func s) = inr (ERuntime true)) ->
  forall d m st, count (fst (retry_gc gc func d m st)) = count st + d /\ snd (retry_gc gc func d m st) = inr RecursionError.
Proof.
  intros G F N. induction d as [|d IH]; intros m st; cbn [retry_gc]; [cbn; split; [lia|reflexivity]|].
  pose proof (F st) as H1. pose proof (N st) as H2. destruct (func st) as [st1 r]; cbn [fst snd] in *. subst r.
  destruct (IH (m - 1) (gc st1)) as (A1 & A2). split; [rewrite A1, G; lia|exact A2].
Qed.

Section Dill.
Context {W Obj Byte : Type}.
Context (pickle : Obj -> W -> W * (list Byte * option perr)) (unpickle : list Byte -> W -> W * (nat * (Obj + perr))).
Context (gc clear : W -> W) (depth : nat).
Notation loads := (loads unpickle clear).
Notation load := (load unpickle clear).
Notation dumps := (dumps pickle unpickle gc clear depth).
Notation dump := (dump pickle unpickle gc clear depth).
Notation dumps_loop := (dumps_loop pickle unpickle gc clear depth).
Notation dump_loop := (dump_loop pickle unpickle gc clear depth).

Lemma loads_nat b m w : loads b (Some (Z.of_nat m)) w = retry_clear clear (fun w => w) (loads_once unpickle b) (S m) w.
Proof. unfold Dill_Model.loads. cbn [check_retries]. rewrite (proj2 (Z.ltb_ge _ _)) by lia. now rewrite Nat2Z.id. Qed.
Lemma load_nat m st : load (Some (Z.of_nat m)) st
  = retry_clear (clear_st clear) (fun s => (fst s, seek (snd s) (pos (snd st)))) (load_once unpickle) (S m) st.
Proof. unfold Dill_Model.load. cbn [check_retries]. rewrite (proj2 (Z.ltb_ge _ _)) by lia. now rewrite Nat2Z.id. Qed.
Lemma check_retries_some m k : check_retries m = Some k -> m = None /\ k = 2 \/ m = Some (Z.of_nat k).
Proof.
  unfold check_retries. destruct m as [z|]; [|intros H; injection H as <-; auto].
  destruct (Z.ltb_spec z 0); [discriminate|]. intros H'. injection H' as <-. right. now rewrite Z2Nat.id.
Qed.

Lemma loads_success b m w w' o : loads b m w = (w', inl o) -> exists w1 n, unpickle b w1 = (w', (n, inl o)).
Proof.
  unfold Dill_Model.loads. destruct (check_retries m) as [k|]; [|discriminate]. intros H.
  apply clear_success in H as (s & H). unfold loads_once in H. exists s. destruct (unpickle b s) as [w1 [n r]].
  cbn [snd] in H. injection H as -> ->. eauto.
Qed.

Lemma dumps_loop_ok x m v t : forall redo w w' out, dumps_loop x m v t redo w = (w', inl out) ->
  (exists w1 w2, pickle x w1 = (w2, (out, None)))
  /\ (v = true -> exists w1 w2 o, loads out (Some (Z.of_nat m)) w1 = (w2, inl o)).
Proof.
  induction t as [|t IH]; intros redo w w' out; cbn [Dill_Model.dumps_loop]; [discriminate|].
  destruct (retry_gc gc (dumps_once pickle x) depth m w) as [w1 [b|e]] eqn:G; [|discriminate].
  assert (P : exists u1 u2, pickle x u1 = (u2, (b, None))).
  { apply gc_success in G as (s & G). unfold dumps_once in G. destruct (pickle x s) as [s1 [b' [e|]]] eqn:PS; cbn [fst snd] in G; [discriminate|].
    injection G as <- <-. eauto. }
  destruct v.
  - destruct (loads b (Some (Z.of_nat m)) w1) as [w2 [o|e]] eqn:L.
    + destruct (redo && negb (Nat.eqb t 0)) eqn:R; [apply IH|]. intros H. injection H as <- <-. split; [exact P|]. eauto.
    + destruct e; try discriminate. destruct (Nat.eqb t 0) eqn:T; [discriminate|]. cbn [andb negb]. apply IH.
  - destruct (redo && negb (Nat.eqb t 0)) eqn:R; [apply IH|]. intros H. injection H as <- <-. split; [exact P|]. discriminate.
Qed.

Lemma dumps_count x (count : W -> nat) m v :
  (forall w, count (gc w) = count w) -> (forall w, count (clear w) = count w) ->
  (forall y w, count (fst (pickle y w)) = S (count w)) -> (forall b w, count (fst (unpickle b w)) = count w) ->
  (forall y w, snd (snd (pickle y w)) <> Some (ERuntime true)) ->
  forall t redo w, count (fst (dumps_loop x m v t redo w)) <= count w + t * S m.
Proof.
  intros G C P U N.
  assert (F1 : forall s, count (fst (dumps_once pickle x s)) = S (count s)).
  { intros s. unfold dumps_once. specialize (P x s). now destruct (pickle x s). }
  assert (F2 : forall s, snd (dumps_once pickle x s) <> inr (ERuntime true)).
  { intros s. unfold dumps_once. specialize (N x s). destruct (pickle x s) as [w1 [b [e|]]]; cbn [fst snd] in *; [|discriminate].
    intros H. injection H as ->. now apply N. }
  assert (LC : forall b mm w n, count w = n -> count (fst (loads b mm w)) = n).
  { intros b mm w n E. unfold Dill_Model.loads. destruct (check_retries mm); [|exact E].
    apply (clear_keeps clear (fun w => w) (loads_once unpickle b) (fun w => count w = n)); auto.
    - intros s H. now rewrite C.
    - intros s H. unfold loads_once. pose proof (U b s) as X. destruct (unpickle b s). cbn [fst] in *. now rewrite X. }
  induction t as [|t IH]; intros redo w; cbn [Dill_Model.dumps_loop]; [cbn; lia|].
  pose proof (gc_count gc (dumps_once pickle x) count G F1 F2 depth m w) as B.
  destruct (retry_gc gc (dumps_once pickle x) depth m w) as [w1 [b|e]]; cbn [fst] in B |- *; [|lia].
  destruct v.
  - pose proof (LC b (Some (Z.of_nat m)) w1 _ eq_refl) as L.
    destruct (loads b (Some (Z.of_nat m)) w1) as [w2 [o|e]]; cbn [fst] in L.
    + destruct (redo && negb (Nat.eqb t 0)); cbn [fst]; [|lia]. specialize (IH redo w2). lia.
    + destruct e; cbn [fst]; try lia. destruct (Nat.eqb t 0); cbn [fst andb negb]; [lia|]. specialize (IH true (clear w2)). rewrite C in IH. lia.
  - destruct (redo && negb (Nat.eqb t 0)); cbn [fst]; [|lia]. specialize (IH redo w1). lia.
Qed.

(** ** Files *)
Definition keeps (p : nat) (c : list Byte) (st : W * file Byte) : Prop := p <= pos (snd st) /\ firstn p (content (snd st)) = c.

Lemma write_keeps p c (f : file Byte) b : length c = p -> p <= pos f -> firstn p (content f) = c -> firstn p (content (write f b)) = c.
Proof.
  intros L P H. cbn [write content].
  assert (E : firstn p (firstn (pos f) (content f)) = c) by (rewrite firstn_firstn, Nat.min_l by lia; exact H).
  rewrite firstn_app, E. replace (p - length (firstn (pos f) (content f))) with 0; [now rewrite firstn_O, app_nil_r|].
  assert (length (firstn p (content f)) = p) by (now rewrite H).
  rewrite firstn_length in *. lia.
Qed.

Lemma load_keeps (P : file Byte -> Prop) m st : (forall f q, P f -> pos (snd st) <= q -> P (seek f q)) -> P (snd st) -> P (snd (fst (load m st))).
Proof.
  intros S H. unfold Dill_Model.load. destruct (check_retries m) as [k|]; [|exact H].
  assert (K : (fun s : W * file Byte => P (snd s) /\ pos (snd st) <= pos (snd s))
    (fst (retry_clear (clear_st clear) (fun s => (fst s, seek (snd s) (pos (snd st)))) (load_once unpickle) (Datatypes.S k) st))).
  { apply clear_keeps.
    - intros s X. exact X.
    - intros s [X Y]. cbn [snd seek pos]. split; [apply S; auto|lia].
    - intros [w f] [X Y]. unfold load_once. destruct (readable f); [|split; assumption].
      destruct (unpickle _ w) as [w1 [n r]]. cbn [fst snd seek pos] in *. split; [apply S; [exact X|lia]|lia].
    - split; [exact H|lia]. }
  exact (proj1 K).
Qed.
Lemma load_content m st : content (snd (fst (load m st))) = content (snd st) /\ readable (snd (fst (load m st))) = readable (snd st).
Proof.
  apply (load_keeps (fun f => content f = content (snd st) /\ readable f = readable (snd st))); [|auto].
  intros f q [A B] _. split; assumption.
Qed.

Lemma load_success m st st' o : load m st = (st', inl o) ->
  content (snd st') = content (snd st) /\ exists w1 n, unpickle (skipn (pos (snd st)) (content (snd st))) w1 = (fst st', (n, inl o))
    /\ pos (snd st') = pos (snd st) + n.
Proof.
  intros H. split; [pose proof (load_content m st) as [C _]; rewrite H in C; exact C|].
  unfold Dill_Model.load in H. destruct (check_retries m) as [k|]; [|discriminate].
  assert (K : exists s, content (snd s) = content (snd st) /\ load_once unpickle (fst s, seek (snd s) (pos (snd st))) = (st', inl o)).
  { revert H. generalize (Datatypes.S k). intros t. assert (E : content (snd st) = content (snd st)) by reflexivity. revert E.
    generalize st at 1 4. induction t as [|t IH]; intros s E; cbn [retry_clear]; [discriminate|].
    destruct (load_once unpickle (fst s, seek (snd s) (pos (snd st)))) as [s1 [b|e]] eqn:F; [intros H; injection H as <- <-; exists s; auto|].
    assert (E1 : content (snd s1) = content (snd st)).
    { unfold load_once in F. cbn [seek readable] in F. destruct (readable (snd s)); [|injection F as <- _; exact E].
      destruct (unpickle _ _) as [w1 [n r]]. cbn [fst snd] in F. injection F as <- _. exact E. }
    assert (R : retry_clear (clear_st clear) (fun s0 => (fst s0, seek (snd s0) (pos (snd st)))) (load_once unpickle) t (clear_st clear s1) = (st', inl o)
      -> exists s2, content (snd s2) = content (snd st) /\ load_once unpickle (fst s2, seek (snd s2) (pos (snd st))) = (st', inl o)) by (apply IH; exact E1).
    destruct e as [? ? ?|?|[]|?]; try discriminate; [destruct (Nat.eqb t 0); [discriminate|]; exact R|destruct (Nat.eqb t 0); [discriminate|]; exact R|apply IH; exact E1|destruct (Nat.eqb t 0); [discriminate|]; exact R]. }
  destruct K as ([w f] & E & K). unfold load_once in K. cbn [seek pos content readable fst snd] in K, E. destruct (readable f); [|discriminate].
  rewrite E in K. destruct (unpickle _ w) as [w1 [n r]] eqn:U. cbn [fst snd] in K. injection K as <- ->. exists w, n. cbn [fst snd pos]. auto.
Qed.

Lemma dump_loop_keeps x m v p c t : length c = p -> forall st, keeps p c st -> keeps p c (fst (dump_loop x m v p t st)).
Proof.
  intros LC. induction t as [|t IH]; intros st K; cbn [Dill_Model.dump_loop]; [exact K|].
  assert (K1 : keeps p c (fst (retry_gc (gc_st gc) (dump_once pickle x) depth m st))).
  { apply gc_keeps; [intros s X; exact X| |exact K]. intros [w f] [X Y]. unfold dump_once. destruct (pickle x w) as [w1 [b r]].
    cbn [fst snd] in *. split; [cbn [write pos snd]; lia|]. now apply write_keeps. }
  destruct (retry_gc (gc_st gc) (dump_once pickle x) depth m st) as [st1 [u|e]]; cbn [fst] in K1 |- *; [|exact K1].
  destruct v; [|exact K1].
  assert (K2 : keeps p c (fst (load (Some (Z.of_nat m)) (fst st1, seek (snd st1) p)))).
  { apply (load_keeps (fun f => p <= pos f /\ firstn p (content f) = c)); cbn [snd seek pos content].
    - intros f q [X Y] Q. split; [exact Q|exact Y].
    - destruct K1. split; [lia|assumption]. }
  destruct (load (Some (Z.of_nat m)) (fst st1, seek (snd st1) p)) as [st2 [o|e]]; cbn [fst] in K2 |- *.
  - destruct K1, K2. split; cbn [snd seek pos content]; assumption.
  - destruct e; try exact K2. destruct (Nat.eqb t 0); [exact K2|]. apply IH. destruct K2. split; cbn [snd seek pos content]; [lia|assumption].
Qed.

Lemma dump_loop_ok x m p t : forall st st', dump_loop x m true p (S t) st = (st', inl tt) ->
  exists w1 w2 o n, unpickle (skipn p (content (snd st'))) w1 = (w2, (n, inl o)).
Proof.
  induction t as [|t IH]; intros st st'; cbn [Dill_Model.dump_loop];
    (destruct (retry_gc (gc_st gc) (dump_once pickle x) depth m st) as [st1 [u|e]]; [|discriminate]);
    (destruct (load (Some (Z.of_nat m)) (fst st1, seek (snd st1) p)) as [st2 [o|e]] eqn:L;
       [intros H; injection H as <-; apply load_success in L as (C & w1 & n & U & _); cbn [snd seek pos content] in C, U |- *; rewrite C; eauto
       |destruct e; try discriminate; cbn [Nat.eqb]; try discriminate]).
  intros H. exact (IH _ _ H).
Qed.

Lemma written_at (f : file Byte) b : pos f <= length (content f) -> 
  firstn (length b) (skipn (pos f) (content (write f b))) = b /\ pos (write f b) = pos f + length b /\ pos f <= length (content (write f b)).
Proof.
  intros L. cbn [write content pos]. assert (E : length (firstn (pos f) (content f)) = pos f) by (rewrite firstn_length; lia).
  split; [|split; [reflexivity|rewrite app_length; lia]].
  rewrite skipn_app, E, Nat.sub_diag. rewrite (skipn_all2 (firstn _ _)) by lia. cbn [skipn app].
  now rewrite firstn_app, firstn_all, Nat.sub_diag, firstn_O, app_nil_r.
Qed.
Lemma dump_loop_written x m v p t : (forall w, snd (snd (pickle x w)) = None) -> forall st st', pos (snd st) = p -> p <= length (content (snd st)) ->
  dump_loop x m v p (S t) st = (st', inl tt) ->
  exists w1 w2 b, pickle x w1 = (w2, (b, None)) /\ firstn (length b) (skipn p (content (snd st'))) = b /\ pos (snd st') = p + length b.
Proof.
  intros N. induction t as [|t IH]; intros [w f] st' P L; cbn [snd] in P, L; subst p; cbn [Dill_Model.dump_loop];
    (destruct depth as [|d]; [discriminate|]); cbn [retry_gc]; unfold dump_once at 1;
    pose proof (N w) as NW; destruct (pickle x w) as [w1 [b r]] eqn:PE; cbn [snd] in NW; subst r; cbn [fst snd];
    destruct (written_at f b L) as (A & B & C).
  - destruct v; [|intros H; injection H as <-; exists w, w1, b; repeat split; assumption].
    pose proof (load_content (Some (Z.of_nat m)) (w1, seek (write f b) (pos f))) as [LC _].
    destruct (load (Some (Z.of_nat m)) (w1, seek (write f b) (pos f))) as [st2 [o|e]] eqn:LE.
    + intros H. injection H as <-. cbn [snd fst seek content pos] in *. rewrite LC. exists w, w1, b. repeat split; assumption.
    + destruct e; discriminate.
  - destruct v; [|intros H; injection H as <-; exists w, w1, b; repeat split; assumption].
    pose proof (load_content (Some (Z.of_nat m)) (w1, seek (write f b) (pos f))) as [LC _].
    destruct (load (Some (Z.of_nat m)) (w1, seek (write f b) (pos f))) as [st2 [o|e]] eqn:LE.
    + intros H. injection H as <-. cbn [snd fst seek content pos] in *. rewrite LC. exists w, w1, b. repeat split; assumption.
    + cbn [fst snd seek content] in LC. destruct e; try discriminate. cbn [Nat.eqb]. intros H. apply IH in H; [exact H|reflexivity|]. cbn [snd seek content]. now rewrite LC.
Qed.

(** *** where dill works *)
Hypothesis WORKS : works pickle unpickle.
Hypothesis DEPTH : depth <> 0.

Lemma load_works b x c rest w m k rd : check_retries m = Some k -> loads_as unpickle b x -> rd = true ->
  exists w', load m (w, File (c ++ b ++ rest) (length c) rd) = ((w', File (c ++ b ++ rest) (length c + length b) rd), inl x).
Proof.
  intros CM L ->. unfold Dill_Model.load. rewrite CM. cbn [retry_clear fst snd pos seek content readable load_once].
  rewrite skipn_app, skipn_all, Nat.sub_diag. cbn [skipn app]. destruct (L rest w) as [w' E]. rewrite E.
  cbn [fst snd]. eauto.
Qed.

Lemma dump_works x m k v w c rd old : check_retries m = Some k -> (rd = true \/ check_verify v = false) ->
  exists w' b, loads_as unpickle b x
    /\ dump x m v (w, File (c ++ old) (length c) rd)
       = ((w', File ((c ++ b) ++ skipn (length b) old) (length (c ++ b)) rd), inl tt).
Proof.
  intros CM R. unfold Dill_Model.dump. rewrite CM. cbn [Dill_Model.dump_loop snd pos]. destruct depth as [|d]; [now destruct DEPTH|].
  cbn [retry_gc]. unfold dump_once at 1. destruct (WORKS x w) as (w1 & b & E & L). rewrite E. cbn [fst snd].
  assert (F : write (File (c ++ old) (length c) rd) b = File ((c ++ b) ++ skipn (length b) old) (length (c ++ b)) rd).
  { unfold write. cbn [content pos readable]. rewrite firstn_app, firstn_all, Nat.sub_diag, firstn_O, app_nil_r, app_length, <- app_assoc.
    rewrite skipn_app. replace (skipn (length c + length b) c) with (@nil Byte) by (symmetry; apply skipn_all2; lia).
    cbn [app]. do 3 f_equal. f_equal. lia. }
  rewrite F. destruct (check_verify v).
  - destruct R as [->|R]; [|discriminate]. cbn [fst snd seek content readable pos]. unfold seek at 1. cbn [content readable]. rewrite <- app_assoc.
    destruct (load_works b x c (skipn (length b) old) w1 (Some (Z.of_nat k)) k true) as [w2 LW]; [|exact L|reflexivity|].
    + cbn [check_retries]. rewrite (proj2 (Z.ltb_ge _ _)) by lia. now rewrite Nat2Z.id.
    + rewrite LW. exists w2, b. split; [exact L|]. cbn [fst snd]. unfold seek. cbn [content readable]. now rewrite <- app_assoc.
  - exists w1, b. split; [exact L|reflexivity].
Qed.

Lemma dump_all_works m k v rd : check_retries m = Some k -> (rd = true \/ check_verify v = false) -> forall xs w c old,
  exists w' bs, Forall2 (loads_as unpickle) bs xs
    /\ dump_all pickle unpickle gc clear depth m v xs (w, File (c ++ old) (length c) rd)
       = ((w', File ((c ++ concat bs) ++ skipn (length (concat bs)) old) (length (c ++ concat bs)) rd), inl tt).
Proof.
  intros CM R. induction xs as [|x xs IH]; intros w c old.
  - exists w, []. split; [constructor|]. cbn. now rewrite app_nil_r.
  - cbn [dump_all]. destruct (dump_works x m k v w c rd old CM R) as (w1 & b & L & E). rewrite E.
    destruct (IH w1 (c ++ b) (skipn (length b) old)) as (w2 & bs & F & E2). exists w2, (b :: bs). split; [now constructor|].
    rewrite E2. cbn [concat]. rewrite !app_length, <- !app_assoc.
    assert (SK : forall n1 n2 (l : list Byte), skipn n2 (skipn n1 l) = skipn (n1 + n2) l).
    { induction n1 as [|n1 IHn]; intros n2 l; [reflexivity|]. destruct l as [|z l]; [cbn; now rewrite !skipn_nil|apply IHn]. }
    rewrite SK. do 3 f_equal. lia.
Qed.

Lemma load_many_works m k rd : check_retries m = Some k -> rd = true -> forall bs xs, Forall2 (loads_as unpickle) bs xs -> forall w c rest,
  exists w', load_many unpickle clear m (length xs) (w, File (c ++ concat bs ++ rest) (length c) rd)
    = ((w', File (c ++ concat bs ++ rest) (length (c ++ concat bs)) rd), inl xs).
Proof.
  intros CM R. induction 1 as [|b x bs xs L F IH]; intros w c rest.
  - exists w. cbn. now rewrite app_nil_r.
  - cbn [load_many length concat]. rewrite <- app_assoc. destruct (load_works b x c (concat bs ++ rest) w m k rd CM L R) as (w1 & E). rewrite E.
    destruct (IH w1 (c ++ b) rest) as (w2 & E2). rewrite <- app_assoc, app_length in E2. rewrite E2. exists w2. now rewrite <- app_assoc.
Qed.
End Dill.
