(** Proofs about the Levenberg-Marquardt minimiser: the minimisation. *)
From Verif Require Import Base BaseLemmas Param_Model LEval_Model LM_Model LM_Spec LM_Proofs LM_Proofs2.
From Coq Require Import Lqa.
#[local] Open Scope nat_scope.

Section P.
Variable S : lm.
Variable EV : Type.
Variable ev_value : EV -> vec -> result (EV * option Q).
Variable ev_vg : EV -> vec -> result (EV * (option Q * vec)).
Variable ev_hess : EV -> vec -> result (EV * mat).
Variable solve : mat -> vec -> result vec.
Variable criterion : vec -> Q -> vec -> mat -> result Q.
Variable tol : Q.
Variable clip : vec -> vec.
Variable at_limit : vec -> bool.
Notation TRY := (try_one S EV ev_value solve).
Notation TRIES := (tries S EV ev_value solve).
Notation STEP := (mode0_step S EV ev_value ev_vg ev_hess solve).
Notation ITER := (iterate S EV ev_value ev_vg ev_hess solve criterion tol clip at_limit).
Notation MINI := (minimize S EV ev_value ev_vg ev_hess solve criterion tol clip at_limit).

Lemma never_up_snoc l : forall first c, never_up first l ->
  at_most c (last (map Some l) first) -> never_up first (l ++ [c]).
Proof.
  induction l as [|x l IH]; cbn; intros first c N A; [auto|]. destruct N as [N1 N2]. split; [exact N1|].
  apply IH; [exact N2|]. destruct l as [|y l]; [exact A|]. cbn [map] in A |- *.
  assert (E : forall d d', last (Some y :: map Some l) d = last (Some y :: map Some l) d').
  { clear. generalize (Some y) as z. induction l as [|a l IH]; cbn; intros z d d'; [reflexivity|]. apply (IH (Some a)). }
  rewrite (E (Some x) first). exact A.
Qed.
Lemma last_snoc_some l c (d : option Q) : last (map Some (l ++ [c])) d = Some c.
Proof. rewrite map_app. cbn. apply last_last. Qed.

Section Honest.
Variable f : vec -> option Q.
Hypothesis TELL : tells_loss ev_value ev_vg clip f.

(** What is known before a round: the last value of the history is the loss at the point. *)
Definition consistent (first : option Q) (history : list Q) (l : option (Q * Q)) (p : vec) : Prop :=
  never_up first history /\ last (map Some history) first = f (clip p) /\
  match l with Some (fm, _) => history <> [] /\ f (clip p) = Some fm | None => history = [] end.

Lemma iterate_history n : forall first history l L p e e' r,
  ITER n first history l L p e = Ok (e', r) -> consistent first history l p ->
  m_first r = first /\ never_up first (m_history r) /\ f (m_values r) = Some (m_fmin r) /\
  m_history r <> [] /\ last (map Some (m_history r)) first = Some (m_fmin r) /\
  length (m_history r) <= length history + n.
Proof.
  induction n as [|n IH]; cbn [iterate]; intros first history l L p e e' r E (C1&C2&C3); [discriminate|].
  destruct (STEP e p L) as [[e1 m]|] eqn:ES; [|discriminate]. cbn [bind] in E.
  destruct m as [h c L' D g|].
  - destruct (step_fair _ _ _ _ _ _ clip f TELL _ _ _ _ _ _ _ _ _ ES) as [F1 F2].
    destruct (criterion (vec_add p h) c g D) as [cv|] eqn:EC; [|discriminate]. cbn [bind] in E.
    assert (NU : never_up first (history ++ [c])).
    { apply never_up_snoc; [exact C1|]. rewrite C2. exact F2. }
    destruct (Qlt_bool cv tol).
    + cbn in E. injection E as <- <-. cbn. split; [reflexivity|]. split; [exact NU|]. split; [exact F1|].
      split; [destruct history; discriminate|]. split; [apply last_snoc_some|]. rewrite app_length. cbn. lia.
    + destruct (IH _ _ _ _ _ _ _ _ E) as (A1&A2&A3&A4&A5&A6).
      { split; [exact NU|]. split; [rewrite last_snoc_some; symmetry; exact F1|]. split; [destruct history; discriminate|exact F1]. }
      rewrite app_length in A6. cbn in A6. split; [exact A1|]. split; [exact A2|]. split; [exact A3|]. split; [exact A4|]. split; [exact A5|lia].
  - destruct l as [[fm ed]|]; [|discriminate]. cbn in E. injection E as <- <-. cbn. destruct C3 as [C3 C4].
    split; [reflexivity|]. split; [exact C1|]. split; [exact C4|]. split; [exact C3|]. split; [rewrite C2; exact C4|lia].
Qed.

Lemma never_up_le l : forall first c, never_up first l -> last (map Some l) first = Some c -> l <> [] -> at_most c first.
Proof.
  induction l as [|x l IH]; intros first c N E NE; [congruence|]. destruct N as [N1 N2]. destruct l as [|y l].
  - cbn in E. injection E as <-. exact N1.
  - assert (A : at_most c (Some x)).
    { apply IH; [exact N2| |discriminate]. rewrite <- E. cbn [map]. change (last (Some x :: Some y :: map Some l) first) with (last (Some y :: map Some l) first).
      clear. generalize (Some y) as z. induction l as [|a l IH]; cbn; intros z; [reflexivity|]. apply (IH (Some a)). }
    cbn in A. destruct first as [q|]; cbn in *; [lra|exact I].
Qed.

Lemma minimize_history n e start e' r : MINI n e start = Ok (e', r) ->
  m_first r = f (clip start) /\ never_up (f (clip start)) (m_history r) /\ f (m_values r) = Some (m_fmin r) /\
  last (map Some (m_history r)) None = Some (m_fmin r) /\ at_most (m_fmin r) (f (clip start)) /\
  0 < length (m_history r) <= n.
Proof.
  unfold minimize. intros E. destruct (ev_value e start) as [[e1 first]|] eqn:EE; [|discriminate]. cbn [bind] in E.
  assert (V := proj1 TELL _ _ _ _ EE). subst first.
  destruct (iterate_history _ _ _ _ _ _ _ _ _ E) as (A1&A2&A3&A4&A5&A6).
  { split; [exact I|]. split; reflexivity. }
  split; [exact A1|]. split; [exact A2|]. split; [exact A3|].
  split. { destruct (m_history r) as [|x l]; [congruence|]. rewrite <- A5. cbn [map]. clear. generalize (Some x) as z.
    induction l as [|a l IH]; cbn; intros z; [reflexivity|]. apply (IH (Some a)). }
  split; [apply (never_up_le (m_history r)); assumption|]. cbn in A6. destruct (m_history r); [congruence|cbn in *; lia].
Qed.

(** How it ends without success. *)
Lemma iterate_invalid n : forall first history l L p e e' r,
  ITER n first history l L p e = Ok (e', r) -> (forall fm c, l = Some (fm, c) -> (tol <= c)%Q) ->
  (m_edm r < tol)%Q \/
  (tol <= m_edm r)%Q /\ exists e1 L p, m_values r = clip p /\ STEP e1 p L = Ok (e', Stopped).
Proof.
  induction n as [|n IH]; cbn [iterate]; intros first history l L p e e' r E HL; [discriminate|].
  destruct (STEP e p L) as [[e1 m]|] eqn:ES; [|discriminate]. cbn [bind] in E.
  destruct m as [h c L' D g|].
  - destruct (criterion (vec_add p h) c g D) as [cv|] eqn:EC; [|discriminate]. cbn [bind] in E.
    destruct (Qlt_bool cv tol) eqn:B.
    + cbn in E. injection E as <- <-. left. apply lt_b, B.
    + eapply IH; [exact E|]. intros fm c' K. injection K as <- <-. apply lt_b_f, B.
  - destruct l as [[fm ed]|]; [|discriminate]. cbn in E. injection E as <- <-. cbn. right. split; [eapply HL; reflexivity|].
    exists e, L, p. auto.
Qed.
End Honest.

Lemma iterate_valid n : forall first history l L p e e' r,
  ITER n first history l L p e = Ok (e', r) -> (forall fm c, l = Some (fm, c) -> (tol <= c)%Q) ->
  m_valid r = true <-> (m_edm r < tol)%Q /\ at_limit (m_values r) = false.
Proof.
  induction n as [|n IH]; cbn [iterate]; intros first history l L p e e' r E HL; [discriminate|].
  destruct (STEP e p L) as [[e1 m]|] eqn:ES; [|discriminate]. cbn [bind] in E.
  destruct m as [h c L' D g|].
  - destruct (criterion (vec_add p h) c g D) as [cv|] eqn:EC; [|discriminate]. cbn [bind] in E.
    destruct (Qlt_bool cv tol) eqn:B.
    + cbn in E. injection E as <- <-. cbn. apply lt_b in B. destruct (at_limit _); intuition congruence.
    + eapply IH; [exact E|]. intros fm c' K. injection K as <- <-. apply lt_b_f, B.
  - destruct l as [[fm ed]|]; [|discriminate]. cbn in E. injection E as <- <-. cbn.
    assert (K := HL _ _ eq_refl). destruct (at_limit _); split; try discriminate; intros [A _]; lra.
Qed.

(** The criterion's value of the result is that at the last step. *)
Lemma step_from e p L e' h c L' D g : STEP e p L = Ok (e', Stepped h c L' D g) ->
  exists e1 v e2 H Ld, ev_vg e p = Ok (e1, (v, g)) /\ ev_hess e1 p = Ok (e2, H) /\ D = damped_hess H Ld /\
    exists e3 e4, ev_value e3 (vec_add p h) = Ok (e4, Some c) /\ solve (damped_hess H L') (vec_opp g) = Ok h.
Proof.
  unfold mode0_step. intros E. destruct (ev_vg e p) as [[e1 [init g1]]|] eqn:EG; [|discriminate]. cbn [bind] in E.
  destruct (ev_hess e1 p) as [[e2 H]|] eqn:EH; [|discriminate]. cbn [bind] in E.
  destruct (TRIES 10 init g1 H p e2 (Trying L None None DNone [])) as [[e3 t]|] eqn:ET; [|discriminate]. cbn [bind] in E.
  set (known := fun b : option (vec * Q * Q) => match b with
     | Some (h, c, L') => exists e3 e4, ev_value e3 (vec_add p h) = Ok (e4, Some c) /\ solve (damped_hess H L') (vec_opp g1) = Ok h
     | None => True end).
  assert (K : forall n t e e' t', TRIES n init g1 H p e t = Ok (e', t') -> known (t_best t) -> known (t_scary t) ->
     ((0 < n)%nat \/ exists Ld, t_dhess t = damped_hess H Ld) ->
     known (t_best t') /\ known (t_scary t') /\ exists Ld, t_dhess t' = damped_hess H Ld).
  { clear. induction n as [|n IH]; cbn [tries]; intros t e e' t' E KB KS KD.
    - injection E as <- <-. destruct KD as [KD|KD]; [lia|]. auto.
    - destruct (TRY init g1 H p e t) as [[e1 [t1 q]]|] eqn:ET; [|discriminate]. cbn [bind] in E.
      destruct (try_one_ok _ _ _ _ _ _ _ _ _ _ _ _ _ ET) as (h&v&SO&EE&DD&BB&SS&_).
      assert (KB1 : known (t_best t1)).
      { destruct BB as [->|(c&->&->&_)]; [exact KB|]. cbn. eauto. }
      assert (KS1 : known (t_scary t1)).
      { destruct v as [c|]; [|destruct SS as [-> _]; exact KS]. rewrite SS. destruct (le_inf _ _); [cbn; eauto|exact KS]. }
      destruct q; [injection E as <- <-; eauto|]. eapply IH; eauto. }
  destruct (K 10 _ _ _ _ ET I I (or_introl (Nat.lt_0_succ 9))) as (A&B&Ld&C).
  destruct (t_best t) as [[[h1 c1] L1]|].
  - injection E as <- <- <- <- <- <-. exists e1, init, e2, H, Ld. auto.
  - destruct (t_scary t) as [[[h1 c1] L1]|]; [|discriminate]. injection E as <- <- <- <- <- <-. exists e1, init, e2, H, Ld. auto.
Qed.

(** The result comes from a last step: its gradient and damped matrix are those the criterion saw. *)
Definition last_step (r : lm_result) : Prop :=
  exists e0 e1 e2 e3 e4 p v g H L Ld h,
    ev_vg e0 p = Ok (e1, (v, g)) /\ ev_hess e1 p = Ok (e2, H) /\
    solve (damped_hess H L) (vec_opp g) = Ok h /\ ev_value e3 (vec_add p h) = Ok (e4, Some (m_fmin r)) /\
    m_values r = clip (vec_add p h) /\ criterion (vec_add p h) (m_fmin r) g (damped_hess H Ld) = Ok (m_edm r).
Lemma iterate_last_step n : forall first history l L p e e' r,
  ITER n first history l L p e = Ok (e', r) ->
  (forall fm c, l = Some (fm, c) -> forall a b x y, last_step (LmResult (clip p) fm c a b (x ++ y))) ->
  last_step r.
Proof.
  induction n as [|n IH]; cbn [iterate]; intros first history l L p e e' r E HL; [discriminate|].
  destruct (STEP e p L) as [[e1 m]|] eqn:ES; [|discriminate]. cbn [bind] in E.
  destruct m as [h c L' D g|].
  - destruct (step_from _ _ _ _ _ _ _ _ _ ES) as (a1&v&a2&H&Ld&EG&EH&->&a3&a4&EV1&SO).
    destruct (criterion (vec_add p h) c g (damped_hess H Ld)) as [cv|] eqn:EC; [|discriminate]. cbn [bind] in E.
    assert (G : forall a b x, last_step (LmResult (clip (vec_add p h)) c cv a b x)).
    { intros. exists e, a1, a2, a3, a4, p, v, g, H, L', Ld, h. cbn. auto 8. }
    destruct (Qlt_bool cv tol) eqn:B.
    + cbn in E. injection E as <- <-. apply G.
    + eapply IH; [exact E|]. intros fm c' K. injection K as <- <-. intros. apply G.
  - destruct l as [[fm ed]|]; [|discriminate]. cbn in E. injection E as <- <-.
    assert (K := HL _ _ eq_refl (if at_limit (clip p) then false else false) first history []). rewrite app_nil_r in K. exact K.
Qed.

(** The number of evaluations. *)
Section Count.
Variable calls : EV -> nat.
Hypothesis V1 : forall e p e' v, ev_value e p = Ok (e', v) -> calls e' <= calls e + 1.
Hypothesis G1 : forall e p e' v, ev_vg e p = Ok (e', v) -> calls e' <= calls e + 1.
Hypothesis H1 : forall e p e' v, ev_hess e p = Ok (e', v) -> calls e' <= calls e.
Lemma tries_count n : forall init g H p e t e' t', TRIES n init g H p e t = Ok (e', t') -> calls e' <= calls e + n.
Proof.
  induction n as [|n IH]; cbn [tries]; intros init g H p e t e' t' E.
  - injection E as <- <-. lia.
  - destruct (TRY init g H p e t) as [[e1 [t1 q]]|] eqn:ET; [|discriminate]. cbn [bind] in E.
    destruct (try_one_ok _ _ _ _ _ _ _ _ _ _ _ _ _ ET) as (h&v&_&EE&_). assert (A := V1 _ _ _ _ EE).
    destruct q; [injection E as <- <-; lia|]. assert (B := IH _ _ _ _ _ _ _ _ E). lia.
Qed.
Lemma step_count e p L e' m : STEP e p L = Ok (e', m) -> calls e' <= calls e + 11.
Proof.
  unfold mode0_step. intros E. destruct (ev_vg e p) as [[e1 [init g1]]|] eqn:EG; [|discriminate]. cbn [bind] in E.
  destruct (ev_hess e1 p) as [[e2 H]|] eqn:EH; [|discriminate]. cbn [bind] in E.
  destruct (TRIES 10 init g1 H p e2 (Trying L None None DNone [])) as [[e3 t]|] eqn:ET; [|discriminate]. cbn [bind] in E.
  assert (A := G1 _ _ _ _ EG). assert (B := H1 _ _ _ _ EH). assert (C := tries_count _ _ _ _ _ _ _ _ _ ET).
  destruct (t_best t) as [[[h1 c1] L1]|]; [injection E as <- <-; lia|].
  destruct (t_scary t) as [[[h1 c1] L1]|]; injection E as <- <-; lia.
Qed.
Lemma iterate_count n : forall first history l L p e e' r,
  ITER n first history l L p e = Ok (e', r) -> calls e' <= calls e + 11 * n.
Proof.
  induction n as [|n IH]; cbn [iterate]; intros first history l L p e e' r E; [discriminate|].
  destruct (STEP e p L) as [[e1 m]|] eqn:ES; [|discriminate]. cbn [bind] in E. assert (A := step_count _ _ _ _ _ ES).
  destruct m as [h c L' D g|].
  - destruct (criterion (vec_add p h) c g D) as [cv|]; [|discriminate]. cbn [bind] in E.
    destruct (Qlt_bool cv tol).
    + cbn in E. injection E as <- <-. lia.
    + assert (B := IH _ _ _ _ _ _ _ _ E). lia.
  - destruct l as [[fm ed]|]; [|discriminate]. cbn in E. injection E as <- <-. lia.
Qed.
End Count.
End P.
