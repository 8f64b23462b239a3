(** Proofs about the Levenberg-Marquardt minimiser: one step and the loop. *)
From Verif Require Import Base BaseLemmas LM_Model LM_Spec LM_Proofs.
From Coq Require Import Lqa.
#[local] Open Scope nat_scope.

Lemma lt_b a b : Qlt_bool a b = true <-> (a < b)%Q.
Proof.
  unfold Qlt_bool. rewrite negb_true_iff. split; intros H.
  - destruct (Qlt_le_dec a b) as [K|K]; [exact K|]. apply Qle_bool_iff in K. rewrite K in H. discriminate.
  - destruct (Qle_bool b a) eqn:E; [|reflexivity]. apply Qle_bool_iff in E. lra.
Qed.
Lemma lt_b_f a b : Qlt_bool a b = false <-> (b <= a)%Q.
Proof. unfold Qlt_bool. rewrite negb_false_iff. apply Qle_bool_iff. Qed.
Lemma le_inf_iff a b : le_inf a b = true <-> at_most a b.
Proof. destruct b; cbn; [apply Qle_bool_iff|tauto]. Qed.
Lemma lt_inf_at_most a b : lt_inf a b = true -> at_most a b.
Proof. destruct b; cbn; [|tauto]. intros H. apply lt_b in H. lra. Qed.

Section P.
Variable S : lm.
Variable EV : Type.
Variable ev_value : EV -> vec -> result (EV * option Q).
Variable ev_vg : EV -> vec -> result (EV * (option Q * vec)).
Variable ev_hess : EV -> vec -> result (EV * mat).
Variable solve : mat -> vec -> result vec.
Notation TRY := (try_one S EV ev_value solve).
Notation TRIES := (tries S EV ev_value solve).
Notation STEP := (mode0_step S EV ev_value ev_vg ev_hess solve).

(** A round, with what it did. *)
Lemma try_one_ok init g H p e t e' t' q : TRY init g H p e t = Ok (e', (t', q)) ->
  exists h v, solve (damped_hess H (t_L t)) (vec_opp g) = Ok h /\ ev_value e (vec_add p h) = Ok (e', v) /\
    t_dhess t' = damped_hess H (t_L t) /\
    (t_best t' = t_best t \/
     exists c, v = Some c /\ t_best t' = Some (h, c, t_L t) /\ lt_inf c (value_of init (t_best t)) = true) /\
    match v with
    | None => t_scary t' = t_scary t /\ t_best t' = t_best t
    | Some c => t_scary t' = if le_inf c (value_of init (t_scary t)) then Some (h, c, t_L t) else t_scary t
    end /\
    (t_best t' = None -> is_better (t_dir t) = false ->
      (t_L t' = (t_L t * Lup)%Q /\ is_better (t_dir t') = false /\ q = false) \/
      (q = true /\ (1000000000 < t_L t * Lup)%Q)).
Proof.
  unfold try_one. intros E.
  destruct (solve (damped_hess H (t_L t)) (vec_opp g)) as [h|] eqn:ES; [|discriminate]. cbn [bind] in E.
  destruct (ev_value e (vec_add p h)) as [[e1 v]|] eqn:EE; [|discriminate]. cbn [bind] in E.
  exists h, v. destruct v as [c|].
  - destruct (rejected S init c _).
    + destruct (Qlt_bool 1000000000 (t_L t * Lup)) eqn:B.
      * cbn in E. injection E as <- <- <-. cbn. split; [reflexivity|]. split; [exact EE|]. split; [reflexivity|]. split; [left; reflexivity|].
        split; [reflexivity|]. intros _ _. right. split; [reflexivity|]. apply lt_b, B.
      * destruct (is_better (t_dir t)) eqn:DB; cbn in E; injection E as <- <- <-; cbn; (split; [reflexivity|]; split; [exact EE|]; split; [reflexivity|]; split; [left; reflexivity|]; split; [reflexivity|]); intros _ K; try discriminate; left; auto.
    + destruct (lt_inf c (value_of init (t_best t))) eqn:LT.
      * destruct (_ || _) in E; injection E as <- <- <-; cbn; (split; [reflexivity|]; split; [exact EE|]; split; [reflexivity|]; split; [right; exists c; auto|]; split; [reflexivity|]); discriminate.
      * destruct (is_better (t_dir t)) eqn:DB; cbn [negb andb] in E.
        -- injection E as <- <- <-. cbn. split; [reflexivity|]. split; [exact EE|]. split; [reflexivity|]. split; [left; reflexivity|]. split; [reflexivity|]. intros _ K. discriminate.
        -- destruct (Qlt_bool (t_L t) 1000000000) eqn:B; injection E as <- <- <-; cbn; (split; [reflexivity|]; split; [exact EE|]; split; [reflexivity|]; split; [left; reflexivity|]; split; [reflexivity|]); intros _ _.
           ++ left. auto.
           ++ right. split; [reflexivity|]. apply lt_b_f in B. unfold Lup. lra.
  - destruct (is_better (t_dir t)) eqn:DB; injection E as <- <- <-; cbn; (split; [reflexivity|]; split; [exact EE|]; split; [reflexivity|]; split; [left; reflexivity|]; split; [auto|]); intros _ K; try discriminate. left. auto.
Qed.

Section Honest.
Variable clip : vec -> vec.
Variable f : vec -> option Q.
Hypothesis TELL : tells_loss ev_value ev_vg clip f.

(** The steps remembered lead to points with the values remembered, none worse than the first. *)
Definition fair (init : option Q) (p : vec) (b : option (vec * Q * Q)) : Prop :=
  match b with Some (h, c, _) => f (clip (vec_add p h)) = Some c /\ at_most c init | None => True end.

Lemma at_most_value init p b c : fair init p b -> at_most c (value_of init b) -> at_most c init.
Proof.
  destruct b as [[[h c'] L]|]; cbn; [|tauto]. intros [_ A] B. destruct init; cbn in *; [lra|exact I].
Qed.

Lemma try_one_fair init g H p e t e' t' q : TRY init g H p e t = Ok (e', (t', q)) ->
  fair init p (t_best t) -> fair init p (t_scary t) -> fair init p (t_best t') /\ fair init p (t_scary t').
Proof.
  intros E FB FS. destruct (try_one_ok _ _ _ _ _ _ _ _ _ E) as (h&v&_&EE&_&BB&SS&_).
  assert (V := proj1 TELL _ _ _ _ EE). split.
  - destruct BB as [->|(c&->&->&LT)]; [exact FB|]. cbn. split; [symmetry; exact V|]. apply (at_most_value init p (t_best t)); [exact FB|]. apply lt_inf_at_most, LT.
  - destruct v as [c|]; [|destruct SS as [-> _]; exact FS]. rewrite SS. destruct (le_inf c (value_of init (t_scary t))) eqn:LE; [|exact FS].
    cbn. split; [symmetry; exact V|]. apply (at_most_value init p (t_scary t)); [exact FS|]. apply le_inf_iff, LE.
Qed.
Lemma tries_fair n : forall init g H p e t e' t', TRIES n init g H p e t = Ok (e', t') ->
  fair init p (t_best t) -> fair init p (t_scary t) -> fair init p (t_best t') /\ fair init p (t_scary t').
Proof.
  induction n as [|n IH]; cbn [tries]; intros init g H p e t e' t' E FB FS.
  - injection E as <- <-. auto.
  - destruct (TRY init g H p e t) as [[e1 [t1 q]]|] eqn:ET; [|discriminate]. cbn [bind] in E.
    destruct (try_one_fair _ _ _ _ _ _ _ _ _ ET FB FS) as [A B].
    destruct q; [injection E as <- <-; auto|]. eapply IH; eauto.
Qed.

Lemma step_fair e p L e' h c L' D g : STEP e p L = Ok (e', Stepped h c L' D g) ->
  f (clip (vec_add p h)) = Some c /\ at_most c (f (clip p)).
Proof.
  unfold mode0_step. intros E. destruct (ev_vg e p) as [[e1 [init g1]]|] eqn:EG; [|discriminate]. cbn [bind] in E.
  assert (VI := proj2 TELL _ _ _ _ _ EG). subst init.
  destruct (ev_hess e1 p) as [[e2 H]|] eqn:EH; [|discriminate]. cbn [bind] in E.
  destruct (TRIES 10 (f (clip p)) g1 H p e2 (Trying L None None DNone [])) as [[e3 t]|] eqn:ET; [|discriminate]. cbn [bind] in E.
  destruct (tries_fair _ _ _ _ _ _ _ _ _ ET I I) as [A B].
  destruct (t_best t) as [[[h1 c1] L1]|].
  - injection E as <- <- <- <- <- <-. exact A.
  - destruct (t_scary t) as [[[h1 c1] L1]|]; [|discriminate]. injection E as <- <- <- <- <- <-. exact B.
Qed.

(** A round after which nothing is remembered did not find anything. *)
Definition worse_with (init : option Q) (g : vec) (H : mat) (p : vec) (L : Q) : Prop :=
  exists h, solve (damped_hess H L) (vec_opp g) = Ok h /\ not_better (f (clip (vec_add p h))) init.

Lemma try_one_keeps_scary init g H p e t e' t' q : TRY init g H p e t = Ok (e', (t', q)) ->
  t_scary t' = None -> t_scary t = None.
Proof.
  intros E N. destruct (try_one_ok _ _ _ _ _ _ _ _ _ E) as (h&v&_&_&_&_&SS&_). destruct v as [c|].
  - rewrite N in SS. destruct (le_inf _ _); [discriminate|congruence].
  - destruct SS. congruence.
Qed.
Lemma try_one_keeps_best init g H p e t e' t' q : TRY init g H p e t = Ok (e', (t', q)) ->
  t_best t' = None -> t_best t = None.
Proof.
  intros E N. destruct (try_one_ok _ _ _ _ _ _ _ _ _ E) as (h&v&_&_&_&[B|(c&_&B&_)]&_); congruence.
Qed.
Lemma tries_keep n : forall init g H p e t e' t', TRIES n init g H p e t = Ok (e', t') ->
  (t_best t' = None -> t_best t = None) /\ (t_scary t' = None -> t_scary t = None).
Proof.
  induction n as [|n IH]; cbn [tries]; intros init g H p e t e' t' E.
  - injection E as <- <-. auto.
  - destruct (TRY init g H p e t) as [[e1 [t1 q]]|] eqn:ET; [|discriminate]. cbn [bind] in E.
    assert (A := try_one_keeps_best _ _ _ _ _ _ _ _ _ ET). assert (B := try_one_keeps_scary _ _ _ _ _ _ _ _ _ ET).
    destruct q; [injection E as <- <-; auto|]. destruct (IH _ _ _ _ _ _ _ _ E). auto.
Qed.

Lemma tries_stopped n : forall init g H p e t e' t', TRIES n init g H p e t = Ok (e', t') -> 0 < n ->
  is_better (t_dir t) = false -> t_best t' = None -> t_scary t' = None ->
  exists k, 0 < k <= n /\ (forall i, i < k -> worse_with init g H p (scaled (t_L t) i)) /\
    (k = n \/ (1000000000 < scaled (t_L t) k)%Q).
Proof.
  induction n as [|n IH]; intros init g H p e t e' t' E N DB NB NS; [lia|]. cbn [tries] in E.
  destruct (TRY init g H p e t) as [[e1 [t1 q]]|] eqn:ET; [|discriminate]. cbn [bind] in E.
  assert (K : t_best t1 = None /\ t_scary t1 = None).
  { destruct q; [injection E as <- <-; auto|]. destruct (tries_keep _ _ _ _ _ _ _ _ _ E). auto. }
  destruct K as [KB KS].
  destruct (try_one_ok _ _ _ _ _ _ _ _ _ ET) as (h&v&ES&EE&_&_&SS&AL).
  assert (W : worse_with init g H p (t_L t)).
  { exists h. split; [exact ES|]. rewrite <- (proj1 TELL _ _ _ _ EE). destruct v as [c|]; [|exact I].
    assert (TS := try_one_keeps_scary _ _ _ _ _ _ _ _ _ ET KS). rewrite KS, TS in SS. cbn [value_of] in SS.
    destruct (le_inf c init) eqn:LE; [discriminate|]. cbn. intros AM. apply le_inf_iff in AM. congruence. }
  destruct (AL KB DB) as [(EL&DB'&->)|[-> BIG]].
  - destruct n as [|n].
    { exists 1. split; [lia|]. split; [|left; reflexivity]. intros i Hi. destruct i; [exact W|lia]. }
    destruct (IH _ _ _ _ _ _ _ _ E ltac:(lia) DB' NB NS) as (k&Hk&A&B). exists (Datatypes.S k). split; [lia|]. split.
    + intros [|i] Hi; [exact W|]. cbn [scaled]. rewrite EL in A. apply A. lia.
    + destruct B as [->|B]; [left; reflexivity|right]. cbn [scaled]. rewrite EL in B. exact B.
  - exists 1. split; [lia|]. split; [|right; exact BIG]. intros i Hi. destruct i; [exact W|lia].
Qed.

Lemma step_stopped e p L e' : STEP e p L = Ok (e', Stopped) ->
  exists e1 g e2 H k, ev_vg e p = Ok (e1, (f (clip p), g)) /\ ev_hess e1 p = Ok (e2, H) /\
    0 < k <= 10 /\ (forall i, i < k -> worse_with (f (clip p)) g H p (scaled L i)) /\
    (k = 10 \/ (1000000000 < scaled L k)%Q).
Proof.
  unfold mode0_step. intros E. destruct (ev_vg e p) as [[e1 [init g1]]|] eqn:EG; [|discriminate]. cbn [bind] in E.
  assert (VI := proj2 TELL _ _ _ _ _ EG). subst init.
  destruct (ev_hess e1 p) as [[e2 H]|] eqn:EH; [|discriminate]. cbn [bind] in E.
  destruct (TRIES 10 (f (clip p)) g1 H p e2 (Trying L None None DNone [])) as [[e3 t]|] eqn:ET; [|discriminate]. cbn [bind] in E.
  destruct (t_best t) as [[[? ?] ?]|] eqn:TB; [discriminate|]. destruct (t_scary t) as [[[? ?] ?]|] eqn:TS; [discriminate|].
  destruct (tries_stopped _ _ _ _ _ _ _ _ _ ET ltac:(lia) eq_refl TB TS) as (k&A&B&C).
  exists e1, g1, e2, H, k. auto.
Qed.
End Honest.
End P.
