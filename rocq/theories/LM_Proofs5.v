(** Proofs about the Levenberg-Marquardt minimiser: which of the steps tried is taken. *)
From Verif Require Import Base BaseLemmas LM_Model LM_Spec LM_Proofs LM_Proofs2.
From Coq Require Import Lqa.
#[local] Open Scope nat_scope.

Section P.
Variable S : lm.
Variable EV : Type.
Variable ev_value : EV -> vec -> result (EV * option Q).
Variable ev_vg : EV -> vec -> result (EV * (option Q * vec)).
Variable ev_hess : EV -> vec -> result (EV * mat).
Variable solve : mat -> vec -> result vec.
Variable clip : vec -> vec.
Variable f : vec -> option Q.
Hypothesis TELL : tells_loss ev_value ev_vg clip f.
Notation TRY := (try_one S EV ev_value solve).
Notation TRIES := (tries S EV ev_value solve).
Notation STEP := (mode0_step S EV ev_value ev_vg ev_hess solve).

Section Point.
Variables (init : option Q) (g : vec) (H : mat) (p : vec).
Notation SAFE := (safe (rho_min S) (rho_max S) init g H).

Definition tried (t : trial) : Prop :=
  solve (damped_hess H (tr_damping t)) (vec_opp g) = Ok (tr_step t) /\ tr_value t = f (clip (vec_add p (tr_step t))).

Lemma rejected_safe h L c :
  rejected S init c (- dot h (mat_vec (damped_hess H L) h) - 2 * dot h g)%Q = false <-> SAFE (Trial L h (Some c)).
Proof.
  unfold rejected, safe. cbn [tr_value tr_step tr_damping]. set (x := (- dot h (mat_vec (damped_hess H L) h) - 2 * dot h g)%Q).
  destruct init as [i|]; [|split; [discriminate|intros (i&c'&K&_); discriminate]].
  destruct (Qeq_bool x 0) eqn:E.
  - apply Qeq_bool_iff in E. rewrite negb_false_iff, Qeq_bool_iff. split.
    + intros K. exists i, c. split; [reflexivity|]. split; [reflexivity|]. left. split; [exact E|lra].
    + intros (i'&c'&A&B&[[_ K]|[K _]]); [|contradiction]. injection A as <-. injection B as <-. lra.
  - assert (E' : ~ (x == 0)%Q) by (intros K; apply Qeq_bool_iff in K; congruence).
    rewrite orb_false_iff, !lt_b_f. split.
    + intros [A B]. exists i, c. split; [reflexivity|]. split; [reflexivity|]. right. auto.
    + intros (i'&c'&A&B&[[K _]|[_ K]]); [contradiction|]. injection A as <-. injection B as <-. exact K.
Qed.

Definition best_ok (trs : list trial) (b : option (vec * Q * Q)) : Prop :=
  match b with
  | Some (h, c, L) => In (Trial L h (Some c)) trs /\ SAFE (Trial L h (Some c)) /\ improves init (Trial L h (Some c)) /\
      forall t, In t trs -> SAFE t -> value_at_least c t
  | None => forall t, In t trs -> SAFE t -> ~ improves init t
  end.
Definition scary_ok (trs : list trial) (b : option (vec * Q * Q)) : Prop :=
  match b with
  | Some (h, c, L) => In (Trial L h (Some c)) trs /\ at_most c init /\ forall t, In t trs -> value_at_least c t
  | None => forall t c, In t trs -> tr_value t = Some c -> ~ at_most c init
  end.

Lemma safe_init t : SAFE t -> exists i, init = Some i.
Proof. intros (i&_&E&_). eauto. Qed.

Lemma try_one_select e t e' t' q trs : TRY init g H p e t = Ok (e', (t', q)) ->
  best_ok trs (t_best t) -> scary_ok trs (t_scary t) ->
  exists h v, let tr := Trial (t_L t) h v in tried tr /\ best_ok (trs ++ [tr]) (t_best t') /\ scary_ok (trs ++ [tr]) (t_scary t') /\
    t_dhess t' = damped_hess H (t_L t) /\ (q = false -> t_L t' = (t_L t * 11)%Q \/ t_L t' = (t_L t / 9)%Q).
Proof.
  unfold try_one. intros E BO SO.
  destruct (solve (damped_hess H (t_L t)) (vec_opp g)) as [h|] eqn:ES; [|discriminate]. cbn [bind] in E.
  destruct (ev_value e (vec_add p h)) as [[e1 v]|] eqn:EE; [|discriminate]. cbn [bind] in E.
  exists h, v. cbv zeta.
  assert (TR : tried (Trial (t_L t) h v)). { split; [exact ES|]. exact (proj1 TELL _ _ _ _ EE). }
  assert (KEEPB : ~ (SAFE (Trial (t_L t) h v) /\ exists c, v = Some c /\ lt_inf c (value_of init (t_best t)) = true) ->
                  best_ok (trs ++ [Trial (t_L t) h v]) (t_best t)).
  { intros NS. unfold best_ok in *. destruct (t_best t) as [[[hb cb] Lb]|].
    - destruct BO as (B1&B2&B3&B4). split; [apply in_or_app; left; exact B1|]. split; [exact B2|]. split; [exact B3|].
      intros u Hu SU. apply in_app_or in Hu. destruct Hu as [Hu|[<-|[]]]; [apply B4; assumption|].
      intros c' K. cbn in K. destruct (Qlt_le_dec c' cb) as [LT|LE]; [|exact LE]. exfalso. apply NS. split; [exact SU|]. exists c'.
      split; [exact K|]. cbn. apply lt_b, LT.
    - intros u Hu SU. apply in_app_or in Hu. destruct Hu as [Hu|[<-|[]]]; [apply BO; assumption|].
      intros (c'&K&LT). cbn in K. apply NS. split; [exact SU|]. exists c'. split; [exact K|]. destruct (safe_init _ SU) as (i&->). cbn.
      apply lt_b. apply LT. reflexivity. }
  assert (TAKEB : SAFE (Trial (t_L t) h v) -> forall c, v = Some c -> lt_inf c (value_of init (t_best t)) = true ->
                  best_ok (trs ++ [Trial (t_L t) h v]) (Some (h, c, t_L t))).
  { intros SU c -> LT. cbn. split; [apply in_or_app; right; left; reflexivity|]. split; [exact SU|].
    destruct (safe_init _ SU) as (i&EI).
    unfold best_ok in BO. destruct (t_best t) as [[[hb cb] Lb]|].
    - destruct BO as (B1&B2&B3&B4). cbn in LT. apply lt_b in LT. split.
      + destruct B3 as (c0&K0&L0). cbn in K0. injection K0 as <-. exists c. split; [reflexivity|]. intros i' EI'. assert (A := L0 _ EI'). lra.
      + intros u Hu US. apply in_app_or in Hu. destruct Hu as [Hu|[<-|[]]]; [|intros c' K; cbn in K; injection K as <-; lra].
        intros c' K. assert (A := B4 _ Hu US _ K). lra.
    - cbn [value_of] in LT. rewrite EI in LT. cbn in LT. apply lt_b in LT. split.
      + exists c. split; [reflexivity|]. intros i' EI'. rewrite EI in EI'. injection EI' as <-. exact LT.
      + intros u Hu US. apply in_app_or in Hu. destruct Hu as [Hu|[<-|[]]]; [|intros c' K; cbn in K; injection K as <-; lra].
        intros c' K. destruct (Qlt_le_dec c' c) as [LT'|LE]; [|exact LE]. exfalso. apply (BO u Hu US). exists c'. split; [exact K|].
        intros i' EI'. rewrite EI in EI'. injection EI' as <-. lra. }
  assert (SC : scary_ok (trs ++ [Trial (t_L t) h v])
                 (match v with Some c => if le_inf c (value_of init (t_scary t)) then Some (h, c, t_L t) else t_scary t | None => t_scary t end)).
  { destruct v as [c|].
    - destruct (le_inf c (value_of init (t_scary t))) eqn:LE.
      + apply le_inf_iff in LE. cbn. split; [apply in_or_app; right; left; reflexivity|].
        unfold scary_ok in SO. destruct (t_scary t) as [[[hb cb] Lb]|]; cbn in LE.
        * destruct SO as (S1&S2&S3). split.
          -- destruct init; cbn in *; [lra|exact I].
          -- intros u Hu c' K. apply in_app_or in Hu. destruct Hu as [Hu|[<-|[]]]; [|cbn in K; injection K as <-; lra]. assert (A := S3 u Hu c' K). lra.
        * split; [exact LE|]. intros u Hu c' K. apply in_app_or in Hu. destruct Hu as [Hu|[<-|[]]]; [|cbn in K; injection K as <-; lra].
          assert (A := SO u c' Hu K). destruct init as [i|]; cbn in *; [|exfalso; apply A; exact I].
          destruct (Qlt_le_dec c' c) as [B|B]; [|exact B]. exfalso. apply A. lra.
      + assert (NL : ~ at_most c (value_of init (t_scary t))) by (intros K; apply le_inf_iff in K; congruence).
        unfold scary_ok in *. destruct (t_scary t) as [[[hb cb] Lb]|]; cbn in NL.
        * destruct SO as (S1&S2&S3). split; [apply in_or_app; left; exact S1|]. split; [exact S2|].
          intros u Hu c' K. apply in_app_or in Hu. destruct Hu as [Hu|[<-|[]]]; [apply (S3 u Hu c' K)|]. cbn in K. injection K as <-. lra.
        * intros u c' Hu K. apply in_app_or in Hu. destruct Hu as [Hu|[<-|[]]]; [apply (SO u c' Hu K)|]. cbn in K. injection K as <-. exact NL.
    - unfold scary_ok in *. destruct (t_scary t) as [[[hb cb] Lb]|].
      + destruct SO as (S1&S2&S3). split; [apply in_or_app; left; exact S1|]. split; [exact S2|].
        intros u Hu c' K. apply in_app_or in Hu. destruct Hu as [Hu|[<-|[]]]; [apply (S3 u Hu c' K)|]. discriminate.
      + intros u c' Hu K. apply in_app_or in Hu. destruct Hu as [Hu|[<-|[]]]; [apply (SO u c' Hu K)|]. discriminate. }
  destruct v as [c|].
  - destruct (rejected S init c (- dot h (mat_vec (damped_hess H (t_L t)) h) - 2 * dot h g)%Q) eqn:RJ.
    + assert (NS : ~ SAFE (Trial (t_L t) h (Some c))) by (intros K; apply rejected_safe in K; congruence).
      assert (KB := KEEPB (fun K => NS (proj1 K))).
      destruct (Qlt_bool 1000000000 (t_L t * Lup) || is_better (t_dir t)); injection E as <- <- <-; cbn;
        (split; [exact TR|]; split; [exact KB|]; split; [exact SC|]; split; [reflexivity|]); [discriminate|]. intros _. left. reflexivity.
    + assert (SU := proj1 (rejected_safe _ _ _) RJ).
      destruct (lt_inf c (value_of init (t_best t))) eqn:LT.
      * assert (KB := TAKEB SU c eq_refl LT).
        destruct (_ || _) in E; injection E as <- <- <-; cbn; (split; [exact TR|]; split; [exact KB|]; split; [exact SC|]; split; [reflexivity|]); [discriminate|].
        intros _. right. reflexivity.
      * assert (KB : best_ok (trs ++ [Trial (t_L t) h (Some c)]) (t_best t)).
        { apply KEEPB. intros (_&c'&K&LT'). injection K as <-. congruence. }
        destruct (negb (is_better (t_dir t)) && Qlt_bool (t_L t) 1000000000); injection E as <- <- <-; cbn;
          (split; [exact TR|]; split; [exact KB|]; split; [exact SC|]; split; [reflexivity|]); [|discriminate]. intros _. left. reflexivity.
  - assert (KB : best_ok (trs ++ [Trial (t_L t) h None]) (t_best t)).
    { apply KEEPB. intros (_&c'&K&_). discriminate. }
    destruct (is_better (t_dir t)); injection E as <- <- <-; cbn; (split; [exact TR|]; split; [exact KB|]; split; [exact SC|]; split; [reflexivity|]); [discriminate|].
    intros _. left. reflexivity.
Qed.

Lemma tries_select n : forall e t e' t' trs, TRIES n init g H p e t = Ok (e', t') -> 0 < n ->
  best_ok trs (t_best t) -> scary_ok trs (t_scary t) ->
  exists more, more <> [] /\ length more <= n /\ dampings_follow (t_L t) more /\ List.Forall tried more /\
    best_ok (trs ++ more) (t_best t') /\ scary_ok (trs ++ more) (t_scary t') /\
    exists u, last (map Some more) None = Some u /\ t_dhess t' = damped_hess H (tr_damping u).
Proof.
  induction n as [|n IH]; cbn [tries]; intros e t e' t' trs E HN BO SO; [lia|].
  destruct (TRY init g H p e t) as [[e1 [t1 q]]|] eqn:ET; [|discriminate]. cbn [bind] in E.
  destruct (try_one_select _ _ _ _ _ _ ET BO SO) as (h&v&TR&B1&S1&D1&L1). cbv zeta in *.
  assert (ONE : (e' = e1 /\ t' = t1) -> exists more, more <> [] /\ length more <= Datatypes.S n /\ dampings_follow (t_L t) more /\ List.Forall tried more /\
    best_ok (trs ++ more) (t_best t') /\ scary_ok (trs ++ more) (t_scary t') /\
    exists u, last (map Some more) None = Some u /\ t_dhess t' = damped_hess H (tr_damping u)).
  { intros [-> ->]. exists [Trial (t_L t) h v]. split; [discriminate|]. split; [cbn; lia|]. split; [cbn; auto|].
    split; [constructor; [exact TR|constructor]|]. split; [exact B1|]. split; [exact S1|]. exists (Trial (t_L t) h v). split; [reflexivity|exact D1]. }
  destruct q.
  - injection E as <- <-. apply ONE. auto.
  - destruct n as [|n]; [cbn in E; injection E as <- <-; apply ONE; auto|].
    destruct (IH _ _ _ _ _ E ltac:(lia) B1 S1) as (more&M1&M2&M3&M4&M5&M6&u&M7&M8).
    exists (Trial (t_L t) h v :: more). split; [discriminate|]. split; [cbn; lia|]. split.
    { cbn. split; [reflexivity|]. destruct (L1 eq_refl) as [K|K]; rewrite K in M3; auto. }
    split; [constructor; assumption|]. rewrite <- app_assoc in M5, M6. split; [exact M5|]. split; [exact M6|].
    exists u. split; [|exact M8]. destruct more as [|m0 more]; [congruence|]. exact M7.
Qed.
End Point.

Lemma step_select e p L e' h c L' D g : STEP e p L = Ok (e', Stepped h c L' D g) ->
  exists e1 e2 H trs, ev_vg e p = Ok (e1, (f (clip p), g)) /\ ev_hess e1 p = Ok (e2, H) /\
    length trs <= 10 /\ dampings_follow L trs /\ List.Forall (tried g H p) trs /\ In (Trial L' h (Some c)) trs /\
    (exists u, last (map Some trs) None = Some u /\ D = damped_hess H (tr_damping u)) /\
    ((safe (rho_min S) (rho_max S) (f (clip p)) g H (Trial L' h (Some c)) /\ improves (f (clip p)) (Trial L' h (Some c)) /\
      forall t, In t trs -> safe (rho_min S) (rho_max S) (f (clip p)) g H t -> value_at_least c t) \/
     ((forall t, In t trs -> safe (rho_min S) (rho_max S) (f (clip p)) g H t -> ~ improves (f (clip p)) t) /\
      at_most c (f (clip p)) /\ forall t, In t trs -> value_at_least c t)).
Proof.
  unfold mode0_step. intros E. destruct (ev_vg e p) as [[e1 [init g1]]|] eqn:EG; [|discriminate]. cbn [bind] in E.
  assert (VI := proj2 TELL _ _ _ _ _ EG). subst init.
  destruct (ev_hess e1 p) as [[e2 H]|] eqn:EH; [|discriminate]. cbn [bind] in E.
  destruct (TRIES 10 (f (clip p)) g1 H p e2 (Trying L None None DNone [])) as [[e3 t]|] eqn:ET; [|discriminate]. cbn [bind] in E.
  destruct (tries_select _ _ _ _ 10 _ _ _ _ [] ET ltac:(lia)) as (trs&_&A2&A3&A4&A5&A6&A7).
  { intros ? []. } { intros ? ? []. }
  cbn [app] in *. exists e1, e2, H, trs.
  destruct (t_best t) as [[[h1 c1] L1]|].
  - injection E as <- <- <- <- <- <-. destruct A5 as (B1&B2&B3&B4).
    split; [reflexivity|]. split; [exact EH|]. split; [exact A2|]. split; [exact A3|]. split; [exact A4|]. split; [exact B1|]. split; [exact A7|]. left. auto.
  - destruct (t_scary t) as [[[h1 c1] L1]|]; [|discriminate]. injection E as <- <- <- <- <- <-. destruct A6 as (B1&B2&B3).
    split; [reflexivity|]. split; [exact EH|]. split; [exact A2|]. split; [exact A3|]. split; [exact A4|]. split; [exact B1|]. split; [exact A7|]. right. auto.
Qed.
End P.
