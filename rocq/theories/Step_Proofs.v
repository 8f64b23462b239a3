From Verif Require Import Base Param_Model Step_Model Step_Spec.
From Coq Require Import Lqa.
#[local] Open Scope nat_scope.

(** ** The sum of the changes *)
Fixpoint changes_of (vs : list num) : list num :=
  match vs with
  | [] => []
  | v :: r => num_abs (num_plus v (num_neg (hd (Fin (-10)) r))) :: changes_of r
  end.
Definition fin_of (a : num) : Q := match a with Fin q => q | _ => 0%Q end.
Definition finite (a : num) : Prop := exists q, a = Fin q.
Fixpoint total (l : list num) : Q := match l with [] => 0%Q | a :: r => (fin_of a + total r)%Q end.

Lemma total_app l m : (total (l ++ m) == total l + total m)%Q.
Proof. induction l as [|a l IH]; cbn [app total]; [ring|]. rewrite IH. ring. Qed.
Lemma total_rev l : (total (rev l) == total l)%Q.
Proof. induction l as [|a l IH]; [reflexivity|]. cbn [rev total]. rewrite total_app, IH. cbn [total]. ring. Qed.

Lemma sum_fin l : forall acc t, Forall (fun a => a <> NInf) l -> fold_left num_plus l (Fin acc) = Fin t ->
  Forall finite l /\ (t == acc + total l)%Q.
Proof.
  induction l as [|a l IH]; intros acc t NI E; cbn [fold_left total] in *.
  - injection E as <-. split; [constructor|ring].
  - inversion NI as [|? ? N1 N2]; subst. destruct a as [q| | |].
    + cbn [num_plus] in E. destruct (IH _ _ N2 E) as [F T]. split; [constructor; [exists q; reflexivity|exact F]|].
      cbn [fin_of]. rewrite T. ring.
    + exfalso. clear IH NI N1. cbn [num_plus] in E. assert (X : fold_left num_plus l PInf = PInf \/ fold_left num_plus l PInf = NaN).
      { clear E. revert N2. assert (X : forall x, x = PInf \/ x = NaN -> Forall (fun a => a <> NInf) l -> fold_left num_plus l x = PInf \/ fold_left num_plus l x = NaN); [|intros; apply X; auto].
        induction l as [|b l IH]; intros x Hx NI; [exact Hx|]. inversion NI; subst. cbn [fold_left]. apply IH; [|assumption].
        destruct Hx as [-> | ->]; destruct b; cbn; auto. }
      destruct X as [X|X]; rewrite X in E; discriminate.
    + contradiction.
    + exfalso. cbn [num_plus] in E. assert (X : forall l, fold_left num_plus l NaN = NaN) by (induction l0; auto). rewrite X in E. discriminate.
Qed.
Lemma sum_not_ninf l : forall x, x <> NInf -> Forall (fun a => a <> NInf) l -> fold_left num_plus l x <> NInf.
Proof.
  induction l as [|b l IH]; intros x Hx NI; [exact Hx|]. inversion NI; subst. cbn [fold_left]. apply IH; [|assumption].
  destruct x, b; cbn; try congruence.
Qed.

Lemma changes_not_ninf vs : Forall (fun a => a <> NInf) (changes_of vs).
Proof. induction vs as [|v vs IH]; cbn [changes_of]; constructor; [|exact IH]. destruct (num_plus v _); discriminate. Qed.

Lemma change_abs v u : finite (num_abs (num_plus v (num_neg u))) ->
  exists d, change u v d /\ (fin_of (num_abs (num_plus v (num_neg u))) == d)%Q.
Proof.
  intros [q F]. destruct v as [v| | |], u as [u| | |]; cbn in F |- *; try discriminate F.
  destruct (Qle_bool 0 (v + - u)) eqn:E.
  - apply Qle_bool_iff in E. exists (v - u)%Q. split; [constructor; lra|reflexivity].
  - assert (~ (0 <= v + - u)%Q) by (intros X; apply Qle_bool_iff in X; congruence).
    exists (u - v)%Q. split; [constructor; lra|]. ring.
Qed.

Lemma firstn_repeat {A} n k (a : A) : n <= k -> firstn n (repeat a k) = repeat a n.
Proof. revert k. induction n as [|n IH]; intros [|k] H; cbn; try reflexivity; [lia|]. f_equal. apply IH. lia. Qed.
Lemma total_ones n : (total (repeat (Fin 1) n) == inject_Z (Z.of_nat n))%Q.
Proof.
  induction n as [|n IH]; [reflexivity|]. cbn [repeat total fin_of]. rewrite IH.
  rewrite Nat2Z.inj_succ. unfold Z.succ. rewrite inject_Z_plus. change (inject_Z 1) with 1%Q. ring.
Qed.

Lemma settled_of n : forall k vs, vs <> [] -> n <= k -> Forall finite (firstn n (changes_of vs ++ repeat (Fin 1) k)) ->
  exists t, settled n t vs /\ (total (firstn n (changes_of vs ++ repeat (Fin 1) k)) == t)%Q.
Proof.
  induction n as [|n IH]; intros k vs NE L F.
  - exists 0%Q. split; [constructor|reflexivity].
  - destruct vs as [|v vs]; [contradiction|]. destruct vs as [|u vs].
    + cbn [changes_of app firstn total hd] in *. inversion F as [|? ? F1 F2]; subst.
      destruct (change_abs v (Fin (-10)) F1) as (d&D&E). exists (d + inject_Z (Z.of_nat n))%Q.
      split; [apply settled_first; [exact D|constructor]|]. rewrite firstn_repeat by lia. rewrite total_ones, E. reflexivity.
    + cbn [changes_of app firstn total hd] in *. inversion F as [|? ? F1 F2]; subst.
      destruct (change_abs _ _ F1) as (d&D&E). destruct (IH k (u :: vs) ltac:(discriminate) ltac:(lia) F2) as (t&T&E2).
      exists (d + t)%Q. split; [apply settled_more; assumption|]. cbn [changes_of app hd] in E2. rewrite E, E2. reflexivity.
Qed.

Lemma changes_step vs v :
  tl (rev (firstn 5 (changes_of vs ++ repeat (Fin 1) 5))) ++ [num_abs (num_plus v (num_neg (hd (Fin (-10)) vs)))] =
  rev (firstn 5 (changes_of (v :: vs) ++ repeat (Fin 1) 5)).
Proof.
  cbn [changes_of app]. set (a := num_abs _). set (l := changes_of vs).
  destruct l as [|x1 [|x2 [|x3 [|x4 [|x5 l]]]]]; reflexivity.
Qed.

Lemma small_sum_settled vs tol : vs <> [] ->
  num_lt (num_sum (rev (firstn 5 (changes_of vs ++ repeat (Fin 1) 5)))) (Fin tol) = true ->
  exists t, settled 5 t vs /\ (t < tol)%Q.
Proof.
  intros NE L. set (l := firstn 5 (changes_of vs ++ repeat (Fin 1) 5)) in *.
  assert (NI : Forall (fun a => a <> NInf) (rev l)).
  { apply Forall_rev. unfold l. assert (X : Forall (fun a => a <> NInf) (changes_of vs ++ repeat (Fin 1) 5)).
    { apply Forall_app. split; [apply changes_not_ninf|]. cbn. repeat constructor; discriminate. }
    clear -X. set (m := changes_of vs ++ repeat (Fin 1) 5) in *. clearbody m. revert X. generalize 5.
    induction m as [|a m IH]; intros [|n] X; cbn; try constructor; inversion X; subst; auto. }
  unfold num_sum in L. destruct (fold_left num_plus (rev l) (Fin 0)) as [t| | |] eqn:E; try discriminate L.
  - destruct (sum_fin _ _ _ NI E) as [F T]. apply Forall_rev in F. rewrite rev_involutive in F.
    destruct (settled_of 5 5 vs NE (le_n 5) F) as (t'&S&E'). exists t'. split; [exact S|].
    unfold num_lt, num_le in L. apply negb_true_iff in L. fold l in E'. rewrite <- E'.
    assert (total l == t)%Q by (rewrite T, total_rev; ring). rewrite H.
    apply Qnot_le_lt. intros X. apply Qle_bool_iff in X. congruence.
  - exfalso. apply (sum_not_ninf (rev l) (Fin 0)); [discriminate|exact NI|exact E].
Qed.

Section L.
Variable W : Type.
Variable begin : W -> W * option error.
Variable step : option report -> W -> W * result num.
Variable hesse : W -> result unit.
Variable calculate : report -> W -> result num.
Variable values : W -> list num.
Variable some_at_limit : W -> bool.
Variable tol errordef : Q.
Variable maxiter : nat.
Notation LOOP := (loop W step hesse calculate values some_at_limit tol errordef maxiter).

(** More rounds change nothing. *)
Lemma loop_rounds f : forall f' prelim ch last n edm w, maxiter + 1 <= n + f -> maxiter + 1 <= n + f' -> n <= maxiter ->
  LOOP f prelim ch last n edm w = LOOP f' prelim ch last n edm w.
Proof.
  induction f as [|f IH]; intros f' prelim ch last n edm w H H' N; [lia|].
  destruct f' as [|f']; [lia|]. cbn [loop]. destruct (step prelim w) as [w1 [cur|e]]; [|reflexivity].
  assert (R : Nat.ltb maxiter (n + 1) = true \/ n + 1 <= maxiter).
  { destruct (Nat.ltb maxiter (n + 1)) eqn:E; [left; reflexivity|right; apply Nat.ltb_ge in E; exact E]. }
  destruct R as [R|R].
  - rewrite R, !orb_true_r. destruct (hesse w1); [|reflexivity]. destruct (calculate _ w1); [|reflexivity].
    rewrite orb_true_r. reflexivity.
  - destruct ((num_lt _ _ && _) || _).
    + destruct (hesse w1); [|reflexivity]. destruct (calculate _ w1); [|reflexivity].
      destruct (criterion_converged _ _ _ || _); [reflexivity|]. apply IH; lia.
    + apply IH; lia.
Qed.

Variable clock : W -> nat.
Variable record : W -> list num.
Hypothesis CS : counts_steps begin step clock record.

Definition outcome_ok (w : W) (rep : report) : Prop :=
  clock w = r_niter rep /\ r_niter rep <= maxiter + 1 /\ 0 < r_niter rep /\
  r_at rep = values w /\ hd_error (record w) = Some (r_fmin rep) /\
  (exists pre v, calculate pre w = Ok v /\ r_edm rep = Some v /\ r_at pre = values w /\ r_fmin pre = r_fmin rep /\ r_niter pre = r_niter rep /\
     (r_converged rep = true <-> num_lt v (Fin (tol * errordef)) = true)) /\
  r_valid rep = r_converged rep && negb (some_at_limit w) /\
  r_status rep = (if r_converged rep then 0 else 10)%Z /\
  r_message rep = (if Nat.eqb (r_niter rep) (maxiter + 1) then
                     (if some_at_limit w then "Maxiter reached AND parameter(s) at their limit." else "Maxiter reached")
                   else (if some_at_limit w then "parameter(s) at their limit." else ""))%string /\
  (r_niter rep <= maxiter ->
     r_converged rep = true /\ r_niter rep mod 3 <> 0 /\ exists t, settled 5 t (record w) /\ (t < tol)%Q).

Lemma loop_ok f : forall prelim vs n edm w, clock w = n -> record w = vs -> n <= maxiter -> maxiter + 1 <= n + f ->
  let r := LOOP f prelim (rev (firstn 5 (changes_of vs ++ repeat (Fin 1) 5))) (hd (Fin (-10)) vs) n edm w in
  clock (fst r) <= maxiter + 1 /\ (forall rep, snd r = Ok rep -> outcome_ok (fst r) rep).
Proof.
  destruct CS as (_&CT&CR).
  induction f as [|f IH]; intros prelim vs n edm w C R N F; [lia|]. cbn [loop].
  assert (CT' := CT prelim w). assert (CR' := CR prelim w).
  destruct (step prelim w) as [w1 [cur|e]] eqn:ST; cbn [fst snd] in *.
  2:{ cbn [fst snd]. split; [lia|discriminate]. }
  specialize (CR' cur eq_refl). rewrite R in CR'. rewrite C in CT'.
  rewrite changes_step.
  assert (REC : forall pre ed, n + 1 <= maxiter ->
    let r := LOOP f pre (rev (firstn 5 (changes_of (cur :: vs) ++ repeat (Fin 1) 5))) cur (n + 1) ed w1 in
    clock (fst r) <= maxiter + 1 /\ (forall rep, snd r = Ok rep -> outcome_ok (fst r) rep)).
  { intros pre ed L. apply (IH pre (cur :: vs)); [exact CT'|exact CR'|exact L|lia]. }
  destruct ((num_lt (num_sum (rev (firstn 5 (changes_of (cur :: vs) ++ repeat (Fin 1) 5)))) (Fin tol) && negb (Nat.eqb ((n + 1) mod 3) 0)) || Nat.ltb maxiter (n + 1)) eqn:CHK.
  - destruct (hesse w1) as [[]|e]; [|cbn [fst snd]; split; [lia|discriminate]].
    set (pre := fit_result W values some_at_limit w1 (n + 1) edm cur false false 10 "Unfinished, for criterion").
    destruct (calculate pre w1) as [v|e] eqn:CALC; [|cbn [fst snd]; split; [lia|discriminate]].
    destruct (criterion_converged tol errordef v || Nat.ltb maxiter (n + 1)) eqn:STOP.
    + cbn [fst snd]. split; [lia|]. intros rep [= <-]. unfold outcome_ok. cbn [fit_result r_niter r_at r_edm r_fmin r_converged r_valid r_status r_message].
      split; [exact CT'|]. split; [lia|]. split; [lia|]. split; [reflexivity|].
      split; [rewrite CR'; reflexivity|].
      split; [exists pre, v; repeat split; try assumption; reflexivity || (unfold criterion_converged; auto)|].
      split; [destruct (some_at_limit w1), (criterion_converged tol errordef v); reflexivity|].
      split; [destruct (criterion_converged tol errordef v); reflexivity|].
      split.
      { assert (Nat.eqb (n + 1) (maxiter + 1) = Nat.ltb maxiter (n + 1)) as ->.
        { destruct (Nat.ltb maxiter (n + 1)) eqn:E.
          - apply Nat.ltb_lt in E. apply Nat.eqb_eq. lia.
          - apply Nat.ltb_ge in E. apply Nat.eqb_neq. lia. }
        destruct (Nat.ltb maxiter (n + 1)), (some_at_limit w1); reflexivity. }
      intros L. assert (NL : Nat.ltb maxiter (n + 1) = false) by (apply Nat.ltb_ge; exact L).
      rewrite NL, orb_false_r in STOP, CHK. apply andb_true_iff in CHK. destruct CHK as [K1 K2].
      split; [exact STOP|]. split; [intros X; rewrite X in K2; discriminate K2|].
      rewrite CR'. apply small_sum_settled; [discriminate|exact K1].
    + apply orb_false_iff in STOP. destruct STOP as [_ NL]. apply Nat.ltb_ge in NL. apply REC. exact NL.
  - apply orb_false_iff in CHK. destruct CHK as [_ NL]. apply Nat.ltb_ge in NL. apply REC. exact NL.
Qed.

Lemma minimize_ok rounds w : maxiter + 1 <= rounds ->
  let r := minimize_steps W begin step hesse calculate values some_at_limit tol errordef maxiter rounds w in
  clock (fst r) <= maxiter + 1 /\ (forall rep, snd r = Ok rep -> outcome_ok (fst r) rep).
Proof.
  intros F. unfold minimize_steps. destruct CS as (CB&_&_). specialize (CB w). destruct (begin w) as [w1 [e|]]; cbn [fst snd] in *.
  - split; [lia|discriminate].
  - apply (loop_ok rounds None [] 0 None w1); [apply CB|apply CB|lia|lia].
Qed.
End L.
