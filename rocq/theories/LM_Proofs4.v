(** Proofs about the Levenberg-Marquardt minimiser: losses that stay below their expansion, and
    the evaluator of LEval_Model.v. *)
From Verif Require Import Base BaseLemmas Param_Model LEval_Model LM_Model LM_Spec LM_Proofs LM_Proofs2 LM_Proofs3.
From Coq Require Import Lqa.
#[local] Open Scope nat_scope.

Section P.
Variable S : lm.
Variable EV : Type.
Variable ev_value : EV -> vec -> result (EV * option Q).
Variable ev_vg : EV -> vec -> result (EV * (option Q * vec)).
Variable ev_hess : EV -> vec -> result (EV * mat).
Variable solve : mat -> vec -> result vec.
Variable f : vec -> option Q.
Variable clip : vec -> vec.
Hypothesis TELL : tells_loss ev_value ev_vg clip f.
Hypothesis NOLIM : forall p, clip p = p.
Notation TRY := (try_one S EV ev_value solve).
Notation TRIES := (tries S EV ev_value solve).
Notation STEP := (mode0_step S EV ev_value ev_vg ev_hess solve).

Lemma quadratic_step n v g H L h w : square n H -> nonnegative n H -> (0 <= L)%Q -> (L <= 1)%Q ->
  solves n (damped_hess H L) (vec_opp g) h ->
  (w <= v + inner n (coord g) (coord h) + form n H (coord h) / 2)%Q ->
  (w <= v - L * norm2 n (coord h))%Q.
Proof.
  intros SQ NN L0 L1 SO W.
  assert (A := descent n H L g h SQ NN L0 SO). assert (B := half_form L _ L0 L1 (NN (coord h))).
  assert (C := norm2_nonneg n (coord h)). lra.
Qed.

Lemma step_not_stopped n e p L e' m v : STEP e p L = Ok (e', m) -> right_solver n solve ->
  (0 <= L)%Q -> (L <= 1)%Q -> length p = n -> f p = Some v ->
  (forall e1 e2 e3 v' g H, ev_vg e1 p = Ok (e2, (v', g)) -> ev_hess e2 p = Ok (e3, H) ->
     length g = n /\ square n H /\ nonnegative n H /\ below_expansion n f p v g H) ->
  m <> Stopped.
Proof.
  intros E RS L0 L1 LP FV QD ->.
  destruct (step_stopped _ _ _ _ _ _ clip f TELL _ _ _ _ E) as (e1&g&e2&H&k&EG&EH&Hk&W&_).
  destruct (QD _ _ _ _ _ _ EG EH) as (LG&SQ&NN&_&BE).
  destruct (W 0 ltac:(lia)) as (h&SO&NB). cbn [scaled] in SO.
  assert (SO' := RS _ _ _ (damped_square n H L SQ) ltac:(unfold vec_opp; rewrite map_length; exact LG) SO).
  destruct (BE h (proj1 SO')) as (w&FW&LW).
  assert (A := quadratic_step n v g H L h w SQ NN L0 L1 SO' LW).
  rewrite !NOLIM, FW, FV in NB. cbn in NB. apply NB.
  assert (C := norm2_nonneg n (coord h)). nra.
Qed.
End P.

(** ** The evaluator *)
Lemma count_ev S ks : forall st st' b, count S ks st = (st', b) ->
  e_last_value st' = e_last_value st /\ e_nan st' = e_nan st.
Proof.
  induction ks as [|k r IH]; cbn; intros st st' b E; [injection E as <- <-; auto|].
  destruct (e_ignoring st); [injection E as <- <-; auto|].
  destruct (maxiter_reached S (bump k st)); [injection E as <- <-; destruct k; auto|].
  destruct (IH _ _ _ E) as [A B]. rewrite A, B. destruct k; auto.
Qed.

Section E.
Variable S : settings.
Variable clip : vec -> vec.
Variable loss : vec -> num.
Variable grad : vec -> vec.
Variable hess : vec -> mat.
Hypothesis GOOD : s_tol S = 0 \/ forall p, is_nan (loss p) = false.

Lemma nan_refused c ol og l : s_tol S = 0 -> minimize_nan S c ol og l = Err FailMinimizeNaN.
Proof. intros E. unfold minimize_nan. rewrite E. reflexivity. Qed.

Lemma entries_back g : all_some (map entry_finite (map (fun q => Some (Fin q)) g)) = Some g.
Proof. induction g as [|q g IH]; cbn; [reflexivity|]. rewrite IH. reflexivity. Qed.
Lemma entries_nan g : existsb entry_nan (map (fun q => Some (Fin q)) g) = false.
Proof. induction g; cbn; auto. Qed.
Lemma entries_none g : existsb entry_none (map (fun q => Some (Fin q)) g) = false.
Proof. induction g; cbn; auto. Qed.

Lemma lv_tells : tells_loss (lv_value S clip loss) (lv_value_gradient S clip loss grad) clip (fun p => finite (loss p)).
Proof.
  split.
  - intros e p e' v. unfold lv_value, value. destruct (count S [Func] e) as [st over].
    destruct over; [discriminate|]. destruct (is_nan (loss (clip p))) eqn:N.
    + destruct GOOD as [Z|Z]; [|rewrite Z in N; discriminate]. cbn [bind fst]. rewrite nan_refused by exact Z. discriminate.
    + cbn. intros E. injection E as <- <-. reflexivity.
  - intros e p e' v g. unfold lv_value_gradient, value_gradient. destruct (count S [Func; Grad] e) as [st over].
    destruct over; [discriminate|]. rewrite entries_none, entries_nan. cbn [orb]. destruct (is_nan (loss (clip p))) eqn:N.
    + destruct GOOD as [Z|Z]; [|rewrite Z in N; discriminate]. cbn [bind fst]. rewrite nan_refused by exact Z. discriminate.
    + cbn [bind]. rewrite entries_back. cbn. intros E. injection E as <- <- <-. reflexivity.
Qed.
End E.
