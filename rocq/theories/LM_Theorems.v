(** C73: the Levenberg-Marquardt minimiser. *)
From Verif Require Import Base BaseLemmas Param_Model LEval_Model LM_Model LM_Spec LM_Proofs LM_Proofs2 LM_Proofs3 LM_Proofs4 LM_Proofs5.
From Coq Require Import Lqa.
#[local] Open Scope nat_scope.

(** ** The settings *)

(** A minimiser is made exactly if the mode is 0, rho_min is positive and rho_max is above one; it
    has the settings given, or 1/10 and 2. *)
Theorem C73_settings mode rmin rmax S : lm_init mode rmin rmax = Ok S <->
  (mode = None \/ mode = Some 0%Z) /\
  rho_min S = match rmin with Some q => q | None => (1 # 10)%Q end /\
  rho_max S = match rmax with Some q => q | None => 2%Q end /\
  (0 < rho_min S)%Q /\ (1 < rho_max S)%Q.
Proof.
  unfold lm_init. assert (M : Z.eqb (default_to 0%Z mode) 0 = true <-> mode = None \/ mode = Some 0%Z).
  { rewrite Z.eqb_eq. destruct mode as [z|]; cbn; [|tauto]. split; [intros ->; tauto|intros [|]; congruence]. }
  destruct (Z.eqb (default_to 0%Z mode) 0) eqn:EM; cbn [negb].
  2:{ split; [discriminate|]. intros (A&_). apply M in A. discriminate. }
  assert (M' := proj1 M eq_refl).
  change (default_to (1 # 10)%Q rmin) with (match rmin with Some q => q | None => (1 # 10)%Q end).
  change (default_to 2%Q rmax) with (match rmax with Some q => q | None => 2%Q end).
  set (a := match rmin with Some q => q | None => (1 # 10)%Q end). set (b := match rmax with Some q => q | None => 2%Q end).
  destruct (Qle_bool a 0) eqn:A.
  { apply Qle_bool_iff in A. split; [discriminate|]. intros (_&E&_&P&_). rewrite E in P. lra. }
  assert (A' : (0 < a)%Q) by (apply lt_b; unfold Qlt_bool; rewrite A; reflexivity).
  destruct (Qle_bool b 1) eqn:B.
  { apply Qle_bool_iff in B. split; [discriminate|]. intros (_&_&E&_&P). rewrite E in P. lra. }
  assert (B' : (1 < b)%Q) by (apply lt_b; unfold Qlt_bool; rewrite B; reflexivity).
  split.
  - intros E. injection E as <-. cbn. auto.
  - intros (_&E1&E2&_&_). destruct S as [x y]. cbn in E1, E2. subst x y. reflexivity.
Qed.

(** Each wrong setting has its exception. *)
Theorem C73_refused mode rmin rmax :
  (mode <> None /\ mode <> Some 0%Z -> lm_init mode rmin rmax = Err NotImplementedError) /\
  (mode = None \/ mode = Some 0%Z ->
   (exists q, rmin = Some q /\ (q <= 0)%Q) \/ (exists q, rmax = Some q /\ (q <= 1)%Q) ->
   lm_init mode rmin rmax = Err ValueError).
Proof.
  split.
  - intros [A B]. unfold lm_init. destruct mode as [z|]; [|congruence]. cbn. destruct (Z.eqb_spec z 0); [congruence|reflexivity].
  - intros M W. unfold lm_init. replace (Z.eqb (default_to 0%Z mode) 0) with true by (destruct M as [->| ->]; reflexivity). cbn [negb].
    destruct W as [(q&->&Hq)|(q&->&Hq)]; cbn; apply Qle_bool_iff in Hq; rewrite Hq; [reflexivity|]. destruct (Qle_bool _ 0); reflexivity.
Qed.

Section T.
Variable S : lm.
Variable EV : Type.
Variable ev_value : EV -> vec -> result (EV * option Q).
Variable ev_vg : EV -> vec -> result (EV * (option Q * vec)).
Variable ev_hess : EV -> vec -> result (EV * mat).
Variable solve : mat -> vec -> result vec.
Variable criterion : vec -> Q -> vec -> mat -> result Q.
Variable tol : Q.
Variable clip : vec -> vec.
Variable at_limit : vec -> bool.
Notation STEP := (mode0_step S EV ev_value ev_vg ev_hess solve).
Notation MINI := (minimize S EV ev_value ev_vg ev_hess solve criterion tol clip at_limit).

(** ** What a result says about the loss *)

(** For every loss, every start, every solver of the equations and every criterion: if the
    evaluator tells the values of the loss, then a minimisation that returns has found values that
    are not worse than those at the start; [fminopt] is the loss at the values of the result, and
    the loss never went up from one step to the next. *)
Theorem C73_never_worse f n e start e' r : tells_loss ev_value ev_vg clip f -> MINI n e start = Ok (e', r) ->
  f (m_values r) = Some (m_fmin r) /\ at_most (m_fmin r) (f (clip start)) /\
  m_first r = f (clip start) /\ never_up (f (clip start)) (m_history r) /\
  last (map Some (m_history r)) None = Some (m_fmin r) /\ 0 < length (m_history r) <= n.
Proof.
  intros TELL E. destruct (minimize_history S EV ev_value ev_vg ev_hess solve criterion tol clip at_limit f TELL _ _ _ _ _ E) as (A&B&C&D&F&G). auto 7.
Qed.

(** The result is valid exactly if the value of the criterion it reports is below the tolerance
    (times the errordef) and no parameter is at its limit. *)
Theorem C73_valid n e start e' r : MINI n e start = Ok (e', r) ->
  m_valid r = true <-> (m_edm r < tol)%Q /\ at_limit (m_values r) = false.
Proof.
  unfold minimize. intros E. destruct (ev_value e start) as [[e1 first]|]; [|discriminate]. cbn [bind] in E.
  eapply iterate_valid; [exact E|]. discriminate.
Qed.

(** What the criterion was given: the gradient, and the damped Hessian, at the point [p] from which
    the last step was taken, not at the values of the result. *)
Theorem C73_criterion_of_last_step n e start e' r : MINI n e start = Ok (e', r) ->
  exists e0 e1 e2 e3 e4 p v g H L Ld h,
    ev_vg e0 p = Ok (e1, (v, g)) /\ ev_hess e1 p = Ok (e2, H) /\
    solve (damped_hess H L) (vec_opp g) = Ok h /\ ev_value e3 (vec_add p h) = Ok (e4, Some (m_fmin r)) /\
    m_values r = clip (vec_add p h) /\ criterion (vec_add p h) (m_fmin r) g (damped_hess H Ld) = Ok (m_edm r).
Proof.
  unfold minimize. intros E. destruct (ev_value e start) as [[e1 first]|]; [|discriminate]. cbn [bind] in E.
  eapply iterate_last_step; [exact E|]. discriminate.
Qed.

(** A result whose criterion is not met is returned only if the minimiser is stuck there: with up to ten
    dampings, each eleven times the one before, every point tried was worse or had no finite loss.
    Fewer than ten are tried only if the damping passed 10^9. *)
Theorem C73_gives_up_only_if_stuck f n e start e' r : tells_loss ev_value ev_vg clip f -> MINI n e start = Ok (e', r) ->
  (tol <= m_edm r)%Q ->
  exists e0 e1 e2 p g H L k, m_values r = clip p /\ ev_vg e0 p = Ok (e1, (f (m_values r), g)) /\ ev_hess e1 p = Ok (e2, H) /\
    0 < k <= 10 /\ (k = 10 \/ (1000000000 < scaled L k)%Q) /\
    forall i, i < k -> exists h, solve (damped_hess H (scaled L i)) (vec_opp g) = Ok h /\
      not_better (f (clip (vec_add p h))) (f (m_values r)).
Proof.
  unfold minimize. intros TELL E HE. destruct (ev_value e start) as [[e1 first]|]; [|discriminate]. cbn [bind] in E.
  destruct (iterate_invalid S EV ev_value ev_vg ev_hess solve criterion tol clip at_limit _ _ _ _ _ _ _ _ _ E ltac:(discriminate)) as [K|(_&e2&L&p&EP&ES)]; [lra|].
  destruct (step_stopped S EV ev_value ev_vg ev_hess solve clip f TELL _ _ _ _ ES) as (e3&g&e4&H&k&A&B&C&D&F).
  exists e2, e3, e4, p, g, H, L, k. rewrite EP. split; [reflexivity|]. split; [exact A|]. split; [exact B|]. split; [exact C|]. split; [exact F|]. exact D.
Qed.

(** The loss is evaluated at most once at the beginning and eleven times per iteration. *)
Theorem C73_number_of_evaluations (calls : EV -> nat) n e start e' r :
  (forall e p e' v, ev_value e p = Ok (e', v) -> calls e' <= calls e + 1) ->
  (forall e p e' v, ev_vg e p = Ok (e', v) -> calls e' <= calls e + 1) ->
  (forall e p e' v, ev_hess e p = Ok (e', v) -> calls e' <= calls e) ->
  MINI n e start = Ok (e', r) -> calls e' <= calls e + 1 + 11 * n.
Proof.
  intros V1 G1 H1. unfold minimize. intros E. destruct (ev_value e start) as [[e1 first]|] eqn:EE; [|discriminate]. cbn [bind] in E.
  assert (A := V1 _ _ _ _ EE). assert (B := iterate_count S EV ev_value ev_vg ev_hess solve criterion tol clip at_limit calls V1 G1 H1 _ _ _ _ _ _ _ _ _ E). lia.
Qed.

(** ** The steps *)

(** Which step is taken. Of at most ten points tried, along the solutions of the damped equations with
    dampings that follow each other by factors 11 and 1/9: if some value improved on the first
    one, by an amount between rho_min and rho_max times the amount expected, the lowest of the
    values of which the improvement is such; else the lowest of all, provided it is not above
    the first one. The matrix returned is the one of the last point tried. *)
Theorem C73_step_chosen f e p L e' h c L' D g : tells_loss ev_value ev_vg clip f ->
  STEP e p L = Ok (e', Stepped h c L' D g) ->
  exists e1 e2 H trs, ev_vg e p = Ok (e1, (f (clip p), g)) /\ ev_hess e1 p = Ok (e2, H) /\
    length trs <= 10 /\ dampings_follow L trs /\
    (forall t, In t trs -> solve (damped_hess H (tr_damping t)) (vec_opp g) = Ok (tr_step t) /\
                           tr_value t = f (clip (vec_add p (tr_step t)))) /\
    In (Trial L' h (Some c)) trs /\
    (exists u, last (map Some trs) None = Some u /\ D = damped_hess H (tr_damping u)) /\
    let safe := safe (rho_min S) (rho_max S) (f (clip p)) g H in
    let improves := improves (f (clip p)) in
    (((exists t, In t trs /\ safe t /\ improves t) /\ safe (Trial L' h (Some c)) /\
      forall t, In t trs -> safe t -> value_at_least c t) \/
     (~ (exists t, In t trs /\ safe t /\ improves t) /\ at_most c (f (clip p)) /\
      forall t, In t trs -> value_at_least c t)).
Proof.
  intros TELL E. destruct (step_select S EV ev_value ev_vg ev_hess solve clip f TELL _ _ _ _ _ _ _ _ _ E) as (e1&e2&H&trs&A1&A2&A3&A4&A5&A6&A7&A8).
  exists e1, e2, H, trs. split; [exact A1|]. split; [exact A2|]. split; [exact A3|]. split; [exact A4|].
  split; [intros t Ht; rewrite List.Forall_forall in A5; exact (A5 t Ht)|]. split; [exact A6|]. split; [exact A7|]. cbv zeta.
  destruct A8 as [(B1&B2&B3)|(B1&B2&B3)]; [left; eauto 8|right]. split; [|auto]. intros (t&T1&T2&T3). exact (B1 t T1 T2 T3).
Qed.

(** For a loss that does not exceed its expansion to second order (a convex quadratic loss is one)
    the first iteration, which starts with damping 1, never stops without a step: the
    minimisation never ends in the assertion "No step taken". *)
Theorem C73_convex_takes_a_step f v e start e' L m : tells_loss ev_value ev_vg clip f -> (forall p, clip p = p) ->
  right_solver (length start) solve -> f start = Some v -> (0 <= L)%Q -> (L <= 1)%Q ->
  (forall e1 e2 e3 v' g H, ev_vg e1 start = Ok (e2, (v', g)) -> ev_hess e2 start = Ok (e3, H) ->
     length g = length start /\ square (length start) H /\ nonnegative (length start) H /\
     below_expansion (length start) f start v g H) ->
  STEP e start L = Ok (e', m) ->
  exists h c L' D g, m = Stepped h c L' D g /\ f (vec_add start h) = Some c /\ (c <= v)%Q.
Proof.
  intros TELL NL RS FV L0 L1 Q0 E.
  assert (NS := step_not_stopped S EV ev_value ev_vg ev_hess solve f clip TELL NL _ _ _ _ _ _ _ E RS L0 L1 eq_refl FV Q0).
  destruct m as [h c L' D g|]; [|congruence]. exists h, c, L', D, g. split; [reflexivity|].
  destruct (step_fair S EV ev_value ev_vg ev_hess solve clip f TELL _ _ _ _ _ _ _ _ _ E) as [A B]. rewrite NL in A, B.
  split; [exact A|]. rewrite FV in B. exact B.
Qed.
End T.

(** The damped matrix of a matrix without negative directions is positive: the quadratic form is at
    least the damping times the norm, for every size and every vector. *)
Theorem C73_damped_positive n H L x : square n H -> nonnegative n H -> (0 <= L)%Q ->
  (form n H x / (1 + L) + L * norm2 n x <= form n (damped_hess H L) x)%Q.
Proof. apply damped_positive. Qed.

(** It has the size of the Hessian; what is on the diagonal is multiplied by 1 + L and moved up by
    L, the rest is divided by 1 + L. *)
Theorem C73_damped_entries n H L : square n H -> ~ (1 + L == 0)%Q ->
  square n (damped_hess H L) /\
  forall i j, i < n -> j < n -> (ent (damped_hess H L) i j ==
    if Nat.eqb i j then ent H i i * (1 + L) + L else ent H i j / (1 + L))%Q.
Proof.
  intros SQ NL. split; [apply damped_square, SQ|]. intros i j Hi Hj. rewrite (ent_damped n) by assumption.
  destruct (Nat.eqb_spec i j) as [->|N]; [rewrite eye_same|rewrite eye_other by exact N]; field; exact NL.
Qed.

(** So every step tried goes downhill: the slope of the loss along it is at most minus the damping
    times its length squared, and negative unless the step is zero. *)
Theorem C73_downhill n H L g h : square n H -> nonnegative n H -> (0 < L)%Q ->
  solves n (damped_hess H L) (vec_opp g) h ->
  (inner n (coord g) (coord h) <= - (L * norm2 n (coord h)))%Q /\
  ((inner n (coord g) (coord h) < 0)%Q \/ forall i, i < n -> (coord h i == 0)%Q).
Proof.
  intros SQ NN HL SO. assert (A := descent n H L g h SQ NN (Qlt_le_weak _ _ HL) SO).
  assert (B : (0 <= form n H (coord h) / (1 + L))%Q).
  { unfold Qdiv. apply Qmult_le_0_compat; [apply NN|apply inv_nonneg; lra]. }
  assert (C := norm2_nonneg n (coord h)). split; [lra|].
  destruct (Qlt_le_dec 0 (norm2 n (coord h))) as [P|P].
  - left. assert (0 < L * norm2 n (coord h))%Q by (apply Qmult_lt_0_compat; assumption). lra.
  - right. apply norm2_zero. lra.
Qed.

(** ** With the evaluator of the minimisers *)
Section Evaluator.
Variable M : settings.
Variable S : lm.
Variable solve : mat -> vec -> result vec.
Variable criterion : vec -> Q -> vec -> mat -> result Q.
Variable tol : Q.
Variable clip : vec -> vec.
Variable at_limit : vec -> bool.
Variable loss : vec -> num.
Variable grad : vec -> vec.
Variable hess : vec -> mat.
Notation MINI := (minimize S ev (lv_value M clip loss) (lv_value_gradient M clip loss grad) (lv_hessian M clip hess)
  solve criterion tol clip at_limit).

(** If NaNs make the minimisation fail (the strategies without pushback), or the loss has none, then
    after any earlier evaluations [fminopt] is the loss at the values of the result, and not
    above the loss at the start. *)
Theorem C73_result_is_loss_partial n e start e' r : s_tol M = 0 \/ (forall p, is_nan (loss p) = false) ->
  MINI n e start = Ok (e', r) ->
  loss (m_values r) = Fin (m_fmin r) /\ (forall v, loss (clip start) = Fin v -> (m_fmin r <= v)%Q).
Proof.
  intros G E. destruct (C73_never_worse S ev _ _ _ _ _ _ _ _ _ _ _ _ _ _ (lv_tells M clip loss grad G) E) as (A&B&_).
  split.
  - destruct (loss (m_values r)); cbn in A; congruence.
  - intros v Ev. rewrite Ev in B. exact B.
Qed.
End Evaluator.

(** ** Cases *)
Definition solve1 (m : mat) (b : vec) : result vec :=
  match m, b with
  | [[d]], [b] => if Qeq_bool d 0 then Err InvalidArgumentError else Ok [(b / d)%Q]
  | _, _ => Err InvalidArgumentError
  end.
Lemma solve1_right : right_solver 1 solve1.
Proof.
  intros m b x [LM RM] LB. destruct m as [|row [|? ?]]; try discriminate. assert (LR := RM 0 ltac:(lia)). cbn in LR.
  destruct row as [|d [|? ?]]; try discriminate. destruct b as [|b0 [|? ?]]; try discriminate. cbn [solve1].
  destruct (Qeq_bool d 0) eqn:E; [discriminate|]. intros K. injection K as <-. apply Qeq_bool_neq in E. split; [reflexivity|].
  intros i Hi. replace i with 0 by lia. cbn. field. exact E.
Qed.
(** The minimiser with its defaults on a loss of one parameter without limits, with the default
    strategy; the tolerance 1/1000 times the errordef 1/2. *)
Definition run1 (f : Q -> num) (g h : Q -> Q) (x : Q) : result (ev * lm_result) :=
  let M := default_settings (Some 1000) in
  let at1 {A} (k : Q -> A) (p : vec) := k (nth 0 p 0%Q) in
  minimize (Lm (1 # 10) 2) ev (lv_value M (fun p => p) (at1 f))
    (lv_value_gradient M (fun p => p) (at1 f) (fun p => [at1 g p])) (lv_hessian M (fun p => p) (fun p => [[at1 h p]]))
    solve1 (edm_criterion solve1) (1 # 2000) (fun p => p) (fun _ => false) 100 start [x].
Definition kept (r : result (ev * lm_result)) : result (Q * Q * bool) :=
  let* (_, r) := r in Ok (Qred (nth 0 (m_values r) 0%Q), Qred (m_fmin r), m_valid r).

Example run_parabola : kept (run1 (fun x => Fin (x * x)%Q) (fun x => 2 * x)%Q (fun _ => 2%Q) 1) =
  Ok (6561 # 390625, 43046721 # 152587890625, true)%Q.
Proof. vm_compute. reflexivity. Qed.
Example parabola_hypotheses :
  s_tol (default_settings (Some 1000)) = 0 \/ (forall p : vec, is_nan (Fin (nth 0 p 0 * nth 0 p 0)%Q) = false).
Proof. right. reflexivity. Qed.
Example parabola_nonnegative : square 1 [[2%Q]] /\ nonnegative 1 [[2%Q]].
Proof.
  split; [split; [reflexivity|]; intros i Hi; replace i with 0 by lia; reflexivity|].
  intros x. unfold form, ent. cbn [sum_to nth]. assert (H := sq_nonneg (x 0)). lra.
Qed.
Example parabola_below v : (v == 9)%Q -> below_expansion 1 (fun p => Some (if Qeq_bool (nth 0 p 0) 3 then v else nth 0 p 0 * nth 0 p 0)%Q) [3%Q] v [6%Q] [[2%Q]].
Proof.
  intros V. split; [reflexivity|]. intros [|h [|? ?]] LH; try discriminate. eexists. split; [reflexivity|].
  unfold inner, form, coord, ent. cbn [sum_to nth vec_add]. destruct (Qeq_bool (3 + h) 3) eqn:E.
  - apply Qeq_bool_iff in E. assert (Z : (h == 0)%Q) by lra. apply Qle_lteq. right. rewrite Z. field.
  - apply Qle_lteq. right. rewrite V. field.
Qed.
(** A step towards the minimum of a loss in two parameters. *)
Example damped_two : damped_hess [[2; 1]; [1; 3]]%Q 1 =
  [[2 * (1 + (1 - 1) / (1 + 1)) + 1 * 1 * (1 + 2); 1 * (0 + (1 - 0) / (1 + 1)) + 1 * 0 * (1 + 3)];
   [1 * (0 + (1 - 0) / (1 + 1)) + 1 * 0 * (1 + 2); 3 * (1 + (1 - 1) / (1 + 1)) + 1 * 1 * (1 + 3)]]%Q.
Proof. reflexivity. Qed.
Example downhill_two :
  nonnegative 2 [[2; 1]; [1; 3]]%Q /\ solves 2 (damped_hess [[2; 1]; [1; 3]]%Q 1) (vec_opp [139; 0]%Q) [-28; 2]%Q.
Proof.
  split.
  - intros x. unfold form, ent. cbn [sum_to nth]. assert (A := sq_nonneg (x 0 + x 1)). assert (B := sq_nonneg (x 0)). assert (C := sq_nonneg (x 1)). nra.
  - split; [reflexivity|]. intros i Hi. destruct i as [|[|i]]; [| |lia]; vm_compute; reflexivity.
Qed.

(** ** What does not hold *)

(** From a point where the loss bends downwards the minimiser may find no step at all, although the loss
    falls there: the damped Hessian is negative, so that all steps go uphill, and
    minimize raises AssertionError (for -x^2 from 1). *)
Theorem C73_first_step_refuted :
  exists f g h x, (forall y, f y = Fin (- (y * y))%Q /\ g y = (-2 * y)%Q /\ h y = (-2)%Q) /\
    run1 f g h x = Err AssertionError.
Proof.
  exists (fun y => Fin (- (y * y))%Q), (fun y => -2 * y)%Q, (fun _ => (-2)%Q), 1%Q. split; [auto|]. vm_compute. reflexivity.
Qed.

(** A result can be valid although it is not within the tolerance of the minimum: the criterion uses
    the damped Hessian. For x^2/200 from 1 the result is 101/110 with "edm" below the tolerance
    1/2000, while the edm at that point (and the distance of the loss to its minimum, 0) is
    eight times the tolerance. *)
Theorem C73_valid_within_tolerance_refuted :
  exists e r, run1 (fun x => Fin (x * x / 200)%Q) (fun x => x / 100)%Q (fun _ => 1 # 100)%Q 1 = Ok (e, r) /\
    m_valid r = true /\ (m_edm r < 1 # 2000)%Q /\
    exists x, m_values r = [x] /\ let edm := ((x / 100) * (x / 100) / (1 # 100) / 2)%Q in
      (edm == m_fmin r)%Q /\ (8 * (1 # 2000) < edm)%Q.
Proof.
  destruct (run1 (fun x => Fin (x * x / 200)%Q) (fun x => x / 100)%Q (fun _ => 1 # 100)%Q 1) as [[e r]|] eqn:E; [|vm_compute in E; discriminate].
  exists e, r. split; [reflexivity|]. vm_compute in E. injection E as <- <-. cbn.
  split; [reflexivity|]. split; [reflexivity|]. eexists. split; [reflexivity|]. cbv zeta. split; vm_compute; reflexivity.
Qed.

(** A constant added to the loss changes the result: the improvement is compared with 10% of the
    value of the loss. For x^2/200 from 1 the result is 101/110; for x^2/200 + 100 it is below
    10^-12. *)
Theorem C73_constant_irrelevant_refuted :
  exists x y, (exists v, kept (run1 (fun x => Fin (x * x / 200)%Q) (fun x => x / 100)%Q (fun _ => 1 # 100)%Q 1) = Ok (x, v, true)) /\
    (exists v, kept (run1 (fun x => Fin (x * x / 200 + 100)%Q) (fun x => x / 100)%Q (fun _ => 1 # 100)%Q 1) = Ok (y, v, true)) /\
    (9 # 10 < x)%Q /\ (0 < y)%Q /\ (y < 1 # 1000000000000)%Q.
Proof.
  eexists. eexists. split; [eexists; vm_compute; reflexivity|]. split; [eexists; vm_compute; reflexivity|].
  repeat split; vm_compute; reflexivity.
Qed.

(** With the default strategy, which replaces a NaN by the last value plus 100, a valid result can be
    at a point at which the loss is NaN: a step found too good is discarded, and the value made up
    for the NaN after it passes as a good one. *)
Definition pitfall (x : Q) : num :=
  if Qlt_bool x (- (1 # 50)) then Fin (- 100 - (1 # 2300))%Q
  else if Qlt_bool x (- (1 # 1000)) then NaN else Fin (x * x / 2 + x / 10)%Q.
Theorem C73_result_is_loss_refuted :
  exists e r x, run1 pitfall (fun x => x + (1 # 10))%Q (fun _ => 1%Q) 0 = Ok (e, r) /\ m_valid r = true /\
    m_values r = [x] /\ pitfall x = NaN.
Proof.
  destruct (run1 pitfall (fun x => x + (1 # 10))%Q (fun _ => 1%Q) 0) as [[e r]|] eqn:E; [|vm_compute in E; discriminate].
  vm_compute in E. injection E as <- <-. eexists _, _, _. split; [reflexivity|]. split; [reflexivity|]. split; [reflexivity|]. vm_compute. reflexivity.
Qed.

Print Assumptions C73_settings.
Print Assumptions C73_refused.
Print Assumptions C73_never_worse.
Print Assumptions C73_valid.
Print Assumptions C73_criterion_of_last_step.
Print Assumptions C73_gives_up_only_if_stuck.
Print Assumptions C73_number_of_evaluations.
Print Assumptions C73_step_chosen.
Print Assumptions C73_convex_takes_a_step.
Print Assumptions C73_damped_positive.
Print Assumptions C73_damped_entries.
Print Assumptions C73_downhill.
Print Assumptions C73_result_is_loss_partial.
Print Assumptions C73_first_step_refuted.
Print Assumptions C73_valid_within_tolerance_refuted.
Print Assumptions C73_constant_irrelevant_refuted.
Print Assumptions C73_result_is_loss_refuted.
