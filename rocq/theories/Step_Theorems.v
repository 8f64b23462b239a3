(** C43: minimisation step by step. *)
From Verif Require Import Base Param_Model Step_Model Step_Spec Step_Proofs.
#[local] Open Scope nat_scope.

Section T.
Variable W : Type.
Variable begin : W -> W * option error.
Variable step : option report -> W -> W * result num.
Variable hesse : W -> result unit.
Variable calculate : report -> W -> result num.
Variable values : W -> list num.
Variable some_at_limit : W -> bool.
Variable tol errordef : Q.
Variable maxiter : nat.
Notation run := (minimize_steps W begin step hesse calculate values some_at_limit tol errordef maxiter).

(** Whatever the steps, the Hessian and the criterion do: at most maxiter+1 steps are made, also
    if an exception ends the minimisation, and the loop needs no more rounds than that. *)
Theorem C43_steps clock record w : counts_steps begin step clock record ->
  clock (fst (run (maxiter + 1) w)) <= maxiter + 1 /\
  forall rounds, maxiter + 1 <= rounds -> run rounds w = run (maxiter + 1) w.
Proof.
  intros CS. split.
  - apply (minimize_ok W begin step hesse calculate values some_at_limit tol errordef maxiter clock record CS (maxiter + 1) w (le_n _)).
  - intros rounds H. unfold minimize_steps. destruct (begin w) as [w1 [e|]]; [reflexivity|]. apply loop_rounds; lia.
Qed.

(** A result is valid exactly if the criterion accepts the parameters at which the minimisation
    stopped and none of them is at its limit. The criterion was asked about a result with these
    parameters, and its value is the edm reported. *)
Theorem C43_valid clock record w rep : counts_steps begin step clock record ->
  snd (run (maxiter + 1) w) = Ok rep ->
  let final := fst (run (maxiter + 1) w) in
  r_at rep = values final /\
  exists asked value, r_at asked = values final /\ r_fmin asked = r_fmin rep /\
    calculate asked final = Ok value /\ r_edm rep = Some value /\
    (r_converged rep = true <-> num_lt value (Fin (tol * errordef)) = true) /\
    (r_valid rep = true <-> num_lt value (Fin (tol * errordef)) = true /\ some_at_limit final = false).
Proof.
  intros CS R. destruct (minimize_ok W begin step hesse calculate values some_at_limit tol errordef maxiter clock record CS (maxiter + 1) w (le_n _)) as [_ H].
  destruct (H rep R) as (_&_&_&A&_&(pre&v&C&E&A'&F&N&G)&V&_).
  split; [exact A|]. exists pre, v. split; [exact A'|]. split; [exact F|]. split; [exact C|]. split; [exact E|]. split; [exact G|].
  rewrite V, andb_true_iff, negb_true_iff, G. reflexivity.
Qed.

(** What the result says: the number of steps made, the value that the last step gave, the
    message and the status. *)
Theorem C43_report clock record w rep : counts_steps begin step clock record ->
  snd (run (maxiter + 1) w) = Ok rep ->
  let final := fst (run (maxiter + 1) w) in
  r_niter rep = clock final /\ 0 < r_niter rep /\ hd_error (record final) = Some (r_fmin rep) /\
  r_status rep = (if r_converged rep then 0 else 10)%Z /\
  r_message rep = (if Nat.eqb (clock final) (maxiter + 1) then
                     (if some_at_limit final then "Maxiter reached AND parameter(s) at their limit." else "Maxiter reached")
                   else (if some_at_limit final then "parameter(s) at their limit." else ""))%string.
Proof.
  intros CS R. destruct (minimize_ok W begin step hesse calculate values some_at_limit tol errordef maxiter clock record CS (maxiter + 1) w (le_n _)) as [_ H].
  destruct (H rep R) as (C&_&P&_&F&_&_&S&M&_). rewrite <- C in M. repeat split; try assumption. symmetry. exact C.
Qed.

(** A minimisation that stops before the maximum has converged, and the last five changes of
    the loss add up to less than the tolerance. *)
Theorem C43_settled clock record w rep : counts_steps begin step clock record ->
  snd (run (maxiter + 1) w) = Ok rep -> r_niter rep <= maxiter ->
  let final := fst (run (maxiter + 1) w) in
  r_converged rep = true /\ exists t, settled 5 t (record final) /\ (t < tol)%Q.
Proof.
  intros CS R L. destruct (minimize_ok W begin step hesse calculate values some_at_limit tol errordef maxiter clock record CS (maxiter + 1) w (le_n _)) as [_ H].
  destruct (H rep R) as (_&_&_&_&_&_&_&_&_&K). destruct (K L) as (K1&_&K3). split; assumption.
Qed.
End T.

(** A loss that is 2 at every step, with a criterion that says 1/2000: after seven steps (the
    sixth is a third one, at which the criterion is not asked) the result is valid. With the
    criterion at 1 all six steps of a maximum of five are made and the result is invalid. *)
Definition world := (nat * list num)%type.
Definition w_begin (_ : world) : world * option error := ((0, []), None).
Definition w_step (_ : option report) (w : world) : world * result num := ((fst w + 1, Fin 2 :: snd w), Ok (Fin 2)).
Definition w_run (edm : Q) (maxiter : nat) : world * result report :=
  minimize_steps world w_begin w_step (fun _ => Ok tt) (fun _ _ => Ok (Fin edm)) (fun w => [Fin 7]) (fun _ => false)
    (1 # 1000) 1 maxiter (maxiter + 1) (9, []).
Example C43_case_counts : counts_steps w_begin w_step fst snd.
Proof. split; [split; reflexivity|]. split; [reflexivity|]. intros p w v [= <-]. reflexivity. Qed.
Example C43_case_valid : snd (w_run (1 # 2000) 100) = Ok (Report 7 [Fin 7] (Some (Fin (1 # 2000))) (Fin 2) true true 0 "").
Proof. reflexivity. Qed.
Example C43_case_invalid : snd (w_run 1 5) = Ok (Report 6 [Fin 7] (Some (Fin 1)) (Fin 2) false false 10 "Maxiter reached").
Proof. reflexivity. Qed.
Example C43_case_last : snd (w_run (1 # 2000) 5) = Ok (Report 6 [Fin 7] (Some (Fin (1 # 2000))) (Fin 2) true true 0 "Maxiter reached").
Proof. reflexivity. Qed.
Print Assumptions C43_steps. Print Assumptions C43_valid. Print Assumptions C43_report. Print Assumptions C43_settled.

(** ** The criterion *)

(** The EDM criterion (estimated distance to the minimum) accepts exactly the finite distances
    from zero up to the tolerance times the errordef: neither a singular Hessian, nor a negative,
    infinite or undefined distance, as long as the tolerance is below 999999. *)
Theorem C43_edm tol errordef algebra : (tol * errordef <= 999999)%Q ->
  criterion_converged tol errordef (edm_calculate algebra) = true <->
  exists e, algebra = Some (Fin e) /\ (0 <= e < tol * errordef)%Q.
Proof.
  intros T. unfold criterion_converged, edm_calculate.
  assert (BIG : num_lt (Fin 999999) (Fin (tol * errordef)) = false).
  { unfold num_lt, num_le. apply negb_false_iff, Qle_bool_iff. exact T. }
  destruct algebra as [[e| | |]|].
  - unfold num_lt at 2. cbn [num_le]. destruct (Qle_bool 0 e) eqn:E; cbn [negb].
    + apply Qle_bool_iff in E. unfold num_lt, num_le. rewrite negb_true_iff. split.
      * intros H. exists e. split; [reflexivity|]. split; [exact E|]. apply Qnot_le_lt. intros X. apply Qle_bool_iff in X. congruence.
      * intros (e'&[= <-]&_&L). destruct (Qle_bool (tol * errordef) e) eqn:X; [|reflexivity]. apply Qle_bool_iff in X.
        exfalso. exact (Qlt_not_le _ _ L X).
    + rewrite BIG. split; [discriminate|]. intros (e'&[= <-]&L&_). apply Qle_bool_iff in L. congruence.
  - cbn. split; [discriminate|]. intros (e&X&_). discriminate.
  - change (num_lt NInf (Fin 0)) with true. cbv iota. rewrite BIG. split; [discriminate|]. intros (e&X&_). discriminate.
  - cbn. split; [discriminate|]. intros (e&X&_). discriminate.
  - change (num_lt (Fin 999999) (Fin 0)) with false. cbv iota. rewrite BIG. split; [discriminate|]. intros (e&X&_). discriminate.
Qed.
Example C43_edm_accepts : criterion_converged (1 # 1000) (1 # 2) (edm_calculate (Some (Fin (4 # 10000)))) = true.
Proof. reflexivity. Qed.
Example C43_edm_rejects : criterion_converged (1 # 1000) (1 # 2) (edm_calculate (Some (Fin (-1)))) = false /\
  criterion_converged (1 # 1000) (1 # 2) (edm_calculate None) = false.
Proof. split; reflexivity. Qed.
(** With a tolerance above 999999 a negative distance is accepted. *)
Theorem C43_edm_negative_refuted tol errordef e : (999999 < tol * errordef)%Q -> (e < 0)%Q ->
  criterion_converged tol errordef (edm_calculate (Some (Fin e))) = true.
Proof.
  intros T E. unfold edm_calculate, criterion_converged. assert (num_lt (Fin e) (Fin 0) = true) as ->.
  { unfold num_lt, num_le. apply negb_true_iff. destruct (Qle_bool 0 e) eqn:X; [|reflexivity]. apply Qle_bool_iff in X.
    exfalso. exact (Qlt_not_le _ _ E X). }
  unfold num_lt, num_le. apply negb_true_iff. destruct (Qle_bool (tol * errordef) 999999) eqn:X; [|reflexivity].
  apply Qle_bool_iff in X. exfalso. exact (Qlt_not_le _ _ T X).
Qed.
Print Assumptions C43_edm. Print Assumptions C43_edm_negative_refuted.

(** By default no minimisation of n parameters makes more than 3000 n + 1 steps. *)
Theorem C43_default_steps W begin step hesse calculate values at_limit tol errordef n clock record (w : W) rounds :
  counts_steps begin step clock record -> 3000 * n + 1 <= rounds ->
  clock (fst (minimize_steps W begin step hesse calculate values at_limit tol errordef (get_maxiter Auto n) rounds w)) <= 3000 * n + 1.
Proof.
  intros CS L. destruct (C43_steps W begin step hesse calculate values at_limit tol errordef (get_maxiter Auto n) clock record w CS) as [A B].
  rewrite (B rounds L). exact A.
Qed.
Print Assumptions C43_default_steps.
