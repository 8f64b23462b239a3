(** C77: a fit with a minimiser of SciPy, from the wrapped runs to the fit result. *)
From Verif Require Import Base BaseLemmas Param_Model Drv_Model Drv_Spec Drv_Proofs.
From Coq Require Import Lqa.
#[local] Open Scope nat_scope.

(** ** The fit result *)

(** A result is valid exactly if it was made as valid, no parameter is at its limit and it was not
    made as not converged. Its message is empty only if no parameter is at its limit. *)
Theorem C77_result_valid al x e f v c s m n k :
  let r := fit_result al x e f v c s m n k in
  (valid r = true <-> v = true /\ al = false /\ c <> Some false) /\
  (f_message r = ""%string <-> al = false /\ (m = Some ""%string \/ (m = None /\ v = true))) /\
  f_values r = x /\ f_edm r = e /\ f_fmin r = f.
Proof. split; [apply valid_iff|]. split; [apply message_empty|]. auto. Qed.

Example result_at_limit : let r := fit_result true [1%Q] (Some (Fin 0)) (Some 2%Q) true None None None 5 5 in
  valid r = false /\ f_message r = "parameter(s) at their limit."%string /\ f_status r = 0%Z.
Proof. vm_compute. auto. Qed.

(** Finding: fitresult.py:400-419 sets the status before it looks at the limits, so that an invalid
    result can have the status 0 and be called converged. *)
Theorem C77_result_status_refuted :
  exists r, (exists al x e f v c m n k, r = fit_result al x e f v c None m n k) /\
    valid r = false /\ f_status r = 0%Z /\ f_converged r = Some true.
Proof.
  exists (fit_result true [1%Q] (Some (Fin 0)) (Some 2%Q) true None None None 5 5). split; [|vm_compute; auto].
  do 9 eexists. reflexivity.
Qed.

Section Scipy.
Variable run : nat -> options -> vec -> run_end * nat.
Variable crit : nat -> vec -> num.
Variable shift stepsize : nat -> vec.
Variable at_limit : vec -> bool.
Variables tol errordef : Q.
Variable maxiter : nat.
Variable kind : initializer.
Notation fit := (scipy_minimize run crit shift stepsize at_limit tol errordef maxiter kind).

(** ** The runs *)

(** A fit makes at most twenty runs. The first one starts at the values of the parameters, every
    other one where the run before ended, or beside it if the criterion has hardly changed there.
    After all runs but the last the criterion was not met and the limit of evaluations not exceeded.
    Either the last run exceeds it, and there is no result; or there is one, and the parameters have
    the values of the last run. *)
Theorem C77_scipy_runs opts init x0 :
  let F := fit opts init x0 in
  exists h, rounds_of run h /\ length h < 20 /\
    (forall i d, nth_error h i = Some d -> ~ below tol errordef (crit i (end_of d)) /\ d_niter d <= maxiter) /\
    ((exists d r, rounds_of run (h ++ [d]) /\ starts crit shift x0 (h ++ [d]) /\
        s_log F = map entry (h ++ [d]) /\ s_params F = end_of d /\ s_result F = Ok r) \/
     (exists o s z n, run (length h) o s = (Exceeds z, n) /\ s_log F = map entry h ++ [(o, s)] /\
        s_params F = z /\ s_result F = Err MaximumIterationReached)).
Proof.
  destruct (minimize_outcome run crit shift stepsize at_limit tol errordef maxiter kind opts init x0) as (h&R&U&L&H).
  exists h. split; [exact R|]. split; [exact L|]. split.
  { intros i d E. destruct (U i d E) as (A&B). split; [|exact B]. rewrite <- met_below. congruence. }
  destruct H as [(d&R'&S&D1&D2&acc&m&v&_&D3&_)|(o&s&z&n&_&H1&H2&H3&H4)].
  - left. exists d. eexists. eauto 10.
  - right. exists o, s, z, n. auto.
Qed.

(** ** What a valid result means *)

(** If the result is valid, then in the last run SciPy did not report a failure, the criterion is
    met at the values that the parameters now have, the limit of evaluations was not exceeded and no
    parameter is at its limit; the message is empty. *)
Theorem C77_scipy_valid opts init x0 r : s_result (fit opts init x0) = Ok r -> valid r = true ->
  let F := fit opts init x0 in
  exists h d, rounds_of run (h ++ [d]) /\ s_log F = map entry (h ++ [d]) /\ s_params F = end_of d /\
    below tol errordef (crit (length h) (s_params F)) /\ o_success (d_result d) <> Some false /\
    d_niter d <= maxiter /\ at_limit (s_params F) = false /\ f_message r = ""%string.
Proof.
  intros E V F.
  destruct (minimize_outcome run crit shift stepsize at_limit tol errordef maxiter kind opts init x0) as (h&R&U&L&H).
  fold F in H, E. clearbody F. destruct H as [(d&R'&S&D1&D2&acc&m&v&EN&D3&D4&D5&D6&_)|(o&s&z&n&_&H1&H2&H3&H4)]; [|congruence].
  exists h, d. split; [exact R'|]. split; [exact D1|]. split; [exact D2|]. rewrite D2.
  assert (E' : r = from_scipy at_limit maxiter acc (end_of d) (crit (length h) (end_of d)) m v (d_niter d)) by congruence.
  clear E. subst r. unfold from_scipy in V. apply valid_iff in V. destruct V as (V1&V2&V3).
  apply andb_prop in V1. destruct V1 as (V0&V1). apply Bool.negb_true_iff, Nat.ltb_ge in V1. subst v.
  assert (M : met tol errordef (crit (length h) (end_of d)) = true /\ m = None).
  { inversion EN as [|? EL EM|? EL EM|]; subst; try congruence; auto. }
  destruct M as (M&->). split; [now apply met_below|]. rewrite D6 in V3.
  split; [destruct (o_success (d_result d)); congruence|]. split; [exact V1|]. split; [exact V2|].
  unfold from_scipy. apply message_empty. split; [exact V2|]. right. rewrite D6.
  destruct (o_success (d_result d)) as [[]|]; cbn; try congruence; (split; [reflexivity|]); apply Bool.negb_true_iff, Nat.ltb_ge; exact V1.
Qed.

(** ** What the result says *)

(** The value of the loss and the status are those of the last run, the edm is the criterion at the
    values of the parameters, the number of evaluations is the sum over all runs. *)
Theorem C77_scipy_result opts init x0 r : s_result (fit opts init x0) = Ok r ->
  let F := fit opts init x0 in
  exists h d, rounds_of run (h ++ [d]) /\ s_log F = map entry (h ++ [d]) /\ s_params F = end_of d /\
    f_edm r = Some (crit (length h) (s_params F)) /\ f_fmin r = Some (o_fun (d_result d)) /\
    f_status r = o_status (d_result d) /\ f_niter r = d_niter d /\ f_neval r = evaluations (h ++ [d]) /\
    f_at_limit r = at_limit (s_params F).
Proof.
  intros E F.
  destruct (minimize_outcome run crit shift stepsize at_limit tol errordef maxiter kind opts init x0) as (h&R&U&L&H).
  fold F in H, E. clearbody F. destruct H as [(d&R'&S&D1&D2&acc&m&v&EN&D3&D4&D5&D6&D7&D8&D9)|(o&s&z&n&_&H1&H2&H3&H4)]; [|congruence].
  exists h, d. rewrite D2. assert (E' : r = from_scipy at_limit maxiter acc (end_of d) (crit (length h) (end_of d)) m v (d_niter d)) by congruence.
  clear E. subst r. cbn. rewrite D5, D7, D9. auto 10.
Qed.

(** The values of the result are those of the parameters if the criterion has changed in the last
    run by more than [isclose] allows; in general they are these values or shifted from them. *)
Theorem C77_scipy_values_partial opts init x0 r : s_result (fit opts init x0) = Ok r ->
  let F := fit opts init x0 in
  (f_values r = s_params F \/ f_values r = vadd (s_params F) (shift (length (s_log F) - 1))) /\
  ((forall h d, rounds_of run (h ++ [d]) -> s_log F = map entry (h ++ [d]) ->
      isclose (crit_before crit h (length h)) (crit (length h) (end_of d)) = false) ->
   f_values r = s_params F).
Proof.
  intros E F.
  destruct (minimize_outcome run crit shift stepsize at_limit tol errordef maxiter kind opts init x0) as (h&R&U&L&H).
  fold F in H, E. clearbody F. destruct H as [(d&R'&S&D1&D2&acc&m&v&EN&D3&D4&D5&D6&D7&D8&D9)|(o&s&z&n&_&H1&H2&H3&H4)]; [|congruence].
  assert (E' : r = from_scipy at_limit maxiter acc (end_of d) (crit (length h) (end_of d)) m v (d_niter d)) by congruence.
  clear E. subst r. cbn. rewrite D2, D1, map_length, app_length, Nat.add_1_r. cbn [length]. rewrite Nat.sub_succ, Nat.sub_0_r.
  unfold next_start in D4. rewrite (crit_before_app crit h [d]) in D4 by lia. split.
  - destruct D4 as [D4|D4]; [now left|]. rewrite D4. destruct (isclose _ _); [now right|now left].
  - intros C. specialize (C h d R' eq_refl). rewrite C in D4. tauto.
Qed.

(** ** The message *)

(** If SciPy always gives a message, then an invalid result says something. *)
Theorem C77_scipy_message opts init x0 r : s_result (fit opts init x0) = Ok r ->
  (forall i o s c n, run i o s = (Returns c, n) -> exists m, o_message c = Some m /\ m <> ""%string) ->
  valid r = false -> f_message r <> ""%string.
Proof.
  intros E M V C.
  destruct (minimize_outcome run crit shift stepsize at_limit tol errordef maxiter kind opts init x0) as (h&R&U&L&H).
  destruct H as [(d&R'&S&D1&D2&acc&m&v&EN&D3&D4&D5&D6&D7&D8&D9)|(o&s&z&n&_&H1&H2&H3&H4)]; [|congruence].
  assert (E' : r = from_scipy at_limit maxiter acc (end_of d) (crit (length h) (end_of d)) m v (d_niter d)) by congruence.
  clear E. subst r. unfold from_scipy in *. set (cv := match o_success acc with Some s => s | None => v end) in *.
  apply message_empty in C. destruct C as (C1&C).
  destruct (M (length h) (d_options d) (d_start d) (d_result d) (d_niter d) ltac:(apply R'; apply nth_len)) as (mm&M1&M2).
  rewrite <- D8 in M1. rewrite M1 in C.
  apply Bool.not_true_iff_false in V. apply V. apply valid_iff.
  destruct C as [C|(C&C')].
  - inversion EN; subst m; try discriminate. destruct (negb cv || negb v); congruence.
  - assert (m = None) as -> by (inversion EN; subst m; (discriminate || reflexivity)).
    destruct (negb cv || negb v) eqn:NN; [discriminate|].
    apply Bool.orb_false_iff in NN. destruct NN as (NN&_). apply Bool.negb_false_iff in NN. split; [exact C'|]. split; [exact C1|]. congruence.
Qed.
End Scipy.

(** ** Examples: one parameter, two runs *)

Definition ex_result (x f : Q) : opt_result := OptResult [x] f (Some true) 0 (Some "done"%string) 10 (Some 4) None.
(** The runs end at 3 and at 1; the criterion there is 5 and 1 / 10000. *)
Definition ex_run (i : nat) (o : options) (s : vec) : run_end * nat :=
  (Returns (if Nat.eqb i 0 then ex_result 3 4 else ex_result 1 0), 10 * S i).
Definition ex_crit (i : nat) (x : vec) : num := if Nat.eqb i 0 then Fin 5 else Fin (1 # 10000).
Definition ex_fit := scipy_minimize ex_run ex_crit (fun _ => [1 # 5]) (fun _ => [1 # 10]) (fun _ => false) (1 # 1000) (1 # 2) 30 Plain [] None [8%Q].
Example ex_fit_valid : exists r, s_result ex_fit = Ok r /\ valid r = true /\ f_values r = [1%Q] /\ f_neval r = 20 /\
  map snd (s_log ex_fit) = [[8%Q]; [3%Q]].
Proof. eexists. vm_compute. repeat split; reflexivity. Qed.
Example ex_runs_message : forall i o s c n, ex_run i o s = (Returns c, n) -> exists m, o_message c = Some m /\ m <> ""%string.
Proof. intros i o s c n H. inversion H; subst. exists "done"%string. destruct (Nat.eqb i 0); split; (reflexivity || discriminate). Qed.
(** The evaluator stops the second run: no result, and [minimize] returns None (Mini_Model.v). *)
Example ex_fit_stopped : let F := scipy_minimize (fun i o s => if Nat.eqb i 0 then ex_run 0 o s else (Exceeds [7%Q], 31)) ex_crit
    (fun _ => [1 # 5]) (fun _ => [1 # 10]) (fun _ => false) (1 # 1000) (1 # 2) 30 Plain [] None [8%Q] in
  s_result F = Err MaximumIterationReached /\ length (s_log F) = 2.
Proof. vm_compute. auto. Qed.

(** ** Findings *)

(** Finding: the shift for the next run is added in place (346: [values += ...]) to the array that
    the result reports. If the criterion is met in a run that hardly changed it, then the result is
    valid and reports values where neither the criterion nor the loss was evaluated and that the
    parameters do not have. *)
Theorem C77_scipy_values_refuted : ~ (forall run crit shift stepsize at_limit tol errordef maxiter kind opts init x0 r,
  let F := scipy_minimize run crit shift stepsize at_limit tol errordef maxiter kind opts init x0 in
  s_result F = Ok r -> valid r = true -> f_values r = s_params F).
Proof.
  intros H.
  set (F := scipy_minimize ex_run (fun i x => if Nat.eqb i 0 then Fin (1 # 2000) else Fin (99995 # 200000000)) (fun _ => [1 # 5]) (fun _ => [1%Q])
    (fun _ => false) (1 # 1000) (1 # 2) 30 Plain [] None [8%Q]).
  assert (E : exists r, s_result F = Ok r /\ valid r = true /\ f_values r <> s_params F).
  { vm_compute. eexists. split; [reflexivity|]. split; [reflexivity|]. discriminate. }
  destruct E as (r&E1&E2&E3). apply E3. exact (H _ _ _ _ _ _ _ _ _ _ _ _ r E1 E2).
Qed.

(** Finding: the shift does not heed the limits of the parameters: a run can start outside of them
    although all runs end inside. Here the limits are 0 and 1 and the step size is 1. *)
Theorem C77_scipy_start_in_limits_refuted : ~ (forall run crit shift stepsize at_limit tol errordef maxiter kind opts init x0,
  let inside (x : vec) := Forall (fun q => 0 <= q /\ q <= 1)%Q x in
  (forall i o s c n, run i o s = (Returns c, n) -> inside (o_x c)) -> inside x0 ->
  (forall i, Forall2 (fun s w => - w / 5 <= s /\ s <= w / 5)%Q (shift i) (stepsize i)) ->
  let F := scipy_minimize run crit shift stepsize at_limit tol errordef maxiter kind opts init x0 in
  Forall (fun e => inside (snd e)) (s_log F)).
Proof.
  intros H.
  specialize (H (fun i o s => (Returns (ex_result (9 # 10) 1), 10)) (fun _ _ => Fin 5) (fun _ => [1 # 5]) (fun _ => [1%Q])
    (fun _ => false) (1 # 1000) (1 # 2) 30 Plain [] None [1 # 2]).
  cbn zeta in H.
  match type of H with ?A -> ?B -> ?C -> _ => assert (HA : A); [|assert (HB : B); [|assert (HC : C); [|specialize (H HA HB HC)]]] end.
  - intros i o s c n E. inversion E; subst. cbn. repeat constructor; unfold Qle; cbn; lia.
  - repeat constructor; unfold Qle; cbn; lia.
  - intros i. repeat constructor; unfold Qle; cbn; lia.
  - match type of H with Forall _ (s_log ?F) => assert (E : nth_error (s_log F) 2 <> None /\
       match nth_error (s_log F) 2 with Some e => snd e = [55 # 50]%Q | None => False end) by (vm_compute; split; [discriminate|reflexivity]);
      destruct (nth_error (s_log F) 2) as [e|] eqn:N; [|tauto] end.
    rewrite Forall_forall in H. specialize (H e (nth_error_In _ _ N)). destruct E as (_&E). rewrite E in H.
    inversion H as [|? ? (_&C) _]; subst. unfold Qle in C; cbn in C; lia.
Qed.
