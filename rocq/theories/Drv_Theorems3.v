(** C77, continued: fits with NLopt, Ipopt and Minuit. *)
From Verif Require Import Base BaseLemmas Param_Model Drv_Model Drv_Spec Drv_Proofs Drv_Proofs2.
From Coq Require Import Lqa.
#[local] Open Scope nat_scope.

Section Nlopt.
Variable run : nat -> vec -> nl_run.
Variable crit : nat -> vec -> num.
Variable restart : nat -> vec -> vec.
Variable at_limit : vec -> bool.
Variables tol errordef : Q.
Variable is_edm : bool.
Variable maxiter : nat.
Notation fit := (nlopt_minimize run crit restart at_limit tol errordef is_edm maxiter).

(** A fit makes at most twenty runs; the first starts at the values of the parameters, every other
    one where the one before ended (or started, if it failed). Afterwards the parameters have the
    values of the last run, and these are the values of the result, with the value of the loss, the
    code and the count that NLopt and the evaluator report. *)
Theorem C77_nlopt_runs x0 :
  let F := fit x0 in
  exists l s, nf_log F = l ++ [s] /\ length l < 20 /\ nth_error (nf_log F) 0 = Some x0 /\
    (forall i a b, nth_error (nf_log F) i = Some a -> nth_error (nf_log F) (S i) = Some b -> b = nl_ends (run i a) a) /\
    nf_params F = nl_ends (run (length l) s) s /\
    forall r, nf_result F = Ok r ->
      f_values r = nf_params F /\ f_fmin r = Some (n_value (run (length l) s)) /\ f_status r = n_status (run (length l) s) /\
      f_niter r = n_niter (run (length l) s) /\ f_at_limit r = at_limit (nf_params F).
Proof.
  intros F. destruct (nl_minimize_outcome run crit restart at_limit tol errordef is_edm maxiter x0) as (l&s&A&B&C&D&E&G).
  fold F in A, E, G. clearbody F. exists l, s. rewrite A. split; [reflexivity|]. split; [exact C|]. split; [exact B|]. split; [exact D|].
  split; [exact E|]. intros r ER. cbn zeta in E, G. set (q := run (length l) s) in *.
  destruct G as [(e&_&G)|[(_&_&G)|(_&NM&v&m&_&G)]]; [congruence|congruence|]. rewrite G in ER. rewrite E. unfold from_nlopt in ER.
  destruct (nl_message (n_status q)); [|tauto]. injection ER as <-. cbn. auto.
Qed.

(** If the result is valid, then the criterion is met at the values reported, that the parameters
    have, NLopt ended with one of its codes for success, the limit of evaluations was not exceeded
    and no parameter is at its limit. *)
Theorem C77_nlopt_valid x0 r : nf_result (fit x0) = Ok r -> valid r = true ->
  exists l s, nf_log (fit x0) = l ++ [s] /\ let q := run (length l) s in
    f_values r = nl_ends q s /\ nf_params (fit x0) = nl_ends q s /\ below tol errordef (crit (length l) (f_values r)) /\
    (1 <= n_status q <= 4)%Z /\ n_niter q <= maxiter /\ at_limit (f_values r) = false.
Proof.
  set (F := fit x0). intros ER V.
  destruct (nl_minimize_outcome run crit restart at_limit tol errordef is_edm maxiter x0) as (l&s&A&B&C&D&E&G).
  fold F in A, E, G. clearbody F. exists l, s. split; [exact A|]. cbn zeta in *. set (q := run (length l) s) in *.
  destruct G as [(e&_&G)|[(_&_&G)|(_&NM&v&m&EN&G)]]; [congruence|congruence|]. rewrite G in ER. unfold from_nlopt in ER.
  destruct (nl_message (n_status q)); [|tauto]. injection ER as <-. apply valid_iff in V. destruct V as (V1&V2&V3).
  apply andb_prop in V1. destruct V1 as (V1&V4). apply andb_prop in V1. destruct V1 as (V0&V1).
  apply Bool.negb_true_iff, Nat.ltb_ge in V4. subst v. cbn. split; [reflexivity|]. split; [exact E|]. split.
  { apply met_below. inversion EN; congruence. }
  apply andb_prop in V1. destruct V1 as (V5&V6). apply Z.leb_le in V5, V6. auto.
Qed.

(** If NLopt's codes are known ones and no exception other than RuntimeError reaches the caller, then
    there is a result. *)
Theorem C77_nlopt_result x0 :
  (forall i s, nl_message (n_status (run i s)) <> None) -> (forall i s e, n_end (run i s) <> NOther e) ->
  exists r, nf_result (fit x0) = Ok r.
Proof.
  intros K O. destruct (nl_minimize_outcome run crit restart at_limit tol errordef is_edm maxiter x0) as (l&s&A&B&C&D&E&G).
  cbn zeta in *. destruct G as [(e&G&_)|[(_&G&_)|(_&NM&v&m&EN&G)]]; [exfalso; now apply (O _ _ _ G)|exfalso; now apply (K _ _ G)|].
  rewrite G. unfold from_nlopt. destruct (nl_message _); [|tauto]. eauto.
Qed.

(** If the evaluator counts, then the message of a valid result is empty. *)
Theorem C77_nlopt_message_of_valid x0 r : nl_counts run maxiter -> nf_result (fit x0) = Ok r -> valid r = true -> f_message r = ""%string.
Proof.
  intros N ER V.
  destruct (nl_minimize_outcome run crit restart at_limit tol errordef is_edm maxiter x0) as (l&s&A&B&C&D&E&G).
  cbn zeta in *. set (q := run (length l) s) in *.
  destruct G as [(e&_&G)|[(_&_&G)|(_&NM&v&m&EN&G)]]; [congruence|congruence|]. rewrite G in ER. unfold from_nlopt in ER.
  destruct (nl_message (n_status q)); [|tauto]. injection ER as <-. apply valid_iff in V. destruct V as (V1&V2&V3).
  apply andb_prop in V1. destruct V1 as (V1&V4). apply andb_prop in V1. destruct V1 as (V0&V1).
  apply Bool.negb_true_iff, Nat.ltb_ge in V4. subst v. apply message_empty. split; [exact V2|]. left.
  specialize (N (length l) s). fold q in N. inversion EN as [| X |]; subst; try congruence. rewrite X in N. lia.
Qed.

(** Finding: after a RuntimeError the code draws a random point for another try (299-301), but into a
    variable that no run starts from: the next run starts again from where the failed one started,
    whatever was drawn. *)
Theorem C77_nlopt_restart_has_no_effect x0 i a b :
  nth_error (nf_log (fit x0)) i = Some a -> nth_error (nf_log (fit x0)) (S i) = Some b ->
  n_end (run i a) = NRuntime -> b = a.
Proof.
  intros H1 H2 E. destruct (C77_nlopt_runs x0) as (l&s&_&_&_&C&_). rewrite (C i a b H1 H2). unfold nl_ends. rewrite E. reflexivity.
Qed.
End Nlopt.

(** A run that fails, one that leads to the criterion but reports [status]. *)
Definition ex_nl (status : Z) (i : nat) (s : vec) : nl_run :=
  if Nat.eqb i 0 then NlRun NRuntime (-1) 9 10 else NlRun (NReturns [1%Q]) status 0 20.
Definition ex_nl_crit (i : nat) (x : vec) : num := if Nat.eqb i 0 then Fin 5 else Fin (1 # 10000).
Definition ex_nl_fit (status : Z) := nlopt_minimize (ex_nl status) ex_nl_crit (fun _ _ => [4%Q]) (fun _ => false) (1 # 1000) (1 # 2) true 30 [8%Q].
Example ex_nl_valid : exists r, nf_result (ex_nl_fit 3) = Ok r /\ valid r = true /\ f_message r = ""%string /\ nf_log (ex_nl_fit 3) = [[8%Q]; [8%Q]].
Proof. eexists. vm_compute. repeat split; reflexivity. Qed.
Example ex_nl_counts : nl_counts (ex_nl 3) 30.
Proof. intros i s. unfold ex_nl. destruct (Nat.eqb i 0); cbn; lia. Qed.
Example ex_nl_known : (forall i s, nl_message (n_status (ex_nl 3 i s)) <> None) /\ (forall i s e, n_end (ex_nl 3 i s) <> NOther e).
Proof. split; intros; unfold ex_nl; destruct (Nat.eqb i 0); discriminate. Qed.

(** Finding: minimizer_nlopt.py hands over an empty message unless it has one of its own, so that the
    one for NLopt's code (fitresult.py:1023-1024) is never used. A result that is invalid because NLopt
    stopped, e.g. at its number of evaluations (code 5), gives no reason. *)
Theorem C77_nlopt_message_refuted : ~ (forall run crit restart at_limit tol errordef is_edm maxiter x0 r,
  nl_counts run maxiter -> nf_result (nlopt_minimize run crit restart at_limit tol errordef is_edm maxiter x0) = Ok r ->
  valid r = false -> f_message r <> ""%string).
Proof.
  intros H. assert (E : exists r, nf_result (ex_nl_fit 5) = Ok r /\ valid r = false /\ f_message r = ""%string).
  { eexists. vm_compute. repeat split; reflexivity. }
  destruct E as (r&E1&E2&E3). refine (H (ex_nl 5) ex_nl_crit (fun _ _ => [4%Q]) (fun _ => false) _ _ true 30 [8%Q] r _ E1 E2 E3).
  intros i s. unfold ex_nl. destruct (Nat.eqb i 0); cbn; lia.
Qed.

(** Finding: a run that fails leaves the values where they were, but the value of the loss is then
    what NLopt had reached: the result can report a value of the loss that is not that of its values. *)
Theorem C77_nlopt_fmin_refuted : ~ (forall (f : vec -> Q) run crit restart at_limit tol errordef is_edm maxiter x0 r,
  (forall i s x, n_end (run i s) = NReturns x -> n_value (run i s) = f x) ->
  nf_result (nlopt_minimize run crit restart at_limit tol errordef is_edm maxiter x0) = Ok r -> f_fmin r = Some (f (f_values r))).
Proof.
  intros H.
  set (F := nlopt_minimize (fun _ _ => NlRun NRuntime (-1) 9 10) (fun _ _ => Fin 5) (fun _ _ => [4%Q]) (fun _ => false) (1 # 1000) (1 # 2) true 30 [8%Q]).
  assert (E : exists r, nf_result F = Ok r /\ f_fmin r = Some 9%Q /\ f_values r = [8%Q]) by (eexists; vm_compute; repeat split; reflexivity).
  destruct E as (r&E1&E2&E3).
  refine (_ (H (fun _ => 0%Q) _ _ _ _ _ _ _ _ _ r _ E1)).
  - rewrite E2. discriminate.
  - intros i s x E. discriminate.
Qed.

Section Ipopt.
Variable run : nat -> vec -> ip_end * nat.
Variable crit : nat -> vec -> num.
Variable at_limit : vec -> bool.
Variables tol errordef : Q.
Variable is_edm : bool.
Variable maxiter : nat.
Notation fit := (ipopt_minimize run crit at_limit tol errordef is_edm maxiter).

(** As for NLopt; there is always a result. If the last run was not stopped, the result has its value
    of the loss and its status. *)
Theorem C77_ipopt_runs x0 :
  let F := fit x0 in
  exists l s, if_log F = l ++ [s] /\ length l < 20 /\ nth_error (if_log F) 0 = Some x0 /\
    (forall i a b, nth_error (if_log F) i = Some a -> nth_error (if_log F) (S i) = Some b -> b = ip_ends (fst (run i a)) a) /\
    f_values (if_result F) = ip_ends (fst (run (length l) s)) s /\ if_params F = f_values (if_result F) /\
    f_niter (if_result F) = snd (run (length l) s) /\
    forall x f z, fst (run (length l) s) = IReturns x f z -> f_fmin (if_result F) = Some f /\ f_status (if_result F) = z.
Proof.
  intros F. destruct (ip_minimize_outcome run crit at_limit tol errordef is_edm maxiter x0) as (l&s&A&B&C&D&E&G&fm&st&v&m&H1&H2&H3&H4).
  fold F in A, G, H4. clearbody F. exists l, s. cbn zeta in *. rewrite A, H4. cbn.
  split; [reflexivity|]. split; [exact C|]. split; [exact B|]. split; [exact D|]. split; [reflexivity|]. split; [exact G|].
  split; [reflexivity|]. intros x f z EX. destruct (H2 x f z EX) as (->&->). auto.
Qed.

Theorem C77_ipopt_valid x0 : let F := fit x0 in valid (if_result F) = true ->
  exists l s x f z, if_log F = l ++ [s] /\ fst (run (length l) s) = IReturns x f z /\
    f_values (if_result F) = x /\ if_params F = x /\ below tol errordef (crit (length l) x) /\
    snd (run (length l) s) <= maxiter /\ at_limit x = false /\ f_message (if_result F) = ""%string.
Proof.
  intros F V. destruct (ip_minimize_outcome run crit at_limit tol errordef is_edm maxiter x0) as (l&s&A&B&C&D&E&G&fm&st&v&m&H1&H2&H3&H4).
  fold F in A, G, H4. clearbody F. cbn zeta in *. rewrite H4 in V |- *. apply valid_iff in V. destruct V as (V1&V2&V3).
  apply andb_prop in V1. destruct V1 as (V1&V4). apply andb_prop in V1. destruct V1 as (V0&V1). apply Bool.negb_true_iff, Nat.ltb_ge in V4.
  subst v. inversion H1 as [x f z EE O| |]. subst m. exists l, s, x, f, z. rewrite EE in *. cbn [ip_ends] in *.
  split; [exact A|]. split; [reflexivity|]. split; [reflexivity|]. split; [exact G|]. split; [now apply met_below|].
  split; [exact V4|]. split; [exact V2|]. apply message_empty. auto.
Qed.

(** If the evaluator counts, then an invalid result says why. *)
Theorem C77_ipopt_message x0 : let F := fit x0 in ip_counts run maxiter -> valid (if_result F) = false -> f_message (if_result F) <> ""%string.
Proof.
  intros F N V M. destruct (ip_minimize_outcome run crit at_limit tol errordef is_edm maxiter x0) as (l&s&A&B&C&D&E&G&fm&st&v&m&H1&H2&H3&H4).
  fold F in A, G, H4. clearbody F. cbn zeta in *. rewrite H4 in V, M. apply message_empty in M. destruct M as (M1&M2).
  apply Bool.not_true_iff_false in V. apply V. apply valid_iff.
  inversion H1 as [x f z EE O|EE|EE]; subst m; [|destruct M2 as [M2|(M2&_)]; discriminate|destruct M2 as [M2|(M2&_)]; discriminate].
  specialize (N (length l) s). destruct (run (length l) s) as [e n]. cbn [fst snd] in *. rewrite EE in N. rewrite EE in *. cbn [ip_ends] in *.
  destruct O as [O|O]; [|lia]. split; [|split; [exact M1|rewrite O; discriminate]]. rewrite O. cbn. apply Bool.negb_true_iff, Nat.ltb_ge. exact N.
Qed.

(** A result has no value of the loss exactly if the very first run was stopped by the evaluator. *)
Theorem C77_ipopt_fmin x0 : let F := fit x0 in f_fmin (if_result F) = None <-> fst (run 0 x0) = IExceeds.
Proof.
  intros F. destruct (ip_minimize_outcome run crit at_limit tol errordef is_edm maxiter x0) as (l&s&A&B&C&D&E&G&fm&st&v&m&H1&H2&H3&H4).
  fold F in A, G, H4. clearbody F. cbn zeta in *. rewrite H4. cbn [from_ipopt fit_result f_fmin].
  destruct l as [|a l].
  - cbn in *. injection B as <-. destruct (fst (run 0 s)) as [x f z|] eqn:EE.
    + destruct (H2 x f z eq_refl) as (->&_). split; discriminate.
    + rewrite (H3 eq_refl). tauto.
  - cbn in B. injection B as <-. destruct (E 0 a eq_refl) as (x&f&z&n&EE). rewrite EE. cbn [fst]. split; [|discriminate].
    intros FN. exfalso. destruct (fst (run (length (a :: l)) s)) as [x' f' z'|] eqn:E'.
    + destruct (H2 x' f' z' eq_refl) as (X&_). congruence.
    + apply (H3 eq_refl). exact FN.
Qed.
End Ipopt.

Definition ex_ip (status : Z) (i : nat) (s : vec) : ip_end * nat := if Nat.eqb i 0 then (IReturns [3%Q] 4 0, 10) else (IReturns [1%Q] 0 status, 20).
Definition ex_ip_fit (status : Z) := ipopt_minimize (ex_ip status) ex_nl_crit (fun _ => false) (1 # 1000) (1 # 2) true 30 [8%Q].
Example ex_ip_valid : valid (if_result (ex_ip_fit 0)) = true /\ if_log (ex_ip_fit 0) = [[8%Q]; [3%Q]].
Proof. vm_compute. auto. Qed.
Example ex_ip_counts : ip_counts (ex_ip 0) 30.
Proof. intros i s. unfold ex_ip. destruct (Nat.eqb i 0); cbn; lia. Qed.
(** The first run is stopped. *)
Example ex_ip_stopped : let r := if_result (ipopt_minimize (fun _ s => (IExceeds, 31)) (fun _ _ => Fin 5) (fun _ => false) (1 # 1000) (1 # 2) true 30 [8%Q]) in
  valid r = false /\ f_fmin r = None /\ f_status r = (-999)%Z.
Proof. vm_compute. auto. Qed.

(** Finding: whether Ipopt reports a failure is not looked at: with the criterion met the result is
    valid although its status says that the solver failed (e.g. 2 for an infeasible problem, or a
    negative code). *)
Theorem C77_ipopt_status_refuted : ~ (forall run crit at_limit tol errordef is_edm maxiter x0,
  let r := if_result (ipopt_minimize run crit at_limit tol errordef is_edm maxiter x0) in
  valid r = true -> (0 <= f_status r <= 1)%Z).
Proof.
  intros H. specialize (H (ex_ip (-1)) ex_nl_crit (fun _ => false) (1 # 1000)%Q (1 # 2)%Q true 30 [8%Q]). cbn zeta in H.
  specialize (H ltac:(vm_compute; reflexivity)).
  assert (E : f_status (if_result (ipopt_minimize (ex_ip (-1)) ex_nl_crit (fun _ => false) (1 # 1000)%Q (1 # 2)%Q true 30 [8%Q])) = (-1)%Z) by (vm_compute; reflexivity).
  rewrite E in H. lia.
Qed.

Section Minuit.
Variable run : nat -> nat -> mi_run.
Variable calls : nat -> nat -> nat.
Variable crit : option (nat -> vec -> num).
Variable at_limit : vec -> bool.
Variables tol errordef : Q.
Variable maxiter : option nat.
Notation fit := (minuit_minimize run calls crit at_limit tol errordef maxiter).

(** If the result is valid, then the last migrad is valid and below Minuit's own limit for the edm, the
    criterion (if it is another one) is met, and the values reported, that the parameters have, are
    those of the last migrad and not at a limit. *)
Theorem C77_minuit_valid : valid (mf_result fit) = true ->
  exists k, mf_migrads fit = S k /\ let q := run k (ncall maxiter) in
    m_valid q = true /\ m_above q = false /\ (forall c, crit = Some c -> below tol errordef (c k (m_x q))) /\
    f_values (mf_result fit) = m_x q /\ mf_params fit = m_x q /\ f_edm (mf_result fit) = Some (m_edm q) /\
    f_fmin (mf_result fit) = Some (m_fval q) /\ at_limit (m_x q) = false /\ f_message (mf_result fit) = ""%string /\
    f_status (mf_result fit) = 0%Z.
Proof.
  intros V. destruct (mi_loop_outcome run calls crit at_limit tol errordef maxiter 19 0 0) as (k&A&_&_&_&_&H). cbn zeta in H.
  fold fit in A, H. set (F := fit) in *. clearbody F. exists k. split; [exact A|]. cbn zeta. set (q := run k (ncall maxiter)) in *.
  destruct H as [(C&P&R)|(C&_&P&R)]; rewrite R in V |- *; apply valid_iff in V; destruct V as (V1&V2&V3); apply andb_prop in V1; destruct V1 as (V1&V4).
  2: discriminate.
  assert (MA : m_above q = false) by (destruct (m_above q); [exfalso; apply V3; reflexivity|reflexivity]).
  split; [exact V1|]. split; [exact MA|]. split.
  { intros c EC. unfold mi_converged in C. rewrite EC in C. now apply met_below. }
  cbn. rewrite V1, V2. cbn. auto 10.
Qed.

(** The migrads: at most twenty; the criterion was not met after any but the last. If it is met after
    the last, the parameters have the values of the result. *)
Theorem C77_minuit_runs :
  exists k, mf_migrads fit = S k /\ S k <= 20 /\
    f_values (mf_result fit) = m_x (run k (ncall maxiter)) /\ f_niter (mf_result fit) = m_nfcn (run k (ncall maxiter)) /\
    (forall j, j < k -> mi_converged crit tol errordef j (run j (ncall maxiter)) = false) /\
    mf_calls fit = fold_right Nat.add 0 (map (fun j => calls j (ncall maxiter)) (seq 0 (S k))) /\
    (mi_converged crit tol errordef k (run k (ncall maxiter)) = true -> mf_params fit = f_values (mf_result fit)) /\
    (mi_converged crit tol errordef k (run k (ncall maxiter)) = false -> k = 19 /\ valid (mf_result fit) = false).
Proof.
  destruct (mi_loop_outcome run calls crit at_limit tol errordef maxiter 19 0 0) as (k&A&_&B&D&E&H). cbn zeta in H.
  fold fit in A, E, H. set (F := fit) in *. clearbody F. exists k. set (q := run k (ncall maxiter)) in *.
  split; [exact A|]. split; [lia|]. rewrite Nat.sub_0_r in E.
  assert (NV : forall x, valid (from_minuit at_limit q x false) = false).
  { intros x. apply Bool.not_true_iff_false. unfold from_minuit. rewrite valid_iff. intros (X&_). rewrite Bool.andb_false_r in X. discriminate. }
  destruct H as [(C&P&R)|(C&K&P&R)]; rewrite R, P, C; change (f_values (from_minuit _ _ _ _)) with (m_x q);
    change (f_niter (from_minuit _ _ _ _)) with (m_nfcn q).
  all: split; [reflexivity|]; split; [reflexivity|]; split; [intros j J; apply D; lia|]; split; [rewrite E; reflexivity|].
  - split; [reflexivity|discriminate].
  - split; [discriminate|]. intros _. split; [exact K|apply NV].
Qed.
End Minuit.

Definition ex_mi (i n : nat) : mi_run :=
  if Nat.eqb i 0 then MiRun [3%Q] (Fin 5) true false 4 10 [4%Q] else MiRun [1%Q] (Fin (1 # 10000)) false true 0 20 [2%Q].
Definition ex_mi_fit := minuit_minimize ex_mi (fun _ _ => 10) None (fun _ => false) (1 # 1000) (1 # 2) None.
Example ex_mi_valid : valid (mf_result ex_mi_fit) = true /\ mf_migrads ex_mi_fit = 2 /\ mf_calls ex_mi_fit = 20.
Proof. vm_compute. auto. Qed.

(** A Minuit that never gets to the criterion. *)
Definition ex_mi_never := minuit_minimize (fun _ n => MiRun [3%Q] (Fin 5) true false 4 n [4%Q]) (fun _ n => n) None (fun _ => false) (1 # 1000) (1 # 2) (Some 30).

(** Finding: if the criterion is not met after twenty migrads, the parameters are not set to the values
    of the result but stay where the last evaluation was. *)
Theorem C77_minuit_params_refuted : ~ (forall run calls crit at_limit tol errordef maxiter,
  let F := minuit_minimize run calls crit at_limit tol errordef maxiter in mf_params F = f_values (mf_result F)).
Proof.
  intros H. specialize (H (fun _ n => MiRun [3%Q] (Fin 5) true false 4 n [4%Q]) (fun _ n => n) None (fun _ => false) (1 # 1000)%Q (1 # 2)%Q (Some 30)).
  cbn zeta in H. vm_compute in H. discriminate.
Qed.

(** Finding: the message of such a result is empty, although it is not valid. *)
Theorem C77_minuit_message_refuted : ~ (forall run calls crit at_limit tol errordef maxiter,
  let r := mf_result (minuit_minimize run calls crit at_limit tol errordef maxiter) in valid r = false -> f_message r <> ""%string).
Proof.
  intros H. specialize (H (fun _ n => MiRun [3%Q] (Fin 5) true false 4 n [4%Q]) (fun _ n => n) None (fun _ => false) (1 # 1000)%Q (1 # 2)%Q (Some 30)).
  cbn zeta in H. specialize (H ltac:(vm_compute; reflexivity)). apply H. vm_compute. reflexivity.
Qed.

(** Finding: [maxiter] is a limit for every migrad (139), not for the fit: a Minuit that keeps to it in
    every migrad can evaluate the loss twenty times as often. *)
Theorem C77_minuit_maxiter_refuted : ~ (forall run calls crit at_limit tol errordef maxiter,
  (forall i n, 0 < n -> calls i n <= n) -> 0 < maxiter ->
  mf_calls (minuit_minimize run calls crit at_limit tol errordef (Some maxiter)) <= 19 * maxiter).
Proof.
  intros H. specialize (H (fun _ n => MiRun [3%Q] (Fin 5) true false 4 n [4%Q]) (fun _ n => n) None (fun _ => false) (1 # 1000)%Q (1 # 2)%Q 30
    ltac:(intros; lia) ltac:(lia)).
  vm_compute in H. lia.
Qed.
Theorem C77_minuit_maxiter run calls crit at_limit tol errordef maxiter :
  (forall i n, 0 < n -> calls i n <= n) -> 0 < maxiter ->
  mf_calls (minuit_minimize run calls crit at_limit tol errordef (Some maxiter)) <= 20 * maxiter.
Proof.
  intros C P. destruct (C77_minuit_runs run calls crit at_limit tol errordef (Some maxiter)) as (k&_&K&_&_&_&E&_).
  set (F := minuit_minimize _ _ _ _ _ _ _) in *. clearbody F. rewrite E. cbn [ncall].
  assert (L : forall l, fold_right Nat.add 0 (map (fun j => calls j maxiter) l) <= length l * maxiter).
  { induction l as [|a l IH]; cbn; [lia|]. specialize (C a maxiter P). lia. }
  specialize (L (seq 0 (S k))). rewrite seq_length in L. assert (S k * maxiter <= 20 * maxiter) by (apply Nat.mul_le_mono_r; exact K). lia.
Qed.
