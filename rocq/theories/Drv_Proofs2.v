(** Proofs about the minimisers that wrap NLopt, Ipopt and Minuit. *)
From Verif Require Import Base BaseLemmas Param_Model Drv_Model Drv_Spec Drv_Proofs.
From Coq Require Import Lqa.
#[local] Open Scope nat_scope.

Section Nlopt.
Variable run : nat -> vec -> nl_run.
Variable crit : nat -> vec -> num.
Variable restart : nat -> vec -> vec.
Variable at_limit : vec -> bool.
Variables tol errordef : Q.
Variable is_edm : bool.
Variable maxiter : nat.
Notation loop := (nlopt_loop run crit restart at_limit tol errordef is_edm maxiter).
Notation from := (from_nlopt at_limit is_edm maxiter).

(** How a fit with NLopt ends, with flag and message. *)
Inductive nl_ending (r : nl_run) (conv : bool) : bool -> string -> Prop :=
| NNormal : conv = true \/ maxiter < n_niter r \/ n_end r = NExceeds -> n_end r <> NExceeds -> nl_ending r conv conv ""%string
| NStopped : n_end r = NExceeds -> nl_ending r conv conv "Maxiter reached, terminated without convergence"%string
| NExhausted : conv = false -> nl_ending r conv false "Invalid, criterion, target not reached."%string.

Definition nl_chain (l : list vec) : Prop :=
  forall i s t, nth_error l i = Some s -> nth_error l (S i) = Some t -> t = nl_ends (run i s) s.

Definition nl_outcome (x0 : vec) (bound : nat) (F : nl_fit) : Prop :=
  exists l s, nf_log F = l ++ [s] /\ nth_error (l ++ [s]) 0 = Some x0 /\ length l < bound /\ nl_chain (l ++ [s]) /\
    let i := length l in let r := run i s in let x := nl_ends r s in
    nf_params F = x /\
    ((exists e, n_end r = NOther e /\ nf_result F = Err e) \/
     ((forall e, n_end r <> NOther e) /\ nl_message (n_status r) = None /\ nf_result F = Err KeyError) \/
     ((forall e, n_end r <> NOther e) /\ nl_message (n_status r) <> None /\ exists v m,
       nl_ending r (met tol errordef (crit i x)) v m /\ nf_result F = from r x (crit i x) v m)).

Lemma chain_snoc l s : nl_chain l -> (forall t, nth_error l (length l - 1) = Some t -> s = nl_ends (run (length l - 1) t) t) ->
  nl_chain (l ++ [s]).
Proof.
  intros C E i a b H1 H2. apply nth_snoc in H2. destruct H2 as [H2|(L&->)].
  - assert (S i < length l) by (apply nth_error_Some; congruence). rewrite nth_error_app1 in H1 by lia. now apply (C i a b).
  - rewrite nth_error_app1 in H1 by lia. assert (EI : i = length l - 1) by lia. rewrite EI in H1 |- *. apply E. exact H1.
Qed.

Lemma nl_loop_outcome x0 : forall more i x initial nrandom mr log,
  i = length log -> nl_chain (log ++ [x]) -> nth_error (log ++ [x]) 0 = Some x0 -> mr = false ->
  nl_outcome x0 (S more + i) (loop more i x initial nrandom mr ""%string log).
Proof.
  induction more as [|more IH]; intros i x initial nrandom mr log Ei C H0 Em; subst mr.
  all: cbn [nlopt_loop]; set (r := run i x).
  all: assert (OUT : forall F, nf_log F = log ++ [x] -> nf_params F = nl_ends r x ->
    ((exists e, n_end r = NOther e /\ nf_result F = Err e) \/
     ((forall e, n_end r <> NOther e) /\ nl_message (n_status r) = None /\ nf_result F = Err KeyError) \/
     ((forall e, n_end r <> NOther e) /\ nl_message (n_status r) <> None /\ exists v m,
       nl_ending r (met tol errordef (crit i (nl_ends r x))) v m /\ nf_result F = from r (nl_ends r x) (crit i (nl_ends r x)) v m)) ->
    forall b, nl_outcome x0 (S b + i) F) by
   (intros F E1 E2 E3 b; exists log, x; split; [exact E1|]; split; [exact H0|]; split; [lia|]; split; [exact C|];
    rewrite <- Ei; split; [exact E2|exact E3]).
  all: destruct (n_end r) as [y| | |e] eqn:ER.
  4,8: apply OUT; [reflexivity|unfold nl_ends; rewrite ER; reflexivity|left; exists e; auto].
  all: assert (NO : forall e, n_end r <> NOther e) by (intros e; rewrite ER; discriminate).
  all: assert (NE : forall e, NOther e = n_end r -> False) by (intros e H; apply (NO e); congruence).
  all: assert (FINAL : forall v m, nl_message (n_status r) <> None -> nl_ending r (met tol errordef (crit i (nl_ends r x))) v m ->
      forall b, nl_outcome x0 (S b + i) (NlFit (from r (nl_ends r x) (crit i (nl_ends r x)) v m) (nl_ends r x) (log ++ [x]))) by
     (intros v m NM EN b; apply OUT; [reflexivity|reflexivity|right; right; split; [rewrite <- ER; exact NO|]; split; [exact NM|]; exists v, m; auto]).
  all: assert (KEY : nl_message (n_status r) = None -> forall b, nl_outcome x0 (S b + i) (NlFit (Err KeyError) (nl_ends r x) (log ++ [x]))) by
     (intros NM b; apply OUT; [reflexivity|reflexivity|right; left; rewrite <- ER; auto]).
  all: assert (EX : nl_ends r x = match n_end r with NReturns y => y | _ => x end) by reflexivity.
  all: rewrite ER in EX.
  all: try (destruct (Nat.ltb nrandom 5)).
  all: rewrite EX in FINAL, KEY; (destruct (nl_message (n_status r)) eqn:NM; [|now apply KEY]).
  all: assert (NM' : Some s <> None) by discriminate.
  all: try match goal with |- context [if ?b || Nat.ltb ?p ?q then _ else _] => destruct (b || Nat.ltb p q) eqn:EC end.
  all: try match goal with |- context [if ?b || true then _ else _] => destruct (b || true) eqn:EC end.
  all: try match goal with |- context [if ?b || false then _ else _] => destruct (b || false) eqn:EC end.
  all: try (rewrite Bool.orb_true_r in EC; discriminate).
  all: try (apply FINAL; [discriminate|]).
  all: try (apply NExhausted; apply Bool.orb_false_iff in EC; tauto).
  all: try (apply NStopped; exact ER).
  all: try (apply NNormal; [|congruence]; apply Bool.orb_true_iff in EC; destruct EC as [EC|EC];
       [now left|try discriminate; right; left; now apply Nat.ltb_lt]).
  all: apply Bool.orb_false_iff in EC; destruct EC as (EC1&EC2).
  all: replace (S (S more) + i) with (S more + S i) by lia; try rewrite EC2.
  all: apply IH; [rewrite app_length; cbn; lia| | |reflexivity].
  all: try (rewrite nth_error_app1 by (rewrite app_length; cbn; lia); exact H0).
  all: apply chain_snoc; [exact C|]; intros t H; rewrite app_length in H |- *; cbn [length] in H |- *;
       rewrite Nat.add_sub in H |- *; rewrite nth_len in H; injection H as <-; rewrite <- Ei; symmetry; exact EX.
Qed.

Lemma nl_minimize_outcome x0 : nl_outcome x0 20 (nlopt_minimize run crit restart at_limit tol errordef is_edm maxiter x0).
Proof.
  unfold nlopt_minimize. apply (nl_loop_outcome x0 19 0 x0 x0 0 false []); try reflexivity.
  intros i a b H1 H2. destruct i; cbn in H2; [discriminate|destruct i; discriminate].
Qed.
End Nlopt.

Section Ipopt.
Variable run : nat -> vec -> ip_end * nat.
Variable crit : nat -> vec -> num.
Variable at_limit : vec -> bool.
Variables tol errordef : Q.
Variable is_edm : bool.
Variable maxiter : nat.
Notation loop := (ipopt_loop run crit at_limit tol errordef is_edm maxiter).
Notation from := (from_ipopt at_limit is_edm maxiter).

Definition ip_chain (l : list vec) : Prop :=
  forall i s t, nth_error l i = Some s -> nth_error l (S i) = Some t -> t = ip_ends (fst (run i s)) s.
Inductive ip_ending (e : ip_end) (n : nat) (conv : bool) : bool -> string -> Prop :=
| INormal x f z : e = IReturns x f z -> conv = true \/ maxiter < n -> ip_ending e n conv true ""%string
| IStopped : e = IExceeds -> ip_ending e n conv false "Maxiter reached, terminated without convergence"%string
| IExhausted : conv = false -> ip_ending e n conv false "Invalid, criterion, target not reached."%string.

Definition ip_outcome (x0 : vec) (bound : nat) (F : ip_fit) : Prop :=
  exists l s, if_log F = l ++ [s] /\ nth_error (l ++ [s]) 0 = Some x0 /\ length l < bound /\ ip_chain (l ++ [s]) /\
    (forall j t, nth_error l j = Some t -> exists x f z n, run j t = (IReturns x f z, n)) /\
    let i := length l in let e := fst (run i s) in let n := snd (run i s) in let x := ip_ends e s in
    if_params F = x /\ exists fmin status v m, ip_ending e n (met tol errordef (crit i x)) v m /\
      (forall y f z, e = IReturns y f z -> fmin = Some f /\ status = Some z) /\
      (e = IExceeds -> match l with [] => fmin = None | _ => fmin <> None end) /\
      if_result F = from x fmin status (crit i x) v (met tol errordef (crit i x)) m n.

Lemma ip_chain_snoc l s : ip_chain l -> (forall t, nth_error l (length l - 1) = Some t -> s = ip_ends (fst (run (length l - 1) t)) t) ->
  ip_chain (l ++ [s]).
Proof.
  intros C E i a b H1 H2. apply nth_snoc in H2. destruct H2 as [H2|(L&->)].
  - assert (S i < length l) by (apply nth_error_Some; congruence). rewrite nth_error_app1 in H1 by lia. now apply (C i a b).
  - rewrite nth_error_app1 in H1 by lia. assert (EI : i = length l - 1) by lia. rewrite EI in H1 |- *. apply E. exact H1.
Qed.

Lemma ip_loop_outcome x0 : forall more i x fmin status log,
  i = length log -> ip_chain (log ++ [x]) -> nth_error (log ++ [x]) 0 = Some x0 ->
  (forall j t, nth_error log j = Some t -> exists x f z n, run j t = (IReturns x f z, n)) ->
  match log with [] => fmin = None | _ => fmin <> None end ->
  ip_outcome x0 (S more + i) (loop more i x fmin status log).
Proof.
  induction more as [|more IH]; intros i x fmin status log Ei C H0 AR FM.
  all: cbn [ipopt_loop]; destruct (run i x) as [e n] eqn:ER.
  all: assert (FINAL : forall fm st v m, ip_ending e n (met tol errordef (crit i (ip_ends e x))) v m ->
      (forall y f z, e = IReturns y f z -> fm = Some f /\ st = Some z) -> (e = IExceeds -> fm = fmin) ->
      forall b, ip_outcome x0 (S b + i) (IpFit (from (ip_ends e x) fm st (crit i (ip_ends e x)) v (met tol errordef (crit i (ip_ends e x))) m n)
        (ip_ends e x) (log ++ [x]))) by
    (intros fm st v m EN E1 E2 b; exists log, x; split; [reflexivity|]; split; [exact H0|]; split; [lia|]; split; [exact C|];
     split; [exact AR|]; cbn zeta; rewrite <- !Ei, !ER; cbn [fst snd]; split; [reflexivity|]; exists fm, st, v, m; split; [exact EN|];
     split; [exact E1|]; split; [intros EE; rewrite (E2 EE); exact FM|reflexivity]).
  all: destruct e as [y f z|]; cbn [ip_ends] in *.
  all: try (destruct (met tol errordef (crit i y) || Nat.ltb maxiter n) eqn:EC).
  all: try (destruct (met tol errordef (crit i x) || true) eqn:EC).
  all: try (rewrite Bool.orb_true_r in EC; discriminate).
  all: try (apply FINAL; [|intros ? ? ? EE; inversion EE; subst; auto|discriminate || reflexivity]).
  all: try (apply IExhausted; apply Bool.orb_false_iff in EC; tauto).
  all: try (apply IStopped; reflexivity).
  all: try (eapply INormal; [reflexivity|]; apply Bool.orb_true_iff in EC; destruct EC as [EC|EC]; [tauto|right; now apply Nat.ltb_lt]).
  replace (S (S more) + i) with (S more + S i) by lia. apply IH.
  - rewrite app_length; cbn; lia.
  - apply ip_chain_snoc; [exact C|]. intros t H. rewrite app_length in H |- *. cbn [length] in H |- *. rewrite Nat.add_sub in H |- *.
    rewrite nth_len in H. injection H as <-. rewrite <- Ei, ER. reflexivity.
  - rewrite nth_error_app1 by (rewrite app_length; cbn; lia). exact H0.
  - intros j t H. apply nth_snoc in H. destruct H as [H|(->&->)]; [now apply AR|]. rewrite <- Ei, ER. eauto 10.
  - destruct log; discriminate.
Qed.

Lemma ip_minimize_outcome x0 : ip_outcome x0 20 (ipopt_minimize run crit at_limit tol errordef is_edm maxiter x0).
Proof.
  unfold ipopt_minimize. apply (ip_loop_outcome x0 19 0 x0 None None []); try reflexivity.
  - intros i a b H1 H2. destruct i; cbn in H2; [discriminate|destruct i; discriminate].
  - intros j t H. destruct j; discriminate.
Qed.
End Ipopt.

Section Minuit.
Variable run : nat -> nat -> mi_run.
Variable calls : nat -> nat -> nat.
Variable crit : option (nat -> vec -> num).
Variable at_limit : vec -> bool.
Variables tol errordef : Q.
Variable maxiter : option nat.
Notation loop := (minuit_loop run calls crit at_limit tol errordef maxiter).
Definition mi_converged (i : nat) (r : mi_run) : bool :=
  match crit with None => negb (m_above r) | Some c => met tol errordef (c i (m_x r)) end.

Lemma mi_loop_outcome : forall more i called,
  let F := loop more i called in
  exists k, mf_migrads F = S k /\ i <= k /\ k <= i + more /\
    (forall j, i <= j -> j < k -> mi_converged j (run j (ncall maxiter)) = false) /\
    mf_calls F = called + fold_right Nat.add 0 (map (fun j => calls j (ncall maxiter)) (seq i (S k - i))) /\
    let r := run k (ncall maxiter) in
    (mi_converged k r = true /\ mf_params F = m_x r /\ mf_result F = from_minuit at_limit r (m_x r) true \/
     mi_converged k r = false /\ k = i + more /\ mf_params F = m_left r /\ mf_result F = from_minuit at_limit r (m_left r) false).
Proof.
  induction more as [|more IH]; intros i called; cbn [minuit_loop]; fold (mi_converged i (run i (ncall maxiter)));
    destruct (mi_converged i (run i (ncall maxiter))) eqn:E.
  1,2,3: exists i; cbn [mf_migrads mf_calls mf_params mf_result]; replace (S i - i) with 1 by lia; cbn [seq map fold_right];
    split; [reflexivity|]; split; [lia|]; split; [lia|]; split; [intros; exfalso; lia|]; split; [lia|];
    first [left; split; [exact E|]; split; reflexivity | right; split; [exact E|]; split; [lia|]; split; reflexivity].
  destruct (IH (S i) (called + calls i (ncall maxiter))) as (k&A&B&C&D&G&H). exists k. cbn zeta in *.
  split; [exact A|]. split; [lia|]. split; [lia|]. split.
  { intros j L1 L2. destruct (Nat.eq_dec j i) as [->|N]; [exact E|]. apply D; lia. }
  split.
  { rewrite G. replace (S k - i) with (S (S k - S i)) by lia. cbn [seq map fold_right]. lia. }
  destruct H as [H|(H1&H2&H3)]; [now left|right]. split; [exact H1|]. split; [lia|exact H3].
Qed.
End Minuit.
