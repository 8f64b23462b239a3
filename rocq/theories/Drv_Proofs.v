(** Proofs about the minimisers that wrap another library: the result and SciPy. *)
From Verif Require Import Base BaseLemmas Param_Model Drv_Model Drv_Spec.
From Coq Require Import Lqa.
#[local] Open Scope nat_scope.

Lemma met_below tol e v : met tol e v = true <-> below tol e v.
Proof.
  unfold met, below, num_lt, num_le. destruct v as [q| | |]; cbn.
  - rewrite Bool.negb_true_iff. split.
    + intros H. apply Qnot_le_lt. intros C. apply Qle_bool_iff in C. congruence.
    + intros H. destruct (Qle_bool (tol * e) q) eqn:E; [|reflexivity]. apply Qle_bool_iff in E. lra.
  - split; [discriminate|tauto].
  - tauto.
  - split; [discriminate|tauto].
Qed.

(** [valid] of a result made by [fit_result] *)
Lemma valid_iff al x e f v c s m n k : valid (fit_result al x e f v c s m n k) = true <->
  v = true /\ al = false /\ c <> Some false.
Proof.
  unfold valid, fit_result; cbn. destruct al, v; cbn; try (split; [intros H; discriminate|intros (?&?&?); discriminate]).
  - destruct c as [[]|]; cbn; split; intros; try discriminate; repeat split; try congruence. now destruct H as (_&_&[]).
Qed.

Lemma app_neq (a b : string) : b <> ""%string -> (a ++ b)%string <> ""%string.
Proof. destruct a; cbn; [tauto|discriminate]. Qed.
Lemma message_empty al x e f v c s m n k : f_message (fit_result al x e f v c s m n k) = ""%string <->
  al = false /\ (m = Some ""%string \/ (m = None /\ v = true)).
Proof.
  unfold fit_result; cbn. destruct al.
  - split; [|intros (H&_); discriminate]. intros H. exfalso. revert H. apply app_neq. discriminate.
  - destruct m as [m|]; [|destruct v]; (split; [intros H; split; [reflexivity|]|intros (_&[H|(H&H')])]); try discriminate; try congruence.
    all: first [left; congruence | right; split; congruence | reflexivity].
Qed.

Lemma nth_snoc {A} (l : list A) a i b : nth_error (l ++ [a]) i = Some b -> nth_error l i = Some b \/ (i = length l /\ b = a).
Proof.
  intros H. destruct (Nat.lt_ge_cases i (length l)) as [L|L].
  - rewrite nth_error_app1 in H by exact L. tauto.
  - rewrite nth_error_app2 in H by exact L. destruct (i - length l) as [|k] eqn:E; cbn in H.
    + right. split; [lia|congruence].
    + destruct k; discriminate.
Qed.
Lemma nth_len {A} (l : list A) a : nth_error (l ++ [a]) (length l) = Some a.
Proof. rewrite nth_error_app2, Nat.sub_diag by lia. reflexivity. Qed.
Lemma evaluations_snoc h d : evaluations (h ++ [d]) = evaluations h + o_nfev (d_result d).
Proof. unfold evaluations. rewrite map_app, fold_right_app. cbn. induction h; cbn in *; lia. Qed.
Lemma get_set o k v k' : opt_get (opt_set o k v) k' = if String.eqb k k' then Some v else opt_get o k'.
Proof.
  unfold opt_get, opt_set. cbn. destruct (String.eqb k' k) eqn:E.
  - apply String.eqb_eq in E. subst. rewrite String.eqb_refl. reflexivity.
  - rewrite String.eqb_sym, E. induction o as [|[a b] o IH]; cbn; [reflexivity|].
    destruct (String.eqb a k) eqn:E2; cbn.
    + apply String.eqb_eq in E2. subst. rewrite E. exact IH.
    + destruct (String.eqb k' a); [reflexivity|exact IH].
Qed.

Section Scipy.
Variable run : nat -> options -> vec -> run_end * nat.
Variable crit : nat -> vec -> num.
Variable shift stepsize : nat -> vec.
Variable at_limit : vec -> bool.
Variables tol errordef : Q.
Variable maxiter : nat.
Variable kind : initializer.
Notation loop := (scipy_loop run crit shift stepsize at_limit tol errordef maxiter kind).
Notation from := (from_scipy at_limit maxiter).

(** How a fit ends: message and flag for [from_scipy]. *)
Inductive ending (edm : num) (x : vec) (n : nat) : option string -> bool -> Prop :=
| EStuck : ending edm x n (Some "Stuck (no change in a few iterations)"%string) false
| ELimit : at_limit x = true ->
    ending edm x n (Some "Parameters too often at limit during minimization."%string) (met tol errordef edm)
| ENormal : met tol errordef edm = true \/ maxiter < n -> ending edm x n None (met tol errordef edm)
| EExhausted : met tol errordef edm = false ->
    ending edm x n (Some "Invalid, criterion, target not reached."%string) false.

Definition done_with (h : list round) (d : round) (F : scipy_fit) : Prop :=
  let i := length h in
  s_log F = map entry (h ++ [d]) /\ s_params F = end_of d /\
  exists acc m v, ending (crit i (end_of d)) (end_of d) (d_niter d) m v /\
    s_result F = Ok (from acc (end_of d) (crit i (end_of d)) m v (d_niter d)) /\
    (o_x acc = end_of d \/ o_x acc = next_start crit shift (h ++ [d]) i d) /\
    o_fun acc = o_fun (d_result d) /\ o_success acc = o_success (d_result d) /\
    o_status acc = o_status (d_result d) /\ o_message acc = o_message (d_result d) /\
    o_nfev acc = evaluations (h ++ [d]).

Definition unfinished (h : list round) : Prop :=
  forall i d, nth_error h i = Some d -> met tol errordef (crit i (end_of d)) = false /\ d_niter d <= maxiter.

Definition outcome (x0 : vec) (bound : nat) (F : scipy_fit) : Prop :=
  exists h, rounds_of run h /\ unfinished h /\ length h < bound /\
    ((exists d, rounds_of run (h ++ [d]) /\ starts crit shift x0 (h ++ [d]) /\ done_with h d F) \/
     (exists o s z n, starts crit shift x0 (h ++ [Round o s (OptResult [] 0 None 0 None 0 None None) 0]) /\
        run (length h) o s = (Exceeds z, n) /\ s_log F = map entry h ++ [(o, s)] /\ s_params F = z /\
        s_result F = Err MaximumIterationReached)).

Lemma rounds_snoc h d : rounds_of run h -> run (length h) (d_options d) (d_start d) = (Returns (d_result d), d_niter d) ->
  rounds_of run (h ++ [d]).
Proof. intros R E i e H. apply nth_snoc in H. destruct H as [H|(->&->)]; [now apply R|exact E]. Qed.

(** The value of the criterion before a run does not depend on that run or on later ones. *)
Lemma crit_before_app h k i : i <= length h -> crit_before crit (h ++ k) i = crit_before crit h i.
Proof.
  intros L. destruct i as [|j]; [reflexivity|]. cbn. rewrite nth_error_app1 by lia. reflexivity.
Qed.
Lemma next_start_app h k i d : i <= length h -> next_start crit shift (h ++ k) i d = next_start crit shift h i d.
Proof. intros L. unfold next_start. rewrite crit_before_app by exact L. reflexivity. Qed.

(** Where the next run has to start. *)
Definition due (x0 : vec) (h : list round) : vec :=
  match length h with
  | 0 => x0
  | S j => match nth_error h j with Some d => next_start crit shift h j d | None => [] end
  end.
Lemma starts_snoc x0 h d : starts crit shift x0 h -> d_start d = due x0 h -> starts crit shift x0 (h ++ [d]).
Proof.
  intros (A&B) E. split.
  - intros e H. apply nth_snoc in H. destruct H as [H|(L&->)]; [now apply A|]. rewrite E. unfold due. rewrite <- L. reflexivity.
  - intros i e f H1 H2. apply nth_snoc in H2. destruct H2 as [H2|(L&->)].
    + assert (i < length h) by (pose proof (proj1 (nth_error_Some h (S i)) ltac:(congruence)); lia).
      rewrite nth_error_app1 in H1 by assumption. rewrite next_start_app by lia. now apply B.
    + rewrite nth_error_app1 in H1 by lia. rewrite next_start_app by lia. rewrite E. unfold due. rewrite <- L, H1. reflexivity.
Qed.

Lemma combine_fields h acc r :
  (acc = None /\ h = [] \/ exists a, acc = Some a /\ o_nfev a = evaluations h) ->
  forall d, d_result d = r ->
  let c := combine_results acc r in
  o_x c = o_x r /\ o_fun c = o_fun r /\ o_success c = o_success r /\ o_status c = o_status r /\ o_message c = o_message r /\
  o_nfev c = evaluations (h ++ [d]).
Proof.
  intros H d E. rewrite evaluations_snoc, E. destruct H as [(->&->)|(a&->&<-)]; cbn; auto 10.
Qed.

Lemma loop_outcome x0 : forall more i start acc nrandom old natlim before opts h,
  i = length h -> start = due x0 h -> rounds_of run h -> unfinished h -> starts crit shift x0 h ->
  (acc = None /\ h = [] \/ exists a, acc = Some a /\ o_nfev a = evaluations h) ->
  old = crit_before crit h i -> natlim <= 4 ->
  outcome x0 (S more + i) (loop more i start acc nrandom old natlim before opts (map entry h)).
Proof.
  induction more as [|more IH]; intros i start acc nrandom old natlim before opts h Ei Es R U ST A Eo NL.
  all: cbn [scipy_loop]; set (o' := initialize kind opts before (stepsize i)).
  all: destruct (run i o' start) as [[r|z] n] eqn:ER.
  2,4: exists h; split; [exact R|]; split; [exact U|]; split; [lia|]; right; exists o', start, z, n; cbn; rewrite <- Ei;
      split; [apply starts_snoc; [exact ST|exact Es]|auto].
  all: set (d := Round o' start r n).
  all: assert (C := combine_fields h acc r A d eq_refl); cbn zeta in C; set (c := combine_results acc r) in *.
  all: destruct C as (C1&C2&C3&C4&C5&C6).
  all: assert (R' : rounds_of run (h ++ [d])) by (apply rounds_snoc; [exact R|cbn; rewrite <- Ei; exact ER]).
  all: assert (S' : starts crit shift x0 (h ++ [d])) by (apply starts_snoc; [exact ST|exact Es]).
  all: assert (LG : map entry h ++ [(o', start)] = map entry (h ++ [d])) by (rewrite map_app; reflexivity).
  all: assert (DONE : forall F, done_with h d F -> outcome x0 (S (length h)) F) by
      (intros F D; exists h; split; [exact R|]; split; [exact U|]; split; [lia|]; left; exists d; auto).
  all: assert (WK : forall b F, outcome x0 (S (length h)) F -> outcome x0 (S (b + length h)) F) by
      (intros b F (g&P1&P2&P3&P4); exists g; split; [exact P1|]; split; [exact P2|]; split; [lia|exact P4]).
  all: assert (NS : next_start crit shift (h ++ [d]) (length h) d =
        if isclose old (crit i (o_x r)) then vadd (o_x r) (shift i) else o_x r) by
      (rewrite next_start_app by lia; unfold next_start; rewrite <- Ei, <- Eo; reflexivity).
  all: rewrite LG.
  all: set (close := isclose old (crit i (o_x r))) in *.
  all: set (edm := crit i (o_x r)) in *.
  all: assert (FIN : forall m v a, ending edm (o_x r) n m v ->
        (a = c \/ a = with_x c (if close then vadd (o_x r) (shift i) else o_x r)) ->
        outcome x0 (S (length h)) (ScipyFit (Ok (from a (o_x r) edm m v n)) (o_x r) o' (map entry (h ++ [d])))) by
    (intros m v a EN EA; apply DONE; split; [reflexivity|]; split; [reflexivity|]; exists a, m, v; rewrite <- Ei;
     split; [exact EN|]; split; [reflexivity|]; rewrite Ei, NS; destruct EA as [-> | ->]; cbn; repeat split; auto).
  all: destruct (close && negb (Nat.ltb nrandom 5)) eqn:ES.
  1: rewrite Ei; apply WK, (FIN _ _ c); [constructor|tauto].
  2: rewrite Ei; apply WK, (FIN _ _ c); [constructor|tauto].
  all: set (x' := if close then vadd (o_x r) (shift i) else o_x r) in *.
  all: set (natlim' := if at_limit (o_x r) then S natlim else natlim).
  all: destruct (Nat.ltb 4 natlim') eqn:EL.
  1,3: rewrite Ei; apply WK, (FIN _ _ (with_x c x')); [|tauto]; apply ELimit; apply Nat.ltb_lt in EL; unfold natlim' in EL;
      destruct (at_limit (o_x r)); [reflexivity|lia].
  all: destruct (met tol errordef edm || Nat.ltb maxiter n) eqn:EC.
  1,3: rewrite Ei; apply WK; rewrite Bool.orb_true_iff in EC; apply (FIN _ _ (with_x c x')); [|tauto]; apply ENormal;
      destruct EC as [EC|EC]; [tauto|right; now apply Nat.ltb_lt].
  all: apply Bool.orb_false_iff in EC; destruct EC as (EC1&EC2); apply Nat.ltb_ge in EC2.
  - rewrite Ei; apply WK. apply (FIN _ _ (with_x c x')); [|tauto]. now apply EExhausted.
  - replace (S (S more) + i) with (S more + S i) by lia.
    apply IH.
    + rewrite app_length; cbn; lia.
    + unfold due. rewrite app_length, Nat.add_1_r, nth_len, NS. reflexivity.
    + exact R'.
    + intros j e H. apply nth_snoc in H. destruct H as [H|(->&->)]; [now apply U|]. rewrite <- Ei. split; [exact EC1|exact EC2].
    + exact S'.
    + right. exists (with_x c x'). split; [reflexivity|]. exact C6.
    + cbn. rewrite Ei, nth_len. unfold edm. rewrite Ei. reflexivity.
    + apply Nat.ltb_ge in EL. exact EL.
Qed.

Lemma minimize_outcome opts init x0 :
  outcome x0 20 (scipy_minimize run crit shift stepsize at_limit tol errordef maxiter kind opts init x0).
Proof.
  unfold scipy_minimize. apply (loop_outcome x0 19 0 x0 None 0 (Fin (-1)) 0 init _ []).
  - reflexivity.
  - reflexivity.
  - intros i d H. destruct i; discriminate.
  - intros i d H. destruct i; discriminate.
  - split; intros; destruct i || idtac; discriminate.
  - tauto.
  - reflexivity.
  - lia.
Qed.

(** The keys of the options that a run may find changed. *)
Definition own_key (k : string) : bool := match kind with Plain => false | Carry key | Radius key | Scale key => String.eqb k key end.
Lemma initialize_get opts before s k : own_key k = false -> opt_get (initialize kind opts before s) k = opt_get opts k.
Proof.
  unfold own_key, initialize. destruct kind as [|key|key|key]; intros H.
  - reflexivity.
  - destruct before as [[e|]|]; try reflexivity. rewrite get_set, String.eqb_sym, H. reflexivity.
  - destruct before; [reflexivity|]. rewrite get_set, String.eqb_sym, H. reflexivity.
  - rewrite get_set, String.eqb_sym, H. reflexivity.
Qed.

(** What is true of the options before and is kept by the initialiser is true in all runs. *)
Lemma loop_options (P : nat -> options -> Prop) : forall more i start acc nrandom old natlim before opts log,
  (forall e, In e log -> exists j, P j (fst e)) ->
  P i (initialize kind opts before (stepsize i)) ->
  (forall j o e, i <= j -> P j o -> P (S j) (initialize kind o (Some e) (stepsize (S j)))) ->
  let F := loop more i start acc nrandom old natlim before opts log in
  (forall e, In e (s_log F) -> exists j, P j (fst e)) /\ exists j, P j (s_options F).
Proof.
  induction more as [|more IH]; intros i start acc nrandom old natlim before opts log L B K.
  all: cbn [scipy_loop]; set (o' := initialize kind opts before (stepsize i)) in *.
  all: assert (L' : forall e, In e (log ++ [(o', start)]) -> exists j, P j (fst e)) by
    (intros e H; apply in_app_iff in H; destruct H as [H|[<-|[]]]; [now apply L|exists i; exact B]).
  all: assert (D : forall A B', (forall e, In e (s_log (ScipyFit A B' o' (log ++ [(o', start)]))) -> exists j, P j (fst e)) /\
      exists j, P j (s_options (ScipyFit A B' o' (log ++ [(o', start)])))) by (intros; cbn; split; [exact L'|exists i; exact B]).
  all: destruct (run i o' start) as [[r|z] n]; [|apply D].
  all: repeat match goal with |- context [if ?b then ScipyFit _ _ _ _ else _] => destruct b; [apply D|] end.
  - apply D.
  - apply IH.
    + exact L'.
    + apply K; [lia|exact B].
    + intros j o e LE PJ. apply K; [lia|exact PJ].
Qed.
End Scipy.
