(** C77, continued: getting stuck, and the options of a minimiser of SciPy. *)
From Verif Require Import Base BaseLemmas Param_Model Drv_Model Drv_Spec Drv_Proofs Drv_Theorems.
From Coq Require Import Lqa.
#[local] Open Scope nat_scope.

Section Stuck.
Variable run : nat -> options -> vec -> run_end * nat.
Variable crit : nat -> vec -> num.
Variable shift stepsize : nat -> vec.
Variable at_limit : vec -> bool.
Variables tol errordef : Q.
Variable maxiter : nat.
Variable kind : initializer.
Notation fit := (scipy_minimize run crit shift stepsize at_limit tol errordef maxiter kind).

Lemma isclose_refl c : isclose (Fin c) (Fin c) = true.
Proof.
  unfold isclose. assert (E : (c - c == 0)%Q) by ring.
  assert (T : Qle_bool (if Qle_bool 0 (c - c) then c - c else - (c - c))%Q (1 # 1000000000000) = true).
  { apply Qle_bool_iff. destruct (Qle_bool 0 (c - c)); rewrite E; unfold Qle; cbn; lia. }
  rewrite T. apply Bool.orb_true_r.
Qed.
Lemma isclose_minus_one c : (0 <= c)%Q -> isclose (Fin (-1)) (Fin c) = false.
Proof.
  intros P. unfold isclose.
  assert (E : Qle_bool 0 (-1 - c) = false) by (destruct (Qle_bool 0 (-1 - c)) eqn:E; [apply Qle_bool_iff in E; lra|reflexivity]).
  rewrite E. rewrite (proj2 (Qle_bool_iff 0 c) P). change (Qle_bool 0 (-1)) with false. cbv iota.
  assert (F : forall q, (q < 1 + c)%Q -> Qle_bool (- (-1 - c)) q = false).
  { intros q L. destruct (Qle_bool (- (-1 - c)) q) eqn:G; [apply Qle_bool_iff in G; lra|reflexivity]. }
  rewrite !F; [reflexivity|lra|lra|lra].
Qed.

(** If the runs end normally but the criterion stays at the same number, not below the tolerance,
    and the parameters stay away from their limits, then the fit gives up after seven runs. The
    result is not valid, says that it is stuck, and has the values of the parameters. *)
Theorem C77_scipy_stuck opts init x0 c :
  (forall i o s, exists r n, run i o s = (Returns r, n) /\ n <= maxiter) ->
  (forall i x, crit i x = Fin c) -> (0 <= c)%Q -> (tol * errordef <= c)%Q ->
  (forall x, at_limit x = false) ->
  let F := fit opts init x0 in
  length (s_log F) = 7 /\
  exists r, s_result F = Ok r /\ valid r = false /\ f_values r = s_params F /\
    f_message r = "Stuck (no change in a few iterations)"%string.
Proof.
  intros R C P NT AL. unfold scipy_minimize.
  assert (M : met tol errordef (Fin c) = false).
  { apply Bool.not_true_iff_false. rewrite met_below. cbn. lra. }
  assert (STEP : forall more i start acc nr old na bf o log,
     na <= 4 ->
     let o' := initialize kind o bf (stepsize i) in
     exists r n, n <= maxiter /\
       scipy_loop run crit shift stepsize at_limit tol errordef maxiter kind (S more) i start acc nr old na bf o log =
       (if isclose old (Fin c) && negb (Nat.ltb nr 5) then
          ScipyFit (Ok (from_scipy at_limit maxiter (combine_results acc r) (o_x r) (Fin c)
             (Some "Stuck (no change in a few iterations)"%string) false n)) (o_x r) o' (log ++ [(o', start)])
        else
          scipy_loop run crit shift stepsize at_limit tol errordef maxiter kind more (S i)
            (if isclose old (Fin c) then vadd (o_x r) (shift i) else o_x r)
            (Some (with_x (combine_results acc r) (if isclose old (Fin c) then vadd (o_x r) (shift i) else o_x r)))
            (if isclose old (Fin c) then S nr else nr) (Fin c) na (Some (o_extra r)) o' (log ++ [(o', start)]))).
  { intros more i start acc nr old na bf o log NA o'. destruct (R i o' start) as (r&n&E&N). exists r, n. split; [exact N|].
    cbn [scipy_loop]. fold o'. rewrite E, !C, !AL, M. rewrite (proj2 (Nat.ltb_ge maxiter n) N).
    rewrite (proj2 (Nat.ltb_ge 4 na) NA). reflexivity. }
  set (o0 := opt_set opts _ _).
  destruct (STEP 18 0 x0 None 0 (Fin (-1)) 0 init o0 [] ltac:(lia)) as (r0&n0&_&E0).
  rewrite E0. rewrite (isclose_minus_one c P). cbn [andb].
  do 5 match goal with
  | |- context [scipy_loop _ _ _ _ _ _ _ _ _ (S ?m) ?i ?s ?a ?nr ?old ?na ?bf ?o ?l] =>
      let r := fresh "r" in let n := fresh "n" in let E := fresh "E" in
      destruct (STEP m i s a nr old na bf o l ltac:(lia)) as (r&n&_&E); rewrite E; clear E;
      rewrite (isclose_refl c); cbn [andb negb Nat.ltb Nat.leb]
  end.
  match goal with
  | |- context [scipy_loop _ _ _ _ _ _ _ _ _ (S ?m) ?i ?s ?a ?nr ?old ?na ?bf ?o ?l] =>
      destruct (STEP m i s a nr old na bf o l ltac:(lia)) as (rl&nl&_&EL); rewrite EL; clear EL;
      rewrite (isclose_refl c); cbn [andb negb Nat.ltb Nat.leb]
  end.
  cbn [s_log s_result s_params]. split; [rewrite !app_length; reflexivity|]. eexists. split; [reflexivity|].
  unfold from_scipy. split.
  - apply Bool.not_true_iff_false. rewrite valid_iff. intros (H&_). discriminate.
  - rewrite AL. unfold combine_results. cbn. auto.
Qed.

(** ** The options *)

(** The options of a user, other than "maxiter" and the one that the initialiser writes, are handed
    to every run and are those of the minimiser after the fit. *)
Theorem C77_scipy_options opts init x0 k : k <> "maxiter"%string ->
  (match kind with Plain => False | Carry key | Radius key | Scale key => k = key end -> False) ->
  let F := fit opts init x0 in
  (forall e, In e (s_log F) -> opt_get (fst e) k = opt_get opts k) /\ opt_get (s_options F) k = opt_get opts k.
Proof.
  intros NK OK F. assert (OW : own_key kind k = false).
  { unfold own_key. destruct kind; try reflexivity; apply String.eqb_neq; exact OK. }
  assert (OM : String.eqb "maxiter" k = false) by (apply String.eqb_neq; congruence).
  destruct (loop_options run crit shift stepsize at_limit tol errordef maxiter kind (fun _ o => opt_get o k = opt_get opts k)
      19 0 x0 None 0 (Fin (-1)) 0 init (opt_set opts "maxiter" [inject_Z (Z.of_nat (scipy_maxiter maxiter))]) []) as (A&j&B).
  - intros e [].
  - rewrite initialize_get by exact OW. rewrite get_set, OM. reflexivity.
  - intros j o e _ E. rewrite initialize_get by exact OW. exact E.
  - split; [|exact B]. intros e I. now destruct (A e I) as (j'&?).
Qed.

(** Every run is told to stop before the limit of evaluations of the minimiser (three earlier if it
    is above ten). *)
Theorem C77_scipy_maxiter opts init x0 :
  (match kind with Plain => False | Carry key | Radius key | Scale key => key = "maxiter"%string end -> False) ->
  forall e, In e (s_log (fit opts init x0)) ->
  exists m, opt_get (fst e) "maxiter" = Some [inject_Z (Z.of_nat m)] /\ m <= maxiter /\ maxiter <= m + 3 /\ (10 < maxiter -> m < maxiter).
Proof.
  intros OK e I. assert (OW : own_key kind "maxiter" = false).
  { unfold own_key. destruct kind; try reflexivity; apply String.eqb_neq; intros E; apply OK; congruence. }
  exists (scipy_maxiter maxiter).
  destruct (loop_options run crit shift stepsize at_limit tol errordef maxiter kind
      (fun _ o => opt_get o "maxiter" = Some [inject_Z (Z.of_nat (scipy_maxiter maxiter))])
      19 0 x0 None 0 (Fin (-1)) 0 init (opt_set opts "maxiter" [inject_Z (Z.of_nat (scipy_maxiter maxiter))]) []) as (A&_).
  - intros ? [].
  - rewrite initialize_get by exact OW. rewrite get_set. reflexivity.
  - intros j o ? _ E. rewrite initialize_get by exact OW. exact E.
  - destruct (A e I) as (_&E). split; [exact E|]. unfold scipy_maxiter. destruct (Nat.ltb_spec 10 maxiter); lia.
Qed.

(** If the minimiser has no initialiser that writes options, then it can be used again: the second
    fit hands over what a new minimiser would. *)
Theorem C77_scipy_reuse_partial opts init x0 init' x0' : kind = Plain ->
  let second := fit (s_options (fit opts init x0)) init' x0' in
  forall k e, In e (s_log second) ->
  opt_get (fst e) k = opt_get (opt_set opts "maxiter" [inject_Z (Z.of_nat (scipy_maxiter maxiter))]) k.
Proof.
  intros -> second k e I. destruct (String.eqb "maxiter" k) eqn:K.
  - apply String.eqb_eq in K. subst k. rewrite get_set, String.eqb_refl.
    destruct (loop_options run crit shift stepsize at_limit tol errordef maxiter Plain
      (fun _ o => opt_get o "maxiter" = Some [inject_Z (Z.of_nat (scipy_maxiter maxiter))])
      19 0 x0' None 0 (Fin (-1)) 0 init' (opt_set (s_options (scipy_minimize run crit shift stepsize at_limit tol errordef maxiter Plain opts init x0)) "maxiter" [inject_Z (Z.of_nat (scipy_maxiter maxiter))]) []) as (A&_).
    + intros ? [].
    + cbn [initialize]. rewrite get_set. reflexivity.
    + intros j o ? _ E. exact E.
    + destruct (A e I) as (_&E). exact E.
  - rewrite get_set, K. apply String.eqb_neq in K.
    destruct (loop_options run crit shift stepsize at_limit tol errordef maxiter Plain (fun _ o => opt_get o k = opt_get opts k)
      19 0 x0 None 0 (Fin (-1)) 0 init (opt_set opts "maxiter" [inject_Z (Z.of_nat (scipy_maxiter maxiter))]) []) as (_&j&B).
    + intros ? [].
    + cbn [initialize]. rewrite get_set. apply String.eqb_neq in K. rewrite K. reflexivity.
    + intros j o ? _ E. exact E.
    + rewrite <- B.
      destruct (loop_options run crit shift stepsize at_limit tol errordef maxiter Plain (fun _ o => opt_get o k = opt_get (s_options (scipy_minimize run crit shift stepsize at_limit tol errordef maxiter Plain opts init x0)) k)
        19 0 x0' None 0 (Fin (-1)) 0 init' (opt_set (s_options (scipy_minimize run crit shift stepsize at_limit tol errordef maxiter Plain opts init x0)) "maxiter" [inject_Z (Z.of_nat (scipy_maxiter maxiter))]) []) as (A&_).
      * intros ? [].
      * cbn [initialize]. rewrite get_set. apply String.eqb_neq in K. rewrite K. reflexivity.
      * intros j' o ? _ E. exact E.
      * destruct (A e I) as (_&E). exact E.
Qed.
End Stuck.

Example ex_stuck : let F := scipy_minimize (fun i o s => (Returns (ex_result 1 2), 10)) (fun _ _ => Fin 5) (fun _ => [1 # 5]) (fun _ => [1%Q])
    (fun _ => false) (1 # 1000) (1 # 2) 30 Plain [] None [8%Q] in length (s_log F) = 7.
Proof. vm_compute. reflexivity. Qed.

(** Finding: the dictionary of options is shared by all fits with the same minimiser (217 copies only
    the outer dictionary), and Nelder-Mead and Powell write into it what the last run left. After a
    fit with more than one run, the next fit, of whatever loss and from whatever values, starts from
    the simplex where the first one ended, that SciPy uses instead of the starting values. *)
Theorem C77_scipy_reuse_refuted : ~ (forall run run' crit crit' shift stepsize at_limit tol errordef maxiter kind opts init x0 x0' ,
  let fit r c := scipy_minimize r c shift stepsize at_limit tol errordef maxiter kind in
  map fst (s_log (fit run' crit' (s_options (fit run crit opts init x0)) None x0')) = map fst (s_log (fit run' crit' opts None x0'))).
Proof.
  intros H.
  set (r1 := fun (i : nat) (o : options) (s : vec) => (Returns (OptResult [3%Q] 1 (Some true) 0 (Some "done"%string) 10 (Some 4) (Some [3%Q; 31 # 10])), 10)).
  specialize (H r1 r1 ex_crit (fun _ _ => Fin 0) (fun _ => [0%Q]) (fun _ => [1%Q]) (fun _ => false) (1 # 1000)%Q (1 # 2)%Q 30 (Carry "initial_simplex") []
    None [8%Q] [100%Q]).
  vm_compute in H. discriminate.
Qed.

(** Finding: trust-ncg and trust-constr do not use the trust radius given by the user: without a
    result to start from, the initialiser replaces it before the first run by the mean of the step
    sizes, for all runs. *)
Theorem C77_scipy_trust_radius run crit shift stepsize at_limit tol errordef maxiter key opts x0 :
  key <> "maxiter"%string ->
  forall e, In e (s_log (scipy_minimize run crit shift stepsize at_limit tol errordef maxiter (Radius key) opts None x0)) ->
  opt_get (fst e) key = Some [mean (stepsize 0)].
Proof.
  intros NK e I.
  destruct (loop_options run crit shift stepsize at_limit tol errordef maxiter (Radius key)
    (fun _ o => opt_get o key = Some [mean (stepsize 0)]) 19 0 x0 None 0 (Fin (-1)) 0 None
    (opt_set opts "maxiter" [inject_Z (Z.of_nat (scipy_maxiter maxiter))]) []) as (A&_).
  - intros ? [].
  - cbn [initialize]. rewrite get_set, String.eqb_refl. reflexivity.
  - intros j o ? _ E. exact E.
  - destruct (A e I) as (_&E). exact E.
Qed.
Example ex_radius : let F := scipy_minimize ex_run ex_crit (fun _ => [0%Q]) (fun _ => [1 # 10; 3 # 10]) (fun _ => false) (1 # 1000) (1 # 2) 30
    (Radius "initial_trust_radius") [("initial_trust_radius"%string, [7%Q])] None [8%Q] in
  length (s_log F) = 2 /\
  Forall (fun e => exists q, opt_get (fst e) "initial_trust_radius" = Some [q] /\ (q == 1 # 5)%Q) (s_log F).
Proof. vm_compute. repeat constructor; eexists; split; reflexivity. Qed.
