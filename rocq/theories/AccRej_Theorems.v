(** Accept-reject sampling (C45). *)
From Verif Require Import Base AccRej_Model AccRej_Spec AccRej_Proofs AccRej_Proofs2.
From Coq Require Import Permutation Lia Lqa Qround ZArith.
#[local] Open Scope nat_scope.

Section Theorems.
Variables (prob : point -> Q) (inside : point -> bool) (n : nat) (numeric_checks : bool) (prob_max weights_max : option Q)
  (propose : nat -> Z -> list proposal) (binomial : nat -> nat -> Q -> nat) (shuffle : list (option point) -> list (option point)) (multiple : bool).
Notation iterate := (iterate prob inside n numeric_checks prob_max weights_max propose binomial).
Notation run := (accept_reject prob inside n numeric_checks prob_max weights_max propose binomial shuffle multiple).
Notation was_accepted := (was_accepted prob inside n numeric_checks prob_max weights_max propose binomial).

(** C45: whatever the random numbers, a sample has exactly n rows, each of which lies within the limits, was proposed in some iteration and was accepted
    there; no row of the array that was not written is returned. *)
Theorem C45_exactly_n : (forall it k q, binomial it k q <= k) -> (forall l, Permutation l (shuffle l)) ->
  forall fuel res, run fuel = Ok (Some res) ->
  exists rows, res = map Some rows /\ length rows = n /\ Forall (fun x => inside x = true /\ was_accepted x) rows.
Proof. intros HB HS fuel res E. eapply accept_reject_ok; eauto. Qed.

(** C45: no row has density zero (or negative), if thresholds and weights are not negative. *)
Theorem C45_positive : (forall it k q, binomial it k q <= k) -> (forall l, Permutation l (shuffle l)) ->
  (forall k p, proposed prob inside n numeric_checks prob_max weights_max propose binomial k p -> (0 <= pr_u p /\ 0 <= pr_w p)%Q) ->
  (forall pm wm, prob_max = Some pm -> weights_max = Some wm -> (0 <= pm / wm)%Q) ->
  forall fuel rows, run fuel = Ok (Some (map Some rows)) -> Forall (fun x => 0 < prob x)%Q rows.
Proof.
  intros HB HS HP HM fuel rows E. destruct (C45_exactly_n HB HS fuel _ E) as (rows' & E' & _ & F).
  assert (rows' = rows) as ->.
  { clear - E'. revert rows' E'. induction rows as [|x r IH]; intros [|y r'] E; try discriminate; [reflexivity|]. cbn in E. injection E as -> E. f_equal. auto. }
  eapply Forall_impl; [|exact F]. intros x [_ (k & p & s' & HPr & ES & <- & HA)]. destruct (HP k p HPr) as [HU HW].
  assert (0 <= st_scaling s')%Q as H0.
  { apply (scaling_nonneg prob inside n numeric_checks prob_max weights_max propose binomial) with (S k); [|exact ES].
    unfold nonneg_max. destruct prob_max, weights_max; auto. }
  assert (0 <= st_scaling s' * pr_w p)%Q by nra. assert (0 <= pr_u p * (st_scaling s' * pr_w p))%Q by nra. lra.
Qed.

(** C45: a request for no rows returns at once. *)
Theorem C45_none_needed fuel : n = 0 -> run fuel = Ok (Some []).
Proof. clear. intros ->. unfold accept_reject. now destruct fuel. Qed.

(** C45: when the maximum of the density is estimated, every proposed point has, whichever iteration proposed it and however often the scale grew since, the
    same chance density / (scale * weight) to be in the sample. *)
Theorem C45_same_chance : (prob_max = None \/ weights_max = None) ->
  forall k d p s, proposed prob inside n numeric_checks prob_max weights_max propose binomial k p -> (0 < pr_w p)%Q ->
  (forall s1, iterate (S k) = Ok s1 -> (0 < st_scaling s1)%Q) -> iterate (S k + d) = Ok s ->
  (survival prob inside n numeric_checks prob_max weights_max propose binomial k d p == prob (pr_row p) / (st_scaling s * pr_w p))%Q.
Proof.
  intros HE k d p s _ HW HP E. apply survival_eq; auto. unfold estimates. destruct HE as [-> | ->]; [reflexivity|]. now destruct prob_max.
Qed.

(** C45: the scale never shrinks while it is estimated. *)
Theorem C45_scale_grows : (prob_max = None \/ weights_max = None) -> forall d k s s', iterate k = Ok s -> iterate (k + d) = Ok s' -> (st_scaling s <= st_scaling s')%Q.
Proof.
  intros HE. apply scaling_mono. unfold estimates. destruct HE as [-> | ->]; [reflexivity|]. now destruct prob_max.
Qed.

(** C45: with numeric checks, nothing is accepted with a chance above one: a proposal whose density exceeds the scaled weight is an error. *)
Theorem C45_checked : numeric_checks = true -> forall k p s', proposed prob inside n numeric_checks prob_max weights_max propose binomial k p -> iterate (S k) = Ok s' ->
  (prob (pr_row p) <= st_scaling s' * pr_w p)%Q.
Proof.
  intros HC k p s' (s & E & HI) E'. cbn [AccRej_Model.iterate] in E'. rewrite E in E'. cbn [bind] in E'.
  destruct (body_ok _ _ _ _ _ _ _ _ _ _ _ E') as (_ & _ & H & -> & _). now apply H.
Qed.

(** C45: the sampling ends: if from some iteration on every iteration accepts more than it removes, at most n more iterations are needed. *)
Theorem C45_terminates K : (forall k, exists s, iterate k = Ok s) ->
  (forall k, K <= k -> progresses prob inside n numeric_checks prob_max weights_max propose binomial k) ->
  exists res, run (K + n) = Ok (Some res).
Proof.
  intros HE HP. unfold accept_reject.
  destruct (loop_more prob inside n numeric_checks prob_max weights_max propose binomial K (fun k _ => HE k) K n (start n)) as [[s' E]|(s1 & E1 & E)]; [lia|now rewrite Nat.sub_diag| |];
    rewrite Nat.sub_diag in E; rewrite E; cbn; [eauto|].
  destruct (loop_progress prob inside n numeric_checks prob_max weights_max propose binomial K HP n K s1) as [s' ->]; [lia|exact E1|lia|]. cbn. eauto.
Qed.

(** C45: the points after an iteration are the first ones of those before, all of them unless the scale has grown, followed by all points accepted in this
    iteration. *)
Theorem C45_thinning : (forall it k q, binomial it k q <= k) -> (prob_max = None \/ weights_max = None) ->
  forall k s s', iterate k = Ok s -> iterate (S k) = Ok s' -> st_np s <= length (st_arr s) ->
  exists m, m <= st_np s /\ (st_scaling s' == st_scaling s -> m = st_np s)%Q /\
    firstn (st_np s') (st_arr s') = firstn m (st_arr s) ++
      map Some (map pr_row (filter (fun p => qltb (pr_u p * (st_scaling s' * pr_w p)) (prob (pr_row p))) (propose k (n_to_produce n prob_max s)))).
Proof.
  intros HB HE k s s' E E' HL. cbn [AccRej_Model.iterate] in E'. rewrite E in E'. cbn [bind] in E'.
  destruct (body_ok _ _ _ _ _ _ _ _ _ _ _ E') as (_ & _ & _ & ES & EN & EA & _).
  assert (EE : estimates prob_max weights_max = true) by (unfold estimates; destruct HE as [-> | ->]; [reflexivity|now destruct prob_max]).
  assert (H0 : (0 <= st_scaling s)%Q).
  { apply (scaling_nonneg prob inside n numeric_checks prob_max weights_max propose binomial) with k; [|exact E].
    unfold nonneg_max. destruct HE as [-> | ->]; [exact I|now destruct prob_max]. }
  set (batch := propose k (n_to_produce n prob_max s)) in *.
  assert (HK : kept prob prob_max weights_max binomial k s batch <= st_np s) by now apply kept_le.
  exists (kept prob prob_max weights_max binomial k s batch). split; [assumption|]. split.
  - intros EQ. unfold kept. destruct (rescaled prob prob_max weights_max s batch) eqn:ER; [|reflexivity]. exfalso.
    unfold rescaled in ER. rewrite EE in ER. cbn [andb] in ER. pose proof ER as ER'. apply qltb_iff in ER.
    rewrite ES in EQ. unfold new_scaling in EQ. rewrite ER' in EQ.
    assert ((1 <= overestimate prob_max)%Q) as HO by (unfold overestimate; destruct prob_max; compute; discriminate).
    unfold estimates in EE. destruct prob_max, weights_max; try discriminate; nra.
  - rewrite EA, EN, ES. unfold scatter, accepted. set (m := kept _ _ _ _ _ _ _) in *. rewrite app_assoc.
    rewrite firstn_app. match goal with |- context [firstn ?a (skipn ?b ?l)] => replace a with 0 end.
    2:{ rewrite app_length, firstn_length, !map_length. lia. }
    cbn [firstn]. rewrite app_nil_r. rewrite <- (firstn_all (firstn m (st_arr s) ++ _)) at 2. f_equal. rewrite app_length, firstn_length, !map_length. lia.
Qed.
End Theorems.

(** C45: the uniform sampler never leads to an error: every iteration succeeds, for every density, with any number of limits. *)
Theorem C45_uniform_never_fails prob n numeric_checks draws binomial ls dim :
  (forall it, uniform_draws dim (draws it)) -> Forall (fun l => length l = dim /\ proper l) ls ->
  forall k, exists s, iterate prob (in_limits ls) n numeric_checks None (Some 1%Q) (fun it m => uniform_proposals (draws it) m ls) binomial k = Ok s.
Proof. intros HU HL k. eapply uniform_total; eauto. Qed.
(** C45: with the uniform sampler, the scale is at least the density at every point proposed so far. *)
Theorem C45_uniform_scale prob n numeric_checks draws binomial ls dim :
  (forall it, uniform_draws dim (draws it)) -> Forall (fun l => length l = dim /\ proper l) ls ->
  forall k d p s, proposed prob (in_limits ls) n numeric_checks None (Some 1%Q) (fun it m => uniform_proposals (draws it) m ls) binomial k p ->
    iterate prob (in_limits ls) n numeric_checks None (Some 1%Q) (fun it m => uniform_proposals (draws it) m ls) binomial (S k + d) = Ok s ->
    (prob (pr_row p) <= st_scaling s)%Q.
Proof. intros HU HL k d p s HP E. eapply uniform_cover; eauto. Qed.
(** C45: the uniform sampler proposes exactly the number asked for, within the limits, with thresholds between zero and one; a point lies in its limit at the
    fractions given by its uniform numbers. *)
Theorem C45_uniform_proposals dim draws m ls :
  uniform_draws dim draws -> Forall (fun l => length l = dim /\ proper l) ls -> ls <> [] -> Forall (fun l => 0 <= size l)%Q ls -> (0 < total_size ls)%Q -> (0 <= m)%Z ->
  Z.of_nat (length (uniform_proposals draws m ls)) = m /\
  Forall (fun p => pr_w p = 1%Q /\ (0 <= pr_u p < 1)%Q /\ (exists l, In l ls /\ in_limit l (pr_row p)) /\
            exists i l k d, nth_error ls i = Some l /\ In d (draws i k) /\ at_fractions l (fst d) (pr_row p) /\ pr_u p = snd d) (uniform_proposals draws m ls).
Proof.
  intros HU HL NE HV HT Hm. rewrite total_size_volume in HT. split.
  - eapply uniform_length; eauto. eapply Forall_impl; [|exact HV]. intros l H. cbv beta in *. rewrite <- size_volume. exact H.
  - apply Forall_forall. intros p HI. destruct (uniform_in dim draws m ls HU HL p HI) as (H1 & H2 & H3). split; [assumption|]. split; [assumption|]. split; [assumption|].
    destruct (uniform_origin draws m ls p HI) as (i & l & k & d & N & _ & HD & HA & EU). exists i, l, k, d. auto.
Qed.
(** C45: the numbers for the limits add up, none is negative, and all but the last are the shares of the size rounded down. *)
Theorem C45_uniform_split m ls :
  ls <> [] -> Forall (fun l => 0 <= size l)%Q ls -> (0 < total_size ls)%Q -> (0 <= m)%Z ->
  let ks := split m (total_volume ls) 0 ls in
  length ks = length ls /\ zsum ks = m /\ Forall (fun k => 0 <= k)%Z ks /\
  forall i l k, S i < length ls -> nth_error ls i = Some l -> nth_error ks i = Some k ->
    (inject_Z k <= inject_Z m * (size l / total_size ls) < inject_Z k + 1)%Q.
Proof.
  intros NE HV HT Hm ks. rewrite total_size_volume in HT.
  assert (HV' : Forall (fun l => 0 <= volume l)%Q ls) by (eapply Forall_impl; [|exact HV]; intros l H; cbv beta in *; rewrite <- size_volume; exact H).
  split; [apply split_length|]. split; [unfold ks; rewrite split_sum by assumption; lia|]. split.
  - apply split_share; auto. assert (total_volume ls / total_volume ls == 1)%Q as -> by (field; lra). change (inject_Z 0) with 0%Q. lra.
  - intros i l k HI HL HK. rewrite (split_nth _ _ _ _ _ _ _ HI HL HK), size_volume, total_size_volume. split; [apply Qfloor_le|].
    pose proof (Qlt_floor (inject_Z m * (volume l / total_volume ls))) as H. now rewrite inject_Z_plus in H.
Qed.
(** C45: as long as rows are missing, an iteration asks for at least as many as are missing (up to a cap of 800000), and for no more than the cap or than the
    number missing over the efficiency, with a margin of a hundredth (or the minimum of 3000, if the maximum is estimated); the efficiency is the share of those
    drawn that have been accepted. *)
Theorem C45_batch_size prob inside n numeric_checks prob_max weights_max propose binomial :
  (forall it k q, binomial it k q <= k) -> (forall it m, (Z.of_nat (length (propose it m)) <= Z.max m 0)%Z) ->
  forall k s, iterate prob inside n numeric_checks prob_max weights_max propose binomial k = Ok s -> st_np s < n ->
  let missing := (Z.of_nat n - Z.of_nat (st_np s))%Z in
  (Z.min missing 800000 <= n_to_produce n prob_max s <= 800000)%Z /\
  (inject_Z (n_to_produce n prob_max s) <= qmax (inject_Z missing * (1.01 / qmax (st_eff s) 0.000001)) (match prob_max with None => 3000 | Some _ => 0 end))%Q /\
  ((0 < k)%nat -> (Z.of_nat (st_np s) <= st_drawn s)%Z /\ (0 < st_drawn s)%Z /\
     st_eff s == qmax (inject_Z (Z.of_nat (st_np s))) 0.5 / inject_Z (st_drawn s))%Q.
Proof.
  intros HB HN k s E HL missing. destruct (batch_size prob inside n numeric_checks prob_max weights_max propose binomial HB HN k s E HL) as [H1 H2].
  split; [exact H1|]. split; [unfold n_min in H2; destruct prob_max; exact H2|]. intros HK.
  destruct (drawn_inv prob inside n numeric_checks prob_max weights_max propose binomial HB HN k s E) as [H3 [[H _]|(_ & H4 & H5)]]; [lia|].
  split; [exact H3|]. split; [exact H4|]. rewrite H5. assert (E1 : (qmax (inject_Z (st_drawn s)) 1 == inject_Z (st_drawn s))%Q).
  { apply qmax_clip. change 1%Q with (inject_Z 1). rewrite <- Zle_Qle. lia. }
  rewrite E1. reflexivity.
Qed.

(** Examples: the density x on [0, 1], the uniform sampler with the same numbers for each event. *)
Definition ex_prob (x : point) : Q := match x with v :: _ => v | [] => 0 end.
Definition ex_draws (u : Q) (it i : nat) (m : Z) : list (list Q * Q) := repeat ([u]%Q, (u / 2)%Q) (Z.to_nat m).
Definition ex_ls : list limit := [[(0, 1)%Q]].
Example ex_uniform it : uniform_draws 1 (ex_draws 0.5 it).
Proof.
  intros i m. unfold ex_draws. rewrite repeat_length. split; [lia|]. intros d HD. apply repeat_spec in HD as ->.
  split; [reflexivity|]. split; [constructor; [|constructor]|]; cbn; split; (apply Qlt_alt || idtac); try reflexivity; discriminate.
Qed.
Example ex_proper : Forall (fun l => length l = 1 /\ proper l) ex_ls.
Proof. repeat constructor; discriminate. Qed.
Definition ex_run (n fuel : nat) := accept_reject ex_prob (in_limits ex_ls) n true None (Some 1%Q)
  (fun it m => uniform_proposals (ex_draws 0.5 it) m ex_ls) (fun _ k _ => Nat.div2 k) (fun l => l) false fuel.
Definition is_half (r : option point) : bool := match r with Some [v] => Qeq_bool v 0.5 | _ => false end.
Example ex_run_ok : match ex_run 5 1 with Ok (Some rows) => length rows = 5 /\ forallb is_half rows = true | _ => False end.
Proof. vm_compute. split; reflexivity. Qed.

(** A sampler that proposes the same point every time makes progress from the start, so that sampling ends for every n. *)
Definition ex_one (it : nat) (m : Z) : list proposal := [Prop_ [0.5]%Q 0 1].
Notation ex_it n := (iterate ex_prob (in_limits ex_ls) n true None (Some 1%Q) ex_one (fun _ k _ => k)).
Lemma ex_one_step n k s : (0 <= st_pmax s <= 0.5)%Q -> (0 <= st_wmax s <= 1)%Q -> (st_scaling s == 0 \/ 0.5 <= st_scaling s)%Q ->
  exists s', body ex_prob (in_limits ex_ls) n true None (Some 1%Q) ex_one (fun _ k _ => k) k s = Ok s' /\ st_np s' = S (st_np s) /\
    (0 <= st_pmax s' <= 0.5)%Q /\ (0 <= st_wmax s' <= 1)%Q /\ (0.5 <= st_scaling s')%Q.
Proof.
  intros HP HW HS. unfold body.
  assert ((n_to_produce n None s <=? 0)%Z = false) as -> by (apply Z.leb_gt; unfold n_to_produce, n_min; lia).
  assert (forallb (fun p => in_limits ex_ls (pr_row p)) (ex_one k (n_to_produce n None s)) = true) as -> by reflexivity. cbn [negb].
  set (batch := ex_one k (n_to_produce n None s)).
  assert (EW : (new_wmax s batch == 1)%Q).
  { unfold new_wmax. cbn. unfold qmax. destruct (Qle_bool 1 (st_wmax s)) eqn:E; [apply Qle_bool_iff in E; lra|reflexivity]. }
  assert (EP : (new_pmax ex_prob s batch == 0.5)%Q).
  { unfold new_pmax. cbn. unfold qmax. destruct (Qle_bool _ (st_pmax s)) eqn:E; [apply Qle_bool_iff in E; lra|reflexivity]. }
  assert (EC : (clipped (new_wmax s batch) (Prop_ [0.5]%Q 0 1) == 1)%Q).
  { unfold clipped. rewrite qmax_clip; cbn [pr_w]; [reflexivity|]. rewrite EW. lra. }
  assert (EM : (max_ratio ex_prob s batch == 0.5)%Q).
  { unfold max_ratio. cbn [batch ex_one map fold_right pr_row ex_prob]. unfold qmax. destruct (Qle_bool _ _).
    - rewrite EP, EW. reflexivity.
    - rewrite EC. reflexivity. }
  assert (HN : (0.5 <= new_scaling ex_prob None (Some 1%Q) s batch)%Q).
  { unfold new_scaling. destruct (qltb (st_scaling s) (max_ratio ex_prob s batch)) eqn:E.
    - rewrite EM. cbn. lra.
    - apply qltb_false in E. rewrite EM in E. destruct HS as [HS|HS]; lra. }
  assert (existsb (too_large ex_prob (new_scaling ex_prob None (Some 1%Q) s batch)) batch = false) as ->.
  { cbn [batch ex_one existsb]. rewrite orb_false_r. unfold too_large. apply qltb_false. cbn [pr_w pr_row ex_prob]. lra. }
  cbn [andb]. assert (filter (accepted ex_prob (new_scaling ex_prob None (Some 1%Q) s batch)) batch = batch) as ->.
  { cbn [batch ex_one filter]. replace (accepted ex_prob _ _) with true; [reflexivity|]. symmetry. apply qltb_iff. cbn [pr_u pr_w pr_row ex_prob]. lra. }
  eexists. split; [reflexivity|]. cbn [st_np st_pmax st_wmax st_scaling estimates]. repeat split; try lra.
  cbn [batch ex_one map length]. unfold kept. destruct (rescaled _ _ _ _ _); lia.
Qed.
Example ex_progresses n : (forall k, exists s, ex_it n k = Ok s) /\
  (forall k, 0 <= k -> progresses ex_prob (in_limits ex_ls) n true None (Some 1%Q) ex_one (fun _ k _ => k) k).
Proof.
  assert (HG : forall k, exists s, ex_it n k = Ok s /\ (0 <= st_pmax s <= 0.5)%Q /\ (0 <= st_wmax s <= 1)%Q /\ (st_scaling s == 0 \/ 0.5 <= st_scaling s)%Q).
  { induction k as [|k (s & E & HP & HW & HS)].
    - exists (start n). split; [reflexivity|]. cbn. repeat split; try lra. 
    - destruct (ex_one_step n k s HP HW HS) as (s' & E' & _ & HP' & HW' & HS'). exists s'. split; [cbn [iterate]; rewrite E; exact E'|]. auto. }
  split; [intros k; destruct (HG k) as (s & E & _); eauto|].
  intros k _ s E. destruct (HG k) as (s0 & E0 & HP & HW & HS). rewrite E in E0. injection E0 as <-.
  destruct (ex_one_step n k s HP HW HS) as (s' & E' & EN & _). exists s'. split; [cbn [iterate]; rewrite E; exact E'|lia].
Qed.

(** Small batches: the second one has a larger density, so that the scale grows and one of the two points accepted first is removed. *)
Definition ex_batches (it : nat) (m : Z) : list proposal :=
  match it with
  | 0 => [Prop_ [0.25] 0 1; Prop_ [5.25] 0 1]%Q
  | _ => [Prop_ [0.75] 0 1; Prop_ [5.5] 0.9 1]%Q
  end.
Definition ex_density (x : point) : Q := match x with [v] => if Qle_bool 5 v then v - 5 else v | _ => 0 end.
Definition ex_two := iterate ex_density (in_limits [[(0, 1)]; [(5, 6)]]%Q) 4 true None (Some 1%Q) ex_batches (fun _ k _ => Nat.div2 k).
Example ex_two_states : exists s1 s2, ex_two 1 = Ok s1 /\ ex_two 2 = Ok s2 /\ st_np s1 = 2 /\ st_np s2 = 2 /\ (0 < st_scaling s1 < st_scaling s2)%Q /\
  st_arr s2 = [Some [0.25]; Some [0.75]; None; None]%Q.
Proof. eexists. eexists. split; [vm_compute; reflexivity|]. split; [vm_compute; reflexivity|]. repeat split. Qed.
(** C45: with several limits, the thinning is not fair: two points of equal density, one in each limit, are accepted; of these, whatever the binomial
    number, the point of the second limit is never kept without that of the first. *)
Theorem C45_many_limits_refuted : forall binomial, (forall it k q, binomial it k q <= k) ->
  let it := iterate ex_density (in_limits [[(0, 1)]; [(5, 6)]]%Q) 4 true None (Some 1%Q) ex_batches binomial in
  ex_density [0.25]%Q == ex_density [5.25]%Q /\
  (exists s1, it 1 = Ok s1 /\ firstn 2 (st_arr s1) = [Some [0.25]; Some [5.25]]%Q) /\
  forall s2, it 2 = Ok s2 -> In (Some [5.25]%Q) (firstn (st_np s2) (st_arr s2)) -> In (Some [0.25]%Q) (firstn (st_np s2) (st_arr s2)).
Proof.
  intros binomial HB it. split; [reflexivity|].
  destruct (it 1) as [s1|] eqn:E1. 2:{ exfalso. unfold it in E1. cbn [iterate bind] in E1. vm_compute in E1. destruct (binomial 0 0 _) in E1; discriminate. }
  assert (H1 : st_np s1 = 2 /\ st_arr s1 = [Some [0.25]; Some [5.25]; None; None]%Q).
  { pose proof (HB 0 0 (keep_prob ex_density None (Some 1%Q) (start 4) (ex_batches 0 3000))) as H0.
    unfold it in E1. cbn [iterate bind] in E1.
    destruct (body_ok _ _ _ _ _ _ _ _ _ _ _ E1) as (_ & _ & _ & _ & EN & EA & _).
    assert (EK : kept ex_density None (Some 1%Q) binomial 0 (start 4) (ex_batches 0 (n_to_produce 4 None (start 4))) = 0).
    { match goal with |- ?k = 0 => enough (k <= 0) by lia end. apply (kept_le ex_density None (Some 1%Q) binomial HB). }
    rewrite EK in *. split; [rewrite EN|rewrite EA]; vm_compute; reflexivity. }
  destruct H1 as [N1 A1]. split; [exists s1; split; [reflexivity|now rewrite A1]|].
  intros s2 E2 HI. unfold it in E2. change (iterate ?a ?b ?c ?d ?e ?f ?g ?h 2) with (bind (iterate a b c d e f g h 1) (body a b c d e f g h 1)) in E2.
  fold it in E2. rewrite E1 in E2. cbn [bind] in E2. destruct (body_ok _ _ _ _ _ _ _ _ _ _ _ E2) as (_ & _ & _ & _ & EN & EA & _).
  pose proof (kept_le ex_density None (Some 1%Q) binomial HB 1 s1 (ex_batches 1 (n_to_produce 4 None s1))) as HK.
  set (m := kept _ _ _ _ _ _ _) in *. rewrite N1 in HK. rewrite EA in *. unfold scatter in *. rewrite A1 in *.
  set (rows := map pr_row _) in *. assert (HR : ~ In (Some [5.25]%Q) (map Some rows)).
  { intros H. apply in_map_iff in H as (x & Ex & H). injection Ex as ->. unfold rows in H. apply in_map_iff in H as (p & Ep & H). apply filter_In in H as [H _].
    destruct H as [<-|[<-|[]]]; discriminate Ep. }
  destruct m as [|m]; [|rewrite EN; left; reflexivity]. exfalso. cbn [firstn app] in HI. rewrite EN in HI. cbn [plus] in HI.
  replace (length (filter _ (ex_batches 1 (n_to_produce 4 None s1)))) with (length (map Some rows)) in HI by (unfold rows; now rewrite !map_length).
  rewrite firstn_app, Nat.sub_diag, firstn_all in HI. cbn in HI. rewrite app_nil_r in HI. contradiction.
Qed.

(** C45: a density that is zero everywhere: the sampling never ends, and no error is raised. *)
Theorem C45_zero_density_refuted n numeric_checks draws binomial shuffle multiple ls dim :
  0 < n -> (forall it k q, binomial it k q <= k) -> (forall it, uniform_draws dim (draws it)) -> Forall (fun l => length l = dim /\ proper l) ls ->
  forall fuel, accept_reject (fun _ => 0%Q) (in_limits ls) n numeric_checks None (Some 1%Q) (fun it m => uniform_proposals (draws it) m ls) binomial shuffle multiple fuel = Ok None.
Proof.
  intros Hn HB HU HL fuel. unfold accept_reject.
  enough (HG : forall f k s, iterate (fun _ => 0%Q) (in_limits ls) n numeric_checks None (Some 1%Q) (fun it m => uniform_proposals (draws it) m ls) binomial k = Ok s -> st_np s = 0 ->
    loop (fun _ => 0%Q) (in_limits ls) n numeric_checks None (Some 1%Q) (fun it m => uniform_proposals (draws it) m ls) binomial f k s = Ok None).
  { rewrite (HG fuel 0 (start n) eq_refl eq_refl). reflexivity. }
  induction f as [|f IH]; intros k s E H0; cbn [loop]; rewrite H0; (rewrite (proj2 (Nat.leb_gt n 0)) by lia); [reflexivity|].
  destruct (uniform_total (fun _ => 0%Q) n numeric_checks draws binomial ls dim HU HL (S k)) as [s' E'].
  pose proof E' as EB. cbn [iterate] in EB. rewrite E in EB. cbn [bind] in EB. rewrite EB. cbn [bind]. apply IH; [exact E'|].
  assert (HS' : (0 <= st_scaling s')%Q) by (eapply (scaling_nonneg (fun _ => 0%Q) (in_limits ls) n numeric_checks None (Some 1%Q)); [exact I|exact E']).
  destruct (body_ok _ _ _ _ _ _ _ _ _ _ _ EB) as (_ & _ & _ & ES & EN & _). rewrite ES in HS'. rewrite EN.
  pose proof (kept_le (fun _ => 0%Q) None (Some 1%Q) binomial HB k s (uniform_proposals (draws k) (n_to_produce n None s) ls)) as HK. rewrite H0 in HK.
  match goal with |- ?a + length ?l = 0 => enough (l = []) as -> by (cbn; lia) end.
  match goal with |- ?l = [] => destruct l as [|p r] eqn:EF; [reflexivity|] end. exfalso.
  assert (HI : In p (p :: r)) by now left. rewrite <- EF in HI. apply filter_In in HI as [HI HA]. apply qltb_iff in HA.
  destruct (uniform_in dim (draws k) _ ls (HU k) HL p HI) as (EW & [HU0 _] & _). rewrite EW in HA. nra.
Qed.
Print Assumptions C45_exactly_n.
Print Assumptions C45_positive.
Print Assumptions C45_none_needed.
Print Assumptions C45_same_chance.
Print Assumptions C45_scale_grows.
Print Assumptions C45_checked.
Print Assumptions C45_terminates.
Print Assumptions C45_thinning.
Print Assumptions C45_uniform_never_fails.
Print Assumptions C45_uniform_scale.
Print Assumptions C45_uniform_proposals.
Print Assumptions C45_uniform_split.
Print Assumptions C45_batch_size.
Print Assumptions C45_many_limits_refuted.
Print Assumptions C45_zero_density_refuted.
