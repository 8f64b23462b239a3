From Verif Require Import Base BaseLemmas AccRej_Model AccRej_Spec AccRej_Proofs.
From Coq Require Import Permutation Lia Lqa Qround ZArith.
#[local] Open Scope nat_scope.

Definition zsum (l : list Z) : Z := fold_right Z.add 0%Z l.

Lemma in_limitb_iff l x : in_limitb l x = true <-> in_limit l x.
Proof.
  unfold in_limitb, in_limit. rewrite andb_true_iff, Nat.eqb_eq. revert x. induction l as [|i l IH]; intros [|v x]; cbn.
  - split; [constructor|auto].
  - split; [intros [H _]; discriminate|intros H; inversion H].
  - split; [intros [H _]; discriminate|intros H; inversion H].
  - rewrite !andb_true_iff, !Qle_bool_iff. split.
    + intros [H [H1 H2]]. constructor; [assumption|]. apply IH. split; [now injection H|assumption].
    + intros H. inversion H as [|? ? ? ? H1 H2]; subst. apply IH in H2 as [H2 H3]. auto.
Qed.

Lemma scale_point_in l us : proper l -> length us = length l -> Forall (fun u => 0 <= u < 1)%Q us -> in_limit l (scale_point l us).
Proof.
  intros HP. revert us. induction HP as [|[lo hi] l H HP IH]; intros [|u us] L HU; try discriminate L; [constructor|].
  apply Forall_cons_iff in HU as [[H0 H1] HU]. unfold scale_point. cbn. constructor; [|apply IH; [now injection L|assumption]].
  cbn in *. split; nra.
Qed.

Lemma total_volume_ge ls : Forall (fun l => 0 <= volume l)%Q ls -> (0 <= total_volume ls)%Q.
Proof. induction 1 as [|l ls H HF IH]; cbn; [lra|]. unfold total_volume in *. lra. Qed.

Lemma split_length m tot : forall ls pr, length (split m tot pr ls) = length ls.
Proof. induction ls as [|l [|l' ls] IH]; intros pr; [reflexivity..|]. cbn [split length]. f_equal. apply IH. Qed.
Lemma split_sum m tot : forall ls pr, ls <> [] -> zsum (split m tot pr ls) = (m - pr)%Z.
Proof.
  induction ls as [|l [|l' ls] IH]; intros pr NE; [easy|cbn; lia|]. cbn [split]. set (k := Qfloor _). change (k + zsum (split m tot (pr + k) (l' :: ls)) = m - pr)%Z.
  rewrite IH by discriminate. lia.
Qed.
Lemma split_share m tot : (0 < tot)%Q -> (0 <= m)%Z -> forall ls pr, Forall (fun l => 0 <= volume l)%Q ls ->
  (inject_Z pr <= inject_Z m * (1 - total_volume ls / tot))%Q ->
  Forall (fun k => 0 <= k)%Z (split m tot pr ls).
Proof.
  intros HT Hm. induction ls as [|l [|l' ls] IH]; intros pr HV HP; [constructor| |].
  - cbn [split]. constructor; [|constructor]. apply Forall_cons_iff in HV as [HV _].
    assert (0 <= volume l / tot)%Q by (apply Qle_shift_div_l; lra).
    cbn in HP. assert ((volume l + 0) / tot == volume l / tot)%Q as E by (field; lra). rewrite E in HP.
    assert (0 <= inject_Z m)%Q by (change 0%Q with (inject_Z 0); now rewrite <- Zle_Qle).
    assert (inject_Z pr <= inject_Z m)%Q by nra. rewrite <- Zle_Qle in *. lia.
  - apply Forall_cons_iff in HV as [H1 HV]. cbn [split].
    assert (0 <= volume l / tot)%Q as H2 by (apply Qle_shift_div_l; lra).
    assert (0 <= inject_Z m)%Q as H3 by (change 0%Q with (inject_Z 0); now rewrite <- Zle_Qle).
    assert (0 <= inject_Z m * (volume l / tot))%Q as H4 by nra.
    constructor.
    + change 0%Z with (Qfloor 0). now apply Qfloor_resp_le.
    + apply IH; [assumption|]. rewrite inject_Z_plus. pose proof (Qfloor_le (inject_Z m * (volume l / tot))) as H5.
      change (total_volume (l :: l' :: ls)) with (volume l + total_volume (l' :: ls))%Q in HP.
      assert ((volume l + total_volume (l' :: ls)) / tot == volume l / tot + total_volume (l' :: ls) / tot)%Q as E by (field; lra).
      rewrite E in HP. lra.
Qed.
Lemma split_nth m tot : forall ls pr i l k, S i < length ls -> nth_error ls i = Some l -> nth_error (split m tot pr ls) i = Some k ->
  k = Qfloor (inject_Z m * (volume l / tot)).
Proof.
  induction ls as [|a [|b ls] IH]; intros pr i l k HL E1 E2; cbn in HL; try lia.
  destruct i as [|i]; cbn [split nth_error] in E1, E2; [injection E1 as ->; injection E2 as <-; reflexivity|]. eapply (IH _ i); [cbn; lia|exact E1|exact E2].
Qed.

Lemma uniform_in dim draws m ls : uniform_draws dim draws -> Forall (fun l => length l = dim /\ proper l) ls -> forall p,
  In p (uniform_proposals draws m ls) ->
  pr_w p = 1%Q /\ (0 <= pr_u p < 1)%Q /\ exists l, In l ls /\ in_limit l (pr_row p).
Proof.
  intros HU HL p HI. unfold uniform_proposals in HI. apply in_flat_map in HI as ([[i l] k] & HI & HP). cbn in HP.
  apply in_map_iff in HP as (d & <- & HD). destruct (HU i k) as [_ H]. destruct (H d HD) as (L & F & U). cbn.
  apply in_combine_l in HI. apply in_combine_r in HI. rewrite Forall_forall in HL. destruct (HL l HI) as [HL1 HL2].
  split; [reflexivity|]. split; [assumption|]. exists l. split; [assumption|]. apply scale_point_in; congruence.
Qed.
Lemma uniform_length dim draws m ls : uniform_draws dim draws -> ls <> [] -> Forall (fun l => 0 <= volume l)%Q ls -> (0 < total_volume ls)%Q -> (0 <= m)%Z ->
  Z.of_nat (length (uniform_proposals draws m ls)) = m.
Proof.
  intros HU NE HV HT Hm. transitivity (zsum (split m (total_volume ls) 0 ls)); [|rewrite split_sum by assumption; lia].
  assert (HF : Forall (fun k => 0 <= k)%Z (split m (total_volume ls) 0 ls)).
  { apply split_share; auto. assert (total_volume ls / total_volume ls == 1)%Q as -> by (field; lra). change (inject_Z 0) with 0%Q. lra. }
  unfold uniform_proposals. assert (L : length (split m (total_volume ls) 0 ls) = length ls) by apply split_length. revert L HF.
  generalize (split m (total_volume ls) 0 ls) as ks. generalize 0 as j. clear NE HV HT. induction ls as [|l ls IH]; intros j [|k ks] L HF; try discriminate L; [reflexivity|].
  apply Forall_cons_iff in HF as [H HF]. cbn [length seq combine flat_map fst snd zsum fold_right]. rewrite app_length, map_length, Nat2Z.inj_add.
  destruct (HU j k) as [-> _]. rewrite IH by (auto; now injection L). unfold zsum. lia.
Qed.

Lemma size_volume l : (size l == volume l)%Q.
Proof. induction l as [|[lo hi] l IH]; cbn; [reflexivity|]. rewrite IH. reflexivity. Qed.
Lemma total_size_volume ls : (total_size ls == total_volume ls)%Q.
Proof. induction ls as [|l ls IH]; cbn; [reflexivity|]. rewrite size_volume. unfold total_size, total_volume in *. rewrite IH. reflexivity. Qed.
Lemma scale_point_at l us : at_fractions l us (scale_point l us).
Proof. unfold at_fractions, scale_point. induction (combine l us) as [|iu r IH]; constructor; [ring|assumption]. Qed.
Lemma uniform_origin draws m ls p : In p (uniform_proposals draws m ls) ->
  exists i l k d, nth_error ls i = Some l /\ nth_error (split m (total_volume ls) 0 ls) i = Some k /\ In d (draws i k) /\ at_fractions l (fst d) (pr_row p) /\ pr_u p = snd d.
Proof.
  intros HI. unfold uniform_proposals in HI. apply in_flat_map in HI as ([[i l] k] & HI & HP). cbn in HP.
  apply in_map_iff in HP as (d & <- & HD). exists i, l, k, d.
  assert (HN : nth_error ls i = Some l /\ nth_error (split m (total_volume ls) 0 ls) i = Some k).
  { clear - HI. revert HI. generalize (split m (total_volume ls) 0 ls) as ks. 
    assert (HG : forall (ls : list limit) ks j, In (i, l, k) (combine (combine (seq j (length ls)) ls) ks) -> j <= i /\ nth_error ls (i - j) = Some l /\ nth_error ks (i - j) = Some k).
    { clear. induction ls as [|a ls IH]; intros [|b ks] j HI; cbn in HI; try easy. destruct HI as [E|HI].
      - injection E as -> -> ->. rewrite Nat.sub_diag. auto.
      - destruct (IH ks (S j) HI) as (H & H1 & H2). split; [lia|]. replace (i - j) with (S (i - S j)) by lia. auto. }
    intros ks HI. destruct (HG ls ks 0 HI) as (_ & H1 & H2). rewrite Nat.sub_0_r in *. auto. }
  destruct HN as [H1 H2]. split; [assumption|]. split; [assumption|]. split; [assumption|]. split; [apply scale_point_at|reflexivity].
Qed.

Section Batch.
Variables (prob : point -> Q) (inside : point -> bool) (n : nat) (numeric_checks : bool) (prob_max weights_max : option Q)
  (propose : nat -> Z -> list proposal) (binomial : nat -> nat -> Q -> nat).
Notation iterate := (iterate prob inside n numeric_checks prob_max weights_max propose binomial).
Hypothesis HB : forall it k q, binomial it k q <= k.
Hypothesis HN : forall it m, (Z.of_nat (length (propose it m)) <= Z.max m 0)%Z.

Lemma drawn_inv k s : iterate k = Ok s -> (Z.of_nat (st_np s) <= st_drawn s)%Z /\
  (k = 0 /\ st_eff s = 0.5%Q \/ k <> 0 /\ (0 < st_drawn s)%Z /\ st_eff s = (qmax (inject_Z (Z.of_nat (st_np s))) 0.5 / qmax (inject_Z (st_drawn s)) 1)%Q).
Proof.
  revert s. induction k as [|k IH]; intros s E; [injection E as <-; cbn; split; [lia|auto]|].
  cbn [AccRej_Model.iterate] in E. destruct (iterate k) as [s0|] eqn:E0; [|discriminate]. cbn [bind] in E. destruct (IH s0 eq_refl) as [H _].
  pose proof (body_ok _ _ _ _ _ _ _ _ _ _ _ E) as (Hm & _ & _ & _ & EN & _).
  pose proof (kept_le prob prob_max weights_max binomial HB k s0 (propose k (n_to_produce n prob_max s0))) as HK.
  pose proof (HN k (n_to_produce n prob_max s0)) as HL.
  assert (HF : forall f (l : list proposal), length (filter f l) <= length l) by (induction l as [|a l IHl]; cbn; [lia|destruct (f a); cbn; lia]).
  specialize (HF (accepted prob (new_scaling prob prob_max weights_max s0 (propose k (n_to_produce n prob_max s0)))) (propose k (n_to_produce n prob_max s0))).
  unfold body in E. destruct (n_to_produce n prob_max s0 <=? 0)%Z; [discriminate|]. destruct (negb _); [discriminate|]. destruct (numeric_checks && _); [discriminate|].
  injection E as <-. cbn [st_np st_drawn st_eff] in *. split; [lia|]. right. split; [discriminate|]. split; [lia|reflexivity].
Qed.

Lemma eff_bounds k s : iterate k = Ok s -> (0 < st_eff s <= 1)%Q.
Proof.
  intros E. destruct (drawn_inv k s E) as [H [[_ ->]|(_ & HD & ->)]]; [split; reflexivity || discriminate|].
  assert (HZ : (inject_Z (Z.of_nat (st_np s)) <= inject_Z (st_drawn s))%Q) by now rewrite <- Zle_Qle.
  assert (H1 : (1 <= inject_Z (st_drawn s))%Q) by (change 1%Q with (inject_Z 1); rewrite <- Zle_Qle; lia).
  pose proof (qmax_r (inject_Z (Z.of_nat (st_np s))) 0.5) as R1. pose proof (qmax_l (inject_Z (st_drawn s)) 1) as L2.
  assert (HM : (qmax (inject_Z (Z.of_nat (st_np s))) 0.5 <= inject_Z (st_drawn s))%Q) by (apply qmax_lub; lra).
  split; [apply Qlt_shift_div_l; lra|apply Qle_shift_div_r; lra].
Qed.

Lemma batch_size k s : iterate k = Ok s -> st_np s < n ->
  let missing := (Z.of_nat n - Z.of_nat (st_np s))%Z in
  (Z.min missing 800000 <= n_to_produce n prob_max s <= 800000)%Z /\
  (inject_Z (n_to_produce n prob_max s) <= qmax (inject_Z missing * (1.01 / qmax (st_eff s) 0.000001)) (inject_Z (n_min prob_max)))%Q.
Proof.
  intros E HL missing. destruct (eff_bounds k s E) as [H0 H1]. unfold n_to_produce. fold missing.
  set (eff := qmax (st_eff s) 0.000001). assert (He : (0 < eff <= 1)%Q).
  { unfold eff. pose proof (qmax_l (st_eff s) 0.000001). split; [lra|]. apply qmax_lub; lra. }
  assert (HQ : (101 <= 1 / eff * 1.01 * 100)%Q).
  { assert (1 <= 1 / eff)%Q by (apply Qle_shift_div_l; lra). lra. }
  assert (HF : (101 <= Qfloor (1 / eff * 1.01 * 100))%Z) by (change 101%Z with (Qfloor 101); now apply Qfloor_resp_le).
  pose proof (Qfloor_le (1 / eff * 1.01 * 100)) as HFl. set (o := Qfloor (1 / eff * 1.01 * 100)) in *.
  assert (HM : (0 < missing)%Z) by (unfold missing; lia).
  assert (HD : (missing <= missing * o / 100)%Z) by (apply Z.div_le_lower_bound; nia).
  split; [lia|]. apply Qle_trans with (inject_Z (Z.max (missing * o / 100) (n_min prob_max))); [rewrite <- Zle_Qle; lia|].
  assert (H5 : (inject_Z (missing * o / 100) <= inject_Z missing * (1.01 / eff))%Q).
  { assert (H6 : (100 * (missing * o / 100) <= missing * o)%Z) by (apply Z.mul_div_le; lia).
    rewrite Zle_Qle in H6. rewrite !inject_Z_mult in H6. change (inject_Z 100) with 100%Q in H6.
    assert (0 <= inject_Z missing)%Q by (change 0%Q with (inject_Z 0); rewrite <- Zle_Qle; lia).
    assert (inject_Z missing * inject_Z o <= inject_Z missing * (1 / eff * 1.01 * 100))%Q by (rewrite !(Qmult_comm (inject_Z missing)); now apply Qmult_le_compat_r).
    assert (inject_Z missing * (1 / eff * 1.01 * 100) == 100 * (inject_Z missing * (1.01 / eff)))%Q as E3 by (field; lra).
    rewrite E3 in *. lra. }
  destruct (Z.max_spec (missing * o / 100) (n_min prob_max)) as [[_ ->]|[_ ->]]; [apply qmax_r|]. eapply Qle_trans; [exact H5|apply qmax_l].
Qed.
End Batch.

Section S.
Variables (prob : point -> Q) (n : nat) (numeric_checks : bool) (draws : nat -> nat -> Z -> list (list Q * Q)) (binomial : nat -> nat -> Q -> nat)
  (ls : list limit) (dim : nat).
Definition in_limits (x : point) : bool := existsb (fun l => in_limitb l x) ls.
Notation propose := (fun it m => uniform_proposals (draws it) m ls).
Notation iterate := (iterate prob in_limits n numeric_checks None (Some 1%Q) propose binomial).
Hypothesis HU : forall it, uniform_draws dim (draws it).
Hypothesis HL : Forall (fun l => length l = dim /\ proper l) ls.

Lemma in_limits_iff x : in_limits x = true <-> exists l, In l ls /\ in_limit l x.
Proof.
  unfold in_limits. rewrite existsb_exists. split; intros (l & H & K); exists l; (split; [assumption|]); now apply in_limitb_iff.
Qed.

Lemma wmax_one batch s : (st_wmax s <= 1)%Q -> (forall p, In p batch -> pr_w p = 1%Q) -> (new_wmax s batch <= 1)%Q.
Proof.
  intros H HB. unfold new_wmax. induction batch as [|p batch IH]; cbn; [assumption|]. apply qmax_lub.
  - rewrite (HB p); [lra|now left].
  - apply IH. intros q Hq. apply HB. now right.
Qed.

Lemma uniform_batch it s batch : (st_wmax s <= 1)%Q -> (0 <= st_scaling s)%Q -> batch = uniform_proposals (draws it) (n_to_produce n None s) ls ->
  forall p, In p batch -> (prob (pr_row p) <= new_scaling prob None (Some 1%Q) s batch * pr_w p)%Q.
Proof.
  intros HW HS EB p HI.
  assert (H1 : forall q, In q batch -> pr_w q = 1%Q) by (intros q Hq; subst batch; now destruct (uniform_in dim (draws it) _ ls (HU it) HL q Hq)).
  assert (prob (pr_row p) <= max_ratio prob s batch * pr_w p)%Q.
  { apply ratio_bound; [assumption|rewrite (H1 p HI); lra|]. rewrite (H1 p HI). pose proof (wmax_one batch s HW H1). lra. }
  pose proof (new_scaling_ratio prob None (Some 1%Q) s batch eq_refl HS). rewrite (H1 p HI) in *. lra.
Qed.

Lemma uniform_step k s : iterate k = Ok s -> (st_wmax s <= 1)%Q /\ exists s', iterate (S k) = Ok s'.
Proof.
  revert s. induction k as [|k IH]; intros s E.
  - cbn in E. injection E as <-. split; [cbn; lra|].
    cbn [AccRej_Model.iterate bind]. unfold body. 
    assert ((n_to_produce n None (start n) <=? 0)%Z = false) as -> by (apply Z.leb_gt; unfold n_to_produce, n_min; lia).
    match goal with |- context [forallb _ ?b] => set (batch := b) end.
    assert (forallb (fun p => in_limits (pr_row p)) batch = true) as ->.
    { apply forallb_forall. intros p HI. apply in_limits_iff. now destruct (uniform_in dim (draws 0) _ ls (HU 0) HL p HI) as (_ & _ & ?). }
    cbn [negb]. replace (numeric_checks && existsb _ batch) with false; [eauto|]. symmetry. apply andb_false_iff. right.
    apply not_true_is_false. intros HX. apply existsb_exists in HX as (p & HI & HT). apply qltb_iff in HT.
    pose proof (uniform_batch 0 (start n) batch) as UB. cbn [st_wmax st_scaling start] in UB. specialize (UB ltac:(lra) ltac:(lra) eq_refl p HI). lra.
  - cbn [AccRej_Model.iterate] in E. destruct (iterate k) as [s0|] eqn:E0; [|discriminate]. cbn [bind] in E.
    destruct (IH s0 eq_refl) as [HW0 _]. pose proof (body_ok _ _ _ _ _ _ _ _ _ _ _ E) as (_ & _ & _ & _ & _ & _ & EW). cbn [estimates] in EW.
    assert (HW : (st_wmax s <= 1)%Q).
    { rewrite EW. apply wmax_one; [assumption|]. intros q Hq. now destruct (uniform_in dim (draws k) _ ls (HU k) HL q Hq). }
    split; [assumption|].
    assert (ES : iterate (S k) = Ok s) by (cbn [AccRej_Model.iterate]; now rewrite E0).
    assert (HS : (0 <= st_scaling s)%Q) by (apply (scaling_nonneg prob in_limits n numeric_checks None (Some 1%Q) propose binomial) with (S k); [exact I|exact ES]).
    change (iterate (S (S k))) with (bind (iterate (S k)) (fun s => body prob in_limits n numeric_checks None (Some 1%Q) propose binomial (S k) s)).
    rewrite ES. cbn [bind]. unfold body.
    assert ((n_to_produce n None s <=? 0)%Z = false) as -> by (apply Z.leb_gt; unfold n_to_produce, n_min; lia).
    match goal with |- context [forallb _ ?b] => set (batch := b) end.
    assert (forallb (fun p => in_limits (pr_row p)) batch = true) as ->.
    { apply forallb_forall. intros p HI. apply in_limits_iff. now destruct (uniform_in dim (draws (S k)) _ ls (HU (S k)) HL p HI) as (_ & _ & ?). }
    cbn [negb]. replace (numeric_checks && existsb _ batch) with false; [eauto|]. symmetry. apply andb_false_iff. right.
    apply not_true_is_false. intros HX. apply existsb_exists in HX as (p & HI & HT). apply qltb_iff in HT.
    pose proof (uniform_batch (S k) s batch HW HS eq_refl p HI). lra.
Qed.
Lemma uniform_total k : exists s, iterate k = Ok s.
Proof. induction k as [|k [s E]]; [cbn; eauto|]. now apply uniform_step in E as [_ H]. Qed.

(** the scaling covers every density seen so far *)
Lemma uniform_cover k d s p : iterate (S k + d) = Ok s -> proposed prob in_limits n numeric_checks None (Some 1%Q) propose binomial k p ->
  (prob (pr_row p) <= st_scaling s)%Q.
Proof.
  intros E (s0 & E0 & HI). destruct (iterate_before prob in_limits n numeric_checks None (Some 1%Q) propose binomial (S k) d s E) as (s1 & E1).
  pose proof (scaling_mono prob in_limits n numeric_checks None (Some 1%Q) propose binomial eq_refl d (S k) s1 s E1 E) as M.
  cbn [AccRej_Model.iterate] in E1. rewrite E0 in E1. cbn [bind] in E1. apply body_ok in E1 as (_ & _ & _ & ES & _).
  assert (HS : (0 <= st_scaling s0)%Q) by (apply (scaling_nonneg prob in_limits n numeric_checks None (Some 1%Q) propose binomial) with k; [exact I|exact E0]).
  destruct (uniform_step k s0 E0) as [HW _]. pose proof (uniform_batch k s0 _ HW HS eq_refl p HI) as H. rewrite <- ES in H.
  destruct (uniform_in dim (draws k) _ ls (HU k) HL p HI) as [EW _]. rewrite EW in H. lra.
Qed.
End S.
