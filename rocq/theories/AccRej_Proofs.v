From Verif Require Import Base BaseLemmas AccRej_Model AccRej_Spec.
From Coq Require Import Permutation Lia Lqa Qround ZArith Qfield.
#[local] Open Scope nat_scope.

Lemma qltb_iff a b : qltb a b = true <-> (a < b)%Q.
Proof. unfold qltb. rewrite negb_true_iff. split; intros H; [apply Qnot_le_lt; intros K; apply Qle_bool_iff in K; congruence|].
  destruct (Qle_bool b a) eqn:E; [|reflexivity]. apply Qle_bool_iff in E. lra. Qed.
Lemma qltb_false a b : qltb a b = false <-> (b <= a)%Q.
Proof. destruct (qltb a b) eqn:E; [apply qltb_iff in E|]; split; intros H; try easy; try lra. 
  apply Qnot_lt_le. intros K. apply qltb_iff in K. congruence. Qed.
Lemma qmax_l a b : (a <= qmax a b)%Q.
Proof. unfold qmax. destruct (Qle_bool a b) eqn:E; [now apply Qle_bool_iff in E|lra]. Qed.
Lemma qmax_r a b : (b <= qmax a b)%Q.
Proof. unfold qmax. destruct (Qle_bool a b) eqn:E; [lra|]. destruct (Qlt_le_dec b a); [lra|]. apply Qle_bool_iff in q. congruence. Qed.
Lemma qmax_lub a b c : (a <= c -> b <= c -> qmax a b <= c)%Q.
Proof. unfold qmax. now destruct (Qle_bool a b). Qed.
Lemma fold_qmax_base l b : (b <= fold_right qmax b l)%Q.
Proof. induction l as [|a l IH]; cbn; [lra|]. eapply Qle_trans; [exact IH|apply qmax_r]. Qed.
Lemma fold_qmax_in l b a : In a l -> (a <= fold_right qmax b l)%Q.
Proof. induction l as [|c l IH]; cbn; [easy|]. intros [->|H]; [apply qmax_l|]. eapply Qle_trans; [now apply IH|apply qmax_r]. Qed.
Lemma qmax_clip w c : (c <= w -> qmax w c == w)%Q.
Proof. intros H. unfold qmax. destruct (Qle_bool w c) eqn:E; [apply Qle_bool_iff in E; lra|reflexivity]. Qed.

Section S.
Variables (prob : point -> Q) (inside : point -> bool) (n : nat) (numeric_checks : bool) (prob_max weights_max : option Q)
  (propose : nat -> Z -> list proposal) (binomial : nat -> nat -> Q -> nat).
Notation body := (body prob inside n numeric_checks prob_max weights_max propose binomial).
Notation iterate := (iterate prob inside n numeric_checks prob_max weights_max propose binomial).
Notation loop := (loop prob inside n numeric_checks prob_max weights_max propose binomial).
Notation asked := (n_to_produce n prob_max).
Notation new_scaling := (new_scaling prob prob_max weights_max).
Notation rescaled := (rescaled prob prob_max weights_max).
Notation kept := (kept prob prob_max weights_max binomial).
Notation was_accepted := (was_accepted prob inside n numeric_checks prob_max weights_max propose binomial).
Hypothesis HB : forall it k q, binomial it k q <= k.

Lemma body_ok it s s' : body it s = Ok s' ->
  let batch := propose it (asked s) in let sc := new_scaling s batch in
  (0 < asked s)%Z /\ (forall p, In p batch -> inside (pr_row p) = true) /\
  (numeric_checks = true -> forall p, In p batch -> (prob (pr_row p) <= sc * pr_w p)%Q) /\
  st_scaling s' = sc /\ st_np s' = kept it s batch + length (filter (accepted prob sc) batch) /\
  st_arr s' = scatter (kept it s batch) (map pr_row (filter (accepted prob sc) batch)) (st_arr s) /\
  st_wmax s' = (if estimates prob_max weights_max then new_wmax s batch else st_wmax s).
Proof.
  unfold AccRej_Model.body. destruct (asked s <=? 0)%Z eqn:E1; [discriminate|]. apply Z.leb_gt in E1.
  destruct (forallb _ (propose it (asked s))) eqn:E2; [|discriminate]. cbn [negb]. rewrite forallb_forall in E2.
  destruct (numeric_checks && existsb _ (propose it (asked s))) eqn:E3; [discriminate|]. intros E. injection E as <-. cbn.
  split; [exact E1|]. split; [exact E2|]. split; [|rewrite map_length; auto].
  intros HC p HI. rewrite HC in E3. cbn in E3. apply Qnot_lt_le. intros K.
  enough (existsb (too_large prob (new_scaling s (propose it (asked s)))) (propose it (asked s)) = true) by congruence.
  apply existsb_exists. exists p. split; [assumption|]. now apply qltb_iff.
Qed.

Lemma kept_le it s batch : kept it s batch <= st_np s.
Proof. unfold AccRej_Model.kept. destruct (rescaled s batch); [apply HB|lia]. Qed.

(** the array: as long as needed, and written with accepted points up to the number produced *)
Definition inv (s : state) : Prop :=
  length (st_arr s) = Nat.max n (st_np s) /\
  forall i, i < st_np s -> exists x, nth_error (st_arr s) i = Some (Some x) /\ inside x = true /\ was_accepted x.

Lemma scatter_length k rows (arr : list (option point)) : k <= length arr -> length (scatter k rows arr) = Nat.max (length arr) (k + length rows).
Proof. intros H. unfold scatter. rewrite !app_length, firstn_length, map_length, skipn_length. lia. Qed.
Lemma scatter_low k rows (arr : list (option point)) i : k <= length arr -> i < k -> nth_error (scatter k rows arr) i = nth_error arr i.
Proof.
  intros H HI. unfold scatter. rewrite nth_error_app1 by (rewrite firstn_length; lia).
  rewrite <- (firstn_skipn k arr) at 2. rewrite nth_error_app1 by (rewrite firstn_length; lia). reflexivity.
Qed.
Lemma scatter_mid k rows (arr : list (option point)) i : k <= length arr -> i < length rows ->
  nth_error (scatter k rows arr) (k + i) = option_map Some (nth_error rows i).
Proof.
  intros H HI. unfold scatter. assert (L : length (firstn k arr) = k) by (rewrite firstn_length; lia).
  rewrite nth_error_app2 by lia. rewrite L. replace (k + i - k) with i by lia.
  rewrite nth_error_app1 by now rewrite map_length. apply nth_error_map.
Qed.

Lemma inv_body it s s' : iterate it = Ok s -> st_np s < n -> inv s -> body it s = Ok s' -> inv s'.
Proof.
  intros EI HN [HL HA] E. pose proof (body_ok it s s' E) as (Hm & HIn & _ & ES & EN & EA & _).
  pose proof (kept_le it s (propose it (asked s))) as HK. set (k := kept it s (propose it (asked s))) in *.
  set (rows := map pr_row (filter (accepted prob (new_scaling s (propose it (asked s)))) (propose it (asked s)))) in *.
  assert (LR : length rows = length (filter (accepted prob (new_scaling s (propose it (asked s)))) (propose it (asked s)))) by apply map_length.
  split.
  - rewrite EA, scatter_length by lia. rewrite EN, LR, HL. lia.
  - intros i HI. rewrite EA. destruct (Nat.lt_ge_cases i k) as [C|C].
    + rewrite scatter_low by lia. apply HA. lia.
    + replace i with (k + (i - k)) by lia. rewrite scatter_mid by lia.
      destruct (nth_error rows (i - k)) as [x|] eqn:EX; [|apply nth_error_None in EX; lia].
      exists x. split; [reflexivity|]. unfold rows in EX. rewrite nth_error_map in EX.
      destruct (nth_error (filter _ _) (i - k)) as [p|] eqn:EP in EX; [|discriminate]. cbn in EX. injection EX as <-.
      apply nth_error_In in EP. apply filter_In in EP as [HP HAcc]. split; [now apply HIn|].
      exists it, p, s'. split; [exists s; auto|]. split; [cbn; now rewrite EI|]. split; [reflexivity|].
      apply qltb_iff in HAcc. now rewrite ES.
Qed.
Lemma inv_start : inv (start n).
Proof. split; cbn; [rewrite repeat_length; lia|intros; lia]. Qed.

Lemma loop_spec : forall fuel it s s', iterate it = Ok s -> inv s -> loop fuel it s = Ok (Some s') ->
  exists k, iterate k = Ok s' /\ n <= st_np s' /\ inv s'.
Proof.
  induction fuel as [|f IH]; intros it s s' EI HI E; cbn in E.
  - destruct (Nat.leb n (st_np s)) eqn:EN; [|discriminate]. injection E as <-. apply Nat.leb_le in EN. eauto.
  - destruct (Nat.leb n (st_np s)) eqn:EN; [injection E as <-; apply Nat.leb_le in EN; eauto|]. apply Nat.leb_gt in EN.
    destruct (body it s) as [s1|] eqn:E1; [|discriminate]. cbn in E. apply (IH (S it) s1 s'); [cbn; now rewrite EI|now apply (inv_body it s)|exact E].
Qed.

Lemma inv_all s : inv s -> n <= st_np s -> exists xs, st_arr s = map Some xs /\ length xs = st_np s /\ Forall (fun x => inside x = true /\ was_accepted x) xs.
Proof.
  intros [HL HA] HN. rewrite Nat.max_r in HL by assumption. revert HL HA. generalize (st_np s) as m. generalize (st_arr s) as arr.
  induction arr as [|a arr IH]; intros m HL HA; [exists []; cbn in *; subst; repeat split; constructor|].
  destruct (HA 0) as (x & E & Hx); [cbn in HL; lia|]. cbn in E. injection E as ->. destruct m as [|m]; [discriminate|]. injection HL as HL.
  destruct (IH m HL) as (xs & -> & L & F); [intros i Hi; apply (HA (S i)); lia|].
  exists (x :: xs). split; [reflexivity|]. split; [cbn; now rewrite L|]. constructor; assumption.
Qed.

Lemma accept_reject_ok shuffle multiple fuel res : (forall l, Permutation l (shuffle l)) ->
  accept_reject prob inside n numeric_checks prob_max weights_max propose binomial shuffle multiple fuel = Ok (Some res) ->
  exists xs, res = map Some xs /\ length xs = n /\ Forall (fun x => inside x = true /\ was_accepted x) xs.
Proof.
  intros HS E. unfold accept_reject in E. destruct (loop fuel 0 (start n)) as [[s|]|] eqn:EL; try discriminate. cbn in E. injection E as <-.
  destruct (loop_spec fuel 0 (start n) s eq_refl inv_start EL) as (k & _ & HN & HI). destruct (inv_all s HI HN) as (xs & -> & L & F).
  assert (HG : forall ys, Permutation xs ys -> exists zs, firstn n (map Some ys) = map Some zs /\ length zs = n /\ Forall (fun x => inside x = true /\ was_accepted x) zs).
  { intros ys HP. exists (firstn n ys). split; [apply firstn_map|]. split; [rewrite firstn_length, <- (Permutation_length HP), L; lia|].
    apply (Permutation_Forall HP) in F. rewrite <- (firstn_skipn n ys) in F. now apply Forall_app in F. }
  destruct multiple; [|now apply HG].
  destruct (Permutation_map_inv Some _ (Permutation_sym (HS (map Some xs)))) as (ys & -> & HP). now apply HG, Permutation_sym.
Qed.

(** the scaling *)
Lemma new_scaling_mono s batch : estimates prob_max weights_max = true -> (0 <= st_scaling s)%Q -> (st_scaling s <= new_scaling s batch)%Q.
Proof.
  intros HE H0. assert ((1 <= overestimate prob_max)%Q) as HO by (unfold overestimate; destruct prob_max; compute; discriminate).
  assert (G : forall r, (st_scaling s <= (if qltb (st_scaling s) r then r * overestimate prob_max else st_scaling s))%Q).
  { intros r. destruct (qltb (st_scaling s) r) eqn:E; [|lra]. apply qltb_iff in E. nra. }
  unfold AccRej_Model.new_scaling. unfold estimates in HE. destruct prob_max, weights_max; try discriminate; apply G.
Qed.
Lemma new_scaling_ratio s batch : estimates prob_max weights_max = true -> (0 <= st_scaling s)%Q -> (max_ratio prob s batch <= new_scaling s batch)%Q.
Proof.
  intros HE H0. assert ((1 <= overestimate prob_max)%Q) as HO by (unfold overestimate; destruct prob_max; compute; discriminate).
  assert (G : forall r, (r <= (if qltb (st_scaling s) r then r * overestimate prob_max else st_scaling s))%Q).
  { intros r. destruct (qltb (st_scaling s) r) eqn:E; [|now apply qltb_false in E]. apply qltb_iff in E. nra. }
  unfold AccRej_Model.new_scaling. unfold estimates in HE. destruct prob_max, weights_max; try discriminate; apply G.
Qed.

Definition nonneg_max : Prop := match prob_max, weights_max with Some p, Some w => (0 <= p / w)%Q | _, _ => True end.
Lemma scaling_nonneg : nonneg_max -> forall k s, iterate k = Ok s -> (0 <= st_scaling s)%Q.
Proof.
  intros HM. induction k as [|k IH]; intros s E; cbn in E; [injection E as <-; cbn; lra|].
  destruct (iterate k) as [s0|] eqn:E0; [|discriminate]. cbn in E. apply body_ok in E as (_ & _ & _ & -> & _).
  specialize (IH _ eq_refl). destruct (estimates prob_max weights_max) eqn:EE.
  - eapply Qle_trans; [exact IH|now apply new_scaling_mono].
  - unfold estimates in EE. unfold nonneg_max in HM. unfold AccRej_Model.new_scaling. now destruct prob_max, weights_max.
Qed.
Lemma scaling_mono : estimates prob_max weights_max = true -> forall d k s s', iterate k = Ok s -> iterate (k + d) = Ok s' -> (st_scaling s <= st_scaling s')%Q.
Proof.
  intros HE. induction d as [|d IH]; intros k s s' E E'.
  - rewrite Nat.add_0_r in E'. rewrite E in E'. injection E' as <-. lra.
  - rewrite Nat.add_succ_r in E'. cbn in E'. destruct (iterate (k + d)) as [s1|] eqn:E1; [|discriminate]. cbn in E'.
    pose proof (IH k s s1 E E1). apply body_ok in E' as (_ & _ & _ & -> & _).
    eapply Qle_trans; [eassumption|]. apply new_scaling_mono; [assumption|]. apply (scaling_nonneg) with (k + d); [|assumption].
    unfold nonneg_max. unfold estimates in HE. now destruct prob_max, weights_max.
Qed.

(** weights that are positive and not too different: no probability exceeds the scaled weight *)
Lemma ratio_bound s batch p : In p batch -> (0 < pr_w p)%Q -> (new_wmax s batch * 0.00001 <= pr_w p)%Q ->
  (prob (pr_row p) <= max_ratio prob s batch * pr_w p)%Q.
Proof.
  intros HI HW HC. assert ((prob (pr_row p) / clipped (new_wmax s batch) p <= max_ratio prob s batch)%Q) as H.
  { unfold max_ratio. apply fold_qmax_in. apply in_map_iff. exists p. auto. }
  unfold clipped in H. rewrite (qmax_clip _ _ HC) in H.
  assert (prob (pr_row p) == prob (pr_row p) / pr_w p * pr_w p)%Q as -> by (field; lra).
  apply Qmult_le_compat_r; [exact H|lra].
Qed.

(** survival chance *)
Lemma survival_eq k p : (0 < pr_w p)%Q -> estimates prob_max weights_max = true -> forall d s, iterate (S k + d) = Ok s ->
  (forall s1, iterate (S k) = Ok s1 -> (0 < st_scaling s1)%Q) ->
  (survival prob inside n numeric_checks prob_max weights_max propose binomial k d p == prob (pr_row p) / (st_scaling s * pr_w p))%Q.
Proof.
  intros HW HE. induction d as [|d IH]; intros s E HP.
  - rewrite Nat.add_0_r in E. cbn [survival]. rewrite E. reflexivity.
  - rewrite Nat.add_succ_r in E. cbn [AccRej_Model.iterate] in E. destruct (iterate (S k + d)) as [s1|] eqn:E1; [|discriminate].
    cbn [bind] in E. cbn [survival]. rewrite E1. rewrite (IH s1 eq_refl HP).
    destruct (iterate (S k)) as [sk|] eqn:Ek.
    2:{ exfalso. clear - E1 Ek. revert s1 E1. induction d as [|d IHd]; intros s1 E1; [rewrite Nat.add_0_r in E1; congruence|].
        rewrite Nat.add_succ_r in E1. cbn [AccRej_Model.iterate] in E1. destruct (iterate (S k + d)) eqn:E2; [|discriminate]. eapply IHd; eauto. }
    specialize (HP sk eq_refl). pose proof (scaling_mono HE d (S k) sk s1 Ek E1) as M.
    apply body_ok in E as (_ & _ & _ & ES & _). rewrite ES. unfold AccRej_Model.rescaled, keep_prob. rewrite HE. cbn [andb].
    assert (st_scaling s1 <= new_scaling s1 (propose (S k + d) (asked s1)))%Q as M2 by (apply new_scaling_mono; [assumption|lra]).
    destruct (qltb (st_scaling s1) (max_ratio prob s1 (propose (S k + d) (asked s1)))) eqn:EQ.
    + field. repeat split; lra.
    + assert (new_scaling s1 (propose (S k + d) (asked s1)) = st_scaling s1) as ->.
      { unfold AccRej_Model.new_scaling. rewrite EQ. unfold estimates in HE. now destruct prob_max, weights_max. }
      field. split; lra.
Qed.

(** progress *)
Lemma loop_progress K : (forall k, K <= k -> progresses prob inside n numeric_checks prob_max weights_max propose binomial k) ->
  forall f k s, K <= k -> iterate k = Ok s -> n <= st_np s + f -> exists s', loop f k s = Ok (Some s').
Proof.
  intros HP. induction f as [|f IH]; intros k s HK E HN; cbn.
  - rewrite (proj2 (Nat.leb_le _ _)) by lia. eauto.
  - destruct (Nat.leb n (st_np s)); [eauto|]. destruct (HP k HK s E) as (s' & E' & HL). cbn in E'. rewrite E in E'. cbn in E'. rewrite E'. cbn.
    apply IH; [lia|cbn; now rewrite E|lia].
Qed.
Lemma loop_more K : (forall k, k <= K -> exists s, iterate k = Ok s) -> forall d f s, d <= K -> iterate (K - d) = Ok s ->
  (exists s', loop (d + f) (K - d) s = Ok (Some s')) \/ exists s1, iterate K = Ok s1 /\ loop (d + f) (K - d) s = loop f K s1.
Proof.
  intros HE. induction d as [|d IH]; intros f s HD E.
  - right. rewrite Nat.sub_0_r in *. eauto.
  - cbn. destruct (Nat.leb n (st_np s)); [left; eauto|].
    destruct (HE (S (K - S d))) as (s' & E'); [lia|]. pose proof E' as E2. cbn in E2. rewrite E in E2. cbn in E2. rewrite E2. cbn.
    replace (S (K - S d)) with (K - d) in * by lia. apply IH; [lia|exact E'].
Qed.

Lemma iterate_before k d s : iterate (k + d) = Ok s -> exists s0, iterate k = Ok s0.
Proof.
  revert s. induction d as [|d IH]; intros s E; [rewrite Nat.add_0_r in E; eauto|]. rewrite Nat.add_succ_r in E. cbn in E.
  destruct (iterate (k + d)) eqn:E1; [|discriminate]. eapply IH; eauto.
Qed.
End S.
