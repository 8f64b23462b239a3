(** Proofs about parameters and temporary settings. *)
From Coq Require Import Lqa.
From Verif Require Import Base BaseLemmas Param_Model Param_Spec.

(* ---------- numbers ---------- *)
Lemma num_le_spec a b : num_le a b = true <-> le_num a b.
Proof.
  split.
  - destruct a as [x| | |], b as [y| | |]; simpl; intros H; try discriminate; try (constructor; discriminate).
    constructor. apply Qle_bool_iff, H.
  - intros H. destruct H as [x y H|b H|a H]; simpl.
    + apply Qle_bool_iff, H.
    + destruct b; try reflexivity. congruence.
    + destruct a; try reflexivity. congruence.
Qed.
Lemma num_le_false a b : a <> NaN -> b <> NaN -> num_le a b = false -> le_num b a.
Proof.
  destruct a as [x| | |], b as [y| | |]; simpl; intros Ha Hb H; try congruence; try (constructor; discriminate).
  constructor. assert (~ (x <= y)%Q) by (intros C; apply Qle_bool_iff in C; congruence). lra.
Qed.
Lemma le_num_trans a b c : le_num a b -> le_num b c -> le_num a c.
Proof.
  intros H H'. inversion H; subst; inversion H'; subst; try (constructor; congruence); try congruence.
  constructor. lra.
Qed.
Lemma num_min_cases a b : a <> NaN -> b <> NaN ->
  (num_le a b = true /\ num_min a b = a) \/ (num_le a b = false /\ num_min a b = b).
Proof. intros Ha Hb. unfold num_min. destruct a, b; try congruence; destruct num_le; auto. Qed.
Lemma num_max_cases a b : a <> NaN -> b <> NaN ->
  (num_le b a = true /\ num_max a b = a) \/ (num_le b a = false /\ num_max a b = b).
Proof. intros Ha Hb. unfold num_max. destruct a, b; try congruence; destruct num_le; auto. Qed.
Lemma lower_not_nan p : lower_of p <> NaN. Proof. unfold lower_of. destruct (p_lower p); discriminate. Qed.
Lemma upper_not_nan p : upper_of p <> NaN. Proof. unfold upper_of. destruct (p_upper p); discriminate. Qed.

Lemma value_nan p : p_raw p = NaN -> p_value p = NaN.
Proof. intros E. unfold p_value. rewrite E. destruct (has_limits p); [|reflexivity]. simpl. unfold num_max. reflexivity. Qed.

Lemma no_limits p : has_limits p = false -> p_lower p = None /\ p_upper p = None.
Proof. unfold has_limits. destruct (p_lower p), (p_upper p); try discriminate; auto. Qed.

Lemma le_lower_num p v : v <> NaN -> (le_num (lower_of p) v <-> forall l, p_lower p = Some l -> le_num (Fin l) v).
Proof.
  intros Hv. unfold lower_of. destruct (p_lower p) as [q|]; split.
  - intros H l E. inversion E; subst. exact H. - intros H. apply H. reflexivity.
  - discriminate. - intros _. constructor. exact Hv.
Qed.
Lemma le_upper_num p v : v <> NaN -> (le_num v (upper_of p) <-> forall l, p_upper p = Some l -> le_num v (Fin l)).
Proof.
  intros Hv. unfold upper_of. destruct (p_upper p) as [q|]; split.
  - intros H l E. inversion E; subst. exact H. - intros H. apply H. reflexivity.
  - discriminate. - intros _. constructor. exact Hv.
Qed.

Lemma in_limits_le p v : v <> NaN -> (in_limits p v <-> le_num (lower_of p) v /\ le_num v (upper_of p)).
Proof. intros Hv. unfold in_limits. rewrite (le_lower_num p v Hv), (le_upper_num p v Hv). tauto. Qed.
Lemma ordered_le p : ordered_limits p -> le_num (lower_of p) (upper_of p).
Proof.
  intros H. unfold lower_of, upper_of. destruct (p_lower p) as [l|] eqn:El, (p_upper p) as [u|] eqn:Eu; constructor; try discriminate.
  apply H; assumption.
Qed.

Lemma value_clipped p : ordered_limits p -> p_raw p <> NaN -> clipped p (p_raw p) (p_value p).
Proof.
  intros Ho Hn. unfold p_value. destruct (has_limits p) eqn:Hl.
  2:{ left. split; [|reflexivity]. apply no_limits in Hl. destruct Hl as [E1 E2]. split; intros q E; congruence. }
  destruct (num_min_cases (p_raw p) (upper_of p) Hn (upper_not_nan p)) as [[E ->]|[E ->]].
  - destruct (num_max_cases (p_raw p) (lower_of p) Hn (lower_not_nan p)) as [[E' ->]|[E' ->]].
    + left. split; [|reflexivity]. apply in_limits_le; [exact Hn|]. split; apply num_le_spec; assumption.
    + right. left. unfold lower_of in *. destruct (p_lower p) as [l|]; [|destruct (p_raw p); try discriminate; congruence].
      exists l. split; [reflexivity|]. split; [|reflexivity]. intros C. apply num_le_spec in C. congruence.
  - pose proof (ordered_le p Ho) as HL. apply num_le_spec in HL.
    destruct (num_max_cases (upper_of p) (lower_of p) (upper_not_nan p) (lower_not_nan p)) as [[E' ->]|[E' ->]]; [|congruence].
    right. right. unfold upper_of in *. destruct (p_upper p) as [u|]; [|destruct (p_raw p); try discriminate; congruence].
    exists u. split; [reflexivity|]. split; [|reflexivity]. intros C. apply num_le_spec in C. congruence.
Qed.
Lemma clipped_in_limits p v r : ordered_limits p -> v <> NaN -> clipped p v r -> in_limits p r.
Proof.
  intros Ho Hv [[H ->]|[[l [El [Hn ->]]]|[u [Eu [Hn ->]]]]].
  - exact H.
  - split; intros q E; constructor; [rewrite E in El; inversion El; subst; lra|apply (Ho l q El E)].
  - split; intros q E; constructor; [apply (Ho q u E Eu)|rewrite E in Eu; inversion Eu; subst; lra].
Qed.
Lemma value_in_limits p : ordered_limits p -> p_raw p <> NaN -> in_limits p (p_value p).
Proof. intros Ho Hn. eapply clipped_in_limits; [exact Ho|exact Hn|apply value_clipped; assumption]. Qed.
Lemma value_not_nan p : p_raw p <> NaN -> p_value p <> NaN.
Proof.
  intros Hn. unfold p_value. destruct (has_limits p); [|exact Hn].
  destruct (num_min_cases (p_raw p) (upper_of p) Hn (upper_not_nan p)) as [[_ ->]|[_ ->]].
  - destruct (num_max_cases (p_raw p) (lower_of p) Hn (lower_not_nan p)) as [[_ ->]|[_ ->]]; [exact Hn|apply lower_not_nan].
  - destruct (num_max_cases (upper_of p) (lower_of p) (upper_not_nan p) (lower_not_nan p)) as [[_ ->]|[_ ->]]; [apply upper_not_nan|apply lower_not_nan].
Qed.
(** Reading a clipped value again gives the same. *)
Lemma value_idem p : ordered_limits p -> p_value (with_raw p (p_value p)) = p_value p.
Proof.
  intros Ho. destruct (p_raw p) eqn:Er; try (
    assert (Hn : p_raw p <> NaN) by (rewrite Er; discriminate);
    pose proof (value_in_limits p Ho Hn) as [H1 H2];
    pose proof (value_not_nan p Hn) as Hv;
    pose proof (value_clipped (with_raw p (p_value p)) Ho Hv) as [[_ E]|[[l [El [C _]]]|[u [Eu [C _]]]]];
    [exact E|exfalso; apply C; apply H1; exact El|exfalso; apply C; apply H2; exact Eu]).
  rewrite (value_nan p Er). apply value_nan. reflexivity.
Qed.

(* ---------- the test of set_value ---------- *)
Lemma tol_spec p : ordered_limits p -> tolerance p (limit_tol p (1 # 100000) (1 # 10000000)).
Proof.
  intros Ho. unfold tolerance, limit_tol. destruct (p_lower p) as [l|] eqn:El, (p_upper p) as [u|] eqn:Eu; try reflexivity.
  pose proof (Ho l u El Eu) as H. destruct (Qle_bool 0 (u - l)) eqn:E0.
  2:{ exfalso. assert (~ (0 <= u - l)%Q) by (intros C; apply Qle_bool_iff in C; congruence). lra. }
  destruct (Qle_bool ((u - l) * (1 # 100000)) (1 # 10000000)) eqn:E.
  - apply Qle_bool_iff in E. split; intros H1; lra.
  - assert (C : ~ ((u - l) * (1 # 100000) <= 1 # 10000000)%Q) by (intros C; apply Qle_bool_iff in C; congruence).
    split; intros H1; lra.
Qed.
Lemma tol_unique p t t' : tolerance p t -> tolerance p t' -> (t == t')%Q.
Proof.
  unfold tolerance. destruct (p_lower p) as [l|], (p_upper p) as [u|]; intros H H'; [|lra|lra|lra].
  destruct H as [A B], H' as [A' B']. destruct (Qlt_le_dec (1 # 10000000) ((1 # 100000) * (u - l))) as [C|C].
  - assert (C' : (1 # 10000000 <= (1 # 100000) * (u - l))%Q) by lra. specialize (B C'). specialize (B' C'). lra.
  - specialize (A C). specialize (A' C). lra.
Qed.
Lemma tol_nonneg p : ordered_limits p -> (0 <= limit_tol p (1 # 100000) (1 # 10000000))%Q.
Proof.
  intros Ho. unfold limit_tol. destruct (p_lower p) as [l|] eqn:El, (p_upper p) as [u|] eqn:Eu; try lra.
  pose proof (Ho l u El Eu) as H. destruct (Qle_bool 0 (u - l)) eqn:E0.
  2:{ exfalso. assert (~ (0 <= u - l)%Q) by (intros C; apply Qle_bool_iff in C; congruence). lra. }
  destruct (Qle_bool ((u - l) * (1 # 100000)) (1 # 10000000)); [|reflexivity || discriminate]; lra.
Qed.
Lemma tol_pos p : (forall l u, p_lower p = Some l -> p_upper p = Some u -> (l < u)%Q) ->
  (0 < limit_tol p (1 # 100000) (1 # 10000000))%Q.
Proof.
  intros Ho. unfold limit_tol. destruct (p_lower p) as [l|] eqn:El, (p_upper p) as [u|] eqn:Eu; try lra.
  pose proof (Ho l u eq_refl eq_refl) as H. destruct (Qle_bool 0 (u - l)) eqn:E0.
  2:{ exfalso. assert (~ (0 <= u - l)%Q) by (intros C; apply Qle_bool_iff in C; congruence). lra. }
  destruct (Qle_bool ((u - l) * (1 # 100000)) (1 # 10000000)); [|reflexivity || discriminate]; lra.
Qed.

Lemma rejects_fin p q : ordered_limits p -> (rejects p (Fin q) = true <-> beyond p q).
Proof.
  intros Ho. unfold rejects, check_at_limit. set (t := limit_tol p (1 # 100000) (1 # 10000000)).
  pose proof (tol_spec p Ho) as Ht. fold t in Ht. destruct (has_limits p) eqn:Hl; simpl negb.
  - cbn [andb]. rewrite orb_true_iff, !num_le_spec. split.
    + intros [H|H]; exists t; (split; [exact Ht|]); [left|right].
      * unfold lower_of in H. destruct (p_lower p) as [l|]; simpl in H; inversion H; subst; try congruence. exists l. split; [reflexivity|lra].
      * unfold upper_of in H. destruct (p_upper p) as [l|]; simpl in H; inversion H; subst; try congruence. exists l. split; [reflexivity|lra].
    + intros [t' [Ht' [[l [El H]]|[u [Eu H]]]]]; pose proof (tol_unique p t t' Ht Ht') as Et; [left|right].
      * unfold lower_of. rewrite El. simpl. constructor. lra.
      * unfold upper_of. rewrite Eu. simpl. constructor. lra.
  - simpl. split; [discriminate|]. apply no_limits in Hl. destruct Hl as [E1 E2].
    intros [t' [_ [[l [El _]]|[u [Eu _]]]]]; congruence.
Qed.
Lemma rejects_inf p v : v = PInf \/ v = NInf -> rejects p v = has_limits p.
Proof.
  intros Hv. unfold rejects, check_at_limit. destruct (has_limits p) eqn:Hl; [|reflexivity]. simpl negb. cbn [andb].
  destruct Hv as [->| ->]; apply orb_true_iff; [right|left]; apply num_le_spec; constructor.
  - unfold upper_of. destruct (p_upper p); discriminate.
  - unfold lower_of. destruct (p_lower p); discriminate.
Qed.
Lemma rejects_nan p : rejects p NaN = false.
Proof.
  unfold rejects, check_at_limit. destruct (has_limits p); [|reflexivity]. simpl.
  unfold lower_of, upper_of. destruct (p_lower p), (p_upper p); reflexivity.
Qed.
Lemma rejects_raw p v w : rejects (with_raw p w) v = rejects p v.
Proof. reflexivity. Qed.
Lemma rejects_same p p' v : p_lower p' = p_lower p -> p_upper p' = p_upper p -> rejects p' v = rejects p v.
Proof.
  intros E1 E2. unfold rejects, check_at_limit, has_limits, limit_tol, lower_of, upper_of. rewrite E1, E2. reflexivity.
Qed.
Lemma value_same p p' : p_lower p' = p_lower p -> p_upper p' = p_upper p -> p_raw p' = p_raw p -> p_value p' = p_value p.
Proof. intros E1 E2 E3. unfold p_value, has_limits, lower_of, upper_of. rewrite E1, E2, E3. reflexivity. Qed.

(** A readable value can be set again. *)
Lemma room_ordered p : has_room p -> ordered_limits p.
Proof. intros [H _] l u E1 E2. specialize (H l u E1 E2). lra. Qed.
Lemma restorable p : has_room p -> rejects p (p_value p) = false.
Proof.
  intros Hr. pose proof (room_ordered p Hr) as Ho. destruct Hr as [Hlt Hinf].
  destruct (p_value p) as [q| | |] eqn:Ev.
  - destruct (rejects p (Fin q)) eqn:E; [|reflexivity]. exfalso.
    apply (rejects_fin p q Ho) in E. destruct E as [t [Ht H]].
    pose proof (tol_unique p _ t (tol_spec p Ho) Ht) as Et. pose proof (tol_pos p Hlt) as Hp.
    assert (Hn : p_raw p <> NaN) by (intros C; apply value_nan in C; congruence).
    pose proof (value_in_limits p Ho Hn) as [H1 H2]. rewrite Ev in *.
    destruct H as [[l [El H]]|[u [Eu H]]].
    + specialize (H1 l El). inversion H1; subst. lra.
    + specialize (H2 u Eu). inversion H2; subst. lra.
  - rewrite rejects_inf by auto. destruct (has_limits p) eqn:Hl; [|reflexivity]. exfalso.
    assert (X : p_lower p <> None \/ p_upper p <> None) by (unfold has_limits in Hl; destruct (p_lower p), (p_upper p); try discriminate; try (left; discriminate); right; discriminate).
    destruct (Hinf X); congruence.
  - rewrite rejects_inf by auto. destruct (has_limits p) eqn:Hl; [|reflexivity]. exfalso.
    assert (X : p_lower p <> None \/ p_upper p <> None) by (unfold has_limits in Hl; destruct (p_lower p), (p_upper p); try discriminate; try (left; discriminate); right; discriminate).
    destruct (Hinf X); congruence.
  - apply rejects_nan.
Qed.
Lemma accepted_room p v : has_room p -> rejects p v = false -> has_room (with_raw p v).
Proof.
  intros [Hlt _] Hr. split; [exact Hlt|]. simpl. intros Hl.
  assert (Ho : ordered_limits (with_raw p v)) by (intros l u E1 E2; specialize (Hlt l u E1 E2); lra).
  assert (Hhl : has_limits p = true) by (unfold has_limits; destruct (p_lower p), (p_upper p); try reflexivity; destruct Hl; congruence).
  destruct v as [q| | |].
  - assert (Hn : p_raw (with_raw p (Fin q)) <> NaN) by discriminate.
    destruct (value_clipped _ Ho Hn) as [[_ ->]|[[l [_ [_ ->]]]|[u [_ [_ ->]]]]]; split; discriminate.
  - rewrite rejects_inf in Hr by auto. congruence.
  - rewrite rejects_inf in Hr by auto. congruence.
  - rewrite value_nan by reflexivity. split; discriminate.
Qed.
