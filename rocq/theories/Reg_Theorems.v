(** Theorems about the registered analytic integrals (C37). *)
From Verif Require Import Base BaseLemmas Reg_Model Reg_Spec Reg_Proofs.
From Coq Require Import Lqa.
#[local] Open Scope nat_scope.

(** Whatever was registered before: an integral that is found was registered, for exactly the axes of the
    request, and its limits allow the requested ones. *)
Theorem C37_found_was_registered : forall h req i,
  Forall (fun j => box_ok (i_limits j)) h ->
  find_integral (register_all h) [req] = Some i ->
  In i h /\ allows req (i_limits i).
Proof.
  intros h req i Hb H. rewrite find_integral_ok in H. destruct (best_spec _ _ H) as [Hi _].
  unfold allowed in Hi. apply filter_In in Hi. destruct Hi as [Hi Hl]. apply slot_values in Hi. split; [exact Hi|].
  apply box_le_iff; [|exact Hl]. rewrite Forall_forall in Hb. apply Hb, Hi.
Qed.

(** If all registered limits are told apart, the one found has the highest priority among all that allow
    the request, and is the first registered of those with this priority; and there is one as
    soon as one allows the request. Missing: histories in which a registration equals an
    earlier one up to wildcards and tolerance, see the refutations below. *)
Theorem C37_highest_priority_partial : forall h req i,
  Forall (fun j => box_ok (i_limits j)) h -> all_apart h ->
  find_integral (register_all h) [req] = Some i ->
  exists h1 h2, h = h1 ++ i :: h2 /\
    (forall j, In j h1 -> allows req (i_limits j) -> (i_prio j < i_prio i)%Q) /\
    (forall j, In j h2 -> allows req (i_limits j) -> (i_prio j <= i_prio i)%Q).
Proof.
  intros h req i Hb Ha H. rewrite find_integral_ok, allowed_history in H by auto.
  destruct (best_spec _ _ H) as [_ [Hall [l1 [l2 [E Hlt]]]]].
  destruct (filter_split _ _ _ _ _ E) as [h1 [h2 [E1 E2]]]. exists h1, h2. split; [exact E1|]. rewrite Forall_forall in Hb. split.
  - intros j Hj Haj. apply Hlt. rewrite <- E2. apply filter_In. split; [exact Hj|].
    apply box_le_iff; [|exact Haj]. apply Hb. rewrite E1. apply in_or_app. auto.
  - intros j Hj Haj. apply Hall. apply filter_In. assert (In j h) by (rewrite E1; apply in_or_app; simpl; auto).
    split; [assumption|]. apply box_le_iff; [|exact Haj]. apply Hb. assumption.
Qed.
Theorem C37_found_if_any_allows_partial : forall h req j,
  Forall (fun j => box_ok (i_limits j)) h -> all_apart h ->
  In j h -> allows req (i_limits j) -> exists i, find_integral (register_all h) [req] = Some i.
Proof.
  intros h req j Hb Ha Hj Haj. rewrite find_integral_ok, allowed_history by auto.
  assert (X : In j (filter (fun i => box_le req (i_limits i)) h)).
  { apply filter_In. split; [exact Hj|]. apply box_le_iff; [|exact Haj]. rewrite Forall_forall in Hb. auto. }
  destruct (filter _ h); [contradiction|]. eexists. reflexivity.
Qed.

(** The integral registered last is always considered: where its limits allow the request one of at
    least its priority is found. In particular one registered last for all limits (wildcards)
    makes every request over its axes succeed. *)
Theorem C37_last_considered : forall h i req,
  box_ok (i_limits i) -> allows req (i_limits i) ->
  exists j, find_integral (register_all (h ++ [i])) [req] = Some j /\ (i_prio i <= i_prio j)%Q.
Proof.
  intros h i req Hb Ha. rewrite find_integral_ok.
  assert (X : In i (allowed (slot_for (register_all (h ++ [i])) (axes_of req)) req)).
  { unfold allowed. apply filter_In. split; [|apply box_le_iff; assumption].
    rewrite register_all_snoc, register_slot.
    replace (set_eqb Nat.eqb (axes_of (i_limits i)) (axes_of req)) with true; [apply slot_set_has|].
    symmetry. rewrite axes_eqb_sym. apply axes_eqb. apply (proj1 Ha). }
  destruct (best _) as [j|] eqn:E.
  - exists j. split; [reflexivity|]. apply (best_spec _ _ E), X.
  - destruct (allowed _ _); [contradiction|discriminate E].
Qed.
Theorem C37_any_limits : forall h i req,
  box_ok (i_limits i) -> same_axes req (i_limits i) ->
  (forall a lo up, In (a, (lo, up)) (i_limits i) -> lo = Any /\ up = Any) ->
  exists j, find_integral (register_all (h ++ [i])) [req] = Some j.
Proof.
  intros h i req Hb Hs Hany. destruct (C37_last_considered h i req Hb) as [j [H _]]; [|eauto].
  split; [exact Hs|]. intros a lo up lo' up' _ H. destruct (Hany a lo' up' H) as [-> ->].
  destruct lo, up; simpl; auto.
Qed.

(** Registering again for the same limits replaces the integral whatever the priorities; a wildcard
    counts as the same as any bound. *)
Theorem C37_registered_again : forall i j req,
  box_ok (i_limits i) -> box_ok (i_limits j) -> same_axes (i_limits i) (i_limits j) ->
  (forall a lo up lo' up', In (a, (lo, up)) (i_limits i) -> In (a, (lo', up')) (i_limits j) ->
     (lo = Any \/ lo' = Any \/ lo = lo') /\ (up = Any \/ up' = Any \/ up = up')) ->
  allows req (i_limits j) ->
  find_integral (register_all [i; j]) [req] = Some j.
Proof.
  intros i j req Hi Hj Hs He Ha. rewrite find_integral_ok.
  assert (E : box_eq (i_limits i) (i_limits j) = true).
  { assert (Q0 : forall q, (Qabs' (q - q) == 0)%Q) by (intro q; unfold Qabs'; destruct (Qle_bool 0 (q - q)); ring).
    assert (P : forall q, (0 <= Qabs' q)%Q).
    { intro q. unfold Qabs'. destruct (Qle_bool 0 q) eqn:E; [apply Qle_bool_iff, E|].
      assert (~ (0 <= q)%Q) by (rewrite <- Qle_bool_iff; congruence). lra. }
    assert (C : forall x y, x = Any \/ y = Any \/ x = y -> bound_close x y = true).
    { intros [|x] [|y] H; try reflexivity. destruct H as [H|[H|H]]; try discriminate H. injection H as ->. simpl.
      apply Qle_bool_iff. rewrite Q0. specialize (P y). lra. }
    assert (N : forall x y, x <> Any -> y <> Any -> x = y -> bound_near x y = true).
    { intros [|x] [|y] H1 H2 H; try congruence. injection H as ->. simpl. unfold Qlt_bool'. apply negb_true_iff.
      destruct (Qle_bool _ _) eqn:E; [|reflexivity]. apply Qle_bool_iff in E. rewrite Q0 in E. lra. }
    unfold box_eq. destruct (has_any (i_limits i) || has_any (i_limits j)) eqn:Ea; apply on_axes_iff; auto; (split; [exact Hs|]);
      intros a [lo up] [lo' up'] H1 H2; destruct (He a lo up lo' up' H1 H2) as [El Eu]; simpl; apply andb_true_iff; auto.
    apply orb_false_iff in Ea. destruct Ea as [A1 A2].
    assert (G : forall b a0 x y, has_any b = false -> In (a0, (x, y)) b -> x <> Any /\ y <> Any).
    { intros b a0 x y Hb Hin. destruct x as [|x], y as [|y]; (split; [|]); try discriminate; intros _;
      assert (T : has_any b = true) by (apply existsb_exists; eexists; split; [exact Hin|reflexivity]); congruence. }
    destruct (G _ _ _ _ A1 H1), (G _ _ _ _ A2 H2).
    split; apply N; auto; intuition congruence. }
  change [i; j] with ([i] ++ [j]). rewrite register_all_snoc, register_slot. change [i] with ([] ++ [i]).
  rewrite register_all_snoc, register_slot. cbn [register_all fold_left slot_for find new_registry].
  assert (E1 : set_eqb Nat.eqb (axes_of (i_limits j)) (axes_of req) = true).
  { apply axes_eqb. intro x. destruct Ha as [Ha _]. specialize (Ha x). unfold axes_of. tauto. }
  assert (E2 : set_eqb Nat.eqb (axes_of (i_limits i)) (axes_of req) = true).
  { rewrite <- E1. apply axes_eqb_trans. rewrite axes_eqb_sym. apply axes_eqb. exact Hs. }
  rewrite E1, E2. cbn [slot_set]. rewrite E. unfold allowed. cbn [map filter snd].
  rewrite (proj2 (box_le_iff req (i_limits j) Hj) Ha). reflexivity.
Qed.

(** A request for several limits never finds one (even though each of them would). *)
Theorem C37_several_limits_none : forall reg b1 b2 bs, find_integral reg (b1 :: b2 :: bs) = None.
Proof. reflexivity. Qed.

Definition box1 (lo up : Q) : box := [(0, (Num lo, Num up))].
Definition any1 : box := [(0, (Any, Any))].

(** What is required is not that the requested limits are contained in the registered ones: an integral for
    [0, 10] is not used for [2, 5], but used for [-5, 5]. *)
Theorem C37_contained_refuted : exists i inside outside,
  box_ok (i_limits i) /\
  contained inside (i_limits i) /\ find_integral (register_all [i]) [inside] = None /\
  ~ contained outside (i_limits i) /\ find_integral (register_all [i]) [outside] = Some i.
Proof.
  exists (mkIntegral (box1 0 10) 50 1), (box1 2 5), (box1 (-5) 5).
  split; [repeat constructor; simpl; tauto|]. split.
  - split; [intro a; simpl; tauto|]. intros a lo up lo' up' [E|[]] [E'|[]]. injection E as <- <- <-. injection E' as <- <-.
    split; discriminate.
  - split; [reflexivity|]. split; [|reflexivity].
    intros [_ H]. destruct (H 0 (-5)%Q 5%Q 0%Q 10%Q) as [H0 _]; simpl; auto.
Qed.
(** A later registration with lower priority replaces an earlier one if one of them is for all
    limits; the replaced one is then missing where only it applied. *)
Theorem C37_overwritten_refuted : exists i j inside outside,
  (i_prio j < i_prio i)%Q /\ allows inside (i_limits i) /\ allows outside (i_limits i) /\
  find_integral (register_all [i; j]) [inside] = Some j /\
  find_integral (register_all [i; j]) [outside] = None.
Proof.
  exists (mkIntegral any1 50 1), (mkIntegral (box1 0 1) 10 2), (box1 0 (1#2)), (box1 5 6).
  split; [reflexivity|]. split; [|split].
  - split; [intro a; simpl; tauto|]. intros a lo up lo' up' _ [E|[]]. injection E as <- <- <-. destruct lo, up; simpl; auto.
  - split; [intro a; simpl; tauto|]. intros a lo up lo' up' _ [E|[]]. injection E as <- <- <-. destruct lo, up; simpl; auto.
  - split; reflexivity.
Qed.

(** Non-vacuity: three integrals over two sets of axes, all told apart *)
Definition ex_h : list integral :=
  [ mkIntegral (box1 0 1) 50 1; mkIntegral [(1%nat, (Num 0, Num 3)); (0%nat, (Any, Num 2))] 70 2; mkIntegral (box1 0 2) 60 3 ]%Q.
Example ex_h_ok : Forall (fun j => box_ok (i_limits j)) ex_h /\ all_apart ex_h.
Proof.
  split; [repeat constructor; simpl; intuition discriminate|].
  repeat split.
  - intros j [<-|[<-|[]]].
    + left. intro H. destruct (H 1) as [_ H']. simpl in H'. destruct H'; auto; discriminate.
    + right. exists 0, (Num 0), (Num 1), (Num 0), (Num 2). split; [simpl; auto|]. split; [simpl; auto|].
      right. reflexivity.
  - intros j [<-|[]]. left. intro H. destruct (H 1) as [H' _]. simpl in H'. destruct H'; auto; discriminate.
  - intros j [].
Qed.
Example C37_ex : find_integral (register_all ex_h) [box1 0 1] = Some (mkIntegral (box1 0 2) 60 3).
Proof. reflexivity. Qed.
Example C37_ex2 : option_map i_func (find_integral (register_all ex_h) [[(0, (Num (-1), Num 2)); (1, (Num (-1), Num 3))]]) = Some 2.
Proof. reflexivity. Qed.

Example C37_registered_again_ex : find_integral (register_all [mkIntegral any1 50 1; mkIntegral (box1 0 1) 10 2]) [box1 0 1] = Some (mkIntegral (box1 0 1) 10 2).
Proof.
  apply C37_registered_again.
  - repeat constructor; simpl; tauto.
  - repeat constructor; simpl; tauto.
  - intro a. simpl. tauto.
  - intros a lo up lo' up' [E|[]] _. injection E as <- <- <-. auto.
  - split; [intro a; simpl; tauto|].
    intros a lo up lo' up' [E|[]] [E'|[]]. injection E as <- <- <-. injection E' as <- <-. simpl. split; apply Qle_refl.
Qed.

Print Assumptions C37_found_was_registered.
Print Assumptions C37_highest_priority_partial.
Print Assumptions C37_found_if_any_allows_partial.
Print Assumptions C37_last_considered.
Print Assumptions C37_any_limits.
Print Assumptions C37_registered_again.
Print Assumptions C37_several_limits_none.
Print Assumptions C37_contained_refuted.
Print Assumptions C37_overwritten_refuted.
