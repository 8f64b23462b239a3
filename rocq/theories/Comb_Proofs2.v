(** Proofs about combining several limits with spaces that have none. *)
From Verif Require Import Base BaseLemmas Coord_Model Coord_Spec Coord_Proofs Space_Model Space_Spec
  Space_Proofs Space_Proofs2 Space_Proofs3 Space_Proofs4 Space_Proofs5 Comb_Model Comb_Spec Comb_Proofs Data_Spec Data_Proofs Data_Proofs4.

Lemma union_ok (l r : list string) : NoDup l -> NoDup r ->
  NoDup (ordered_union String.eqb [l; r]) /\ forall o, In o (ordered_union String.eqb [l; r]) <-> In o l \/ In o r.
Proof.
  intros Hl Hr. rewrite (Comb_Proofs.union_two l r Hl Hr). split.
  - assert (H : forall o, In o (filter (fun o => negb (mem String.eqb o l)) r) -> ~ In o l).
    { intros o Ho C. apply filter_In in Ho. destruct Ho as [_ Ho]. apply (mem_In _ string_eqb_ok) in C. rewrite C in Ho. discriminate Ho. }
    pose proof (NoDup_filter (fun o => negb (mem String.eqb o l)) Hr) as Hf. revert H Hf.
    generalize (filter (fun o => negb (mem String.eqb o l)) r). clear Hr. intros f H Hf.
    induction Hl as [|x l Hx Hl IH]; [exact Hf|]. cbn [app]. constructor.
    + intros C. apply in_app_iff in C. destruct C as [C|C]; [exact (Hx C)|]. apply (H x C). left. reflexivity.
    + apply IH. intros o Ho C. apply (H o Ho). right. exact C.
  - intros o. rewrite in_app_iff, filter_In. split; [tauto|]. intros [H|H]; [left; exact H|].
    destruct (mem String.eqb o l) eqn:E; [left; apply (mem_In _ string_eqb_ok), E|right; split; [exact H|reflexivity]].
Qed.
Lemma combine_plain os1 a b A z1 s2 : has_parts os1 (a :: b :: A) z1 -> plain_space s2 ->
  combine_zspaces [z1; ZSimple s2] = Err LimitsNotSpecifiedError /\ combine_zspaces [ZSimple s2; z1] = Err LimitsNotSpecifiedError.
Proof.
  intros P1 PL. destruct (plain_sp s2 PL) as [os2 S2].
  assert (G : exists k, sp_ok s2 os2 k /\ (k = KN \/ k = KF)) by (destruct S2; eauto). clear S2. destruct G as [k [S2 K]].
  assert (Z1 : exists m, z1 = ZMulti m) by (destruct P1 as [[[s [E _]]|[_ ->]] _]; [discriminate E|eauto]). destruct Z1 as [m EZ].
  pose proof P1 as [_ K1]. pose proof (K1 a (or_introl eq_refl)) as Ka. pose proof (okp_wf _ _ Ka) as W1.
  destruct W1 as [[_ [N1 [NE1 _]]] _]. pose proof S2 as [Ho [N2 [NE2 [_ [_ B2]]]]].
  assert (B2' : z_is_binned (ZSimple s2) = false) by (cbn; unfold is_binned; rewrite B2; reflexivity).
  assert (O2 : z_obs (ZSimple s2) = Some os2) by exact Ho.
  assert (R1 : forall l, (forall o, In o os1 -> In o l) -> req_ok os1 l true true).
  { intros l H. split; [|split; discriminate]. destruct os1 as [|o os1]; [congruence|]. exists o. split; [apply H|]; left; reflexivity. }
  assert (R2 : forall l, (forall o, In o os2 -> In o l) -> req_ok os2 l true true).
  { intros l H. split; [|split; discriminate]. destruct os2 as [|o os2]; [congruence|]. exists o. split; [apply H|]; left; reflexivity. }
  assert (Q : forall l, NoDup l -> (forall o, In o os1 -> In o l) -> (forall o, In o os2 -> In o l) ->
     exists z1' s2', z_with_obs z1 (Some l) true true = Ok z1' /\ z_with_obs (ZSimple s2) (Some l) true true = Ok (ZSimple s2')
       /\ z_limits_are_set z1' = true /\ z_limits_are_false z1' = false
       /\ z_limits_are_set (ZSimple s2') = match k with KN => false | _ => true end
       /\ z_limits_are_false (ZSimple s2') = match k with KF => true | _ => false end).
  { intros l Hl H1 H2. destruct (z_with_obs_parts _ _ _ l P1 Hl (R1 l H1)) as [z1' [ss [E1 [Q1 _]]]].
    destruct (sp_with_obs _ _ _ l true true S2 Hl (R2 l H2)) as [s2' [c [_ [E2 [S2' _]]]]].
    destruct (parts_flags _ _ _ Q1) as [G1 G2]. destruct (sp_flags _ _ _ S2') as [F1 F2].
    exists z1', s2'. split; [exact E1|]. split; [cbn [z_with_obs]; rewrite E2; reflexivity|]. split; [exact G1|]. split; [exact G2|].
    unfold z_limits_are_set, z_limits_are_false. cbn [z_iter forallb]. rewrite !andb_true_r. split; assumption. }
  split; unfold combine_zspaces.
  - replace (all_some (map (fun z => match z with ZSimple s => Some s | ZMulti _ => None end) [z1; ZSimple s2])) with (@None (list space)) by (rewrite EZ; reflexivity).
    cbn [map]. rewrite O2, (parts_obs _ _ _ P1) by discriminate. cbn [all_some]. cbv zeta.
    cbn [forallb existsb]. rewrite (parts_unbinned _ _ _ P1), B2'. cbn [andb orb negb].
    destruct (union_ok os1 os2 N1 N2) as [UN UI]. destruct (Q _ UN) as (z1'&s2'&E1&E2&G1&G2&F1&F2); [intros o H; apply UI; tauto..|].
    cbn [mapM]. rewrite E1, E2. cbn [bind forallb]. unfold z_has_limits. rewrite G1, G2, F1, F2.
    destruct K as [-> | ->]; reflexivity.
  - replace (all_some (map (fun z => match z with ZSimple s => Some s | ZMulti _ => None end) [ZSimple s2; z1])) with (@None (list space)) by (rewrite EZ; reflexivity).
    cbn [map]. rewrite O2, (parts_obs _ _ _ P1) by discriminate. cbn [all_some]. cbv zeta.
    cbn [forallb existsb]. rewrite (parts_unbinned _ _ _ P1), B2'. cbn [andb orb negb].
    destruct (union_ok os2 os1 N2 N1) as [UN UI]. destruct (Q _ UN) as (z1'&s2'&E1&E2&G1&G2&F1&F2); [intros o H; apply UI; tauto..|].
    cbn [mapM]. rewrite E1, E2. cbn [bind forallb]. unfold z_has_limits. rewrite G1, G2, F1, F2.
    destruct K as [-> | ->]; reflexivity.
Qed.
Lemma combine_binned os1 a b A z1 s2 os2 e : has_parts os1 (a :: b :: A) z1 -> s_obs s2 = Some os2 -> s_binning s2 = Some e ->
  combine_zspaces [z1; ZSimple s2] = Err ValueError /\ combine_zspaces [ZSimple s2; z1] = Err ValueError.
Proof.
  intros P1 O2 B2. assert (Z1 : exists m, z1 = ZMulti m) by (destruct P1 as [[[s [E _]]|[_ ->]] _]; [discriminate E|eauto]). destruct Z1 as [m EZ].
  assert (B2' : z_is_binned (ZSimple s2) = true) by (cbn; unfold is_binned; rewrite B2; reflexivity).
  assert (O2' : z_obs (ZSimple s2) = Some os2) by exact O2.
  split; unfold combine_zspaces.
  - replace (all_some (map (fun z => match z with ZSimple s => Some s | ZMulti _ => None end) [z1; ZSimple s2])) with (@None (list space)) by (rewrite EZ; reflexivity).
    cbn [map]. rewrite O2', (parts_obs _ _ _ P1) by discriminate. cbn [all_some]. cbv zeta.
    cbn [forallb existsb]. rewrite (parts_unbinned _ _ _ P1), B2'. reflexivity.
  - replace (all_some (map (fun z => match z with ZSimple s => Some s | ZMulti _ => None end) [ZSimple s2; z1])) with (@None (list space)) by (rewrite EZ; reflexivity).
    cbn [map]. rewrite O2', (parts_obs _ _ _ P1) by discriminate. cbn [all_some]. cbv zeta.
    cbn [forallb existsb]. rewrite (parts_unbinned _ _ _ P1), B2'. reflexivity.
Qed.
