(** Proofs about the collection of parameters, part 2: losses, gradients, names. *)
From Verif Require Import Base BaseLemmas PGraph_Model PGraph_Spec PGraph_Proofs.

Lemma oset_from_snoc l p : forall seen,
  oset_from seen (l ++ [p]) = oset_from seen l ++ (if mem Nat.eqb (pid p) (map pid l ++ seen) then [] else [p]).
Proof.
  induction l as [|x l IH]; intros seen.
  - simpl. destruct (mem Nat.eqb (pid p) seen); reflexivity.
  - cbn [app oset_from map]. destruct (mem Nat.eqb (pid x) seen) eqn:E.
    + rewrite IH. f_equal.
      replace (mem Nat.eqb (pid p) (pid x :: map pid l ++ seen)) with (mem Nat.eqb (pid p) (map pid l ++ seen)); [reflexivity|].
      unfold mem at 2. cbn [existsb]. destruct (Nat.eqb (pid p) (pid x)) eqn:Ex; [|reflexivity]. apply Nat.eqb_eq in Ex.
      apply memb. apply in_app_iff. right. rewrite Ex. apply memb, E.
    + rewrite IH. cbn [app]. do 2 f_equal.
      replace (mem Nat.eqb (pid p) (pid x :: map pid l ++ seen)) with (mem Nat.eqb (pid p) (map pid l ++ pid x :: seen)); [reflexivity|].
      destruct (mem Nat.eqb (pid p) (map pid l ++ pid x :: seen)) eqn:E1; symmetry.
      * apply memb. apply memb in E1. apply in_app_iff in E1. simpl. rewrite in_app_iff. simpl in E1. tauto.
      * apply memb_false. apply memb_false in E1. intros C. apply E1. apply in_app_iff. simpl in C. rewrite in_app_iff in C. simpl. tauto.
Qed.
Lemma oset_snoc l p : oset (l ++ [p]) = oset l ++ (if mem Nat.eqb (pid p) (map pid l) then [] else [p]).
Proof. unfold oset. rewrite oset_from_snoc, app_nil_r. reflexivity. Qed.
Lemma oset_id_aux l : forall seen, NoDup (map pid l) -> (forall p, In p l -> ~ In (pid p) seen) -> oset_from seen l = l.
Proof.
  induction l as [|x l IH]; intros seen Hn Hs; [reflexivity|]. cbn [oset_from].
  replace (mem Nat.eqb (pid x) seen) with false by (symmetry; apply memb_false, Hs; left; reflexivity).
  cbn [map] in Hn. inversion Hn; subst. f_equal. apply IH; [assumption|]. intros p Hp [C|C]; [|apply (Hs p); [right; exact Hp|exact C]].
  apply H1. rewrite C. apply in_map, Hp.
Qed.
Lemma oset_idem l : oset (oset l) = oset l.
Proof. apply oset_id_aux; [apply oset_nodup|intros p _ []]. Qed.
Lemma oset_ids l n : In n (map pid (oset l)) <-> In n (map pid l).
Proof.
  split; intros H; apply in_map_iff in H; destruct H as [p [<- H]].
  - apply in_map, oset_sub, H.
  - destruct (oset_from_id l [] p H) as [q [H1 H2]]; [intros []|]. rewrite <- H2. apply in_map, H1.
Qed.
Lemma oset_app_l a b : oset (oset a ++ b) = oset (a ++ b).
Proof.
  induction b as [|p b IH] using rev_ind; [rewrite !app_nil_r; apply oset_idem|].
  rewrite !app_assoc, !oset_snoc, IH. f_equal.
  replace (mem Nat.eqb (pid p) (map pid (oset a ++ b))) with (mem Nat.eqb (pid p) (map pid (a ++ b))); [reflexivity|].
  assert (X : In (pid p) (map pid (oset a ++ b)) <-> In (pid p) (map pid (a ++ b))) by (rewrite !map_app, !in_app_iff, oset_ids; reflexivity).
  destruct (mem Nat.eqb (pid p) (map pid (a ++ b))) eqn:E; symmetry; [apply memb, X, memb, E|apply memb_false; rewrite X; apply memb_false, E].
Qed.
Lemma oset_first O l : same_objects O -> (forall p, In p l -> O p) -> first_appearances l (oset l).
Proof.
  intros HO. induction l as [|p l IH] using rev_ind; intros Hl; [constructor|].
  assert (Hl' : forall q, In q l -> O q) by (intros q Hq; apply Hl, in_app_iff; auto).
  assert (Hp : O p) by (apply Hl, in_app_iff; right; left; reflexivity).
  rewrite oset_snoc. destruct (mem Nat.eqb (pid p) (map pid l)) eqn:E.
  - rewrite app_nil_r. apply memb, in_map_iff in E. destruct E as [q [E Hq]]. assert (q = p) by (apply HO; auto). subst. apply fa_old; auto.
  - apply memb_false in E. apply fa_new; [auto|]. intros C. apply E, in_map, C.
Qed.

Section L.
Variable flt : nat -> bool.
Lemma mapM_In_iff ng fl yl ex ms r : forall O, same_objects O -> (forall m q, In m ms -> occurs m q -> O q) ->
  mapM (model_params flt ng fl yl ex) ms = Ok r ->
  (forall q, In q (concat r) <-> exists m, In m ms /\ gives (collected flt fl ex) ng yl m q) /\ (forall q, In q (concat r) -> O q).
Proof.
  intros O HO Hm E. apply mapM_ok in E.
  assert (H1 : forall q, In q (concat r) <-> exists m, In m ms /\ gives (collected flt fl ex) ng yl m q).
  { intros q. rewrite in_concat. split.
    - intros [x [Hx Hq]]. destruct (Forall2_In_r _ _ _ _ E Hx) as [m [Hi Em]]. exists m. split; [exact Hi|].
      apply (model_ok flt m O ng fl yl ex x HO (fun q => Hm m q Hi) Em), Hq.
    - intros [m [Hi Hg]]. destruct (Forall2_In_l _ _ _ _ E Hi) as [x [Hx Em]]. exists x. split; [exact Hx|].
      apply (model_ok flt m O ng fl yl ex x HO (fun q => Hm m q Hi) Em), Hg. }
  split; [exact H1|]. intros q Hq. apply H1 in Hq. destruct Hq as [m [Hi Hg]]. apply (Hm m q Hi). eapply gives_occurs, Hg.
Qed.

Lemma loss_ok l ng fl yl ex r : same_objects (loss_occurs l) -> loss_params flt l ng fl yl ex = Ok r ->
  NoDup (map pid r) /\ (forall q, In q r <->
    (exists m, In m (l_models l) /\ gives (collected flt fl ex) ng (if l_extended l then yl else Some false) m q)
    \/ (exists c, In c (l_constraints l) /\ gives (collected flt fl ex) ng (Some false) c q)).
Proof.
  intros HO E. unfold loss_params in E. set (yl' := if l_extended l then yl else Some false) in *.
  destruct (mapM (model_params flt ng fl yl' ex) (l_models l)) as [ms|e] eqn:Em; [|discriminate]. cbn [bind] in E.
  destruct (mapM (model_params flt ng fl (Some false) ex) (l_constraints l)) as [cs|e] eqn:Ec; [|discriminate]. cbn [bind] in E.
  apply Ok_inj in E. subst r. rewrite oset_app_l.
  destruct (mapM_In_iff _ _ _ _ _ _ (loss_occurs l) HO (fun m q Hi Ho => ex_intro _ m (conj (proj2 (in_app_iff _ _ _) (or_introl Hi)) Ho)) Em) as [M1 M2].
  destruct (mapM_In_iff _ _ _ _ _ _ (loss_occurs l) HO (fun m q Hi Ho => ex_intro _ m (conj (proj2 (in_app_iff _ _ _) (or_intror Hi)) Ho)) Ec) as [C1 C2].
  split; [apply oset_nodup|]. intros q. rewrite (oset_In (loss_occurs l)); [|exact HO|intros x Hx; apply in_app_iff in Hx; destruct Hx; auto].
  rewrite in_app_iff, M1, C1. reflexivity.
Qed.
Lemma loss_order l fl yl ex r : same_objects (loss_occurs l) -> loss_get_params flt l None fl yl ex = Ok r ->
  exists ms cs,
    Forall2 (fun m p => model_get_params flt m None fl (if l_extended l then yl else Some false) ex = Ok p) (l_models l) ms
    /\ Forall2 (fun c p => model_get_params flt c None fl (Some false) ex = Ok p) (l_constraints l) cs
    /\ first_appearances (concat ms ++ concat cs) r.
Proof.
  intros HO E. unfold loss_get_params, with_autograd, loss_params in E. set (yl' := if l_extended l then yl else Some false) in *.
  destruct (mapM (model_params flt false fl yl' ex) (l_models l)) as [ms|e] eqn:Em; [|discriminate]. cbn [bind] in E.
  destruct (mapM (model_params flt false fl (Some false) ex) (l_constraints l)) as [cs|e] eqn:Ec; [|discriminate]. cbn [bind] in E.
  apply Ok_inj in E. subst r. rewrite oset_app_l.
  destruct (mapM_In_iff _ _ _ _ _ _ (loss_occurs l) HO (fun m q Hi Ho => ex_intro _ m (conj (proj2 (in_app_iff _ _ _) (or_introl Hi)) Ho)) Em) as [M1 M2].
  destruct (mapM_In_iff _ _ _ _ _ _ (loss_occurs l) HO (fun m q Hi Ho => ex_intro _ m (conj (proj2 (in_app_iff _ _ _) (or_intror Hi)) Ho)) Ec) as [C1 C2].
  exists ms, cs. split; [apply mapM_ok, Em|]. split; [apply mapM_ok, Ec|].
  apply (oset_first (loss_occurs l)); [exact HO|]. intros p Hp. apply in_app_iff in Hp. destruct Hp; auto.
Qed.

Lemma autograd_ok m fl yl ex l : same_objects (occurs m) -> model_get_params flt m (Some true) fl yl ex = Ok l ->
  NoDup (map pid l) /\ forall q, In q l <->
    gives (collected flt fl ex) false yl m q /\ ~ gives (collected flt None None) true None m q.
Proof.
  intros HO E. unfold model_get_params, with_autograd in E.
  destruct (model_params flt false fl yl ex m) as [a|e] eqn:Ea; [|discriminate]. cbn [bind] in E.
  destruct (model_params flt true None None None m) as [g|e] eqn:Eg; [|discriminate]. cbn [bind] in E. apply Ok_inj in E. subst l.
  destruct (model_ok flt m (occurs m) _ _ _ _ _ HO (fun q H => H) Ea) as [A1 A2].
  destruct (model_ok flt m (occurs m) _ _ _ _ _ HO (fun q H => H) Eg) as [G1 G2].
  split; [apply ominus_nodup, A1|]. intros q. rewrite (ominus_In (occurs m)); [|exact HO| |].
  - rewrite A2, G2. reflexivity.
  - intros x Hx. apply A2 in Hx. eapply gives_occurs, Hx.
  - intros x Hx. apply G2 in Hx. eapply gives_occurs, Hx.
Qed.
Lemma no_error m yl : yl <> Some true -> forall fl, exists l, model_get_params flt m None fl yl (Some true) = Ok l.
Proof.
  intros Hy fl. unfold model_get_params, with_autograd. destruct (model_params flt false fl yl (Some true) m) as [l|e] eqn:E; [eauto|].
  apply model_err in E. destruct E as [[_ [C _]]|[_ [_ [C _]]]]; congruence.
Qed.
Lemma error_iff m fl yl ex : same_objects (occurs m) ->
  ((exists e, model_get_params flt m None fl yl ex = Err e) <->
   (yl = Some true /\ a_pdf m /\ ~ extended m) \/ (fl <> None /\ ex <> Some true /\ exists d, uses false yl m d /\ ~ independent d)).
Proof.
  intros HO. split.
  - intros [e E]. apply model_err in E. destruct E as [[_ H]|[_ H]]; auto.
  - intros H. exact (model_err_conv flt m (occurs m) yl fl ex HO (fun q Hq => Hq) H).
Qed.

(* names *)
Lemma names_unique_spec (name : nat -> string) l : names_unique name l = true -> NoDup (map pid l) ->
  forall p q, In p l -> In q l -> name (pid p) = name (pid q) -> pid p = pid q.
Proof.
  intros H Hn p q Hp Hq E. unfold names_unique in H. rewrite forallb_forall in H. pose proof (H p Hp) as Hc. apply Nat.eqb_eq in Hc.
  destruct (Nat.eq_dec (pid p) (pid q)) as [X|X]; [exact X|exfalso].
  assert (G : forall l, In p l -> In q l -> 2 <= count_occ string_dec (map (fun q => name (pid q)) l) (name (pid p))).
  { clear - E X. assert (G1 : forall l x, In x l -> name (pid x) = name (pid p) -> 1 <= count_occ string_dec (map (fun q => name (pid q)) l) (name (pid p))).
    { intros l x Hx Ex. apply (count_occ_In string_dec). apply in_map_iff. exists x. auto. }
    induction l as [|x l IH]; [intros []|]. intros Hp Hq. cbn [map count_occ]. destruct (string_dec (name (pid x)) (name (pid p))) as [Ex|Ex].
    - destruct Hp as [->|Hp].
      + destruct Hq as [->|Hq]; [congruence|]. specialize (G1 l q Hq (eq_sym E)). lia.
      + specialize (G1 l p Hp eq_refl). lia.
    - destruct Hp as [->|Hp]; [congruence|]. destruct Hq as [->|Hq]; [congruence|]. auto. }
  specialize (G l Hp Hq). lia.
Qed.
Lemma model_names name m : same_objects (occurs m) -> assert_model_unique name flt m = Ok tt ->
  forall p q, gives (collected flt None (Some true)) false None m p -> gives (collected flt None (Some true)) false None m q ->
    name (pid p) = name (pid q) -> p = q.
Proof.
  intros HO H p q Hp Hq E. unfold assert_model_unique, assert_unique in H.
  destruct (model_get_params flt m None None None None) as [l|] eqn:El; [|discriminate]. cbn [bind] in H.
  destruct (names_unique name l) eqn:Eu; [|discriminate]. unfold model_get_params, with_autograd in El.
  destruct (model_ok flt m (occurs m) _ _ _ _ _ HO (fun q H => H) El) as [A1 A2].
  assert (W : forall yl m x, gives (collected flt None (Some true)) false yl m x -> gives (collected flt None None) false yl m x).
  { intros yl m0 x Hx. induction Hx.
    - eapply g_yield; try eassumption. destruct H2. split; auto.
    - eapply g_own; try eassumption. destruct H3. split; auto.
    - eapply g_sub; eassumption. }
  apply HO; [eapply gives_occurs, Hp|eapply gives_occurs, Hq|]. eapply names_unique_spec; try eassumption; apply A2, W; assumption.
Qed.
Lemma loss_names name l : same_objects (loss_occurs l) -> assert_loss_unique name flt l = Ok tt ->
  forall r, loss_get_params flt l None None None (Some true) = Ok r ->
  forall p q, In p r -> In q r -> name (pid p) = name (pid q) -> p = q.
Proof.
  intros HO H r Er p q Hp Hq E. unfold assert_loss_unique, assert_unique in H.
  destruct (loss_get_params flt l None None None None) as [a|] eqn:El; [|discriminate]. cbn [bind] in H.
  destruct (names_unique name a) eqn:Eu; [|discriminate]. unfold loss_get_params, with_autograd in El, Er.
  destruct (loss_ok l _ _ _ _ _ HO El) as [A1 A2]. destruct (loss_ok l _ _ _ _ _ HO Er) as [B1 B2].
  assert (W : forall yl m x, gives (collected flt None (Some true)) false yl m x -> gives (collected flt None None) false yl m x).
  { intros yl m0 x Hx. induction Hx.
    - eapply g_yield; try eassumption. destruct H2. split; auto.
    - eapply g_own; try eassumption. destruct H3. split; auto.
    - eapply g_sub; eassumption. }
  assert (V : forall x, In x r -> In x a).
  { intros x Hx. apply A2. apply B2 in Hx. destruct Hx as [[m [Hm Hg]]|[c [Hc Hg]]]; [left; exists m|right; exists c]; split; auto. }
  assert (Oc : forall x, In x r -> loss_occurs l x).
  { intros x Hx. apply B2 in Hx. destruct Hx as [[m [Hm Hg]]|[c [Hc Hg]]]; [exists m|exists c]; (split; [apply in_app_iff; auto|eapply gives_occurs, Hg]). }
  apply HO; auto. eapply names_unique_spec; try eassumption; auto.
Qed.
End L.
