(** Proofs about the collection of parameters. *)
From Verif Require Import Base BaseLemmas PGraph_Model PGraph_Spec.

(* ---------- induction principles ---------- *)
Section PrmInd.
Variable P : prm -> Prop.
Hypothesis HI : forall i, P (PIndep i).
Hypothesis HC : forall i, P (PConst i).
Hypothesis HD : forall i deps, (forall d, In d deps -> P d) -> P (PComp i deps).
Fixpoint prm_ind2 (p : prm) : P p :=
  match p with
  | PIndep i => HI i
  | PConst i => HC i
  | PComp i deps => HD i deps
      ((fix go (l : list prm) : forall d, In d l -> P d :=
         match l return forall d, In d l -> P d with
         | [] => fun d H => match H with end
         | x :: r => fun d H => match H with
                                | or_introl E => eq_ind x P (prm_ind2 x) d E
                                | or_intror H' => go r d H'
                                end
         end) deps)
  end.
End PrmInd.
Section ModelInd.
Variable P : model -> Prop.
Hypothesis HM : forall own ag k y subs cond, (forall s, In s subs -> P s) -> P (Model own ag k y subs cond).
Fixpoint model_ind2 (m : model) : P m :=
  match m with
  | Model own ag k y subs cond => HM own ag k y subs cond
      ((fix go (l : list model) : forall d, In d l -> P d :=
         match l return forall d, In d l -> P d with
         | [] => fun d H => match H with end
         | x :: r => fun d H => match H with
                                | or_introl E => eq_ind x P (model_ind2 x) d E
                                | or_intror H' => go r d H'
                                end
         end) subs)
  end.
End ModelInd.

(* ---------- ordered sets ---------- *)
Lemma memb n l : mem Nat.eqb n l = true <-> In n l.
Proof. apply mem_In, nat_eqb_ok. Qed.
Lemma memb_false n l : mem Nat.eqb n l = false <-> ~ In n l.
Proof. rewrite <- memb. destruct (mem Nat.eqb n l); split; congruence. Qed.
Lemma oset_from_sub l : forall seen p, In p (oset_from seen l) -> In p l /\ ~ In (pid p) seen.
Proof.
  induction l as [|x l IH]; intros seen p; simpl; [intros []|].
  destruct (mem Nat.eqb (pid x) seen) eqn:E.
  - intros H. apply IH in H. tauto.
  - intros [<-|H]; [apply memb_false in E; auto|]. apply IH in H. destruct H as [H1 H2]. split; [auto|]. intros C. apply H2. right. exact C.
Qed.
Lemma oset_sub l p : In p (oset l) -> In p l. Proof. intros H. apply oset_from_sub in H. tauto. Qed.
Lemma oset_from_nodup l : forall seen, NoDup (map pid (oset_from seen l)).
Proof.
  induction l as [|x l IH]; intros seen; simpl; [constructor|].
  destruct (mem Nat.eqb (pid x) seen) eqn:E; [apply IH|]. simpl. constructor; [|apply IH].
  intros H. apply in_map_iff in H. destruct H as [q [E' H]]. apply oset_from_sub in H. destruct H as [_ H]. apply H. left. congruence.
Qed.
Lemma oset_nodup l : NoDup (map pid (oset l)). Proof. apply oset_from_nodup. Qed.
Lemma oset_from_id l : forall seen p, In p l -> ~ In (pid p) seen -> exists q, In q (oset_from seen l) /\ pid q = pid p.
Proof.
  induction l as [|x l IH]; intros seen p; simpl; [intros []|].
  intros [->|H] Hn.
  - apply memb_false in Hn. rewrite Hn. exists p. split; [left|]; reflexivity.
  - destruct (mem Nat.eqb (pid x) seen) eqn:E; [apply IH; assumption|].
    destruct (Nat.eq_dec (pid x) (pid p)) as [Ex|Ex]; [exists x; split; [left; reflexivity|exact Ex]|].
    destruct (IH (pid x :: seen) p H) as [q [H1 H2]]; [intros [C|C]; [congruence|contradiction]|].
    exists q. split; [right; exact H1|exact H2].
Qed.
Lemma oset_In O l p : same_objects O -> (forall q, In q l -> O q) -> (In p (oset l) <-> In p l).
Proof.
  intros HO Hl. split; [apply oset_sub|]. intros H. destruct (oset_from_id l [] p H) as [q [H1 H2]]; [intros []|].
  assert (q = p) by (apply HO; [apply Hl, (oset_sub l q H1)|apply Hl, H|exact H2]). subst. exact H1.
Qed.
Lemma ominus_In O l m p : same_objects O -> (forall q, In q l -> O q) -> (forall q, In q m -> O q) ->
  (In p (ominus l m) <-> In p l /\ ~ In p m).
Proof.
  intros HO Hl Hm. unfold ominus. rewrite filter_In, negb_true_iff, memb_false. split; intros [H1 H2]; (split; [exact H1|]).
  - intros C. apply H2, in_map, C.
  - intros C. apply in_map_iff in C. destruct C as [q [E Hq]]. assert (q = p) by (apply HO; auto). subst. contradiction.
Qed.
Lemma ominus_nodup l m : NoDup (map pid l) -> NoDup (map pid (ominus l m)).
Proof.
  unfold ominus. induction l as [|x l IH]; intros H; [exact H|]. cbn [map] in H. inversion H; subst. cbn [filter].
  destruct (negb _); [|auto]. cbn [map]. constructor; [|auto]. intros C. apply H2. apply in_map_iff in C.
  destruct C as [q [E Hq]]. apply filter_In in Hq. apply in_map_iff. exists q. tauto.
Qed.
Lemma filter_nodup (f : prm -> bool) l : NoDup (map pid l) -> NoDup (map pid (filter f l)).
Proof.
  induction l as [|x l IH]; intros H; [exact H|]. cbn [map] in H. inversion H; subst. cbn [filter].
  destruct (f x); [|auto]. cbn [map]. constructor; [|auto]. intros C. apply H2. apply in_map_iff in C.
  destruct C as [q [E Hq]]. apply filter_In in Hq. apply in_map_iff. exists q. tauto.
Qed.

Lemma forallb_false {A} (f : A -> bool) l : forallb f l = false -> exists x, In x l /\ f x = false.
Proof.
  induction l as [|a l IH]; [discriminate|]. simpl. destruct (f a) eqn:E; [|intros _; exists a; auto].
  intros H. destruct (IH H) as [x [H1 H2]]. exists x. auto.
Qed.
Lemma Ok_inj {A} (a b : A) : Ok a = Ok b -> b = a.
Proof. intros H. inversion H. reflexivity. Qed.
Section F.
Variable flt : nat -> bool.

Lemma float_filter_sub fl l p : In p (float_filter flt fl l) -> In p l.
Proof. destruct fl; simpl; [|auto]. intros H. apply filter_In in H. tauto. Qed.
Lemma float_filter_In fl l p : (forall q, In q l -> independent q) ->
  (In p (float_filter flt fl l) <-> In p l /\ floating_is flt fl p).
Proof.
  intros Hl. destruct fl as [b|]; simpl; [|tauto]. rewrite filter_In. split; intros [H1 H2]; (split; [exact H1|]).
  - destruct (Hl p H1) as [i ->]. exists i. split; [reflexivity|]. apply eqb_prop, H2.
  - destruct H2 as [i [-> <-]]. apply eqb_reflx.
Qed.
Lemma float_filter_nodup fl l : NoDup (map pid l) -> NoDup (map pid (float_filter flt fl l)).
Proof. destruct fl; [apply filter_nodup|auto]. Qed.

Definition go_indep fl := fix go (seen : list nat) (l : list prm) : list prm :=
  match l with
  | [] => []
  | d :: r => if mem Nat.eqb (pid d) seen then go seen r else get_indep flt fl d ++ go (pid d :: seen) r
  end.
Lemma go_indep_oset fl l : forall seen, go_indep fl seen l = concat (map (get_indep flt fl) (oset_from seen l)).
Proof.
  induction l as [|d l IH]; intros seen; [reflexivity|]. cbn [go_indep oset_from].
  destruct (mem Nat.eqb (pid d) seen); [apply IH|]. cbn [map concat]. f_equal. apply IH.
Qed.
Lemma get_indep_comp fl i deps : get_indep flt fl (PComp i deps)
  = float_filter flt fl (oset (concat (map (get_indep flt fl) (oset deps)))).
Proof. change (get_indep flt fl (PComp i deps)) with (float_filter flt fl (oset (go_indep fl [] deps))). rewrite go_indep_oset. reflexivity. Qed.

Lemma depends_trans p q r : depends p q -> depends q r -> depends p r.
Proof. induction 1; [auto|]. intros. econstructor; eauto. Qed.

Lemma get_indep_sound fl p : forall q, In q (get_indep flt fl p) -> depends p q /\ independent q /\ floating_is flt fl q.
Proof.
  induction p as [i|i|i deps IH] using prm_ind2; intros q H.
  - simpl in H. assert (Hq : In q [PIndep i] /\ floating_is flt fl q).
    { apply float_filter_In; [|exact H]. intros x [<-|[]]. exists i. reflexivity. }
    destruct Hq as [[<-|[]] Hf]. split; [constructor|]. split; [exists i; reflexivity|exact Hf].
  - destruct H.
  - rewrite get_indep_comp in H. apply float_filter_sub, oset_sub in H. apply in_concat in H. destruct H as [l [Hl Hq]].
    apply in_map_iff in Hl. destruct Hl as [d [<- Hd]]. apply oset_sub in Hd. destruct (IH d Hd q Hq) as [H1 H2].
    split; [econstructor; eassumption|exact H2].
Qed.
Lemma indep_concat_sound fl ps q : In q (concat (map (get_indep flt fl) ps)) ->
  exists d, In d ps /\ depends d q /\ independent q /\ floating_is flt fl q.
Proof.
  intros H. apply in_concat in H. destruct H as [l [Hl Hq]]. apply in_map_iff in Hl. destruct Hl as [d [<- Hd]].
  exists d. split; [exact Hd|]. apply get_indep_sound, Hq.
Qed.
Lemma get_indep_complete O fl p : same_objects O -> (forall q, depends p q -> O q) ->
  forall q, depends p q -> independent q -> floating_is flt fl q -> In q (get_indep flt fl p).
Proof.
  intros HO. induction p as [i|i|i deps IH] using prm_ind2; intros Hp q Hd Hi Hf.
  - inversion Hd; subst. simpl. apply float_filter_In; [intros x [<-|[]]; exists i; reflexivity|]. split; [left; reflexivity|exact Hf].
  - inversion Hd; subst. destruct Hi; discriminate.
  - inversion Hd as [|? ? d ? Hin Hdq]; subst; [destruct Hi; discriminate|]. rewrite get_indep_comp.
    assert (Hdeps : forall x, In x deps -> O x) by (intros x Hx; apply Hp; econstructor; [exact Hx|constructor]).
    assert (Hall : forall x, In x (concat (map (get_indep flt fl) (oset deps))) -> O x /\ independent x).
    { intros x Hx. apply indep_concat_sound in Hx. destruct Hx as [d' [Hd' [Hx [Hix _]]]]. apply oset_sub in Hd'. split; [|exact Hix].
      apply Hp. econstructor; eassumption. }
    apply float_filter_In; [intros x Hx; apply oset_sub in Hx; apply Hall, Hx|]. split; [|exact Hf].
    apply (oset_In O); [exact HO|intros x Hx; apply Hall, Hx|].
    apply in_concat. exists (get_indep flt fl d). split; [apply in_map, (oset_In O); [exact HO|exact Hdeps|exact Hin]|].
    apply (IH d Hin); [|exact Hdq|exact Hi|exact Hf]. intros x Hx. apply Hp. econstructor; eassumption.
Qed.

(** [extract_filter] on a list of directly used parameters. *)
Lemma indep_dec p : p_indep p = true <-> independent p.
Proof. destruct p; simpl; split; intros H; try discriminate; try (destruct H; discriminate); [exists id; reflexivity|reflexivity]. Qed.

Lemma extract_error ps fl ex e : extract_filter flt ps fl ex = Err e ->
  e = ValueError /\ fl <> None /\ ex <> Some true /\ exists d, In d ps /\ ~ independent d.
Proof.
  unfold extract_filter. destruct fl as [b|]; [|discriminate].
  destruct ex as [[|]|]; cbn [negb andb].
  - discriminate.
  - destruct (forallb p_indep (oset ps)) eqn:E; cbn [negb]; [discriminate|]. intros H. inversion H.
    split; [reflexivity|]. split; [discriminate|]. split; [discriminate|].
    apply forallb_false in E. destruct E as [x [Hx E]]. exists x. split; [apply oset_sub, Hx|].
    intros C. apply indep_dec in C. congruence.
  - destruct (forallb p_indep _) eqn:E; cbn [negb]; [discriminate|]. intros H. inversion H.
    split; [reflexivity|]. split; [discriminate|]. split; [discriminate|].
    apply forallb_false in E. destruct E as [x [Hx E]]. apply oset_sub, in_app_iff in Hx. destruct Hx as [Hx|Hx].
    + exists x. split; [apply oset_sub, Hx|]. intros C. apply indep_dec in C. congruence.
    + apply oset_sub, indep_concat_sound in Hx. destruct Hx as [_ [_ [_ [Hi _]]]]. apply indep_dec in Hi. congruence.
Qed.
Lemma extract_error_conv O ps fl ex d : same_objects O -> (forall d q, In d ps -> depends d q -> O q) ->
  fl <> None -> ex <> Some true -> In d ps -> ~ independent d -> extract_filter flt ps fl ex = Err ValueError.
Proof.
  intros HO Hps Hf He Hd Hi. unfold extract_filter. destruct fl as [b|]; [|congruence].
  assert (Hd1 : In d (oset ps)) by (apply (oset_In O); [exact HO|intros q Hq; apply (Hps q q Hq); constructor|exact Hd]).
  destruct ex as [[|]|]; [congruence| |]; cbn [negb andb].
  - destruct (forallb p_indep (oset ps)) eqn:E; [|reflexivity]. rewrite forallb_forall in E. apply E in Hd1. apply indep_dec in Hd1. contradiction.
  - set (l := oset ps ++ _). destruct (forallb p_indep (oset l)) eqn:E; [|reflexivity]. rewrite forallb_forall in E.
    assert (Hdl : In d (oset l)).
    { apply (oset_In O); [exact HO| |unfold l; apply in_app_iff; left; exact Hd1].
      intros q Hq. unfold l in Hq. apply in_app_iff in Hq. destruct Hq as [Hq|Hq].
      - apply oset_sub in Hq. apply (Hps q q Hq). constructor.
      - apply oset_sub, indep_concat_sound in Hq. destruct Hq as [x [Hx [Hxq _]]]. apply oset_sub in Hx. apply (Hps x q Hx Hxq). }
    apply E in Hdl. apply indep_dec in Hdl. contradiction.
Qed.
Lemma extract_ok O ps fl ex l : same_objects O -> (forall d q, In d ps -> depends d q -> O q) ->
  extract_filter flt ps fl ex = Ok l ->
  NoDup (map pid l) /\ forall q, In q l <-> exists d, In d ps /\ collected flt fl ex d q.
Proof.
  intros HO Hps E.
  assert (Hdir : forall q, In q (oset ps) <-> In q ps).
  { intros q. apply (oset_In O); [exact HO|]. intros x Hx. apply (Hps x x Hx). constructor. }
  assert (Hind : forall q, In q (oset (concat (map (get_indep flt fl) (oset ps)))) <-> exists d, In d ps /\ depends d q /\ independent q /\ floating_is flt fl q).
  { intros q. rewrite (oset_In O); [|exact HO|].
    - split.
      + intros H. apply indep_concat_sound in H. destruct H as [d [Hd H]]. exists d. split; [apply oset_sub, Hd|exact H].
      + intros [d [Hd [H1 [H2 H3]]]]. apply in_concat. exists (get_indep flt fl d). split; [apply in_map, Hdir, Hd|].
        apply (get_indep_complete O); try assumption. intros x Hx. apply (Hps d x Hd Hx).
    - intros x Hx. apply indep_concat_sound in Hx. destruct Hx as [d [Hd [Hx _]]]. apply oset_sub in Hd. apply (Hps d x Hd Hx). }
  assert (Hboth : forall q, In q (oset (oset ps ++ oset (concat (map (get_indep flt fl) (oset ps))))) <-> In q ps \/ exists d, In d ps /\ depends d q /\ independent q /\ floating_is flt fl q).
  { intros q. rewrite (oset_In O); [|exact HO|].
    - rewrite in_app_iff, Hdir, Hind. reflexivity.
    - intros x Hx. apply in_app_iff in Hx. destruct Hx as [Hx|Hx]; [apply Hdir in Hx; apply (Hps x x Hx); constructor|].
      apply Hind in Hx. destruct Hx as [d [Hd [Hx _]]]. apply (Hps d x Hd Hx). }
  unfold extract_filter in E. unfold collected.
  destruct fl as [b|].
  - destruct ex as [[|]|]; cbn [negb andb] in E.
    + apply Ok_inj in E; subst l. split; [apply (float_filter_nodup (Some b)), oset_nodup|]. intros q.
      rewrite (float_filter_In (Some b)); [|intros x Hx; apply Hind in Hx; destruct Hx as [d [_ [_ [Hi _]]]]; exact Hi].
      rewrite Hind. split; [intros [[d [A [B [C D]]]] _]; eauto|]. intros [d [A [D [B C]]]]. split; [eauto|exact D].
    + destruct (forallb p_indep (oset ps)) eqn:F; [|discriminate]. cbn [negb] in E. apply Ok_inj in E; subst l.
      rewrite forallb_forall in F. split; [apply (float_filter_nodup (Some b)), oset_nodup|]. intros q.
      rewrite (float_filter_In (Some b)) by (intros x Hx; apply indep_dec, F, Hx). rewrite Hdir.
      split; [intros [A B]; exists q; auto|]. intros [d [A [B ->]]]. auto.
    + destruct (forallb p_indep _) eqn:F; [|discriminate]. cbn [negb] in E. apply Ok_inj in E; subst l.
      rewrite forallb_forall in F. split; [apply (float_filter_nodup (Some b)), oset_nodup|]. intros q.
      rewrite (float_filter_In (Some b)) by (intros x Hx; apply indep_dec, F, Hx). rewrite Hboth.
      split.
      * intros [[A|[d [A [B [C D]]]]] G]; [exists q; auto|exists d; auto].
      * intros [d [A [B [->|[C D]]]]]; [auto|]. split; [right; exists d; auto|exact B].
  - destruct ex as [[|]|]; apply Ok_inj in E; subst l.
    + split; [apply oset_nodup|]. intros q. rewrite Hind. simpl. split; [intros [d [A [B [C D]]]]; eauto|]. intros [d [A [_ [B C]]]]. exists d. auto.
    + split; [apply oset_nodup|]. intros q. rewrite Hdir. simpl. split; [intros A; exists q; auto|]. intros [d [A [_ ->]]]. exact A.
    + split; [apply oset_nodup|]. intros q. rewrite Hboth. simpl. split.
      * intros [A|[d [A [B [C D]]]]]; [exists q; auto|exists d; auto].
      * intros [d [A [_ [->|[B C]]]]]; [auto|right; exists d; auto].
Qed.

Lemma collected_dep fl ex d q : collected flt fl ex d q -> depends d q.
Proof. intros [_ H]. destruct ex as [[|]|]; [tauto|subst; constructor|]. destruct H as [->|H]; [constructor|tauto]. Qed.

(* ---------- models ---------- *)
Lemma mem_str n l : mem String.eqb n l = true <-> In n l.
Proof. apply mem_In, string_eqb_ok. Qed.
Lemma own_In ng ag own d : In d (map snd (filter (fun np : string * prm => negb ng || negb (mem String.eqb (fst np) ag)) own))
  <-> exists n, In (n, d) own /\ (ng = true -> ~ In n ag).
Proof.
  rewrite in_map_iff. split.
  - intros [[n d'] [E H]]. simpl in E. subst. apply filter_In in H. destruct H as [H1 H2]. exists n. split; [exact H1|].
    intros -> C. apply mem_str in C. simpl in H2. rewrite C in H2. discriminate.
  - intros [n [H1 H2]]. exists (n, d). split; [reflexivity|]. apply filter_In. split; [exact H1|]. simpl.
    destruct ng; [|reflexivity]. simpl. destruct (mem String.eqb n ag) eqn:E; [|reflexivity]. apply mem_str in E. exfalso. apply H2; auto.
Qed.
Lemma is_true_spec o : is_true o = true <-> o = Some true. Proof. destruct o as [[|]|]; simpl; split; congruence. Qed.
Lemma is_false_spec o : is_false o = true <-> o = Some false. Proof. destruct o as [[|]|]; simpl; split; congruence. Qed.

Lemma mapM_ok {A B} (f : A -> result B) l r : mapM f l = Ok r -> Forall2 (fun a b => f a = Ok b) l r.
Proof.
  revert r. induction l as [|a l IH]; intros r H; simpl in H; [inversion H; constructor|].
  destruct (f a) eqn:E; [|discriminate]. cbn [bind] in H. destruct (mapM f l) eqn:E'; [|discriminate]. cbn [bind] in H. inversion H; subst. constructor; auto.
Qed.
Lemma mapM_err {A B} (f : A -> result B) l e : mapM f l = Err e -> exists a, In a l /\ f a = Err e.
Proof.
  induction l as [|a l IH]; intros H; simpl in H; [discriminate|].
  destruct (f a) eqn:E; cbn [bind] in H; [|inversion H; subst; exists a; split; [left; reflexivity|exact E]].
  destruct (mapM f l) eqn:E'; [discriminate|]. cbn [bind] in H. inversion H; subst. destruct (IH eq_refl) as [x [H1 H2]]. exists x. split; [right; exact H1|exact H2].
Qed.
Lemma mapM_err_conv {A B} (f : A -> result B) l a e : In a l -> f a = Err e -> exists e', mapM f l = Err e'.
Proof.
  induction l as [|x l IH]; intros H E; [destruct H|]. simpl. destruct H as [->|H].
  - rewrite E. exists e. reflexivity.
  - destruct (f x); cbn [bind]; [|eexists; reflexivity]. destruct (IH H E) as [e' ->]. exists e'. reflexivity.
Qed.
Lemma Forall2_In_l {A B} (R : A -> B -> Prop) l m a : Forall2 R l m -> In a l -> exists b, In b m /\ R a b.
Proof. induction 1; intros Hin; [destruct Hin|]. destruct Hin as [<-|Hin]; [eauto using in_eq|]. destruct (IHForall2 Hin) as [b [H1 H2]]. eauto using in_cons. Qed.
Lemma Forall2_In_r {A B} (R : A -> B -> Prop) l m b : Forall2 R l m -> In b m -> exists a, In a l /\ R a b.
Proof. induction 1; intros Hin; [destruct Hin|]. destruct Hin as [<-|Hin]; [eauto using in_eq|]. destruct (IHForall2 Hin) as [c [H1 H2]]. eauto using in_cons. Qed.

Lemma gives_occurs fl ex ng yl m q : gives (collected flt fl ex) ng yl m q -> occurs m q.
Proof.
  induction 1.
  - apply o_yield. eapply collected_dep; eassumption.
  - eapply o_own; [eassumption|eapply collected_dep; eassumption].
  - eapply o_sub; eassumption.
Qed.

Lemma pdf_params_ok O own ag k y ng fl yl ex l : same_objects O ->
  (forall n d q, In (n, d) own -> depends d q -> O q) -> (forall d q, y = Some d -> depends d q -> O q) ->
  pdf_params flt own ag k y ng fl yl ex = Ok l ->
  NoDup (map pid l) /\ forall q, In q l <->
     (yl <> Some false /\ k = true /\ exists d, y = Some d /\ (ng = true -> ~ In "yield"%string ag) /\ collected flt fl ex d q)
     \/ (yl <> Some true /\ exists n d, In (n, d) own /\ (ng = true -> ~ In n ag) /\ collected flt fl ex d q).
Proof.
  intros HO Hown Hy E. unfold pdf_params in E. destruct (own_params flt own ag ng fl yl ex) as [po|e] eqn:Eo; [|discriminate]. cbn [bind] in E.
  assert (Ho : NoDup (map pid po) /\ forall q, In q po <-> yl <> Some true /\ exists n d, In (n, d) own /\ (ng = true -> ~ In n ag) /\ collected flt fl ex d q).
  { unfold own_params in Eo. destruct (is_true yl) eqn:Et.
    - apply is_true_spec in Et. inversion Eo; subst. split; [constructor|]. intros q. split; [intros []|]. intros [C _]. congruence.
    - assert (Hyl : yl <> Some true) by (intros C; apply is_true_spec in C; congruence).
      apply (extract_ok O) in Eo; [|exact HO|intros d q Hd; apply own_In in Hd; destruct Hd as [n [Hd _]]; eapply Hown, Hd].
      destruct Eo as [H1 H2]. split; [exact H1|]. intros q. rewrite H2. split.
      + intros [d [Hd Hc]]. split; [exact Hyl|]. apply own_In in Hd. destruct Hd as [n [Hd Hg]]. exists n, d. auto.
      + intros [_ [n [d [Hd [Hg Hc]]]]]. exists d. split; [apply own_In; eauto|exact Hc]. }
  destruct Ho as [Hn Ho]. destruct (negb k || is_false yl) eqn:Ek.
  - inversion E; subst. split; [exact Hn|]. intros q. rewrite Ho. split; [auto|]. intros [[C [-> _]]|H]; [|exact H].
    simpl in Ek. apply is_false_spec in Ek. congruence.
  - apply orb_false_iff in Ek. destruct Ek as [Ek1 Ek2]. apply negb_false_iff in Ek1. subst k.
    assert (Hyl : yl <> Some false) by (intros C; apply is_false_spec in C; congruence).
    destruct y as [d|].
    + destruct (extract_filter flt [d] fl ex) as [yp|e] eqn:Ey; [|discriminate]. cbn [bind] in E.
      apply (extract_ok O) in Ey; [|exact HO|intros x q [<-|[]]; apply (Hy d q eq_refl)].
      destruct Ey as [Hyn Hyi]. destruct (ng && mem String.eqb "yield"%string ag) eqn:Eg; inversion E; subst.
      * apply andb_prop in Eg. destruct Eg as [-> Eg]. apply mem_str in Eg. split; [exact Hn|]. intros q. rewrite Ho. split; [auto|].
        intros [[_ [_ [d' [_ [C _]]]]]|H]; [exfalso; apply C; auto|exact H].
      * assert (Hg : ng = true -> ~ In "yield"%string ag).
        { intros -> C. apply mem_str in C. rewrite C in Eg. discriminate. }
        split; [apply oset_nodup|]. intros q. rewrite (oset_In O); [|exact HO|].
        -- rewrite in_app_iff, Ho, Hyi. split.
           ++ intros [[d' [[<-|[]] Hc]]|H]; [|right; exact H]. left. split; [exact Hyl|]. split; [reflexivity|]. exists d. auto.
           ++ intros [[_ [_ [d' [Ed [_ Hc]]]]]|H]; [|right; exact H]. inversion Ed; subst. left. exists d'. split; [left; reflexivity|exact Hc].
        -- intros x Hx. apply in_app_iff in Hx. destruct Hx as [Hx|Hx].
           ++ apply Hyi in Hx. destruct Hx as [d' [[<-|[]] Hc]]. apply (Hy d x eq_refl). eapply collected_dep, Hc.
           ++ apply Ho in Hx. destruct Hx as [_ [n [d' [Hd [_ Hc]]]]]. apply (Hown n d' x Hd). eapply collected_dep, Hc.
    + destruct (is_true yl) eqn:Et; [discriminate|]. inversion E; subst. split; [exact Hn|]. intros q. rewrite Ho. split; [auto|].
      intros [[_ [_ [d [C _]]]]|H]; [discriminate|exact H].
Qed.

Lemma model_ok m : forall O ng fl yl ex l, same_objects O -> (forall q, occurs m q -> O q) ->
  model_params flt ng fl yl ex m = Ok l ->
  NoDup (map pid l) /\ forall q, In q l <-> gives (collected flt fl ex) ng yl m q.
Proof.
  induction m as [own ag k y subs cond IH] using model_ind2; intros O ng fl yl ex l HO Hocc E. cbn [model_params] in E.
  destruct (pdf_params flt own ag k y ng fl yl ex) as [pp|e] eqn:Ep; [|discriminate]. cbn [bind] in E.
  apply (pdf_params_ok O) in Ep; [|exact HO|intros n d q H1 H2; apply Hocc; eapply o_own; eassumption|intros d q -> H2; apply Hocc, o_yield, H2].
  destruct Ep as [Pn Pi].
  assert (PO : forall q, In q pp -> O q).
  { intros q Hq. apply Pi in Hq. destruct Hq as [[_ [_ [d [-> [_ Hc]]]]]|[_ [n [d [Hd [_ Hc]]]]]]; apply Hocc.
    - eapply o_yield, collected_dep, Hc. - eapply o_own; [exact Hd|eapply collected_dep, Hc]. }
  destruct (is_true yl) eqn:Et.
  - cbn [bind] in E. inversion E; subst; clear E. apply is_true_spec in Et. subst yl. split; [apply ominus_nodup, Pn|].
    intros q. rewrite (ominus_In O); [|exact HO|exact PO|intros x Hx; apply Hocc, o_cond, Hx]. rewrite Pi. split.
    + intros [[[H1 [-> [d [-> [H2 H3]]]]]|[C _]] Hn]; [|congruence]. eapply g_yield; eassumption.
    + intros H. inversion H; subst; try congruence. split; [|assumption]. left. split; [assumption|]. split; [reflexivity|]. eauto.
  - assert (Hyl : yl <> Some true) by (intros C; apply is_true_spec in C; congruence).
    destruct (mapM (model_params flt ng fl (Some false) ex) subs) as [ls|e] eqn:Em; [|discriminate]. cbn [bind] in E.
    inversion E; subst; clear E. apply mapM_ok in Em.
    assert (Hsub : forall s r, In s subs -> model_params flt ng fl (Some false) ex s = Ok r -> forall q, In q r <-> gives (collected flt fl ex) ng (Some false) s q).
    { intros s r Hs Er. eapply (IH s Hs O); [exact HO|intros q Hq; apply Hocc; eapply o_sub; eassumption|exact Er]. }
    assert (HC : forall q, In q (concat ls) <-> exists s, In s subs /\ gives (collected flt fl ex) ng (Some false) s q).
    { intros q. rewrite in_concat. split.
      - intros [r [Hr Hq]]. destruct (Forall2_In_r _ _ _ _ Em Hr) as [s [Hs Es]]. exists s. split; [exact Hs|]. apply (Hsub s r Hs Es), Hq.
      - intros [s [Hs Hg]]. destruct (Forall2_In_l _ _ _ _ Em Hs) as [r [Hr Es]]. exists r. split; [exact Hr|]. apply (Hsub s r Hs Es), Hg. }
    assert (HCO : forall q, In q (concat ls) -> O q).
    { intros q Hq. apply HC in Hq. destruct Hq as [s [Hs Hg]]. apply Hocc. eapply o_sub; [exact Hs|]. eapply gives_occurs, Hg. }
    split; [apply ominus_nodup, oset_nodup|].
    intros q. rewrite (ominus_In O); [|exact HO| |intros x Hx; apply Hocc, o_cond, Hx].
    + rewrite (oset_In O); [|exact HO|intros x Hx; apply in_app_iff in Hx; destruct Hx; auto].
      rewrite in_app_iff, Pi, HC. split.
      * intros [[[[H1 [-> [d [-> [H2 H3]]]]]|[_ [n [d [H1 [H2 H3]]]]]]|[s [Hs Hg]]] Hn].
        -- eapply g_yield; eassumption. -- eapply g_own; eassumption. -- eapply g_sub; eassumption.
      * intros H. inversion H; subst; (split; [|assumption]).
        -- left. left. split; [assumption|]. split; [reflexivity|]. eauto.
        -- left. right. split; [assumption|]. eauto.
        -- right. eauto.
    + intros x Hx. apply oset_sub, in_app_iff in Hx. destruct Hx; auto.
Qed.

Lemma pdf_params_err own ag k y ng fl yl ex e :
  pdf_params flt own ag k y ng fl yl ex = Err e ->
  (e = NotExtendedPDFError /\ yl = Some true /\ k = true /\ y = None)
  \/ (e = ValueError /\ fl <> None /\ ex <> Some true /\
      exists d, ~ independent d /\ ((yl <> Some true /\ exists n, In (n, d) own /\ (ng = true -> ~ In n ag)) \/ (yl <> Some false /\ k = true /\ y = Some d))).
Proof.
  unfold pdf_params. destruct (own_params flt own ag ng fl yl ex) as [po|e'] eqn:Eo; cbn [bind].
  - destruct (negb k || is_false yl) eqn:Ek; [discriminate|]. apply orb_false_iff in Ek. destruct Ek as [Ek1 Ek2]. apply negb_false_iff in Ek1.
    assert (Hyl : yl <> Some false) by (intros C; apply is_false_spec in C; congruence).
    destruct y as [d|].
    + destruct (extract_filter flt [d] fl ex) eqn:Ey; cbn [bind]; [destruct (ng && _); discriminate|].
      intros H. inversion H; subst. apply extract_error in Ey. destruct Ey as [H1 [H2 [H3 [d' [[<-|[]] H4]]]]]. right. repeat split; try assumption.
      exists d. split; [exact H4|]. right. auto.
    + destruct (is_true yl) eqn:Et; [|discriminate]. intros H. inversion H. left. apply is_true_spec in Et. auto.
  - intros H. inversion H; subst. unfold own_params in Eo. destruct (is_true yl) eqn:Et; [discriminate|].
    assert (Hyl : yl <> Some true) by (intros C; apply is_true_spec in C; congruence).
    apply extract_error in Eo. destruct Eo as [H1 [H2 [H3 [d [Hd H4]]]]]. right. repeat split; try assumption. exists d. split; [exact H4|].
    left. split; [exact Hyl|]. apply own_In, Hd.
Qed.

Lemma model_err m : forall yl fl ex e, model_params flt false fl yl ex m = Err e ->
  (e = NotExtendedPDFError /\ yl = Some true /\ a_pdf m /\ ~ extended m)
  \/ (e = ValueError /\ fl <> None /\ ex <> Some true /\ exists d, uses false yl m d /\ ~ independent d).
Proof.
  induction m as [own ag k y subs cond IH] using model_ind2; intros yl fl ex e E. cbn [model_params] in E.
  destruct (pdf_params flt own ag k y false fl yl ex) as [pp|e'] eqn:Ep; cbn [bind] in E.
  - destruct (is_true yl) eqn:Et; [discriminate|].
    destruct (mapM (model_params flt false fl (Some false) ex) subs) as [ls|e'] eqn:Em; cbn [bind] in E; [discriminate|].
    inversion E; subst. apply mapM_err in Em. destruct Em as [s [Hs Es]].
    assert (Hyl : yl <> Some true) by (intros C; apply is_true_spec in C; congruence).
    apply (IH s Hs) in Es. destruct Es as [[_ [C _]]|[H1 [H2 [H3 [d [H4 H5]]]]]]; [discriminate|].
    right. repeat split; try assumption. exists d. split; [|exact H5]. eapply u_sub; eassumption.
  - inversion E; subst. apply pdf_params_err in Ep. destruct Ep as [[H1 [H2 [H3 H4]]]|[H1 [H2 [H3 [d [H4 H5]]]]]].
    + left. subst. simpl. repeat split; try reflexivity. intros [_ C]. congruence.
    + right. repeat split; try assumption. exists d. split; [|exact H4]. destruct H5 as [[A [n [B C]]]|[A [B C]]]; subst; [eapply u_own; eassumption|apply u_yield; [exact A|discriminate]].
Qed.
Lemma model_err_conv m : forall O yl fl ex, same_objects O -> (forall q, occurs m q -> O q) ->
  (yl = Some true /\ a_pdf m /\ ~ extended m) \/ (fl <> None /\ ex <> Some true /\ exists d, uses false yl m d /\ ~ independent d) ->
  exists e, model_params flt false fl yl ex m = Err e.
Proof.
  induction m as [own ag k y subs cond IH] using model_ind2; intros O yl fl ex HO Hocc H. cbn [model_params].
  destruct (pdf_params flt own ag k y false fl yl ex) as [pp|e'] eqn:Ep; cbn [bind]; [|eauto].
  destruct H as [[-> [Hk He]]|[Hf [Hx [d [Hu Hi]]]]].
  - exfalso. simpl in Hk, He. subst k. unfold pdf_params in Ep. simpl in Ep. destruct y as [d|]; [|discriminate]. apply He. split; [reflexivity|discriminate].
  - inversion Hu; subst.
    + exfalso. unfold pdf_params in Ep. destruct (own_params _ _ _ _ _ _ _) as [po|]; [|discriminate]. cbn [bind] in Ep.
      replace (negb true || is_false yl) with false in Ep.
      * rewrite (extract_error_conv O [d] fl ex d) in Ep; [discriminate|exact HO| |exact Hf|exact Hx|left; reflexivity|exact Hi].
        intros d' q [<-|[]] Hq. apply Hocc, o_yield, Hq.
      * simpl. symmetry. destruct (is_false yl) eqn:C; [|reflexivity]. apply is_false_spec in C. contradiction.
    + exfalso. unfold pdf_params, own_params in Ep. destruct (is_true yl) eqn:C; [apply is_true_spec in C; contradiction|].
      rewrite (extract_error_conv O _ fl ex d) in Ep; [discriminate|exact HO| |exact Hf|exact Hx| |exact Hi].
      * intros d' q Hd' Hq. apply own_In in Hd'. destruct Hd' as [n' [Hd' _]]. apply Hocc. eapply o_own; eassumption.
      * apply own_In. exists n. auto.
    + destruct (is_true yl) eqn:C; [apply is_true_spec in C; contradiction|].
      destruct (IH s H7 O (Some false) fl ex HO) as [e E]; [intros q Hq; apply Hocc; eapply o_sub; eassumption|right; eauto|].
      destruct (mapM_err_conv (model_params flt false fl (Some false) ex) subs s e H7 E) as [e' ->]. cbn [bind]. eauto.
Qed.
End F.
