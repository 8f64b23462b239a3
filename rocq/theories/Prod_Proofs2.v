(** Proofs about products of PDFs: the groups, and integrals over several variables. *)
From Verif Require Import Base BaseLemmas Disp_Model Disp_Spec Disp_Proofs Sum_Spec Prod_Model Prod_Spec Prod_Proofs.
From Coq Require Import Lra Lia Permutation.
#[local] Open Scope R_scope.

(** ** The groups *)
Lemma count_filter : forall o (p : factor -> bool) l, (forall f, In f l -> In o (a_obs f) -> p f = true) ->
  filter (String.eqb o) (flat_map a_obs (filter p l)) = filter (String.eqb o) (flat_map a_obs l).
Proof.
  intros o p l. induction l as [|f l IH]; intro H; [reflexivity|]. cbn [filter flat_map].
  assert (E : filter (String.eqb o) (flat_map a_obs (filter p l)) = filter (String.eqb o) (flat_map a_obs l)) by (apply IH; intros g Hg; apply H; right; exact Hg).
  destruct (p f) eqn:Ep; cbn [flat_map]; rewrite !filter_app, E; [reflexivity|].
  assert (Z : filter (String.eqb o) (a_obs f) = []); [|rewrite Z; reflexivity].
  destruct (filter (String.eqb o) (a_obs f)) as [|q r] eqn:Eq; [reflexivity|]. exfalso.
  assert (In q (filter (String.eqb o) (a_obs f))) by (rewrite Eq; left; reflexivity). apply filter_In in H0. destruct H0 as [A B].
  apply String.eqb_eq in B. subst q. rewrite (H f (or_introl eq_refl) A) in Ep. discriminate Ep.
Qed.
Lemma overlaps_iff : forall pdfs f, overlaps pdfs f = true <-> exists o, In o (a_obs f) /\ shared pdfs o = true.
Proof. intros. unfold overlaps. apply existsb_exists. Qed.
Lemma nested_overlaps : forall pdfs f, In f (same_obs pdfs) -> overlaps (same_obs pdfs) f = true.
Proof.
  intros pdfs f Hf. apply filter_In in Hf. destruct Hf as [Hf Ho]. apply overlaps_iff in Ho. destruct Ho as [o [A B]].
  apply overlaps_iff. exists o. split; [exact A|]. unfold shared, same_obs. rewrite count_filter; [exact B|].
  intros g _ Hg. apply overlaps_iff. exists o. auto.
Qed.
Lemma nested_not_split : forall pdfs, same_obs (same_obs pdfs) = same_obs pdfs /\ disjoint_obs (same_obs pdfs) = [].
Proof.
  intros pdfs.
  assert (G : forall (p : factor -> bool) l, (forall f, In f l -> p f = true) -> filter p l = l /\ filter (fun f => negb (p f)) l = []).
  { intros p l. induction l as [|f l IH]; intro H; [auto|]. simpl. rewrite (H f (or_introl eq_refl)). simpl.
    destruct IH as [-> ->]; [intros; apply H; right; assumption|auto]. }
  unfold same_obs at 1, disjoint_obs. apply G. apply nested_overlaps.
Qed.
Lemma shared_twice : forall l1 d l2 f o, In f (l1 ++ l2) -> In o (a_obs f) -> In o (a_obs d) -> shared (l1 ++ d :: l2) o = true.
Proof.
  intros l1 d l2 f o Hf Ho Hd. unfold shared. apply Nat.ltb_lt.
  assert (P : Permutation (flat_map a_obs (l1 ++ d :: l2)) (a_obs d ++ flat_map a_obs (l1 ++ l2))).
  { rewrite !flat_map_app. cbn [flat_map]. rewrite !app_assoc. apply Permutation_app_tail. apply Permutation_app_comm. }
  assert (L : forall a b, Permutation a b -> length (filter (String.eqb o) a) = length (filter (String.eqb o) b)).
  { intros a b. induction 1; simpl; auto; [destruct (String.eqb o x); simpl; auto| |congruence].
    destruct (String.eqb o x), (String.eqb o y); reflexivity. }
  rewrite (L _ _ P), filter_app, app_length.
  assert (N : forall l, In o l -> (1 <= length (filter (String.eqb o) l))%nat).
  { intros l Hl. assert (H : In o (filter (String.eqb o) l)) by (apply filter_In; split; [exact Hl|apply String.eqb_refl]).
    destruct (filter (String.eqb o) l); [destruct H|simpl; lia]. }
  pose proof (N _ Hd). assert (Hf' : In o (flat_map a_obs (l1 ++ l2))) by (apply in_flat_map; exists f; auto).
  pose proof (N _ Hf'). lia.
Qed.
Lemma disjoint_alone : forall l1 d l2 f o, In d (disjoint_obs (l1 ++ d :: l2)) -> In f (l1 ++ l2) -> In o (a_obs f) -> In o (a_obs d) -> False.
Proof.
  intros l1 d l2 f o Hd Hf Ho Hod. apply filter_In in Hd. destruct Hd as [_ Hd]. apply negb_true_iff in Hd.
  assert (overlaps (l1 ++ d :: l2) d = true); [|congruence]. apply overlaps_iff. exists o. split; [exact Hod|].
  apply (shared_twice l1 d l2 f); assumption.
Qed.
(** Two factors with observables: at most one of them can have the norm of the product *)
Lemma norms_differ : forall eqn obs pdfs n, (forall f nls, In f pdfs -> eqn (a_obs f, a_norm f) (obs, nls) = true -> incl obs (a_obs f)) ->
  (2 <= length pdfs)%nat -> (forall f, In f pdfs -> a_obs f <> [] /\ incl (a_obs f) obs) -> disjoint_obs pdfs <> [] ->
  equal_norms eqn obs pdfs n = false.
Proof.
  intros eqn obs pdfs n HE H2 HO HD. destruct n as [| |nls]; [reflexivity..|]. cbn [equal_norms].
  destruct (forallb _ pdfs) eqn:E; [|reflexivity]. exfalso. rewrite forallb_forall in E.
  destruct (disjoint_obs pdfs) as [|d r] eqn:Ed; [contradiction HD; reflexivity|].
  assert (Hd : In d (disjoint_obs pdfs)) by (rewrite Ed; left; reflexivity). pose proof Hd as Hd'. apply filter_In in Hd'. destruct Hd' as [Hin _].
  pose proof (HE d nls Hin (E d Hin)) as Hsub. destruct (in_split d pdfs Hin) as [l1 [l2 ->]].
  assert (exists f, In f (l1 ++ l2)) as [f Hf].
  { rewrite app_length in H2. simpl in H2. destruct l1 as [|f l1]; [destruct l2 as [|f l2]; [simpl in H2; lia|]|]; exists f; simpl; auto. }
  assert (Hf' : In f (l1 ++ d :: l2)) by (apply in_app_iff in Hf; apply in_app_iff; simpl; tauto).
  destruct (HO f Hf') as [Hne Hi]. destruct (a_obs f) as [|o os] eqn:Ef; [contradiction Hne; reflexivity|].
  apply (disjoint_alone l1 d l2 f o Hd Hf); [rewrite Ef; left; reflexivity|]. apply Hsub, Hi. left. reflexivity.
Qed.
Lemma common_obs_In : forall pdfs o, In o (common_obs pdfs) <-> exists f, In f pdfs /\ In o (a_obs f).
Proof.
  intros pdfs o. unfold common_obs. rewrite <- in_flat_map.
  assert (G : forall l acc, In o (fold_left (fun acc o => if mem String.eqb o acc then acc else acc ++ [o]) l acc) <-> In o acc \/ In o l).
  { induction l as [|q l IH]; intro acc; simpl; [tauto|]. rewrite IH. destruct (mem String.eqb q acc) eqn:E.
    - apply (mem_In _ string_eqb_ok) in E. split; [tauto|]. intros [H|[H|H]]; auto. subst. auto.
    - rewrite in_app_iff. simpl. tauto. }
  rewrite G. simpl. tauto.
Qed.
Lemma same_disjoint : forall pdfs f d o, In f (same_obs pdfs) -> In d (disjoint_obs pdfs) -> In o (a_obs f) -> In o (a_obs d) -> False.
Proof.
  intros pdfs f d o Hf Hd Hof Hod. pose proof Hd as Hd'. apply filter_In in Hd'. destruct Hd' as [Hin Hnd].
  pose proof Hf as Hf'. apply filter_In in Hf'. destruct Hf' as [Hfin Hov].
  destruct (in_split d pdfs Hin) as [l1 [l2 E]]. rewrite E in Hd. apply (disjoint_alone l1 d l2 f o Hd); auto.
  rewrite E in Hfin. apply in_app_iff in Hfin. apply in_app_iff. destruct Hfin as [H|[H|H]]; auto.
  subst f. rewrite Hov in Hnd. discriminate Hnd.
Qed.
(** The observables of the disjoint factors are pairwise different *)
Lemma disjoint_nodup : forall pdfs, (forall f, In f pdfs -> NoDup (a_obs f)) -> NoDup (flat_map a_obs (disjoint_obs pdfs)).
Proof.
  intros pdfs HN.
  assert (G : forall pre l, pdfs = pre ++ l -> NoDup (flat_map a_obs (filter (fun f => negb (overlaps pdfs f)) l))).
  { intros pre l. revert pre. induction l as [|d l IH]; intros pre E; [constructor|]. cbn [filter].
    assert (IH' : NoDup (flat_map a_obs (filter (fun f => negb (overlaps pdfs f)) l))) by (apply (IH (pre ++ [d])); rewrite E, <- app_assoc; reflexivity).
    destruct (negb (overlaps pdfs d)) eqn:Ed; [|exact IH']. cbn [flat_map].
    assert (Hd : In d (disjoint_obs pdfs)) by (apply filter_In; split; [rewrite E; apply in_app_iff; right; left; reflexivity|exact Ed]).
    assert (ND : NoDup (a_obs d)) by (apply HN; rewrite E; apply in_app_iff; right; left; reflexivity).
    assert (X : forall o, In o (a_obs d) -> ~ In o (flat_map a_obs (filter (fun f => negb (overlaps pdfs f)) l))).
    { intros o Ho C. apply in_flat_map in C. destruct C as [f [Hf Hof]]. apply filter_In in Hf. destruct Hf as [Hf _].
      rewrite E in Hd. apply (disjoint_alone pre d l f o Hd); auto. apply in_app_iff. right. exact Hf. }
    revert ND X. generalize (a_obs d). clear - IH'. induction l0 as [|o l0 IH0]; intros ND X; [exact IH'|]. inversion ND; subst. simpl. constructor.
    - intro C. apply in_app_iff in C. destruct C as [C|C]; [contradiction|]. apply (X o (or_introl eq_refl)). exact C.
    - apply IH0; [assumption|]. intros q Hq. apply X. right. exact Hq. }
  apply (G [] pdfs eq_refl).
Qed.
(** Factors that are disjoint are all split off *)
Lemma all_disjoint : forall pdfs, NoDup (flat_map a_obs pdfs) -> same_obs pdfs = [] /\ disjoint_obs pdfs = pdfs.
Proof.
  intros pdfs ND. assert (H : forall f, In f pdfs -> overlaps pdfs f = false).
  { intros f Hf. destruct (overlaps pdfs f) eqn:E; [|reflexivity]. apply overlaps_iff in E. destruct E as [o [_ E]].
    exfalso. unfold shared in E. apply Nat.ltb_lt in E. clear Hf. induction ND as [|q l Hq ND IH]; simpl in E; [lia|].
    destruct (String.eqb o q) eqn:Eo; [|apply IH; exact E]. apply String.eqb_eq in Eo. subst q. simpl in E.
    assert (Z : filter (String.eqb o) l = []); [|rewrite Z in E; simpl in E; lia].
    destruct (filter (String.eqb o) l) as [|q r] eqn:Ef; [reflexivity|]. exfalso.
    assert (In q (filter (String.eqb o) l)) by (rewrite Ef; left; reflexivity). apply filter_In in H. destruct H as [A B].
    apply String.eqb_eq in B. subst q. contradiction. }
  unfold same_obs, disjoint_obs. revert H. generalize (overlaps pdfs). clear ND. intros p. induction pdfs as [|f l IH]; intro H; [auto|]. simpl.
  rewrite (H f (or_introl eq_refl)). simpl. destruct IH as [-> ->]; [intros; apply H; right; assumption|auto].
Qed.

(** ** Iterated integrals *)
Lemma iterated_agree : forall dims F o e e' v, (forall a b, (forall p, p <> o -> a p = b p) -> F a = F b) ->
  (forall p, p <> o -> e p = e' p) -> iterated dims F e v -> iterated dims F e' v.
Proof.
  induction dims as [|[q [a b]] dims IH]; intros F o e e' v HF He H; simpl in *.
  - rewrite H. apply HF. exact He.
  - destruct H as [g [G [H E]]]. exists g, G. split; [|exact E]. intros x Hx. destruct (H x Hx) as [H1 H2]. split; [|exact H2].
    apply (IH F o (upd e q x)); [exact HF| |exact H1]. intros p Hp. unfold upd. destruct (String.eqb p q); [reflexivity|auto].
Qed.
Lemma iterated_ext : forall dims F F' e v, (forall a, F a = F' a) -> iterated dims F e v -> iterated dims F' e v.
Proof.
  induction dims as [|[q [a b]] dims IH]; intros F F' e v HF H; simpl in *; [rewrite H; apply HF|].
  destruct H as [g [G [H E]]]. exists g, G. split; [|exact E]. intros x Hx. destruct (H x Hx) as [H1 H2]. split; [|exact H2].
  apply (IH F); assumption.
Qed.
Lemma iterated_scale : forall c dims F e v, iterated dims F e v -> iterated dims (fun a => c * F a) e (c * v).
Proof.
  intros c. induction dims as [|[q [a b]] dims IH]; intros F e v H; simpl in *; [rewrite H; reflexivity|].
  destruct H as [g [G [H E]]]. exists (fun x => c * g x), (fun x => c * G x). split.
  - intros x Hx. destruct (H x Hx) as [H1 H2]. split; [apply IH; exact H1|]. apply (derivable_pt_lim_scal G). exact H2.
  - rewrite E. ring.
Qed.
(** The integral of a product of functions of different variables *)
Definition item := (list string * ((string -> R) -> R) * R)%type.
Definition i_own (t : item) := fst (fst t).
Definition i_fun (t : item) := snd (fst t).
Definition i_val (t : item) : R := snd t.
Lemma iterated_product : forall dims e (ts : list item),
  NoDup (flat_map i_own ts) -> NoDup (map fst dims) -> incl (map fst dims) (flat_map i_own ts) ->
  (forall t, In t ts -> depends_on (i_own t) (i_fun t) /\ iterated (own_dims (i_own t) dims) (i_fun t) e (i_val t)) ->
  iterated dims (fun a => prod_list (map (fun t => i_fun t a) ts)) e (prod_list (map i_val ts)).
Proof.
  induction dims as [|[o [a b]] dims IH]; intros e ts HN HD HI HT.
  - simpl. apply prod_list_ext. intros t Ht. apply (HT t Ht).
  - assert (Ho : In o (flat_map i_own ts)) by (apply HI; left; reflexivity).
    apply in_flat_map in Ho. destruct Ho as [t0 [Ht0 Hot0]]. destruct (in_split t0 ts Ht0) as [l1 [l2 E]].
    assert (Other : forall t, In t (l1 ++ l2) -> ~ In o (i_own t)).
    { intros t Ht Hot. rewrite E, flat_map_app in HN. cbn [flat_map] in HN.
      assert (P : Permutation (flat_map i_own l1 ++ i_own t0 ++ flat_map i_own l2) (i_own t0 ++ flat_map i_own (l1 ++ l2))).
      { rewrite flat_map_app, !app_assoc. apply Permutation_app_tail, Permutation_app_comm. }
      apply (Permutation_NoDup P) in HN. assert (Hin : In o (flat_map i_own (l1 ++ l2))) by (apply in_flat_map; exists t; auto).
      clear - HN Hot0 Hin. induction (i_own t0) as [|q l IHl]; [destruct Hot0|]. simpl in HN. inversion HN; subst.
      destruct Hot0 as [->|H]; [apply H1, in_app_iff; right; exact Hin|apply IHl; assumption]. }
    assert (HD' : ~ In o (map fst dims) /\ NoDup (map fst dims)) by (inversion HD; auto). destruct HD' as [Hnd HD'].
    destruct (HT t0 Ht0) as [Dep0 It0]. unfold own_dims in It0. cbn [filter fst] in It0.
    assert (M0 : mem String.eqb o (i_own t0) = true) by (apply (mem_In _ string_eqb_ok); exact Hot0). rewrite M0 in It0.
    cbn [iterated] in It0. destruct It0 as [g [G [HG EG]]].
    set (c1 := prod_list (map i_val l1)). set (c2 := prod_list (map i_val l2)).
    exists (fun x => c1 * (g x * c2)), (fun x => c1 * (G x * c2)). split.
    + intros x Hx. destruct (HG x Hx) as [Hit Hder]. split.
      * set (ts' := l1 ++ (i_own t0, i_fun t0, g x) :: l2).
        assert (R1 : iterated dims (fun a => prod_list (map (fun t => i_fun t a) ts')) (upd e o x) (prod_list (map i_val ts'))).
        { assert (FO : flat_map i_own ts' = flat_map i_own ts) by (unfold ts'; rewrite E, !flat_map_app; reflexivity).
          apply IH.
          - rewrite FO. exact HN.
          - exact HD'.
          - rewrite FO. intros q Hq. apply HI. right. exact Hq.
          - intros t Ht. unfold ts' in Ht. apply in_app_iff in Ht. destruct Ht as [Ht|[<-|Ht]].
            + assert (Hin : In t (l1 ++ l2)) by (apply in_app_iff; left; exact Ht).
              destruct (HT t) as [D1 D2]; [rewrite E; apply in_app_iff; left; exact Ht|]. split; [exact D1|].
              unfold own_dims in D2. cbn [filter fst] in D2.
              assert (Mt : mem String.eqb o (i_own t) = false) by (apply (mem_false _ string_eqb_ok); apply Other; exact Hin). rewrite Mt in D2.
              apply (iterated_agree _ _ o e); [|intros p Hp; unfold upd; apply String.eqb_neq in Hp; rewrite Hp; reflexivity|exact D2].
              intros u w Huw. apply D1. intros p Hp. apply Huw. intros ->. apply (Other t Hin Hp).
            + split; [exact Dep0|exact Hit].
            + assert (Hin : In t (l1 ++ l2)) by (apply in_app_iff; right; exact Ht).
              destruct (HT t) as [D1 D2]; [rewrite E; apply in_app_iff; right; right; exact Ht|]. split; [exact D1|].
              unfold own_dims in D2. cbn [filter fst] in D2.
              assert (Mt : mem String.eqb o (i_own t) = false) by (apply (mem_false _ string_eqb_ok); apply Other; exact Hin). rewrite Mt in D2.
              apply (iterated_agree _ _ o e); [|intros p Hp; unfold upd; apply String.eqb_neq in Hp; rewrite Hp; reflexivity|exact D2].
              intros u w Huw. apply D1. intros p Hp. apply Huw. intros ->. apply (Other t Hin Hp). }
        assert (V : prod_list (map i_val ts') = c1 * (g x * c2)) by (unfold ts'; rewrite map_app, prod_list_app; reflexivity).
        rewrite V in R1. apply (iterated_ext _ (fun a => prod_list (map (fun t => i_fun t a) ts'))); [|exact R1].
        intro u. unfold ts'. rewrite E, !map_app, !prod_list_app. reflexivity.
      * apply (derivable_pt_lim_scal (fun x => G x * c2)).
        replace (g x * c2) with (c2 * g x) by ring.
        assert (X : derivable_pt_lim (fun x => c2 * G x) x (c2 * g x)) by (apply (derivable_pt_lim_scal G); exact Hder).
        intros eps He. destruct (X eps He) as [del Hdel]. exists del. intros h Hh Hd. specialize (Hdel h Hh Hd).
        replace ((G (x + h) * c2 - G x * c2) / h - c2 * g x) with ((c2 * G (x + h) - c2 * G x) / h - c2 * g x); [exact Hdel|]. f_equal. f_equal. ring.
    + rewrite E, map_app, prod_list_app. cbn [map prod_list]. fold c1 c2. rewrite EG. ring.
Qed.
