(** Lemmas about [SimpleLoss]. *)
From Verif Require Import Base BaseLemmas PGraph_Proofs Sloss_Model Sloss_Spec.
From Coq Require Import ZArith Sorting.Sorted Permutation.

Lemma str_mem n l : mem String.eqb n l = true <-> In n l.
Proof. apply (mem_In _ string_eqb_ok). Qed.

(** * unions *)
Lemma add_par_names l p n : In n (map p_name (add_par l p)) <-> In n (map p_name l) \/ n = p_name p.
Proof.
  unfold add_par. destruct (mem _ _ _) eqn:E.
  - apply str_mem in E. split; [auto|]. intros [H| ->]; auto.
  - rewrite map_app, in_app_iff. cbn. intuition.
Qed.
Lemma union_names b a n : In n (map p_name (union a b)) <-> In n (map p_name a) \/ In n (map p_name b).
Proof.
  unfold union. revert a. induction b as [|p b IH]; intros a; cbn.
  - tauto.
  - rewrite IH, add_par_names. intuition.
Qed.
Lemma add_par_in l p q : In q (add_par l p) -> In q l \/ q = p.
Proof.
  unfold add_par. destruct (mem _ _ _); [auto|]. rewrite in_app_iff. cbn. intuition.
Qed.
Lemma union_in b a q : In q (union a b) -> In q a \/ In q b.
Proof.
  unfold union. revert a. induction b as [|p b IH]; intros a; cbn; [auto|].
  intros H. apply IH in H as [H|H]; [|auto]. apply add_par_in in H as [H| ->]; auto.
Qed.
Lemma union_nodup b a : NoDup (map p_name a) -> NoDup (map p_name (union a b)).
Proof.
  unfold union. revert a. induction b as [|p b IH]; intros a H; cbn; [auto|].
  apply IH. unfold add_par. destruct (mem _ _ _) eqn:E; [auto|].
  rewrite map_app. apply (Permutation_NoDup (Permutation_cons_append _ _)).
  constructor; [|auto]. intros I. apply str_mem in I. congruence.
Qed.

Definition indep_all (ps : list par) : Prop := forall p, In p ps -> p_indep p = true.
Lemma indep_eq p : p_indep p = true -> p = Indep (p_name p).
Proof. destruct p; [reflexivity|discriminate]. Qed.
Lemma deps_indep ps : indep_all ps -> map Indep (flat_map p_deps ps) = ps.
Proof.
  intros H. induction ps as [|p ps IH]; cbn; [reflexivity|].
  assert (p_indep p = true) by (apply H; now left). destruct p; [|discriminate]. cbn.
  f_equal. apply IH. intros q I. apply H. now right.
Qed.
Lemma independents_names ps n : indep_all ps ->
  (In n (map p_name (independents ps)) <-> In n (map p_name ps)).
Proof. intros H. unfold independents. rewrite deps_indep by auto. rewrite union_names. cbn. tauto. Qed.
Lemma independents_indep ps : indep_all (independents ps).
Proof.
  intros p I. unfold independents in I. apply union_in in I as [[]|I].
  apply in_map_iff in I as (n & <- & _). reflexivity.
Qed.
Lemma everything_names ps n : indep_all ps ->
  (In n (map p_name (everything ps)) <-> In n (map p_name ps)).
Proof.
  intros H. unfold everything. rewrite !union_names, independents_names by auto. cbn. tauto.
Qed.
Lemma everything_indep ps : indep_all ps -> indep_all (everything ps).
Proof.
  intros H p I. unfold everything in I. apply union_in in I as [I|I].
  - apply union_in in I as [[]|I]; auto.
  - now apply independents_indep in I.
Qed.
Lemma union_indep a b : indep_all a -> indep_all b -> indep_all (union a b).
Proof. intros A B p I. apply union_in in I as [I|I]; auto. Qed.

Lemma only_independent_sum a b :
  only_independent (Sum a b) <-> only_independent a /\ only_independent b.
Proof.
  unfold only_independent; cbn. split.
  - intros H. split; intros x p I; apply H; apply in_or_app; auto.
  - intros [A B] x p I. apply in_app_or in I as [I|I]; [apply A|apply B]; auto.
Qed.
Lemma all_params_indep l : only_independent l -> indep_all (all_params l).
Proof.
  induction l as [f ps ed|k g ps ed|a IHa b IHb]; intros H; cbn.
  - apply everything_indep. intros p I. apply (H (Simple f ps ed)); [now left|exact I].
  - apply everything_indep. intros p I. apply (H (Other k g ps ed)); [now left|exact I].
  - apply only_independent_sum in H as [A B]. apply everything_indep, union_indep; auto.
Qed.
Lemma own_params_indep l : only_independent l -> indep_all (own_params l).
Proof.
  destruct l as [f ps ed|k g ps ed|a b]; intros H; cbn.
  - intros p I. apply (H (Simple f ps ed)); [now left|exact I].
  - intros p I. apply (H (Other k g ps ed)); [now left|exact I].
  - apply only_independent_sum in H as [A B]. apply union_indep; now apply all_params_indep.
Qed.
Lemma names_sum a b n : In n (names_of (Sum a b)) <-> In n (names_of a) \/ In n (names_of b).
Proof. unfold names_of. cbn. rewrite flat_map_app, map_app, in_app_iff. tauto. Qed.
Lemma all_params_names l n : only_independent l ->
  (In n (map p_name (all_params l)) <-> In n (names_of l)).
Proof.
  induction l as [f ps ed|k g ps ed|a IHa b IHb]; intros H.
  - cbn [all_params]. rewrite everything_names; [|exact (own_params_indep _ H)].
    unfold names_of. cbn. now rewrite app_nil_r.
  - cbn [all_params]. rewrite everything_names; [|exact (own_params_indep _ H)].
    unfold names_of. cbn. now rewrite app_nil_r.
  - pose proof H as H0. apply only_independent_sum in H as [A B]. cbn [all_params].
    rewrite everything_names; [|exact (own_params_indep _ H0)].
    rewrite union_names, IHa, IHb, names_sum by auto. tauto.
Qed.
Lemma indep_names_in l n : only_independent l -> (In n (indep_names l) <-> In n (names_of l)).
Proof.
  intros H. unfold indep_names. rewrite independents_names; [|exact (own_params_indep _ H)].
  destruct l as [f ps ed|k g ps ed|a b]; cbn [own_params].
  - unfold names_of. cbn. now rewrite app_nil_r.
  - unfold names_of. cbn. now rewrite app_nil_r.
  - apply only_independent_sum in H as [A B].
    rewrite union_names, !all_params_names, names_sum by auto. tauto.
Qed.

(** * environments *)
Lemma set_all_id pv e : (forall n v, In (n, v) pv -> v = e n) -> forall n, set_all e pv n = e n.
Proof.
  unfold set_all. assert (G : forall e1, (forall n, e1 n = e n) -> (forall n v, In (n, v) pv -> v = e n) ->
    forall n, fold_left (fun e nv => set_env e (fst nv) (snd nv)) pv e1 n = e n).
  { induction pv as [|[m v] pv IH]; intros e1 E H n; cbn; [auto|].
    apply IH.
    - intros k. unfold set_env. destruct (String.eqb k m) eqn:X; [|auto].
      apply String.eqb_eq in X. subst. apply H. now left.
    - intros k w I. apply H. now right. }
  intros H. apply G; auto.
Qed.
Lemma check_names_nil l : check_names l [] = true.
Proof. reflexivity. Qed.
Lemma check_names_ok l pv : (forall n, In n (map fst pv) -> In n (indep_names l)) -> check_names l pv = true.
Proof.
  intros H. unfold check_names, subsetb. apply forallb_forall. intros n I. apply str_mem. auto.
Qed.

Lemma ext_all_sum a b : ext_all (Sum a b) -> ext_all a /\ ext_all b.
Proof. intros H. split; intros x I; apply H; cbn; apply in_or_app; auto. Qed.

Lemma set_all_ext pv e e' : (forall n, e n = e' n) -> forall n, set_all e pv n = set_all e' pv n.
Proof.
  unfold set_all. revert e e'. induction pv as [|[m v] pv IH]; intros e e' H n; cbn; [auto|].
  apply IH. intros k. unfold set_env. destruct (String.eqb k m); auto.
Qed.
Lemma p_values_ext ps e e' : indep_all ps -> (forall n, e n = e' n) ->
  map (fun p => p_value p e) ps = map (fun p => p_value p e') ps.
Proof.
  intros H E. apply map_ext_in. intros p I. specialize (H p I). destruct p; [apply E|discriminate].
Qed.
Lemma value_ext l pv e e' :
  only_independent l -> ext_all l -> (forall n, e n = e' n) -> value l pv e = value l pv e'.
Proof.
  revert pv e e'. induction l as [f ps ed|k g ps ed|a IHa b IHb]; intros pv e e' I X E; cbn [value].
  - destruct (check_names _ pv); [|reflexivity]. cbn [negb].
    rewrite (p_values_ext ps (set_all e pv) (set_all e' pv)); [reflexivity|exact (own_params_indep _ I)|].
    now apply set_all_ext.
  - destruct (check_names _ pv); [|reflexivity]. cbn [negb].
    apply (X (Other k g ps ed) (or_introl eq_refl)). now apply set_all_ext.
  - destruct (check_names _ pv); [|reflexivity]. cbn [negb].
    pose proof (set_all_ext pv e e' E) as E2.
    pose proof (own_params_indep _ I) as IP. cbn [own_params] in IP.
    apply only_independent_sum in I as [A B]. apply ext_all_sum in X as [XA XB].
    assert (forallb p_indep (union (all_params a) (all_params b)) = true) as ->.
    { apply forallb_forall. exact IP. }
    destruct (take_apart _ _) as [pa|er]; [|reflexivity]. cbn [bind fst snd].
    assert (map (fun p => (p_name p, p_value p (set_all e pv)))
              (filter (fun p => mem String.eqb (p_name p) (indep_names b)) (union (all_params a) (all_params b)))
            = map (fun p => (p_name p, p_value p (set_all e' pv)))
              (filter (fun p => mem String.eqb (p_name p) (indep_names b)) (union (all_params a) (all_params b)))) as ->.
    { apply map_ext_in. intros p Ip. apply filter_In in Ip as [Ip _]. specialize (IP p Ip).
      destruct p; [cbn; now rewrite E2|discriminate]. }
    rewrite (IHa pa _ (set_all e' pv)) by auto.
    now rewrite (IHb _ (set_all e pv) (set_all e' pv)) by auto.
Qed.

(** * names of two characters *)
Lemma take_apart_ok names self :
  (forall n, In n names -> String.length n = 2) -> (forall n, In n self -> String.length n = 2) ->
  take_apart names self = Ok [].
Proof.
  intros N S. unfold take_apart.
  assert (forallb (fun n => Nat.eqb (String.length n) 2) names = true) as ->.
  { apply forallb_forall. intros n I. apply Nat.eqb_eq. auto. }
  cbn [negb].
  destruct (existsb _ _) eqn:E; [|reflexivity]. exfalso.
  apply existsb_exists in E as (n & I & M). apply str_mem in M.
  specialize (S _ M). specialize (N _ I).
  destruct n as [|c [|d [|x r]]]; cbn in N; discriminate.
Qed.
Lemma take_apart_err names self n :
  In n names -> String.length n <> 2 -> take_apart names self = Err ValueError.
Proof.
  intros I N. unfold take_apart.
  assert (forallb (fun n => Nat.eqb (String.length n) 2) names = false) as ->; [|reflexivity].
  destruct (forallb _ _) eqn:E; [|reflexivity]. exfalso. rewrite forallb_forall in E.
  specialize (E n I). apply Nat.eqb_eq in E. contradiction.
Qed.

(** The value of a sum of losses with names of two characters. *)
Lemma value_sum a b e :
  only_independent (Sum a b) -> ext_all (Sum a b) ->
  (forall n, In n (names_of (Sum a b)) -> String.length n = 2) ->
  value (Sum a b) [] e =
  (let* va := value a [] e in let* vb := value b [] e in Ok (va + scale a b * vb)%Q).
Proof.
  intros I X N. cbn [value]. rewrite check_names_nil. cbn [negb set_all fold_left].
  change (set_all e []) with e.
  pose proof (own_params_indep _ I) as IP. cbn [own_params] in IP.
  pose proof I as I0. apply only_independent_sum in I as [A B]. apply ext_all_sum in X as [XA XB].
  assert (forallb p_indep (union (all_params a) (all_params b)) = true) as ->.
  { apply forallb_forall. exact IP. }
  rewrite take_apart_ok.
  - cbn [bind fst snd].
    destruct (value a [] e) as [va|er]; [|reflexivity]. cbn [bind].
    set (pb := map _ (filter _ _)).
    assert (value b pb e = value b [] e) as ->; [|reflexivity].
    assert (P : forall n v, In (n, v) pb -> v = e n /\ In n (indep_names b)).
    { intros n v J. apply in_map_iff in J as (p & [= <- <-] & Jp).
      apply filter_In in Jp as [Jp M]. apply str_mem in M. split; [|exact M].
      specialize (IP p Jp). destruct p; [reflexivity|discriminate]. }
    assert (C : check_names b pb = true).
    { apply check_names_ok. intros n J. apply in_map_iff in J as ([m v] & <- & J). apply (P m v J). }
    assert (E : forall n, set_all e pb n = e n).
    { apply set_all_id. intros n v J. apply (P n v J). }
    clearbody pb. destruct b as [f ps ed|k g ps ed|b1 b2]; cbn [value].
    + rewrite C, check_names_nil. cbn [negb].
      now rewrite (p_values_ext ps (set_all e pb) e) by (auto; exact (own_params_indep _ B)).
    + rewrite C, check_names_nil. cbn [negb].
      exact (XB (Other k g ps ed) (or_introl eq_refl) _ _ E).
    + rewrite C, check_names_nil. cbn [negb].
      pose proof (value_ext (Sum b1 b2) [] (set_all e pb) e B XB E) as V. cbn [value] in V.
      rewrite check_names_nil in V. cbn [negb] in V. exact V.
  - intros n J. apply union_names in J as [J|J]; apply all_params_names in J; auto; apply N, names_sum; auto.
  - intros n J. apply indep_names_in in J; auto. apply N, names_sum. auto.
Qed.
Lemma value_sum_err a b e n :
  only_independent (Sum a b) -> In n (names_of (Sum a b)) -> String.length n <> 2 ->
  value (Sum a b) [] e = Err ValueError.
Proof.
  intros I J N. cbn [value]. rewrite check_names_nil. cbn [negb].
  pose proof (own_params_indep _ I) as IP. cbn [own_params] in IP.
  apply only_independent_sum in I as [A B].
  assert (forallb p_indep (union (all_params a) (all_params b)) = true) as ->.
  { apply forallb_forall. exact IP. }
  rewrite (take_apart_err _ _ n); auto. apply union_names. apply names_sum in J as [J|J].
  - left. now apply all_params_names.
  - right. now apply all_params_names.
Qed.


(** Every value of a sum, in units of its errordef, is the sum of those of its parts. *)
Lemma sumQ_app a b : (sumQ (a ++ b) == sumQ a + sumQ b)%Q.
Proof.
  unfold sumQ. induction a as [|x a IH]; cbn [app fold_right]; [now rewrite Qplus_0_l|].
  rewrite IH. ring.
Qed.
Lemma errordef_leaf l : exists x, In x (leaves l) /\ errordef l = errordef x.
Proof.
  induction l as [f ps ed|k g ps ed|a IHa b IHb]; cbn.
  - eexists. split; [now left|reflexivity].
  - eexists. split; [now left|reflexivity].
  - destruct IHa as (x & I & E). exists x. split; [apply in_or_app; auto|exact E].
Qed.
Lemma scale_ok a b : ~ (errordef a == 0)%Q -> ~ (errordef b == 0)%Q ->
  (scale a b == errordef a / errordef b)%Q.
Proof.
  intros A B. unfold scale. destruct (Qeq_bool _ _) eqn:E; [|reflexivity].
  apply Qeq_bool_iff in E. rewrite E. field. exact B.
Qed.
Lemma value_leaves l e v :
  only_independent l -> ext_all l -> (forall n, In n (names_of l) -> String.length n = 2) ->
  (forall x, In x (leaves l) -> ~ (errordef x == 0)%Q) ->
  value l [] e = Ok v ->
  exists ts, Forall2 (share e) (leaves l) ts /\ (v / errordef l == sumQ ts)%Q.
Proof.
  revert v. induction l as [f ps ed|k g ps ed|a IHa b IHb]; intros v I X N D H.
  - exists [(v / ed)%Q]. cbn [leaves]. split.
    + constructor; [|constructor]. exists v. auto.
    + cbn [sumQ fold_right errordef]. now rewrite Qplus_0_r.
  - exists [(v / ed)%Q]. cbn [leaves]. split.
    + constructor; [|constructor]. exists v. auto.
    + cbn [sumQ fold_right errordef]. now rewrite Qplus_0_r.
  - rewrite value_sum in H by auto.
    assert (NA : ~ (errordef a == 0)%Q).
    { destruct (errordef_leaf a) as (x & J & ->). apply D. cbn. apply in_or_app. auto. }
    assert (NB : ~ (errordef b == 0)%Q).
    { destruct (errordef_leaf b) as (x & J & ->). apply D. cbn. apply in_or_app. auto. }
    apply only_independent_sum in I as [A B]. apply ext_all_sum in X as [XA XB].
    destruct (value a [] e) as [va|er] eqn:EA; [|discriminate].
    destruct (value b [] e) as [vb|er] eqn:EB; [|discriminate].
    cbn [bind] in H. injection H as <-.
    destruct (IHa va A XA) as (ta & Fa & Sa); auto.
    { intros n J. apply N, names_sum. auto. }
    { intros x J. apply D. cbn. apply in_or_app. auto. }
    destruct (IHb vb B XB) as (tb & Fb & Sb); auto.
    { intros n J. apply N, names_sum. auto. }
    { intros x J. apply D. cbn. apply in_or_app. auto. }
    exists (ta ++ tb). cbn [leaves errordef]. split; [now apply Forall2_app|].
    rewrite sumQ_app, <- Sa, <- Sb. rewrite (scale_ok a b NA NB). field. auto.
Qed.
Lemma leaves_value l e ts :
  only_independent l -> ext_all l -> (forall n, In n (names_of l) -> String.length n = 2) ->
  Forall2 (share e) (leaves l) ts -> exists v, value l [] e = Ok v.
Proof.
  revert ts. induction l as [f ps ed|k g ps ed|a IHa b IHb]; intros ts I X N F.
  - cbn [leaves] in F. inversion F as [|? ? ? ? (w & W & _)]; subst. eauto.
  - cbn [leaves] in F. inversion F as [|? ? ? ? (w & W & _)]; subst. eauto.
  - rewrite value_sum by auto.
    apply only_independent_sum in I as [A B]. apply ext_all_sum in X as [XA XB].
    cbn [leaves] in F. apply Forall2_app_inv_l in F as (ta & tb & Fa & Fb & _).
    destruct (IHa ta A XA) as (va & ->); auto.
    { intros n J. apply N, names_sum. auto. }
    destruct (IHb tb B XB) as (vb & ->); auto.
    { intros n J. apply N, names_sum. auto. }
    cbn. eauto.
Qed.

(** * Converters *)
Section Conv.
Context {A B : Type}.
Implicit Types c d : converter A B.
Definition desc (c d : converter A B) : Prop := (priority d <= priority c)%Z.
Lemma insert_desc_perm c (l : list (converter A B)) : Permutation (c :: l) (insert_desc c l).
Proof.
  induction l as [|d l IH]; cbn; [reflexivity|]. destruct (_ <? _)%Z; [reflexivity|].
  rewrite perm_swap. now constructor.
Qed.
Lemma insert_desc_sorted c (l : list (converter A B)) : StronglySorted desc l -> StronglySorted desc (insert_desc c l).
Proof.
  induction l as [|d l IH]; intros H; cbn.
  - repeat constructor.
  - apply StronglySorted_inv in H as [H F]. destruct (_ <? _)%Z eqn:E.
    + apply Z.ltb_lt in E. constructor; [now constructor|]. constructor; [unfold desc; lia|].
      eapply Forall_impl; [|exact F]. unfold desc. intros x. lia.
    + apply Z.ltb_ge in E. constructor; [auto|]. rewrite Forall_forall in *. intros x I.
      apply (Permutation_in _ (Permutation_sym (insert_desc_perm c l))) in I as [<-|I];
        [exact E|auto].
Qed.
Lemma insert_desc_last c (l : list (converter A B)) : StronglySorted desc l -> (forall d, In d l -> desc d c) ->
  insert_desc c l = l ++ [c].
Proof.
  induction l as [|d l IH]; intros H D; cbn; [reflexivity|].
  apply StronglySorted_inv in H as [H F].
  assert ((priority d <? priority c)%Z = false) as ->.
  { apply Z.ltb_ge. apply (D d). now left. }
  rewrite IH; auto. intros x I. apply D. now right.
Qed.
Lemma sort_desc_app (l : list (converter A B)) c : sort_desc (l ++ [c]) = insert_desc c (sort_desc l).
Proof. unfold sort_desc. now rewrite fold_left_app. Qed.
Lemma sort_desc_sorted (l : list (converter A B)) : StronglySorted desc (sort_desc l).
Proof.
  induction l as [|c l IH] using rev_ind; [constructor|]. rewrite sort_desc_app.
  now apply insert_desc_sorted.
Qed.
Lemma sorted_app_inv l c : StronglySorted desc (l ++ [c]) ->
  StronglySorted desc l /\ forall d, In d l -> desc d c.
Proof.
  induction l as [|d l IH]; cbn; intros H.
  - split; [constructor|]. intros d [].
  - apply StronglySorted_inv in H as [H F]. destruct (IH H) as [S D]. split.
    + constructor; auto. rewrite Forall_forall in *. intros x I. apply F, in_or_app. auto.
    + intros x [<-|I]; [|auto]. rewrite Forall_forall in F. apply F, in_or_app. right. now left.
Qed.
Lemma sort_desc_id (l : list (converter A B)) : StronglySorted desc l -> sort_desc l = l.
Proof.
  induction l as [|c l IH] using rev_ind; intros H; [reflexivity|].
  apply sorted_app_inv in H as [S D]. rewrite sort_desc_app, IH by auto. now apply insert_desc_last.
Qed.
Lemma registered (cs : list (converter A B)) : fold_left register cs [] = sort_desc cs.
Proof.
  induction cs as [|c cs IH] using rev_ind; [reflexivity|].
  rewrite fold_left_app, sort_desc_app, IH. cbn. unfold register.
  rewrite sort_desc_app, sort_desc_id; auto. apply sort_desc_sorted.
Qed.
Definition at_z (z : Z) (l : list (converter A B)) := filter (fun d => Z.eqb (priority d) z) l.
Lemma insert_desc_at c (l : list (converter A B)) z : StronglySorted desc l -> at_z z (insert_desc c l) = at_z z (l ++ [c]).
Proof.
  unfold at_z. induction l as [|d l IH]; intros H; cbn; [reflexivity|].
  apply StronglySorted_inv in H as [H F]. destruct (_ <? _)%Z eqn:E.
  - apply Z.ltb_lt in E. cbn. rewrite filter_app. cbn.
    destruct (Z.eqb (priority c) z) eqn:Ec.
    + apply Z.eqb_eq in Ec.
      assert ((priority d =? z)%Z = false) as -> by (apply Z.eqb_neq; lia).
      assert (filter (fun d0 => (priority d0 =? z)%Z) l = []) as ->; [|reflexivity].
      clear - E Ec F. induction l as [|x l IH]; [reflexivity|].
      inversion F as [|? ? Fx Fl]; subst. unfold desc in Fx. cbn.
      assert ((priority x =? priority c)%Z = false) as -> by (apply Z.eqb_neq; lia). auto.
    + now rewrite app_nil_r.
  - cbn. rewrite IH by auto. reflexivity.
Qed.
Lemma sort_desc_at (l : list (converter A B)) z : at_z z (sort_desc l) = at_z z l.
Proof.
  induction l as [|c l IH] using rev_ind; [reflexivity|].
  rewrite sort_desc_app, insert_desc_at by apply sort_desc_sorted.
  unfold at_z in *. now rewrite !filter_app, IH.
Qed.
Lemma sort_desc_in (l : list (converter A B)) c : In c (sort_desc l) <-> In c l.
Proof.
  assert (P : Permutation l (sort_desc l)).
  { induction l as [|x l IH] using rev_ind; [constructor|]. rewrite sort_desc_app.
    rewrite <- Permutation_cons_append. rewrite IH at 1. apply insert_desc_perm. }
  split; apply Permutation_in; [now symmetry|exact P].
Qed.
Lemma from_any_split (l : list (converter A B)) x b : from_any l x = Ok b ->
  exists l1 c l2, l = l1 ++ c :: l2 /\ conv c x = Some b /\ forall d, In d l1 -> conv d x = None.
Proof.
  induction l as [|c l IH]; cbn; [discriminate|]. destruct (conv c x) as [b0|] eqn:E.
  - intros H. injection H as ->. exists [], c, l. repeat split; auto. intros d [].
  - intros H. destruct (IH H) as (l1 & c1 & l2 & -> & E1 & N). exists (c :: l1), c1, l2.
    repeat split; auto. intros d [<-|I]; auto.
Qed.
Lemma filter_split (P : converter A B -> bool) cs u c v : filter P cs = u ++ c :: v ->
  exists pre post, cs = pre ++ c :: post /\ filter P pre = u.
Proof.
  revert u. induction cs as [|d cs IH]; intros u H; cbn in H.
  - destruct u; discriminate.
  - destruct (P d) eqn:E.
    + destruct u as [|y u]; cbn in H.
      * injection H as -> H. exists [], cs. auto.
      * injection H as -> H. destruct (IH u H) as (pre & post & -> & F).
        exists (y :: pre), post. split; [reflexivity|]. cbn. now rewrite E, F.
    + destruct (IH u H) as (pre & post & -> & F). exists (d :: pre), post. split; [reflexivity|].
      cbn. now rewrite E.
Qed.
Lemma from_any_first (cs : list (converter A B)) x b :
  from_any (fold_left register cs []) x = Ok b ->
  exists pre c post, cs = pre ++ c :: post /\ conv c x = Some b
    /\ (forall d, In d cs -> conv d x <> None -> (priority d <= priority c)%Z)
    /\ (forall d, In d pre -> priority d = priority c -> conv d x = None).
Proof.
  intros H. rewrite registered in H.
  destruct (from_any_split _ _ _ H) as (l1 & c & l2 & E & Ec & N).
  pose proof (sort_desc_at cs (priority c)) as S. rewrite E in S. unfold at_z in S.
  rewrite filter_app in S. cbn in S. rewrite Z.eqb_refl in S. symmetry in S.
  destruct (filter_split _ _ _ _ _ S) as (pre & post & -> & F).
  exists pre, c, post. split; [reflexivity|]. split; [exact Ec|]. split.
  - intros d I D. apply sort_desc_in in I. rewrite E in I.
    apply in_app_or in I as [I|[<-|I]]; [now apply N in I|lia|].
    pose proof (sort_desc_sorted (pre ++ c :: post)) as SS. rewrite E in SS.
    clear - SS I. induction l1 as [|y l1 IH]; cbn in SS; apply StronglySorted_inv in SS as [SS FF].
    + rewrite Forall_forall in FF. now apply FF.
    + auto.
  - intros d I P. apply N. assert (J : In d (filter (fun d0 => (priority d0 =? priority c)%Z) pre)).
    { apply filter_In. split; auto. now apply Z.eqb_eq. }
    rewrite F in J. now apply filter_In in J.
Qed.
Lemma from_any_none (cs : list (converter A B)) x :
  from_any (fold_left register cs []) x = Err RuntimeError <-> forall d, In d cs -> conv d x = None.
Proof.
  rewrite registered. split.
  - intros H d I. apply sort_desc_in in I. revert H I. generalize (sort_desc cs). intros l.
    induction l as [|c l IH]; cbn; [intros _ []|]. destruct (conv c x) eqn:E; [discriminate|].
    intros H [<-|I]; auto.
  - intros H. assert (G : forall d, In d (sort_desc cs) -> conv d x = None).
    { intros d I. apply H. now apply sort_desc_in. }
    revert G. generalize (sort_desc cs). intros l. induction l as [|c l IH]; intros G; cbn; [reflexivity|].
    rewrite (G c) by now left. apply IH. intros d I. apply G. now right.
Qed.
End Conv.
