From Verif Require Import Base BaseLemmas Param_Model Param_Spec Param_Proofs Param_Proofs2 Param_Proofs3 Mini_Model Mini_Spec.

Lemma same_bv_refl st : same_but_values st st.
Proof. split; [intros i; repeat split|reflexivity]. Qed.
Lemma same_bv_trans a b c : same_but_values a b -> same_but_values b c -> same_but_values a c.
Proof.
  intros [A RA] [B RB]. split; [|congruence]. intros i. destruct (A i) as (?&?&?&?), (B i) as (?&?&?&?). repeat split; congruence.
Qed.

(** Assigning *)
Lemma assign_each_par ids : forall vs st i, length vs = length ids -> NoDup ids ->
  st_par (assign_each st ids vs) i =
  match lookup Nat.eqb i (combine ids vs) with Some v => with_raw (st_par st i) v | None => st_par st i end.
Proof.
  induction ids as [|j ids IH]; intros [|v vs] st i L ND; try discriminate; [reflexivity|].
  inversion ND as [|? ? N1 N2]; subst. cbn [assign_each combine lookup]. cbn in L. rewrite IH by (try lia; assumption).
  unfold assign, set_par. cbn [st_par]. destruct (Nat.eqb i j) eqn:E.
  - apply Nat.eqb_eq in E. subst j. assert (lookup Nat.eqb i (combine ids vs) = None) as ->.
    { destruct (lookup Nat.eqb i (combine ids vs)) as [w|] eqn:LK; [|reflexivity]. exfalso. apply N1.
      clear -LK. revert vs LK. induction ids as [|k ids IH]; intros [|v vs] LK; try discriminate. cbn in LK.
      destruct (Nat.eqb i k) eqn:E; [left; symmetry; apply Nat.eqb_eq; exact E|right; apply (IH vs); exact LK]. }
    apply upd_same.
  - apply Nat.eqb_neq in E. rewrite !upd_other by exact E. reflexivity.
Qed.
Lemma assign_each_bv ids : forall vs st, same_but_values st (assign_each st ids vs).
Proof.
  induction ids as [|j ids IH]; intros [|v vs] st; try apply same_bv_refl. cbn [assign_each].
  eapply same_bv_trans; [|apply IH]. split; [|reflexivity]. intros i. unfold assign, set_par. cbn [st_par].
  destruct (Nat.eq_dec i j) as [->|H]; [rewrite upd_same|rewrite upd_other by exact H]; repeat split.
Qed.
Lemma lookup_map_pairs (f : nat -> num) ids i :
  lookup Nat.eqb i (combine ids (map f ids)) = if mem Nat.eqb i ids then Some (f i) else None.
Proof.
  induction ids as [|j ids IH]; [reflexivity|]. cbn [map combine lookup mem existsb]. destruct (Nat.eqb i j) eqn:E; cbn [orb].
  - apply Nat.eqb_eq in E. subst. reflexivity.
  - exact IH.
Qed.

(** The values of a result *)
Definition value_in (r : list (nat * num)) (i : nat) : num := match lookup Nat.eqb i r with Some v => v | None => NaN end.
Lemma pick_result_spec r ids :
  pick_result r (map OIndep ids) false =
  if forallb (fun i => mem Nat.eqb i (map fst r)) ids then Ok (map OIndep ids, map (value_in r) ids) else Err ValueError.
Proof.
  induction ids as [|i ids IH]; [reflexivity|]. cbn [map pick_result forallb]. unfold value_in at 1.
  assert (M : mem Nat.eqb i (map fst r) = match lookup Nat.eqb i r with Some _ => true | None => false end).
  { clear. induction r as [|[j v] r IH]; [reflexivity|]. cbn. destruct (Nat.eqb i j); [reflexivity|exact IH]. }
  rewrite M. destruct (lookup Nat.eqb i r) as [v|]; [|reflexivity]. cbn [andb]. rewrite IH.
  destruct (forallb _ ids); reflexivity.
Qed.
Lemma convert_result_spec nm r ids :
  convert_values nm (map OIndep ids) (VResult r) false =
  if forallb (fun i => mem Nat.eqb i (map fst r)) ids then Ok (ids, map (value_in r) ids) else Err ValueError.
Proof.
  assert (E : convert_values nm (map OIndep ids) (VResult r) false =
    let* q := pick_result r (map OIndep ids) false in
    let (ps', vs') := q in
    if negb (forallb is_param ps') then Err TypeError
    else if negb (forallb is_indep ps') then Err ParameterNotIndependentError
    else Ok (indep_ids ps', vs')) by (destruct ids; reflexivity).
  rewrite E, pick_result_spec. destruct (forallb _ ids); [|reflexivity]. cbn [bind].
  rewrite all_params, all_indep, indep_ids_map. reflexivity.
Qed.
Lemma value_in_In r i v : NoDup (map fst r) -> In (i, v) r -> value_in r i = v.
Proof. intros ND H. unfold value_in. rewrite (lookup_in_unique _ nat_eqb_ok _ _ _ ND H). reflexivity. Qed.
Lemma mem_keys (r : list (nat * num)) i : mem Nat.eqb i (map fst r) = true -> exists v, In (i, v) r.
Proof. intros H. apply (mem_In _ nat_eqb_ok) in H. apply in_map_iff in H. destruct H as ([j v]&E&H). cbn in E. subst. eauto. Qed.

(** Ordered sets *)
Lemma order_set_acc l : forall acc, NoDup acc ->
  NoDup (fold_left (fun acc x => if mem Nat.eqb x acc then acc else acc ++ [x]) l acc) /\
  (forall i, In i (fold_left (fun acc x => if mem Nat.eqb x acc then acc else acc ++ [x]) l acc) <-> In i acc \/ In i l).
Proof.
  induction l as [|x l IH]; intros acc ND; [split; [exact ND|intros i; cbn; tauto]|]. cbn [fold_left].
  destruct (mem Nat.eqb x acc) eqn:M.
  - destruct (IH acc ND) as [A B]. split; [exact A|]. intros i. rewrite B. apply (mem_In _ nat_eqb_ok) in M. cbn. intuition congruence.
  - assert (ND' : NoDup (acc ++ [x])).
    { apply NoDup_Add with (a := x) (l := acc).
      - rewrite <- (app_nil_r acc) at 1. apply Add_app.
      - split; [exact ND|]. apply (mem_false _ nat_eqb_ok). exact M. }
    destruct (IH _ ND') as [A B]. split; [exact A|]. intros i. rewrite B, in_app_iff. cbn. tauto.
Qed.
Lemma order_set_ok l : NoDup (order_set l) /\ forall i, In i (order_set l) <-> In i l.
Proof. destruct (order_set_acc l [] (NoDup_nil _)) as [A B]. split; [exact A|]. intros i. rewrite (B i). cbn. tauto. Qed.

Lemma given_In {A} (m : list (A * option num)) a v : In (a, v) (given m) <-> In (a, Some v) m.
Proof.
  induction m as [|[b [w|]] m IH]; cbn; [tauto|rewrite IH|rewrite IH]; split; intros H; intuition (try congruence).
Qed.
Lemma given_keys {A} (m : list (A * option num)) : NoDup (map fst m) -> NoDup (map fst (given m)).
Proof.
  induction m as [|[b [w|]] m IH]; cbn; intros ND; inversion ND as [|? ? N1 N2]; subst; auto.
  constructor; [|auto]. intros H. apply N1. apply in_map_iff in H. destruct H as ([c u]&E&H). cbn in E. subst c.
  apply given_In in H. apply in_map_iff. exists (b, Some u). auto.
Qed.

Lemma floating_ids_bv st st' ids : same_but_values st st' -> floating_ids st' ids = floating_ids st ids.
Proof. intros [B _]. unfold floating_ids. apply filter_ext. intros i. apply B. Qed.
Lemma floating_ids_In st ids i : In i (floating_ids st ids) <-> In i ids /\ p_floating (st_par st i) = true.
Proof. unfold floating_ids. apply filter_In. Qed.

Lemma indep_list l : forallb is_indep l = true -> l = map OIndep (indep_ids l).
Proof.
  induction l as [|o l IH]; [reflexivity|]. cbn [forallb]. intros H. apply andb_true_iff in H. destruct H as [H1 H2].
  destruct o as [i|s|]; try discriminate. unfold indep_ids in *. cbn [map concat app]. f_equal. apply IH, H2.
Qed.
Lemma indep_ids_In l i : In i (indep_ids l) <-> In (OIndep i) l.
Proof.
  unfold indep_ids. rewrite in_concat. split.
  - intros (x&H&I). apply in_map_iff in H. destruct H as (o&<-&H). destruct o; cbn in I; try contradiction. destruct I as [->|[]]. exact H.
  - intros H. exists [i]. split; [|left; reflexivity]. apply in_map_iff. exists (OIndep i). auto.
Qed.
Lemma indep_ids_NoDup l : NoDup l -> NoDup (indep_ids l).
Proof.
  induction l as [|o l IH]; intros ND; [constructor|]. inversion ND as [|? ? N1 N2]; subst.
  destruct o as [i|s|]; unfold indep_ids in *; cbn [map concat app]; auto. constructor; [|auto].
  intros H. apply N1. apply indep_ids_In. exact H.
Qed.
Lemma with_own_raw p : with_raw p (p_raw p) = p.
Proof. destruct p; reflexivity. Qed.

Lemma pairs_lookup (ts : list (obj * num)) i : forallb is_indep (map fst ts) = true ->
  NoDup (map fst ts) ->
  match lookup Nat.eqb i (combine (indep_ids (map fst ts)) (map snd ts)) with
  | Some v => In (OIndep i, v) ts
  | None => forall v, ~ In (OIndep i, v) ts
  end.
Proof.
  induction ts as [|[o v] ts IH]; cbn [map fst snd]; intros A ND; [cbn; auto|].
  cbn [forallb] in A. apply andb_true_iff in A. destruct A as [A1 A2]. destruct o as [j|s|]; try discriminate.
  inversion ND as [|? ? N1 N2]; subst. unfold indep_ids. cbn [map concat app combine lookup].
  destruct (Nat.eqb i j) eqn:E.
  - apply Nat.eqb_eq in E. subst. left. reflexivity.
  - apply Nat.eqb_neq in E. specialize (IH A2 N2). unfold indep_ids in IH. destruct (lookup Nat.eqb i _) as [w|].
    + right. exact IH.
    + intros w [H|H]; [congruence|]. exact (IH w H).
Qed.

Section C.
Variable deps : string -> list nat.
Variable loss_params : list nat.
Hypothesis ND_loss : NoDup loss_params.

Lemma params_of_In st os i : ~ In OOther os ->
  In i (concat (map (params_of deps st) os)) <-> p_floating (st_par st i) = true /\ exists o, In o os /\ used_by deps i o.
Proof.
  intros NO. rewrite in_concat. split.
  - intros (x&H&I). apply in_map_iff in H. destruct H as (o&<-&H). destruct o as [j|s|]; cbn [params_of] in I.
    + apply floating_ids_In in I. destruct I as [[->|[]] F]. split; [exact F|]. exists (OIndep i). split; [exact H|reflexivity].
    + apply floating_ids_In in I. destruct I as [I F]. split; [exact F|]. exists (ODep s). split; [exact H|exact I].
    + contradiction.
  - intros (F&o&H&U). exists (params_of deps st o). split; [apply in_map; exact H|]. destruct o as [j|s|]; cbn [params_of used_by] in U |- *.
    + subst. apply floating_ids_In. cbn. auto.
    + apply floating_ids_In. auto.
    + contradiction.
Qed.

Lemma set_start_ok st ts os st' ids : NoDup (map fst ts) -> ~ In OOther os ->
  set_start deps st ts os = (st', Ok ids) ->
  same_but_values st st' /\ NoDup ids /\ os <> [] /\
  (forall i, In i ids <-> p_floating (st_par st i) = true /\ exists o, In o os /\ used_by deps i o) /\
  (forall i, (exists v, In (OIndep i, v) ts /\ st_par st' i = with_raw (st_par st i) v) \/
             ((forall v, ~ In (OIndep i, v) ts) /\ st_par st' i = st_par st i)).
Proof.
  intros NDT NO E. unfold set_start in E.
  assert (EX : forall s, same_but_values st s -> extract deps s os = Ok ids -> NoDup ids /\ os <> [] /\
    (forall i, In i ids <-> p_floating (st_par st i) = true /\ exists o, In o os /\ used_by deps i o)).
  { intros s B X. unfold extract in X. destruct os as [|o os]; [discriminate|]. injection X as <-.
    destruct (order_set_ok (concat (map (params_of deps s) (o :: os)))) as [A C].
    split; [exact A|]. split; [discriminate|]. intros i. rewrite C, (params_of_In s (o :: os) i NO). destruct B as [B _]. destruct (B i) as (_&_&_&->). reflexivity. }
  destruct ts as [|t ts].
  - injection E as <- X. destruct (EX st (same_bv_refl st) X) as (A&B&C). split; [apply same_bv_refl|]. split; [exact A|]. split; [exact B|]. split; [exact C|].
    intros i. right. auto.
  - remember (t :: ts) as T eqn:ET. unfold assign_values in E.
    assert (CV : forall nm, convert_values nm (map fst T) (VSeq (map snd T)) false =
      if negb (forallb is_param (map fst T)) then Err TypeError
      else if negb (forallb is_indep (map fst T)) then Err ParameterNotIndependentError
      else Ok (indep_ids (map fst T), map snd T)).
    { intros nm. rewrite ET. cbn [map]. unfold convert_values. cbn [length]. rewrite !map_length, Nat.eqb_refl. reflexivity. }
    rewrite CV in E. destruct (negb (forallb is_param (map fst T))); [discriminate|].
    destruct (negb (forallb is_indep (map fst T))) eqn:NI; [discriminate|]. apply negb_false_iff in NI.
    injection E as E1 E2.
    assert (B : same_but_values st st') by (rewrite <- E1; apply assign_each_bv).
    rewrite E1 in E2. destruct (EX st' B E2) as (A&C&D). split; [exact B|]. split; [exact A|]. split; [exact C|]. split; [exact D|].
    intros i. assert (LEN : length (map snd T) = length (indep_ids (map fst T))).
    { rewrite map_length. assert (X := f_equal (@length _) (indep_list _ NI)). rewrite !map_length in X. exact X. }
    assert (P := pairs_lookup T i NI NDT). assert (Q := assign_each_par (indep_ids (map fst T)) (map snd T) st i LEN (indep_ids_NoDup _ NDT)).
    rewrite E1 in Q. destruct (lookup Nat.eqb i _) as [v|]; [left; exists v; auto|right; auto].
Qed.

Lemma combine_free_keys (free : list nat) (vs : list (option num)) : NoDup free -> NoDup (map fst (combine (map OIndep free) vs)).
Proof.
  revert vs. induction free as [|f free IH]; intros [|v vs] ND; cbn; try constructor; inversion ND; subst; auto.
  intros H. apply in_map_iff in H. destruct H as ([o w]&E&H). cbn in E. subst o. apply in_combine_l in H.
  apply in_map_iff in H. destruct H as (x&E&H). injection E as ->. contradiction.
Qed.
Lemma combine_free_In (free : list nat) (vs : list (option num)) i v : In (OIndep i, Some v) (combine (map OIndep free) vs) <-> In (i, Some v) (combine free vs).
Proof.
  revert vs. induction free as [|f free IH]; intros [|w vs]; cbn; try tauto. rewrite IH. split; intros [H|H]; auto; left; congruence.
Qed.

Lemma convert_ok st loss_init params init st1 ids init' :
  proper_result loss_init -> proper_result init -> proper_params params ->
  check_convert_input deps loss_params st loss_init params init = (st1, Ok (ids, init')) ->
  init' = init_used loss_init init /\ same_but_values st st1 /\ NoDup ids /\ ids <> [] /\
  (forall i, In i ids <-> minimised deps loss_params st loss_init params i) /\
  (forall i, exists v, start_value deps loss_params st loss_init params init i v /\ st_par st1 i = with_raw (st_par st i) v).
Proof.
  intros PL PI PP E. unfold check_convert_input in E.
  set (ini := match loss_init with Some r => Some r | None => init end) in E.
  assert (INI : ini = init_used loss_init init) by (unfold ini, init_used; destruct loss_init; reflexivity).
  set (par := match loss_init, params with Some r, PNone => PParams (map OIndep (map fst (fr_params r))) | _, PParams [] => PVals [] | _, p => p end) in E.
  set (free := floating_ids st loss_params) in E.
  set (first := match par with
    | PNone => (st, Ok free, [])
    | PParams l => let (st, r) := set_start deps st [] l in (st, r, [])
    | PMap m => let to_set := given m in let (st, r) := set_start deps st to_set (map fst m) in (st, r, map fst to_set)
    | PVals vs => if negb (Nat.eqb (length vs) (length free)) then (st, Err ValueError, [])
        else let to_set := given (combine (map OIndep free) vs) in
             let (st, r) := set_start deps st to_set (map OIndep free) in (st, r, map fst to_set)
    end) in E.
  assert (F : forall sa ia ta, first = (sa, Ok ia, ta) ->
    same_but_values st sa /\ NoDup ia /\ (forall i, In i ia <-> minimised deps loss_params st loss_init params i) /\
    (forall i, (exists v, start_given loss_params st params i v /\ In i (indep_ids ta) /\ st_par sa i = with_raw (st_par st i) v) \/
               ((forall v, ~ start_given loss_params st params i v) /\ ~ In i (indep_ids ta) /\ st_par sa i = st_par st i))).
  { intros sa ia ta FE. unfold first in FE.
    assert (NDF : NoDup free) by (apply NoDup_filter, ND_loss).
    assert (NOO : forall (l : list nat), ~ In OOther (map OIndep l)).
    { intros l H. apply in_map_iff in H. destruct H as (x&H&_). discriminate. }
    assert (CASES : (params = PNone /\ par = PNone /\ loss_init = None) \/
                    (exists r, params = PNone /\ loss_init = Some r /\ par = PParams (map OIndep (map fst (fr_params r)))) \/
                    (params = PParams [] /\ par = PVals []) \/
                    (exists o l, params = PParams (o :: l) /\ par = PParams (o :: l)) \/
                    (exists m, params = PMap m /\ par = PMap m) \/ (exists vs, params = PVals vs /\ par = PVals vs)).
    { unfold par. destruct params as [|[|o l]|m|vs]; destruct loss_init as [r|]; eauto 10. }
    destruct CASES as [(P1&P2&P3)|[(r&P1&P2&P3)|[(P1&P2)|[(o&l&P1&P2)|[(m&P1&P2)|(vs&P1&P2)]]]]].
    - rewrite P2 in FE. injection FE as <- <- <-. split; [apply same_bv_refl|]. split; [exact NDF|]. split.
      + intros i. rewrite P1, P3. unfold minimised. unfold free. rewrite floating_ids_In. tauto.
      + intros i. right. rewrite P1. cbn. auto.
    - rewrite P3 in FE. destruct (set_start deps st [] _) as [s r'] eqn:SS. injection FE as -> -> <-.
      destruct (set_start_ok st [] _ sa ia (NoDup_nil _) (NOO _) SS) as (A&B&_&C&D). split; [exact A|]. split; [exact B|]. split.
      + intros i. rewrite C, P1, P2. unfold minimised. split.
        * intros (H&o&I&U). split; [exact H|]. apply in_map_iff in I. destruct I as (x&<-&I). cbn in U. subst. exact I.
        * intros (H&I). split; [exact H|]. exists (OIndep i). split; [apply in_map; exact I|reflexivity].
      + intros i. right. rewrite P1. destruct (D i) as [(v&[]&_)|(_&D')]. cbn. auto.
    - rewrite P2 in FE. cbn [length] in FE. destruct (negb (Nat.eqb 0 (length free))) eqn:L; [discriminate|].
      apply negb_false_iff, Nat.eqb_eq in L. destruct free; [|discriminate]. cbn in FE. discriminate.
    - rewrite P2 in FE. destruct (set_start deps st [] _) as [s r'] eqn:SS. injection FE as -> -> <-. rewrite P1 in PP. cbn [proper_params] in PP.
      destruct (set_start_ok st [] _ sa ia (NoDup_nil _) PP SS) as (A&B&_&C&D). split; [exact A|]. split; [exact B|]. split.
      + intros i. rewrite C, P1. unfold minimised. reflexivity.
      + intros i. right. rewrite P1. destruct (D i) as [(v&[]&_)|(_&D')]. cbn. auto.
    - rewrite P2 in FE. destruct (set_start deps st (given m) _) as [s r'] eqn:SS. injection FE as -> -> <-. rewrite P1 in PP. cbn [proper_params] in PP. destruct PP as [PP1 PP2].
      destruct (set_start_ok st (given m) _ sa ia (given_keys _ PP1) PP2 SS) as (A&B&_&C&D). split; [exact A|]. split; [exact B|]. split.
      + intros i. rewrite C, P1. unfold minimised. reflexivity.
      + intros i. rewrite P1. cbn [start_given]. destruct (D i) as [(v&I&D')|(I&D')].
        * left. exists v. split; [apply given_In; exact I|]. split; [|exact D']. apply indep_ids_In. apply (in_map fst) in I. exact I.
        * right. split; [intros v H; apply (I v), given_In, H|]. split; [|exact D']. rewrite indep_ids_In. intros H.
          apply in_map_iff in H. destruct H as ([o v]&X&H). cbn in X. subst o. exact (I v H).
    - rewrite P2 in FE. destruct (negb (Nat.eqb (length vs) (length free))); [discriminate|]. cbv zeta in FE.
      destruct (set_start deps st (given (combine (map OIndep free) vs)) _) as [s r'] eqn:SS. injection FE as -> -> <-.
      destruct (set_start_ok st _ _ sa ia (given_keys _ (combine_free_keys free vs NDF)) (NOO _) SS) as (A&B&_&C&D). split; [exact A|]. split; [exact B|]. split.
      + intros i. rewrite C, P1. unfold minimised. split.
        * intros (H&o&I&U). split; [exact H|]. apply in_map_iff in I. destruct I as (x&<-&I). cbn in U. subst. apply floating_ids_In in I. apply I.
        * intros (H&I). split; [exact H|]. exists (OIndep i). split; [apply in_map; apply floating_ids_In; auto|reflexivity].
      + intros i. rewrite P1. cbn [start_given]. change (filter (fun i0 => p_floating (st_par st i0)) loss_params) with free.
        destruct (D i) as [(v&I&D')|(I&D')].
        * left. exists v. split; [apply combine_free_In, given_In; exact I|]. split; [|exact D']. apply indep_ids_In. apply (in_map fst) in I. exact I.
        * right. split; [intros v H; apply (I v), given_In, combine_free_In, H|]. split; [|exact D']. rewrite indep_ids_In. intros H.
          apply in_map_iff in H. destruct H as ([o v]&X&H). cbn in X. subst o. exact (I v H). }
  clearbody first. destruct first as [[sa [ia|e]] ta]; [|discriminate].
  destruct (F sa ia ta eq_refl) as (F1&F2&F3&F4).
  assert (G : forall s, same_but_values st s -> (match floating_ids s ia with [] => (s, Err RuntimeError) | _ :: _ => (s, Ok (floating_ids s ia, ini)) end) = (st1, Ok (ids, init')) ->
              s = st1 /\ init' = ini /\ ids = ia /\ ids <> []).
  { intros s B X. assert (FI : floating_ids s ia = ia).
    { unfold floating_ids. clear X. assert (Y : forall i, In i ia -> p_floating (st_par s i) = true).
      { intros i H. apply F3 in H. destruct H as [H _]. destruct B as [B _]. destruct (B i) as (_&_&_&->). exact H. }
      clear -Y. induction ia as [|i ia IH]; [reflexivity|]. cbn [filter]. rewrite (Y i (or_introl eq_refl)). f_equal. apply IH. intros j H. apply Y. right. exact H. }
    rewrite FI in X. destruct ia; [discriminate|]. injection X as <- <- <-. repeat split. discriminate. }
  destruct ini as [r|] eqn:EI.
  - set (now := filter _ ia) in E.
    assert (CVR : assign_values sa (map OIndep now) (VResult (fr_params r)) false = (assign_each sa now (map (value_in (fr_params r)) now), None)).
    { unfold assign_values. rewrite convert_result_spec. assert (forallb (fun i => mem Nat.eqb i (map fst (fr_params r))) now = true) as ->; [|reflexivity].
      apply forallb_forall. intros i H. unfold now in H. apply filter_In in H. destruct H as [_ H]. apply andb_true_iff in H. apply H. }
    rewrite CVR in E.
    assert (B2 : same_but_values st (assign_each sa now (map (value_in (fr_params r)) now))) by (eapply same_bv_trans; [exact F1|apply assign_each_bv]).
    destruct (floating_ids _ ia) as [|i0 is0] eqn:FI in E; [discriminate|].
    assert (E' : (match floating_ids (assign_each sa now (map (value_in (fr_params r)) now)) ia with [] => (assign_each sa now (map (value_in (fr_params r)) now), Err RuntimeError) | _ :: _ => (assign_each sa now (map (value_in (fr_params r)) now), Ok (floating_ids (assign_each sa now (map (value_in (fr_params r)) now)) ia, Some r)) end) = (st1, Ok (ids, init'))).
    { rewrite FI. exact E. }
    destruct (G _ B2 E') as (<-&->&->&NE). split; [exact INI|]. split; [exact B2|]. split; [exact F2|]. split; [exact NE|]. split; [exact F3|].
    intros i. assert (NDN : NoDup now) by (apply NoDup_filter; exact F2).
    assert (NDR : NoDup (map fst (fr_params r))).
    { unfold ini in EI. destruct loss_init as [r0|]; [injection EI as <-; exact PL|subst init; exact PI]. }
    rewrite assign_each_par by (try apply map_length; exact NDN). rewrite lookup_map_pairs.
    destruct (mem Nat.eqb i now) eqn:M.
    + apply (mem_In _ nat_eqb_ok) in M. unfold now in M. apply filter_In in M. destruct M as [M1 M2]. apply andb_true_iff in M2. destruct M2 as [M2 M3].
      destruct (mem_keys _ _ M2) as [v HV]. exists v. apply negb_true_iff in M3. apply (mem_false _ nat_eqb_ok) in M3.
      destruct (F4 i) as [(w&_&W&_)|(N1&_&N3)]; [contradiction|]. split.
      * apply (start_is_init _ _ _ _ _ _ _ v r); [exact N1|congruence|apply F3; exact M1|exact HV].
      * rewrite (value_in_In _ _ _ NDR HV), N3. reflexivity.
    + assert (NM : ~ In i now) by (apply (mem_false _ nat_eqb_ok); exact M).
      destruct (F4 i) as [(w&W1&_&W3)|(N1&N2&N3)].
      * exists w. split; [constructor; exact W1|exact W3].
      * exists (p_raw (st_par st i)). split; [|rewrite with_own_raw; exact N3].
        apply start_is_current; [exact N1|]. intros r' v R MI HV. apply NM. unfold now. apply filter_In. split; [apply F3; exact MI|].
        assert (r' = r) by congruence. subst r'. apply andb_true_iff. split.
        -- apply (mem_In _ nat_eqb_ok). apply (in_map fst) in HV. exact HV.
        -- apply negb_true_iff. apply (mem_false _ nat_eqb_ok). exact N2.
  - destruct (floating_ids sa ia) as [|i0 is0] eqn:FI; [discriminate|].
    assert (E' : (match floating_ids sa ia with [] => (sa, Err RuntimeError) | _ :: _ => (sa, Ok (floating_ids sa ia, None)) end) = (st1, Ok (ids, init'))).
    { rewrite FI. exact E. }
    destruct (G sa F1 E') as (<-&->&->&NE). split; [exact INI|]. split; [exact F1|]. split; [exact F2|]. split; [exact NE|]. split; [exact F3|].
    intros i. destruct (F4 i) as [(w&W1&_&W3)|(N1&N2&N3)].
    + exists w. split; [constructor; exact W1|exact W3].
    + exists (p_raw (st_par st i)). split; [|rewrite with_own_raw; exact N3].
      apply start_is_current; [exact N1|]. intros r v R. congruence.
Qed.
End C.
