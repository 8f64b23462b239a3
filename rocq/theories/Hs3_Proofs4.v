(** Proofs about dumping and loading, continued: the variables, and the whole document. *)
From Coq Require Import Permutation.
From Verif Require Import Base BaseLemmas PGraph_Proofs Param_Model Hs3_Model Hs3_Spec Hs3_Proofs Hs3_Proofs2 Hs3_Proofs3.
#[local] Open Scope string_scope.
#[local] Open Scope list_scope.

(** ** The variables when dumping *)
Section Vars.
Variable good : string -> tree -> Prop.
Definition vars_fine (V : dict) : Prop := NoDup (map fst V) /\ forall n t, In (n, t) V -> good n t.
Lemma add_var_fine V n t : vars_fine V -> good n (var_tree t) -> vars_fine (add_var V n t) /\ In n (map fst (add_var V n t)) /\ incl (map fst V) (map fst (add_var V n t)).
Proof.
  intros [N G] H. unfold add_var, get. destruct (lookup String.eqb n V) eqn:E.
  - split; [split; assumption|]. split; [apply lookup_key; eauto|intros x X; exact X].
  - split; [split|split].
    + rewrite map_app. cbn. apply (Permutation_NoDup (Permutation_cons_append _ n)). constructor; [|exact N]. intros X. apply lookup_key in X. destruct X as (v&X). congruence.
    + intros m u X. apply in_app_iff in X. destruct X as [X|[X|[]]]; [auto|]. injection X as <- <-. exact H.
    + rewrite map_app. apply in_or_app. right. now left.
    + rewrite map_app. intros x X. apply in_or_app. now left.
Qed.
Lemma fold_add_fine {A} (nm : A -> string) (tr : A -> tree) l : (forall a, In a l -> good (nm a) (var_tree (tr a))) -> forall V, vars_fine V ->
  vars_fine (fold_left (fun v a => add_var v (nm a) (tr a)) l V) /\ incl (map nm l ++ map fst V) (map fst (fold_left (fun v a => add_var v (nm a) (tr a)) l V)).
Proof.
  induction l as [|a l IH]; intros G V F; cbn [fold_left]; [split; [exact F|intros x X; exact X]|].
  destruct (add_var_fine V (nm a) (tr a) F (G a (or_introl eq_refl))) as (F1&I1&S1).
  destruct (IH (fun b B => G b (or_intror B)) _ F1) as (F2&I2). split; [exact F2|]. intros x X. apply I2. cbn in X. apply in_or_app.
  destruct X as [<-|X]; [right; exact I1|]. apply in_app_iff in X. destruct X as [X|X]; [now left|right; apply S1; exact X].
Qed.
Lemma fold_pdf_fine (l : list (string * mpdf)) :
  (forall m p, In m (map snd l) -> In p (m_params m) -> good (par_name p) (var_tree (par_tree p))) ->
  (forall m s, In m (map snd l) -> In s (m_spaces m) -> good (fst s) (var_tree (obj_tree (snd s)))) -> forall V, vars_fine V ->
  vars_fine (fold_left (fun v m => add_pdf v (snd m)) l V) /\
  incl (flat_map (fun m => map par_name (m_params m)) (map snd l) ++ map fst V) (map fst (fold_left (fun v m => add_pdf v (snd m)) l V)).
Proof.
  induction l as [|[k m] l IH]; intros G1 G2 V F; cbn [fold_left map flat_map snd]; [split; [exact F|intros x X; exact X]|].
  unfold add_pdf at 2 4.
  destruct (fold_add_fine par_name par_tree (m_params m) (fun p P => G1 m p (or_introl eq_refl) P) V F) as (F1&I1).
  set (V1 := fold_left (fun v p => add_var v (par_name p) (par_tree p)) (m_params m) V) in *. clearbody V1.
  destruct (fold_add_fine fst (fun s => obj_tree (snd s)) (m_spaces m) (fun s S => G2 m s (or_introl eq_refl) S) V1 F1) as (F2&I2).
  set (V2 := fold_left (fun v s => add_var v (fst s) (obj_tree (snd s))) (m_spaces m) V1) in *. clearbody V2.
  destruct (IH (fun a p A P => G1 a p (or_intror A) P) (fun a s A S => G2 a s (or_intror A) S) V2 F2) as (F3&I3).
  split; [exact F3|]. intros x X. apply I3. rewrite <- app_assoc in X. apply in_app_iff in X. apply in_or_app. destruct X as [X|X].
  - right. apply I2. apply in_or_app. right. apply I1. apply in_or_app. now left.
  - apply in_app_iff in X. destruct X as [X|X]; [now left|]. right. apply I2. apply in_or_app. right. apply I1. apply in_or_app. now right.
Qed.
End Vars.

Lemma lookup_del k j d : k <> j -> lookup String.eqb k (del j d) = lookup String.eqb k (d : dict).
Proof.
  intros N. unfold del. induction d as [|[a b] d IH]; [reflexivity|]. cbn. destruct (String.eqb a j) eqn:E; cbn.
  - apply String.eqb_eq in E. subst a. rewrite (proj2 (String.eqb_neq _ _) N). exact IH.
  - destruct (String.eqb k a); [reflexivity|exact IH].
Qed.
Lemma space_dropped o : space_like o -> typed_entry (shorten_var (var_tree (obj_tree o))) = [].
Proof.
  destruct o; try contradiction. intros [V F]. cbn [obj_tree var_tree]. set (e := map (fun ko => (fst ko, obj_tree (snd ko))) d).
  assert (H : forall k, k <> "type" -> get k (del "type" e) = option_map obj_tree (lookup String.eqb k d)).
  { intros k K. unfold get. rewrite lookup_del by exact K. unfold e. apply lookup_map. }
  assert (HV : has "value" (del "type" e) = false) by (unfold has; rewrite H, V by discriminate; reflexivity).
  assert (HF : has "func" (del "type" e) = false) by (unfold has; rewrite H, F by discriminate; reflexivity).
  unfold shorten_var. rewrite HF. unfold typed_entry. rewrite HV, HF. reflexivity.
Qed.

(** What the variables are after a type was given. *)
Lemma NoDup_flat {A B} (f : A -> list B) (g : A -> string) (h : B -> string) l :
  (forall a b, In a l -> In b (f a) -> h b = g a) -> (forall a, In a l -> length (f a) <= 1) -> NoDup (map g l) -> NoDup (map h (flat_map f l)).
Proof.
  induction l as [|a l IH]; intros E L N; cbn; [constructor|]. cbn in N. inversion N; subst. rewrite map_app.
  assert (R : NoDup (map h (flat_map f l))) by (apply IH; auto; intros; [apply E|apply L]; auto; now right).
  specialize (L a (or_introl eq_refl)). destruct (f a) as [|b [|c r]] eqn:F; cbn in L; [exact R| |lia].
  cbn. constructor; [|exact R]. rewrite (E a b) by (auto using in_eq; rewrite F; now left). intros X. apply in_map_iff in X. destruct X as (x&X1&X2).
  apply in_flat_map in X2. destruct X2 as (y&Y1&Y2). rewrite (E y x) in X1 by (auto using in_cons). apply H1. rewrite <- X1. apply in_map. exact Y1.
Qed.

Section Document.
Variable src : source.
Variable address : string -> nat -> string.
Variable reuse : table.
Hypothesis DN : distinct_names src.
Hypothesis ON : ordinary_names src.
Hypothesis OO : ordinary_objects src.
Hypothesis PP : parameters_in_pdfs src.
Hypothesis ONE : one_per_name src.
Hypothesis NC : no_clash src.
Hypothesis SF : spaces_fine src.
Hypothesis SV : all_survive src.

Definition allpars := flat_map parts (parameters src).
Lemma par_all p : In p (parameters src) -> In p allpars.
Proof. intros I. apply in_flat_map. exists p. split; [exact I|apply parts_self]. Qed.

Definition good (n : string) (t : tree) : Prop :=
  (exists p, In p (parameters src) /\ n = par_name p /\ t = var_tree (par_tree p)) \/
  (exists m s, In m (s_pdfs src) /\ In s (m_spaces m) /\ n = fst s /\ t = var_tree (obj_tree (snd s))).
Definition dist := map (fun m => (m_name m, m)) (s_pdfs src).
Definition V : dict := fold_left (fun v m => add_pdf v (snd m)) dist [].
Lemma snd_dist : map snd dist = s_pdfs src. Proof. unfold dist. rewrite map_map. cbn. apply map_id. Qed.
Lemma V_fine : vars_fine good V /\ forall p, In p (parameters src) -> In (par_name p) (map fst V).
Proof.
  destruct (fold_pdf_fine good dist) with (V := @nil (string * tree)) as (F&I).
  - intros m p M P. rewrite snd_dist in M. left. exists p. repeat split. apply in_flat_map. eauto.
  - intros m s M P. rewrite snd_dist in M. right. exists m, s. auto.
  - split; [constructor|intros n t []].
  - split; [exact F|]. intros p P. apply I. rewrite app_nil_r, snd_dist. apply in_flat_map in P. destruct P as (m&M&P). apply in_flat_map. exists m. split; [exact M|].
    now apply in_map.
Qed.
Definition R : dict := retype (map (fun kv => (fst kv, shorten_var (snd kv))) V).
Lemma R_elems n t : In (n, t) R -> exists p, In p (parameters src) /\ n = par_name p /\ t = entry p.
Proof.
  unfold R. rewrite retype_entries. intros H. apply in_flat_map in H. destruct H as ([k u]&K&H). apply in_map_iff in K. destruct K as ([k' w]&K1&K2).
  cbn in K1. injection K1 as <- <-. cbn [fst snd] in H. destruct V_fine as ((_&G)&_). destruct (G _ _ K2) as [(p&P1&P2&P3)|(m&s&M&S&E1&E2)]; subst.
  - change (shorten_var (var_tree (par_tree p))) with (stored p) in H. rewrite entry_typed in H. destruct H as [H|[]]. injection H as <- <-. eauto.
  - rewrite space_dropped in H by (eapply SF; eauto). destruct H.
Qed.
Lemma R_nodup : NoDup (map fst R).
Proof.
  unfold R. rewrite retype_entries. destruct V_fine as ((N&_)&_). apply (NoDup_flat _ fst fst).
  - intros a b _ B. apply in_map_iff in B. destruct B as (x&<-&_). reflexivity.
  - intros a _. rewrite map_length. destruct (snd a); cbn; try lia. destruct (has "value" d); cbn; [lia|]. destruct (has "func" d); cbn; lia.
  - rewrite map_map. exact N.
Qed.
Lemma R_in p : In p (parameters src) -> In (par_name p, entry p) R.
Proof.
  intros P. destruct V_fine as ((N&G)&I). specialize (I p P). apply in_map_iff in I. destruct I as ([n t]&E&I). cbn in E. subst n.
  unfold R. rewrite retype_entries. apply in_flat_map. exists (par_name p, shorten_var t). split; [apply in_map_iff; exists (par_name p, t); auto|]. cbn [fst snd].
  destruct (G _ _ I) as [(q&Q1&Q2&Q3)|(m&s&M&S&E1&E2)].
  - assert (q = p) by (apply ONE; [apply par_all; exact Q1|apply par_all; exact P|now symmetry]). subst q t.
    change (shorten_var (var_tree (par_tree p))) with (stored p). rewrite entry_typed. now left.
  - exfalso. destruct NC as [_ N2]. apply (N2 m s p M S P). now symmetry.
Qed.
Definition R2 : dict := map (fun kv => (fst kv, lengthen_var R (snd kv))) R.
Lemma R2_get p : In p (parameters src) -> get (par_name p) R2 = Some (lengthen_var R (entry p)).
Proof.
  intros P. unfold get, R2. rewrite lookup_map. rewrite (proj2 (lookup_nodup String.eqb string_eqb_ok _ _ _ R_nodup) (R_in p P)). reflexivity.
Qed.
Lemma R2_none s : (forall p, In p (parameters src) -> s <> par_name p) -> get s R2 = None.
Proof.
  intros H. unfold get, R2. rewrite lookup_map. destruct (lookup String.eqb s R) eqn:E; [|reflexivity]. exfalso.
  apply (lookup_in String.eqb string_eqb_ok) in E. destruct (R_elems _ _ E) as (p&P&Q&_). exact (H p P Q).
Qed.
Lemma R_par n : In n (map fst R) <-> exists p, In p (parameters src) /\ par_name p = n.
Proof.
  split.
  - intros H. apply in_map_iff in H. destruct H as ([k t]&<-&I). destruct (R_elems _ _ I) as (p&P&Q&_). exists p. split; auto.
  - intros (p&P&<-). apply in_map_iff. exists (par_name p, entry p). split; [reflexivity|apply R_in; exact P].
Qed.

(** ** Loading the variables *)
Lemma entry_type vars p : exists d s, lengthen_var vars (entry p) = TDict d /\ get "type" d = Some s.
Proof.
  destruct p as [n v lo up sz fl lab|n v lab|n f u ps ints lab].
  - destruct fl; do 2 eexists; split; reflexivity.
  - do 2 eexists; split; reflexivity.
  - destruct u; do 2 eexists; split; reflexivity.
Qed.
Lemma load_vars l : forall st, (forall n t, In (n, t) l -> exists p, In p (parameters src) /\ n = par_name p /\ t = lengthen_var R (entry p)) -> fine reuse allpars st ->
  exists st', load_all st l = Ok (st', map (fun kv => (fst kv, LPar (fst kv))) l) /\ fine reuse allpars st' /\ more st st' /\
    forall p, In p (parameters src) -> In (par_name p) (map fst l) -> holds st' p.
Proof.
  induction l as [|[n t] l IH]; intros st H F; [exists st; repeat split; auto using more_refl; try apply F; intros p _ []|].
  destruct (H n t (or_introl eq_refl)) as (p&P&->&->). cbn [load_all]. destruct (entry_type R p) as (d&s&D&T).
  assert (SVp : survives p) by (apply SV, par_all, P).
  rewrite (load_entry R p st SVp). rewrite D. rewrite T. cbn [opt_result bind fst snd].
  destruct (added_spec reuse allpars p) with (st := st) as (F1&M1&H1); [|exact F|].
  { intros q Q. assert (In q allpars) by (apply in_flat_map; eauto). split; [assumption|apply SV; assumption]. }
  destruct (IH (added st p) (fun m u U => H m u (or_intror U)) F1) as (st'&E&F2&M2&H2). exists st'. rewrite E. cbn [bind fst snd map]. split; [reflexivity|].
  split; [exact F2|]. split; [eapply more_trans; eauto|]. intros q Q [X|X]; [|apply H2; assumption].
  assert (q = p) by (apply ONE; auto using par_all). subst q. eapply more_holds; eauto.
Qed.

(** ** The kinds *)
Definition g p := match get (par_name p) R2 with Some t => t | None => TStr (par_name p) end.
Lemma kind_loaded st (l : list (string * obj)) : incl l (objects src) -> (forall p, In p (parameters src) -> holds st p) ->
  load_kind st (replace (from_name R2) (shorten (TDict (map (fun ko => (fst ko, obj_tree (snd ko))) l)))) = Ok (st, map (fun ko => (fst ko, same_obj (snd ko))) l).
Proof.
  intros I HO.
  assert (NK : forall k, k = "type" \/ k = "name" \/ k = "stepsize" -> lookup String.eqb k l = None).
  { intros k K. destruct (lookup String.eqb k l) eqn:E; [|reflexivity]. exfalso. apply (lookup_in String.eqb string_eqb_ok) in E. destruct (ON _ _ (I _ E)) as (A&B&C).
    destruct K as [K|[K|K]]; subst; tauto. }
  assert (PL : plain (ODict l)).
  { apply plain_dict. rewrite !NK by auto. repeat split. apply Forall_forall. intros [n o] X. apply (OO n o), I, X. }
  change (TDict (map (fun ko => (fst ko, obj_tree (snd ko))) l)) with (obj_tree (ODict l)). rewrite shorten_obj by exact PL.
  rewrite lengthen_obj.
  - cbn [tree_with load_kind]. apply load_all_objs.
    + intros n o X. apply (OO n o), I, X.
    + intros n o p X Y. assert (P : In p (parameters src)) by (eapply PP; eauto). unfold g. rewrite (R2_get p P).
      rewrite load_entry by (apply SV, par_all, P). rewrite added_idem by (apply HO, P). reflexivity.
  - intros s S. cbn in S. apply in_flat_map in S. destruct S as ([n o]&X&Y). apply R2_none. intros p P. destruct NC as [N1 _]. eapply N1; eauto.
Qed.

Lemma dumped : dumps address src = Doc (map (fun kv => (fst kv, shorten_var (snd kv))) V)
  (shorten (TDict (map (fun ko => (fst ko, obj_tree (snd ko))) (s_data src))))
  (shorten (TDict (map (fun ko => (fst ko, obj_tree (snd ko))) (s_constraints src))))
  (shorten (TDict (map (fun ko => (fst ko, obj_tree (snd ko))) (map (fun m => (m_name m, m_obj m)) (s_pdfs src)))))
  (shorten (TDict (map (fun ko => (fst ko, obj_tree (snd ko))) (s_loss src)))).
Proof.
  destruct DN as (D1&D2&D3&D4). unfold dumps. rewrite !named_distinct by (cbn [app]; try assumption; rewrite map_map; cbn [fst]; exact D3).
  cbn [app]. unfold post_serialize, map_doc. cbn [d_vars d_data d_constraints d_distributions d_loss]. rewrite !map_map. reflexivity.
Qed.

Lemma loaded_all : exists st, snd (loads reuse (dumps address src)) =
    Ok (Loaded st (map (fun kv => (fst kv, LPar (fst kv))) R2)
         (map (fun ko => (fst ko, same_obj (snd ko))) (s_data src)) (map (fun ko => (fst ko, same_obj (snd ko))) (s_constraints src))
         (map (fun m => (m_name m, same_obj (m_obj m))) (s_pdfs src)) (map (fun ko => (fst ko, same_obj (snd ko))) (s_loss src))) /\
  fine reuse allpars st /\ (forall p, In p (parameters src) -> holds st p).
Proof.
  rewrite dumped. unfold loads, pre_deserialize, map_doc. cbn [d_vars d_data d_constraints d_distributions d_loss snd]. fold R. fold R2.
  destruct (load_vars R2 reuse) as (st&E&F&M&H).
  - intros n t X. unfold R2 in X. apply in_map_iff in X. destruct X as ([k u]&X&Y). cbn in X. injection X as <- <-. destruct (R_elems _ _ Y) as (p&P&->&->). eauto.
  - apply fine_start.
  - assert (HO : forall p, In p (parameters src) -> holds st p).
    { intros p P. apply H; [exact P|]. unfold R2. rewrite map_map. cbn [fst]. apply R_par. eauto. }
    exists st. split; [|split; assumption]. rewrite E. cbn [bind fst snd].
    rewrite kind_loaded; [|intros x X; unfold objects; apply in_or_app; now left|exact HO]. cbn [bind fst snd].
    rewrite kind_loaded; [|intros x X; unfold objects; apply in_or_app; right; apply in_or_app; now left|exact HO]. cbn [bind fst snd].
    rewrite kind_loaded; [|intros x X; unfold objects; apply in_or_app; right; apply in_or_app; right; apply in_or_app; now left|exact HO]. cbn [bind fst snd].
    rewrite kind_loaded; [|intros x X; unfold objects; apply in_or_app; right; apply in_or_app; right; apply in_or_app; now right|exact HO]. cbn [bind fst snd].
    rewrite map_map. reflexivity.
Qed.
End Document.
