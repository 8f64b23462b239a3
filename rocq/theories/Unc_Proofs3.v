(** Proofs for uncertainties, part 3: covariances, [hesse], [errors]. *)
From Coq Require Import Lqa.
From Verif Require Import Base BaseLemmas Unc_Model Unc_Spec Unc_Proofs Unc_Proofs2.
#[local] Open Scope nat_scope.

Lemma method_eqb_ok : eqb_spec method_eqb.
Proof.
  intros [a|a] [b|b]; cbn; try (split; discriminate).
  - rewrite (string_eqb_ok a b). split; [intros ->; reflexivity|intros E; injection E; auto].
  - rewrite (nat_eqb_ok a b). split; [intros ->; reflexivity|intros E; injection E; auto].
Qed.
Lemma assign_out ps : forall w vs q, ~ In q ps -> assign w ps vs q = w q.
Proof.
  induction ps as [|p ps IH]; intros w [|v vs] q H; try reflexivity. cbn. rewrite IH by (intros G; apply H; right; exact G).
  unfold set1. destruct (String.eqb q p) eqn:E; [|reflexivity]. apply string_eqb_ok in E. subst. exfalso. apply H. left. reflexivity.
Qed.
Lemma assign_map ps (g : world) : forall w q, In q ps -> assign w ps (map g ps) q = g q.
Proof.
  induction ps as [|p ps IH]; intros w q H; [destruct H|]. cbn [map assign]. destruct (in_dec string_dec q ps) as [Hq|Hq]; [apply IH, Hq|].
  destruct H as [->|H]; [|contradiction]. rewrite assign_out by exact Hq. unfold set1. rewrite (proj2 (string_eqb_ok q q) eq_refl). reflexivity.
Qed.
Lemma lookup_map {V} (f : string * string -> V) l k : In k l -> lookup pair_eqb k (map (fun k => (k, f k)) l) = Some (f k).
Proof.
  intros H. apply (lookup_functional _ pair_eqb_ok).
  - apply in_map_iff. exists k. auto.
  - intros v' Hv. apply in_map_iff in Hv. destruct Hv as [k' [E _]]. injection E as -> <-. reflexivity.
Qed.
Lemma lookup_map_some {V} (f : string * string -> V) l k v : lookup pair_eqb k (map (fun k => (k, f k)) l) = Some v -> In k l /\ v = f k.
Proof.
  intros H. apply (lookup_in _ pair_eqb_ok) in H. apply in_map_iff in H. destruct H as [k' [E H]]. injection E as -> <-. auto.
Qed.
Lemma product_In ps p q : In (p, q) (product ps) <-> In p ps /\ In q ps.
Proof.
  unfold product. rewrite in_concat. split.
  - intros [l [Hl Hin]]. apply in_map_iff in Hl. destruct Hl as [a [<- Ha]]. apply in_map_iff in Hin. destruct Hin as [b [E Hb]]. injection E as -> ->. auto.
  - intros [Hp Hq]. exists (map (fun q => (p, q)) ps). split; [apply in_map_iff; eauto|apply in_map_iff; eauto].
Qed.
Lemma pair_eqb_refl k : pair_eqb k k = true.
Proof. apply pair_eqb_ok. reflexivity. Qed.
Lemma lookup_put {V} k v (d : list ((string * string) * V)) k' :
  lookup pair_eqb k' (put k v d) = if pair_eqb k' k then Some v else lookup pair_eqb k' d.
Proof.
  induction d as [|[k0 v0] d IH]; cbn [put lookup fst snd]; [reflexivity|].
  destruct (pair_eqb k k0) eqn:E; cbn [lookup fst snd].
  - apply pair_eqb_ok in E. subst k0. destruct (pair_eqb k' k); reflexivity.
  - rewrite IH. destruct (pair_eqb k' k0) eqn:E2; [|reflexivity]. destruct (pair_eqb k' k) eqn:E3; [|reflexivity].
    apply pair_eqb_ok in E2, E3. subst. rewrite pair_eqb_refl in E. discriminate.
Qed.

(** the stored entries *)
Lemma store_vals s n es : vals (store s n es) = vals s. Proof. reflexivity. Qed.
Lemma store_cache s n es : cache (store s n es) = cache s. Proof. reflexivity. Qed.
Lemma store_lookup n es : forall s p n', lookup pair_eqb (p, n') (errs (store s n es)) =
  if String.eqb n' n then match lookup String.eqb p (rev es) with Some e => Some e | None => lookup pair_eqb (p, n') (errs s) end
  else lookup pair_eqb (p, n') (errs s).
Proof.
  unfold store. cbn [errs]. intros s. generalize (errs s). clear s. induction es as [|[q e] es IH] using rev_ind; intros d p n'.
  - cbn. destruct (String.eqb n' n); reflexivity.
  - rewrite fold_left_app. cbn [fold_left fst snd]. rewrite lookup_put, rev_app_distr. cbn [rev app lookup fst snd]. rewrite IH.
    unfold pair_eqb at 1. cbn [fst snd]. destruct (String.eqb n' n); [|rewrite andb_false_r; reflexivity].
    rewrite andb_true_r. destruct (String.eqb p q); reflexivity.
Qed.
Lemma lookup_rev_In {V} (es : list (string * V)) p e : lookup String.eqb p (rev es) = Some e -> In (p, e) es.
Proof. intros H. apply (lookup_in _ string_eqb_ok) in H. apply in_rev, H. Qed.
Lemma lookup_rev_fun {V} (f : string -> V) ps p : In p ps -> lookup String.eqb p (rev (map (fun p => (p, f p)) ps)) = Some (f p).
Proof.
  intros H. apply (lookup_functional _ string_eqb_ok).
  - rewrite <- in_rev. apply in_map_iff. eauto.
  - intros v Hv. rewrite <- in_rev in Hv. apply in_map_iff in Hv. destruct Hv as [q [E _]]. injection E as -> <-. reflexivity.
Qed.

Lemma Forall2_In_l {A B} (R : A -> B -> Prop) l m a : Forall2 R l m -> In a l -> exists b, In b m /\ R a b.
Proof. induction 1; intros Hin; [destruct Hin|]. destruct Hin as [<-|Hin]; [eauto using in_eq|]. destruct (IHForall2 Hin) as [b [H1 H2]]. eauto using in_cons. Qed.

Section Result.
Variable r_params : list string.
Variable weighted some_unweighted : bool.
Variable hesse_methods : string -> option nat.
Variable run_method : nat -> world -> world * result covd.
Variable jacobian : world -> result (list (list Q)).
Variable error_method : list string -> Q -> world -> world * result (list (string * (Q * Q)) * bool).
Variable sqrt_ ppf cdf : Q -> Q.
Notation run_covariance := (run_covariance r_params weighted some_unweighted hesse_methods run_method jacobian).
Notation covariance_dict := (covariance_dict r_params weighted some_unweighted hesse_methods run_method jacobian).
Notation covariance_matrix := (covariance_matrix r_params weighted some_unweighted hesse_methods run_method jacobian).
Notation hesse := (hesse r_params weighted some_unweighted hesse_methods run_method jacobian sqrt_ ppf).
Notation errors := (errors r_params error_method cdf).
Notation check_params := (check_params r_params).
Notation check_uncached := (check_uncached r_params).
Definition answer (d : covd) ps := map (fun k => (k, lookup pair_eqb k d)) (product ps).
Definition the_method (m : option method) := match m with Some m => m | None => MName "minuit_hesse" end.

Lemma covariance_dict_char s ps m wc s' d : covariance_dict s ps m wc = (s', Ok d) ->
  exists dc, lookup method_eqb (the_method m) (cache s') = Some dc /\ d = answer dc (check_params ps) /\ errs s' = errs s /\ valid_flag s' = valid_flag s
    /\ ((s' = s /\ lookup method_eqb (the_method m) (cache s) = Some dc)
        \/ (lookup method_eqb (the_method m) (cache s) = None /\ cache s' = (the_method m, dc) :: cache s
            /\ snd (run_covariance (the_method m) (vals s) (match wc with Some w => w | None => ASYMPTOTIC end)) = Ok dc
            /\ forall p, In p (check_params ps) -> vals s' p = vals s p)).
Proof.
  unfold Unc_Model.covariance_dict. fold (the_method m). cbv zeta.
  destruct (lookup method_eqb (the_method m) (cache s)) as [dc|] eqn:E.
  - intros H. injection H as <- <-. exists dc. repeat split; auto.
  - unfold reset. destruct (Unc_Model.run_covariance _ _ _ _ _ _ _ _ _) as [w [dc|e]] eqn:R; [|discriminate].
    intros H. injection H as <- <-. exists dc. cbn [cache errs valid_flag vals with_vals lookup fst snd].
    rewrite (proj2 (method_eqb_ok (the_method m) (the_method m)) eq_refl). repeat split. right. split; [reflexivity|]. split; [reflexivity|]. split; [reflexivity|].
    intros p Hp. apply assign_map, Hp.
Qed.
Lemma covariance_values s ps m wc s' d : covariance_dict s ps m wc = (s', Ok d) ->
  (forall p, In p (check_params ps) -> vals s' p = vals s p)
  /\ (weighted = true -> wc <> Some NOCORR -> (exists k v, lookup pair_eqb k d = Some (Some v)) ->
      forall p, In p r_params -> vals s' p = vals s p).
Proof.
  intros E. split.
  { destruct (covariance_dict_char _ _ _ _ _ _ E) as [dc [_ [_ [_ [_ [[-> _]|[_ [_ [_ H]]]]]]]]]; [reflexivity|exact H]. }
  intros W NC [k [v L]] p Hp. revert E. unfold Unc_Model.covariance_dict. fold (the_method m). cbv zeta.
  destruct (lookup method_eqb (the_method m) (cache s)) as [dc|]; [intros H; injection H as <- _; reflexivity|].
  unfold reset. destruct (Unc_Model.run_covariance _ _ _ _ _ _ _ _ _) as [w [dc|e]] eqn:R; [|discriminate].
  intros H. injection H as <- <-. cbn [vals with_vals].
  destruct (in_dec string_dec p (check_params ps)) as [I|I]; [apply assign_map, I|]. rewrite assign_out by exact I.
  unfold Unc_Model.run_covariance in R. destruct (match the_method m with MName x => _ | MCall n => _ end) as [n|]; [|discriminate R].
  rewrite W in R. assert (NW : wcorr_eqb (match wc with Some w => w | None => ASYMPTOTIC end) NOCORR = false).
  { destruct wc as [[]|]; try reflexivity. elim NC. reflexivity. }
  rewrite NW in R. cbn [negb andb] in R. unfold covariance_with_weights in R.
  destruct (run_method n (vals s)) as [w1 [[|x hd]|e]].
  - injection R as <- <-. exfalso. clear - L. revert L. induction (product (check_params ps)) as [|y l IH]; [discriminate|].
    cbn [map lookup]. destruct (pair_eqb k y); [discriminate|exact IH].
  - destruct (dict_to_matrix r_params (x :: hd)) as [hinv|]; [|discriminate R].
    destruct (match wc with Some w => w | None => ASYMPTOTIC end); [| |discriminate R].
    + destruct (jacobian w1); [|discriminate R]. injection R as <- _. apply assign_map, Hp.
    + destruct some_unweighted; [discriminate R|]. injection R as <- _. apply assign_map, Hp.
  - discriminate R.
Qed.
Lemma covariance_dict_cached s ps m wc dc : lookup method_eqb (the_method m) (cache s) = Some dc ->
  covariance_dict s ps m wc = (s, Ok (answer dc (check_params ps))).
Proof. intros H. unfold Unc_Model.covariance_dict. fold (the_method m). cbv zeta. rewrite H. reflexivity. Qed.
Lemma covariance_dict_err s ps m wc s' e : covariance_dict s ps m wc = (s', Err e) -> errs s' = errs s /\ cache s' = cache s /\ valid_flag s' = valid_flag s.
Proof.
  unfold Unc_Model.covariance_dict. fold (the_method m). cbv zeta. destruct (lookup method_eqb (the_method m) (cache s)); [discriminate|].
  unfold reset. destruct (Unc_Model.run_covariance _ _ _ _ _ _ _ _ _) as [w [dc|e']]; [discriminate|]. intros H. injection H as <- _. auto.
Qed.
Lemma answer_lookup dc ps p q : In p ps -> In q ps -> lookup pair_eqb (p, q) (answer dc ps) = Some (lookup pair_eqb (p, q) dc).
Proof. intros Hp Hq. apply (lookup_map (fun k => lookup pair_eqb k dc)). apply product_In. auto. Qed.
Lemma answer_lookup_some dc ps p q v : lookup pair_eqb (p, q) (answer dc ps) = Some v -> v = lookup pair_eqb (p, q) dc /\ In p ps /\ In q ps.
Proof. intros H. apply (lookup_map_some (fun k => lookup pair_eqb k dc)) in H. destruct H as [H ->]. apply product_In in H. destruct H. repeat split; assumption. Qed.

(** consistency of one request with the next *)
Lemma covariance_consistent s ps1 m wc1 s1 d1 : covariance_dict s ps1 m wc1 = (s1, Ok d1) ->
  forall ps2 wc2, exists d2, covariance_dict s1 ps2 m wc2 = (s1, Ok d2) /\ map fst d2 = product (check_params ps2)
    /\ forall k v1 v2, lookup pair_eqb k d1 = Some v1 -> lookup pair_eqb k d2 = Some v2 -> v1 = v2.
Proof using r_params weighted some_unweighted hesse_methods run_method jacobian.
  intros H ps2 wc2. destruct (covariance_dict_char _ _ _ _ _ _ H) as [dc [L [-> _]]].
  exists (answer dc (check_params ps2)). rewrite (covariance_dict_cached _ _ _ _ _ L). split; [reflexivity|]. split.
  - unfold answer. rewrite map_map. cbn. apply map_id.
  - intros [p q] v1 v2 H1 H2. apply answer_lookup_some in H1, H2. destruct H1 as [-> _], H2 as [-> _]. reflexivity.
Qed.

(** symmetry *)
Definition methods_symmetric := forall n w w' d, run_method n w = (w', Ok d) -> symmetric_dict d.
Lemma symmetric_nil : symmetric_dict []. Proof. intros p q v. split; discriminate. Qed.
Lemma run_covariance_symmetric m w wc w' d : NoDup r_params -> methods_symmetric -> run_covariance m w wc = (w', Ok d) -> symmetric_dict d.
Proof.
  intros Hn Hm. unfold Unc_Model.run_covariance. destruct (match m with MName s => hesse_methods s | MCall n => Some n end) as [n|]; [|discriminate].
  destruct (negb (wcorr_eqb wc NOCORR) && weighted); [|apply Hm].
  unfold covariance_with_weights. destruct (run_method n w) as [w1 [[|x hd]|e]] eqn:R; try discriminate.
  { intros H. injection H as _ <-. apply symmetric_nil. }
  destruct (dict_to_matrix r_params (x :: hd)) as [hinv|e]; [|discriminate]. destruct wc; try discriminate.
  - destruct (jacobian w1) as [jac|e]; [|discriminate]. intros H. injection H as _ <-. apply matrix_to_dict_symmetric, Hn.
  - destruct some_unweighted; [discriminate|]. intros H. injection H as _ <-. apply matrix_to_dict_symmetric, Hn.
Qed.
Lemma caches_preserved s ps m wc : NoDup r_params -> methods_symmetric -> caches_symmetric s -> caches_symmetric (fst (covariance_dict s ps m wc)).
Proof.
  intros Hn Hm Hc. destruct (covariance_dict s ps m wc) as [s' [d|e]] eqn:E; cbn [fst].
  - destruct (covariance_dict_char _ _ _ _ _ _ E) as [dc [_ [_ [_ [_ [[-> _]|[_ [C [R _]]]]]]]]]; [exact Hc|].
    intros m' d' Hin. rewrite C in Hin. destruct Hin as [Hin|Hin]; [|exact (Hc _ _ Hin)]. injection Hin as _ <-.
    destruct (run_covariance _ _ _) as [w' r] eqn:RR. cbn in R. subst r. eapply run_covariance_symmetric; eauto.
  - destruct (covariance_dict_err _ _ _ _ _ _ E) as [_ [C _]]. intros m' d'. rewrite C. apply Hc.
Qed.
Lemma matrix_of_dict s ps m wc s' d : NoDup r_params -> methods_symmetric -> caches_symmetric s -> check_params ps <> [] ->
  covariance_dict s ps m wc = (s', Ok d) ->
  exists M, covariance_matrix s ps m wc = (s', Ok (Some M)) /\ square (length (check_params ps)) M /\ symmetric M
    /\ forall i j p q, nth_error (check_params ps) i = Some p -> nth_error (check_params ps) j = Some q ->
         exists v, entry_at M i j v /\ lookup pair_eqb (p, q) d = Some v.
Proof.
  intros Hn Hm Hc Hne E. pose proof (caches_preserved s ps m wc Hn Hm Hc) as Hc'. rewrite E in Hc'. cbn in Hc'.
  unfold Unc_Model.covariance_matrix. rewrite E.
  destruct (covariance_dict_char _ _ _ _ _ _ E) as [dc [L [Hd _]]].
  assert (Hs : symmetric_dict dc) by (apply (lookup_in _ method_eqb_ok) in L; exact (Hc' _ _ L)).
  destruct (dict_to_matrix_total (check_params ps) d) as [M HM].
  { intros p q Hp Hq. rewrite Hd, answer_lookup by assumption. eauto. }
  exists M. split.
  { destruct d as [|x d0] eqn:Ed.
    - exfalso. destruct (check_params ps) as [|p l] eqn:Ep; [congruence|]. pose proof (answer_lookup dc (p :: l) p p (or_introl eq_refl) (or_introl eq_refl)) as G.
      rewrite <- Hd in G. discriminate.
    - rewrite HM. reflexivity. }
  destruct (dict_to_matrix_entries _ _ _ HM) as [Sq En]. split; [exact Sq|]. split; [eapply dict_to_matrix_symmetric, HM|].
  intros i j p q Hi Hj. exists (lookup pair_eqb (p, q) dc).
  assert (Hip := nth_error_In _ _ Hi). assert (Hjq := nth_error_In _ _ Hj).
  split; [|rewrite Hd; apply answer_lookup; assumption].
  apply En. destruct (Nat.le_gt_cases i j) as [Hij|Hij].
  - rewrite Nat.min_l, Nat.max_r by lia. exists p, q. repeat split; auto. rewrite Hd. apply answer_lookup; assumption.
  - rewrite Nat.min_r, Nat.max_l by lia. exists q, p. repeat split; auto. rewrite Hd, answer_lookup by assumption.
    f_equal. destruct (lookup pair_eqb (q, p) dc) as [v|] eqn:E1.
    + apply Hs in E1. congruence.
    + destruct (lookup pair_eqb (p, q) dc) as [v|] eqn:E2; [|reflexivity]. apply Hs in E2. congruence.
Qed.
Lemma covariance_matrix_symmetric s ps m wc s' M : covariance_matrix s ps m wc = (s', Ok (Some M)) -> symmetric M /\ square (length (check_params ps)) M.
Proof.
  unfold Unc_Model.covariance_matrix. destruct (covariance_dict s ps m wc) as [s1 [[|x d]|e]]; try discriminate.
  destruct (dict_to_matrix (check_params ps) (x :: d)) as [M'|e] eqn:E; [|discriminate]. cbn [bind]. intros H. injection H as _ <-. split; [eapply dict_to_matrix_symmetric, E|apply (dict_to_matrix_entries _ _ _ E)].
Qed.
Lemma matrices_agree s ps1 m wc1 s1 M1 ps2 wc2 s2 M2 : NoDup r_params -> methods_symmetric -> caches_symmetric s ->
  covariance_matrix s ps1 m wc1 = (s1, Ok (Some M1)) -> covariance_matrix s1 ps2 m wc2 = (s2, Ok (Some M2)) ->
  s2 = s1 /\ forall i1 j1 i2 j2 p q v, nth_error (check_params ps1) i1 = Some p -> nth_error (check_params ps1) j1 = Some q ->
    nth_error (check_params ps2) i2 = Some p -> nth_error (check_params ps2) j2 = Some q -> entry_at M1 i1 j1 v -> entry_at M2 i2 j2 v.
Proof.
  intros Hn Hm Hc H1 H2.
  assert (D1 : exists d1, covariance_dict s ps1 m wc1 = (s1, Ok d1)).
  { unfold Unc_Model.covariance_matrix in H1. destruct (covariance_dict s ps1 m wc1) as [sx [d|e]]; [|discriminate]. exists d. f_equal. congruence. }
  destruct D1 as [d1 D1]. destruct (covariance_consistent _ _ _ _ _ _ D1 ps2 wc2) as [d2 [D2 [_ Hag]]].
  assert (s2 = s1). { unfold Unc_Model.covariance_matrix in H2. rewrite D2 in H2. congruence. } split; [assumption|]. subst s2.
  intros i1 j1 i2 j2 p q v A1 B1 A2 B2 Hv.
  assert (N1 : check_params ps1 <> []) by (intros E; rewrite E in A1; destruct i1; discriminate).
  assert (N2 : check_params ps2 <> []) by (intros E; rewrite E in A2; destruct i2; discriminate).
  assert (Hc1 : caches_symmetric s1) by (pose proof (caches_preserved s ps1 m wc1 Hn Hm Hc) as G; rewrite D1 in G; exact G).
  destruct (matrix_of_dict _ _ _ _ _ _ Hn Hm Hc N1 D1) as [M1' [E1 [_ [_ F1]]]]. assert (M1' = M1) by congruence. subst M1'.
  destruct (matrix_of_dict _ _ _ _ _ _ Hn Hm Hc1 N2 D2) as [M2' [E2 [_ [_ F2]]]]. assert (M2' = M2) by congruence. subst M2'.
  destruct (F1 _ _ _ _ A1 B1) as [v1 [G1 L1]]. destruct (F2 _ _ _ _ A2 B2) as [v2 [G2 L2]].
  assert (v1 = v) by (rewrite <- (entry_mget v _ _ _ _ G1); apply entry_mget; exact Hv). subst v1.
  rewrite (Hag _ _ _ L1 L2). exact G2.
Qed.

(** the weight correction *)
Lemma corrected_covariance s ps m wc n w1 hd jac rows (H : nat -> nat -> Q) s' d :
  NoDup r_params -> weighted = true -> (match wc with Some w => w | None => ASYMPTOTIC end) = ASYMPTOTIC ->
  lookup method_eqb (the_method m) (cache s) = None ->
  (match the_method m with MName x => hesse_methods x | MCall n => Some n end) = Some n ->
  run_method n (vals s) = (w1, Ok hd) -> symmetric_dict hd -> jacobian w1 = Ok jac ->
  (forall k, k < length r_params -> length (nth k jac []) = rows) ->
  (forall i k p q, nth_error r_params i = Some p -> nth_error r_params k = Some q -> lookup pair_eqb (p, q) hd = Some (H i k)) ->
  covariance_dict s ps m wc = (s', Ok d) ->
  forall i j p q, nth_error r_params i = Some p -> nth_error r_params j = Some q -> In p (check_params ps) -> In q (check_params ps) ->
  exists v, lookup pair_eqb (p, q) d = Some (Some v) /\
   (v == let G a e := sum_to (length r_params) (fun k => H a k * nth e (nth k jac []) 0) in sum_to rows (fun e => G i e * G j e))%Q.
Proof.
  intros Hn Hw Hwc Hca Hme Hr Hsym Hj Hrows HH E i j p q Hi Hjq Hp Hq.
  destruct (covariance_dict_char _ _ _ _ _ _ E) as [dc [L [Hd [_ [_ [[Es L']|[_ [_ [R _]]]]]]]]]; [congruence|].
  rewrite Hwc in R. unfold Unc_Model.run_covariance in R. rewrite Hme in R. cbn [wcorr_eqb negb andb] in R. rewrite Hw in R. unfold covariance_with_weights in R. rewrite Hr in R.
  set (n0 := length r_params) in *.
  assert (Hin0 : n0 > i) by (apply nth_error_Some; congruence). assert (Hjn0 : n0 > j) by (apply nth_error_Some; congruence).
  destruct hd as [|x hd']; [exfalso; specialize (HH _ _ _ _ Hi Hi); discriminate|]. set (hd := x :: hd') in *.
  destruct (dict_to_matrix r_params hd) as [hinv|e] eqn:DM; [|discriminate]. rewrite Hj in R. cbn [snd] in R. injection R as <-.
  destruct (dict_to_matrix_entries _ _ _ DM) as [Sq En].
  assert (HM : forall a b, a < n0 -> b < n0 -> mget 0%Q hinv a b = H a b).
  { intros a b Ha Hb. destruct (in_square r_params a Ha) as [pa Hpa]. destruct (in_square r_params b Hb) as [pb Hpb].
    apply entry_mget. apply En. destruct (Nat.le_gt_cases a b) as [Hab|Hab].
    - rewrite Nat.min_l, Nat.max_r by lia. exists pa, pb. auto.
    - rewrite Nat.min_r, Nat.max_l by lia. exists pb, pa. repeat split; auto. apply Hsym. auto. }
  assert (HMs : forall a b, a < n0 -> b < n0 -> mget 0%Q hinv a b = mget 0%Q hinv b a).
  { intros a b Ha Hb. rewrite !HM by assumption. destruct (in_square r_params a Ha) as [pa Hpa]. destruct (in_square r_params b Hb) as [pb Hpb].
    pose proof (HH _ _ _ _ Hpa Hpb) as A. pose proof (HH _ _ _ _ Hpb Hpa) as B. apply Hsym in A. congruence. }
  eexists. split.
  { rewrite Hd, answer_lookup by assumption. rewrite (matrix_to_dict_lookup _ _ _ _ _ _ _ Hn Hi Hjq). reflexivity. }
  assert (Lmin : Nat.min i j < n0) by lia. assert (Lmax : Nat.max i j < n0) by lia.
  rewrite (sandwich n0 hinv jac rows _ _ Lmin Lmax HMs Hrows). cbv zeta.
  assert (GG : forall a e, a < n0 -> (sum_to n0 (fun k => mget 0 hinv a k * nth e (nth k jac []) 0) == sum_to n0 (fun k => H a k * nth e (nth k jac []) 0))%Q).
  { intros a e Ha. apply sum_ext. intros k Hk. rewrite HM by assumption. reflexivity. }
  apply sum_ext. intros e _. rewrite !GG by assumption.
  destruct (Nat.le_gt_cases i j) as [Hij|Hij]; [rewrite Nat.min_l, Nat.max_r by lia; reflexivity|rewrite Nat.min_r, Nat.max_l by lia; lra].
Qed.

(** [hesse] *)
Lemma check_uncached_ok s ps name cl wc : check_uncached s ps name cl wc = Ok tt ->
  forall p n, In p ps -> name = Some n -> In p r_params /\
    match lookup pair_eqb (p, n) (errs s) with
    | None => True | Some EMsg => False | Some e => exists c, level_of e = Some c /\ close_levels c cl
        /\ forall w w', corr_of e = Some w -> wc = Some w' -> w = w' end.
Proof.
  unfold Unc_Model.check_uncached. destruct (mapM _ ps) as [us|e] eqn:E; [|discriminate]. intros _ p n Hp ->. apply mapM_ok in E.
  destruct (Forall2_In_l _ _ _ _ E Hp) as [u [_ Hu]]. cbv beta in Hu.
  destruct (mem String.eqb p r_params) eqn:M; [|discriminate]. apply (mem_In _ string_eqb_ok) in M. split; [exact M|]. cbn [negb] in Hu.
  destruct (lookup pair_eqb (p, n) (errs s)) as [[e c w|l u' c|]|]; [| |discriminate|exact I];
    (destruct (cl_close c cl) eqn:C; try discriminate; apply cl_close_iff in C; exists c; split; [reflexivity|]; split; [exact C|]);
    intros w1 w2 H1 H2; cbn in H1; [|discriminate H1]. injection H1 as <-. subst wc. cbn [negb] in Hu.
  destruct w, w2; try reflexivity; discriminate Hu.
Qed.
Definition the_level (cl : option Q) := match cl with Some c => c | None => default_cl end.
Definition the_corr (wc : option wcorr) := match wc with Some w => w | None => if weighted then ASYMPTOTIC else NOCORR end.
Definition name_of (n : namearg) : option string := match n with NDefault => Some "hesse"%string | NFalse => None | NName n => Some n end.
Lemma hesse_char s ps m cl name wc s' r : hesse s ps m cl name wc = (s', r) ->
  (exists e, r = Err e /\ errs s' = errs s)
  \/ (r = Ok [] /\ errs s' = errs s /\ forall p, In p (check_params ps) -> vals s' p = vals s p)
  \/ exists f : string -> Q, let es := map (fun p => (p, EHesse (sqrt_ (f p) * sqrt_ (ppf (the_level cl)))%Q (the_level cl) (the_corr wc))) (check_params ps) in
       r = Ok es
       /\ check_uncached s (check_params ps) (name_of name) (the_level cl) (Some (the_corr wc)) = Ok tt
       /\ (forall p, In p (check_params ps) -> vals s' p = vals s p)
       /\ (exists dc, lookup method_eqb (the_method m) (cache s') = Some dc /\ forall p, In p (check_params ps) -> lookup pair_eqb (p, p) dc = Some (f p))
       /\ errs s' = match name_of name with Some n => errs (store s n es) | None => errs s end.
Proof.
  unfold Unc_Model.hesse. fold (the_level cl) (the_method m) (the_corr wc).
  destruct (Qle_bool 1 (the_level cl)). { intros H. injection H as <- <-. left. eauto. }
  destruct (match name with NDefault => _ | _ => _ end) as [nm|e] eqn:EN. 2: { intros H. injection H as <- <-. left. eauto. }
  assert (Hnm : nm = name_of name).
  { destruct name, (the_method m); cbn in EN |- *; congruence. } clear EN. subst nm.
  destruct (negb (wcorr_eqb (the_corr wc) NOCORR) && negb weighted). { intros H. injection H as <- <-. left. eauto. }
  unfold reset. set (ck := check_params ps) in *.
  destruct (check_uncached s ck (name_of name) (the_level cl) (Some (the_corr wc))) as [[]|e] eqn:EC.
  2: { intros H. injection H as <- <-. left. eauto. }
  destruct ck as [|p0 pl] eqn:Eck.
  { intros H. injection H as <- <-. right; left. split; [reflexivity|]. split; [reflexivity|intros p []]. }
  set (ck2 := p0 :: pl) in *. clearbody ck2. destruct (covariance_dict s (Some ck2) (Some (the_method m)) (Some (the_corr wc))) as [s1 [d|e]] eqn:ED.
  2: { intros H. injection H as <- <-. left. exists e. split; [reflexivity|]. apply (covariance_dict_err _ _ _ _ _ _ ED). }
  destruct (covariance_dict_char _ _ _ _ _ _ ED) as [dc [L [Hd [He _]]]]. cbn [the_method Unc_Model.check_params] in L, Hd.
  assert (Hlk : forall p, In p ck2 -> lookup pair_eqb (p, p) d = Some (lookup pair_eqb (p, p) dc)) by (intros p Hp; rewrite Hd; apply answer_lookup; assumption).
  destruct (existsb _ _) eqn:EX.
  { intros H. injection H as <- <-. right; left. cbn [errs with_vals vals]. split; [reflexivity|]. split; [exact He|]. intros p Hp. exact (assign_map ck2 (vals s) _ p Hp). }
  assert (HS : forall p, In p ck2 -> exists v, lookup pair_eqb (p, p) dc = Some v).
  { intros p Hp. destruct (lookup pair_eqb (p, p) dc) as [v|] eqn:Ev; [eauto|exfalso].
    assert (B : existsb (fun pv : string * option Q => match snd pv with None => true | Some _ => false end)
       (map (fun p => (p, match lookup pair_eqb (p, p) d with Some v => v | None => None end)) ck2) = true).
    { apply existsb_exists. exists (p, None). split; [|reflexivity]. apply in_map_iff. exists p. rewrite (Hlk p Hp), Ev. auto. }
    congruence. }
  intros H. injection H as <- <-. right; right.
  exists (fun p => match lookup pair_eqb (p, p) dc with Some v => v | None => 0%Q end). cbv zeta.
  assert (EES : map (fun pv : string * option Q => (fst pv, EHesse (match snd pv with Some v => sqrt_ v | None => 0%Q end * sqrt_ (ppf (the_level cl)))%Q (the_level cl) (the_corr wc)))
         (map (fun p => (p, match lookup pair_eqb (p, p) d with Some v => v | None => None end)) ck2)
       = map (fun p => (p, EHesse (sqrt_ (match lookup pair_eqb (p, p) dc with Some v => v | None => 0%Q end) * sqrt_ (ppf (the_level cl)))%Q (the_level cl) (the_corr wc))) ck2).
  { rewrite map_map. apply map_ext_in. intros p Hp. cbn [fst snd]. rewrite (Hlk p Hp). destruct (HS p Hp) as [v ->]. reflexivity. }
  rewrite EES. split; [reflexivity|]. split; [first [exact EC|reflexivity]|]. split; [|split].
  - intros p Hp. cbn [with_vals vals]. exact (assign_map ck2 (vals s) _ p Hp).
  - exists dc. split; [destruct (name_of name); cbn [cache with_vals store]; exact L|]. intros p Hp. destruct (HS p Hp) as [v ->]. reflexivity.
  - destruct (name_of name); unfold store; cbn [errs with_vals]; rewrite He; reflexivity.
Qed.

(** [errors] *)
Definition errors_keys := forall ps c w w' es new, error_method ps c w = (w', Ok (es, new)) -> incl (map fst es) ps.
Definition the_errors_level (cl sigma : option Q) : result Q :=
  match sigma, cl with Some _, Some _ => Err ValueError | Some g, None => Ok (cdf g) | None, Some c => Ok c | None, None => Ok default_cl end.
Lemma errors_char s ps name cl sigma s' r : errors s ps name cl sigma = (s', r) ->
  (errs s' = errs s /\ valid_flag s' = valid_flag s /\ cache s' = cache s /\ ((exists e, r = Err e) \/ r = Ok ([], false)))
  \/ exists c w es new, the_errors_level cl sigma = Ok c /\ check_uncached s (check_params ps) (Some name) c None = Ok tt
     /\ error_method (check_params ps) c (vals s) = (w, Ok (es, new))
     /\ (forall p, In p r_params -> vals s' p = vals s p) /\ cache s' = cache s
     /\ errs s' = (let s1 := store s name (map (fun e => (fst e, EAsym (fst (snd e)) (snd (snd e)) c)) es) in
                   if new then errs (store s1 name (map (fun p => (p, EMsg)) (check_params ps))) else errs s1)
     /\ valid_flag s' = (if new then false else valid_flag s)
     /\ r = (let* l := mapM (fun p => let* e := opt_result KeyError (lookup pair_eqb (p, name) (errs s')) in Ok (p, e)) (check_params ps) in Ok (l, new)).
Proof.
  unfold Unc_Model.errors. fold (the_errors_level cl sigma). destruct (the_errors_level cl sigma) as [c|e].
  2: { intros H. injection H as <- <-. left. eauto 8. }
  unfold reset. cbv zeta. set (ck := check_params ps) in *. destruct (check_uncached s ck (Some name) c None) as [[]|e] eqn:EC.
  2: { intros H. injection H as <- <-. left. eauto 8. }
  destruct ck as [|p0 pl] eqn:Eck.
  { intros H. injection H as <- <-. left. cbn. auto. }
  set (ck2 := p0 :: pl) in *. clearbody ck2. destruct (error_method ck2 c (vals s)) as [w [[es new]|e]] eqn:EM.
  2: { intros H. injection H as <- <-. left. cbn. eauto 8. }
  intros H. right. exists c, w, es, new. split; [reflexivity|]. split; [first [exact EC|reflexivity]|]. split; [first [exact EM|reflexivity]|].
  destruct new; injection H as <- <-; (split; [intros p Hp; cbn [vals with_vals store]; apply assign_map, Hp|]); split; try reflexivity; split; try reflexivity; split; reflexivity.
Qed.

(** What may happen to an entry in one call. *)
Lemma may_refl o : may_become o o. Proof. left. reflexivity. Qed.
Lemma check_uncached_become s ps n cl wc p e : check_uncached s ps (Some n) cl wc = Ok tt -> In p ps -> level_of e = Some cl ->
  (forall w, corr_of e = Some w -> wc = Some w) ->
  may_become (lookup pair_eqb (p, n) (errs s)) (Some e).
Proof.
  intros H Hp He Hw. destruct (check_uncached_ok _ _ _ _ _ H p n Hp eq_refl) as [_ G]. right.
  destruct (lookup pair_eqb (p, n) (errs s)) as [e0|]; [|exact I].
  destruct e0 as [a b c0|a b c0|]; [| |destruct G]; destruct G as [c [Hc [Hcl Hcw]]]; destruct e; cbn in He |- *; try discriminate; exists c, cl;
    (split; [exact Hc|]; split; [exact He|]; split; [exact Hcl|]; intros u1 u2 H1 H2; apply Hcw; [exact H1|apply Hw, H2]).
Qed.
Lemma after_become : errors_keys -> forall s c p n,
  may_become (lookup pair_eqb (p, n) (errs s)) (lookup pair_eqb (p, n) (errs (after r_params weighted some_unweighted hesse_methods run_method jacobian error_method sqrt_ ppf cdf s c))).
Proof.
  intros HK s c p n. destruct c as [ps m cl name wc|ps name cl sigma|ps m wc]; cbn [after].
  - destruct (hesse s ps m cl name wc) as [s' r] eqn:E. cbn [fst].
    destruct (hesse_char _ _ _ _ _ _ _ _ E) as [[e [_ ->]]|[[_ [-> _]]|[f [_ [EC [_ [_ ->]]]]]]]; try apply may_refl.
    destruct (name_of name) as [nm|]; [|apply may_refl]. rewrite store_lookup. destruct (String.eqb n nm) eqn:En; [|apply may_refl].
    apply string_eqb_ok in En. subst nm. destruct (lookup String.eqb p (rev _)) as [e|] eqn:El; [|apply may_refl].
    apply lookup_rev_In in El. apply in_map_iff in El. destruct El as [q [Eq Hq]]. injection Eq as -> <-.
    eapply check_uncached_become; [exact EC|exact Hq|reflexivity|]. cbn. intros w Hw. injection Hw as <-. reflexivity.
  - destruct (errors s ps name cl sigma) as [s' r] eqn:E. cbn [fst].
    destruct (errors_char _ _ _ _ _ _ _ E) as [[-> _]|[c [w [es [new [_ [EC [EM [_ [_ [-> _]]]]]]]]]]]; [apply may_refl|]. cbv zeta.
    assert (S1 : may_become (lookup pair_eqb (p, n) (errs s)) (lookup pair_eqb (p, n) (errs (store s name (map (fun e => (fst e, EAsym (fst (snd e)) (snd (snd e)) c)) es))))).
    { rewrite store_lookup. destruct (String.eqb n name) eqn:En; [|apply may_refl]. apply string_eqb_ok in En. subst name.
      destruct (lookup String.eqb p (rev _)) as [e|] eqn:El; [|apply may_refl]. apply lookup_rev_In in El. apply in_map_iff in El.
      destruct El as [[q lu] [Eq Hq]]. injection Eq as -> <-. eapply check_uncached_become; [exact EC| |reflexivity|cbn; discriminate].
      apply (HK _ _ _ _ _ _ EM). apply in_map_iff. exists (p, lu). auto. }
    destruct new; [|exact S1]. rewrite store_lookup. destruct (String.eqb n name) eqn:En; [|exact S1]. apply string_eqb_ok in En. subst name.
    destruct (lookup String.eqb p (rev _)) as [e|] eqn:El; [|exact S1].
    apply lookup_rev_In in El. apply in_map_iff in El. destruct El as [q [Eq Hq]]. injection Eq as -> <-.
    destruct (check_uncached_ok _ _ _ _ _ EC p n Hq eq_refl) as [_ G]. right.
    destruct (lookup pair_eqb (p, n) (errs s)) as [e0|]; [|exact I]. destruct e0; try discriminate. destruct G.
  - destruct (covariance_dict s ps m wc) as [s' [d|e]] eqn:E; cbn [fst].
    + destruct (covariance_dict_char _ _ _ _ _ _ E) as [dc [_ [_ [-> _]]]]. apply may_refl.
    + destruct (covariance_dict_err _ _ _ _ _ _ E) as [-> _]. apply may_refl.
Qed.
Lemma may_msg o : may_become (Some EMsg) o -> o = Some EMsg.
Proof. intros [H|H]; [exact H|]. destruct o as [[a b c|a b c|]|]; [| |reflexivity|destruct H]; destruct H as [c1 [c2 [H _]]]; discriminate. Qed.
Lemma may_some e o : may_become (Some e) o -> exists e', o = Some e'.
Proof. intros [H|H]; [eauto|]. destruct o; [eauto|destruct H]. Qed.
Lemma history_msg : errors_keys -> forall cs s p n, lookup pair_eqb (p, n) (errs s) = Some EMsg ->
  lookup pair_eqb (p, n) (errs (history r_params weighted some_unweighted hesse_methods run_method jacobian error_method sqrt_ ppf cdf s cs)) = Some EMsg.
Proof.
  intros HK. induction cs as [|c cs IH]; intros s p n H; [exact H|]. cbn [history fold_left]. apply IH. pose proof (after_become HK s c p n) as G. rewrite H in G. apply may_msg, G.
Qed.
Lemma history_kept : errors_keys -> forall cs s p n e, lookup pair_eqb (p, n) (errs s) = Some e ->
  exists e', lookup pair_eqb (p, n) (errs (history r_params weighted some_unweighted hesse_methods run_method jacobian error_method sqrt_ ppf cdf s cs)) = Some e'.
Proof.
  intros HK. induction cs as [|c cs IH]; intros s p n e H; [exists e; exact H|]. cbn [history fold_left]. pose proof (after_become HK s c p n) as G. rewrite H in G.
  destruct (may_some _ _ G) as [e' He']. eapply IH, He'.
Qed.
(** a call with a name whose entry is the message raises *)
Lemma msg_refuses_hesse s ps m cl name wc p n : name_of name = Some n -> In p (check_params ps) -> lookup pair_eqb (p, n) (errs s) = Some EMsg ->
  exists e, snd (hesse s ps m cl name wc) = Err e.
Proof.
  intros Hn Hp HL. destruct (hesse s ps m cl name wc) as [s' r] eqn:E. cbn [snd].
  assert (NC : forall c w, check_uncached s (check_params ps) (Some n) c w <> Ok tt).
  { intros c w EC. destruct (check_uncached_ok _ _ _ _ _ EC p n Hp eq_refl) as [_ G]. rewrite HL in G. exact G. }
  destruct (hesse_char _ _ _ _ _ _ _ _ E) as [[e [-> _]]|[[-> _]|[f [_ [EC _]]]]]; [eauto| |].
  - exfalso. unfold Unc_Model.hesse in E. fold (the_level cl) (the_method m) (the_corr wc) in E.
    destruct (Qle_bool 1 (the_level cl)); [discriminate|].
    destruct (match name with NDefault => _ | _ => _ end) as [nm|e] eqn:EN; [|discriminate].
    assert (nm = Some n) by (destruct name, (the_method m); cbn in EN, Hn; congruence). subst nm.
    destruct (negb (wcorr_eqb (the_corr wc) NOCORR) && negb weighted); [discriminate|]. unfold reset in E.
    destruct (check_uncached s (check_params ps) (Some n) (the_level cl) (Some (the_corr wc))) as [[]|e] eqn:EC; [exact (NC _ _ EC)|discriminate].
  - exfalso. rewrite Hn in EC. exact (NC _ _ EC).
Qed.
Lemma msg_refuses_errors s ps name cl sigma p : In p (check_params ps) -> lookup pair_eqb (p, name) (errs s) = Some EMsg ->
  exists e, snd (errors s ps name cl sigma) = Err e.
Proof.
  intros Hp HL. assert (NC : forall c w, check_uncached s (check_params ps) (Some name) c w <> Ok tt).
  { intros c w EC. destruct (check_uncached_ok _ _ _ _ _ EC p name Hp eq_refl) as [_ G]. rewrite HL in G. exact G. }
  unfold Unc_Model.errors. fold (the_errors_level cl sigma). destruct (the_errors_level cl sigma) as [c|e]; [|cbn; eauto]. unfold reset. cbv zeta.
  destruct (check_uncached s (check_params ps) (Some name) c None) as [[]|e] eqn:EC; [destruct (NC _ _ EC)|cbn; eauto].
Qed.
Lemma errors_result s ps name cl sigma s' es new :
  (forall q c w w' el b, error_method q c w = (w', Ok (el, b)) -> map fst el = q) ->
  errors s ps name cl sigma = (s', Ok (es, new)) ->
  (forall p, In p r_params -> vals s' p = vals s p)
  /\ map fst es = requested r_params ps
  /\ (forall p e, In (p, e) es -> lookup pair_eqb (p, name) (errs s') = Some e)
  /\ (forall p n, ~ (n = name /\ In p (requested r_params ps)) -> lookup pair_eqb (p, n) (errs s') = lookup pair_eqb (p, n) (errs s))
  /\ (new = true -> valid_flag s' = false /\ forall p e, In (p, e) es -> e = EMsg)
  /\ (new = false -> valid_flag s' = valid_flag s /\ forall p e, In (p, e) es -> exists lower upper,
        e = EAsym lower upper (match sigma with Some g => cdf g | None => match cl with Some c => c | None => default_cl end end)).
Proof.
  intros HK E. change (requested r_params ps) with (check_params ps).
  unfold Unc_Model.errors in E. fold (the_errors_level cl sigma) in E. destruct (the_errors_level cl sigma) as [c|e] eqn:HL; [|discriminate].
  assert (Hlev : c = match sigma with Some g => cdf g | None => match cl with Some c => c | None => default_cl end end).
  { unfold the_errors_level in HL. destruct sigma, cl; congruence. } rewrite <- Hlev. clear Hlev HL.
  unfold reset in E. cbv zeta in E. set (ck := check_params ps) in *.
  destruct (check_uncached s ck (Some name) c None) as [[]|e] eqn:EC; [|discriminate].
  destruct ck as [|p0 pl] eqn:Eck.
  { cbn in E. injection E as <- <- <-. split; [intros p Hp; exact (assign_map r_params (vals s) (vals s) p Hp)|]. split; [reflexivity|]. split; [intros p e []|].
    split; [reflexivity|]. split; [discriminate|]. intros _. split; [reflexivity|intros p e []]. }
  set (ck2 := p0 :: pl) in *. clearbody ck2. clear p0 pl EC Eck.
  destruct (error_method ck2 c (vals s)) as [w [[el nw]|e]] eqn:EM; [|discriminate]. pose proof (HK _ _ _ _ _ _ EM) as Hkeys.
  set (es1 := map (fun e => (fst e, EAsym (fst (snd e)) (snd (snd e)) c)) el) in *.
  assert (K1 : map fst es1 = ck2) by (unfold es1; rewrite map_map; exact Hkeys).
  assert (HE : exists sF, s' = sF /\ vals sF = assign (vals (with_vals s w)) r_params (map (vals s) r_params)
     /\ errs sF = (if nw then errs (store (store s name es1) name (map (fun p => (p, EMsg)) ck2)) else errs (store s name es1))
     /\ valid_flag sF = (if nw then false else valid_flag s)
     /\ mapM (fun p => let* e := opt_result KeyError (lookup pair_eqb (p, name) (errs sF)) in Ok (p, e)) ck2 = Ok es /\ nw = new).
  { destruct nw; injection E as <- E; (eexists; split; [reflexivity|]; split; [reflexivity|]; split; [reflexivity|]; split; [reflexivity|]);
      (destruct (mapM _ ck2) as [l|e]; [|discriminate]); cbn [bind] in E; injection E as -> <-; split; reflexivity. }
  destruct HE as [sF [-> [Hv [He [Hf [Hm ->]]]]]]. clear E. split; [intros p Hp; rewrite Hv; exact (assign_map r_params (vals s) w p Hp)|].
  apply mapM_ok in Hm.
  assert (Hpair : Forall2 (fun p pe => fst pe = p /\ lookup pair_eqb (p, name) (errs sF) = Some (snd pe)) ck2 es).
  { clear - Hm. induction Hm as [|p qe l m H F IH]; [constructor|]. constructor; [|exact IH]. destruct qe as [q e]. cbv beta in H. destruct (lookup pair_eqb (p, name) (errs sF)); cbn in H |- *; [|discriminate]. injection H as -> ->. auto. }
  assert (HIn : forall p e, In (p, e) es -> lookup pair_eqb (p, name) (errs sF) = Some e /\ In p ck2).
  { clear - Hpair. induction Hpair as [|p qe l es [A B] F IH]; [|destruct qe as [q e]]; intros p' e' Hin; [destruct Hin|].
    destruct Hin as [Hin|Hin]; [injection Hin as -> ->; cbn in A, B; subst; split; [exact B|left; reflexivity]|]. destruct (IH _ _ Hin). split; [assumption|right; assumption]. }
  split. { clear - Hpair. induction Hpair as [|p qe l es [A B] F IH]; [reflexivity|]. destruct qe as [q e]. cbn in *. congruence. }
  split; [intros p e Hin; apply HIn, Hin|].
  assert (N1 : forall p n, ~ (n = name /\ In p ck2) -> lookup pair_eqb (p, n) (errs (store s name es1)) = lookup pair_eqb (p, n) (errs s)).
  { intros p n Hn. rewrite store_lookup. destruct (String.eqb n name) eqn:En; [|reflexivity]. apply string_eqb_ok in En. subst n.
    destruct (lookup String.eqb p (rev es1)) as [e|] eqn:El; [|reflexivity]. exfalso. apply Hn. split; [reflexivity|].
    apply lookup_rev_In in El. rewrite <- K1. apply in_map_iff. exists (p, e). auto. }
  split; [|split].
  - intros p n Hn. rewrite He. destruct new; [|apply N1, Hn]. rewrite store_lookup. destruct (String.eqb n name) eqn:En; [|apply N1, Hn].
    apply string_eqb_ok in En. subst n. destruct (lookup String.eqb p (rev (map (fun p => (p, EMsg)) ck2))) as [e|] eqn:El; [|apply N1, Hn].
    exfalso. apply Hn. split; [reflexivity|]. apply lookup_rev_In in El. apply in_map_iff in El. destruct El as [q [Eq Hq]]. injection Eq as -> _. exact Hq.
  - intros ->. split; [exact Hf|]. intros p e Hin. destruct (HIn _ _ Hin) as [A B]. rewrite He in A. rewrite store_lookup in A.
    rewrite (proj2 (string_eqb_ok name name) eq_refl) in A. rewrite (lookup_rev_fun (fun _ => EMsg) _ _ B) in A. congruence.
  - intros ->. split; [exact Hf|]. intros p e Hin. destruct (HIn _ _ Hin) as [A B]. rewrite He in A. rewrite store_lookup in A. rewrite (proj2 (string_eqb_ok name name) eq_refl) in A.
    destruct (lookup_some_key String.eqb string_eqb_ok p (rev es1)) as [e0 El].
    { rewrite map_rev, <- in_rev, K1. exact B. }
    rewrite El in A. injection A as <-. apply lookup_rev_In in El. unfold es1 in El. apply in_map_iff in El. destruct El as [[q lu] [Eq _]]. injection Eq as _ <-. eauto.
Qed.
End Result.
