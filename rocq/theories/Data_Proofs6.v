(** Proofs for unbinned data, part 6: samplers and data frames (C24, C49, C50). *)
From Verif Require Import Base BaseLemmas Coord_Model Coord_Spec Coord_Proofs Space_Model Space_Spec
  Space_Proofs Space_Proofs2 Space_Proofs3 Space_Proofs4 Data_Model Data_Spec Data_Proofs Data_Proofs2 Data_Proofs3
  Data_Proofs4 Data_Proofs5.
#[local] Open Scope nat_scope.

Definition sinv (s : sampler) (os : list string) (k : lk) : Prop :=
  data_space (sm_space s) /\ sp_ok (sm_space s) os k /\ numbered (sm_space s) os
  /\ (forall m p, rectangular (fst (sm_func s m p)) /\ weights_fit (t_rows (fst (sm_func s m p))) (snd (sm_func s m p)))
  /\ (forall r, In r (sm_rows s) -> length r = length os).

Lemma update_frame s x g s' r : sm_update s x g = (s', r) ->
  sm_space s' = sm_space s /\ sm_func s' = sm_func s /\ sm_params s' = sm_params s.
Proof.
  unfold sm_update. destruct (prepare_sample s x g) as [[t ws]|e].
  - destruct ws, (sm_weights s); intros H; injection H as <- _; auto.
  - intros H. inversion H; subst. auto.
Qed.
Lemma data_sample s os k d : sinv s os k -> data_ok d -> 
  (exists t ws, (let* d' := d_with_obs d (BySpace (sm_space s)) in let* (_, t) := d_value d' None in Ok (t, d_weights d')) = Ok (t, ws)
     /\ rectangular t /\ t_width t = length os /\ weights_fit (t_rows t) ws /\ (ws = None <-> d_weights d = None))
  \/ exists e, (let* d' := d_with_obs d (BySpace (sm_space s)) in let* (_, t) := d_value d' None in Ok (t, d_weights d')) = Err e.
Proof.
  intros [D [S _]] Hd. destruct (d_with_obs d (BySpace (sm_space s))) as [d'|e] eqn:E; [|right; exists e; reflexivity].
  left. cbn [bind]. destruct (data_ok_inv d Hd) as [osd [kd [cols [N V]]]].
  pose proof (do_with_space _ _ _ Hd D E) as Hd'.
  assert (Hi : incl os osd).
  { unfold d_with_obs in E. rewrite (proj1 S) in E. apply bind_ok in E. destruct E as [sp [Esp E]].
    apply bind_ok in Esp. destruct Esp as [u [_ Esp]]. inversion Esp; subst sp. rewrite (sp_unbinned _ _ _ S) in E.
    apply bind_ok in E. destruct E as [p [E _]]. unfold permutation_indices, d_obs in E.
    rewrite (proj1 (i_sp _ _ _ _ _ V)), (proj1 S) in E. destruct (subsetb String.eqb os osd) eqn:Es; [|discriminate].
    apply (subsetb_incl _ string_eqb_ok), Es. }
  destruct (with_space _ _ _ _ _ _ _ _ V D S Hi) as [d2 [cols2 [N2 [E2 [V2 [_ W2]]]]]].
  rewrite E in E2. inversion E2; subst d2. destruct (value_none _ _ _ _ _ V2) as [l [El _]]. rewrite El. cbn [bind].
  do 2 eexists. split; [reflexivity|]. split; [intros r Hr; cbn [t_rows t_width] in *; rewrite (rowsof_width _ _ _ Hr); apply (i_len _ _ _ _ _ V2)|].
  split; [reflexivity|]. split; [apply (inv_wfit _ _ _ _ _ V2)|]. rewrite W2. destruct (d_weights d); simpl; split; congruence.
Qed.
(** What [prepare_sample] hands on *)
Lemma prepared s os k x g t ws : sinv s os k -> sample_ok x g -> prepare_sample s x g = Ok (t, ws) ->
  rectangular t /\ t_width t = length os /\ weights_fit (t_rows t) ws /\ (ws = None <-> sample_weights x = None).
Proof.
  intros I Hx H. pose proof I as [D [S [Hn _]]]. unfold prepare_sample in H. apply bind_ok in H. destruct H as [[t0 ws0] [E H]].
  assert (P : rectangular t0 /\ (ws0 = None <-> sample_weights x = None) /\ (g = true -> weights_fit (t_rows t0) ws0)).
  { destruct x as [ta wa|d [wa|]]; [| |].
    - inversion E; subst. destruct Hx as [H1 H2]. split; [exact H1|]. split; [reflexivity|exact H2].
    - discriminate.
    - destruct (data_sample s os k d I Hx) as [[t1 [w1 [E1 [R [W [F A]]]]]]|[e E1]]; [|rewrite E1 in E; discriminate].
      rewrite E1 in E. inversion E; subst. split; [exact R|]. split; [exact A|intros _; exact F]. }
  destruct P as [R [A F]]. rewrite (sp_n_obs _ _ _ S) in H. destruct (Nat.eqb_spec (t_width t0) (length os)) as [Ew|Ew]; [|discriminate].
  cbn [negb] in H. destruct g.
  - inversion H; subst. auto.
  - assert (Hf : weights_fit (t_rows t0) ws0).
    { unfold check_cut_tensor in H. apply bind_ok in H. destruct H as [u [H _]]. destruct ws0 as [w|]; [|exact Logic.I].
      simpl in *. destruct (Nat.eqb_spec (length w) (length (t_rows t0))); [assumption|discriminate]. }
    rewrite (cut_tensor_ok _ _ _ _ _ S R Ew Hf) in H. inversion H; subst. cbn [t_rows t_width].
    split; [intros r Hr; cbn [t_rows t_width] in *; apply filter_In in Hr; rewrite (R _ (proj1 Hr)); try reflexivity; exact Ew|].
    split; [exact Ew|]. split; [apply cutw_fit, Hf|]. rewrite <- A. destruct ws0; simpl; split; congruence.
Qed.
Lemma update_sinv s os k x g s' r : sinv s os k -> sample_ok x g -> sm_update s x g = (s', r) -> sinv s' os k.
Proof.
  intros I Hx H. destruct (update_frame _ _ _ _ _ H) as [E1 [E2 E3]]. pose proof I as [D [S [Hn [Hf Hr]]]].
  unfold sinv. rewrite E1, E2. split; [exact D|]. split; [exact S|]. split; [exact Hn|]. split; [exact Hf|].
  unfold sm_update in H. destruct (prepare_sample s x g) as [[t ws]|e] eqn:Ep.
  - destruct (prepared _ _ _ _ _ _ _ I Hx Ep) as [R [W _]].
    assert (X : sm_rows s' = t_rows t) by (destruct ws, (sm_weights s); injection H as <- _; reflexivity).
    rewrite X. intros y Hy. rewrite <- W. apply R, Hy.
  - inversion H; subst. exact Hr.
Qed.
Lemma resample_as s params n s' r : sm_resample s params n = (s', r) -> forall os k, sinv s os k ->
  (s' = s /\ exists e, r = Err e) \/
  (sm_update s (NArray (fst (sm_func s n (pupdate (sm_params s) params))) (snd (sm_func s n (pupdate (sm_params s) params)))) true = (s', r)
   /\ length (t_rows (fst (sm_func s n (pupdate (sm_params s) params)))) = n
   /\ t_width (fst (sm_func s n (pupdate (sm_params s) params))) = length os).
Proof.
  intros H os k [D [S _]]. unfold sm_resample in H. destruct (sm_func s n (pupdate (sm_params s) params)) as [t ws] eqn:E.
  cbn [fst snd]. destruct (negb _) eqn:E1 in H; [left; inversion H; eauto|].
  destruct (match ws with Some w => negb (length w =? n) | None => false end); [left; inversion H; eauto|].
  right. split; [exact H|]. apply negb_false_iff, andb_true_iff in E1. destruct E1 as [A B]. apply Nat.eqb_eq in A, B.
  rewrite (sp_n_obs _ _ _ S) in B. auto.
Qed.
Lemma sampler_sinv s : sampler_ok s -> exists os k, sinv s os k.
Proof.
  induction 1 as [obs func params n s D Hf H|s x g s' r H IH Hx E|s params n s' r H IH E].
  - destruct (data_space_sp _ D) as [os [k S]]. exists os, k. unfold from_sampler in H.
    destruct (func n params) as [t ws] eqn:Efn. apply bind_ok in H. destruct H as [[t' ws'] [Ec H]].
    destruct (negb (t_width t' =? s_n_obs obs)) eqn:Ew; [discriminate|]. apply bind_ok in H. destruct H as [sp [Es H]].
    destruct (sp_autofill _ _ _ S) as [sp' [Es' [S' Hn]]]. rewrite Es in Es'. inversion Es'; subst sp'.
    pose proof (data_space_autofill _ _ D Es) as D'.
    assert (Rt : rectangular t /\ weights_fit (t_rows t) ws) by (specialize (Hf n params); rewrite Efn in Hf; exact Hf).
    destruct Rt as [Rt Rw].
    apply negb_false_iff, Nat.eqb_eq in Ew. rewrite (sp_n_obs _ _ _ S) in Ew.
    assert (Hw : t_width t = length os).
    { unfold check_cut_tensor in Ec. apply bind_ok in Ec. destruct Ec as [u [_ Ec]].
      destruct (s_has_limits obs); [|inversion Ec; subst; exact Ew].
      apply bind_ok in Ec. destruct Ec as [m [_ Ec]]. inversion Ec; subst. exact Ew. }
    pose proof (cut_tensor_ok _ _ _ _ _ S Rt Hw Rw) as Ec'. rewrite Ec' in Ec. inversion Ec; subst t' ws'.
    match type of H with (match sm_update ?s0 ?x ?g with _ => _ end) = _ => set (s0' := s0) in *; destruct (sm_update s0' x g) as [s1 r1] eqn:Eu end.
    destruct r1; [|discriminate]. inversion H; subst s1.
    eapply update_sinv; [| |exact Eu].
    + unfold s0'. split; [exact D'|]. split; [exact S'|]. split; [exact Hn|]. split; [exact Hf|].
      cbn [sm_rows t_rows]. intros x Hx. apply filter_In in Hx. rewrite <- Hw. apply Rt, Hx.
    + cbn [sample_ok]. split; [|discriminate]. intros x Hx. cbn [t_rows t_width] in *. apply filter_In in Hx. rewrite (Rt _ (proj1 Hx)); try reflexivity; exact Hw.
  - destruct IH as [os [k I]]. exists os, k. eapply update_sinv; eassumption.
  - destruct IH as [os [k I]]. exists os, k. destruct (resample_as _ _ _ _ _ E _ _ I) as [[-> _]|[Eu [L W]]]; [exact I|].
    eapply update_sinv; [exact I| |exact Eu]. destruct I as [_ [_ [_ [Hf _]]]]. specialize (Hf n (pupdate (sm_params s) params)).
    split; [apply Hf|intros _; apply Hf].
Qed.

(** C24 *)
Lemma sampler_shows s os k : sinv s os k -> shows (v_data s (sampler_data s)) os (sm_rows s).
Proof.
  intros [D [S [Hn [_ Hr]]]]. split; [exact (proj1 S)|].
  assert (Hne : os <> []) by apply S.
  destruct (lds_from_tensor_ok (mkT (length os) (sm_rows s))) as [E [cols [L [Hl Er]]]].
  - exact Hr.
  - cbn. destruct os; [congruence|discriminate].
  - cbn [t_width t_rows] in *.
    assert (V : inv (mkData (sm_space s) (LT (mkT (length os) (sm_rows s)) (seq 0 (length os))) None) os k cols (length (sm_rows s))).
    { split; cbn [d_space d_set d_weights]; try assumption. exact Logic.I. }
    destruct (value_none _ _ _ _ _ V) as [l [El _]]. exists (set_lds (v_data s (sampler_data s)) l).
    unfold v_data, sampler_data, resolve. cbn [v_space v_set v_weights]. rewrite (sp_n_obs _ _ _ S).
    unfold d_value, d_value_ix in *. cbn [d_space d_set set_lds] in *.
    apply bind_ok in El. destruct El as [sp' [Es El]]. rewrite Es. cbn [bind].
    destruct (s_axes sp') as [axs|]; [|discriminate].
    apply bind_ok in El. destruct El as [ks [Ek El]]. rewrite Ek. cbn [bind].
    apply bind_ok in El. destruct El as [[l' t'] [Ev El]]. rewrite Ev. cbn [bind].
    inversion El; subst. rewrite Er. reflexivity.
Qed.
Lemma update_ok s x g t ws : prepare_sample s x g = Ok (t, ws) -> agrees s ws ->
  sm_update s x g = (set_all s (t_rows t) ws, Ok tt).
Proof.
  intros E [A1 A2]. unfold sm_update. rewrite E. destruct ws as [w|], (sm_weights s) as [w'|]; try reflexivity.
  - specialize (A2 eq_refl). discriminate.
  - specialize (A1 eq_refl). discriminate.
Qed.
Lemma C24_array_l s os t ws : sampler_ok s -> s_obs (sm_space s) = Some os -> rectangular t -> t_width t = length os ->
  weights_fit (t_rows t) ws -> agrees s ws ->
  exists s', sm_update s (NArray t ws) false = (s', Ok tt)
    /\ kept_weighted (fun r => in_box os r (limit_of (sm_space s))) (t_rows t) ws (sm_rows s') (sm_weights s')
    /\ consistent s' /\ shows (v_data s' (sampler_data s')) os (sm_rows s').
Proof.
  intros Hs Eo R W F A. destruct (sampler_sinv s Hs) as [os' [k I]]. pose proof I as [D [S [Hn _]]].
  pose proof (sp_obs _ _ _ _ S Eo). subst os'.
  assert (E : prepare_sample s (NArray t ws) false = Ok (mkT (t_width t) (filter (keepb k os) (t_rows t)), cutw k os (t_rows t) ws)).
  { unfold prepare_sample. cbn [bind]. rewrite (sp_n_obs _ _ _ S), W, Nat.eqb_refl. cbn [negb].
    rewrite (cut_tensor_ok _ _ _ _ _ S R W F). rewrite W. reflexivity. }
  assert (A' : agrees s (cutw k os (t_rows t) ws)).
  { destruct A as [A1 A2]. split; intros H; [apply A1; destruct ws; [discriminate|reflexivity]|]. rewrite (A2 H). reflexivity. }
  pose proof (update_ok _ _ _ _ _ E A') as U. eexists. split; [exact U|]. cbn [set_all sm_rows sm_weights t_rows].
  split; [apply kw; assumption|]. split; [split; [apply cutw_fit, F|reflexivity]|].
  assert (I' : sinv (set_all s (filter (keepb k os) (t_rows t)) (cutw k os (t_rows t) ws)) os k).
  { eapply update_sinv; [exact I| |exact U]. split; [exact R|discriminate]. }
  apply (sampler_shows _ _ _ I').
Qed.
Lemma C24_data_l s os d osd rows : sampler_ok s -> s_obs (sm_space s) = Some os -> data_ok d -> shows d osd rows -> incl os osd ->
  agrees s (d_weights d) ->
  exists s' picked, sm_update s (NData d None) false = (s', Ok tt) /\ columns_of osd rows os picked
    /\ kept_weighted (fun r => in_box os r (limit_of (sm_space s))) picked (d_weights d) (sm_rows s') (sm_weights s')
    /\ consistent s' /\ shows (v_data s' (sampler_data s')) os (sm_rows s').
Proof.
  intros Hs Eo Hd Hsh Hi A. destruct (sampler_sinv s Hs) as [os' [k I]]. pose proof I as [D [S [Hn _]]].
  pose proof (sp_obs _ _ _ _ S Eo). subst os'.
  destruct (C22_with_space_l d osd rows (sm_space s) os Hd Hsh D Eo Hi) as [d' [picked [out [E [C [Sh K]]]]]].
  pose proof (do_with_space _ _ _ Hd D E) as Hd'. destruct Sh as [Eo' [dx Ex]].
  assert (Sh : shows d' os out) by (split; [exact Eo'|exists dx; exact Ex]).
  pose proof (data_ok_fit _ _ _ Hd' Sh) as Ff. destruct (shows_nodup _ _ _ Hd' Sh) as [_ [_ Hw]].
  assert (Ff0 : weights_fit picked (d_weights d)).
  { unfold weights_fit. rewrite (columns_length _ _ _ _ C). apply (data_ok_fit _ _ _ Hd Hsh). }
  assert (Hall : forall r, In r out -> in_box os r (limit_of (sm_space s))) by (apply (kw_In _ _ _ _ _ Ff0 K)).
  assert (Ecut : filter (keepb k os) out = out /\ cutw k os out (d_weights d') = d_weights d').
  { apply (kw_all _ _ _ _ _ Ff Hall). apply kw; assumption. }
  assert (Ep : prepare_sample s (NData d None) false = Ok (mkT (length os) out, d_weights d')).
  { unfold prepare_sample. rewrite E. cbn [bind]. rewrite Ex. cbn [bind]. rewrite (sp_n_obs _ _ _ S). cbn [t_width].
    rewrite Nat.eqb_refl. cbn [negb]. rewrite (cut_tensor_ok _ os k (mkT (length os) out) _ S); [|exact Hw|reflexivity|exact Ff].
    cbn [t_rows]. rewrite (proj1 Ecut), (proj2 Ecut). reflexivity. }
  assert (A' : agrees s (d_weights d')).
  { destruct A as [A1 A2]. split; intros H.
    - apply A1. destruct (d_weights d); [|reflexivity]. rewrite H in K. destruct K.
    - rewrite (A2 H) in K. destruct (d_weights d'); [destruct K|reflexivity]. }
  pose proof (update_ok _ _ _ _ _ Ep A') as U. exists (set_all s out (d_weights d')), picked. split; [exact U|]. split; [exact C|].
  split; [exact K|]. split; [split; [exact Ff|reflexivity]|].
  assert (I' : sinv (set_all s out (d_weights d')) os k).
  { eapply update_sinv; [exact I| |exact U]. exact Hd. }
  apply (sampler_shows _ _ _ I').
Qed.
Lemma C24_failed_l s x g s' e : sampler_ok s -> sample_ok x g -> agrees s (sample_weights x) -> sm_update s x g = (s', Err e) -> s' = s.
Proof.
  intros Hs Hx A H. destruct (sampler_sinv s Hs) as [os [k I]]. unfold sm_update in H.
  destruct (prepare_sample s x g) as [[t ws]|e'] eqn:Ep; [|inversion H; reflexivity].
  destruct (prepared _ _ _ _ _ _ _ I Hx Ep) as [_ [_ [_ B]]].
  assert (A' : agrees s ws) by (unfold agrees in *; tauto).
  pose proof (update_ok _ _ _ _ _ Ep A') as U. unfold sm_update in U. rewrite Ep in U. rewrite U in H. inversion H.
Qed.
Lemma update_consistent s x g s' r : sampler_ok s -> sample_ok x g -> agrees s (sample_weights x) -> consistent s ->
  sm_update s x g = (s', r) -> consistent s' /\ (sm_weights s' = None <-> sm_weights s = None).
Proof.
  intros Hs Hx A C H. destruct r as [u|e].
  - destruct (sampler_sinv s Hs) as [os [k I]]. pose proof H as H'. unfold sm_update in H.
    destruct (prepare_sample s x g) as [[t ws]|e'] eqn:Ep; [|inversion H].
    destruct (prepared _ _ _ _ _ _ _ I Hx Ep) as [_ [_ [F B]]].
    assert (A' : agrees s ws) by (unfold agrees in *; tauto).
    rewrite (update_ok _ _ _ _ _ Ep A') in H'. inversion H'; subst. cbn [set_all sm_weights].
    split; [split; [exact F|reflexivity]|exact A'].
  - pose proof (C24_failed_l _ _ _ _ _ Hs Hx A H). subst. tauto.
Qed.
Lemma C24_history_l s s' : history s s' -> sampler_ok s -> consistent s -> consistent s' /\ sampler_ok s'.
Proof.
  induction 1 as [s|s x g s1 r s2 A Hx E H IH|s params n s1 r s2 A E H IH]; intros Hs C; [auto| |].
  - destruct (update_consistent _ _ _ _ _ Hs Hx A C E) as [C1 _]. apply IH; [eapply so_update; eassumption|exact C1].
  - destruct (sampler_sinv s Hs) as [os [k I]]. destruct (resample_as _ _ _ _ _ E _ _ I) as [[-> _]|[Eu [L W]]]; [apply IH; assumption|].
    destruct I as [_ [_ [_ [Hf _]]]]. specialize (Hf n (pupdate (sm_params s) params)).
    assert (Hx : sample_ok (NArray (fst (sm_func s n (pupdate (sm_params s) params))) (snd (sm_func s n (pupdate (sm_params s) params)))) true)
      by (split; [apply Hf|intros _; apply Hf]).
    destruct (update_consistent _ _ _ _ _ Hs Hx A C Eu) as [C1 _].
    apply IH; [eapply so_resample; eassumption|exact C1].
Qed.
Lemma new_consistent obs func params n s : data_space obs ->
  (forall m p, rectangular (fst (func m p)) /\ weights_fit (t_rows (fst (func m p))) (snd (func m p))) ->
  from_sampler obs func params n = Ok s -> consistent s.
Proof.
  intros D Hf H. unfold from_sampler in H. destruct (func n params) as [t ws] eqn:Efn. apply bind_ok in H. destruct H as [[t' ws'] [Ec H]].
  destruct (negb (t_width t' =? s_n_obs obs)) eqn:Ew; [discriminate|]. apply bind_ok in H. destruct H as [sp [Es H]].
  match type of H with (match sm_update ?s0 ?x ?g with _ => _ end) = _ => set (s0' := s0) in *; destruct (sm_update s0' x g) as [s1 r1] eqn:Eu end.
  destruct r1; [|discriminate]. inversion H; subst s1. unfold sm_update in Eu.
  destruct (prepare_sample s0' (NArray t' ws') false) as [[t2 w2]|e] eqn:Ep; [|inversion Eu].
  unfold prepare_sample in Ep. cbn [bind] in Ep. destruct (negb _) in Ep; [discriminate|].
  destruct (data_space_sp _ D) as [os [k S]]. destruct (sp_autofill _ _ _ S) as [sp' [Es' [S' Hn]]]. rewrite Es in Es'. inversion Es'; subst sp'.
  assert (Rt : rectangular t /\ weights_fit (t_rows t) ws) by (specialize (Hf n params); rewrite Efn in Hf; exact Hf).
  destruct Rt as [Rt Rw]. apply negb_false_iff, Nat.eqb_eq in Ew. rewrite (sp_n_obs _ _ _ S) in Ew.
  assert (Hw : t_width t = length os).
  { unfold check_cut_tensor in Ec. apply bind_ok in Ec. destruct Ec as [u' [_ Ec]].
    destruct (s_has_limits obs); [|inversion Ec; subst; exact Ew].
    apply bind_ok in Ec. destruct Ec as [m [_ Ec]]. inversion Ec; subst. exact Ew. }
  pose proof (cut_tensor_ok _ _ _ _ _ S Rt Hw Rw) as Ec'. rewrite Ec' in Ec. inversion Ec; subst t' ws'.
  change (sm_space s0') with sp in Ep.
  assert (R2 : rectangular (mkT (t_width t) (filter (keepb k os) (t_rows t)))).
  { intros x Hx. cbn [t_rows t_width] in *. apply filter_In in Hx. apply Rt, Hx. }
  rewrite (cut_tensor_ok _ os k _ _ S') in Ep; [|exact R2|exact Hw|apply cutw_fit, Rw].
  inversion Ep; subst t2 w2. cbn [t_rows] in Eu.
  assert (G : weights_fit (filter (keepb k os) (filter (keepb k os) (t_rows t))) (cutw k os (filter (keepb k os) (t_rows t)) (cutw k os (t_rows t) ws))).
  { apply cutw_fit, cutw_fit, Rw. }
  destruct (cutw k os (filter (keepb k os) (t_rows t)) (cutw k os (t_rows t) ws)) as [w3|], (sm_weights s0') as [w4|];
    inversion Eu; subst s; (split; [exact G|reflexivity]).
Qed.

(** resampling *)
Lemma lookup_pset f k v k' : lookup String.eqb k' (pset f k v) = if String.eqb k' k then Some v else lookup String.eqb k' f.
Proof.
  induction f as [|[a b] f IH]; cbn [pset lookup].
  - destruct (String.eqb_spec k' k); reflexivity.
  - destruct (String.eqb_spec k a) as [->|Hka]; cbn [lookup].
    + destruct (String.eqb_spec k' a); reflexivity.
    + rewrite IH. destruct (String.eqb_spec k' a) as [->|Hka'].
      * destruct (String.eqb_spec a k); [congruence|reflexivity].
      * destruct (String.eqb_spec k' k); reflexivity.
Qed.
Lemma lookup_pupdate g : NoDup (map fst g) -> forall f k,
  lookup String.eqb k (pupdate f g) = match lookup String.eqb k g with Some v => Some v | None => lookup String.eqb k f end.
Proof.
  unfold pupdate. induction g as [|[a b] g IH]; intros Hnd f k; [reflexivity|]. cbn [fold_left fst snd lookup map] in *.
  inversion Hnd; subst. rewrite IH by assumption. rewrite lookup_pset. destruct (String.eqb_spec k a) as [->|Hka]; [|reflexivity].
  rewrite (proj2 (lookup_none _ string_eqb_ok _ _) H1). reflexivity.
Qed.
Lemma C50_resample_l s params n s' : sm_resample s params n = (s', Ok tt) ->
  exists values, (NoDup (map fst params) -> forall p, lookup String.eqb p values =
       match lookup String.eqb p params with Some v => Some v | None => lookup String.eqb p (sm_params s) end)
    /\ sm_rows s' = t_rows (fst (sm_func s n values)) /\ sm_weights s' = snd (sm_func s n values) /\ sm_n s' = n
    /\ sm_params s' = sm_params s.
Proof.
  intros H. exists (pupdate (sm_params s) params). split; [intros Hnd p; apply lookup_pupdate, Hnd|].
  unfold sm_resample in H. destruct (sm_func s n (pupdate (sm_params s) params)) as [t ws] eqn:E. cbn [fst snd].
  destruct (negb _) eqn:E1 in H; [inversion H|]. destruct (match ws with Some w => negb (length w =? n) | None => false end); [inversion H|].
  apply negb_false_iff, andb_true_iff in E1. destruct E1 as [A B]. apply Nat.eqb_eq in A, B.
  unfold sm_update in H. unfold prepare_sample in H. cbn [bind] in H. rewrite B, Nat.eqb_refl in H. cbn [negb] in H.
  destruct ws as [w|], (sm_weights s); inversion H; subst; cbn [set_all sm_rows sm_weights sm_n sm_params]; auto.
Qed.

(* ---------- data frames ---------- *)
Lemma stack_one N (c : list Q) : length c = N -> map (fun r => nth 0 r 0%Q) (rowsof N [c]) = c.
Proof. intros H. unfold rowsof. rewrite map_map. cbn [map nth]. rewrite <- H. apply map_nth_seq. Qed.
Lemma column_ok d os k cols N o : inv d os k cols N -> In o os ->
  exists l, d_column d o = Ok (set_lds d l, nth (pos os o) cols []) /\ lds_ok l cols N.
Proof.
  intros V Ho. destruct (value_some _ _ _ _ _ [o] V) as [l [E L]].
  - constructor; [intros []|constructor].
  - exists o. split; [left; reflexivity|exact Ho].
  - exists l. split; [|exact L]. unfold d_column. rewrite E. cbn [bind].
    rewrite (sel_same os [o]) by (intros x [<-|[]]; exact Ho). cbn [length t_width t_rows Nat.eqb selcols map].
    rewrite stack_one; [reflexivity|]. eapply lds_ok_cols; [apply (i_set _ _ _ _ _ V)|].
    apply nth_In. rewrite (i_len _ _ _ _ _ V). apply pos_in, Ho.
Qed.
Lemma columns_ok d os k cols N l : inv d os k cols N -> incl l os ->
  exists ls, d_columns d l = Ok (set_lds d ls, map (fun o => (o, nth (pos os o) cols [])) l) /\ lds_ok ls cols N.
Proof.
  revert d. induction l as [|o l IH]; intros d V Hi.
  - exists (d_set d). split; [|apply (i_set _ _ _ _ _ V)]. destruct d. reflexivity.
  - destruct (column_ok _ _ _ _ _ _ V (Hi o (or_introl eq_refl))) as [l1 [E1 L1]].
    destruct (IH (set_lds d l1) (inv_set _ _ _ _ _ _ V L1)) as [l2 [E2 L2]]; [intros x Hx; apply Hi; right; exact Hx|].
    exists l2. split; [|exact L2]. cbn [d_columns map]. rewrite E1. cbn [bind]. rewrite E2. reflexivity.
Qed.
Lemma pos_map os (cols : list (list Q)) : NoDup os -> length cols = length os -> map (fun o => nth (pos os o) cols []) os = cols.
Proof.
  intros Hnd Hl. apply nth_error_ext. intros i. rewrite nth_error_map. destruct (nth_error os i) as [o|] eqn:E.
  - simpl. rewrite (pos_at _ _ _ Hnd E). symmetry. apply nth_error_nth'. rewrite Hl. apply nth_error_Some. congruence.
  - simpl. symmetry. apply nth_error_None. rewrite Hl. apply nth_error_None, E.
Qed.
Lemma frame_set_new f k c : ~ In k (map fst f) -> frame_set f k c = f ++ [(k, c)].
Proof.
  induction f as [|[a b] f IH]; intros H; [reflexivity|]. cbn [frame_set app]. destruct (String.eqb_spec k a) as [->|Hn].
  - destruct H. left. reflexivity.
  - rewrite IH; [reflexivity|]. intros C. apply H. right. exact C.
Qed.
Lemma lookup_map os (g : string -> list Q) o r : In o os -> lookup String.eqb o (map (fun o => (o, g o)) os ++ r) = Some (g o).
Proof.
  induction os as [|a os IH]; intros H; [destruct H|]. cbn [map app lookup]. destruct (String.eqb_spec o a) as [->|Hn]; [reflexivity|].
  apply IH. destruct H as [H|H]; [congruence|exact H].
Qed.
Lemma lookup_map_none os (g : string -> list Q) o r : ~ In o os -> lookup String.eqb o (map (fun o => (o, g o)) os ++ r) = lookup String.eqb o r.
Proof.
  induction os as [|a os IH]; intros H; [reflexivity|]. cbn [map app lookup]. destruct (String.eqb_spec o a) as [->|Hn].
  - destruct H. left. reflexivity.
  - apply IH. intros C. apply H. right. exact C.
Qed.
Lemma mapM_lookup (g : string -> list Q) os r : forall l, incl l os ->
  mapM (fun o => opt_result KeyError (lookup String.eqb o (map (fun o => (o, g o)) os ++ r))) l = Ok (map g l).
Proof.
  induction l as [|o l IH]; intros H; [reflexivity|]. cbn [mapM map]. rewrite lookup_map by (apply H; left; reflexivity).
  cbn [opt_result bind]. rewrite IH by (intros x Hx; apply H; right; exact Hx). reflexivity.
Qed.

Lemma from_frame d os k cols N sp ws r : inv d os k cols N -> data_space sp -> sp_ok sp os k -> wfit N ws ->
  inside_all d os (rowsof N cols) ->
  exists d', data_from_mapping (map (fun o => (o, nth (pos os o) cols [])) os ++ r) sp ws false = Ok d'
    /\ shows d' os (rowsof N cols) /\ d_weights d' = ws.
Proof.
  intros V D S Hw Hin. unfold data_from_mapping. rewrite (proj1 S).
  assert (Hi : subsetb String.eqb os (map fst (map (fun o => (o, nth (pos os o) cols [])) os ++ r)) = true).
  { apply (subsetb_incl _ string_eqb_ok). intros o Ho. rewrite map_app, map_map, map_id. apply in_app_iff. left. exact Ho. }
  rewrite Hi. cbn [negb]. rewrite (mapM_lookup (fun o => nth (pos os o) cols []) os r os (incl_refl _)). cbn [bind].
  pose proof (i_sp _ _ _ _ _ V) as S0. rewrite pos_map; [|apply S0|apply (i_len _ _ _ _ _ V)].
  destruct (init_cut sp os k (LM cols) cols N ws D S) as [d' [cols' [N' [E [V' [E1 E2]]]]]].
  - split; [reflexivity|]. eapply lds_ok_cols. apply (i_set _ _ _ _ _ V).
  - apply (i_len _ _ _ _ _ V).
  - exact Hw.
  - exists d'. split; [exact E|].
    assert (F : weights_fit (rowsof N cols) ws) by (apply (wfit_rows N); [apply rowsof_length|exact Hw]).
    assert (X : filter (keepb k os) (rowsof N cols) = rowsof N cols /\ cutw k os (rowsof N cols) ws = ws).
    { apply (kw_all (fun r => in_box os r (limit_of sp))); [exact F| |apply kw; assumption].
      intros x Hx. apply (sp_in_box _ _ _ _ S). apply (sp_in_box _ _ _ _ S0). apply Hin, Hx. }
    destruct X as [X1 X2]. rewrite X1 in E1. rewrite X2 in E2. split; [|exact E2].
    rewrite <- E1. apply (inv_shows _ _ _ _ _ V').
Qed.
Lemma C49_l d os rows wname : data_ok d -> shows d os rows -> inside_all d os rows ->
  ~ In (match wname with Some n => n | None => ""%string end) os -> ~ In ""%string os ->
  exists d1 f d2, d_to_pandas d wname = Ok (d1, f)
    /\ data_from_pandas f (d_space d) (match d_weights d with Some _ => wname | None => None end) false = Ok d2
    /\ shows d2 os rows /\ d_weights d2 = d_weights d.
Proof.
  intros Hd Hs Hin Hw Hw0. destruct (data_ok_inv d Hd) as [os' [k [cols [N V]]]]. destruct (shows_inv _ _ _ _ _ _ _ V Hs) as [-> ->].
  pose proof (i_sp _ _ _ _ _ V) as S. pose proof (i_ds _ _ _ _ _ V) as D.
  destruct (columns_ok _ _ _ _ _ os' V (incl_refl _)) as [ls [E L]].
  assert (Eo : d_obs d = os') by (unfold d_obs; rewrite (proj1 S); reflexivity).
  unfold d_to_pandas. rewrite Eo, E. cbn [bind].
  assert (Hsub : forall r, subsetb String.eqb os' (map fst (map (fun o => (o, nth (pos os' o) cols [])) os' ++ r)) = true).
  { intros r. apply (subsetb_incl _ string_eqb_ok). intros o Ho. rewrite map_app, map_map, map_id. apply in_app_iff. left. exact Ho. }
  assert (Hnot : forall n, ~ In n os' -> filter (fun o => negb (String.eqb o n)) os' = os').
  { intros n Hn. apply filter_all. intros o Ho. apply negb_true_iff, String.eqb_neq. intros ->. contradiction. }
  assert (Hsel : exists sp, s_with_obs (d_space d) (Some os') true true = Ok sp /\ data_space sp /\ sp_ok sp os' k).
  { destruct (sp_with_obs _ _ _ os' true true S) as [sp [c [_ [E2 [S2 _]]]]]; [apply S| |].
    - split; [|split; discriminate]. assert (Hne : os' <> []) by apply S. destruct os' as [|o r]; [congruence|]. exists o. split; left; reflexivity.
    - exists sp. split; [exact E2|]. split; [eapply data_space_with_obs; [exact D|apply S|exact E2]|].
      rewrite sel_same in S2 by auto. exact S2. }
  destruct Hsel as [sp [Esp [Dsp Ssp]]].
  destruct (d_weights d) as [w|] eqn:Ew.
  - rewrite frame_set_new by (rewrite map_map, map_id; exact Hw).
    set (n := match wname with Some n => n | None => ""%string end) in *.
    assert (Hwf : wfit N (Some w)) by (pose proof (i_w _ _ _ _ _ V) as X; rewrite Ew in X; exact X).
    destruct (from_frame _ _ _ _ _ sp (Some w) [(n, w)] V Dsp Ssp Hwf Hin) as [d2 [E2 [Sh2 W2]]].
    do 2 eexists. exists d2. split; [reflexivity|]. split; [|split; [exact Sh2|exact W2]].
    unfold data_from_pandas. rewrite (proj1 S), Hsub. cbn [negb]. fold n.
    rewrite lookup_map_none by exact Hw. cbn [lookup]. rewrite String.eqb_refl, (Hnot n Hw), Esp. cbn [bind]. exact E2.
  - destruct (from_frame _ _ _ _ _ (d_space d) None [] V D S Logic.I Hin) as [d2 [E2 [Sh2 W2]]]. rewrite app_nil_r in E2.
    do 2 eexists. exists d2. split; [reflexivity|]. split; [|split; [exact Sh2|exact W2]].
    unfold data_from_pandas. specialize (Hsub []). rewrite app_nil_r in Hsub. rewrite (proj1 S), Hsub. cbn [negb].
    pose proof (lookup_map_none os' (fun o => nth (pos os' o) cols []) ""%string []) as X. rewrite app_nil_r in X. rewrite X; [exact E2|exact Hw0].
Qed.
