(** Proofs for composed parameters. *)
From Coq Require Import Reals Lra Permutation DecimalString DecimalNat.
From Verif Require Import Base BaseLemmas Compo_Model Compo_Spec.
#[local] Open Scope R_scope.

Fixpoint values (e : env) (l : list param) : result (list C) :=
  match l with [] => Ok [] | q :: l' => let* v := value e q in let* r := values e l' in Ok (v :: r) end.
Fixpoint dvalues (e : env) (l : list (string * param)) : result (list (string * C)) :=
  match l with [] => Ok [] | q :: l' => let* v := value e (snd q) in let* r := dvalues e l' in Ok ((fst q, v) :: r) end.
Lemma value_list e f s l : value e (Composed f s (PList l)) =
  let* vs := values e l in
  match s with NoArgs => call_positional f [] | Unpack => call_positional f (map AVal vs) | Whole => call_positional f [ATuple vs] end.
Proof.
  cbn [value]. set (go := fix go (l : list param) : result (list C) := _).
  assert (G : forall l, go l = values e l) by (induction l0 as [|q l0 IH]; [reflexivity|]; cbn; rewrite <- IH; reflexivity).
  rewrite G. reflexivity.
Qed.
Lemma value_dict e f s d : value e (Composed f s (PDict d)) =
  let* vs := dvalues e d in
  match s with NoArgs => call_positional f [] | Unpack => call_keywords f vs | Whole => call_positional f [ADict vs] end.
Proof.
  cbn [value]. set (go := fix go (l : list (string * param)) : result (list (string * C)) := _).
  assert (G : forall l, go l = dvalues e l) by (induction l as [|q l IH]; [reflexivity|]; cbn; rewrite <- IH; reflexivity).
  rewrite G. reflexivity.
Qed.
Lemma values_ok e l vs : values e l = Ok vs <-> Forall2 (fun q v => value e q = Ok v) l vs.
Proof.
  revert vs. induction l as [|q l IH]; intros vs; cbn [values].
  - split; [intros H; injection H as <-; constructor|intros H; inversion H; reflexivity].
  - split.
    + destruct (value e q) as [v|] eqn:E; [cbn [bind]|discriminate]. destruct (values e l) as [r|]; [cbn [bind]|discriminate].
      intros H. injection H as <-. constructor; [exact E|]. apply IH. reflexivity.
    + intros H. inversion H as [|? ? ? ? Hq Hr]; subst. rewrite Hq. cbn [bind]. rewrite (proj2 (IH _) Hr). reflexivity.
Qed.
Lemma dvalues_ok e d vs : dvalues e d = Ok vs <-> Forall2 (fun q v => fst v = fst q /\ value e (snd q) = Ok (snd v)) d vs.
Proof.
  revert vs. induction d as [|q l IH]; intros vs; cbn [dvalues].
  - split; [intros H; injection H as <-; constructor|intros H; inversion H; reflexivity].
  - split.
    + destruct (value e (snd q)) as [v|] eqn:E; [cbn [bind]|discriminate]. destruct (dvalues e l) as [r|]; [cbn [bind]|discriminate].
      intros H. injection H as <-. constructor; [split; [reflexivity|exact E]|]. apply IH. reflexivity.
    + intros H. inversion H as [|? y ? ? [Hn Hq] Hr]; subst. rewrite Hq. cbn [bind]. rewrite (proj2 (IH _) Hr). cbn [bind].
      rewrite <- Hn. destruct y; reflexivity.
Qed.

(** ** Dependencies *)
Definition deps (l : list param) : list nat := flat_map dependencies l.
Lemma deps_list f s l : dependencies (Composed f s (PList l)) = deps l.
Proof. cbn. induction l as [|q l IH]; [reflexivity|]. cbn [deps flat_map]. f_equal; exact IH. Qed.
Lemma deps_dict f s d : dependencies (Composed f s (PDict d)) = deps (map snd d).
Proof. cbn. induction d as [|q l IH]; [reflexivity|]. cbn [deps flat_map map]. f_equal; exact IH. Qed.
Lemma deps_conj p l : dependencies (Conj p l) = deps l.
Proof. cbn. induction l as [|q l IH]; [reflexivity|]. cbn [deps flat_map]. f_equal; exact IH. Qed.
Lemma in_params i p : In i (get_params p) <-> In i (dependencies p).
Proof. apply nodup_In. Qed.
Lemma in_deps i l : In i (deps l) <-> exists q, In q l /\ In i (get_params q).
Proof. unfold deps. rewrite in_flat_map. split; intros [q [H1 H2]]; exists q; (split; [exact H1|]); apply in_params; exact H2. Qed.

Lemma values_ext e e' l : Forall (fun q => value e q = value e' q) l -> values e l = values e' l.
Proof. induction 1 as [|q l Hq _ IH]; [reflexivity|]. cbn [values]. rewrite Hq, IH. reflexivity. Qed.
Lemma dvalues_ext e e' d : Forall (fun q => value e (snd q) = value e' (snd q)) d -> dvalues e d = dvalues e' d.
Proof. induction 1 as [|q l Hq _ IH]; [reflexivity|]. cbn [dvalues]. rewrite Hq, IH. reflexivity. Qed.

Lemma local_value : forall p, no_conj p -> forall e e', (forall i, In i (get_params p) -> e i = e' i) -> value e p = value e' p.
Proof.
  fix IH 2. intros p H e e' Ha. destruct H as [i|v|f s l F|f s d F].
  - cbn [value]. rewrite (Ha i); [reflexivity|]. apply in_params. left. reflexivity.
  - reflexivity.
  - rewrite !value_list. rewrite (values_ext e e'); [reflexivity|].
    assert (Ha' : forall i, In i (deps l) -> e i = e' i).
    { intros i Hi. apply Ha, in_params. rewrite deps_list. exact Hi. }
    clear Ha. induction F as [|q l Hq F IHF]; constructor.
    + apply (IH q Hq). intros i Hi. apply Ha'. unfold deps. cbn [flat_map]. apply in_or_app. left. apply in_params, Hi.
    + apply IHF. intros i Hi. apply Ha'. unfold deps. cbn [flat_map]. apply in_or_app. right. exact Hi.
  - rewrite !value_dict. rewrite (dvalues_ext e e'); [reflexivity|].
    assert (Ha' : forall i, In i (deps (map snd d)) -> e i = e' i).
    { intros i Hi. apply Ha, in_params. rewrite deps_dict. exact Hi. }
    clear Ha. induction F as [|q l Hq F IHF]; constructor.
    + apply (IH _ Hq). intros i Hi. apply Ha'. unfold deps. cbn [flat_map map]. apply in_or_app. left. apply in_params, Hi.
    + apply IHF. intros i Hi. apply Ha'. unfold deps. cbn [flat_map map]. apply in_or_app. right. exact Hi.
Qed.

(** ** Calls *)
Lemma choose_noargs u f n : choose_style u f n = Ok NoArgs -> u = None /\ f_names f = [] /\ (0 < n)%nat.
Proof.
  destruct u as [[|]|]; try discriminate. unfold choose_style.
  destruct (_ || _); [discriminate|]. destruct (Nat.leb n _) eqn:E; [discriminate|].
  destruct (Nat.eqb (length (f_names f)) 0) eqn:E0; [|discriminate]. intros _. split; [reflexivity|].
  apply Nat.eqb_eq, length_zero_iff_nil in E0. rewrite E0 in E |- *. split; [reflexivity|].
  apply Nat.leb_gt in E. exact E.
Qed.

Lemma composed_params_dict f u d p : composed f u (PDict d) = Ok p ->
  forall i, In i (get_params p) <-> exists q, In q (map snd d) /\ In i (get_params q).
Proof.
  unfold composed. destruct (choose_style _ _ _) as [s|]; [cbn [bind]|discriminate]. intros H i.
  assert (p = Composed f s (PDict d)) as -> by (destruct s; injection H as <-; reflexivity).
  rewrite in_params, deps_dict, in_deps. reflexivity.
Qed.
Lemma composed_params_list f u l p : (u <> None \/ f_names f <> []) -> composed f u (PList l) = Ok p ->
  forall i, In i (get_params p) <-> exists q, In q l /\ In i (get_params q).
Proof.
  intros Hu. unfold composed. destruct (choose_style _ _ _) as [s|] eqn:Es; [cbn [bind]|discriminate]. intros H i.
  assert (p = Composed f s (PList l)) as ->.
  { destruct s; injection H as <-; try reflexivity. destruct (choose_noargs _ _ _ Es) as [-> [E _]]. destruct Hu; congruence. }
  rewrite in_params, deps_list, in_deps. reflexivity.
Qed.
Lemma composed_params_noargs f l p : f_names f = [] -> composed f None (PList l) = Ok p -> get_params p = [].
Proof.
  intros Hf. unfold composed, choose_style. cbn [params_len]. rewrite Hf. cbn [length Nat.eqb andb mem existsb orb].
  destruct (Nat.leb (length l) 0) eqn:E; cbn [bind]; intros H; injection H as <-; [|reflexivity].
  destruct l; [reflexivity|discriminate].
Qed.

Lemma whole_cond f n : ((Nat.eqb (length (f_names f)) 1 && Nat.ltb 1 n) || mem String.eqb "params"%string (f_names f) = true)
  <-> (length (f_names f) = 1%nat /\ (1 < n)%nat) \/ In "params"%string (f_names f).
Proof. rewrite orb_true_iff, andb_true_iff, Nat.eqb_eq, Nat.ltb_lt, (mem_In _ string_eqb_ok). reflexivity. Qed.
Lemma choose_whole f n : takes_all f n -> choose_style None f n = Ok Whole.
Proof. intros H. apply whole_cond in H. unfold choose_style. rewrite H. reflexivity. Qed.
Lemma choose_unpack f n : ~ takes_all f n -> (n <= length (f_names f))%nat -> choose_style None f n = Ok Unpack.
Proof.
  intros H Hn. unfold choose_style. destruct (_ || _) eqn:E; [destruct (H (proj1 (whole_cond f n) E))|].
  apply Nat.leb_le in Hn. rewrite Hn. reflexivity.
Qed.
Lemma choose_amb f n : ~ takes_all f n -> (length (f_names f) < n)%nat -> f_names f <> [] -> choose_style None f n = Err ValueError.
Proof.
  intros H Hn Hne. unfold choose_style. destruct (_ || _) eqn:E; [destruct (H (proj1 (whole_cond f n) E))|].
  destruct (Nat.leb n _) eqn:El; [apply Nat.leb_le in El; lia|].
  destruct (Nat.eqb (length (f_names f)) 0) eqn:E0; [|reflexivity]. apply Nat.eqb_eq, length_zero_iff_nil in E0. congruence.
Qed.

Lemma call_pos f args : (f_required f <= length args <= length (f_names f))%nat ->
  call_positional f args = Ok (f_body f (map Some args ++ repeat None (length (f_names f) - length args))).
Proof.
  intros [H1 H2]. unfold call_positional. apply Nat.leb_le in H1, H2. rewrite H1, H2. reflexivity.
Qed.
Lemma call_pos_err f args : ~ (f_required f <= length args <= length (f_names f))%nat -> call_positional f args = Err TypeError.
Proof.
  intros H. unfold call_positional. destruct (Nat.leb _ (length args)) eqn:E1; [|reflexivity].
  destruct (Nat.leb (length args) _) eqn:E2; [|reflexivity]. apply Nat.leb_le in E1, E2. lia.
Qed.
Lemma call_kw f d : incl (map fst d) (f_names f) -> incl (firstn (f_required f) (f_names f)) (map fst d) ->
  call_keywords f d = Ok (f_body f (map (fun n => option_map AVal (lookup String.eqb n d)) (f_names f))).
Proof.
  intros H1 H2. unfold call_keywords. rewrite (proj2 (subsetb_incl _ string_eqb_ok _ _) H1), (proj2 (subsetb_incl _ string_eqb_ok _ _) H2). reflexivity.
Qed.
Lemma call_kw_err f d : ~ (incl (map fst d) (f_names f) /\ incl (firstn (f_required f) (f_names f)) (map fst d)) -> call_keywords f d = Err TypeError.
Proof.
  intros H. unfold call_keywords. destruct (subsetb String.eqb (map fst d) _) eqn:E1; [|reflexivity].
  destruct (subsetb String.eqb (firstn _ _) _) eqn:E2; [|reflexivity]. exfalso. apply H.
  split; apply (subsetb_incl _ string_eqb_ok); assumption.
Qed.

Lemma value_in_order f l p e vs : ~ takes_all f (length l) -> composed f None (PList l) = Ok p ->
  Forall2 (fun q v => value e q = Ok v) l vs ->
  ((f_required f <= length l <= length (f_names f))%nat ->
     value e p = Ok (f_body f (map (fun v => Some (AVal v)) vs ++ repeat None (length (f_names f) - length l))))
  /\ ((length l < f_required f)%nat -> value e p = Err TypeError).
Proof.
  intros Ht Hc F. pose proof (Forall2_length' _ _ _ F) as L. unfold composed in Hc. cbn [params_len] in Hc.
  assert (G : (length l <= length (f_names f))%nat -> p = Composed f Unpack (PList l)).
  { intros H2. rewrite choose_unpack in Hc by assumption. cbn [bind] in Hc. injection Hc as <-. reflexivity. }
  split.
  - intros [H1 H2]. rewrite (G H2), value_list, (proj2 (values_ok _ _ _) F). cbn [bind].
    rewrite call_pos by (rewrite map_length, <- L; lia). rewrite map_map, map_length, <- L. reflexivity.
  - intros H1. destruct (Nat.leb (length l) (length (f_names f))) eqn:E.
    + apply Nat.leb_le in E. rewrite (G E), value_list, (proj2 (values_ok _ _ _) F). cbn [bind].
      apply call_pos_err. rewrite map_length, <- L. lia.
    + apply Nat.leb_gt in E. destruct (f_names f) as [|n0 ns] eqn:En; [|rewrite choose_amb in Hc by (assumption || congruence || (rewrite En; exact E)); discriminate].
      assert (Es : choose_style None f (length l) = Ok NoArgs).
      { unfold choose_style. rewrite En. cbn. destruct (length l); [cbn in E; lia|reflexivity]. }
      rewrite Es in Hc. cbn [bind] in Hc. injection Hc as <-. rewrite value_list. cbn [values bind].
      apply call_pos_err. cbn [length]. lia.
Qed.

Lemma value_by_name f d p e vs : ~ takes_all f (length d) -> (length d <= length (f_names f))%nat -> composed f None (PDict d) = Ok p ->
  Forall2 (fun q v => fst v = fst q /\ value e (snd q) = Ok (snd v)) d vs ->
  (incl (map fst d) (f_names f) -> incl (firstn (f_required f) (f_names f)) (map fst d) ->
     value e p = Ok (f_body f (map (fun n => option_map AVal (lookup String.eqb n vs)) (f_names f))))
  /\ (~ (incl (map fst d) (f_names f) /\ incl (firstn (f_required f) (f_names f)) (map fst d)) -> value e p = Err TypeError).
Proof.
  intros Ht Hn Hc F. unfold composed in Hc. cbn [params_len] in Hc. rewrite choose_unpack in Hc by assumption. cbn [bind] in Hc. injection Hc as <-.
  assert (K : map fst vs = map fst d). { clear -F. induction F as [|q v l vs [H _] _ IH]; [reflexivity|]. cbn. rewrite H, IH. reflexivity. }
  rewrite value_dict, (proj2 (dvalues_ok _ _ _) F). cbn [bind]. split.
  - intros H1 H2. apply call_kw; rewrite K; assumption.
  - intros H. apply call_kw_err. rewrite K. exact H.
Qed.
Lemma value_whole f ps p e : takes_all f (params_len ps) -> composed f None ps = Ok p -> (f_required f <= 1 <= length (f_names f))%nat ->
  (forall l vs, ps = PList l -> Forall2 (fun q v => value e q = Ok v) l vs ->
     value e p = Ok (f_body f (Some (ATuple vs) :: repeat None (length (f_names f) - 1))))
  /\ (forall d vs, ps = PDict d -> Forall2 (fun q v => fst v = fst q /\ value e (snd q) = Ok (snd v)) d vs ->
     value e p = Ok (f_body f (Some (ADict vs) :: repeat None (length (f_names f) - 1)))).
Proof.
  intros Ht Hc Hr. unfold composed in Hc. rewrite choose_whole in Hc by assumption. cbn [bind] in Hc. injection Hc as <-.
  split; intros l vs -> F.
  - rewrite value_list, (proj2 (values_ok _ _ _) F). cbn [bind]. rewrite call_pos by (cbn [length]; lia). reflexivity.
  - rewrite value_dict, (proj2 (dvalues_ok _ _ _) F). cbn [bind]. rewrite call_pos by (cbn [length]; lia). reflexivity.
Qed.

Lemma lookup_perm (d d' : list (string * C)) n : Permutation d d' -> NoDup (map fst d) -> lookup String.eqb n d = lookup String.eqb n d'.
Proof.
  intros P N. assert (N' : NoDup (map fst d')) by (eapply Permutation_NoDup; [apply Permutation_map, P|exact N]).
  destruct (lookup String.eqb n d) as [v|] eqn:E.
  - symmetry. apply (lookup_nodup _ string_eqb_ok); [exact N'|]. eapply Permutation_in; [exact P|]. apply (lookup_in _ string_eqb_ok) in E. exact E.
  - symmetry. destruct (lookup String.eqb n d') as [v|] eqn:E'; [|reflexivity].
    apply (lookup_in _ string_eqb_ok) in E'. apply (Permutation_in _ (Permutation_sym P)) in E'.
    apply (lookup_nodup _ string_eqb_ok) in E'; [congruence|exact N].
Qed.
Lemma F2_perm {A B} (P : A -> B -> Prop) l l' r : Permutation l l' -> Forall2 P l r -> exists r', Permutation r r' /\ Forall2 P l' r'.
Proof.
  intros Hp. revert r. induction Hp; intros r F.
  - inversion F. exists []. split; constructor.
  - inversion F as [|? y ? ? H1 H2]; subst. destruct (IHHp _ H2) as [r' [P' F']]. exists (y :: r'). split; constructor; assumption.
  - inversion F as [|? y1 ? ? H1 H2]; subst. inversion H2 as [|? y2 ? r2 H3 H4]; subst. exists (y2 :: y1 :: r2). split; [apply perm_swap|repeat constructor; assumption].
  - destruct (IHHp1 _ F) as [r1 [P1 F1]]. destruct (IHHp2 _ F1) as [r2 [P2 F2]]. exists r2. split; [eapply perm_trans; eassumption|exact F2].
Qed.
Lemma dict_order f u d d' p p' e v : ~ takes_all f (length d) -> u <> Some false -> Permutation d d' -> NoDup (map fst d) ->
  composed f u (PDict d) = Ok p -> composed f u (PDict d') = Ok p' -> value e p = Ok v -> value e p' = Ok v.
Proof.
  intros Ht Hu P N Hc Hc' Hv. unfold composed in Hc, Hc'. cbn [params_len] in Hc, Hc'.
  rewrite <- (Permutation_length P) in Hc'. destruct (choose_style u f (length d)) as [s|] eqn:Es; [cbn [bind] in Hc, Hc'|discriminate].
  assert (p = Composed f s (PDict d)) as -> by (destruct s; injection Hc as <-; reflexivity).
  assert (p' = Composed f s (PDict d')) as -> by (destruct s; injection Hc' as <-; reflexivity).
  rewrite value_dict in Hv |- *. destruct (dvalues e d) as [vs|] eqn:Ev; [cbn [bind] in Hv|discriminate].
  apply dvalues_ok in Ev. destruct (F2_perm _ _ _ _ P Ev) as [vs' [Pv F']]. rewrite (proj2 (dvalues_ok _ _ _) F'). cbn [bind].
  assert (K : map fst vs = map fst d). { clear -Ev. induction Ev as [|q w l vs [H _] _ IH]; [reflexivity|]. cbn. rewrite H, IH. reflexivity. }
  destruct s; [exact Hv| |].
  - rewrite <- Hv. unfold call_keywords.
    assert (S1 : forall a, subsetb String.eqb (map fst vs') a = subsetb String.eqb (map fst vs) a).
    { intros a. apply eq_true_iff_eq. rewrite !(subsetb_incl _ string_eqb_ok).
      split; intros H x Hx; apply H; eapply Permutation_in; try exact Hx; [apply Permutation_map, Pv|apply Permutation_map, Permutation_sym, Pv]. }
    assert (S2 : forall a, subsetb String.eqb a (map fst vs') = subsetb String.eqb a (map fst vs)).
    { intros a. apply eq_true_iff_eq. rewrite !(subsetb_incl _ string_eqb_ok).
      split; intros H x Hx; apply H in Hx; eapply Permutation_in; try exact Hx; [apply Permutation_map, Permutation_sym, Pv|apply Permutation_map, Pv]. }
    rewrite S1, S2. destruct (negb _); [reflexivity|]. destruct (negb _); [reflexivity|]. do 2 f_equal. apply map_ext. intros n.
    rewrite (lookup_perm vs vs' n Pv); [reflexivity|]. rewrite K. exact N.
  - exfalso. destruct u as [[|]|]; [discriminate|congruence|]. unfold choose_style in Es. destruct ((Nat.eqb (length (f_names f)) 1 && Nat.ltb 1 (length d)) || mem String.eqb "params"%string (f_names f)) eqn:E.
    + apply Ht, whole_cond, E.
    + destruct (Nat.leb (length d) (length (f_names f))); [discriminate|]. destruct (Nat.eqb (length (f_names f)) 0); discriminate.
Qed.

(** ** Complex numbers *)
Lemma abs_polar m a : c_abs (m * cos a, m * sin a) = Rabs m.
Proof.
  unfold c_abs. cbn [fst snd]. replace ((m * cos a) ^ 2 + (m * sin a) ^ 2) with (m² * ((sin a)² + (cos a)²)) by (unfold Rsqr; ring).
  rewrite sin2_cos2, Rmult_1_r. apply sqrt_Rsqr_abs.
Qed.
Lemma cartesian_value re im p e x y : from_cartesian re im = Ok p -> value e re = Ok (real_value x) -> value e im = Ok (real_value y) -> value e p = Ok (x, y).
Proof. intros H Hx Hy. injection H as <-. rewrite value_list. cbn [values]. rewrite Hx, Hy. reflexivity. Qed.
Lemma polar_value md ar p e m a : from_polar md ar = Ok p -> value e md = Ok (real_value m) -> value e ar = Ok (real_value a) ->
  value e p = Ok (m * cos a, m * sin a).
Proof. intros H Hx Hy. injection H as <-. rewrite value_list. cbn [values]. rewrite Hx, Hy. reflexivity. Qed.

Lemma same_angle a b : - PI < a <= PI -> - PI < b <= PI -> cos a = cos b -> sin a = sin b -> a = b.
Proof.
  intros Ha Hb Hc Hs.
  assert (Z : cos (a - b) = 1) by (rewrite cos_minus, Hc, Hs; pose proof (sin2_cos2 b) as S; unfold Rsqr in S; lra).
  assert (Z2 : sin ((a - b) / 2) = 0).
  { replace (a - b) with (2 * ((a - b) / 2)) in Z by lra. rewrite cos_2a_sin in Z.
    assert (sin ((a - b) / 2) * sin ((a - b) / 2) = 0) by lra. apply Rmult_integral in H. tauto. }
  pose proof PI_RGT_0 as HP.
  destruct (Rtotal_order a b) as [H|[H|H]]; [|exact H|].
  - exfalso. assert (0 < sin ((b - a) / 2)) by (apply sin_gt_0; lra).
    replace ((a - b) / 2) with (- ((b - a) / 2)) in Z2 by lra. rewrite sin_neg in Z2. lra.
  - exfalso. assert (0 < sin ((a - b) / 2)) by (apply sin_gt_0; lra). lra.
Qed.
Lemma polar_arg angle m a : angle_of angle -> 0 < m -> - PI < a <= PI -> angle (m * cos a, m * sin a) = a.
Proof.
  intros Ho Hm Ha. pose proof (abs_polar m a) as Eabs. rewrite Rabs_pos_eq in Eabs by lra.
  destruct (Ho (m * cos a, m * sin a)) as [Hr He]; [lra|]. rewrite Eabs in He. injection He as Hc Hs.
  symmetry. apply same_angle; [exact Ha|exact Hr| |].
  - apply (Rmult_eq_reg_l m); [exact Hc|lra]. - apply (Rmult_eq_reg_l m); [exact Hs|lra].
Qed.

(** an angle as in the specification *)
Definition an_angle (z : C) : R := if Rle_dec 0 (snd z) then acos (fst z / c_abs z) else - acos (fst z / c_abs z).
Lemma an_angle_ok : angle_of an_angle.
Proof.
  intros [x y] Hz. unfold an_angle. cbn [fst snd]. set (r := c_abs (x, y)) in *.
  assert (R0 : 0 < r) by (pose proof (sqrt_pos (x ^ 2 + y ^ 2)); unfold r, c_abs in *; cbn [fst snd] in *; lra).
  assert (R2 : r * r = x * x + y * y).
  { unfold r, c_abs. cbn [fst snd]. rewrite sqrt_sqrt; [ring|]. pose proof (Rle_0_sqr x); pose proof (Rle_0_sqr y); unfold Rsqr in *; lra. }
  assert (B : -1 <= x / r <= 1).
  { assert (- r <= x <= r).
    { pose proof (Rle_0_sqr y) as Y. unfold Rsqr in Y. split; [|];
      (destruct (Rle_dec (-r) x); destruct (Rle_dec x r); try assumption; exfalso; nra). }
    split; [apply (Rmult_le_reg_r r)|apply (Rmult_le_reg_r r)]; try lra; unfold Rdiv; rewrite Rmult_assoc, Rinv_l by lra; lra. }
  assert (Cx : r * cos (acos (x / r)) = x) by (rewrite cos_acos by exact B; field; lra).
  assert (Sx : r * sin (acos (x / r)) = Rabs y).
  { rewrite sin_acos by exact B. rewrite <- sqrt_Rsqr_abs. rewrite <- (sqrt_square r) at 1 by lra. rewrite <- sqrt_mult_alt by nra.
    f_equal. unfold Rsqr. replace (r * r * (1 - x / r * (x / r))) with (r * r - x * x) by (field; lra). lra. }
  pose proof (acos_bound (x / r)) as AB. pose proof PI_RGT_0 as HP.
  destruct (Rle_dec 0 y) as [Hy|Hy].
  - split; [lra|]. rewrite Cx, Sx, Rabs_pos_eq by exact Hy. reflexivity.
  - assert (acos (x / r) <> PI).
    { intros E. rewrite E, sin_PI in Sx. rewrite Rabs_left in Sx by lra. lra. }
    assert (acos (x/r) <> 0 \/ True) by tauto.
    split; [lra|]. rewrite cos_neg, sin_neg, Cx, Ropp_mult_distr_r_reverse, Sx, Rabs_left by lra. f_equal. lra.
Qed.

(** ** Names *)
Lemma digits_inj a b : digits a = digits b -> a = b.
Proof.
  unfold digits. intros H. apply (f_equal NilZero.uint_of_string) in H.
  assert (Hn : forall n, Nat.to_uint n <> Decimal.Nil).
  { intros n Hz. pose proof (Unsigned.of_to n) as O. rewrite Hz in O. cbn in O. subst. discriminate. }
  rewrite !NilZero.usu in H by apply Hn. injection H as H. apply Unsigned.to_uint_inj in H. exact H.
Qed.
