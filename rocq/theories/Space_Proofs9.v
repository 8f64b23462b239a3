(** Proofs for spaces, part 9: spaces with functional limits, inside and compared with rectangular ones. *)
From Coq Require Import Permutation.
From Verif Require Import Base BaseLemmas Coord_Model Coord_Spec Coord_Proofs Space_Model Space_Spec
  Space_Proofs Space_Proofs2 Space_Proofs3 Space_Proofs4 Space_Proofs5 Data_Model Data_Spec Data_Proofs Space_Proofs6 Space_Proofs7.
#[local] Open Scope nat_scope.

Lemma fun_with_obs os1 os2 g gn r sup sub : os1 <> [] -> os2 <> [] -> (forall o, In o os1 <-> In o os2) ->
  s_with_obs (mkSpace (mkCoords (Some os2) None) (Some [(os2, LFun g gn r)]) None None) (Some os1) sup sub
    = Ok (mkSpace (mkCoords (Some os1) None) (Some [(os2, LFun g gn r)]) None None).
Proof.
  intros N1 N2 Hs. destruct os1 as [|a os1]; [congruence|]. destruct os2 as [|b os2]; [congruence|].
  unfold s_with_obs. cbn [s_coords s_binning s_dobs s_daxes].
  rewrite (with_obs_total (mkCoords (Some (b :: os2)) None) (b :: os2) (a :: os1) sup sub eq_refl eq_refl).
  - rewrite sel_same by (intros o Ho; apply Hs, Ho). cbn [bind]. unfold space_of_dict, convert_limits_dict. cbn [c_obs c_axes s_dobs s_daxes bind].
    assert (E : filter (head_in String.eqb (a :: os1)) [(b :: os2, LFun g gn r)] = [(b :: os2, LFun g gn r)]).
    { cbn [filter]. unfold head_in. cbn [fst]. rewrite (proj2 (mem_In _ string_eqb_ok b (a :: os1))); [reflexivity|]. apply Hs. left. reflexivity. }
    rewrite E. reflexivity.
  - split; [|split; intros _ o Ho; apply Hs, Ho]. exists a. split; [left; reflexivity|apply Hs; left; reflexivity].
Qed.

Lemma fun_inside' os os2 f fn lo up x x2 g : os <> [] -> NoDup os -> NoDup os2 -> (forall o, In o os2 <-> In o os) ->
  length lo = length os -> length up = length os ->
  length x = length os -> length x2 = length os2 -> (forall o v, column os x o v <-> column os2 x2 o v) ->
  s_inside (mkSpace (mkCoords (Some os2) None) (Some [(os, LFun f fn (combine lo up))]) None None) x2 g = Ok (fn x).
Proof.
  intros Hne Hnd Hnd2 Hs L1 L2 Lx Lx2 Hc. assert (N2 : os2 <> []).
  { destruct os as [|a os]; [congruence|]. intros ->. exact (proj2 (Hs a) (or_introl eq_refl)). }
  unfold s_inside, s_n_obs, n_obs. cbn [s_coords c_obs]. unfold sanitize_x at 1. rewrite Lx2, Nat.eqb_refl. cbn [bind].
  assert (Hr : s_has_rect (mkSpace (mkCoords (Some os2) None) (Some [(os, LFun f fn (combine lo up))]) None None) = false).
  { destruct os2 as [|b os2]; [congruence|]. reflexivity. }
  rewrite Hr. cbn [andb]. unfold s_inside', s_obs. cbn [s_coords c_obs s_dobs mapM fst snd].
  destruct (reorder_x_func (mkCoords (Some os2) None) os2 x2 os eq_refl N2 Hnd2) as [y [Ey [Ly Hy]]];
    [intros o Ho; apply Hs, Ho|exact Lx2|]. rewrite Ey. cbn [bind].
  assert (y = x) as ->.
  { apply (column_ext os); [exact Hnd|exact Ly|exact Lx|]. intros n v. rewrite Hc. split.
    - intros [k [Hk Hv]]. exact (proj1 (Hy k n Hk v) Hv).
    - intros H. destruct (proj2 (Hc n v) H) as [k [Hk _]]. exists k. split; [exact Hk|]. exact (proj2 (Hy k n Hk v) H). }
  unfold lim_inside, sanitize_x, lim_n_obs. rewrite combine_length, L1, L2, Nat.min_id, Lx, Nat.eqb_refl. cbn.
  rewrite andb_true_r. reflexivity.
Qed.

Lemma make_fun_up os f fn lo up s : os <> [] -> make_space (Some os) None (IFun f fn lo up) None = Ok s -> length up = length os.
Proof.
  intros Hne H. unfold make_space in H. rewrite make_coords_total in H by (assumption || discriminate). cbn [bind make_limit] in H.
  unfold n_obs in H. cbn [c_obs] in H. bindn H l Hl. bindn Hl ivs Hi. destruct (check_rect_ok _ _ _ _ Hi) as [_ [L _]]. exact L.
Qed.

Lemma fun_inside os os2 f fn lo up s sup sub s2 x x2 g : os <> [] -> NoDup os -> NoDup os2 -> (forall o, In o os2 <-> In o os) ->
  make_space (Some os) None (IFun f fn lo up) None = Ok s -> s_with_obs s (Some os2) sup sub = Ok s2 ->
  length x = length os -> length x2 = length os2 -> (forall o v, column os x o v <-> column os2 x2 o v) ->
  s_inside s x g = Ok (fn x) /\ s_inside s2 x2 g = Ok (fn x).
Proof.
  intros Hne Hnd Hnd2 Hs M W Lx Lx2 Hc. pose proof (make_fun_up _ _ _ _ _ _ Hne M) as L2.
  destruct (make_fun _ _ _ _ _ _ Hne M) as [L1 ->].
  assert (N2 : os2 <> []). { destruct os as [|a os]; [congruence|]. intros ->. exact (proj2 (Hs a) (or_introl eq_refl)). }
  rewrite fun_with_obs in W by assumption. injection W as <-. split.
  - apply fun_inside'; try assumption; tauto.
  - apply fun_inside'; assumption.
Qed.

Lemma pop_match_none (d : dict string) os f k : dict_wf d os f -> ~ (exists o, forall n, In n [o] <-> In n k) -> pop_match String.eqb k d = None.
Proof.
  intros [H1 _] Hk. assert (G : forall c l, In (c, l) d -> set_eqb String.eqb c k = false).
  { intros c l Hi. destruct (H1 _ _ Hi) as [o [-> _]]. destruct (set_eqb String.eqb [o] k) eqn:E; [|reflexivity].
    exfalso. apply Hk. exists o. exact (proj1 (set_eqb_iff _ string_eqb_ok _ _) E). }
  clear H1. induction d as [|[c l] d IH]; [reflexivity|]. cbn [pop_match]. rewrite (G c l (or_introl eq_refl)).
  rewrite IH; [reflexivity|]. intros c' l' Hi. apply (G c' l'). right. exact Hi.
Qed.
Lemma pop_match_in (d d' : dict string) k l : pop_match String.eqb k d = Some (l, d') -> exists c, In (c, l) d.
Proof.
  revert d'. induction d as [|[c m] d IH]; [discriminate|]. intros d'. cbn [pop_match]. destruct (set_eqb String.eqb c k).
  - intros H. injection H as <- <-. exists c. left. reflexivity.
  - destruct (pop_match String.eqb k d) as [[l' r']|] eqn:E; [|discriminate]. intros H. injection H as <- <-.
    destruct (IH _ eq_refl) as [c' Hc]. exists c'. right. exact Hc.
Qed.
Lemma compare_total (d : dict string) : forall d', compare_limits_dict String.eqb lim_equal d d' <> Ok true ->
  (forall k l, In (k, l) d -> exists i, l = LRect i) -> (forall k l, In (k, l) d' -> exists i, l = LRect i \/ exists f fn, l = LFun f fn i) ->
  compare_limits_dict String.eqb lim_equal d d' = Ok false.
Proof.
  assert (G : forall d', (forall k l, In (k, l) d -> exists i, l = LRect i) -> (forall k l, In (k, l) d' -> exists i, l = LRect i \/ exists f fn, l = LFun f fn i) ->
    exists b, compare_limits_dict String.eqb lim_equal d d' = Ok b).
  { induction d as [|[k l] d IH]; intros d' H1 H2; cbn [compare_limits_dict]; [eexists; reflexivity|].
    destruct (pop_match String.eqb k d') as [[l2 d2]|] eqn:E; [|eexists; reflexivity].
    destruct (H1 k l (or_introl eq_refl)) as [i ->]. destruct (pop_match_in _ _ _ _ E) as [c Hc].
    assert (S : forall k l, In (k, l) d2 -> In (k, l) d').
    { clear -E. revert d2 l2 E. induction d' as [|[c m] d' IH]; [discriminate|]. intros d2 l2. cbn [pop_match]. destruct (set_eqb String.eqb c k).
      - intros H. injection H as <- <-. intros; right; assumption.
      - destruct (pop_match String.eqb k d') as [[l' r']|] eqn:E; [|discriminate]. intros H. injection H as <- <-.
        intros k0 l0 [Hk|Hk]; [left; exact Hk|right]. exact (IH _ _ eq_refl _ _ Hk). }
    assert (exists b, lim_equal (LRect i) l2 = Ok b) as [b ->].
    { destruct (H2 _ _ Hc) as [j [->|[f [fn ->]]]]; [destruct (lim_equal_rect i j) as [b [E' _]]; eexists; exact E'|eexists; reflexivity]. }
    destruct (IH d2) as [b' ->]; [intros; eapply H1; right; eassumption|intros; eapply H2, S; eassumption|]. eexists. reflexivity. }
  intros d' Hn H1 H2. destruct (G d' H1 H2) as [b E]. rewrite E in *. destruct b; congruence.
Qed.

Lemma has_limits_fun os2 os g gn r : os <> [] -> os2 <> [] ->
  s_limits_are_set (mkSpace (mkCoords (Some os2) None) (Some [(os, LFun g gn r)]) None None) = true
  /\ s_limits_are_false (mkSpace (mkCoords (Some os2) None) (Some [(os, LFun g gn r)]) None None) = false
  /\ s_has_limits (mkSpace (mkCoords (Some os2) None) (Some [(os, LFun g gn r)]) None None) = true
  /\ (forall i, s_limits (mkSpace (mkCoords (Some os2) None) (Some [(os, LFun g gn r)]) None None) <> Ok i).
Proof.
  intros N1 N2. destruct os2; [congruence|]. split; [reflexivity|split; [reflexivity|split; [reflexivity|]]].
  intros i. unfold s_limits, fail_not_rect. cbn. discriminate.
Qed.

Lemma fun_rect_unequal os1 os2 f fn lo1 up1 s1 s2 : os1 <> [] -> NoDup os1 ->
  make_space (Some os1) None (IFun f fn lo1 up1) None = Ok s1 -> rect_space s2 -> s_obs s2 = Some os2 -> s_axes s2 = None ->
  s_eq s1 s2 = Ok false /\ s_eq s2 s1 = Ok false.
Proof.
  intros N1 Hnd M1 R2 H2 X2. destruct (make_fun _ _ _ _ _ _ N1 M1) as [L1 ->].
  destruct (rect_space_full s2 R2) as [o2 [f2 W2]]. pose proof (full_obs _ _ _ _ W2 H2) as EE; subst o2.
  pose proof (wf_full_rect _ _ _ W2) as V2. destruct (dict_wf_of _ _ _ W2) as [d2 [Ed2 Wd2]].
  assert (N2 : os2 <> []) by apply V2.
  destruct (has_limits_fun os1 os1 f fn (combine lo1 up1) N1 N1) as [F1 [F2 [F3 F4]]].
  set (s1 := mkSpace (mkCoords (Some os1) None) (Some [(os1, LFun f fn (combine lo1 up1))]) None None) in *.
  split.
  - unfold s_eq. destruct (s_limits s1) as [i|] eqn:E1; [destruct (F4 i eq_refl)|]. unfold compare_spaces. rewrite H2.
    change (s_obs s1) with (Some os1). cbv iota. destruct (set_eqb String.eqb os1 os2) eqn:Es; [cbn [negb]|reflexivity].
    pose proof (proj1 (set_eqb_iff _ string_eqb_ok _ _) Es) as Hs. change (s_binning s1) with (@None binning).
    destruct (binning_eqb None (s_binning s2)); [cbn [negb]|reflexivity].
    rewrite F1, F2, F3, (wf_has_limits _ _ _ V2). cbn [negb andb]. unfold s_with_coords. rewrite H2.
    change (s_coords s1) with (mkCoords (Some os1) None). cbn [c_obs c_axes].
    assert (Hok : req_ok os2 os1 true true).
    { split; [|split; discriminate]. destruct os1 as [|o os1]; [congruence|]. exists o. split; [left; reflexivity|apply Hs; left; reflexivity]. }
    destruct (s_with_obs_total _ _ _ os1 true true W2 Hnd Hok) as [s' [E' [W' _]]]. rewrite E'. cbn [bind].
    unfold compare_limits_coords_dict. destruct (dict_wf_of _ _ _ W') as [d' [Ed' Wd']]. rewrite Ed'.
    change (s_dobs s1) with (Some [(os1, LFun f fn (combine lo1 up1))]). change (s_daxes s1) with (@None (dict Z)). cbn [compare_limits_dict].
    destruct (pop_match String.eqb os1 d') as [[l2 r2]|] eqn:Ep; [|reflexivity].
    destruct (pop_match_in _ _ _ _ Ep) as [c Hc]. destruct (proj1 Wd' _ _ Hc) as [o [_ [_ ->]]]. reflexivity.
  - unfold s_eq. destruct (s_limits s1) as [i|] eqn:E1; [destruct (F4 i eq_refl)|].
    assert (G : compare_spaces lim_equal s2 s1 = Ok false).
    2: { destruct (s_limits s2); exact G. }
    unfold compare_spaces. rewrite H2. change (s_obs s1) with (Some os1). cbv iota.
    destruct (set_eqb String.eqb os2 os1) eqn:Es; [cbn [negb]|reflexivity].
    pose proof (proj1 (set_eqb_iff _ string_eqb_ok _ _) Es) as Hs.
    destruct (binning_eqb (s_binning s2) (s_binning s1)); [cbn [negb]|reflexivity].
    rewrite F3, (wf_has_limits _ _ _ V2), (wf_set _ _ _ V2), (wf_not_false _ _ _ V2). cbn [negb andb].
    unfold s_with_coords. change (s_obs s1) with (Some os1). unfold s_obs in H2. rewrite H2. unfold s1.
    rewrite fun_with_obs by (assumption || (intros o; specialize (Hs o); tauto)). cbn [bind]. unfold s_axes in X2. rewrite X2.
    unfold compare_limits_coords_dict. rewrite Ed2. cbn [s_dobs s_daxes bind].
    assert (C : compare_limits_dict String.eqb lim_equal d2 [(os1, LFun f fn (combine lo1 up1))] = Ok false).
    { apply compare_total.
      - destruct d2 as [|[k l] d2].
        + destruct os2 as [|o os2]; [congruence|]. destruct (proj1 (proj2 Wd2) o (or_introl eq_refl)).
        + destruct (proj1 Wd2 _ _ (or_introl eq_refl)) as [o [-> [_ ->]]]. cbn [compare_limits_dict pop_match].
          destruct (set_eqb String.eqb os1 [o]); [|discriminate]. cbn [lim_equal lim_has_rect orb negb xorb bind].
          destruct (compare_limits_dict String.eqb lim_equal d2 []); cbn; congruence.
      - intros k l Hi. destruct (proj1 Wd2 _ _ Hi) as [o [_ [_ ->]]]. eexists. reflexivity.
      - intros k l [Hi|[]]. injection Hi as <- <-. eexists. right. do 2 eexists. reflexivity. }
    rewrite C. destruct (s_daxes s2); reflexivity.
Qed.
