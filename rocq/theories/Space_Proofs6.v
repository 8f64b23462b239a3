(** Proofs for spaces, part 6: creation, flags, equality of spaces without limits and of limits. *)
From Coq Require Import Permutation Lqa.
From Verif Require Import Base BaseLemmas Coord_Model Coord_Spec Coord_Proofs Space_Model Space_Spec
  Space_Proofs Space_Proofs2 Space_Proofs3 Space_Proofs4 Space_Proofs5 Data_Model Data_Spec Data_Proofs.
#[local] Open Scope nat_scope.

Lemma Qlt_bool_spec a b : Qlt_bool a b = true <-> (a < b)%Q.
Proof.
  unfold Qlt_bool. rewrite negb_true_iff. split; intros H.
  - apply Qnot_le_lt. intros C. apply Qle_bool_iff in C. congruence.
  - apply not_true_iff_false. intros C. apply Qle_bool_iff in C. lra.
Qed.
Lemma all_less_iff lo up : length lo = length up -> (all_less lo up = true <-> Forall2 Qlt lo up).
Proof.
  unfold all_less. revert up. induction lo as [|a lo IH]; intros [|b up] H; try discriminate; cbn.
  - split; [constructor|reflexivity].
  - rewrite andb_true_iff, Qlt_bool_spec, IH by (simpl in H; lia). split.
    + intros [H1 H2]. constructor; assumption.
    + intros F. inversion F; auto.
Qed.

Lemma created_ok os axs lo up : os <> [] -> NoDup os -> (forall a, axs = Some a -> length a = length os) ->
  length lo = length os -> length up = length os -> Forall2 Qlt lo up ->
  exists s, make_space (Some os) axs (IRect lo up) None = Ok s.
Proof.
  intros Hne Hnd Ha H1 H2 F. unfold make_space.
  replace (match axs with Some _ => Some os | None => Some os end) with (Some os) by (destruct axs; reflexivity).
  rewrite make_coords_total by assumption. cbn [bind make_limit]. unfold n_obs. cbn [c_obs].
  unfold check_rect. rewrite H1, H2, Nat.eqb_refl. cbn [negb].
  rewrite (proj2 (all_less_iff lo up (eq_trans H1 (eq_sym H2))) F). cbn [negb bind].
  unfold space_of_dict, convert_limits_dict. cbn [c_obs c_axes option_map].
  destruct os as [|o os]; [congruence|].
  destruct axs as [[|a axs]|]; [specialize (Ha [] eq_refl); discriminate|cbn..]; eexists; reflexivity.
Qed.
Lemma created_shape os axs lo up : os <> [] -> (forall a, axs = Some a -> length a = length os) ->
  ~ (length lo = length os /\ length up = length os) -> make_space (Some os) axs (IRect lo up) None = Err ShapeIncompatibleError.
Proof.
  intros Hne Ha H. unfold make_space.
  replace (match axs with Some _ => Some os | None => Some os end) with (Some os) by (destruct axs; reflexivity).
  rewrite make_coords_total by assumption. cbn [bind make_limit]. unfold n_obs. cbn [c_obs]. unfold check_rect.
  destruct (Nat.eqb_spec (length lo) (length up)) as [E|E]; cbn [negb]; [|reflexivity].
  destruct (Nat.eqb_spec (length lo) (length os)) as [E'|E']; cbn [negb]; [|reflexivity].
  exfalso. apply H. split; congruence.
Qed.
Lemma created_order os axs lo up : os <> [] -> (forall a, axs = Some a -> length a = length os) ->
  length lo = length os -> length up = length os -> ~ Forall2 Qlt lo up ->
  make_space (Some os) axs (IRect lo up) None = Err InvalidArgumentError.
Proof.
  intros Hne Ha H1 H2 F. unfold make_space.
  replace (match axs with Some _ => Some os | None => Some os end) with (Some os) by (destruct axs; reflexivity).
  rewrite make_coords_total by assumption. cbn [bind make_limit]. unfold n_obs. cbn [c_obs]. unfold check_rect.
  rewrite H1, H2, Nat.eqb_refl. cbn [negb].
  destruct (all_less lo up) eqn:E; [|reflexivity]. exfalso. apply F, all_less_iff; [congruence|exact E].
Qed.
Lemma created_limits os axs lo up s : NoDup os -> make_space (Some os) axs (IRect lo up) None = Ok s ->
  s_obs s = Some os /\ s_axes s = axs /\ s_limits s = Ok (combine lo up).
Proof.
  intros Hnd H. destruct (make_space_wf _ _ _ _ _ _ Hnd H) as [H1 [H2 W]]. split; [apply W|]. split.
  - unfold make_space in H. 
    replace (match axs with Some _ => Some os | None => Some os end) with (Some os) in H by (destruct axs; reflexivity).
    bindn H c Hc. bindn H l Hl. apply space_of_dict_coords in H. unfold s_axes. rewrite H. apply (make_coords_fields _ _ _ Hc).
  - rewrite (wf_limits _ _ _ W), map_limf; [reflexivity|exact Hnd|]. rewrite combine_length. lia.
Qed.

(** flags *)
Lemma sp_flags s os k : sp_ok s os k ->
  s_limits_are_set s = match k with KN => false | _ => true end
  /\ s_limits_are_false s = match k with KF => true | _ => false end
  /\ s_has_limits s = match k with KR _ => true | _ => false end
  /\ s_has_rect s = match k with KR _ => true | _ => false end.
Proof.
  intros S. destruct (sp_own_limits _ _ _ S) as [Hn Ho].
  assert (G : forall p : limit -> bool, (forall o, p (limk k o) = true) -> forallb p (own_limits s) = true).
  { intros p Hp. apply forallb_forall. intros l Hl. destruct (Ho l Hl) as [o [_ ->]]. apply Hp. }
  assert (B : forall p : limit -> bool, (forall o, p (limk k o) = false) -> forallb p (own_limits s) = false).
  { intros p Hp. destruct (own_limits s) as [|l r]; [congruence|]. destruct (Ho l (or_introl eq_refl)) as [o [_ E]]. cbn [forallb].
    rewrite E, Hp. reflexivity. }
  assert (R : s_has_rect s = match k with KR _ => true | _ => false end).
  { unfold s_has_rect. destruct (own_limits s) as [|l r] eqn:E; [congruence|]. destruct k; [apply G|apply B..]; reflexivity. }
  assert (T : s_limits_are_set s = match k with KN => false | _ => true end).
  { unfold s_limits_are_set. destruct k; [apply G|apply B|apply G]; reflexivity. }
  assert (F : s_limits_are_false s = match k with KF => true | _ => false end).
  { unfold s_limits_are_false. destruct k; [apply B|apply B|apply G]; reflexivity. }
  split; [exact T|]. split; [exact F|]. split; [|exact R]. unfold s_has_limits. rewrite T, F. destruct k; reflexivity.
Qed.
Lemma sp_limits_err s os k : sp_ok s os k -> k = KN \/ k = KF -> exists e, s_limits s = Err e.
Proof.
  intros S K. destruct (s_limits s) as [ivs|e] eqn:E; [|eauto]. exfalso. 
  destruct (rect_limits_z s) as [x|] eqn:Ez.
  - destruct S as [Ho [Hnd [Hne [[d [Hd [H1 [H2 H3]]]] _]]]]. unfold rect_limits_z in Ez. rewrite Ho, Hd in Ez.
    bindn Ez iv Hiv. destruct os as [|o os]; [congruence|].
    specialize (H2 o (or_introl eq_refl)). clear - Hiv H2 K.
    revert iv Hiv. induction d as [|[kk l] d IH]; intros iv Hiv; [destruct H2|]. cbn [mapM] in Hiv.
    bindn Hiv a Ha. bindn Hiv b Hb. destruct H2 as [H2|H2]; [|eapply IH; [exact H2|exact Hb]].
    injection H2 as -> ->. cbn in Ha. destruct K as [-> | ->]; discriminate.
  - unfold s_limits, fail_not_rect in E. rewrite Ez in E. destruct (_ && _); discriminate.
Qed.
Lemma plain_flags s : plain_space s ->
  s_has_limits s = false /\ s_has_rect s = false /\ s_limits_are_set s = s_limits_are_false s
  /\ (forall x, length x = s_n_obs s -> s_inside s x false = Err LimitsNotSpecifiedError) /\ (exists e, s_limits s = Err e).
Proof.
  intros P. destruct (plain_sp s P) as [os H].
  assert (G : exists k, sp_ok s os k /\ (k = KN \/ k = KF)) by (destruct H as [H|H]; eauto). clear H.
  destruct G as [k [S K]]. destruct (sp_flags _ _ _ S) as [E1 [E2 [E3 E4]]]. rewrite E1, E2, E3, E4.
  split; [destruct K as [-> | ->]; reflexivity|]. split; [destruct K as [-> | ->]; reflexivity|].
  split; [destruct K as [-> | ->]; reflexivity|]. split; [|eapply sp_limits_err; eassumption].
  intros x Hx. unfold s_inside, sanitize_x. rewrite Hx, Nat.eqb_refl. cbn [bind]. rewrite andb_false_r.
  pose proof S as [Ho [Hnd [Hne [[d [Hd [H1 [H2 H3]]]] _]]]]. unfold s_inside'. rewrite Ho, Hd.
  destruct d as [|[kk l] d]; [destruct os as [|o os]; [congruence|]; destruct (H2 o (or_introl eq_refl))|].
  destruct (H1 kk l (or_introl eq_refl)) as [o [-> [Hio ->]]].
  assert (Hl : length x = length os) by (rewrite Hx; eapply sp_n_obs, S).
  destruct (reorder_x_one (s_coords s) os x o Ho Hl Hio) as [v [i [E _]]].
  cbn [mapM fst snd]. rewrite E. cbn [bind]. destruct K as [-> | ->]; reflexivity.
Qed.
Lemma make_plain_flags os axs i s : NoDup os -> make_space (Some os) axs i None = Ok s ->
  (i = INone -> s_limits_are_set s = false /\ s_limits_are_false s = false)
  /\ (i = IFalse -> s_limits_are_set s = true /\ s_limits_are_false s = true).
Proof.
  intros Hnd H.
  assert (G : i = INone \/ i = IFalse -> exists l, s_limits_are_set s = lim_is_set l /\ s_limits_are_false s = lim_is_false l
    /\ (i = INone -> exists n, l = LNone n) /\ (i = IFalse -> exists n, l = LFalse n)).
  { intros Hi. unfold make_space in H.
    replace (match axs with Some _ => Some os | None => Some os end) with (Some os) in H by (destruct axs; reflexivity).
    bindn H c Hc. pose proof (make_coords_nonempty _ _ _ Hc) as Hne. destruct (make_coords_fields _ _ _ Hc) as [Eo Ea].
    assert (X : exists l, (forall n, make_limit i n = Ok (match i with INone => LNone n | _ => LFalse n end)) /\ l = match i with INone => LNone 1 | _ => LFalse 1 end).
    { destruct Hi as [-> | ->]; eexists; split; reflexivity. }
    destruct X as [l [X1 X2]].
    assert (EM : match i with INone => i | _ => i end = i) by (destruct i; reflexivity).
    cbv iota in H. rewrite EM in H. rewrite X1 in H. cbn [bind] in H. exists l.
    assert (Y : forall x, In x (own_limits s) -> x = l).
    { pose proof H as H'. unfold space_of_dict in H'. bindn H' p Hp. destruct p as [no na]. cbn [sort_binning bind] in H'.
      injection H' as <-. unfold own_limits, s_obs. cbn [s_coords s_dobs]. rewrite Eo. destruct os as [|o os]; [congruence|]. cbn [nonempty].
      unfold convert_limits_dict in Hp. rewrite Eo in Hp. cbn [option_map] in Hp. cbn [bind] in Hp. bindn Hp q Hq. injection Hp as <- <-.
      intros x Hx. apply in_map_iff in Hx. destruct Hx as [[kk y] [<- Hy]]. apply filter_In in Hy. destruct Hy as [Hy _].
      assert (Z : forall (names : list string) lims, In (kk, y) (slice_dict names lims) -> In y lims).
      { intros names lims. revert names. induction lims as [|z lims IH]; intros names; [intros []|]. intros [Ez|Hz]; [left; congruence|right; eapply IH, Hz]. }
      apply Z in Hy. cbn [snd]. subst l. unfold n_obs in Hy. rewrite Eo in Hy. destruct Hi as [-> | ->]; cbn [sublimits] in Hy;
        (destruct (1 <? _)%nat eqn:E1; [apply repeat_spec in Hy; exact Hy|]; destruct Hy as [<-|[]]; f_equal; apply Nat.ltb_ge in E1; simpl in *; lia). }
    assert (N : own_limits s <> []).
    { destruct (plain_make os axs i s Hnd Hi) as [S|S]; [|apply (sp_own_limits _ _ _ S)..].
      unfold make_space. replace (match axs with Some _ => Some os | None => Some os end) with (Some os) by (destruct axs; reflexivity).
      rewrite Hc. cbn [bind]. cbv iota. rewrite EM, X1. exact H. }
    assert (W : forall p : limit -> bool, forallb p (own_limits s) = p l).
    { intros p. destruct (own_limits s) as [|x r]; [congruence|]. pose proof (Y x (or_introl eq_refl)) as ->. cbn [forallb].
      destruct (p l) eqn:Ep; [|reflexivity]. apply forallb_forall. intros y Hy. rewrite (Y y (or_intror Hy)). exact Ep. }
    split; [apply W|]. split; [apply W|]. subst l. split; intros ->; eexists; reflexivity. }
  split; intros Ei.
  - destruct (G (or_introl Ei)) as [l [-> [-> [X _]]]]. destruct (X Ei) as [n ->]. split; reflexivity.
  - destruct (G (or_intror Ei)) as [l [-> [-> [_ X]]]]. destruct (X Ei) as [n ->]. split; reflexivity.
Qed.

(** equality of unbinned spaces, with or without limits *)
Lemma eq_data s1 s2 os1 os2 : data_space s1 -> data_space s2 -> s_obs s1 = Some os1 -> s_obs s2 = Some os2 ->
  exists b, s_eq s1 s2 = Ok b /\
    (b = true <-> (forall o, In o os1 <-> In o os2)
       /\ s_limits_are_set s1 = s_limits_are_set s2 /\ s_limits_are_false s1 = s_limits_are_false s2
       /\ forall o iv1 iv2, limit_of s1 o iv1 -> limit_of s2 o iv2 -> agree iv1 iv2).
Proof.
  intros D1 D2 Ho1 Ho2. destruct (data_space_sp _ D1) as [p1 [k1 S1]]. destruct (data_space_sp _ D2) as [p2 [k2 S2]].
  pose proof (sp_obs _ _ _ _ S1 Ho1) as ->. pose proof (sp_obs _ _ _ _ S2 Ho2) as ->.
  destruct (sp_flags _ _ _ S1) as [A1 [A2 [A3 A4]]]. destruct (sp_flags _ _ _ S2) as [B1 [B2 [B3 B4]]].
  assert (P1 : forall f, k1 = KR f -> rect_space s1).
  { intros f ->. destruct D1 as [[R _]|P]; [exact R|]. exfalso. destruct (plain_flags _ P) as [X _]. congruence. }
  assert (P2 : forall f, k2 = KR f -> rect_space s2).
  { intros f ->. destruct D2 as [[R _]|P]; [exact R|]. exfalso. destruct (plain_flags _ P) as [X _]. congruence. }
  destruct k1 as [f1| |] eqn:K1; destruct k2 as [f2| |] eqn:K2.
  1: { destruct (C08_eq s1 os1 s2 os2 (P1 _ eq_refl) (P2 _ eq_refl) Ho1 Ho2) as [b [E Hb]]. exists b. split; [exact E|].
       rewrite Hb, A1, A2, B1, B2. tauto. }
  all: assert (Eq : s_eq s1 s2 = compare_spaces lim_equal s1 s2).
  all: try (unfold s_eq; first [destruct (sp_limits_err _ _ _ S1 ltac:(auto)) as [e ->]; reflexivity
         | destruct (sp_limits_err _ _ _ S2 ltac:(auto)) as [e ->]; destruct (s_limits s1); reflexivity]).
  all: rewrite Eq; unfold compare_spaces; rewrite Ho1, Ho2;
    assert (Bin : binning_eqb (s_binning s1) (s_binning s2) = true)
      by (rewrite (proj2 (proj2 (proj2 (proj2 (proj2 S1))))), (proj2 (proj2 (proj2 (proj2 (proj2 S2))))); reflexivity);
    rewrite Bin, ?A1, ?A2, ?A3, ?B1, ?B2, ?B3; cbn [negb andb];
    (destruct (set_eqb String.eqb os1 os2) eqn:Es;
      [pose proof (proj1 (set_eqb_iff _ string_eqb_ok _ _) Es) as Hs
      |assert (Hs : ~ (forall o, In o os1 <-> In o os2)) by (intros C; apply (proj2 (set_eqb_iff _ string_eqb_ok _ _)) in C; congruence)]);
    cbn [negb]; eexists; (split; [reflexivity|]).
  all: split; [intros X; try discriminate X|intros [X1 [X2 [X3 X4]]]; first [reflexivity|contradiction|discriminate]].
  all: split; [exact Hs|]; split; [reflexivity|]; split; [reflexivity|]; intros o iv1 iv2 L; exfalso;
       eapply (sp_limit_of_plain _ _ _ S1); [|exact L]; auto.
Qed.

(** Limit objects *)
Lemma close_iff a b : close a b = true <-> (- (rtol * Qabs' b + atol) <= a - b <= rtol * Qabs' b + atol)%Q.
Proof.
  unfold close. rewrite Qle_bool_iff. unfold Qabs' at 1. destruct (Qle_bool 0 (a - b)) eqn:E.
  - apply Qle_bool_iff in E. assert (0 <= Qabs' b)%Q.
    { unfold Qabs'. destruct (Qle_bool 0 b) eqn:Eb; [apply Qle_bool_iff, Eb|]. assert (~ (0 <= b)%Q) by (intros C; apply Qle_bool_iff in C; congruence). lra. }
    unfold rtol, atol. split; [intros H0; split|intros [H0 H1]]; lra.
  - assert (~ (0 <= a - b)%Q) by (intros C; apply Qle_bool_iff in C; congruence). assert (0 <= Qabs' b)%Q.
    { unfold Qabs'. destruct (Qle_bool 0 b) eqn:Eb; [apply Qle_bool_iff, Eb|]. assert (~ (0 <= b)%Q) by (intros C; apply Qle_bool_iff in C; congruence). lra. }
    unfold rtol, atol. split; [intros H1; split|intros [H1 H2]]; lra.
Qed.
Lemma all2_iff {A B} (p : A -> B -> bool) (P : A -> B -> Prop) a b : (forall x y, p x y = true <-> P x y) -> (all2 p a b = true <-> Forall2 P a b).
Proof.
  intros Hp. unfold all2. rewrite andb_true_iff. revert b. induction a as [|x a IH]; intros [|y b]; cbn.
  - split; [constructor|auto].
  - split; [intros [H _]; discriminate|intros H; inversion H].
  - split; [intros [H _]; discriminate|intros H; inversion H].
  - rewrite andb_true_iff, Hp. specialize (IH b). split.
    + intros [H1 [H2 H3]]. constructor; [exact H2|]. apply IH. auto.
    + intros H. inversion H as [|? ? ? ? H1 H2]; subst. apply IH in H2. tauto.
Qed.
