From Verif Require Import Base BaseLemmas Coord_Model Coord_Spec Coord_Proofs Space_Model Space_Spec
  Space_Proofs Space_Proofs2 Space_Proofs3 Space_Proofs4 Space_Proofs5 Comb_Model Comb_Spec.

Definition okp (os : list string) (s : space) : Prop := rect_space s /\ s_obs s = Some os /\ s_axes s = None /\ s_binning s = None.
Definition same_lims (s s' : space) : Prop := forall o, own s' o -> lim_at s' o = lim_at s o.
Definition shape (os : list string) (ss : list space) (z : zspace) : Prop :=
  (exists s, ss = [s] /\ z = ZSimple s) \/ ((exists a b r, ss = a :: b :: r) /\ z = ZMulti (mkMulti (mkCoords (Some os) None) ss)).

Lemma okp_wf os s : okp os s -> wf_full s os (lim_at s).
Proof.
  intros [R [Ho _]]. pose proof (rect_good _ R) as G. unfold good in G. unfold obs_list in G. rewrite Ho in G. exact G.
Qed.
Lemma has_parts_okp os ss z : has_parts os ss z <-> shape os ss z /\ forall s, In s ss -> okp os s.
Proof. reflexivity. Qed.
Lemma wf_same os s s' : wf_full s' os (lim_at s) -> same_lims s s'.
Proof.
  intros W o [os' [Ho Hin]]. pose proof (full_obs _ _ _ _ W Ho); subst.
  apply (wf_lim_at _ _ _ _ (wf_full_rect _ _ _ W)). exact Hin.
Qed.

Lemma with_obs_okp os req sup sub s : okp os s -> NoDup req -> req_ok os req sup sub ->
  exists s', s_with_obs s (Some req) sup sub = Ok s' /\ okp (sel os req) s' /\ same_lims s s'.
Proof.
  intros H Hr Hok. pose proof (okp_wf _ _ H) as W. destruct H as [R [Ho [Ha Hb]]].
  destruct (s_with_obs_total _ _ _ req sup sub W Hr Hok) as [s' [E [W' [A B]]]].
  exists s'. split; [exact E|]. split; [|apply (wf_same _ _ _ W')].
  split; [eapply rs_with_obs; [exact R|exact Hr|exact E]|]. split; [apply W'|]. split; [apply A, Ha|apply B, Hb].
Qed.

Lemma make_multi_okp os s0 r : (forall s, In s (s0 :: r) -> okp os s) ->
  exists z sp, make_multi (map ZSimple (s0 :: r)) (Some os) None = Ok z /\ shape os sp z
    /\ Forall2 same_lims (s0 :: r) sp /\ forall s, In s sp -> okp os s.
Proof.
  intros H. pose proof (H s0 (or_introl eq_refl)) as H0. pose proof (okp_wf _ _ H0) as W0.
  pose proof W0 as [[_ [Hnd [Hne _]]] _].
  unfold make_multi. rewrite flatten_simple. cbv zeta.
  assert (Eb : forallb (fun s => binning_eqb (s_binning s) (s_binning s0)) (s0 :: r) = true).
  { apply forallb_forall. intros s Hs. destruct (H s Hs) as [_ [_ [_ ->]]]. destruct H0 as [_ [_ [_ ->]]]. reflexivity. }
  rewrite Eb. cbn [negb].
  assert (Eo : forallb (fun s => match s_obs s with Some _ => true | None => false end) (s0 :: r) = true).
  { apply forallb_forall. intros s Hs. destruct (H s Hs) as [_ [-> _]]. reflexivity. }
  assert (Ea : forallb (fun s => match s_axes s with Some _ => true | None => false end) (s0 :: r) = false).
  { cbn [forallb]. destruct H0 as [_ [_ [-> _]]]. reflexivity. }
  rewrite Eo, Ea. cbn [andb].
  assert (M1 : exists sp, mapM (fun s => s_with_obs s (Some os) false false) (s0 :: r) = Ok sp
               /\ Forall2 (fun s s' => okp os s' /\ same_lims s s') (s0 :: r) sp).
  { apply mapM_forall2. intros s Hs. destruct (with_obs_okp os os false false s (H s Hs) Hnd) as [s' [E [K S]]].
    - split; [|split; intros _ o Ho; exact Ho]. destruct os as [|o os]; [congruence|]. exists o. split; left; reflexivity.
    - rewrite sel_same in K by tauto. eauto. }
  destruct M1 as [sp [Esp Fsp]]. rewrite Esp. cbn [bind].
  assert (Kall : forall s, In s sp -> okp os s).
  { intros s Hs. revert s Hs. apply (Forall2_right (okp os) (fun s s' => okp os s' /\ same_lims s s') (s0 :: r)); [intros a b [K _]; exact K|exact Fsp]. }
  assert (M2 : mapM (fun s => s_with_axes s None true true) sp = Ok sp).
  { clear - Kall. induction sp as [|s sp IH]; [reflexivity|]. cbn [mapM]. unfold s_with_axes at 1.
    destruct (Kall s (or_introl eq_refl)) as [_ [_ [-> _]]]. cbn [bind]. rewrite IH by (intros t Ht; apply Kall; right; exact Ht). reflexivity. }
  rewrite M2. cbn [bind].
  assert (Hlim : forallb s_has_limits sp = true).
  { apply forallb_forall. intros s Hs. apply (wf_has_limits _ _ _ (wf_full_rect _ _ _ (okp_wf _ _ (Kall s Hs)))). }
  rewrite Hlim. cbn [bind].
  assert (F : Forall2 same_lims (s0 :: r) sp) by (clear - Fsp; induction Fsp as [|? ? ? ? [_ S]]; constructor; assumption).
  destruct sp as [|t [|t' sp']]; [inversion F| |].
  - do 2 eexists. split; [reflexivity|]. split; [left; eauto|]. split; [exact F|exact Kall].
  - rewrite make_coords_total by (try exact Hne; discriminate). cbn [bind].
    do 2 eexists. split; [reflexivity|]. split; [right; split; eauto|]. split; [exact F|exact Kall].
Qed.

Lemma same_trans a b c : (forall o, own c o -> own b o) -> same_lims a b -> same_lims b c -> same_lims a c.
Proof. intros H S1 S2 o Ho. rewrite (S2 o Ho). apply S1, H, Ho. Qed.
Lemma Forall2_same_trans os la lb lc : (forall s, In s lb -> okp os s) -> (forall s, In s lc -> okp os s) ->
  Forall2 same_lims la lb -> Forall2 same_lims lb lc -> Forall2 same_lims la lc.
Proof.
  intros Kb Kc F1. revert lc Kc. induction F1 as [|a b la lb Hab F IH]; intros lc Kc F2; inversion F2; subst; constructor.
  - eapply same_trans; [|exact Hab|eassumption]. intros o [os' [Ho Hin]].
    destruct (Kc y (or_introl eq_refl)) as [_ [Hy _]]. rewrite Hy in Ho. inversion Ho; subst. exists os'. split; [|exact Hin].
    apply (Kb b (or_introl eq_refl)).
  - apply IH; [intros s Hs; apply Kb; right; exact Hs|intros s Hs; apply Kc; right; exact Hs|assumption].
Qed.

Lemma z_with_obs_parts os ss z req : has_parts os ss z -> NoDup req -> req_ok os req true true ->
  exists z' ss', z_with_obs z (Some req) true true = Ok z' /\ has_parts (sel os req) ss' z' /\ Forall2 same_lims ss ss'.
Proof.
  intros [S K] Hr Hok. destruct S as [[s [-> ->]]|[[a [b [r ->]]] ->]].
  - destruct (with_obs_okp os req true true s (K s (or_introl eq_refl)) Hr Hok) as [s' [E [K' L]]].
    exists (ZSimple s'), [s']. unfold z_with_obs. rewrite E. cbn [bind]. split; [reflexivity|]. split; [|repeat constructor; exact L].
    split; [left; eauto|]. intros t [<-|[]]. exact K'.
  - unfold z_with_obs. cbn [m_spaces m_coords].
    destruct (mapM_forall2 (fun s => s_with_obs s (Some req) true true) (fun s s' => okp (sel os req) s' /\ same_lims s s') (a :: b :: r))
      as [sp [E F]].
    { intros s Hs. destruct (with_obs_okp os req true true s (K s Hs) Hr Hok) as [s' [E [K' L]]]. eauto. }
    rewrite E. cbn [bind].
    destruct (coords_with_obs_total (mkCoords (Some os) None) os req true true eq_refl I Hok) as [ax [Ec [Hax _]]].
    rewrite Ec. cbn [bind c_obs c_axes]. rewrite (Hax eq_refl).
    assert (Kall : forall s, In s sp -> okp (sel os req) s).
    { intros s Hs. revert s Hs. apply (Forall2_right (okp (sel os req)) (fun s s' => okp (sel os req) s' /\ same_lims s s') (a :: b :: r)); [intros x y [K' _]; exact K'|exact F]. }
    assert (F' : Forall2 same_lims (a :: b :: r) sp) by (clear - F; induction F as [|? ? ? ? [_ S]]; constructor; assumption).
    destruct sp as [|t sp]; [inversion F'|].
    destruct (make_multi_okp (sel os req) t sp Kall) as [z [sp' [Ez [Sz [F2 K2]]]]].
    exists z, sp'. split; [exact Ez|]. split; [split; assumption|].
    eapply Forall2_same_trans; [exact Kall|exact K2|exact F'|exact F2].
Qed.

Lemma parts_iter os ss z : has_parts os ss z -> z_iter z = ss.
Proof. intros [[[s [-> ->]]|[_ ->]] _]; reflexivity. Qed.
Lemma parts_obs os ss z : has_parts os ss z -> ss <> [] -> z_obs z = Some os.
Proof. intros [[[s [-> ->]]|[_ ->]] K] _; [apply K; left; reflexivity|reflexivity]. Qed.
Lemma parts_unbinned os ss z : has_parts os ss z -> z_is_binned z = false.
Proof.
  assert (G : forall s, okp os s -> is_binned s = false).
  { intros s [_ [_ [_ H]]]. unfold is_binned. rewrite H. reflexivity. }
  intros [[[s [-> ->]]|[[a [b [r ->]]] ->]] K]; apply G, K; left; reflexivity.
Qed.
Lemma parts_axes os ss z : has_parts os ss z -> z_axes z = None.
Proof. intros [[[s [-> ->]]|[_ ->]] K]; [apply K; left; reflexivity|reflexivity]. Qed.
Lemma wf_flags s os f : wf_full s os f -> s_limits_are_set s = true /\ s_limits_are_false s = false.
Proof.
  intros W. pose proof (wf_has_limits _ _ _ (wf_full_rect _ _ _ W)) as H. unfold s_has_limits in H.
  apply andb_true_iff in H. destruct H as [H1 H2]. apply negb_true_iff in H2. auto.
Qed.
Lemma parts_flags os ss z : has_parts os ss z -> z_limits_are_set z = true /\ z_limits_are_false z = false.
Proof.
  intros H. unfold z_limits_are_set, z_limits_are_false. rewrite (parts_iter _ _ _ H). destruct H as [S K].
  assert (N : exists s r, ss = s :: r) by (destruct S as [[s [-> _]]|[[a [b [r ->]]] _]]; eauto). destruct N as [s [r ->]].
  split.
  - apply forallb_forall. intros t Ht. apply (wf_flags _ _ _ (okp_wf _ _ (K t Ht))).
  - cbn [forallb]. rewrite (proj2 (wf_flags _ _ _ (okp_wf _ _ (K s (or_introl eq_refl))))). reflexivity.
Qed.

Lemma combine_all_nonempty l : forall acc, acc <> [] ->
  (forall ss, In ss l -> (exists s, combine_spaces ss = Ok s) \/ combine_spaces ss = Err LimitsIncompatibleError) ->
  exists out, combine_all acc l = Ok (acc ++ out) /\ forall s, In s out <-> exists ss, In ss l /\ combine_spaces ss = Ok s.
Proof.
  induction l as [|ss l IH]; intros acc Hne H.
  - exists []. rewrite app_nil_r. split; [reflexivity|]. intros s. split; [intros []|intros [? [[] _]]].
  - cbn [combine_all]. destruct (H ss (or_introl eq_refl)) as [[s E]|E]; rewrite E.
    + destruct (IH (acc ++ [s])) as [out [Eo Ho]]; [destruct acc; discriminate|intros t Ht; apply H; right; exact Ht|].
      exists (s :: out). rewrite Eo, <- app_assoc. split; [reflexivity|]. intros t. simpl. rewrite Ho. split.
      * intros [<-|[k [Hk Ek]]]; [exists ss; auto|exists k; auto].
      * intros [k [[<-|Hk] Ek]]; [left; congruence|right; eauto].
    + destruct acc as [|c acc]; [congruence|].
      destruct (IH (c :: acc)) as [out [Eo Ho]]; [discriminate|intros t Ht; apply H; right; exact Ht|].
      exists out. split; [exact Eo|]. intros t. rewrite Ho. split; intros [k [Hk Ek]]; exists k; (split; [|exact Ek]).
      * right. exact Hk.
      * destruct Hk as [<-|Hk]; [congruence|exact Hk].
Qed.
Lemma cart2 {A} (l1 l2 : list A) ss : In ss (cart [l1; l2]) <-> exists a b, In a l1 /\ In b l2 /\ ss = [a; b].
Proof.
  cbn [cart]. rewrite in_concat. split.
  - intros [l [Hl Hin]]. apply in_map_iff in Hl. destruct Hl as [a [<- Ha]]. apply in_map_iff in Hin. destruct Hin as [k [<- Hk]].
    apply in_concat in Hk. destruct Hk as [m [Hm Hk]]. apply in_map_iff in Hm. destruct Hm as [b [<- Hb]].
    destruct Hk as [<-|[]]. eauto.
  - intros [a [b [Ha [Hb ->]]]]. eexists. split; [apply in_map_iff; exists a; split; [reflexivity|exact Ha]|].
    apply in_map. apply in_concat. exists [[b]]. split; [apply in_map_iff; exists b; auto|left; reflexivity].
Qed.
Lemma cart2_cons {A} (a b : A) l1 l2 : exists r, cart [a :: l1; b :: l2] = [a; b] :: r.
Proof. cbn. eauto. Qed.

(* ---------- two simple spaces ---------- *)
Lemma agree_dec iv iv' : agree iv iv' \/ ~ agree iv iv'.
Proof.
  unfold agree.
  destruct (Qlt_le_dec (- (1 # 100000000)) (fst iv - fst iv')) as [A|A]; [|right; intros [C _]; apply (Qle_not_lt _ _ A C)].
  destruct (Qlt_le_dec (fst iv - fst iv') (1 # 100000000)) as [B|B]; [|right; intros [_ [C _]]; apply (Qle_not_lt _ _ B C)].
  destruct (Qlt_le_dec (- (1 # 100000000)) (snd iv - snd iv')) as [C|C]; [|right; intros [_ [_ [D _]]]; apply (Qle_not_lt _ _ C D)].
  destruct (Qlt_le_dec (snd iv - snd iv') (1 # 100000000)) as [D|D]; [|right; intros [_ [_ [_ K]]]; apply (Qle_not_lt _ _ D K)].
  left. auto.
Qed.
Lemma okp_limit_of os s o iv : okp os s -> (limit_of s o iv <-> In o os /\ iv = lim_at s o).
Proof. intros K. apply wf_limit_of, wf_full_rect, okp_wf, K. Qed.
Lemma disagree_iff os1 os2 a b : okp os1 a -> okp os2 b ->
  (disagree a b <-> exists o, In o os1 /\ In o os2 /\ ~ agree (lim_at a o) (lim_at b o)).
Proof.
  intros Ka Kb. split.
  - intros [o [iv [iv' [L1 [L2 Hn]]]]]. apply (okp_limit_of _ _ _ _ Ka) in L1. apply (okp_limit_of _ _ _ _ Kb) in L2.
    destruct L1 as [H1 ->]. destruct L2 as [H2 ->]. eauto.
  - intros [o [H1 [H2 Hn]]]. exists o, (lim_at a o), (lim_at b o). split; [apply (okp_limit_of _ _ _ _ Ka); auto|].
    split; [apply (okp_limit_of _ _ _ _ Kb); auto|exact Hn].
Qed.
Lemma disagree_dec os1 os2 a b : okp os1 a -> okp os2 b -> disagree a b \/ ~ disagree a b.
Proof.
  intros Ka Kb. rewrite (disagree_iff _ _ _ _ Ka Kb).
  assert (G : forall l, incl l os1 -> (exists o, In o l /\ In o os2 /\ ~ agree (lim_at a o) (lim_at b o))
      \/ ~ (exists o, In o l /\ In o os2 /\ ~ agree (lim_at a o) (lim_at b o))).
  { induction l as [|o l IH]; intros Hi; [right; intros [o [[] _]]|].
    destruct IH as [[o' [H1 H2]]|IH]; [intros x Hx; apply Hi; right; exact Hx|left; exists o'; split; [right; exact H1|exact H2]|].
    destruct (in_dec string_dec o os2) as [H2|H2].
    - destruct (agree_dec (lim_at a o) (lim_at b o)) as [A|A].
      + right. intros [o' [[<-|H1] [H3 H4]]]; [contradiction|]. apply IH. eauto.
      + left. exists o. split; [left; reflexivity|auto].
    - right. intros [o' [[<-|H1] [H3 H4]]]; [contradiction|]. apply IH. eauto. }
  apply (G os1). intros x Hx. exact Hx.
Qed.

Lemma pair_raises os1 os2 a b : okp os1 a -> okp os2 b ->
  (disagree a b -> combine_spaces [a; b] = Err LimitsIncompatibleError) /\ (~ disagree a b -> exists s, combine_spaces [a; b] = Ok s).
Proof.
  intros [R1 [_ [_ B1]]] [R2 [_ [_ B2]]]. destruct (C06_raises [a; b]) as [H1 H2].
  - repeat constructor; assumption.
  - intros s [<-|[<-|[]]]; assumption.
  - discriminate.
  - apply two_not_nested.
  - split.
    + intros [o [iv [iv' [L1 [L2 Hn]]]]]. apply H1. exists o, [], a, [b], b, iv, iv'.
      split; [reflexivity|]. split; [exact L1|]. split; [intros r []|]. split; [left; reflexivity|]. split; assumption.
    + intros D. apply H2. intros [o [l1 [s [l2 [t [iv [iv' [E [L1 [_ [Ht [L2 Hn]]]]]]]]]]]].
      destruct l1 as [|a' [|b' l1]]; simpl in E; inversion E; subst.
      * destruct Ht as [<-|[]]. apply D. exists o, iv, iv'. auto.
      * destruct Ht.
      * destruct l1; discriminate.
Qed.

(** axes and binning of a combination *)
Lemma made_pair os1 os2 a b s : okp os1 a -> okp os2 b -> combine_spaces [a; b] = Ok s -> s_axes s = None /\ s_binning s = None.
Proof.
  intros Ka Kb H. unfold combine_spaces in H. unfold common_obs in H.
  destruct (all_some _) as [oss|]; [|discriminate]. 
  assert (Ea : is_binned a = false) by (destruct Ka as [_ [_ [_ B]]]; unfold is_binned; rewrite B; reflexivity).
  assert (Eb : is_binned b = false) by (destruct Kb as [_ [_ [_ B]]]; unfold is_binned; rewrite B; reflexivity).
  cbn [forallb existsb] in H. rewrite Ea, Eb in H. cbn [andb orb negb bind] in H.
  apply bind_ok in H. destruct H as [sp [_ H]].
  assert (M : forall c od da s, space_of_dict c od da None = Ok s -> c_axes c = None -> s_axes s = None /\ s_binning s = None).
  { intros c od da s' E Hc. pose proof (space_of_dict_coords _ _ _ _ _ E) as Ec. split; [unfold s_axes; rewrite Ec; exact Hc|].
    unfold space_of_dict in E. apply bind_ok in E. destruct E as [[no na] [_ E]]. cbn in E. inversion E; subst. reflexivity. }
  assert (MC : forall os c, make_coords os None = Ok c -> c_axes c = None).
  { intros os c E. unfold make_coords in E. destruct os as [os|]; [|discriminate]. destruct os; inversion E; reflexivity. }
  assert (Mk : forall os i s, make_space (Some os) None i None = Ok s -> s_axes s = None /\ s_binning s = None).
  { intros os i s' E. unfold make_space in E. apply bind_ok in E. destruct E as [c [Ec E]].
    apply bind_ok in E. destruct E as [l [_ E]]. eapply M; [exact E|eapply MC, Ec]. }
  destruct (forallb s_limits_are_false sp); [eapply Mk, H|].
  destruct (forallb _ sp); [eapply Mk, H|]. destruct (negb _); [discriminate|].
  apply bind_ok in H. destruct H as [[[d u] n] [_ H]]. apply bind_ok in H. destruct H as [c [Ec H]].
  eapply M; [exact H|eapply MC, Ec].
Qed.

(** What a compatible pair gives. *)
Lemma pair_ok os1 os2 a b s : okp os1 a -> okp os2 b -> combine_spaces [a; b] = Ok s ->
  okp (ordered_union String.eqb [os1; os2]) s
  /\ forall o iv, limit_of s o iv <-> limit_of a o iv \/ (limit_of b o iv /\ ~ own a o).
Proof.
  intros Ka Kb E. pose proof Ka as [Ra [Oa _]]. pose proof Kb as [Rb [Ob _]].
  assert (R : Forall rect_space [a; b]) by (repeat constructor; assumption).
  assert (W : wf_full s (all_of [a; b]) (F [a; b])) by (apply combine_full; [apply rect_all_good, R|exact E]).
  assert (Eall : all_of [a; b] = ordered_union String.eqb [os1; os2]) by (unfold all_of; cbn [map]; unfold obs_list; rewrite Oa, Ob; reflexivity).
  split.
  - destruct (made_pair _ _ _ _ _ Ka Kb E) as [Ha Hb]. split; [eapply rs_combine; [exact R|exact E]|].
    split; [rewrite <- Eall; apply W|]. split; assumption.
  - destruct (C06_result [a; b] [os1; os2] s R) as [os' [_ [_ H]]]; [cbn [map]; rewrite Oa, Ob; reflexivity|exact E|].
    intros o iv. rewrite H. split.
    + intros [l1 [t [l2 [El [L Hn]]]]]. destruct l1 as [|c [|c' l1]]; simpl in El; inversion El; subst.
      * left. exact L.
      * right. split; [exact L|]. apply Hn. left. reflexivity.
      * destruct l1; discriminate.
    + intros [L|[L Hn]]; [exists [], a, [b]|exists [a], b, []]; (split; [reflexivity|]); (split; [exact L|]); [intros t []|].
      intros t [<-|[]]. exact Hn.
Qed.
Lemma union_fa os1 os2 : first_appearance [] [os1; os2] (ordered_union String.eqb [os1; os2]).
Proof. apply union_first_appearance. Qed.
Lemma in_both_iff os x a b s : (forall o iv, limit_of s o iv <-> limit_of a o iv \/ (limit_of b o iv /\ ~ own a o)) ->
  (in_box os x (limit_of s) <-> in_both os x a b).
Proof.
  intros H. unfold in_both, in_box. split.
  - intros B. split; intros o v iv Hc L; apply (B o v); auto; apply H; tauto.
  - intros [B1 B2] o v iv Hc L. apply H in L. destruct L as [L|L]; [eapply B1|eapply B2]; eauto.
Qed.
Lemma in_box_okp os s x : okp os s -> (in_box os x (limit_of s) <-> forall o v, column os x o v -> between (lim_at s o) v).
Proof.
  intros K. split.
  - intros B o v Hc. apply (B o v); [exact Hc|]. apply (okp_limit_of _ _ _ _ K). split; [|reflexivity].
    destruct Hc as [k [Hk _]]. eapply nth_error_In, Hk.
  - intros B o v iv Hc L. apply (okp_limit_of _ _ _ _ K) in L. destruct L as [_ ->]. apply B, Hc.
Qed.

(** Membership in a space made of parts. *)
Lemma parts_inside os ss z x : has_parts os ss z -> length x = length os ->
  exists r, z_inside z x false = Ok r /\ (r = true <-> exists s, In s ss /\ in_box os x (limit_of s)).
Proof.
  intros [S K] Hl. destruct S as [[s [-> ->]]|[_ ->]].
  - pose proof (K s (or_introl eq_refl)) as Ks. destruct (wf_inside _ _ _ x (wf_full_rect _ _ _ (okp_wf _ _ Ks)) Hl) as [b [Eb Hb]].
    exists b. split; [exact Eb|]. rewrite Hb, <- (in_box_okp _ _ _ Ks). split; [intros H; exists s; split; [left; reflexivity|exact H]|].
    intros [t [[<-|[]] H]]. exact H.
  - unfold z_inside, sanitize_x, n_obs. cbn [m_coords m_spaces c_obs]. rewrite Hl, Nat.eqb_refl. cbn [bind].
    rewrite andb_false_r.
    assert (F : Forall2 (multi_ok os) ss ss).
    { clear - K. induction ss as [|s ss IH]; constructor; [apply okp_wf, K; left; reflexivity|apply IH; intros t Ht; apply K; right; exact Ht]. }
    destruct (multi_any _ _ _ x F Hl) as [bs [Ebs Hbs]]. rewrite Ebs. cbn [bind]. eexists. split; [reflexivity|].
    rewrite Hbs. split; intros [s [Hs H]]; exists s; (split; [exact Hs|]); apply (in_box_okp _ _ _ (K s Hs)); exact H.
Qed.

(** Limits of the reordered spaces. *)
Lemma same_limit_of os os' s s' o iv : okp os s -> okp os' s' -> (forall o, In o os <-> In o os') -> same_lims s s' ->
  (limit_of s' o iv <-> limit_of s o iv).
Proof.
  intros K K' Hos L. rewrite (okp_limit_of _ _ _ _ K), (okp_limit_of _ _ _ _ K'), Hos. split; intros [Hin ->]; (split; [exact Hin|]);
  [|symmetry]; apply L; exists os'; (split; [apply K'|exact Hin]).
Qed.
Lemma own_okp os s o : okp os s -> (own s o <-> In o os).
Proof. intros [_ [H _]]. unfold own. rewrite H. split; [intros [os' [E Hin]]; inversion E; subst; exact Hin|eauto]. Qed.

Lemma sel_all os req : incl os req -> forall o, In o os <-> In o (sel os req).
Proof. intros Hi o. rewrite sel_In. split; [auto|tauto]. Qed.

Lemma F2_In_r {A B} (R : A -> B -> Prop) la lb b : Forall2 R la lb -> In b lb -> exists a, In a la /\ R a b.
Proof. induction 1 as [|x y la lb H F IH]; intros Hb; [destruct Hb|]. destruct Hb as [<-|Hb]; [exists x; split; [left|]; auto|]. destruct (IH Hb) as [a [Ha Hr]]. exists a. split; [right|]; auto. Qed.
Lemma F2_In_l {A B} (R : A -> B -> Prop) la lb a : Forall2 R la lb -> In a la -> exists b, In b lb /\ R a b.
Proof. induction 1 as [|x y la lb H F IH]; intros Hb; [destruct Hb|]. destruct Hb as [<-|Hb]; [exists y; split; [left|]; auto|]. destruct (IH Hb) as [b [Ha Hr]]. exists b. split; [right|]; auto. Qed.

Lemma nonempty_In (l : list string) : l <> [] -> exists o, In o l.
Proof. destruct l as [|o l]; [congruence|]. intros _. exists o. left. reflexivity. Qed.

(** The union of two lists of names. *)
Lemma add_new_all l : forall acc, NoDup l -> fold_left (add_new String.eqb) l acc = acc ++ filter (fun o => negb (mem String.eqb o acc)) l.
Proof.
  induction l as [|o l IH]; intros acc Hn; [rewrite app_nil_r; reflexivity|]. inversion Hn as [|? ? H1 H2]; subst.
  cbn [fold_left filter]. unfold add_new at 2. rewrite IH by exact H2. destruct (mem String.eqb o acc) eqn:E; cbn [negb]; [reflexivity|].
  rewrite <- app_assoc. simpl. do 2 f_equal. apply filter_ext_in. intros x Hx. f_equal.
  destruct (mem String.eqb x acc) eqn:Ex.
  - apply (mem_In _ string_eqb_ok). apply (mem_In _ string_eqb_ok) in Ex. apply in_or_app. auto.
  - destruct (mem String.eqb x (acc ++ [o])) eqn:Ey; [|reflexivity]. apply (mem_In _ string_eqb_ok) in Ey. apply in_app_or in Ey.
    destruct Ey as [Ey|[<-|[]]]; [apply (mem_In _ string_eqb_ok) in Ey; congruence|contradiction].
Qed.
Lemma forallb_filter_id {A} (f : A -> bool) l : forallb f l = true -> filter f l = l.
Proof. induction l as [|x l IH]; intros H; [reflexivity|]. simpl in *. apply andb_true_iff in H. destruct H as [H1 H2]. rewrite H1, IH by exact H2. reflexivity. Qed.
Lemma union_two a b : NoDup a -> NoDup b -> ordered_union String.eqb [a; b] = a ++ filter (fun o => negb (mem String.eqb o a)) b.
Proof.
  intros Ha Hb. unfold ordered_union. cbn [fold_left]. rewrite (add_new_all a []) by exact Ha. cbn [app].
  rewrite (forallb_filter_id (fun o => negb (mem String.eqb o [])) a) by (apply forallb_forall; reflexivity).
  apply add_new_all, Hb.
Qed.
Lemma filter_none {A} (f : A -> bool) l : (forall x, In x l -> f x = false) -> filter f l = [].
Proof. induction l as [|x l IH]; intros H; [reflexivity|]. simpl. rewrite (H x (or_introl eq_refl)). apply IH. intros y Hy. apply H. right. exact Hy. Qed.
Lemma union_sel a b : NoDup a -> NoDup b ->
  ordered_union String.eqb [sel a (ordered_union String.eqb [a; b]); sel b (ordered_union String.eqb [a; b])] = ordered_union String.eqb [a; b].
Proof.
  intros Ha Hb. rewrite (union_two a b Ha Hb). set (e := filter (fun o => negb (mem String.eqb o a)) b).
  assert (He : forall o, In o e -> In o b /\ mem String.eqb o a = false) by (intros o H; apply filter_In in H; rewrite negb_true_iff in H; exact H).
  assert (Ea : sel a (a ++ e) = a).
  { unfold sel. rewrite filter_app, forallb_filter_id, filter_none, app_nil_r; [reflexivity|intros o H; apply He, H|].
    apply forallb_forall. intros o H. apply (mem_In _ string_eqb_ok), H. }
  rewrite Ea. rewrite union_two; [|exact Ha|apply sel_nodup; subst e; rewrite <- (union_two a b Ha Hb); apply (union_spec _ [] (NoDup_nil _))].
  f_equal. unfold sel. rewrite !filter_app, filter_none; cbn [app].
  - rewrite (forallb_filter_id _ e); [apply forallb_filter_id|]; apply forallb_forall; intros o H; destruct (He o H) as [H1 H2];
    [rewrite H2; reflexivity|apply (mem_In _ string_eqb_ok), H1].
  - intros o H. apply filter_In in H. destruct H as [H _]. apply (mem_In _ string_eqb_ok) in H. rewrite H. reflexivity.
Qed.

Section Two.
Variables (os1 os2 : list string) (a b : space) (A B : list space) (z1 z2 : zspace).
Hypothesis P1 : has_parts os1 (a :: A) z1.
Hypothesis P2 : has_parts os2 (b :: B) z2.
Let all := ordered_union String.eqb [os1; os2].

Lemma all_all_of : all = all_of [a; b].
Proof.
  destruct P1 as [_ K1]. destruct P2 as [_ K2]. destruct (K1 a (or_introl eq_refl)) as [_ [Oa _]].
  destruct (K2 b (or_introl eq_refl)) as [_ [Ob _]]. unfold all, all_of. cbn [map]. unfold obs_list. rewrite Oa, Ob. reflexivity.
Qed.
Lemma all_nodup : NoDup all.
Proof. rewrite all_all_of. apply all_of_nodup. Qed.
Lemma all_In o : In o all <-> In o os1 \/ In o os2.
Proof.
  rewrite all_all_of, all_of_In. destruct P1 as [_ K1]. destruct P2 as [_ K2]. destruct (K1 a (or_introl eq_refl)) as [_ [Oa _]].
  destruct (K2 b (or_introl eq_refl)) as [_ [Ob _]]. split.
  - intros [s [[<-|[<-|[]]] H]]; unfold obs_list in H; [rewrite Oa in H|rewrite Ob in H]; auto.
  - intros [H|H]; [exists a|exists b]; (split; [simpl; auto|]); unfold obs_list; [rewrite Oa|rewrite Ob]; exact H.
Qed.
Lemma ok1 : req_ok os1 all true true.
Proof.
  pose proof P1 as [_ K1]. pose proof (okp_wf _ _ (K1 a (or_introl eq_refl))) as [[_ [_ [Hne _]]] _].
  split; [|split; intros C; discriminate]. destruct (nonempty_In _ Hne) as [o Ho]. exists o. split; [apply all_In; left|]; exact Ho.
Qed.
Lemma ok2 : req_ok os2 all true true.
Proof.
  pose proof P2 as [_ K1]. pose proof (okp_wf _ _ (K1 b (or_introl eq_refl))) as [[_ [_ [Hne _]]] _].
  split; [|split; intros C; discriminate]. destruct (nonempty_In _ Hne) as [o Ho]. exists o. split; [apply all_In; right|]; exact Ho.
Qed.

(** The combination for the reordered parts. *)
Lemma multi_parts os1' os2' a' b' A' B' :
  (forall s, In s (a' :: A') -> okp os1' s) -> (forall s, In s (b' :: B') -> okp os2' s) ->
  ordered_union String.eqb [os1'; os2'] = all ->
  (disagree a' b' -> combine_all [] (cart [a' :: A'; b' :: B']) = Err LimitsIncompatibleError)
  /\ (~ disagree a' b' -> exists s0 r, combine_all [] (cart [a' :: A'; b' :: B']) = Ok (s0 :: r)
        /\ forall s, In s (s0 :: r) <-> exists p q, In p (a' :: A') /\ In q (b' :: B') /\ combine_spaces [p; q] = Ok s).
Proof.
  intros K1 K2 Eall. destruct (cart2_cons a' b' A' B') as [r Er].
  destruct (pair_raises _ _ _ _ (K1 a' (or_introl eq_refl)) (K2 b' (or_introl eq_refl))) as [H1 H2]. split.
  - intros D. rewrite Er. cbn [combine_all]. rewrite (H1 D). reflexivity.
  - intros D. destruct (H2 D) as [s0 E0].
    destruct (combine_all_nonempty r [s0]) as [out [Eo Ho]]; [discriminate| |].
    { intros ss Hss. assert (Hin : In ss (cart [a' :: A'; b' :: B'])) by (rewrite Er; right; exact Hss).
      apply cart2 in Hin. destruct Hin as [p [q [Hp [Hq ->]]]].
      destruct (pair_raises _ _ _ _ (K1 p Hp) (K2 q Hq)) as [G1 G2].
      destruct (disagree_dec _ _ _ _ (K1 p Hp) (K2 q Hq)) as [D'|D']; [right; apply G1, D'|left; apply G2, D']. }
    exists s0, out. split; [rewrite Er; cbn [combine_all]; rewrite E0; exact Eo|].
    intros s. split.
    + intros [<-|Hs]; [exists a', b'; repeat split; [left; reflexivity|left; reflexivity|exact E0]|].
      apply Ho in Hs. destruct Hs as [ss [Hss Es]]. assert (Hin : In ss (cart [a' :: A'; b' :: B'])) by (rewrite Er; right; exact Hss).
      apply cart2 in Hin. destruct Hin as [p [q [Hp [Hq ->]]]]. eauto.
    + intros [p [q [Hp [Hq Es]]]]. assert (Hin : In [p; q] (cart [a' :: A'; b' :: B'])) by (apply cart2; eauto).
      rewrite Er in Hin. destruct Hin as [Hin|Hin]; [inversion Hin; subst; left; congruence|]. right. apply Ho. eauto.
Qed.

Lemma combine_two : (disagree a b -> combine_zspaces [z1; z2] = Err LimitsIncompatibleError)
  /\ (~ disagree a b -> exists z ss, combine_zspaces [z1; z2] = Ok z /\ has_parts all ss z
        /\ forall x, (exists s, In s ss /\ in_box all x (limit_of s)) <->
             exists p q, In p (a :: A) /\ In q (b :: B) /\ ~ disagree p q /\ in_both all x p q).
Proof.
  pose proof P1 as [_ K1]. pose proof P2 as [_ K2].
  unfold combine_zspaces.
  destruct (all_some (map (fun z => match z with ZSimple s => Some s | ZMulti _ => None end) [z1; z2])) as [ss|] eqn:Es.
  - pose proof P1 as [[[s1 [E1 Z1]]|[_ Z1]] _]; rewrite Z1 in *; [|cbn in Es; discriminate].
    pose proof P2 as [[[s2 [E2 Z2]]|[_ Z2]] _]; rewrite Z2 in *; [|cbn in Es; discriminate].
    injection E1 as <- ->. injection E2 as <- ->. cbn in Es. inversion Es; subst ss.
    destruct (pair_raises _ _ _ _ (K1 a (or_introl eq_refl)) (K2 b (or_introl eq_refl))) as [H1 H2]. split.
    + intros D. rewrite (H1 D). reflexivity.
    + intros D. destruct (H2 D) as [s E]. rewrite E. cbn [bind]. exists (ZSimple s), [s]. split; [reflexivity|].
      destruct (pair_ok _ _ _ _ _ (K1 a (or_introl eq_refl)) (K2 b (or_introl eq_refl)) E) as [K L].
      split; [split; [left; eauto|intros t [<-|[]]; exact K]|]. intros x. split.
      * intros [t [[<-|[]] H]]. exists a, b. split; [left; reflexivity|]. split; [left; reflexivity|]. split; [exact D|].
        apply (in_both_iff _ _ _ _ _ L), H.
      * intros [p [q [[<-|[]] [[<-|[]] [_ H]]]]]. exists s. split; [left; reflexivity|]. apply (in_both_iff _ _ _ _ _ L), H.
  - clear Es. cbn [map]. rewrite (parts_obs _ _ _ P1), (parts_obs _ _ _ P2) by discriminate. cbn [all_some]. cbv zeta. fold all.
    rewrite (parts_axes _ _ _ P1). cbn [all_some].
    cbn [forallb existsb]. rewrite (parts_unbinned _ _ _ P1), (parts_unbinned _ _ _ P2). cbn [andb orb negb].
    destruct (z_with_obs_parts _ _ _ all P1 all_nodup ok1) as [z1' [ss1 [E1 [Q1 F1]]]].
    destruct (z_with_obs_parts _ _ _ all P2 all_nodup ok2) as [z2' [ss2 [E2 [Q2 F2]]]].
    cbn [mapM]. rewrite E1, E2. cbn [bind forallb].
    destruct (parts_flags _ _ _ Q1) as [G1 G2]. destruct (parts_flags _ _ _ Q2) as [G3 G4].
    unfold z_has_limits. rewrite G1, G2, G3, G4. cbn [andb negb map].
    rewrite (parts_iter _ _ _ Q1), (parts_iter _ _ _ Q2).
    destruct ss1 as [|a' A']; [inversion F1|]. destruct ss2 as [|b' B']; [inversion F2|].
    destruct Q1 as [_ K1']. destruct Q2 as [_ K2'].
    set (os1' := sel os1 all) in *. set (os2' := sel os2 all) in *.
    assert (I1 : forall o, In o os1 <-> In o os1') by (apply sel_all; intros o Ho; apply all_In; auto).
    assert (I2 : forall o, In o os2 <-> In o os2') by (apply sel_all; intros o Ho; apply all_In; auto).
    assert (S1 : forall p p' o iv, In p (a :: A) -> In p' (a' :: A') -> same_lims p p' -> (limit_of p' o iv <-> limit_of p o iv)).
    { intros p p' o iv Hp Hp' L. eapply same_limit_of; [apply K1, Hp|apply K1', Hp'|exact I1|exact L]. }
    assert (S2 : forall p p' o iv, In p (b :: B) -> In p' (b' :: B') -> same_lims p p' -> (limit_of p' o iv <-> limit_of p o iv)).
    { intros p p' o iv Hp Hp' L. eapply same_limit_of; [apply K2, Hp|apply K2', Hp'|exact I2|exact L]. }
    assert (DD : forall p p' q q', In p (a :: A) -> In p' (a' :: A') -> same_lims p p' -> In q (b :: B) -> In q' (b' :: B') -> same_lims q q' ->
       (disagree p' q' <-> disagree p q)).
    { intros p p' q q' Hp Hp' Lp Hq Hq' Lq. unfold disagree. split; intros [o [iv [iv' [L1 [L2 Hn]]]]]; exists o, iv, iv';
      (split; [apply (S1 p p' o iv Hp Hp' Lp); exact L1|]); (split; [apply (S2 q q' o iv' Hq Hq' Lq); exact L2|exact Hn]). }
    assert (Eall : ordered_union String.eqb [os1'; os2'] = all).
    { apply union_sel; [apply (okp_wf _ _ (K1 a (or_introl eq_refl)))|apply (okp_wf _ _ (K2 b (or_introl eq_refl)))]. }
    assert (Laa : same_lims a a') by (inversion F1; assumption). assert (Lbb : same_lims b b') by (inversion F2; assumption).
    destruct (multi_parts os1' os2' a' b' A' B' K1' K2' Eall) as [M1 M2]. split.
    + intros D. rewrite M1; [reflexivity|]. apply (DD a a' b b'); try assumption; left; reflexivity.
    + intros D. destruct M2 as [s0 [r [Ec Hc]]].
      { intros D'. apply D. apply (DD a a' b b'); try assumption; left; reflexivity. }
      rewrite Ec. cbn [bind].
      assert (Kr : forall s, In s (s0 :: r) -> okp all s).
      { intros s Hs. apply Hc in Hs. destruct Hs as [p [q [Hp [Hq E]]]]. rewrite <- Eall.
        apply (pair_ok _ _ _ _ _ (K1' p Hp) (K2' q Hq) E). }
      destruct (make_multi_okp all s0 r Kr) as [z [sp [Ez [Sz [Fz Kz]]]]].
      exists z, sp. split; [exact Ez|]. split; [split; assumption|]. intros x. split.
      * intros [s [Hs Hb]]. destruct (F2_In_r _ _ _ _ Fz Hs) as [s' [Hs' Ls]].
        assert (Hb' : in_box all x (limit_of s')).
        { intros o v iv Hcol L. apply (Hb o v iv Hcol). eapply same_limit_of; [apply Kr, Hs'|apply Kz, Hs|tauto|exact Ls|exact L]. }
        pose proof Hs' as Hs''. apply Hc in Hs''. destruct Hs'' as [p' [q' [Hp' [Hq' E]]]].
        destruct (F2_In_r _ _ _ _ F1 Hp') as [p [Hp Lp]]. destruct (F2_In_r _ _ _ _ F2 Hq') as [q [Hq Lq]].
        exists p, q. split; [exact Hp|]. split; [exact Hq|]. split.
        { intros Dpq. apply (DD p p' q q') in Dpq; try assumption.
          rewrite (proj1 (pair_raises _ _ _ _ (K1' p' Hp') (K2' q' Hq')) Dpq) in E. discriminate. }
        destruct (pair_ok _ _ _ _ _ (K1' p' Hp') (K2' q' Hq') E) as [_ L].
        apply (in_both_iff _ _ _ _ _ L) in Hb'. destruct Hb' as [B1 B2]. split.
        { intros o v iv Hcol Lm. apply (B1 o v iv Hcol). apply (S1 p p' o iv Hp Hp' Lp), Lm. }
        { intros o v iv Hcol [Lm Hn]. apply (B2 o v iv Hcol). split; [apply (S2 q q' o iv Hq Hq' Lq), Lm|].
          rewrite (own_okp _ _ _ (K1' p' Hp')), <- I1, <- (own_okp _ _ _ (K1 p Hp)). exact Hn. }
      * intros [p [q [Hp [Hq [Dpq [B1 B2]]]]]].
        destruct (F2_In_l _ _ _ _ F1 Hp) as [p' [Hp' Lp]]. destruct (F2_In_l _ _ _ _ F2 Hq) as [q' [Hq' Lq]].
        destruct (pair_raises _ _ _ _ (K1' p' Hp') (K2' q' Hq')) as [_ G].
        destruct G as [s' E]. { intros D'. apply Dpq. apply (DD p p' q q'); assumption. }
        assert (Hs' : In s' (s0 :: r)) by (apply Hc; eauto).
        destruct (F2_In_l _ _ _ _ Fz Hs') as [s [Hs Ls]]. exists s. split; [exact Hs|].
        destruct (pair_ok _ _ _ _ _ (K1' p' Hp') (K2' q' Hq') E) as [_ L].
        assert (Hb' : in_box all x (limit_of s')).
        { apply (in_both_iff _ _ _ _ _ L). split.
          - intros o v iv Hcol Lm. apply (B1 o v iv Hcol). apply (S1 p p' o iv Hp Hp' Lp), Lm.
          - intros o v iv Hcol [Lm Hn]. apply (B2 o v iv Hcol). split; [apply (S2 q q' o iv Hq Hq' Lq), Lm|].
            rewrite (own_okp _ _ _ (K1 p Hp)), I1, <- (own_okp _ _ _ (K1' p' Hp')). exact Hn. }
        intros o v iv Hcol Lm. apply (Hb' o v iv Hcol). apply (same_limit_of all all s' s o iv (Kr s' Hs') (Kz s Hs) (fun o => iff_refl _) Ls), Lm.
Qed.
End Two.

(* ---------- binned spaces ---------- *)
Section Dedupe.
Variable eqb : string * list Q -> string * list Q -> bool.
Hypothesis eqb_key : forall p q, eqb p q = true -> fst p = fst q.
Hypothesis eqb_refl : forall p, eqb p p = true.
Lemma lookup_app {V} o (l r : list (string * V)) : lookup String.eqb o (l ++ r) = match lookup String.eqb o l with Some v => Some v | None => lookup String.eqb o r end.
Proof. induction l as [|[k v] l IH]; [reflexivity|]. cbn [app lookup]. destruct (String.eqb o k); [reflexivity|exact IH]. Qed.
Lemma dedupe_lookup o l : forall acc,
  lookup String.eqb o (fold_left (fun acc b => if mem eqb b acc then acc else acc ++ [b]) l acc) =
  match lookup String.eqb o acc with Some v => Some v | None => lookup String.eqb o l end.
Proof.
  induction l as [|[k v] l IH]; intros acc; cbn [fold_left].
  - destruct (lookup String.eqb o acc); reflexivity.
  - rewrite IH. destruct (mem eqb (k, v) acc) eqn:E.
    + destruct (lookup String.eqb o acc) eqn:Eo; [reflexivity|]. cbn [lookup]. destruct (String.eqb_spec o k) as [->|]; [|reflexivity].
      exfalso. apply (lookup_none _ string_eqb_ok) in Eo. apply Eo.
      clear - E eqb_key. induction acc as [|p acc IH]; [discriminate|]. cbn [mem existsb] in E. unfold mem in *. cbn [existsb] in E.
      apply orb_true_iff in E. destruct E as [E|E]; [left; apply eqb_key in E; symmetry; exact E|right; apply IH, E].
    + rewrite lookup_app. destruct (lookup String.eqb o acc); [reflexivity|]. cbn [lookup]. destruct (String.eqb o k); reflexivity.
Qed.
End Dedupe.

Lemma concat_lookup (g : string -> space -> result (string * list Q)) (spaces : list space) o e s : forall os bs,
  (forall o s p, g o s = Ok p -> fst p = o) ->
  mapM (fun o => mapM (g o) (filter (has_coord o) spaces)) os = Ok bs -> In o os ->
  hd_error (filter (has_coord o) spaces) = Some s -> g o s = Ok (o, e) -> lookup String.eqb o (concat bs) = Some e.
Proof.
  intros os bs Hg H Ho Hs He. apply mapM_ok in H. induction H as [|o' l os bs Hl F IH]; [destruct Ho|].
  cbn [concat]. rewrite lookup_app. destruct (string_dec o o') as [<-|Hn].
  - destruct (filter (has_coord o) spaces) as [|s' r]; [discriminate|]. inversion Hs; subst s'.
    cbn [mapM] in Hl. rewrite He in Hl. cbn [bind] in Hl. apply bind_ok in Hl. destruct Hl as [r' [_ Hl]]. inversion Hl; subst l.
    cbn [lookup]. rewrite String.eqb_refl. reflexivity.
  - assert (En : lookup String.eqb o l = None).
    { apply (lookup_none _ string_eqb_ok). intros C. apply in_map_iff in C. destruct C as [p [Ep Hp]].
      apply mapM_ok in Hl. destruct (F2_In_r _ _ _ _ Hl Hp) as [s' [_ E]]. apply Hg in E. congruence. }
    rewrite En. apply IH. destruct Ho as [->|Ho]; [congruence|exact Ho].
Qed.

Lemma combine_sorted ss s' : (forall s, In s ss -> good s) -> (forall s, In s ss -> exists b, s_binning s = Some b) -> ss <> [] ->
  combine_spaces ss = Ok s' -> exists b, combine_binning (all_of ss) ss = Ok b /\ exists c, c_obs c = Some (all_of ss) /\ sort_binning c (Some b) = Ok (s_binning s').
Proof.
  intros Hg Hb Hne H. unfold combine_spaces in H. rewrite (common_obs_good _ Hg) in H. fold (all_of ss) in H. cbv zeta in H.
  assert (Eb : forallb is_binned ss = true) by (apply forallb_forall; intros s Hs; unfold is_binned; destruct (Hb s Hs) as [b ->]; reflexivity).
  rewrite Eb in H. cbn [orb negb] in H. apply bind_ok in H. destruct H as [ob [Ho H]]. apply bind_ok in Ho. destruct Ho as [b [Ec Ho]].
  injection Ho as <-. exists b. split; [exact Ec|].
  destruct (combine_reorder ss (all_of ss) Hg (all_of_nodup ss)) as [ss' [E [R G]]]; [intros o s Hs Ho; apply all_of_In; eauto|].
  rewrite E in H. cbn [bind] in H.
  assert (Hne' : ss' <> []) by (destruct ss as [|s0 r]; [congruence|inversion R; discriminate]).
  destruct (all_false_good ss' G Hne') as [E1 [E2 E3]]. rewrite E1, E2, E3 in H. cbn [negb] in H.
  apply bind_ok in H. destruct H as [[[d U] N] [_ H]]. apply bind_ok in H. destruct H as [c [Hc H]].
  apply make_coords_fields in Hc as Hc'. destruct Hc' as [Hc1 _]. exists c. split; [exact Hc1|].
  unfold space_of_dict in H. apply bind_ok in H. destruct H as [[no na] [_ H]]. apply bind_ok in H. destruct H as [b' [Hb' H]].
  injection H as <-. exact Hb'.
Qed.

Lemma combined_edges ss s' o e : Forall rect_space ss -> (forall s, In s ss -> exists b, s_binning s = Some b) ->
  combine_spaces ss = Ok s' ->
  (edges_of s' o e <-> exists l1 s l2, ss = l1 ++ s :: l2 /\ edges_of s o e /\ forall t, In t l1 -> ~ own t o).
Proof.
  intros R Hb H. pose proof (rect_all_good _ R) as Hg.
  assert (Hne : ss <> []).
  { intros ->. pose proof (combine_full [] s' (fun s (C : In s []) => match C with end) H) as [[_ [_ [Hne _]]] _]. apply Hne. reflexivity. }
  destruct (combine_sorted ss s' Hg Hb Hne H) as [b [Ec [c [Hc Hs]]]].
  destruct (sort_binning_names _ _ _ _ Hc Hs) as [l [El Hl]].
  (* the edges of the result are looked up in the collected list *)
  assert (L1 : In (o, e) l <-> In o (all_of ss) /\ lookup String.eqb o b = Some e).
  { unfold sort_binning in Hs. rewrite Hc in Hs. destruct (negb _) in Hs; [discriminate|]. destruct (negb _) in Hs; [discriminate|].
    apply bind_ok in Hs. destruct Hs as [l' [Hm Hs]]. rewrite El in Hs. injection Hs as ->. apply mapM_ok in Hm. split.
    - intros Hin. destruct (F2_In_r _ _ _ _ Hm Hin) as [o' [Ho' E]]. destruct (lookup String.eqb o' b) eqn:Eo; simpl in E; [|discriminate].
      inversion E; subst. auto.
    - intros [Ho E]. destruct (F2_In_l _ _ _ _ Hm Ho) as [p [Hp Ep]]. rewrite E in Ep. simpl in Ep. inversion Ep; subst. exact Hp. }
  assert (Hown : forall s, In s ss -> (own s o <-> In o (obs_list s))).
  { intros s Hs'. destruct (Hg s Hs') as [[Ho _] _]. unfold own. rewrite Ho. split; [intros [os [E Hin]]; inversion E; subst; exact Hin|eauto]. }
  assert (Hed : forall s, In s ss -> edges_of s o e -> own s o).
  { intros s Hs' [bs [Eb Hin]]. apply Hown; [exact Hs'|]. destruct (Hg s Hs') as [_ [_ Hbo]]. unfold binning_ok in Hbo. rewrite Eb in Hbo.
    rewrite <- Hbo. apply in_map_iff. exists (o, e). auto. }
  (* the first space with the observable *)
  assert (Hfirst : forall (l : list space), (exists s, In s l /\ has_coord o s = true) -> exists l1 s l2, l = l1 ++ s :: l2 /\ has_coord o s = true /\ forall t, In t l1 -> has_coord o t = false).
  { clear. induction l as [|x l IH]; intros [s [Hs E]]; [destruct Hs|]. destruct (has_coord o x) eqn:Ex.
    - exists [], x, l. split; [reflexivity|]. split; [exact Ex|]. intros t [].
    - destruct IH as [l1 [s' [l2 [-> [E' Hn]]]]].
      + destruct Hs as [<-|Hs]; [congruence|eauto].
      + exists (x :: l1), s', l2. split; [reflexivity|]. split; [exact E'|]. intros t [<-|Ht]; [exact Ex|apply Hn, Ht]. }
  assert (Hlook : In o (all_of ss) -> exists l1 s l2 e0, ss = l1 ++ s :: l2 /\ edges_of s o e0 /\ (forall t, In t l1 -> ~ own t o) /\ lookup String.eqb o b = Some e0).
  { intros Ho. apply all_of_In in Ho. destruct Ho as [s0 [Hs0 Ho0]].
    destruct (Hfirst ss) as [l1 [s [l2 [E [Hso Hn]]]]]; [exists s0; split; [exact Hs0|apply has_coord_In, Ho0]|].
    assert (Hsin : In s ss) by (rewrite E; apply in_elt).
    destruct (Hb s Hsin) as [bs Ebs]. pose proof (Hg s Hsin) as [[_ [Hnd _]] [_ Hbo]]. unfold binning_ok in Hbo. rewrite Ebs in Hbo.
    apply has_coord_In in Hso as Hso'. rewrite <- Hbo in Hso'. destruct (lookup_some_key _ string_eqb_ok _ _ Hso') as [e0 Ee0].
    exists l1, s, l2, e0. split; [exact E|]. split; [exists bs; split; [exact Ebs|apply (lookup_in _ string_eqb_ok), Ee0]|]. split.
    - intros t Ht C. apply Hown in C; [|rewrite E; apply in_or_app; left; exact Ht]. apply has_coord_In in C. rewrite (Hn t Ht) in C. discriminate.
    - unfold combine_binning in Ec. apply bind_ok in Ec. destruct Ec as [bl [Hbl Ec]]. cbv zeta in Ec. injection Ec as <-.
      rewrite dedupe_lookup; [|intros p q Hpq; apply andb_true_iff in Hpq; destruct Hpq as [Hpq _]; apply String.eqb_eq, Hpq].
      cbn [lookup]. eapply concat_lookup; [|exact Hbl| | |].
      + intros o' t' p Hp. cbn beta in Hp. destruct (s_binning t') as [b'|]; [|discriminate]. destruct (lookup String.eqb o' b'); [|discriminate].
        simpl in Hp. inversion Hp; reflexivity.
      + apply all_of_In. eauto.
      + rewrite E, filter_app. rewrite (filter_none (has_coord o) l1) by exact Hn. cbn [app filter]. rewrite Hso. reflexivity.
      + cbn beta. rewrite Ebs, Ee0. reflexivity. }
  split.
  - intros [b' [Eb' Hin]]. rewrite El in Eb'. injection Eb' as <-. apply L1 in Hin. destruct Hin as [Ho Elook].
    destruct (Hlook Ho) as [l1 [s [l2 [e0 [E [He [Hn Ee]]]]]]]. assert (e0 = e) by congruence. subst e0. exists l1, s, l2. auto.
  - intros [l1 [s [l2 [E [He Hn]]]]]. exists l. split; [exact El|]. apply L1.
    assert (Hsin : In s ss) by (rewrite E; apply in_elt).
    assert (Ho : In o (all_of ss)) by (apply all_of_In; exists s; split; [exact Hsin|apply Hown; [exact Hsin|apply Hed; assumption]]).
    split; [exact Ho|]. destruct (Hlook Ho) as [l1' [t' [l2' [e0 [E' [He' [Hn' Ee]]]]]]]. rewrite Ee. f_equal.
    assert (Hed' : forall s, In s ss -> edges_of s o e0 -> own s o).
    { intros t Ht [bs [Eb Hin]]. apply Hown; [exact Ht|]. destruct (Hg t Ht) as [_ [_ Hbo]]. unfold binning_ok in Hbo. rewrite Eb in Hbo.
      rewrite <- Hbo. apply in_map_iff. exists (o, e0). auto. }
    assert (Es : s = t').
    { assert (Ht'in : In t' ss) by (rewrite E'; apply in_elt).
      assert (O1 : own s o) by (apply Hed; assumption). assert (O2 : own t' o) by (apply Hed'; assumption).
      clear - E E' Hn Hn' O1 O2. rewrite E in E'. clear E. revert l1' E' Hn'. induction l1 as [|x l1 IH]; intros [|y l1'] E' Hn'; simpl in E'; inversion E'; subst.
      - reflexivity.
      - exfalso. apply (Hn' y); [left; reflexivity|exact O1].
      - exfalso. apply (Hn t'); [left; reflexivity|exact O2].
      - eapply IH; [intros t Ht; apply Hn; right; exact Ht|eassumption|intros t Ht; apply Hn'; right; exact Ht]. }
    subst t'. destruct He as [b1 [Eb1 I1]]. destruct He' as [b2 [Eb2 I2]]. assert (b1 = b2) by congruence. subst b2.
    destruct (Hg s Hsin) as [[_ [Hnd _]] [_ Hbo]]. unfold binning_ok in Hbo. rewrite Eb1 in Hbo. rewrite <- Hbo in Hnd.
    apply (lookup_nodup _ string_eqb_ok _ _ _ Hnd) in I1. apply (lookup_nodup _ string_eqb_ok _ _ _ Hnd) in I2. congruence.
Qed.
