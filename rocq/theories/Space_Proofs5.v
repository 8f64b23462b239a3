(** Proofs for spaces, part 5: several limits, ordering, overlaps, grouping. *)
From Coq Require Import Permutation Lqa Sorted.
From Verif Require Import Base BaseLemmas Coord_Model Coord_Spec Coord_Proofs Space_Model Space_Spec
  Space_Proofs Space_Proofs2 Space_Proofs3 Space_Proofs4.

(* ---------- MultiSpace ---------- *)
Definition multi_ok (os0 : list string) (s s' : space) : Prop := wf_full s' os0 (lim_at s).

Lemma flatten_simple ss : concat (map flatten1 (map ZSimple ss)) = ss.
Proof. induction ss as [|s ss IH]; [reflexivity|]. simpl. rewrite IH. reflexivity. Qed.

Lemma mapM_forall2 {A B} (g : A -> result B) (P : A -> B -> Prop) l :
  (forall a, In a l -> exists b, g a = Ok b /\ P a b) -> exists r, mapM g l = Ok r /\ Forall2 P l r.
Proof.
  induction l as [|a l IH]; intros H; [exists []; split; [reflexivity|constructor]|].
  destruct (H a (or_introl eq_refl)) as [b [Eb Pb]]. destruct IH as [r [Er Pr]]; [intros x Hx; apply H; right; exact Hx|].
  exists (b :: r). simpl. rewrite Eb. simpl. rewrite Er. split; [reflexivity|constructor; assumption].
Qed.
Lemma Forall2_compose {A B C} (P : A -> B -> Prop) (R : B -> C -> Prop) (S : A -> C -> Prop) la lb lc :
  (forall a b c, P a b -> R b c -> S a c) -> Forall2 P la lb -> Forall2 R lb lc -> Forall2 S la lc.
Proof.
  intros H F1. revert lc. induction F1; intros lc F2; inversion F2; subst; constructor; eauto.
Qed.
Lemma Forall2_right {A B} (P : B -> Prop) (R : A -> B -> Prop) la lb :
  (forall a b, R a b -> P b) -> Forall2 R la lb -> forall b, In b lb -> P b.
Proof. intros H F. induction F as [|a b la lb Hab F IH]; intros c Hc; [destruct Hc|]. destruct Hc as [<-|Hc]; [eapply H, Hab|apply IH, Hc]. Qed.

Lemma add_spaces_ok s0 r os0 :
  (forall s, In s (s0 :: r) -> good s /\ s_binning s = None /\ forall o, In o (obs_list s) <-> In o os0) ->
  s_obs s0 = Some os0 ->
  exists spaces, Forall2 (multi_ok os0) (s0 :: r) spaces /\
    exists z, add_spaces (map ZSimple (s0 :: r)) = Ok z /\
      ((exists s, spaces = [s] /\ z = ZSimple s)
       \/ exists c, c_obs c = Some os0 /\ z = ZMulti (mkMulti c spaces)).
Proof.
  intros H Ho0. assert (G0 := H s0 (or_introl eq_refl)). destruct G0 as [G0 _].
  assert (Eos : obs_list s0 = os0) by (unfold obs_list; rewrite Ho0; reflexivity).
  pose proof G0 as [[_ [Hnd0 [Hne0 _]]] [Hax0 _]]. rewrite Eos in Hnd0, Hne0, Hax0.
  unfold add_spaces, make_multi. rewrite flatten_simple. cbv zeta.
  assert (Eb : forallb (fun s => binning_eqb (s_binning s) (s_binning s0)) (s0 :: r) = true).
  { apply forallb_forall. intros s Hs. destruct (H s Hs) as [_ [-> _]]. destruct (H s0 (or_introl eq_refl)) as [_ [-> _]]. reflexivity. }
  rewrite Eb. cbn [negb].
  assert (Eo : forallb (fun s => match s_obs s with Some _ => true | None => false end) (s0 :: r) = true).
  { apply forallb_forall. intros s Hs. destruct (H s Hs) as [[[E _] _] _]. rewrite E. reflexivity. }
  rewrite Eo. rewrite Ho0.
  set (all_axes := forallb (fun s => match s_axes s with Some _ => true | None => false end) (s0 :: r)).
  assert (M1 : exists sp, mapM (fun s => s_with_obs s (Some os0) false false) (s0 :: r) = Ok sp /\ Forall2 (multi_ok os0) (s0 :: r) sp).
  { apply mapM_forall2. intros s Hs. destruct (H s Hs) as [Gs [_ Hos]].
    assert (Hok : req_ok (obs_list s) os0 false false).
    { split; [|split; intros _ o Hin; apply Hos; exact Hin]. destruct os0 as [|o os]; [congruence|].
      exists o. split; [left; reflexivity|]. apply Hos. left. reflexivity. }
    destruct (s_with_obs_total _ _ _ os0 false false Gs Hnd0 Hok) as [s' [Es [Ws _]]]. exists s'. split; [exact Es|].
    unfold multi_ok. rewrite sel_same in Ws by (intros o Hin; apply Hos, Hin). exact Ws. }
  destruct M1 as [sp [Esp Fsp]]. rewrite Esp. cbn [bind].
  assert (M2 : exists sp', (if all_axes && forallb (fun s => opt_axes_eqb (s_axes s) (if all_axes then s_axes s0 else None)) sp
                then Ok (sp, Some os0)
                else let* sp := mapM (fun s => s_with_axes s None true true) sp in Ok (sp, Some os0)) = Ok (sp', Some os0)
            /\ Forall2 (multi_ok os0) (s0 :: r) sp').
  { destruct (all_axes && _); [exists sp; auto|].
    destruct (mapM_forall2 (fun s => s_with_axes s None true true)
               (fun s s' => forall g, wf_full s os0 g -> wf_full s' os0 g) sp) as [sp' [E F]].
    { intros s Hs. assert (X : exists g, wf_full s os0 g).
      { revert Hs. apply (Forall2_right (fun s => exists g, wf_full s os0 g) _ _ _ (fun a b (Hab : multi_ok os0 a b) => ex_intro (fun g => wf_full b os0 g) (lim_at a) Hab) Fsp). }
      destruct X as [g Wg]. destruct (s_drop_axes_total _ _ _ Wg) as [s' [Es _]]. exists s'. split; [exact Es|].
      intros g' Wg'. destruct (s_drop_axes_total _ _ _ Wg') as [s'' [Es' [Ws' _]]]. congruence. }
    exists sp'. rewrite E. split; [reflexivity|]. eapply Forall2_compose; [|exact Fsp|exact F].
    intros a b c Hab Hbc. apply Hbc, Hab. }
  destruct M2 as [sp' [E2 F2]].
  exists sp'. split; [exact F2|].
  cbn iota. rewrite E2. cbn [bind].
  assert (Hlim : forallb s_has_limits sp' = true).
  { apply forallb_forall. apply (Forall2_right (fun s => s_has_limits s = true) _ _ _
      (fun a b (Hab : multi_ok os0 a b) => wf_has_limits _ _ _ (wf_full_rect _ _ _ Hab)) F2). }
  rewrite Hlim. cbn [bind].
  destruct sp' as [|t [|t' sp'']]; [inversion F2|eexists; split; [reflexivity|left; exists t; auto]|].
  assert (Hc : make_coords (Some os0) (if all_axes then s_axes s0 else None) = Ok (mkCoords (Some os0) (if all_axes then s_axes s0 else None))).
  { apply make_coords_total; [exact Hne0|]. intros l El. destruct all_axes; [|discriminate].
    unfold axes_ok in Hax0. rewrite El in Hax0. apply Hax0. }
  rewrite Hc. cbn [bind]. eexists. split; [reflexivity|]. right. eexists. split; [|reflexivity]. reflexivity.
Qed.

Lemma multi_any os0 ss spaces x : Forall2 (multi_ok os0) ss spaces -> length x = length os0 ->
  exists bs, mapM (fun s => s_inside s x false) spaces = Ok bs
    /\ (existsb (fun b => b) bs = true <-> exists s, In s ss /\ forall o v, column os0 x o v -> between (lim_at s o) v).
Proof.
  intros F Hl. induction F as [|s s' ss spaces W F [bs [E IH]]]; [exists []; split; [reflexivity|]; split; [discriminate|intros [? [[] _]]]|].
  destruct (wf_inside _ _ _ x (wf_full_rect _ _ _ W) Hl) as [b [Eb Hb]].
  exists (b :: bs). cbn [mapM]. rewrite Eb. cbn [bind]. rewrite E. split; [reflexivity|]. simpl. rewrite orb_true_iff, Hb, IH. split.
  - intros [G|[t [Ht G]]]; [exists s; auto|exists t; auto].
  - intros [t [[<-|Ht] G]]; [left; exact G|right; exists t; auto].
Qed.
Lemma multi_sum os0 ss spaces : Forall2 (multi_ok os0) ss spaces ->
  mapM s_volume spaces = Ok (map (fun s => rect_area (map (lim_at s) os0)) ss).
Proof.
  induction 1 as [|s s' ss spaces W F IH]; [reflexivity|]. cbn [mapM]. rewrite (wf_volume _ _ _ (wf_full_rect _ _ _ W)). cbn [bind].
  rewrite IH. reflexivity.
Qed.

Lemma same_sets s0 r os0 : Forall rect_space (s0 :: r) -> s_obs s0 = Some os0 ->
  (forall s, In s (s0 :: r) -> s_binning s = None) ->
  (forall s os, In s (s0 :: r) -> s_obs s = Some os -> forall o, In o os <-> In o os0) ->
  forall s, In s (s0 :: r) -> good s /\ s_binning s = None /\ forall o, In o (obs_list s) <-> In o os0.
Proof.
  intros R Ho0 Hb Hs s Hin. pose proof (rect_all_good _ R s Hin) as G. split; [exact G|]. split; [apply Hb, Hin|].
  destruct G as [[E _] _]. apply (Hs s _ Hin E).
Qed.

Lemma C07_inside s0 r os0 : Forall rect_space (s0 :: r) -> s_obs s0 = Some os0 ->
  (forall s, In s (s0 :: r) -> s_binning s = None) ->
  (forall s os, In s (s0 :: r) -> s_obs s = Some os -> forall o, In o os <-> In o os0) ->
  exists z, add_spaces (map ZSimple (s0 :: r)) = Ok z /\ z_obs z = Some os0 /\
    (forall x, length x = length os0 -> exists b, z_inside z x false = Ok b /\
      (b = true <-> exists s, In s (s0 :: r) /\ in_box os0 x (limit_of s))) /\
    (exists v vs, z_volume z = Ok v /\ Forall2 (fun s a => exists a', s_volume s = Ok a' /\ (a == a')%Q) (s0 :: r) vs
       /\ (v == fold_right Qplus 0 vs)%Q).
Proof.
  intros R Ho0 Hb Hs. pose proof (same_sets _ _ _ R Ho0 Hb Hs) as G.
  destruct (add_spaces_ok s0 r os0 G Ho0) as [spaces [F [z [Ez Hz]]]]. exists z. split; [exact Ez|].
  assert (Hbox : forall s x, In s (s0 :: r) -> (in_box os0 x (limit_of s) <-> forall o v, column os0 x o v -> between (lim_at s o) v)).
  { intros s x Hin. destruct (G s Hin) as [Gs [_ Hos]]. split.
    - intros Hbx o v Hc. apply (Hbx o v); [exact Hc|]. apply (wf_limit_of _ _ _ _ _ (wf_full_rect _ _ _ Gs)). split; [|reflexivity].
      apply Hos. destruct Hc as [k [Hk _]]. eapply nth_error_In, Hk.
    - intros Hbx o v iv Hc Hl. apply (wf_limit_of _ _ _ _ _ (wf_full_rect _ _ _ Gs)) in Hl. destruct Hl as [_ ->]. apply Hbx, Hc. }
  assert (Hvol : exists vs, mapM s_volume spaces = Ok vs /\
            Forall2 (fun s a => exists a', s_volume s = Ok a' /\ (a == a')%Q) (s0 :: r) vs).
  { rewrite (multi_sum _ _ _ F). eexists. split; [reflexivity|].
    assert (Hnd0 : NoDup os0). { destruct (G s0 (or_introl eq_refl)) as [[[E [Hn _]] _] _]. unfold obs_list in Hn. rewrite Ho0 in Hn. exact Hn. }
    clear - G Hnd0. induction (s0 :: r) as [|s l IH]; [constructor|]. simpl. constructor.
    - destruct (G s (or_introl eq_refl)) as [Gs [_ Hos]]. eexists. split; [apply wf_volume, Gs|].
      apply area_perm, NoDup_Permutation; [exact Hnd0|apply good_nodup, Gs|intros o; symmetry; apply Hos].
    - apply IH. intros t Ht. apply G. right. exact Ht. }
  destruct Hvol as [vs [Evs Fvs]].
  destruct Hz as [[s [-> ->]]|[c [Hc ->]]].
  - inversion F as [|? ? ? ? W F']; subst. inversion F'; subst. split; [apply W|]. split.
    + intros x Hl. simpl. destruct (wf_inside _ _ _ x (wf_full_rect _ _ _ W) Hl) as [b [Eb Hb']]. exists b. split; [exact Eb|].
      rewrite Hb'. split.
      * intros A. exists s0. split; [left; reflexivity|]. apply Hbox; [left; reflexivity|exact A].
      * intros [t [[<-|[]] A]]. apply Hbox; [left; reflexivity|exact A].
    + simpl. cbn [mapM] in Evs. apply bind_ok in Evs. destruct Evs as [v [Ev Evs]]. inversion Evs; subst.
      exists v, [v]. split; [exact Ev|]. split; [exact Fvs|]. simpl. ring.
  - split; [exact Hc|]. split.
    + intros x Hl. unfold z_inside, sanitize_x, n_obs. cbn [m_coords m_spaces]. rewrite Hc, Hl, Nat.eqb_refl. cbn [bind].
      rewrite andb_false_r. destruct (multi_any _ _ _ x F Hl) as [bs [Ebs Hbs]]. rewrite Ebs. cbn [bind].
      eexists. split; [reflexivity|]. rewrite Hbs. split; intros [s [Hin A]]; exists s; (split; [exact Hin|]); apply Hbox; assumption.
    + unfold z_volume. cbn [m_spaces]. rewrite Evs. cbn [bind]. eexists. exists vs. split; [reflexivity|]. split; [exact Fvs|reflexivity].
Qed.

(** Order independence: the same limits listed in another order. *)
Lemma C07_order os l l' : Forall rect_space l -> Permutation l l' ->
  (forall s, In s l -> s_binning s = None /\ s_obs s = Some os) -> l <> [] ->
  exists z z', add_spaces (map ZSimple l) = Ok z /\ add_spaces (map ZSimple l') = Ok z' /\
    (forall x, length x = length os -> z_inside z x false = z_inside z' x false).
Proof.
  intros R P H Hne. assert (R' : Forall rect_space l') by (rewrite Forall_forall in *; intros s Hs; apply R; eapply Permutation_in; [symmetry; exact P|exact Hs]).
  assert (H' : forall s, In s l' -> s_binning s = None /\ s_obs s = Some os) by (intros s Hs; apply H; eapply Permutation_in; [symmetry; exact P|exact Hs]).
  destruct l as [|s0 r]; [congruence|]. destruct l' as [|s0' r']; [symmetry in P; apply Permutation_nil in P; discriminate|].
  destruct (C07_inside s0 r os R) as [z [Ez [_ [Iz _]]]]; [apply H; left; reflexivity|intros s Hs; apply H, Hs|
     intros s o2 Hs E o; destruct (H s Hs) as [_ E']; rewrite E' in E; inversion E; tauto|].
  destruct (C07_inside s0' r' os R') as [z' [Ez' [_ [Iz' _]]]]; [apply H'; left; reflexivity|intros s Hs; apply H', Hs|
     intros s o2 Hs E o; destruct (H' s Hs) as [_ E']; rewrite E' in E; inversion E; tauto|].
  exists z, z'. split; [exact Ez|]. split; [exact Ez'|]. intros x Hl.
  destruct (Iz x Hl) as [b [-> Hb]]. destruct (Iz' x Hl) as [b' [-> Hb']]. f_equal. apply bool_eq_iff. rewrite Hb, Hb'.
  split; intros [s [Hs A]]; exists s; (split; [|exact A]); (eapply Permutation_in; [|exact Hs]); [exact P|symmetry; exact P].
Qed.

(* ---------- <= ---------- *)
Lemma pop_match_wf d os f o : dict_wf d os f -> In o os ->
  exists d', pop_match String.eqb [o] d = Some (LRect [f o], d')
    /\ (forall k l, In (k, l) d' <-> In (k, l) d /\ k <> [o]) /\ NoDup (map fst d').
Proof.
  intros [H1 [H2 H3]] Ho. specialize (H2 o Ho). clear Ho. induction d as [|[k l] d IH]; [destruct H2|].
  simpl. destruct (H1 k l (or_introl eq_refl)) as [ok [-> [_ ->]]].
  inversion H3 as [|? ? Hn H3']; subst.
  destruct (set_eqb String.eqb [ok] [o]) eqn:E.
  - pose proof (proj1 (set_eqb_iff _ string_eqb_ok [ok] [o]) E) as E0; clear E; rename E0 into E. assert (X : ok = o) by (destruct (proj1 (E ok) (or_introl eq_refl)) as [C|[]]; congruence). subst ok.
    exists d. split; [reflexivity|]. split; [|exact H3']. intros k l. split.
    + intros Hin. split; [right; exact Hin|]. intros ->. apply Hn. simpl. change [o] with (fst ([o], l)). apply in_map, Hin.
    + intros [[Hin|Hin] Hk]; [inversion Hin; congruence|exact Hin].
  - assert (X : ok <> o). { intros ->. assert (Y : set_eqb String.eqb [o] [o] = true) by (apply (set_eqb_iff _ string_eqb_ok); tauto). congruence. }
    destruct H2 as [H2|H2]; [inversion H2; congruence|].
    destruct IH as [d' [E1 [E2 E3]]]; [intros k l Hin; apply H1; right; exact Hin|exact H2|exact H3'|].
    rewrite E1. eexists. split; [reflexivity|]. split.
    + intros k l. simpl. rewrite E2. split.
      * intros [C|[C D]]; [inversion C; subst; split; [left; reflexivity|congruence]|split; [right; exact C|exact D]].
      * intros [[C|C] D]; [left; exact C|right; auto].
    + simpl. constructor; [|exact E3]. intros C. apply in_map_iff in C. destruct C as [[k1 l1] [C1 C2]]. simpl in C1. subst k1.
      apply E2 in C2. apply Hn. simpl. change [ok] with (fst ([ok], l1)). apply in_map, C2.
Qed.

Lemma compare_dict_le d1 : forall d2 os1 os2 f1 f2, dict_wf d1 os1 f1 -> dict_wf d2 os2 f2 -> incl os1 os2 ->
  exists b, compare_limits_dict String.eqb lim_less_equal d1 d2 = Ok b /\
    (b = true <-> forall o, In o os1 -> (fst (f1 o) <= fst (f2 o) /\ snd (f1 o) <= snd (f2 o))%Q).
Proof.
  induction d1 as [|[k l] d1 IH]; intros d2 os1 os2 f1 f2 W1 W2 Hi.
  - exists true. split; [reflexivity|]. split; [|reflexivity]. intros _ o Ho. destruct W1 as [_ [H _]]. destruct (H o Ho).
  - pose proof W1 as [A1 [A2 A3]]. destruct (A1 k l (or_introl eq_refl)) as [o [-> [Ho ->]]].
    destruct (pop_match_wf d2 os2 f2 o W2 (Hi o Ho)) as [d2' [E [P1 P2]]]. simpl. rewrite E.
    inversion A3 as [|? ? Hn A3']; subst.
    set (rem := filter (fun x => negb (String.eqb x o))).
    assert (Hrem : forall l x, In x (rem l) <-> In x l /\ x <> o).
    { intros l x. unfold rem. rewrite filter_In, negb_true_iff, (eqb_false _ string_eqb_ok). tauto. }
    destruct (IH d2' (rem os1) (rem os2) f1 f2) as [b [Eb Hb]].
    + split; [|split; [|exact A3']].
      * intros k l Hin. destruct (A1 k l (or_intror Hin)) as [o' [-> [Ho' ->]]]. exists o'. split; [reflexivity|]. split; [|reflexivity].
        apply Hrem. split; [exact Ho'|]. intros ->. apply Hn. simpl. change [o] with (fst ([o], LRect [f1 o])). apply in_map, Hin.
      * intros o' Ho'. apply Hrem in Ho'. destruct Ho' as [Ho' Hne]. destruct (A2 o' Ho') as [C|C]; [inversion C; congruence|exact C].
    + destruct W2 as [B1 [B2 B3]]. split; [|split; [|exact P2]].
      * intros k l Hin. apply P1 in Hin. destruct Hin as [Hin Hne]. destruct (B1 k l Hin) as [o' [-> [Ho' ->]]]. exists o'. split; [reflexivity|]. split; [|reflexivity].
        apply Hrem. split; [exact Ho'|]. congruence.
      * intros o' Ho'. apply Hrem in Ho'. apply P1. split; [apply B2, Ho'|]. intros C. inversion C. apply (proj2 Ho'). assumption.
    + intros x Hx. apply Hrem in Hx. apply Hrem. split; [apply Hi, Hx|apply Hx].
    + rewrite Eb. unfold lim_less_equal, lim_rect_limits, all2, fid_eqb. simpl. eexists. split; [reflexivity|].
      rewrite !andb_true_iff, !Qle_bool_iff, Hb. split.
      * intros [[[[L1 _] [L2 _]] _] G] o' Ho'.
        destruct (String.eqb o' o) eqn:Eo; [apply String.eqb_eq in Eo; subst; auto|].
        apply G, Hrem. split; [exact Ho'|]. apply (eqb_false _ string_eqb_ok), Eo.
      * intros G. destruct (G o Ho) as [L1 L2]. split; [auto|]. intros o' Ho'. apply Hrem in Ho'. apply G, Ho'.
Qed.

Lemma C09_le s1 s2 os1 os2 : rect_space s1 -> rect_space s2 -> s_obs s1 = Some os1 -> s_obs s2 = Some os2 ->
  s_axes s1 = None -> s_axes s2 = None -> s_binning s1 = None -> s_binning s2 = None ->
  exists b, s_le s1 s2 = Ok b /\
    (b = true <-> (forall o, In o os1 <-> In o os2) /\
       forall o l1 u1 l2 u2, limit_of s1 o (l1, u1) -> limit_of s2 o (l2, u2) -> (l1 <= l2 /\ u1 <= u2)%Q).
Proof.
  intros R1 R2 H1 H2 X1 X2 B1 B2. destruct (rect_space_full s1 R1) as [o1 [f1 W1]]. destruct (rect_space_full s2 R2) as [o2 [f2 W2]].
  pose proof (full_obs _ _ _ _ W1 H1) as EE1; pose proof (full_obs _ _ _ _ W2 H2) as EE2; subst.
  pose proof (wf_full_rect _ _ _ W1) as V1. pose proof (wf_full_rect _ _ _ W2) as V2.
  assert (Hiff : (forall o, In o o1 <-> In o o2) ->
     ((forall o, In o o1 -> (fst (f1 o) <= fst (f2 o) /\ snd (f1 o) <= snd (f2 o))%Q) <->
      (forall o l1 u1 l2 u2, limit_of s1 o (l1, u1) -> limit_of s2 o (l2, u2) -> (l1 <= l2 /\ u1 <= u2)%Q))).
  { intros Hs. split.
    - intros G o l1 u1 l2 u2 L1 L2. apply (wf_limit_of _ _ _ _ _ V1) in L1. apply (wf_limit_of _ _ _ _ _ V2) in L2.
      destruct L1 as [L1 E1], L2 as [L2 E2]. specialize (G o L1). rewrite <- E1, <- E2 in G. exact G.
    - intros G o Ho. apply (G o); [apply (wf_limit_of _ _ _ _ _ V1)|apply (wf_limit_of _ _ _ _ _ V2)].
      + split; [exact Ho|]. destruct (f1 o); reflexivity. + split; [apply Hs, Ho|]. destruct (f2 o); reflexivity. }
  unfold s_le, compare_spaces. rewrite H1, H2.
  destruct (set_eqb String.eqb o1 o2) eqn:Es.
  - pose proof (proj1 (set_eqb_iff _ string_eqb_ok o1 o2) Es) as Es0; clear Es; rename Es0 into Es. cbn [negb]. rewrite B1, B2. cbn [binning_eqb negb].
    rewrite (wf_set _ _ _ V1), (wf_not_false _ _ _ V1), (wf_has_limits _ _ _ V1), (wf_has_limits _ _ _ V2). cbn [negb andb].
    unfold s_with_coords. rewrite H2. unfold s_obs in H1. rewrite H1.
    assert (Hok : req_ok o2 o1 true true).
    { split; [|split; discriminate]. destruct V1 as [_ [_ [Hne _]]]. destruct o1 as [|o o1]; [congruence|]. exists o.
      split; [left; reflexivity|apply Es; left; reflexivity]. }
    destruct (s_with_obs_total _ _ _ o1 true true W2) as [s' [E' [W' [A' _]]]]; [apply V1|exact Hok|]. rewrite E'. cbn [bind].
    unfold s_axes in X1. rewrite X1. cbn [bind]. rewrite sel_same in W' by (intros o Ho; apply Es, Ho).
    unfold compare_limits_coords_dict.
    destruct (dict_wf_of _ _ _ W1) as [d1 [Ed1 Wd1]]. destruct (dict_wf_of _ _ _ W') as [d2 [Ed2 Wd2]]. rewrite Ed1, Ed2.
    destruct (compare_dict_le d1 d2 o1 o1 f1 f2 Wd1 Wd2 (incl_refl _)) as [b [Eb Hb]]. rewrite Eb. cbn [bind].
    destruct W1 as [_ [Ha1 _]]. unfold axes_ok, s_axes in Ha1. rewrite X1 in Ha1. rewrite Ha1. cbn [bind]. rewrite andb_true_r.
    exists b. split; [reflexivity|]. rewrite Hb, (Hiff Es). tauto.
  - cbn [negb]. exists false. split; [reflexivity|]. split; [discriminate|]. intros [C _].
    apply (set_eqb_iff _ string_eqb_ok) in C. congruence.
Qed.

(* ---------- check_limits ---------- *)
Lemma Qlt_bool_iff a b : Qlt_bool a b = true <-> (a < b)%Q.
Proof.
  unfold Qlt_bool. rewrite negb_true_iff. split.
  - intros H. apply Qnot_le_lt. intros C. apply Qle_bool_iff in C. congruence.
  - intros H. destruct (Qle_bool b a) eqn:E; [|reflexivity]. apply Qle_bool_iff in E. exfalso. apply (Qlt_not_le _ _ H E).
Qed.
Lemma insert_lower_perm iv l : Permutation (iv :: l) (insert_lower iv l).
Proof.
  induction l as [|iv' l IH]; simpl; [reflexivity|]. destruct (Qlt_bool _ _); [reflexivity|].
  rewrite perm_swap. apply perm_skip, IH.
Qed.
Lemma sort_lower_perm l : Permutation l (sort_lower l).
Proof.
  unfold sort_lower. assert (G : forall l acc, Permutation (l ++ acc) (fold_left (fun acc iv => insert_lower iv acc) l acc)).
  { induction l0 as [|iv l0 IH]; intros acc; simpl; [reflexivity|]. rewrite <- IH.
    rewrite <- insert_lower_perm. apply Permutation_middle. }
  specialize (G l []). rewrite app_nil_r in G. exact G.
Qed.
Definition le_lower (a b : Q * Q) : Prop := (fst a <= fst b)%Q.
Lemma insert_lower_sorted iv l : StronglySorted le_lower l -> StronglySorted le_lower (insert_lower iv l).
Proof.
  induction l as [|iv' l IH]; intros H; simpl; [repeat constructor|]. inversion H as [|? ? H1 H2]; subst.
  destruct (Qlt_bool (fst iv) (fst iv')) eqn:E.
  - apply Qlt_bool_iff in E. constructor; [exact H|]. constructor; [unfold le_lower; lra|].
    rewrite Forall_forall in *. intros x Hx. specialize (H2 x Hx). unfold le_lower in *. lra.
  - constructor; [apply IH, H1|]. rewrite Forall_forall in *. intros x Hx.
    apply (Permutation_in _ (Permutation_sym (insert_lower_perm iv l))) in Hx. destruct Hx as [<-|Hx]; [|apply H2, Hx].
    unfold le_lower. apply Qnot_lt_le. intros C. apply Qlt_bool_iff in C. congruence.
Qed.
Lemma sort_lower_sorted l : StronglySorted le_lower (sort_lower l).
Proof.
  unfold sort_lower. assert (G : forall l acc, StronglySorted le_lower acc -> StronglySorted le_lower (fold_left (fun acc iv => insert_lower iv acc) l acc)).
  { induction l0 as [|iv l0 IH]; intros acc H; simpl; [exact H|]. apply IH, insert_lower_sorted, H. }
  apply G. constructor.
Qed.
(** Two elements of a list at different positions. *)
Lemma FOP_perm {A} (R : A -> A -> Prop) l l' : (forall a b, R a b -> R b a) -> Permutation l l' -> ForallOrdPairs R l -> ForallOrdPairs R l'.
Proof.
  intros Hs P. induction P; intros H.
  - constructor.
  - inversion H as [|? ? H1 H2]; subst. constructor; [|apply IHP, H2]. rewrite Forall_forall in *. intros y Hy. apply H1.
    eapply Permutation_in; [symmetry; exact P|exact Hy].
  - inversion H as [|? ? H1 H2]; subst. inversion H2 as [|? ? H3 H4]; subst. inversion H1 as [|? ? H5 H6]; subst.
    constructor; [constructor; [apply Hs; exact H5|exact H3]|]. constructor; assumption.
  - auto.
Qed.
Lemma check_pairs_sorted l : StronglySorted le_lower l -> (forall iv, In iv l -> (fst iv < snd iv)%Q) ->
  (check_overlap_pairs l = false <-> ForallOrdPairs (fun a b => ~ overlap a b) l).
Proof.
  induction l as [|iv l IH]; intros HS Hnd; simpl; [split; [constructor|reflexivity]|].
  inversion HS as [|? ? S1 S2]; subst. rewrite Forall_forall in S2.
  rewrite orb_false_iff, (IH S1) by (intros x Hx; apply Hnd; right; exact Hx). split.
  - intros [H1 H2]. constructor; [|exact H2]. rewrite Forall_forall. intros b Hb [_ C].
    assert (X : existsb (fun iv2 => Qlt_bool (fst iv2) (snd iv)) l = true).
    { apply existsb_exists. exists b. split; [exact Hb|]. apply Qlt_bool_iff. exact C. }
    congruence.
  - intros H. inversion H as [|? ? H1 H2]; subst. split; [|exact H2]. rewrite Forall_forall in H1.
    destruct (existsb _ l) eqn:E; [|reflexivity]. apply existsb_exists in E. destruct E as [b [Hb E]].
    apply Qlt_bool_iff in E. exfalso. apply (H1 b Hb). split; [|exact E].
    specialize (S2 b Hb). unfold le_lower in S2. specialize (Hnd b (or_intror Hb)). lra.
Qed.
Lemma C10_check l : (forall iv, In iv l -> (fst iv < snd iv)%Q) ->
  (ForallOrdPairs (fun a b => ~ overlap a b) l -> exists l', check_limits l = Ok l' /\ Permutation l l')
  /\ (~ ForallOrdPairs (fun a b => ~ overlap a b) l -> check_limits l = Err ValueError).
Proof.
  intros Hnd. unfold check_limits.
  assert (Hnd' : forall iv, In iv (sort_lower l) -> (fst iv < snd iv)%Q).
  { intros iv Hin. apply Hnd. eapply Permutation_in; [symmetry; apply sort_lower_perm|exact Hin]. }
  pose proof (check_pairs_sorted _ (sort_lower_sorted l) Hnd') as G.
  assert (Hsym : forall a b : Q * Q, ~ overlap a b -> ~ overlap b a) by (intros a b H [C D]; apply H; split; assumption).
  destruct (check_overlap_pairs (sort_lower l)).
  - split; [|reflexivity]. intros H. assert (X : true = false); [|discriminate]. apply G. eapply FOP_perm; [exact Hsym|apply sort_lower_perm|exact H].
  - split; [intros _; eexists; split; [reflexivity|apply sort_lower_perm]|]. intros H. exfalso. apply H.
    eapply FOP_perm; [exact Hsym|symmetry; apply sort_lower_perm|]. apply G. reflexivity.
Qed.
Lemma C10_order l l' : (forall iv, In iv l -> (fst iv < snd iv)%Q) -> Permutation l l' ->
  (exists r, check_limits l = Ok r) <-> (exists r, check_limits l' = Ok r).
Proof.
  intros H P. assert (H' : forall iv, In iv l' -> (fst iv < snd iv)%Q) by (intros iv Hin; apply H; eapply Permutation_in; [symmetry; exact P|exact Hin]).
  assert (Hsym : forall a b : Q * Q, ~ overlap a b -> ~ overlap b a) by (intros a b G [C D]; apply G; split; assumption).
  assert (G : forall k k', (forall iv, In iv k -> (fst iv < snd iv)%Q) -> (forall iv, In iv k' -> (fst iv < snd iv)%Q) -> Permutation k k' ->
     (exists r, check_limits k = Ok r) -> exists r, check_limits k' = Ok r).
  { intros k k' Hk Hk' Pk [r Er].
    assert (D : check_overlap_pairs (sort_lower k) = false).
    { unfold check_limits in Er. destruct (check_overlap_pairs (sort_lower k)); [discriminate|reflexivity]. }
    assert (X : ForallOrdPairs (fun a b => ~ overlap a b) k).
    { eapply FOP_perm; [exact Hsym|symmetry; apply sort_lower_perm|]. apply check_pairs_sorted; [apply sort_lower_sorted| |exact D].
      intros iv Hin. apply Hk. eapply Permutation_in; [symmetry; apply sort_lower_perm|exact Hin]. }
    destruct (proj1 (C10_check k' Hk') (FOP_perm _ _ _ Hsym Pk X)) as [l2 [E _]]. exists l2. exact E. }
  split; [apply (G l l' H H' P)|apply (G l' l H' H (Permutation_sym P))].
Qed.

(* ---------- obs_subsets ---------- *)
Lemma share_sym a b : share a b -> share b a.
Proof. intros [o [H1 H2]]. exists o. auto. Qed.
Lemma pop_first_some dim gs g rest : pop_first dim gs = Some (g, rest) ->
  share (fst g) dim /\ exists l1 l2, gs = l1 ++ g :: l2 /\ rest = l1 ++ l2.
Proof.
  revert rest. induction gs as [|g0 gs IH]; intros rest H; simpl in H; [discriminate|].
  destruct (intersectsb String.eqb (fst g0) dim) eqn:E.
  - inversion H; subst. split; [apply (intersectsb_iff _ string_eqb_ok), E|]. exists [], rest. auto.
  - destruct (pop_first dim gs) as [[g' r']|]; [|discriminate]. inversion H; subst.
    destruct (IH r' eq_refl) as [S [l1 [l2 [-> ->]]]]. split; [exact S|]. exists (g0 :: l1), l2. auto.
Qed.
Lemma pop_first_none dim gs : pop_first dim gs = None -> forall g, In g gs -> ~ share (fst g) dim.
Proof.
  induction gs as [|g0 gs IH]; intros H g Hg; simpl in H; [destruct Hg|].
  destruct (intersectsb String.eqb (fst g0) dim) eqn:E; [discriminate|].
  destruct (pop_first dim gs) as [[g' r']|] eqn:Ep; [discriminate|]. destruct Hg as [<-|Hg]; [|apply IH; auto].
  intros C. apply (intersectsb_iff _ string_eqb_ok) in C. congruence.
Qed.
Lemma set_group_fresh gs g o : In o (fst g) -> (forall g', In g' gs -> ~ share (fst g') (fst g)) -> set_group gs g = gs ++ [g].
Proof.
  intros Ho H. induction gs as [|g0 gs IH]; [reflexivity|]. simpl.
  destruct (set_eqb String.eqb (fst g0) (fst g)) eqn:E.
  - pose proof (proj1 (set_eqb_iff _ string_eqb_ok _ _) E) as E'. exfalso. apply (H g0 (or_introl eq_refl)). exists o. split; [apply E', Ho|exact Ho].
  - f_equal. apply IH. intros g' Hg'. apply H. right. exact Hg'.
Qed.
Lemma key_union_In a b o : In o (key_union a b) <-> In o a \/ In o b.
Proof.
  unfold key_union. rewrite in_app_iff, filter_In, negb_true_iff. split; [tauto|]. intros [H|H]; [auto|].
  destruct (mem String.eqb o a) eqn:E; [left; apply (mem_In _ string_eqb_ok), E|auto].
Qed.
Lemma FOP_app {A} (R : A -> A -> Prop) l1 l2 : ForallOrdPairs R (l1 ++ l2) <->
  ForallOrdPairs R l1 /\ ForallOrdPairs R l2 /\ forall a b, In a l1 -> In b l2 -> R a b.
Proof.
  induction l1 as [|x l1 IH]; simpl.
  - split; [intros H; repeat split; [constructor|exact H|intros a b []]|tauto].
  - split.
    + intros H. inversion H as [|? ? H1 H2]; subst. apply IH in H2. destruct H2 as [H2 [H3 H4]]. apply Forall_app in H1.
      destruct H1 as [H0 H1]. repeat split; [constructor; assumption|assumption|].
      intros a b [<-|Ha] Hb; [rewrite Forall_forall in H1; apply H1, Hb|apply H4; assumption].
    + intros [H1 [H2 H3]]. inversion H1 as [|? ? H4 H5]; subst. constructor.
      * apply Forall_app. split; [exact H4|]. apply Forall_forall. intros b Hb. apply H3; [left; reflexivity|exact Hb].
      * apply IH. split; [exact H5|]. split; [exact H2|]. intros a b Ha Hb. apply H3; [right; exact Ha|exact Hb].
Qed.

Section Subsets.
Variable dims : list (list string).
Hypothesis Hne : forall d, In d dims -> d <> [].
Hypothesis Htr : forall a b c, In a dims -> In b dims -> In c dims -> share a b -> share b c -> share a c.
Record sinv (P : list (list string)) (gs : list group) : Prop := {
  s_key : forall g, In g gs -> forall o, In o (fst g) <-> exists d, In d (snd g) /\ In o d;
  s_mem : forall g, In g gs -> snd g <> [] /\ forall a b, In a (snd g) -> In b (snd g) -> In a dims /\ share a b;
  s_dis : ForallOrdPairs (fun g g' => ~ share (fst g) (fst g')) gs;
  s_perm : Permutation (concat (map snd gs)) P }.

Lemma share_self d : In d dims -> share d d.
Proof. intros H. destruct d as [|o d]; [exfalso; apply (Hne [] H); reflexivity|]. exists o. split; left; reflexivity. Qed.

Lemma sinv_step P gs dim : sinv P gs -> In dim dims -> sinv (P ++ [dim]) (subsets_step gs dim).
Proof.
  intros I Hd. unfold subsets_step. destruct (pop_first dim gs) as [[g rest]|] eqn:E.
  - destruct (pop_first_some _ _ _ _ E) as [Sg [l1 [l2 [Eg ->]]]].
    assert (Hg : In g gs) by (rewrite Eg; apply in_or_app; right; left; reflexivity).
    assert (Hin : forall g', In g' (l1 ++ l2) -> In g' gs).
    { intros g' Hg'. rewrite Eg. apply in_app_or in Hg'. apply in_or_app. simpl. tauto. }
    pose proof (s_dis _ _ I) as D. rewrite Eg in D. apply FOP_app in D. destruct D as [D1 [D2 D3]].
    assert (D45 : Forall (fun g' => ~ share (fst g) (fst g')) l2 /\ ForallOrdPairs (fun g g' : group => ~ share (fst g) (fst g')) l2) by (inversion D2; auto). destruct D45 as [D4 D5]. rewrite Forall_forall in D4.
    assert (Hdis : forall g', In g' (l1 ++ l2) -> ~ share (fst g') (fst g)).
    { intros g' Hg'. apply in_app_or in Hg'. destruct Hg' as [Hg'|Hg'].
      - apply D3; [exact Hg'|left; reflexivity]. - intros C. apply (D4 g' Hg'), share_sym, C. }
    assert (Hmem : exists m, In m (snd g) /\ share m dim).
    { destruct Sg as [o [Ho1 Ho2]]. apply (s_key _ _ I g Hg) in Ho1. destruct Ho1 as [m [Hm Hmo]]. exists m. split; [exact Hm|]. exists o. auto. }
    destruct Hmem as [m [Hm Sm]]. destruct (s_mem _ _ I g Hg) as [Hgn Hgs].
    assert (Hmd : In m dims) by apply (Hgs m m Hm Hm).
    assert (Hdis2 : forall g', In g' (l1 ++ l2) -> ~ share (fst g') dim).
    { intros g' Hg' [o [Ho1 Ho2]]. apply (s_key _ _ I g' (Hin g' Hg')) in Ho1. destruct Ho1 as [m' [Hm' Hmo]].
      assert (Hmd' : In m' dims) by apply (proj2 (s_mem _ _ I g' (Hin g' Hg')) m' m' Hm' Hm').
      assert (S : share m' m). { apply (Htr m' dim m Hmd' Hd Hmd); [exists o; auto|apply share_sym, Sm]. }
      destruct S as [o' [S1 S2]]. apply (Hdis g' Hg'). exists o'. split.
      - apply (s_key _ _ I g' (Hin g' Hg')). exists m'. auto. - apply (s_key _ _ I g Hg). exists m. auto. }
    assert (Hfresh : forall g', In g' (l1 ++ l2) -> ~ share (fst g') (key_union (fst g) dim)).
    { intros g' Hg' [o [H1 H2]]. apply key_union_In in H2. destruct H2 as [H2|H2]; [apply (Hdis g' Hg')|apply (Hdis2 g' Hg')]; exists o; auto. }
    destruct Sg as [o0 [Ho1 Ho2]].
    rewrite (set_group_fresh (l1 ++ l2) (key_union (fst g) dim, snd g ++ [dim]) o0); [|apply key_union_In; auto|exact Hfresh].
    constructor.
    + intros g' Hg' o. apply in_app_or in Hg'. destruct Hg' as [Hg'|[<-|[]]]; [apply (s_key _ _ I g' (Hin g' Hg'))|]. simpl.
      rewrite key_union_In, (s_key _ _ I g Hg). split.
      * intros [[d [H1 H2]]|H]; [exists d; rewrite in_app_iff; auto|exists dim; rewrite in_app_iff; simpl; auto].
      * intros [d [H1 H2]]. apply in_app_or in H1. destruct H1 as [H1|[<-|[]]]; [left; exists d; auto|auto].
    + intros g' Hg'. apply in_app_or in Hg'. destruct Hg' as [Hg'|[<-|[]]]; [apply (s_mem _ _ I g' (Hin g' Hg'))|]. simpl.
      split; [destruct (snd g); discriminate|].
      assert (Hsd : forall a, In a (snd g) -> share a dim).
      { intros a Ha. destruct (Hgs a m Ha Hm) as [Ha1 Ha2]. apply (Htr a m dim Ha1 Hmd Hd Ha2 Sm). }
      intros a b Ha Hb. apply in_app_or in Ha. apply in_app_or in Hb.
      destruct Ha as [Ha|[<-|[]]]; destruct Hb as [Hb|[<-|[]]].
      * apply Hgs; assumption. * split; [apply (Hgs a a Ha Ha)|apply Hsd, Ha].
      * split; [exact Hd|apply share_sym, Hsd, Hb]. * split; [exact Hd|apply share_self, Hd].
    + apply FOP_app. split; [|split].
      * apply FOP_app. split; [exact D1|]. split; [exact D5|]. intros a b Ha Hb. apply D3; [exact Ha|right; exact Hb].
      * constructor; [constructor|constructor].
      * intros a b Ha [<-|[]]. apply Hfresh, Ha.
    + rewrite map_app, concat_app. simpl. rewrite app_nil_r.
      rewrite <- (s_perm _ _ I), Eg, !map_app, !concat_app. simpl.
      rewrite <- !app_assoc. apply Permutation_app_head.
      rewrite (app_assoc (concat (map snd l2))). rewrite (app_assoc (snd g)). apply Permutation_app_tail, Permutation_app_comm.
  - pose proof (pop_first_none _ _ E) as Hn.
    destruct dim as [|o0 dim]; [exfalso; apply (Hne [] Hd); reflexivity|].
    rewrite (set_group_fresh gs (o0 :: dim, [o0 :: dim]) o0); [|left; reflexivity|exact Hn].
    constructor.
    + intros g' Hg' o. apply in_app_or in Hg'. destruct Hg' as [Hg'|[<-|[]]]; [apply (s_key _ _ I g' Hg')|]. cbn [fst snd].
      split; [intros H; exists (o0 :: dim); split; [left; reflexivity|exact H]|]. intros [d [[<-|[]] H]]. exact H.
    + intros g' Hg'. apply in_app_or in Hg'. destruct Hg' as [Hg'|[<-|[]]]; [apply (s_mem _ _ I g' Hg')|]. cbn [fst snd].
      split; [discriminate|]. intros a b [<-|[]] [<-|[]]. split; [exact Hd|apply share_self, Hd].
    + apply FOP_app. split; [exact (s_dis _ _ I)|]. split; [constructor; [constructor|constructor]|].
      intros a b Ha [<-|[]]. apply Hn, Ha.
    + rewrite map_app, concat_app. cbn [map snd concat]. rewrite app_nil_r. apply Permutation_app_tail, (s_perm _ _ I).
Qed.
Lemma sinv_all l : forall P gs, sinv P gs -> incl l dims -> sinv (P ++ l) (fold_left subsets_step l gs).
Proof.
  induction l as [|d l IH]; intros P gs I Hi; simpl; [rewrite app_nil_r; exact I|].
  replace (P ++ d :: l) with ((P ++ [d]) ++ l) by (rewrite <- app_assoc; reflexivity).
  apply IH; [|intros x Hx; apply Hi; right; exact Hx]. apply sinv_step; [exact I|apply Hi; left; reflexivity].
Qed.
Lemma subsets_partition : partition_by_obs dims (obs_subsets dims).
Proof.
  assert (I0 : sinv [] []) by (constructor; [intros g []|intros g []|constructor|constructor]).
  pose proof (sinv_all dims [] [] I0 (incl_refl _)) as I. simpl in I. fold (obs_subsets dims) in I.
  split; [apply (s_perm _ _ I)|]. split; [apply (s_key _ _ I)|]. split; [apply (s_dis _ _ I)|].
  intros g g' a b Hg Hg' Ha Hb [o [H1 H2]].
  assert (S : share (fst g) (fst g')).
  { exists o. split; [apply (s_key _ _ I g Hg); exists a; auto|apply (s_key _ _ I g' Hg'); exists b; auto]. }
  destruct (ForallOrdPairs_In (s_dis _ _ I) _ _ Hg Hg') as [E|[E|E]]; [exact E|contradiction|].
  exfalso. apply E, share_sym, S.
Qed.
End Subsets.
