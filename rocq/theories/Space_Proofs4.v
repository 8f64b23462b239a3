(** Proofs for spaces, part 4: the properties. *)
From Coq Require Import Permutation Lqa.
From Verif Require Import Base BaseLemmas Coord_Model Coord_Spec Coord_Proofs Space_Model Space_Spec
  Space_Proofs Space_Proofs2 Space_Proofs3.

Lemma wf_limit_of s os f o iv : wf_rect s os f -> (limit_of s o iv <-> In o os /\ iv = f o).
Proof.
  intros W. pose proof (wf_limits _ _ _ W) as El. destruct W as [Ho [Hnd _]]. split.
  - intros [os' [ivs [H1 [H2 [k [K1 K2]]]]]]. rewrite Ho in H1. inversion H1; subst os'. rewrite El in H2.
    inversion H2; subst ivs. rewrite nth_error_map, K1 in K2. inversion K2. split; [eapply nth_error_In, K1|reflexivity].
  - intros [Hin ->]. apply In_nth_error in Hin. destruct Hin as [k Hk]. exists os, (map f os).
    split; [exact Ho|]. split; [exact El|]. exists k. split; [exact Hk|]. rewrite nth_error_map, Hk. reflexivity.
Qed.

Lemma full_obs s os f os' : wf_full s os f -> s_obs s = Some os' -> os' = os.
Proof. intros [[Ho _] _] H. congruence. Qed.

(** C04 *)
Lemma C04_limits s os req sup sub s' :
  rect_space s -> s_obs s = Some os -> NoDup req -> s_with_obs s (Some req) sup sub = Ok s' ->
  exists os', s_obs s' = Some os' /\ selects os req os'
    /\ (forall o iv, limit_of s' o iv <-> In o req /\ limit_of s o iv).
Proof.
  intros R Ho Hr H. destruct (rect_space_full s R) as [os0 [f W]]. pose proof (full_obs _ _ _ _ W Ho) as EE; subst.
  pose proof (with_obs_wf _ _ _ _ _ _ _ (wf_full_rect _ _ _ W) Hr H) as W'.
  exists (sel os0 req). split; [apply W'|]. split; [apply filter_selects|].
  intros o iv. rewrite (wf_limit_of _ _ _ _ _ W'), (wf_limit_of _ _ _ _ _ (wf_full_rect _ _ _ W)), sel_In. tauto.
Qed.
Lemma C04_subspace s os req s' :
  rect_space s -> s_obs s = Some os -> NoDup req -> s_get_subspace s req = Ok s' ->
  exists os', s_obs s' = Some os' /\ selects os req os'
    /\ (forall o iv, limit_of s' o iv <-> In o req /\ limit_of s o iv).
Proof.
  intros R Ho Hr H. destruct (rect_space_full s R) as [os0 [f W]]. pose proof (full_obs _ _ _ _ W Ho) as EE; subst.
  pose proof (subspace_wf _ _ _ _ _ (wf_full_rect _ _ _ W) Hr H) as W'.
  exists (sel os0 req). split; [apply W'|]. split; [apply filter_selects|].
  intros o iv. rewrite (wf_limit_of _ _ _ _ _ W'), (wf_limit_of _ _ _ _ _ (wf_full_rect _ _ _ W)), sel_In. tauto.
Qed.
Lemma C04_with_obs_succeeds s os req sup sub :
  rect_space s -> s_obs s = Some os -> NoDup req ->
  ((exists s', s_with_obs s (Some req) sup sub = Ok s') <->
   ~ (disjoint_names req os \/ (sup = false /\ has_extra req os) \/ (sub = false /\ misses req os)))
  /\ (forall e, s_with_obs s (Some req) sup sub = Err e -> e = ObsIncompatibleError).
Proof.
  intros R Ho Hr. destruct (rect_space_full s R) as [os0 [f W]]. pose proof (full_obs _ _ _ _ W Ho) as EE; subst.
  rewrite <- not_req_ok. destruct (req_ok_dec os0 req sup sub) as [Hok|Hok].
  - destruct (s_with_obs_total _ _ _ req sup sub W Hr Hok) as [s' [E _]]. rewrite E. split; [|discriminate].
    split; [intros _ C; contradiction|intros _; exists s'; reflexivity].
  - assert (E : s_with_obs s (Some req) sup sub = Err ObsIncompatibleError).
    { unfold s_with_obs. unfold s_obs in Ho.
      assert (X : with_obs (s_coords s) (Some req) sup sub = Err ObsIncompatibleError).
      { unfold with_obs. rewrite Ho. rewrite <- req_check in Hok.
        destruct (negb (intersectsb String.eqb req os0)); [reflexivity|].
        destruct (_ && _ && _); [reflexivity|]. destruct (_ && _ && _); [reflexivity|]. congruence. }
      rewrite X. reflexivity. }
    rewrite E. split; [|intros e He; inversion He; reflexivity]. split; [intros [s' C]; discriminate|intros C; contradiction].
Qed.

Lemma wf_in_box s os f x : wf_rect s os f ->
  (in_box os x (limit_of s) <-> forall o v, column os x o v -> between (f o) v).
Proof.
  intros W. split.
  - intros H o v Hc. apply (H o v (f o) Hc), (wf_limit_of _ _ _ _ _ W). split; [|reflexivity].
    destruct Hc as [k [Hk _]]. eapply nth_error_In, Hk.
  - intros H o v iv Hc Hl. apply (wf_limit_of _ _ _ _ _ W) in Hl. destruct Hl as [_ ->]. apply H, Hc.
Qed.

Lemma C05_inside s os x : rect_space s -> s_obs s = Some os -> length x = length os ->
  exists b, s_inside s x false = Ok b /\ (b = true <-> in_box os x (limit_of s)).
Proof.
  intros R Ho Hl. destruct (rect_space_full s R) as [os0 [f W]]. pose proof (full_obs _ _ _ _ W Ho) as EE; subst.
  destruct (wf_inside _ _ _ x (wf_full_rect _ _ _ W) Hl) as [b [E H]]. exists b. split; [exact E|].
  rewrite H. symmetry. apply wf_in_box, W.
Qed.
Lemma C05_limits_total s os : rect_space s -> s_obs s = Some os ->
  NoDup os /\ forall o, In o os -> exists iv, limit_of s o iv /\ forall iv', limit_of s o iv' -> iv' = iv.
Proof.
  intros R Ho. destruct (rect_space_full s R) as [os0 [f W]]. pose proof (full_obs _ _ _ _ W Ho) as EE; subst.
  split; [apply W|]. intros o Hin. exists (f o). split; [apply (wf_limit_of _ _ _ _ _ (wf_full_rect _ _ _ W)); auto|].
  intros iv' H. apply (wf_limit_of _ _ _ _ _ (wf_full_rect _ _ _ W)) in H. apply H.
Qed.
Lemma C05_inside_shape s os x g : rect_space s -> s_obs s = Some os -> length x <> length os ->
  s_inside s x g = Err ShapeIncompatibleError.
Proof.
  intros R Ho Hl. destruct (rect_space_full s R) as [os0 [f W]]. pose proof (full_obs _ _ _ _ W Ho) as EE; subst.
  eapply wf_inside_shape; [apply W|exact Hl].
Qed.

Lemma bool_eq_iff (a b : bool) : (a = true <-> b = true) -> a = b.
Proof. destruct a, b; intros [H1 H2]; try reflexivity; [symmetry; apply H1; reflexivity|apply H2; reflexivity]. Qed.

Lemma C04_inside s os p s' x x' :
  rect_space s -> s_obs s = Some os -> is_perm p os -> s_with_obs s (Some p) false false = Ok s' ->
  length x = length os -> length x' = length p -> same_on os os x p x' ->
  s_inside s' x' false = s_inside s x false.
Proof.
  intros R Ho [Hp [_ Hps]] H Hl Hl' Hs. destruct (rect_space_full s R) as [os0 [f W]]. pose proof (full_obs _ _ _ _ W Ho) as EE; subst.
  pose proof (with_obs_wf _ _ _ _ _ _ _ (wf_full_rect _ _ _ W) Hp H) as W'.
  rewrite sel_same in W' by (intros o Hin; apply Hps, Hin).
  destruct (wf_inside _ _ _ x (wf_full_rect _ _ _ W) Hl) as [b [E Hb]].
  destruct (wf_inside _ _ _ x' W' Hl') as [b' [E' Hb']]. rewrite E, E'. f_equal. apply bool_eq_iff. rewrite Hb, Hb'.
  split; intros G o v Hc; apply G.
  - apply (Hs o v); [destruct Hc as [k [Hk _]]; eapply nth_error_In, Hk|exact Hc].
  - apply (Hs o v); [destruct Hc as [k [Hk _]]; apply Hps; eapply nth_error_In, Hk|exact Hc].
Qed.

Lemma area_perm (f : string -> Q * Q) l l' : Permutation l l' -> (rect_area (map f l) == rect_area (map f l'))%Q.
Proof.
  unfold rect_area. induction 1; simpl; [reflexivity|rewrite IHPermutation; reflexivity|ring|etransitivity; eassumption].
Qed.
Lemma C04_volume s os p s' :
  rect_space s -> s_obs s = Some os -> is_perm p os -> s_with_obs s (Some p) false false = Ok s' ->
  exists v v', s_volume s = Ok v /\ s_volume s' = Ok v' /\ (v' == v)%Q.
Proof.
  intros R Ho [Hp [Hno Hps]] H. destruct (rect_space_full s R) as [os0 [f W]]. pose proof (full_obs _ _ _ _ W Ho) as EE; subst.
  pose proof (with_obs_wf _ _ _ _ _ _ _ (wf_full_rect _ _ _ W) Hp H) as W'.
  rewrite sel_same in W' by (intros o Hin; apply Hps, Hin).
  rewrite (wf_volume _ _ _ (wf_full_rect _ _ _ W)), (wf_volume _ _ _ W'). do 2 eexists. split; [reflexivity|]. split; [reflexivity|].
  apply area_perm, NoDup_Permutation; [exact Hp|exact Hno|exact Hps].
Qed.

(** The volume is the product of the lengths of the limits. *)
Lemma vol_is_product s os ivs : rect_space s -> s_obs s = Some os -> s_limits s = Ok ivs ->
  length ivs = length os /\ exists v, s_volume s = Ok v /\ v = fold_right (fun iv a => (snd iv - fst iv) * a)%Q 1%Q ivs.
Proof.
  intros R Ho El. destruct (rect_space_full s R) as [os0 [f W]]. pose proof (full_obs _ _ _ _ W Ho) as EE; subst.
  rewrite (wf_limits _ _ _ (wf_full_rect _ _ _ W)) in El. inversion El as [El']. split; [apply map_length|].
  exists (rect_area (map f os0)). split; [apply wf_volume, W|]. clear.
  unfold rect_area. induction (map f os0) as [|iv l IH]; [reflexivity|]. simpl. rewrite IH. reflexivity.
Qed.

(* ---------- filter ---------- *)
Lemma kept_ext {A} (P P' : A -> Prop) inp out : (forall a, In a inp -> (P a <-> P' a)) -> kept P inp out -> kept P' inp out.
Proof.
  intros H K. induction K as [|a inp out Pa K IH|a inp out Pa K IH]; [constructor| |].
  - apply kept_yes; [apply H; [left; reflexivity|exact Pa]|]. apply IH. intros b Hb. apply H. right. exact Hb.
  - apply kept_no; [intros C; apply Pa, H; [left; reflexivity|exact C]|]. apply IH. intros b Hb. apply H. right. exact Hb.
Qed.
Lemma kept_det {A} (P : A -> Prop) inp out out' : kept P inp out -> kept P inp out' -> out = out'.
Proof.
  intros K. revert out'. induction K as [|a inp out Pa K IH|a inp out Pa K IH]; intros out' K'; inversion K'; subst;
    try contradiction; [reflexivity|f_equal; apply IH; assumption|apply IH; assumption].
Qed.
Lemma kept_In {A} (P : A -> Prop) inp out : kept P inp out -> forall a, In a out <-> In a inp /\ P a.
Proof.
  induction 1 as [|a inp out Pa K IH|a inp out Pa K IH]; intros b; simpl.
  - tauto.
  - rewrite IH. split; [intros [<-|[H1 H2]]; auto|]. intros [[<-|H1] H2]; auto.
  - rewrite IH. split; [intros [H1 H2]; auto|]. intros [[<-|H1] H2]; [contradiction|auto].
Qed.
Lemma kept_all {A} (P : A -> Prop) l : (forall a, In a l -> P a) -> kept P l l.
Proof.
  induction l as [|a l IH]; intros H; [constructor|]. apply kept_yes; [apply H; left; reflexivity|].
  apply IH. intros b Hb. apply H. right. exact Hb.
Qed.
Lemma kept_both {A} (P P' : A -> Prop) inp mid out : kept P inp mid -> kept P' mid out ->
  kept (fun a => P a /\ P' a) inp out.
Proof.
  intros K. revert out. induction K as [|a inp mid Pa K IH|a inp mid Pa K IH]; intros out K'.
  - inversion K'; subst. constructor.
  - inversion K'; subst; [apply kept_yes; auto|apply kept_no; [tauto|auto]].
  - apply kept_no; [tauto|auto].
Qed.

Lemma C05_filter s os rows : rect_space s -> s_obs s = Some os ->
  (forall x, In x rows -> length x = length os) ->
  exists out, s_filter s rows false = Ok out /\ kept (fun x => in_box os x (limit_of s)) rows out.
Proof.
  intros R Ho Hl. unfold s_filter. rewrite andb_false_r.
  induction rows as [|x rows IH]; [exists []; split; [reflexivity|constructor]|].
  destruct IH as [out [E K]]; [intros y Hy; apply Hl; right; exact Hy|].
  destruct (C05_inside s os x R Ho (Hl x (or_introl eq_refl))) as [b [Eb Hb]].
  apply bind_ok in E. destruct E as [mask [Em E]]. inversion E; subst out.
  cbn [mapM]. rewrite Eb. cbn [bind]. rewrite Em. cbn [bind]. eexists. split; [reflexivity|].
  simpl. destruct b.
  - apply kept_yes; [apply Hb; reflexivity|exact K].
  - apply kept_no; [intros C; apply Hb in C; discriminate|exact K].
Qed.
Lemma C05_idempotent s os rows out : rect_space s -> s_obs s = Some os ->
  (forall x, In x rows -> length x = length os) ->
  s_filter s rows false = Ok out -> s_filter s out false = Ok out.
Proof.
  intros R Ho Hl E. destruct (C05_filter s os rows R Ho Hl) as [out' [E' K]]. rewrite E in E'. inversion E'; subst out'.
  assert (Hl' : forall x, In x out -> length x = length os) by (intros x Hx; apply (kept_In _ _ _ K) in Hx; apply Hl, Hx).
  destruct (C05_filter s os out R Ho Hl') as [out2 [E2 K2]]. rewrite E2. f_equal. eapply kept_det; [exact K2|].
  apply kept_all. intros x Hx. apply (kept_In _ _ _ K) in Hx. apply Hx.
Qed.
Lemma C05_compose s1 s2 os rows mid out : rect_space s1 -> rect_space s2 -> s_obs s1 = Some os -> s_obs s2 = Some os ->
  (forall x, In x rows -> length x = length os) ->
  s_filter s1 rows false = Ok mid -> s_filter s2 mid false = Ok out ->
  kept (fun x => in_box os x (limit_of s1) /\ in_box os x (limit_of s2)) rows out.
Proof.
  intros R1 R2 Ho1 Ho2 Hl E1 E2. destruct (C05_filter s1 os rows R1 Ho1 Hl) as [m [E' K]]. rewrite E1 in E'. inversion E'; subst m.
  assert (Hl' : forall x, In x mid -> length x = length os) by (intros x Hx; apply (kept_In _ _ _ K) in Hx; apply Hl, Hx).
  destruct (C05_filter s2 os mid R2 Ho2 Hl') as [o2 [E2' K2]]. rewrite E2 in E2'. inversion E2'; subst o2.
  eapply kept_both; eassumption.
Qed.

Lemma filter_kept {A} (p : A -> bool) (P : A -> Prop) l : (forall a, In a l -> (p a = true <-> P a)) -> kept P l (filter p l).
Proof.
  induction l as [|a l IH]; intros H; simpl; [constructor|].
  assert (IH' := IH (fun b Hb => H b (or_intror Hb))). pose proof (H a (or_introl eq_refl)) as Ha.
  destruct (p a); [apply kept_yes; [apply Ha; reflexivity|exact IH']|apply kept_no; [|exact IH']].
  intros C. apply Ha in C. discriminate.
Qed.
(** Filtering a dataframe: whatever the order of its columns, the kept rows are those with
    all the named cells inside. *)
Lemma C05_filter_df s os cols rows : rect_space s -> s_obs s = Some os -> incl os cols ->
  (forall r, In r rows -> map fst r = cols) -> NoDup cols ->
  exists out, s_filter_df s cols rows false = Ok out
    /\ kept (fun r : df_row => forall o v iv, In (o, v) r -> limit_of s o iv -> between iv v) rows out.
Proof.
  intros R Ho Hi Hr Hnd. destruct (rect_space_full s R) as [os0 [f W]]. pose proof (full_obs _ _ _ _ W Ho) as EE; subst.
  pose proof (wf_full_rect _ _ _ W) as Wr.
  unfold s_filter_df. rewrite andb_false_r, Ho. apply (subsetb_incl _ string_eqb_ok) in Hi as Hi'. rewrite Hi'. cbn [negb].
  rewrite (wf_limits _ _ _ Wr). cbn [bind]. eexists. split; [reflexivity|].
  apply filter_kept. intros r Hrin. rewrite forallb_forall. split.
  - intros H o v iv Hin Hlim. apply (wf_limit_of _ _ _ _ _ Wr) in Hlim. destruct Hlim as [Hos ->].
    assert (Hc : In (o, f o) (combine os0 (map f os0))).
    { clear - Hos. induction os0 as [|a l IH]; [destruct Hos|]. simpl. destruct Hos as [<-|Hos]; [left; reflexivity|right; apply IH, Hos]. }
    specialize (H _ Hc). simpl in H.
    assert (El : lookup String.eqb o r = Some v).
    { apply (lookup_nodup _ string_eqb_ok); [rewrite (Hr r Hrin); exact Hnd|exact Hin]. }
    rewrite El in H. apply andb_true_iff in H. rewrite !Qle_bool_iff in H. exact H.
  - intros H [o iv] Hc. simpl.
    assert (Hc' : In o os0 /\ iv = f o).
    { clear - Hc. induction os0 as [|a l IH]; [destruct Hc|]. simpl in Hc. destruct Hc as [Hc|Hc]; [inversion Hc; subst; split; [left|]; reflexivity|].
      destruct (IH Hc). split; [right|]; assumption. }
    destruct Hc' as [Hos ->].
    destruct (lookup_some_key _ string_eqb_ok o r) as [v El]; [rewrite (Hr r Hrin); apply Hi, Hos|].
    rewrite El. assert (Hb : between (f o) v).
    { apply (H o v); [apply (lookup_in _ string_eqb_ok), El|apply (wf_limit_of _ _ _ _ _ Wr); auto]. }
    apply andb_true_iff. rewrite !Qle_bool_iff. exact Hb.
Qed.

(* ---------- equality ---------- *)
Lemma agree_sym a b : agree a b -> agree b a.
Proof. unfold agree. intros [H1 [H2 [H3 H4]]]. repeat split; lra. Qed.

Lemma C08_eq s1 os1 s2 os2 : rect_space s1 -> rect_space s2 -> s_obs s1 = Some os1 -> s_obs s2 = Some os2 ->
  exists b, s_eq s1 s2 = Ok b /\
    (b = true <-> (forall o, In o os1 <-> In o os2)
                  /\ forall o iv1 iv2, limit_of s1 o iv1 -> limit_of s2 o iv2 -> agree iv1 iv2).
Proof.
  intros R1 R2 H1 H2. destruct (rect_space_full s1 R1) as [o1 [f1 W1]]. destruct (rect_space_full s2 R2) as [o2 [f2 W2]].
  pose proof (full_obs _ _ _ _ W1 H1) as EE1; pose proof (full_obs _ _ _ _ W2 H2) as EE2; subst.
  destruct (s_eq_full _ _ _ _ _ _ W1 W2) as [b [E Hb]]. exists b. split; [exact E|]. rewrite Hb.
  pose proof (wf_full_rect _ _ _ W1) as V1. pose proof (wf_full_rect _ _ _ W2) as V2. split; intros [A B]; (split; [exact A|]).
  - intros o iv1 iv2 L1 L2. apply (wf_limit_of _ _ _ _ _ V1) in L1. apply (wf_limit_of _ _ _ _ _ V2) in L2.
    destruct L1 as [L1 ->], L2 as [L2 ->]. apply B, L1.
  - intros o Hin. apply (B o); [apply (wf_limit_of _ _ _ _ _ V1)|apply (wf_limit_of _ _ _ _ _ V2)]; [auto|].
    split; [apply A, Hin|reflexivity].
Qed.
Lemma C08_sym s1 s2 : rect_space s1 -> rect_space s2 -> s_eq s1 s2 = s_eq s2 s1.
Proof.
  intros R1 R2. destruct (rect_space_full s1 R1) as [o1 [f1 W1]]. destruct (rect_space_full s2 R2) as [o2 [f2 W2]].
  destruct (s_eq_full _ _ _ _ _ _ W1 W2) as [b [-> Hb]]. destruct (s_eq_full _ _ _ _ _ _ W2 W1) as [b' [-> Hb']].
  f_equal. apply bool_eq_iff. rewrite Hb, Hb'. split; intros [A B]; (split; [intros o; symmetry; apply A|]);
    intros o Ho; apply agree_sym, B, A, Ho.
Qed.
Lemma C08_refl s : rect_space s -> s_eq s s = Ok true.
Proof.
  intros R. destruct (rect_space_full s R) as [o1 [f1 W1]]. destruct (s_eq_full _ _ _ _ _ _ W1 W1) as [b [-> Hb]].
  f_equal. apply Hb. split; [tauto|]. intros o _. apply agree_refl.
Qed.
Lemma C08_reorder s1 s2 os p s1' : rect_space s1 -> rect_space s2 -> s_obs s1 = Some os -> is_perm p os ->
  s_with_obs s1 (Some p) false false = Ok s1' -> s_eq s1' s2 = s_eq s1 s2.
Proof.
  intros R1 R2 Ho [Hp [_ Hps]] H.
  destruct (rect_space_full s1 R1) as [o1 [f1 W1]]. destruct (rect_space_full s2 R2) as [o2 [f2 W2]].
  pose proof (full_obs _ _ _ _ W1 Ho) as EE; subst.
  assert (W1' : wf_full s1' p f1).
  { eapply made_full; [|eapply made_with_obs, H]. pose proof (with_obs_wf _ _ _ _ _ _ _ (wf_full_rect _ _ _ W1) Hp H) as W'.
    rewrite sel_same in W' by (intros o Hin; apply Hps, Hin). exact W'. }
  destruct (s_eq_full _ _ _ _ _ _ W1' W2) as [b [-> Hb]]. destruct (s_eq_full _ _ _ _ _ _ W1 W2) as [b' [-> Hb']].
  f_equal. apply bool_eq_iff. rewrite Hb, Hb'. split; intros [A B]; split; intros o.
  - rewrite <- Hps. apply A. - intros Hin. apply B, Hps, Hin. - rewrite Hps. apply A. - intros Hin. apply B, Hps, Hin.
Qed.

(* ---------- combine ---------- *)
(** [iv] is the limit of [o] in the first space of the list that has [o]. *)
Lemma F_spec ss o iv : (forall s, In s ss -> good s) -> (exists s, In s ss /\ In o (obs_list s)) ->
  (F ss o = iv <-> exists l1 s l2, ss = l1 ++ s :: l2 /\ limit_of s o iv /\ forall s', In s' l1 -> ~ In o (obs_list s')).
Proof.
  intros Hg [s0 [Hs0 Ho0]]. split.
  - intros <-. unfold F. destruct (filter (has_coord o) ss) as [|s r] eqn:E.
    { exfalso. assert (X : In s0 (filter (has_coord o) ss)) by (apply filter_In; split; [exact Hs0|apply has_coord_In, Ho0]).
      rewrite E in X. exact X. }
    destruct (first_with _ _ _ _ E) as [H1 H2]. destruct (filter_first _ _ _ _ E) as [l1 [l2 [-> H3]]].
    exists l1, s, l2. split; [reflexivity|]. split.
    + apply (wf_limit_of _ _ _ _ _ (wf_full_rect _ _ _ (Hg s H1))). auto.
    + intros s' Hs' C. apply has_coord_In in C. rewrite (H3 s' Hs') in C. discriminate.
  - intros [l1 [s [l2 [-> [Hl Hn]]]]]. unfold F. rewrite filter_app.
    assert (X : filter (has_coord o) l1 = []).
    { clear - Hn. induction l1 as [|s l1 IH]; [reflexivity|]. simpl. destruct (has_coord o s) eqn:Eo.
      - apply has_coord_In in Eo. exfalso. apply (Hn s); [left; reflexivity|exact Eo].
      - apply IH. intros s' Hs'. apply Hn. right. exact Hs'. }
    rewrite X. simpl. assert (Hs : In s (l1 ++ s :: l2)) by (apply in_or_app; right; left; reflexivity).
    apply (wf_limit_of _ _ _ _ _ (wf_full_rect _ _ _ (Hg s Hs))) in Hl. destruct Hl as [Hl ->].
    apply has_coord_In in Hl. rewrite Hl. reflexivity.
Qed.

Lemma own_obs_list s o : own s o <-> In o (obs_list s).
Proof.
  unfold own, obs_list. destruct (s_obs s) as [os|]; split.
  - intros [os' [E H]]. inversion E; subst. exact H. - intros H. exists os. auto.
  - intros [os' [E _]]. discriminate. - intros [].
Qed.
Lemma rect_good s : rect_space s -> good s.
Proof. intros R. destruct (rect_space_full s R) as [os [f W]]. eapply wf_good, W. Qed.
Lemma rect_all_good ss : Forall rect_space ss -> forall s, In s ss -> good s.
Proof. intros H s Hs. apply rect_good. rewrite Forall_forall in H. apply H, Hs. Qed.

Lemma C06_result ss oss s' : Forall rect_space ss -> map s_obs ss = map Some oss -> combine_spaces ss = Ok s' ->
  exists os', s_obs s' = Some os' /\ first_appearance [] oss os'
  /\ forall o iv, limit_of s' o iv <->
       exists l1 s l2, ss = l1 ++ s :: l2 /\ limit_of s o iv /\ forall t, In t l1 -> ~ own t o.
Proof.
  intros R Hos H. pose proof (rect_all_good _ R) as Hg. pose proof (combine_full ss s' Hg H) as W.
  exists (all_of ss). split; [apply W|]. split.
  - unfold all_of. replace oss with (map obs_list ss); [apply union_first_appearance|].
    revert oss Hos. clear. induction ss as [|s ss IH]; intros [|os oss] Hos; inversion Hos; [reflexivity|].
    simpl. f_equal; [unfold obs_list; rewrite H0; reflexivity|apply IH; assumption].
  - intros o iv. rewrite (wf_limit_of _ _ _ _ _ (wf_full_rect _ _ _ W)). split.
    + intros [Hin ->]. apply all_of_In in Hin. destruct (proj1 (F_spec ss o (F ss o) Hg Hin) eq_refl) as [l1 [s [l2 [E [Hl Hn]]]]].
      exists l1, s, l2. split; [exact E|]. split; [exact Hl|]. intros t Ht C. apply own_obs_list in C. eapply Hn; eassumption.
    + intros [l1 [s [l2 [E [Hl Hn]]]]].
      assert (Hs : In s ss) by (rewrite E; apply in_or_app; right; left; reflexivity).
      assert (Hin : exists s, In s ss /\ In o (obs_list s)).
      { exists s. split; [exact Hs|]. apply (wf_limit_of _ _ _ _ _ (wf_full_rect _ _ _ (Hg s Hs))) in Hl. apply Hl. }
      split; [apply all_of_In, Hin|]. symmetry. apply (F_spec ss o iv Hg Hin). exists l1, s, l2. split; [exact E|]. split; [exact Hl|].
      intros t Ht C. apply own_obs_list in C. eapply Hn; eassumption.
Qed.

Lemma count_two o ss : 1 < count_with o ss -> exists l1 s l2 t l3, ss = l1 ++ s :: l2 ++ t :: l3 /\ own s o /\ own t o.
Proof.
  unfold count_with. intros H. destruct (filter (has_coord o) ss) as [|s r] eqn:E; [simpl in H; lia|].
  assert (Hs : In s (filter (has_coord o) ss)) by (rewrite E; left; reflexivity).
  destruct (filter_first _ _ _ _ E) as [l1 [l2 [-> Hn]]].
  rewrite filter_app in E. assert (X : filter (has_coord o) l1 = []).
  { clear - Hn. induction l1 as [|s l1 IH]; [reflexivity|]. simpl. rewrite (Hn s (or_introl eq_refl)). apply IH.
    intros x Hx. apply Hn. right. exact Hx. }
  apply filter_In in Hs. destruct Hs as [_ Hs]. rewrite X in E. simpl in E. rewrite Hs in E. inversion E as [E'].
  destruct r as [|t r]; [simpl in H; lia|].
  assert (Ht : In t (filter (has_coord o) l2)) by (rewrite E'; left; reflexivity).
  apply filter_In in Ht. destruct Ht as [Ht1 Ht2]. apply in_split in Ht1. destruct Ht1 as [l3 [l4 ->]].
  exists l1, s, l3, t, l4. split; [reflexivity|]. split; apply own_obs_list, has_coord_In; assumption.
Qed.
Lemma not_nested_un ss : not_nested ss -> unnested ss.
Proof.
  intros H o o' H1 H2 Hs s Hin.
  assert (G : forall s, In s ss -> own s o' -> own s o).
  { apply (H o o' (count_two _ _ H1) (count_two _ _ H2)). intros t Ht Ho. apply own_obs_list, (Hs t Ht), own_obs_list, Ho. }
  rewrite <- !own_obs_list. split; [|apply G, Hin]. intros C. apply own_obs_list, (Hs s Hin), own_obs_list, C.
Qed.

Lemma C06_raises ss : Forall rect_space ss -> (forall s, In s ss -> s_binning s = None) -> ss <> [] -> not_nested ss ->
  let disagree := exists o l1 s l2 t iv iv', ss = l1 ++ s :: l2 /\ limit_of s o iv /\ (forall r, In r l1 -> ~ own r o)
      /\ In t l2 /\ limit_of t o iv' /\ ~ agree iv iv' in
  (disagree -> combine_spaces ss = Err LimitsIncompatibleError)
  /\ (~ disagree -> exists s', combine_spaces ss = Ok s').
Proof.
  intros R Hub Hne Hnn dis. pose proof (rect_all_good _ R) as Hg.
  assert (Hlim : forall s o iv, In s ss -> (limit_of s o iv <-> In o (obs_list s) /\ iv = lim_at s o)).
  { intros s o iv Hs. apply wf_limit_of, Hg, Hs. }
  assert (Hd1 : forall o s, In s ss -> In o (obs_list s) -> ~ agree (F ss o) (lim_at s o) -> dis).
  { intros o t Ht Ho Hna. destruct (proj1 (F_spec ss o (F ss o) Hg (ex_intro _ t (conj Ht Ho))) eq_refl) as [l1 [s [l2 [E [Hl Hn]]]]].
    exists o, l1, s, l2, t, (F ss o), (lim_at t o). split; [exact E|]. split; [exact Hl|].
    split; [intros r Hr C; apply own_obs_list in C; eapply Hn; eassumption|].
    split; [|split; [apply Hlim; auto|exact Hna]].
    rewrite E in Ht. apply in_app_or in Ht. destruct Ht as [Ht|[<-|Ht]]; [exfalso; eapply Hn; eassumption| |exact Ht].
    exfalso. apply Hna. apply Hlim in Hl; [|rewrite E; apply in_or_app; right; left; reflexivity].
    destruct Hl as [_ ->]. apply agree_refl. }
  assert (Hd2 : dis -> exists o s, In s ss /\ In o (obs_list s) /\ ~ agree (F ss o) (lim_at s o)).
  { intros [o [l1 [s [l2 [t [iv [iv' [E [Hl [Hn [Ht [Hl' Hna]]]]]]]]]]]].
    assert (Ht' : In t ss) by (rewrite E; apply in_or_app; right; right; exact Ht).
    apply (Hlim t o iv' Ht') in Hl'. destruct Hl' as [Ho ->].
    exists o, t. split; [exact Ht'|]. split; [exact Ho|].
    replace (F ss o) with iv; [exact Hna|]. symmetry. apply (F_spec ss o iv Hg (ex_intro _ t (conj Ht' Ho))).
    exists l1, s, l2. split; [exact E|]. split; [exact Hl|]. intros r Hr C. eapply Hn; [exact Hr|apply own_obs_list, C]. }
  destruct (combine_total ss Hg Hub Hne (not_nested_un _ Hnn)) as [[s' [E A]]|[E [o [s [H1 [H2 H3]]]]]].
  - split; [|intros _; exists s'; exact E]. intros D. destruct (Hd2 D) as [o [s [H1 [H2 H3]]]]. exfalso. apply H3, A; assumption.
  - split; [intros _; exact E|]. intros D. exfalso. apply D. eapply Hd1; eassumption.
Qed.

Lemma two_not_nested s1 s2 : not_nested [s1; s2].
Proof.
  assert (G : forall l1 s l2 t l3, [s1; s2] = l1 ++ s :: l2 ++ t :: l3 -> s = s1 /\ t = s2).
  { intros l1 s l2 t l3 E. assert (L := f_equal (@length space) E). rewrite app_length in L. simpl in L. rewrite app_length in L. simpl in L.
    destruct l1; [|simpl in L; lia]. destruct l2; [|simpl in L; lia]. destruct l3; [|simpl in L; lia]. simpl in E. inversion E; auto. }
  intros o o' [l1 [s [l2 [t [l3 [E [O1 O2]]]]]]] [k1 [s' [k2 [t' [k3 [E' [P1 P2]]]]]]] _ s0 Hs0 _.
  destruct (G _ _ _ _ _ E) as [-> ->]. destruct Hs0 as [<-|[<-|[]]]; assumption.
Qed.

(** Membership in the combination, when shared limits are identical. *)
Lemma C06_inside ss s' os' x :
  Forall rect_space ss -> combine_spaces ss = Ok s' -> s_obs s' = Some os' -> length x = length os' ->
  (forall s t o iv iv', In s ss -> In t ss -> limit_of s o iv -> limit_of t o iv' -> iv = iv') ->
  exists b, s_inside s' x false = Ok b /\
    (b = true <-> forall s, In s ss -> in_box os' x (limit_of s)).
Proof.
  intros R H Ho Hl Heq. pose proof (rect_all_good _ R) as Hg. pose proof (combine_full ss s' Hg H) as W.
  pose proof (full_obs _ _ _ _ W Ho) as EE; subst. destruct (wf_inside _ _ _ x (wf_full_rect _ _ _ W) Hl) as [b [E Hb]].
  exists b. split; [exact E|]. rewrite Hb. split.
  - intros G s Hs o v iv Hc Hlim. replace iv with (F ss o); [apply G, Hc|].
    assert (Hos : In o (obs_list s)) by (apply (wf_limit_of _ _ _ _ _ (wf_full_rect _ _ _ (Hg s Hs))) in Hlim; apply Hlim).
    destruct (proj1 (F_spec ss o (F ss o) Hg (ex_intro _ s (conj Hs Hos))) eq_refl) as [l1 [t [l2 [Et [Hlt _]]]]].
    eapply (Heq t s); [rewrite Et; apply in_or_app; right; left; reflexivity|exact Hs|exact Hlt|exact Hlim].
  - intros G o v Hc. assert (Hin : In o (all_of ss)) by (destruct Hc as [k [Hk _]]; eapply nth_error_In, Hk).
    apply all_of_In in Hin. destruct (proj1 (F_spec ss o (F ss o) Hg Hin) eq_refl) as [l1 [t [l2 [Et [Hlt _]]]]].
    apply (G t) with (o := o); [rewrite Et; apply in_or_app; right; left; reflexivity|exact Hc|exact Hlt].
Qed.
