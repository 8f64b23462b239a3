From Verif Require Import Base BaseLemmas Coord_Model Coord_Spec.

(** ** Generic facts about reordering by names *)
Section Reorder.
Context {A : Type} (eqb : A -> A -> bool) (Heqb : eqb_spec eqb).

Lemma reorder_indices_ok old new idx :
  reorder_indices eqb old new = Ok idx <-> Forall2 (fun o i => index_of eqb o old = Some i) new idx.
Proof.
  unfold reorder_indices, opt_result.
  destruct (all_some (map (fun o => index_of eqb o old) new)) as [l|] eqn:E.
  - apply all_some_forall2 in E. rewrite Forall2_map_l in E. split; intros H.
    + inversion H; subst. exact E.
    + f_equal. clear -E H. revert idx H. induction E as [|o i new l Hi _ IH]; intros idx H.
      * inversion H. reflexivity.
      * inversion H as [|? j ? idx' Hj Hr]; subst. f_equal; [congruence|]. apply IH, Hr.
  - split; [discriminate|]. intros H. exfalso.
    assert (all_some (map (fun o => index_of eqb o old) new) = Some idx).
    { apply all_some_forall2. rewrite Forall2_map_l. exact H. }
    congruence.
Qed.

Lemma reorder_indices_total old new :
  incl new old -> exists idx, reorder_indices eqb old new = Ok idx.
Proof.
  induction new as [|o new IH]; intros H.
  - exists []. apply reorder_indices_ok. constructor.
  - destruct IH as [idx Hidx]; [intros x Hx; apply H; right; exact Hx|].
    destruct (index_of_in eqb Heqb o old) as [k Hk]; [apply H; left; reflexivity|].
    exists (k :: idx). apply reorder_indices_ok. constructor; [exact Hk|].
    apply reorder_indices_ok. exact Hidx.
Qed.

Lemma reorder_indices_missing old new o :
  In o new -> ~ In o old -> reorder_indices eqb old new = Err ValueError.
Proof.
  intros Hi Hn. destruct (reorder_indices eqb old new) as [idx|e] eqn:E.
  - apply reorder_indices_ok in E. exfalso. induction E as [|x i new' idx' Hx _ IH]; [destruct Hi|].
    destruct Hi as [->|Hi]; [|apply IH, Hi].
    apply (index_of_none eqb Heqb) in Hn. congruence.
  - unfold reorder_indices, opt_result in E. destruct (all_some _); congruence.
Qed.

Lemma reorder_indices_lt old new idx :
  reorder_indices eqb old new = Ok idx -> forall i, In i idx -> i < length old.
Proof.
  intros H. apply reorder_indices_ok in H. induction H as [|o i new idx Hi _ IH]; intros j; [intros []|].
  intros [->|Hj]; [eapply index_of_lt; [exact Heqb|exact Hi]|apply IH, Hj].
Qed.

Lemma reorder_gather_self old new idx :
  reorder_indices eqb old new = Ok idx -> gather old idx = Some new.
Proof.
  intros H. apply reorder_indices_ok in H. apply gather_forall2.
  induction H as [|o i new idx Hi _ IH]; constructor; [|exact IH].
  eapply index_of_nth; [exact Heqb|exact Hi].
Qed.

Lemma reorder_indices_nth old new idx k o :
  reorder_indices eqb old new = Ok idx -> nth_error new k = Some o ->
  exists i, nth_error idx k = Some i /\ index_of eqb o old = Some i.
Proof.
  intros H Hk. apply reorder_indices_ok in H. pose proof (Forall2_length' _ _ _ H) as Hl.
  apply Forall2_nth in H. destruct H as [_ H].
  destruct (nth_error idx k) as [i|] eqn:E.
  - exists i. split; [reflexivity|]. eapply H; eassumption.
  - apply nth_error_None in E. assert (k < length new) by (apply nth_error_Some; congruence). lia.
Qed.

(** Values carried along with names: after gathering, the value stored at a position is
    the value found under the name of that position. *)
Lemma reorder_gather_values {V} old new idx (x y : list V) k o :
  reorder_indices eqb old new = Ok idx -> gather x idx = Some y -> nth_error new k = Some o ->
  exists i, index_of eqb o old = Some i /\ nth_error y k = nth_error x i.
Proof.
  intros H Hg Hk. destruct (reorder_indices_nth _ _ _ _ _ H Hk) as [i [Hi Ho]].
  exists i. split; [exact Ho|]. eapply gather_nth; eassumption.
Qed.
End Reorder.

Lemma filter_selects own req :
  selects own req (filter (fun x => mem String.eqb x own) req).
Proof.
  induction req as [|o req IH]; simpl; [constructor|].
  destruct (mem String.eqb o own) eqn:E.
  - apply sel_keep; [apply (mem_In _ string_eqb_ok); exact E|exact IH].
  - apply sel_drop; [apply (mem_false _ string_eqb_ok); exact E|exact IH].
Qed.

Lemma selects_filter own req sel :
  selects own req sel -> sel = filter (fun x => mem String.eqb x own) req.
Proof.
  induction 1 as [|o req sel Hi _ IH|o req sel Hn _ IH]; simpl; [reflexivity| |].
  - apply (mem_In _ string_eqb_ok) in Hi. rewrite Hi. f_equal. exact IH.
  - apply (mem_false _ string_eqb_ok) in Hn. rewrite Hn. exact IH.
Qed.

(** ** with_obs on labelled coordinates: full case analysis *)
Definition req_ok (own req : list obs_t) (sup sub : bool) : Prop :=
  (exists o, In o req /\ In o own)
  /\ (sup = false -> incl req own) /\ (sub = false -> incl own req).

Lemma req_check own req sup sub :
  (if negb (intersectsb String.eqb req own) then true
   else if negb (set_eqb String.eqb req own) && negb sup && negb (subsetb String.eqb req own) then true
   else if negb (set_eqb String.eqb req own) && negb sub && negb (subsetb String.eqb own req) then true
   else false) = false <-> req_ok own req sup sub.
Proof.
  unfold req_ok. rewrite <- (intersectsb_iff _ string_eqb_ok).
  rewrite <- !(subsetb_incl _ string_eqb_ok). unfold set_eqb.
  destruct (intersectsb String.eqb req own), (subsetb String.eqb req own), (subsetb String.eqb own req), sup, sub;
    simpl; (split; [intros H; try discriminate H; repeat split; intros; congruence
                   |intros [H1 [H2 H3]]; first [reflexivity | discriminate H1
                      | discriminate (H2 eq_refl) | discriminate (H3 eq_refl)]]).
Qed.

Lemma with_obs_labelled c os axs req sup sub :
  c_obs c = Some os -> c_axes c = Some axs -> length os = length axs ->
  (req_ok os req sup sub ->
     exists idx axs',
       reorder_indices String.eqb os (filter (fun x => mem String.eqb x os) req) = Ok idx
       /\ gather axs idx = Some axs'
       /\ with_obs c (Some req) sup sub =
            Ok (mkCoords (Some (filter (fun x => mem String.eqb x os) req)) (Some axs')))
  /\ (~ req_ok os req sup sub -> with_obs c (Some req) sup sub = Err ObsIncompatibleError).
Proof.
  intros Ho Ha Hlen. unfold with_obs. rewrite Ho.
  pose proof (req_check os req sup sub) as Hc.
  set (new := filter (fun x => mem String.eqb x os) req) in *.
  assert (Hincl : incl new os).
  { intros x Hx. unfold new in Hx. apply (filter_mem_In _ string_eqb_ok) in Hx. apply Hx. }
  destruct (reorder_indices_total String.eqb string_eqb_ok os new Hincl) as [idx Hidx].
  assert (Hlt : forall i, In i idx -> i < length axs).
  { intros i Hi. rewrite <- Hlen. eapply reorder_indices_lt; [exact string_eqb_ok|exact Hidx|exact Hi]. }
  destruct (gather_total axs idx Hlt) as [axs' Hg].
  assert (Hgo : gather os idx = Some new) by (eapply reorder_gather_self; [exact string_eqb_ok|exact Hidx]).
  assert (Hlen' : length new = length axs').
  { apply gather_length in Hg. apply gather_length in Hgo. lia. }
  assert (Hmain : (let* idx0 := get_reorder_indices c (Some req) None in
                   let* new_obs := reorder_tuple (c_obs c) idx0 in
                   let* new_axes := reorder_tuple (c_axes c) idx0 in make_coords new_obs new_axes)
                  = match new with [] => Err CoordinatesUnderdefinedError
                    | _ => Ok (mkCoords (Some new) (Some axs')) end).
  { unfold get_reorder_indices. rewrite Ho. fold new. rewrite Hidx. simpl. rewrite Hgo. rewrite Ha. simpl.
    rewrite Hg. simpl. rewrite Hlen', Nat.eqb_refl. simpl.
    destruct new as [|n0 new'], axs' as [|a0 axs'']; simpl in *; try reflexivity; discriminate. }
  rewrite Ho in Hmain.
  split.
  - intros Hok. exists idx, axs'. split; [exact Hidx|]. split; [exact Hg|].
    assert (Hnn : new <> []).
    { destruct Hok as [[o [Hr Hos]] _]. intros E.
      assert (In o new) by (apply (filter_mem_In _ string_eqb_ok); split; assumption).
      rewrite E in H. destruct H. }
    apply Hc in Hok. revert Hok.
    destruct (negb (intersectsb String.eqb req os)); [discriminate|].
    destruct (negb (set_eqb String.eqb req os) && negb sup && negb (subsetb String.eqb req os)); [discriminate|].
    destruct (negb (set_eqb String.eqb req os) && negb sub && negb (subsetb String.eqb os req)); [discriminate|].
    intros _. rewrite Hmain. destruct new; [congruence|reflexivity].
  - intros Hn. revert Hc.
    destruct (negb (intersectsb String.eqb req os)); [reflexivity|].
    destruct (negb (set_eqb String.eqb req os) && negb sup && negb (subsetb String.eqb req os)); [reflexivity|].
    destruct (negb (set_eqb String.eqb req os) && negb sub && negb (subsetb String.eqb os req)); [reflexivity|].
    intros [Hc _]. exfalso. apply Hn, Hc. reflexivity.
Qed.

Lemma req_ok_dec own req sup sub : req_ok own req sup sub \/ ~ req_ok own req sup sub.
Proof.
  pose proof (req_check own req sup sub) as H.
  destruct (if negb (intersectsb String.eqb req own) then true else _) in H.
  - right. intros Hc. apply H in Hc. discriminate.
  - left. apply H. reflexivity.
Qed.

Lemma not_incl_exists (a b : list obs_t) : ~ incl a b -> exists o, In o a /\ ~ In o b.
Proof.
  intros H. induction a as [|x a IH]; [exfalso; apply H; intros y []|].
  destruct (eqb_In_dec String.eqb string_eqb_ok x b) as [Hx|Hx].
  - destruct IH as [o [Ho Hn]].
    + intros Hi. apply H. intros y [<-|Hy]; [exact Hx|apply Hi, Hy].
    + exists o. split; [right; exact Ho|exact Hn].
  - exists x. split; [left; reflexivity|exact Hx].
Qed.

Lemma not_req_ok own req sup sub :
  ~ req_ok own req sup sub <->
  disjoint_names req own \/ (sup = false /\ has_extra req own) \/ (sub = false /\ misses req own).
Proof.
  unfold req_ok, disjoint_names, has_extra, misses. split.
  - intros H.
    destruct (intersectsb String.eqb req own) eqn:E1.
    + right. apply (intersectsb_iff _ string_eqb_ok) in E1.
      destruct sup eqn:Es.
      * right. destruct sub eqn:Eb.
        -- exfalso. apply H. split; [exact E1|split; discriminate].
        -- split; [reflexivity|]. apply not_incl_exists. intros Hi. apply H.
           split; [exact E1|split; [discriminate|intros _; exact Hi]].
      * destruct (subsetb String.eqb req own) eqn:E2.
        -- apply (subsetb_incl _ string_eqb_ok) in E2. right. destruct sub eqn:Eb.
           ++ exfalso. apply H. split; [exact E1|split; [intros _; exact E2|discriminate]].
           ++ split; [reflexivity|]. apply not_incl_exists. intros Hi. apply H.
              split; [exact E1|split; intros _; assumption].
        -- left. split; [reflexivity|]. apply not_incl_exists. intros Hi.
           apply (subsetb_incl _ string_eqb_ok) in Hi. congruence.
    + left. intros o Ho Hown.
      assert (intersectsb String.eqb req own = true) by (apply (intersectsb_iff _ string_eqb_ok); exists o; tauto).
      congruence.
  - intros [H|[[Hs [o [H1 H2]]]|[Hs [o [H1 H2]]]]] [[x [Hx1 Hx2]] [Hp Hb]].
    + exact (H x Hx1 Hx2).
    + apply H2, (Hp Hs), H1.
    + apply H2, (Hb Hs), H1.
Qed.

Lemma paired_index c os axs o a :
  c_obs c = Some os -> c_axes c = Some axs -> NoDup os ->
  (paired c o a <-> exists i, index_of String.eqb o os = Some i /\ nth_error axs i = Some a).
Proof.
  intros Ho Ha Hnd. unfold paired. split.
  - intros [os' [axs' [k [H1 [H2 [H3 H4]]]]]]. rewrite Ho in H1. rewrite Ha in H2.
    inversion H1; inversion H2; subst. exists k. split; [|exact H4].
    apply nodup_index_of; [exact string_eqb_ok|exact Hnd|exact H3].
  - intros [i [Hi Hai]]. exists os, axs, i.
    apply (index_of_nth _ string_eqb_ok) in Hi. auto.
Qed.

Lemma with_obs_correct c os axs req sup sub c' :
  labelled c os axs -> with_obs c (Some req) sup sub = Ok c' ->
  exists os' axs', c_obs c' = Some os' /\ c_axes c' = Some axs' /\ length os' = length axs'
    /\ selects os req os'
    /\ (forall o a, In o os' -> (paired c' o a <-> paired c o a)).
Proof.
  intros [Ho [Ha [Hl [Hnd [Hnda Hne]]]]] H.
  destruct (with_obs_labelled c os axs req sup sub Ho Ha Hl) as [H1 H2].
  destruct (req_ok_dec os req sup sub) as [Hok|Hok]; [|rewrite (H2 Hok) in H; discriminate].
  destruct (H1 Hok) as [idx [axs' [Hidx [Hg Hw]]]]. rewrite Hw in H. inversion H; subst c'. clear H.
  set (new := filter (fun x => mem String.eqb x os) req) in *.
  exists new, axs'. simpl.
  assert (Hgo : gather os idx = Some new) by (eapply reorder_gather_self; [exact string_eqb_ok|exact Hidx]).
  split; [reflexivity|]. split; [reflexivity|].
  split; [apply gather_length in Hg; apply gather_length in Hgo; lia|].
  split; [apply filter_selects|].
  intros o a Hin.
  assert (Hval : forall k, nth_error new k = Some o ->
            exists i, index_of String.eqb o os = Some i /\ nth_error axs' k = nth_error axs i).
  { intros k Hk. eapply reorder_gather_values; [exact Hidx|exact Hg|exact Hk]. }
  rewrite (paired_index c os axs) by assumption.
  split.
  - intros [os1 [axs1 [k [E1 [E2 [E3 E4]]]]]]. simpl in E1, E2. inversion E1; inversion E2; subst.
    destruct (Hval k E3) as [i [Hi He]]. exists i. split; [exact Hi|congruence].
  - intros [i [Hi Hai]]. apply In_nth_error in Hin. destruct Hin as [k Hk].
    destruct (Hval k Hk) as [j [Hj He]]. assert (i = j) by congruence. subst j.
    exists new, axs', k. simpl. repeat split; try reflexivity; congruence.
Qed.

Lemma with_obs_raises c os axs req sup sub :
  labelled c os axs ->
  (disjoint_names req os \/ (sup = false /\ has_extra req os) \/ (sub = false /\ misses req os)
   <-> with_obs c (Some req) sup sub = Err ObsIncompatibleError)
  /\ (forall e, with_obs c (Some req) sup sub = Err e -> e = ObsIncompatibleError).
Proof.
  intros [Ho [Ha [Hl _]]].
  destruct (with_obs_labelled c os axs req sup sub Ho Ha Hl) as [H1 H2].
  rewrite <- not_req_ok.
  destruct (req_ok_dec os req sup sub) as [Hok|Hok].
  - destruct (H1 Hok) as [idx [axs' [_ [_ Hw]]]]. rewrite Hw. split.
    + split; [intros Hn; contradiction|discriminate].
    + intros e He. discriminate.
  - rewrite (H2 Hok). split; [tauto|]. intros e He. congruence.
Qed.

(** Observables only (no axes): same selection. *)
Lemma with_obs_no_axes c os req sup sub :
  c_obs c = Some os -> c_axes c = None ->
  with_obs c (Some req) sup sub =
    if negb (intersectsb String.eqb req os) then Err ObsIncompatibleError
    else if negb (set_eqb String.eqb req os) && negb sup && negb (subsetb String.eqb req os) then Err ObsIncompatibleError
    else if negb (set_eqb String.eqb req os) && negb sub && negb (subsetb String.eqb os req) then Err ObsIncompatibleError
    else Ok (mkCoords (Some (filter (fun x => mem String.eqb x os) req)) None).
Proof.
  intros Ho Ha. unfold with_obs. rewrite Ho.
  destruct (negb (intersectsb String.eqb req os)) eqn:E1; [reflexivity|].
  destruct (negb (set_eqb String.eqb req os) && negb sup && negb (subsetb String.eqb req os)); [reflexivity|].
  destruct (negb (set_eqb String.eqb req os) && negb sub && negb (subsetb String.eqb os req)); [reflexivity|].
  set (new := filter (fun x => mem String.eqb x os) req).
  assert (Hincl : incl new os).
  { intros x Hx. unfold new in Hx. apply (filter_mem_In _ string_eqb_ok) in Hx. apply Hx. }
  destruct (reorder_indices_total String.eqb string_eqb_ok os new Hincl) as [idx Hidx].
  assert (Hgo : gather os idx = Some new) by (eapply reorder_gather_self; [exact string_eqb_ok|exact Hidx]).
  unfold get_reorder_indices. rewrite Ho. fold new. rewrite Hidx. simpl. rewrite Hgo, Ha. simpl.
  assert (Hnn : new <> []).
  { apply negb_false_iff in E1. apply (intersectsb_iff _ string_eqb_ok) in E1. destruct E1 as [o [H1 H2]].
    intros E. assert (In o new) by (apply (filter_mem_In _ string_eqb_ok); split; assumption).
    rewrite E in H. destruct H. }
  destruct new; [congruence|reflexivity].
Qed.

(** ** Composition *)
Lemma filter_filter_incl os req1 req2 :
  incl req2 req1 ->
  filter (fun x => mem String.eqb x (filter (fun x => mem String.eqb x os) req1)) req2
  = filter (fun x => mem String.eqb x os) req2.
Proof.
  intros Hi. apply filter_ext_in. intros x Hx.
  destruct (mem String.eqb x os) eqn:E.
  - apply (mem_In _ string_eqb_ok). apply (filter_mem_In _ string_eqb_ok). split; [apply Hi, Hx|].
    apply (mem_In _ string_eqb_ok). exact E.
  - apply (mem_false _ string_eqb_ok). intros H. apply (filter_mem_In _ string_eqb_ok) in H.
    apply (mem_false _ string_eqb_ok) in E. tauto.
Qed.

Lemma with_obs_compose c os axs req1 req2 c1 :
  labelled c os axs -> incl req2 req1 ->
  with_obs c (Some req1) true true = Ok c1 ->
  with_obs c1 (Some req2) true true = with_obs c (Some req2) true true.
Proof.
  intros Hlab Hi Hw1. pose proof Hlab as [Ho [Ha [Hl [Hnd [Hnda Hne]]]]].
  destruct (with_obs_labelled c os axs req1 true true Ho Ha Hl) as [H1 H1'].
  destruct (req_ok_dec os req1 true true) as [Hok1|Hok1]; [|rewrite (H1' Hok1) in Hw1; discriminate].
  destruct (H1 Hok1) as [idx1 [axs1 [Hidx1 [Hg1 Hw]]]]. rewrite Hw in Hw1. inversion Hw1; subst c1; clear Hw1 Hw.
  set (os1 := filter (fun x => mem String.eqb x os) req1) in *.
  assert (Hgo1 : gather os idx1 = Some os1) by (eapply reorder_gather_self; [exact string_eqb_ok|exact Hidx1]).
  assert (Hl1 : length os1 = length axs1).
  { apply gather_length in Hg1. apply gather_length in Hgo1. lia. }
  destruct (with_obs_labelled (mkCoords (Some os1) (Some axs1)) os1 axs1 req2 true true eq_refl eq_refl Hl1) as [H2 H2'].
  destruct (with_obs_labelled c os axs req2 true true Ho Ha Hl) as [H3 H3'].
  assert (Heq : req_ok os1 req2 true true <-> req_ok os req2 true true).
  { unfold req_ok. split; intros [[o [Hr Hos]] _]; (split; [|split; discriminate]); exists o; (split; [exact Hr|]).
    - unfold os1 in Hos. apply (filter_mem_In _ string_eqb_ok) in Hos. apply Hos.
    - unfold os1. apply (filter_mem_In _ string_eqb_ok). split; [apply Hi, Hr|exact Hos]. }
  destruct (req_ok_dec os req2 true true) as [Hok|Hok].
  - destruct (H3 Hok) as [idx3 [axs3 [Hidx3 [Hg3 Hw3]]]].
    destruct (H2 (proj2 Heq Hok)) as [idx2 [axs2 [Hidx2 [Hg2 Hw2]]]].
    rewrite Hw2, Hw3. unfold os1 at 1. rewrite filter_filter_incl by exact Hi.
    do 3 f_equal.
    unfold os1 in Hidx2 at 2. rewrite filter_filter_incl in Hidx2 by exact Hi.
    set (new := filter (fun x => mem String.eqb x os) req2) in *.
    assert (Lnew3 : length axs3 = length new).
    { apply gather_length in Hg3. apply reorder_indices_ok, Forall2_length' in Hidx3. lia. }
    assert (Lnew2 : length axs2 = length new).
    { apply gather_length in Hg2. apply reorder_indices_ok, Forall2_length' in Hidx2. lia. }
    apply nth_error_ext. intros k.
    destruct (nth_error new k) as [o|] eqn:Ek.
    + destruct (reorder_gather_values _ _ _ _ _ _ _ _ Hidx3 Hg3 Ek) as [i3 [Hi3 He3]].
      destruct (reorder_gather_values _ _ _ _ _ _ _ _ Hidx2 Hg2 Ek) as [i2 [Hi2 He2]].
      rewrite He3, He2.
      apply (index_of_nth _ string_eqb_ok) in Hi2.
      destruct (reorder_gather_values _ _ _ _ _ _ _ _ Hidx1 Hg1 Hi2) as [i1 [Hi1 He1]].
      rewrite He1. congruence.
    + apply nth_error_None in Ek.
      rewrite (proj2 (nth_error_None axs2 k)) by lia. rewrite (proj2 (nth_error_None axs3 k)) by lia. reflexivity.
  - rewrite (H3' Hok). apply H2'. rewrite Heq. exact Hok.
Qed.

Lemma filter_mem_self (l : list obs_t) l' : incl l l' -> filter (fun x => mem String.eqb x l') l = l.
Proof.
  intros H. induction l as [|x l IH]; simpl; [reflexivity|].
  assert (E : mem String.eqb x l' = true) by (apply (mem_In _ string_eqb_ok), H; left; reflexivity).
  rewrite E. f_equal. apply IH. intros y Hy. apply H. right. exact Hy.
Qed.

Lemma reorder_indices_self (l : list obs_t) : NoDup l -> reorder_indices String.eqb l l = Ok (seq 0 (length l)).
Proof.
  intros Hnd. apply reorder_indices_ok. apply Forall2_nth. split; [rewrite seq_length; reflexivity|].
  intros k a b Hk Hb. apply nodup_index_of; [exact string_eqb_ok|exact Hnd|].
  assert (k < length l) by (apply nth_error_Some; congruence).
  rewrite (nth_error_nth' _ 0) in Hb by (rewrite seq_length; lia). rewrite seq_nth in Hb by lia.
  inversion Hb; subst. simpl. exact Hk.
Qed.

Lemma gather_seq {V} (x : list V) : gather x (seq 0 (length x)) = Some x.
Proof.
  apply gather_forall2. apply Forall2_nth. split; [apply seq_length|].
  intros k i a Hk Ha.
  assert (k < length x) by (apply nth_error_Some; congruence).
  rewrite (nth_error_nth' _ 0) in Hk by (rewrite seq_length; lia). rewrite seq_nth in Hk by lia.
  inversion Hk; subst. exact Ha.
Qed.

Lemma with_obs_own c os axs sup sub : labelled c os axs -> with_obs c (Some os) sup sub = Ok c.
Proof.
  intros [Ho [Ha [Hl [Hnd [Hnda Hne]]]]].
  destruct (with_obs_labelled c os axs os sup sub Ho Ha Hl) as [H _].
  destruct H as [idx [axs' [Hidx [Hg Hw]]]].
  { split; [|split; intros _; apply incl_refl]. destruct os as [|o os]; [congruence|]. exists o. split; left; reflexivity. }
  rewrite Hw. rewrite filter_mem_self in * by apply incl_refl.
  rewrite reorder_indices_self in Hidx by exact Hnd. inversion Hidx; subst idx.
  rewrite Hl, gather_seq in Hg. inversion Hg; subst. destruct c; simpl in *; congruence.
Qed.

Lemma with_obs_undo c os axs p c1 :
  labelled c os axs -> is_perm p os ->
  with_obs c (Some p) false false = Ok c1 -> with_obs c1 (Some os) false false = Ok c.
Proof.
  intros Hlab [Hp [_ Hpo]] Hw.
  pose proof Hlab as [Ho [Ha [Hl [Hnd [Hnda Hne]]]]].
  destruct (with_obs_labelled c os axs p false false Ho Ha Hl) as [H1 H1'].
  destruct (req_ok_dec os p false false) as [Hok|Hok]; [|rewrite (H1' Hok) in Hw; discriminate].
  destruct (with_obs_labelled c os axs p true true Ho Ha Hl) as [H2 _].
  destruct (H1 Hok) as [i1 [a1 [Hi1 [Hg1 Hw1]]]].
  destruct H2 as [i2 [a2 [Hi2 [Hg2 Hw2]]]].
  { destruct Hok as [He _]. split; [exact He|split; discriminate]. }
  assert (E : with_obs c (Some p) true true = Ok c1) by congruence.
  assert (Hc1 : c_obs c1 = Some (filter (fun x => mem String.eqb x os) p) /\ c_axes c1 = Some a1).
  { rewrite Hw1 in Hw. inversion Hw; subst. split; reflexivity. }
  assert (Hio : incl os p) by (intros x Hx; apply Hpo, Hx).
  pose proof (with_obs_compose c os axs p os c1 Hlab Hio E) as Hc.
  rewrite (with_obs_own c os axs true true Hlab) in Hc.
  (* the strict flags do not matter since the name sets agree *)
  destruct Hc1 as [Hc1o Hc1a].
  rewrite filter_mem_self in Hc1o by (intros x Hx; apply Hpo, Hx).
  rewrite filter_mem_self in Hi1 by (intros x Hx; apply Hpo, Hx).
  assert (Hlp : length p = length a1).
  { apply gather_length in Hg1. apply reorder_indices_ok, Forall2_length' in Hi1. lia. }
  destruct (with_obs_labelled c1 p a1 os true true Hc1o Hc1a Hlp) as [H3 H3'].
  destruct (with_obs_labelled c1 p a1 os false false Hc1o Hc1a Hlp) as [H4 _].
  assert (Hok3 : req_ok p os false false).
  { split; [|split; intros _ x Hx; apply Hpo, Hx]. destruct os as [|o os]; [congruence|].
    exists o. split; [left; reflexivity|]. apply Hpo. left. reflexivity. }
  destruct H4 as [i4 [a4 [Hi4 [Hg4 Hw4]]]]; [exact Hok3|].
  destruct H3 as [i3 [a3 [Hi3 [Hg3 Hw3]]]]; [destruct Hok3 as [He _]; split; [exact He|split; discriminate]|].
  rewrite Hw4. rewrite Hw3 in Hc. rewrite <- Hc. do 3 f_equal. congruence.
Qed.

(** ** with_axes mirrors with_obs *)
Definition areq_ok (own req : list axis_t) (sup sub : bool) : Prop :=
  (exists o, In o req /\ In o own)
  /\ (sup = false -> incl req own) /\ (sub = false -> incl own req).

Lemma areq_check own req sup sub :
  (if negb (intersectsb Z.eqb req own) then true
   else if negb (set_eqb Z.eqb req own) && negb sup && negb (subsetb Z.eqb req own) then true
   else if negb (set_eqb Z.eqb req own) && negb sub && negb (subsetb Z.eqb own req) then true
   else false) = false <-> areq_ok own req sup sub.
Proof.
  unfold areq_ok. rewrite <- (intersectsb_iff _ Z_eqb_ok).
  rewrite <- !(subsetb_incl _ Z_eqb_ok). unfold set_eqb.
  destruct (intersectsb Z.eqb req own), (subsetb Z.eqb req own), (subsetb Z.eqb own req), sup, sub;
    simpl; (split; [intros H; try discriminate H; repeat split; intros; congruence
                   |intros [H1 [H2 H3]]; first [reflexivity | discriminate H1
                      | discriminate (H2 eq_refl) | discriminate (H3 eq_refl)]]).
Qed.

Lemma areq_ok_dec own req sup sub : areq_ok own req sup sub \/ ~ areq_ok own req sup sub.
Proof.
  pose proof (areq_check own req sup sub) as H.
  destruct (if negb (intersectsb Z.eqb req own) then true else _) in H.
  - right. intros Hc. apply H in Hc. discriminate.
  - left. apply H. reflexivity.
Qed.

Lemma with_axes_labelled c os axs req sup sub :
  c_obs c = Some os -> c_axes c = Some axs -> length os = length axs -> axs <> [] ->
  (areq_ok axs req sup sub ->
     exists idx os',
       reorder_indices Z.eqb axs (filter (fun x => mem Z.eqb x axs) req) = Ok idx
       /\ gather os idx = Some os'
       /\ with_axes c (Some req) sup sub =
            Ok (mkCoords (Some os') (Some (filter (fun x => mem Z.eqb x axs) req))))
  /\ (~ areq_ok axs req sup sub -> with_axes c (Some req) sup sub = Err AxesIncompatibleError).
Proof.
  intros Ho Ha Hlen Hne. unfold with_axes. rewrite Ha. rewrite Ho.
  replace (nonempty (Some axs)) with true by (destruct axs; [congruence|reflexivity]). simpl negb at 1. simpl andb at 1.
  pose proof (areq_check axs req sup sub) as Hc.
  set (new := filter (fun x => mem Z.eqb x axs) req) in *.
  assert (Hincl : incl new axs).
  { intros x Hx. unfold new in Hx. apply (filter_mem_In _ Z_eqb_ok) in Hx. apply Hx. }
  destruct (reorder_indices_total Z.eqb Z_eqb_ok axs new Hincl) as [idx Hidx].
  assert (Hlt : forall i, In i idx -> i < length os).
  { intros i Hi. rewrite Hlen. eapply reorder_indices_lt; [exact Z_eqb_ok|exact Hidx|exact Hi]. }
  destruct (gather_total os idx Hlt) as [os' Hg].
  assert (Hgo : gather axs idx = Some new) by (eapply reorder_gather_self; [exact Z_eqb_ok|exact Hidx]).
  assert (Hlen' : length os' = length new).
  { apply gather_length in Hg. apply gather_length in Hgo. lia. }
  assert (Hmain : (let* idx0 := get_reorder_indices c None (Some req) in
                   let* new_obs := reorder_tuple (Some os) idx0 in
                   let* new_axes := reorder_tuple (Some axs) idx0 in make_coords new_obs new_axes)
                  = match new with [] => Err CoordinatesUnderdefinedError
                    | _ => Ok (mkCoords (Some os') (Some new)) end).
  { unfold get_reorder_indices. rewrite Ho, Ha. fold new. rewrite Hidx. simpl. rewrite Hgo. simpl.
    rewrite Hg. simpl. rewrite Hlen', Nat.eqb_refl. simpl.
    destruct new as [|n0 new'], os' as [|a0 os'']; simpl in *; try reflexivity; discriminate. }
  split.
  - intros Hok. exists idx, os'. split; [exact Hidx|]. split; [exact Hg|].
    assert (Hnn : new <> []).
    { destruct Hok as [[o [Hr Hos]] _]. intros E.
      assert (In o new) by (apply (filter_mem_In _ Z_eqb_ok); split; assumption).
      rewrite E in H. destruct H. }
    apply Hc in Hok. revert Hok.
    destruct (negb (intersectsb Z.eqb req axs)); [discriminate|].
    destruct (negb (set_eqb Z.eqb req axs) && negb sup && negb (subsetb Z.eqb req axs)); [discriminate|].
    destruct (negb (set_eqb Z.eqb req axs) && negb sub && negb (subsetb Z.eqb axs req)); [discriminate|].
    intros _. rewrite Hmain. destruct new; [congruence|reflexivity].
  - intros Hn. revert Hc.
    destruct (negb (intersectsb Z.eqb req axs)); [reflexivity|].
    destruct (negb (set_eqb Z.eqb req axs) && negb sup && negb (subsetb Z.eqb req axs)); [reflexivity|].
    destruct (negb (set_eqb Z.eqb req axs) && negb sub && negb (subsetb Z.eqb axs req)); [reflexivity|].
    intros [Hc _]. exfalso. apply Hn, Hc. reflexivity.
Qed.

Lemma with_axes_correct c os axs req sup sub c' :
  labelled c os axs -> with_axes c (Some req) sup sub = Ok c' ->
  exists os' axs', c_obs c' = Some os' /\ c_axes c' = Some axs' /\ length os' = length axs'
    /\ axs' = filter (fun a => existsb (Z.eqb a) axs) req
    /\ (forall o a, In a axs' -> (paired c' o a <-> paired c o a)).
Proof.
  intros [Ho [Ha [Hl [Hnd [Hnda Hne]]]]] H.
  assert (Hane : axs <> []) by (destruct axs; [destruct os; [congruence|discriminate]|discriminate]).
  destruct (with_axes_labelled c os axs req sup sub Ho Ha Hl Hane) as [H1 H2].
  destruct (areq_ok_dec axs req sup sub) as [Hok|Hok]; [|rewrite (H2 Hok) in H; discriminate].
  destruct (H1 Hok) as [idx [os' [Hidx [Hg Hw]]]]. rewrite Hw in H. inversion H; subst c'. clear H.
  set (new := filter (fun x => mem Z.eqb x axs) req) in *.
  exists os', new. simpl.
  assert (Hgo : gather axs idx = Some new) by (eapply reorder_gather_self; [exact Z_eqb_ok|exact Hidx]).
  split; [reflexivity|]. split; [reflexivity|].
  split; [apply gather_length in Hg; apply gather_length in Hgo; lia|].
  split; [reflexivity|].
  intros o a Hin.
  assert (Hval : forall k, nth_error new k = Some a ->
            exists i, index_of Z.eqb a axs = Some i /\ nth_error os' k = nth_error os i).
  { intros k Hk. eapply reorder_gather_values; [exact Hidx|exact Hg|exact Hk]. }
  split.
  - intros [os1 [axs1 [k [E1 [E2 [E3 E4]]]]]]. simpl in E1, E2. inversion E1; inversion E2; subst.
    destruct (Hval k E4) as [i [Hi He]]. exists os, axs, i.
    apply (index_of_nth _ Z_eqb_ok) in Hi. repeat split; try assumption. congruence.
  - intros [os1 [axs1 [k [E1 [E2 [E3 E4]]]]]].
    assert (os1 = os) by congruence. assert (axs1 = axs) by congruence. subst os1 axs1.
    apply In_nth_error in Hin. destruct Hin as [j Hj].
    destruct (Hval j Hj) as [i [Hi He]].
    assert (i = k).
    { pose proof (nodup_index_of _ Z_eqb_ok a axs k Hnda E4) as Hk. congruence. }
    subst i. exists os', new, j. simpl. repeat split; try reflexivity; congruence.
Qed.

(** ** reorder_x *)
Lemma reorder_x_xobs {V} c os (x : list V) o :
  c_obs c = Some os -> os <> [] -> is_perm o os -> length x = length o ->
  exists y, reorder_x c x (Some o) None None None = Ok y
    /\ length y = length os
    /\ (forall n v, column os y n v <-> column o x n v).
Proof.
  intros Ho Hne [Hno [Hnos Hp]] Hl.
  destruct (reorder_indices_total String.eqb string_eqb_ok o os) as [idx Hidx]; [intros n Hn; apply Hp, Hn|].
  assert (Hlt : forall i, In i idx -> i < length x).
  { intros i Hi. rewrite Hl. eapply reorder_indices_lt; [exact string_eqb_ok|exact Hidx|exact Hi]. }
  destruct (gather_total x idx Hlt) as [y Hg].
  exists y. split; [|split].
  - unfold reorder_x. rewrite Ho. destruct os as [|o0 os']; [congruence|].
    cbn -[reorder_indices gather]. rewrite Hidx. cbn -[gather]. rewrite Hg. reflexivity.
  - apply gather_length in Hg. apply reorder_indices_ok, Forall2_length' in Hidx. lia.
  - intros n v. unfold column. split.
    + intros [k [Hk Hv]]. destruct (reorder_gather_values _ _ _ _ _ _ _ _ Hidx Hg Hk) as [i [Hi He]].
      exists i. split; [eapply index_of_nth; [exact string_eqb_ok|exact Hi]|congruence].
    + intros [i [Hi Hv]].
      assert (Hin : In n os) by (apply Hp; eapply nth_error_In; exact Hi).
      apply In_nth_error in Hin. destruct Hin as [k Hk]. exists k. split; [exact Hk|].
      destruct (reorder_gather_values _ _ _ _ _ _ _ _ Hidx Hg Hk) as [j [Hj He]].
      assert (i = j).
      { pose proof (nodup_index_of _ string_eqb_ok n o i Hno Hi). congruence. }
      congruence.
Qed.

Lemma reorder_x_func {V} c os (x : list V) o :
  c_obs c = Some os -> os <> [] -> NoDup os -> incl o os -> length x = length os ->
  exists y, reorder_x c x None None (Some o) None = Ok y
    /\ length y = length o
    /\ (forall k n, nth_error o k = Some n -> forall v, nth_error y k = Some v <-> column os x n v).
Proof.
  intros Ho Hne Hnos Hp Hl.
  destruct (reorder_indices_total String.eqb string_eqb_ok os o Hp) as [idx Hidx].
  assert (Hlt : forall i, In i idx -> i < length x).
  { intros i Hi. rewrite Hl. eapply reorder_indices_lt; [exact string_eqb_ok|exact Hidx|exact Hi]. }
  destruct (gather_total x idx Hlt) as [y Hg].
  exists y. split; [|split].
  - unfold reorder_x. rewrite Ho. destruct os as [|o0 os']; [congruence|].
    cbn -[reorder_indices gather]. rewrite Hidx. cbn -[gather]. rewrite Hg. reflexivity.
  - apply gather_length in Hg. apply reorder_indices_ok, Forall2_length' in Hidx. lia.
  - intros k n Hk v. destruct (reorder_gather_values _ _ _ _ _ _ _ _ Hidx Hg Hk) as [i [Hi He]].
    rewrite He. unfold column. split.
    + intros Hv. exists i. split; [eapply index_of_nth; [exact string_eqb_ok|exact Hi]|exact Hv].
    + intros [j [Hj Hv]]. pose proof (nodup_index_of _ string_eqb_ok n os j Hnos Hj). congruence.
Qed.

Lemma column_ext {V} os (x y : list V) :
  NoDup os -> length x = length os -> length y = length os ->
  (forall n v, column os x n v <-> column os y n v) -> x = y.
Proof.
  intros Hnd Hx Hy H. apply nth_error_ext. intros k.
  destruct (nth_error os k) as [n|] eqn:Ek.
  - assert (k < length os) by (apply nth_error_Some; congruence).
    destruct (nth_error x k) as [v|] eqn:Ex; [|apply nth_error_None in Ex; lia].
    assert (Hc : column os x n v) by (exists k; split; assumption).
    apply H in Hc. destruct Hc as [j [Hj Hv]].
    assert (j = k). { rewrite NoDup_nth_error in Hnd. apply Hnd; [apply nth_error_Some; congruence|congruence]. }
    subst j. congruence.
  - apply nth_error_None in Ek.
    rewrite (proj2 (nth_error_None x k)) by lia. rewrite (proj2 (nth_error_None y k)) by lia. reflexivity.
Qed.

Lemma reorder_x_roundtrip {V} c os (x : list V) o :
  c_obs c = Some os -> os <> [] -> is_perm o os -> length x = length o ->
  exists y, reorder_x c x (Some o) None None None = Ok y
    /\ reorder_x c y None None (Some o) None = Ok x.
Proof.
  intros Ho Hne Hperm Hl. pose proof Hperm as [Hno [Hnos Hp]].
  destruct (reorder_x_xobs c os x o Ho Hne Hperm Hl) as [y [Hy [Hly Hcy]]].
  exists y. split; [exact Hy|].
  destruct (reorder_x_func c os y o Ho Hne Hnos) as [w [Hw [Hlw Hcw]]];
    [intros n Hn; apply Hp, Hn|exact Hly|].
  rewrite Hw. f_equal.
  apply (column_ext o); [exact Hno|exact Hlw|exact Hl|].
  intros n v. rewrite <- (Hcy n v). unfold column at 1. split.
  - intros [k [Hk Hv]]. apply (Hcw k n Hk v). exact Hv.
  - intros H. destruct (proj1 (Hcy n v) H) as [k [Hk Hv]]. exists k. split; [exact Hk|].
    apply (Hcw k n Hk v). exact H.
Qed.

Lemma reorder_x_roundtrip' {V} c os (x : list V) o :
  c_obs c = Some os -> os <> [] -> is_perm o os -> length x = length os ->
  exists y, reorder_x c x None None (Some o) None = Ok y
    /\ reorder_x c y (Some o) None None None = Ok x.
Proof.
  intros Ho Hne Hperm Hl. pose proof Hperm as [Hno [Hnos Hp]].
  destruct (reorder_x_func c os x o Ho Hne Hnos) as [y [Hy [Hly Hcy]]];
    [intros n Hn; apply Hp, Hn|exact Hl|].
  exists y. split; [exact Hy|].
  destruct (reorder_x_xobs c os y o Ho Hne Hperm) as [w [Hw [Hlw Hcw]]]; [exact Hly|].
  rewrite Hw. f_equal. apply (column_ext os); [exact Hnos|exact Hlw|exact Hl|].
  intros n v. rewrite Hcw. unfold column at 1. split.
  - intros [k [Hk Hv]]. apply (Hcy k n Hk v). exact Hv.
  - intros H. assert (Hin : In n o). { apply Hp. destruct H as [k [Hk _]]. eapply nth_error_In; exact Hk. }
    apply In_nth_error in Hin. destruct Hin as [k Hk]. exists k. split; [exact Hk|].
    apply (Hcy k n Hk v). exact H.
Qed.
