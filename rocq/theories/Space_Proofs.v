(** Proofs for spaces. *)
From Coq Require Import Permutation.
From Verif Require Import Base BaseLemmas Coord_Model Coord_Spec Coord_Proofs Space_Model Space_Spec.

(* ---------- generic ---------- *)
Lemma bind_ok {A B} (r : result A) (f : A -> result B) b :
  bind r f = Ok b -> exists a, r = Ok a /\ f a = Ok b.
Proof. destruct r as [a|e]; simpl; [eauto|discriminate]. Qed.

Ltac bindn H x Hx := apply bind_ok in H; destruct H as [x [Hx H]].
Ltac inv_bind H :=
  let a := fresh "a" in let E := fresh "E" in
  apply bind_ok in H; destruct H as [a [E H]].

Lemma mapM_map_ok {A B} (f : A -> result B) (g : A -> B) l :
  (forall a, In a l -> f a = Ok (g a)) -> mapM f l = Ok (map g l).
Proof.
  induction l as [|a l IH]; intros H; simpl; [reflexivity|].
  rewrite (H a (or_introl eq_refl)). simpl. rewrite IH; [reflexivity|].
  intros b Hb. apply H. right. exact Hb.
Qed.

Lemma make_coords_fields obs axes c : make_coords obs axes = Ok c -> c_obs c = obs /\ c_axes c = axes.
Proof.
  unfold make_coords.
  destruct obs as [o|], axes as [a|]; try discriminate.
  - destruct (negb (length o =? length a)); [discriminate|].
    destruct (negb _); [discriminate|]. intros H. inversion H; subst. split; reflexivity.
  - destruct (negb _); [discriminate|]. intros H. inversion H; subst. split; reflexivity.
  - destruct (negb _); [discriminate|]. intros H. inversion H; subst. split; reflexivity.
Qed.

Lemma make_coords_nonempty os axes c : make_coords (Some os) axes = Ok c -> os <> [].
Proof.
  unfold make_coords. destruct axes as [a|].
  - destruct (length os =? length a) eqn:El; simpl; [|discriminate].
    destruct os; [|discriminate]. destruct a; [|discriminate]. simpl. discriminate.
  - destruct os; simpl; [discriminate|]. discriminate.
Qed.

Definition sel (os req : list string) : list string := filter (fun x => mem String.eqb x os) req.

Lemma sel_In os req o : In o (sel os req) <-> In o req /\ In o os.
Proof. apply filter_mem_In. auto. Qed.
Lemma sel_nodup os req : NoDup req -> NoDup (sel os req).
Proof. apply NoDup_filter. Qed.

Lemma with_obs_obs c os req sup sub c' :
  c_obs c = Some os -> with_obs c (Some req) sup sub = Ok c' ->
  c_obs c' = Some (sel os req) /\ sel os req <> [].
Proof.
  intros Ho H. unfold with_obs in H. rewrite Ho in H.
  destruct (negb (intersectsb String.eqb req os)) eqn:Ei; [discriminate|].
  destruct (_ && _ && _); [discriminate|]. destruct (_ && _ && _); [discriminate|].
  inv_bind H. unfold get_reorder_indices in E. rewrite Ho in E.
  pose proof (reorder_gather_self _ string_eqb_ok _ _ _ E) as Hg.
  unfold reorder_tuple in H. rewrite Hg in H. cbn [bind opt_result] in H.
  inv_bind H. apply make_coords_fields in H. destruct H as [H _]. split; [exact H|].
  apply negb_false_iff in Ei. apply (intersectsb_iff _ string_eqb_ok) in Ei.
  destruct Ei as [o [H1 H2]]. intros E'. assert (Hin : In o (sel os req)) by (apply sel_In; auto).
  rewrite E' in Hin. exact Hin.
Qed.

Lemma with_obs_total c os req sup sub :
  c_obs c = Some os -> c_axes c = None -> req_ok os req sup sub ->
  with_obs c (Some req) sup sub = Ok (mkCoords (Some (sel os req)) None).
Proof.
  intros Ho Ha Hr. rewrite (with_obs_no_axes _ _ _ _ _ Ho Ha).
  pose proof (proj2 (req_check os req sup sub) Hr) as Hc.
  destruct (negb (intersectsb String.eqb req os)); [discriminate|].
  destruct (_ && _ && _); [discriminate|]. destruct (_ && _ && _); [discriminate|]. reflexivity.
Qed.

(* ---------- the representation invariant ---------- *)
Definition dict_wf (d : list (list string * limit)) (os : list string) (f : string -> Q * Q) : Prop :=
  (forall k l, In (k, l) d -> exists o, k = [o] /\ In o os /\ l = LRect [f o])
  /\ (forall o, In o os -> In ([o], LRect [f o]) d)
  /\ NoDup (map fst d).
Definition wf_rect (s : space) (os : list string) (f : string -> Q * Q) : Prop :=
  s_obs s = Some os /\ NoDup os /\ os <> [] /\ exists d, s_dobs s = Some d /\ dict_wf d os f.

Lemma dict_wf_filter d os os' f :
  dict_wf d os f -> incl os' os -> dict_wf (filter (head_in String.eqb os') d) os' f.
Proof.
  intros [H1 [H2 H3]] Hi. split; [|split].
  - intros k l Hin. apply filter_In in Hin. destruct Hin as [Hin Hh].
    destruct (H1 _ _ Hin) as [o [-> [Ho ->]]]. exists o. split; [reflexivity|]. split; [|reflexivity].
    apply (mem_In _ string_eqb_ok). exact Hh.
  - intros o Ho. apply filter_In. split; [apply H2, Hi, Ho|].
    unfold head_in. simpl. apply (mem_In _ string_eqb_ok). exact Ho.
  - clear H1 H2. induction d as [|e d IH]; simpl in *; [constructor|].
    inversion H3 as [|? ? Hn Hnd]; subst.
    destruct (head_in String.eqb os' e); simpl; [|apply IH, Hnd].
    constructor; [|apply IH, Hnd]. intros Hin. apply Hn.
    apply in_map_iff in Hin. destruct Hin as [x [Hx Hin]]. apply filter_In in Hin.
    apply in_map_iff. exists x. split; [exact Hx|apply Hin].
Qed.

Lemma space_of_dict_wf c d da b os os' f s :
  dict_wf d os f -> incl os' os -> NoDup os' -> os' <> [] -> c_obs c = Some os' ->
  space_of_dict c (Some d) da b = Ok s -> wf_rect s os' f.
Proof.
  intros Hd Hi Hnd Hne Hc H. unfold space_of_dict in H. inv_bind H. destruct a as [no na].
  inv_bind H. inversion H; subst. clear H.
  unfold convert_limits_dict in E. rewrite Hc in E. destruct os' as [|o0 os']; [congruence|].
  cbn [bind] in E. inv_bind E. inversion E; subst.
  unfold wf_rect, s_obs. simpl. split; [exact Hc|]. split; [exact Hnd|]. split; [discriminate|].
  eexists. split; [reflexivity|]. eapply dict_wf_filter; eassumption.
Qed.

Lemma space_of_dict_coords c d da b s : space_of_dict c d da b = Ok s -> s_coords s = c.
Proof.
  unfold space_of_dict. intros H. inv_bind H. destruct a. inv_bind H. inversion H. reflexivity.
Qed.

Lemma dict_wf_perm d d' os f : Permutation d d' -> dict_wf d os f -> dict_wf d' os f.
Proof.
  intros P [H1 [H2 H3]]. split; [|split].
  - intros k l Hin. apply H1. eapply Permutation_in; [apply Permutation_sym; exact P|exact Hin].
  - intros o Ho. eapply Permutation_in; [exact P|apply H2, Ho].
  - eapply Permutation_NoDup; [apply Permutation_map; exact P|exact H3].
Qed.

Lemma insert_by_len_perm {K} (e : list K * limit) d : Permutation (e :: d) (insert_by_len e d).
Proof.
  induction d as [|e' d IH]; simpl; [reflexivity|].
  destruct (_ <? _); [reflexivity|].
  eapply perm_trans; [apply perm_swap|]. apply perm_skip. exact IH.
Qed.
Lemma sort_by_len_perm {K} (d : list (list K * limit)) : Permutation d (sort_by_len d).
Proof.
  unfold sort_by_len. change d with ([] ++ d) at 1. generalize (@nil (list K * limit)) as acc.
  induction d as [|e d IH]; intros acc; simpl; [rewrite app_nil_r; reflexivity|].
  eapply perm_trans; [apply Permutation_sym, Permutation_middle|].
  eapply perm_trans; [|apply IH].
  change (e :: acc ++ d) with ((e :: acc) ++ d). apply Permutation_app_tail, insert_by_len_perm.
Qed.

Lemma extract_sorted_wf d os f req d' :
  dict_wf d os f ->
  mapM (fun e : list string * limit =>
          if negb (intersectsb String.eqb (fst e) req) then Ok []
          else if subsetb String.eqb (fst e) req then Ok [e] else Err AttributeError) d = Ok d' ->
  concat d' = filter (head_in String.eqb req) d.
Proof.
  intros [H1 _]. revert d'. induction d as [|[k l] d IH]; intros d' H; simpl in H.
  - inversion H; reflexivity.
  - inv_bind H. inv_bind H. inversion H; subst. clear H.
    destruct (H1 k l (or_introl eq_refl)) as [o [-> [Ho ->]]].
    assert (IH' : concat a0 = filter (head_in String.eqb req) d).
    { apply IH; [intros k l Hin; apply H1; right; exact Hin|exact E0]. }
    simpl. rewrite IH'. unfold head_in. simpl.
    unfold intersectsb, subsetb in E. simpl in E.
    destruct (mem String.eqb o req); simpl in E; inversion E; subst; reflexivity.
Qed.

Lemma extract_ok d os f req :
  dict_wf d os f -> exists d', extract_limits String.eqb d req = Ok d'.
Proof.
  intros Hd. apply (dict_wf_perm _ _ _ _ (sort_by_len_perm d)) in Hd.
  unfold extract_limits.
  assert (exists es, mapM (fun e : list string * limit =>
          if negb (intersectsb String.eqb (fst e) req) then Ok []
          else if subsetb String.eqb (fst e) req then Ok [e] else Err AttributeError) (sort_by_len d) = Ok es) as [es He].
  { destruct Hd as [H1 _]. induction (sort_by_len d) as [|[k l] r IH]; [exists []; reflexivity|].
    destruct IH as [es He]; [intros k' l' Hin; apply H1; right; exact Hin|].
    destruct (H1 k l (or_introl eq_refl)) as [o [-> _]]. simpl. rewrite He.
    destruct (mem String.eqb o req); simpl; eexists; reflexivity. }
  rewrite He. simpl. eexists; reflexivity.
Qed.

Lemma extract_wf d os f req d' os' :
  dict_wf d os f -> (forall o, In o os' <-> In o req /\ In o os) ->
  extract_limits String.eqb d req = Ok d' -> dict_wf d' os' f.
Proof.
  intros Hd Hos H. apply (dict_wf_perm _ _ _ _ (sort_by_len_perm d)) in Hd.
  unfold extract_limits in H. inv_bind H. inversion H; subst. clear H.
  rewrite (extract_sorted_wf _ _ _ _ _ Hd E).
  assert (Heq : filter (head_in String.eqb req) (sort_by_len d)
                = filter (head_in String.eqb os') (sort_by_len d)).
  { apply filter_ext_in. intros [k l] Hin. destruct (proj1 Hd k l Hin) as [o [-> [Ho ->]]].
    unfold head_in. simpl.
    apply eq_true_iff_eq. rewrite !(mem_In _ string_eqb_ok), Hos. tauto. }
  rewrite Heq. eapply dict_wf_filter; [exact Hd|]. intros o Ho. apply Hos, Ho.
Qed.

(* ---------- the operations keep the invariant ---------- *)
Lemma combine_In_nth {A B} (a : list A) (b : list B) x y :
  In (x, y) (combine a b) <-> exists k, nth_error a k = Some x /\ nth_error b k = Some y.
Proof.
  revert b. induction a as [|x' a IH]; intros [|y' b]; simpl.
  - split; [intros []|intros [[|k] [H _]]; discriminate].
  - split; [intros []|intros [[|k] [H _]]; discriminate].
  - split; [intros []|intros [[|k] [_ H]]; discriminate].
  - split.
    + intros [H|H]; [inversion H; subst; exists 0; split; reflexivity|].
      apply IH in H. destruct H as [k Hk]. exists (S k). exact Hk.
    + intros [[|k] [H1 H2]]; simpl in *; [left; congruence|]. right. apply IH. exists k. auto.
Qed.

Definition limf (os : list string) (ivs : list (Q * Q)) (o : string) : Q * Q :=
  match lookup String.eqb o (combine os ivs) with Some iv => iv | None => (0, 0)%Q end.

Lemma map_fst_combine {A B} (a : list A) (b : list B) : length a = length b -> map fst (combine a b) = a.
Proof.
  revert b. induction a as [|x a IH]; intros [|y b] H; simpl in *; try discriminate; [reflexivity|].
  f_equal. apply IH. lia.
Qed.

Lemma limf_in os ivs o iv : NoDup os -> length os = length ivs -> In (o, iv) (combine os ivs) -> limf os ivs o = iv.
Proof.
  intros Hnd Hl Hin. unfold limf.
  apply (lookup_nodup _ string_eqb_ok) in Hin; [rewrite Hin; reflexivity|].
  rewrite map_fst_combine; assumption.
Qed.

Lemma map_limf os ivs : NoDup os -> length os = length ivs -> map (limf os ivs) os = ivs.
Proof.
  intros Hnd Hl. apply nth_error_ext. intros k. rewrite nth_error_map.
  destruct (nth_error os k) as [o|] eqn:Eo; simpl.
  - destruct (nth_error ivs k) as [iv|] eqn:Ei.
    + f_equal. apply limf_in; [assumption|assumption|]. apply combine_In_nth. exists k. auto.
    + apply nth_error_None in Ei. assert (k < length os) by (apply nth_error_Some; congruence). lia.
  - symmetry. apply nth_error_None. apply nth_error_None in Eo. lia.
Qed.

Lemma slice_dict_rect os ivs : length os = length ivs ->
  slice_dict os (map (fun iv => LRect [iv]) ivs) = map (fun p : string * (Q * Q) => ([fst p], LRect [snd p])) (combine os ivs).
Proof.
  revert os. induction ivs as [|iv ivs IH]; intros [|o os] H; simpl in *; try discriminate; [reflexivity|].
  f_equal. apply IH. lia.
Qed.

Lemma sublimits_rect ivs : ivs <> [] -> sublimits (LRect ivs) = map (fun iv => LRect [iv]) ivs.
Proof. intros H. destruct ivs as [|iv [|iv2 ivs]]; [congruence|reflexivity|reflexivity]. Qed.

Lemma slice_dict_wf os ivs : NoDup os -> os <> [] -> length os = length ivs ->
  dict_wf (slice_dict os (sublimits (LRect ivs))) os (limf os ivs).
Proof.
  intros Hnd Hne Hl.
  assert (Hi : ivs <> []) by (intros ->; destruct os; [congruence|discriminate]).
  rewrite sublimits_rect by exact Hi. rewrite slice_dict_rect by exact Hl.
  split; [|split].
  - intros k l Hin. apply in_map_iff in Hin. destruct Hin as [[o iv] [He Hin]]. inversion He; subst.
    exists o. split; [reflexivity|]. simpl. rewrite (limf_in _ _ _ _ Hnd Hl Hin).
    split; [|reflexivity]. eapply in_combine_l; exact Hin.
  - intros o Ho. apply in_map_iff.
    apply In_nth_error in Ho. destruct Ho as [k Hk].
    destruct (nth_error ivs k) as [iv|] eqn:Ei.
    + assert (Hin : In (o, iv) (combine os ivs)) by (apply combine_In_nth; exists k; auto).
      exists (o, iv). simpl. rewrite (limf_in _ _ _ _ Hnd Hl Hin). auto.
    + apply nth_error_None in Ei. assert (k < length os) by (apply nth_error_Some; congruence). lia.
  - rewrite map_map. simpl. rewrite <- (map_map fst (fun o => [o])). rewrite map_fst_combine by exact Hl.
    apply FinFun.Injective_map_NoDup; [|exact Hnd]. intros a b H. inversion H. reflexivity.
Qed.

Lemma check_rect_ok lo up n ivs : check_rect lo up n = Ok ivs ->
  length lo = n /\ length up = n /\ ivs = combine lo up /\ all_less lo up = true.
Proof.
  unfold check_rect.
  destruct (length lo =? length up) eqn:E1; simpl; [|discriminate].
  destruct (length lo =? n) eqn:E2; simpl; [|discriminate].
  destruct (all_less lo up) eqn:E3; simpl; [|discriminate].
  intros H. inversion H. apply Nat.eqb_eq in E1, E2. repeat split; congruence.
Qed.

Lemma make_space_wf os axs lo up b s :
  NoDup os -> make_space (Some os) axs (IRect lo up) b = Ok s ->
  length lo = length os /\ length up = length os /\ wf_rect s os (limf os (combine lo up)).
Proof.
  intros Hnd H. unfold make_space in H.
  replace (match axs, b with None, Some _ => Some os | _, _ => Some os end) with (Some os) in H
    by (destruct axs, b; reflexivity).
  apply bind_ok in H. destruct H as [c [Ec H]].
  apply bind_ok in H. destruct H as [l [El H]].
  pose proof (make_coords_nonempty _ _ _ Ec) as Hne.
  pose proof (make_coords_fields _ _ _ Ec) as [Ho Ha].
  unfold make_limit in El. destruct (check_rect lo up (n_obs c)) as [ivs|] eqn:Er; [|discriminate].
  simpl in El. inversion El; subst l. apply check_rect_ok in Er. destruct Er as [L1 [L2 [-> _]]].
  assert (Hn : n_obs c = length os) by (unfold n_obs; rewrite Ho; reflexivity).
  split; [lia|]. split; [lia|].
  rewrite Ho in H. simpl in H.
  eapply space_of_dict_wf; [apply slice_dict_wf; [exact Hnd|exact Hne|]|apply incl_refl|exact Hnd|exact Hne|exact Ho|exact H].
  rewrite combine_length. lia.
Qed.

Lemma make_space_binned_wf os axs b s :
  NoDup os -> make_space (Some os) axs INone (Some b) = Ok s ->
  exists ivs, length ivs = length os /\ wf_rect s os (limf os ivs).
Proof.
  intros Hnd H.
  assert (H' : make_space (Some os) axs (IRect (map (fun e => hd 0%Q (snd e)) b) (map (fun e => last (snd e) 0%Q) b)) (Some b) = Ok s)
    by exact H.
  apply make_space_wf in H'; [|exact Hnd]. destruct H' as [L1 [L2 H']].
  eexists. split; [|exact H']. rewrite combine_length. lia.
Qed.

Lemma with_obs_wf s os f req sup sub s' :
  wf_rect s os f -> NoDup req -> s_with_obs s (Some req) sup sub = Ok s' ->
  wf_rect s' (sel os req) f.
Proof.
  intros [Ho [Hnd [Hne [d [Hd Hw]]]]] Hr H. unfold s_with_obs in H.
  apply bind_ok in H. destruct H as [c [Ec H]].
  apply bind_ok in H. destruct H as [b [_ H]].
  destruct (with_obs_obs _ _ _ _ _ _ Ho Ec) as [Hc Hne'].
  rewrite Hd in H. eapply space_of_dict_wf; [exact Hw| |apply sel_nodup, Hr|exact Hne'|exact Hc|exact H].
  intros o Hin. apply sel_In in Hin. apply Hin.
Qed.

Lemma subspace_wf s os f req s' :
  wf_rect s os f -> NoDup req -> s_get_subspace s req = Ok s' -> wf_rect s' (sel os req) f.
Proof.
  intros [Ho [Hnd [Hne [d [Hd Hw]]]]] Hr H. unfold s_get_subspace in H. rewrite Hd in H.
  apply bind_ok in H. destruct H as [d' [Ed H]].
  apply bind_ok in H. destruct H as [c [Ec H]].
  destruct (with_obs_obs _ _ _ _ _ _ Ho Ec) as [Hc Hne'].
  eapply space_of_dict_wf; [|apply incl_refl|apply sel_nodup, Hr|exact Hne'|exact Hc|exact H].
  eapply extract_wf; [exact Hw| |exact Ed]. intros o. apply sel_In.
Qed.

Lemma NoDup_index_of {A} (eqb : A -> A -> bool) (Heqb : eqb_spec eqb) own (req : list A) idx :
  NoDup req -> Forall2 (fun o i => index_of eqb o own = Some i) req idx -> NoDup idx.
Proof.
  intros Hnd H. induction H as [|o i req idx Hi Hf IH]; [constructor|].
  inversion Hnd as [|? ? Hn Hnd']; subst. constructor; [|apply IH, Hnd'].
  intros Hin. apply Hn. clear - Heqb Hi Hf Hin.
  induction Hf as [|o' i' req idx Hi' _ IH]; [destruct Hin|].
  destruct Hin as [->|Hin]; [|right; apply IH, Hin].
  left. apply (index_of_nth _ Heqb) in Hi, Hi'. congruence.
Qed.

Lemma gather_nodup {A} (l : list A) idx r : NoDup l -> NoDup idx -> gather l idx = Some r -> NoDup r /\ incl r l.
Proof.
  intros Hl Hi H. apply gather_forall2 in H. split.
  - induction H as [|i a idx r Ha Hf IH]; [constructor|].
    inversion Hi as [|? ? Hn Hnd]; subst. constructor; [|apply IH, Hnd].
    intros Hin. apply Hn. clear - Hl Ha Hf Hin.
    induction Hf as [|i' a' idx r Ha' _ IH]; [destruct Hin|].
    destruct Hin as [->|Hin]; [|right; apply IH, Hin].
    left. apply (proj1 (NoDup_nth_error l) Hl); [|congruence].
    apply nth_error_Some. congruence.
  - induction H as [|i a idx r Ha Hf IH]; [intros x []|].
    inversion Hi; subst. intros x [->|Hx]; [eapply nth_error_In; exact Ha|apply IH; assumption].
Qed.

Lemma with_axes_obs c os req sup sub c' :
  c_obs c = Some os -> NoDup os -> os <> [] -> NoDup req -> with_axes c (Some req) sup sub = Ok c' ->
  exists os', c_obs c' = Some os' /\ incl os' os /\ NoDup os' /\ os' <> [].
Proof.
  intros Ho Hnd Hne Hr H. unfold with_axes in H. rewrite Ho in H.
  destruct (_ && _) in H; [discriminate|].
  destruct (c_axes c) as [own|] eqn:Ea.
  - destruct (negb (intersectsb Z.eqb req own)) eqn:Ei; [discriminate|].
    destruct (_ && _ && _) in H; [discriminate|]. destruct (_ && _ && _) in H; [discriminate|].
    apply bind_ok in H. destruct H as [idx [Eidx H]].
    assert (Eidx' : reorder_indices Z.eqb own (filter (fun x => mem Z.eqb x own) req) = Ok idx).
    { unfold get_reorder_indices in Eidx. rewrite Ho, Ea in Eidx. exact Eidx. }
    apply (reorder_indices_ok _ ) in Eidx'.
    pose proof (NoDup_index_of _ Z_eqb_ok _ _ _ (NoDup_filter _ Hr) Eidx') as Hni.
    apply bind_ok in H. destruct H as [no [Eno H]].
    unfold reorder_tuple in Eno. destruct (gather os idx) as [os'|] eqn:Eg; [|discriminate].
    simpl in Eno. inversion Eno; subst no.
    apply bind_ok in H. destruct H as [na [_ H]].
    apply make_coords_fields in H. destruct H as [H _].
    exists os'. split; [exact H|].
    destruct (gather_nodup _ _ _ Hnd Hni Eg) as [H1 H2]. split; [exact H2|]. split; [exact H1|].
    intros ->. apply gather_length in Eg. simpl in Eg.
    apply negb_false_iff in Ei. apply (intersectsb_iff _ Z_eqb_ok) in Ei. destruct Ei as [a [Ha1 Ha2]].
    apply Forall2_length' in Eidx'.
    assert (Hin : In a (filter (fun x => mem Z.eqb x own) req)) by (apply (filter_mem_In _ Z_eqb_ok); auto).
    destruct (filter (fun x => mem Z.eqb x own) req); [destruct Hin|simpl in Eidx'; lia].
  - apply make_coords_fields in H. destruct H as [H _]. exists os. repeat split; auto. apply incl_refl.
Qed.

Lemma with_axes_wf s os f req sup sub s' :
  wf_rect s os f -> (forall r, req = Some r -> NoDup r) -> s_with_axes s req sup sub = Ok s' ->
  exists os', incl os' os /\ wf_rect s' os' f.
Proof.
  intros Hw Hr H. pose proof Hw as [Ho [Hnd [Hne [d [Hd Hdw]]]]]. unfold s_with_axes in H.
  destruct req as [a|].
  - destruct (s_axes s) as [own|] eqn:Ea.
    + apply bind_ok in H. destruct H as [c [Ec H]].
      destruct (with_axes_obs _ _ _ _ _ _ Ho Hnd Hne (Hr _ eq_refl) Ec) as [os' [H1 [H2 [H3 H4]]]].
      exists os'. split; [exact H2|]. rewrite Hd in H. eapply space_of_dict_wf; eassumption.
    + destruct (negb _) in H; [discriminate|].
      apply bind_ok in H. destruct H as [c [Ec H]]. apply make_coords_fields in Ec.
      exists os. split; [apply incl_refl|]. rewrite Hd in H.
      eapply space_of_dict_wf; [exact Hdw|apply incl_refl|exact Hnd|exact Hne| |exact H].
      destruct Ec as [Ec _]. rewrite Ec. exact Ho.
  - destruct (s_axes s) as [own|] eqn:Ea.
    + rewrite Ho in H. apply bind_ok in H. destruct H as [c [Ec H]]. apply make_coords_fields in Ec.
      exists os. split; [apply incl_refl|]. rewrite Hd in H.
      eapply space_of_dict_wf; [exact Hdw|apply incl_refl|exact Hnd|exact Hne|apply Ec|exact H].
    + inversion H; subst. exists os. split; [apply incl_refl|exact Hw].
Qed.

Lemma autofill_wf s os f ow s' :
  wf_rect s os f -> s_with_autofill_axes s ow = Ok s' -> wf_rect s' os f.
Proof.
  intros Hw H. pose proof Hw as [Ho [Hnd [Hne [d [Hd Hdw]]]]]. unfold s_with_autofill_axes in H.
  apply bind_ok in H. destruct H as [nc [_ H]].
  assert (G : forall ax, (let* c := make_coords (s_obs s) ax in
                   space_of_dict c (s_dobs s) (s_daxes s) (s_binning s)) = Ok s' -> wf_rect s' os f).
  { intros ax G. apply bind_ok in G. destruct G as [c [Ec G]]. apply make_coords_fields in Ec.
    rewrite Hd in G. eapply space_of_dict_wf; [exact Hdw|apply incl_refl|exact Hnd|exact Hne| |exact G].
    destruct Ec as [Ec _]. rewrite Ec. exact Ho. }
  destruct (s_axes s); [destruct ow; [eapply G, H|inversion H; subst; exact Hw]|eapply G, H].
Qed.

(* ---------- reading the limits, membership, volume ---------- *)
Lemma wf_own_limits s os f : wf_rect s os f -> forall l, In l (own_limits s) -> exists o, In o os /\ l = LRect [f o].
Proof.
  intros [Ho [Hnd [Hne [d [Hd [H1 [H2 H3]]]]]]] l Hin. unfold own_limits in Hin. rewrite Ho in Hin.
  destruct os as [|o0 os]; [congruence|]. simpl in Hin. rewrite Hd in Hin.
  apply in_map_iff in Hin. destruct Hin as [[k l'] [<- Hin]]. destruct (H1 _ _ Hin) as [o [_ [Hio ->]]].
  exists o. split; [exact Hio|reflexivity].
Qed.
Lemma wf_own_nonempty s os f : wf_rect s os f -> own_limits s <> [].
Proof.
  intros [Ho [Hnd [Hne [d [Hd [H1 [H2 H3]]]]]]] E. unfold own_limits in E. rewrite Ho in E.
  destruct os as [|o0 os]; [congruence|]. simpl in E. rewrite Hd in E.
  specialize (H2 o0 (or_introl eq_refl)). apply (in_map snd) in H2. rewrite E in H2. exact H2.
Qed.

Lemma wf_set s os f : wf_rect s os f -> s_limits_are_set s = true.
Proof.
  intros Hw. unfold s_limits_are_set. apply forallb_forall. intros l Hl.
  destruct (wf_own_limits _ _ _ Hw _ Hl) as [o [_ ->]]. reflexivity.
Qed.
Lemma wf_not_false s os f : wf_rect s os f -> s_limits_are_false s = false.
Proof.
  intros Hw. unfold s_limits_are_false. pose proof (wf_own_nonempty _ _ _ Hw) as Hn.
  pose proof (wf_own_limits _ _ _ Hw) as Ho. destruct (own_limits s) as [|l r]; [congruence|].
  destruct (Ho l (or_introl eq_refl)) as [o [_ ->]]. reflexivity.
Qed.
Lemma wf_has_limits s os f : wf_rect s os f -> s_has_limits s = true.
Proof. intros Hw. unfold s_has_limits. rewrite (wf_set _ _ _ Hw), (wf_not_false _ _ _ Hw). reflexivity. Qed.
Lemma wf_has_rect s os f : wf_rect s os f -> s_has_rect s = true.
Proof.
  intros Hw. unfold s_has_rect. pose proof (wf_own_nonempty _ _ _ Hw) as Hn.
  pose proof (wf_own_limits _ _ _ Hw) as Ho. destruct (own_limits s) as [|l r]; [congruence|].
  apply forallb_forall. intros l' Hl'. destruct (Ho _ Hl') as [o [_ ->]]. reflexivity.
Qed.

Lemma dict_wf_keys d os f : dict_wf d os f ->
  exists ks, map fst d = map (fun o => [o]) ks /\ concat (map fst d) = ks
    /\ mapM (fun e => lim_rect_limits (snd e)) d = Ok (map (fun o => [f o]) ks)
    /\ (forall o, In o ks <-> In o os) /\ NoDup ks.
Proof.
  intros [H1 [H2 H3]].
  assert (A : exists ks, map fst d = map (fun o => [o]) ks /\ concat (map fst d) = ks
    /\ mapM (fun e => lim_rect_limits (snd e)) d = Ok (map (fun o => [f o]) ks)
    /\ (forall o, In o ks -> In o os)).
  { clear H2 H3. induction d as [|[k l] d IH].
    - exists []. repeat split; try reflexivity. intros o [].
    - destruct IH as [ks [E1 [E2 [E3 E4]]]]; [intros k' l' Hin; apply H1; right; exact Hin|].
      destruct (H1 k l (or_introl eq_refl)) as [o [-> [Ho ->]]].
      exists (o :: ks). simpl. rewrite E1, E3. simpl. split; [reflexivity|]. split.
      + f_equal. rewrite <- E1. exact E2.
      + split; [reflexivity|]. intros o' [->|Ho']; [exact Ho|apply E4, Ho']. }
  destruct A as [ks [E1 [E2 [E3 E4]]]]. exists ks. split; [exact E1|]. split; [exact E2|]. split; [exact E3|].
  split.
  - intros o. split; [apply E4|]. intros Ho. specialize (H2 _ Ho). apply (in_map fst) in H2.
    rewrite E1 in H2. apply in_map_iff in H2. destruct H2 as [o' [He Hin]]. simpl in He. inversion He; subst. exact Hin.
  - rewrite E1 in H3. eapply NoDup_map_inv. exact H3.
Qed.

Lemma reorder_map_f {V} c os ks (f : string -> V) :
  c_obs c = Some os -> os <> [] -> incl os ks -> NoDup ks ->
  reorder_x c (map f ks) (Some ks) None None None = Ok (map f os).
Proof.
  intros Ho Hne Hi Hnd. unfold reorder_x. simpl. rewrite Ho. destruct os as [|o0 os]; [congruence|].
  destruct (reorder_indices_total _ string_eqb_ok ks (o0 :: os) Hi) as [idx Hidx]. rewrite Hidx.
  cbn [bind]. apply (reorder_indices_ok _) in Hidx.
  assert (G : gather (map f ks) idx = Some (map f (o0 :: os))).
  { apply gather_forall2. clear - Hidx. revert Hidx. generalize (o0 :: os) as l. intros l Hidx.
    induction Hidx as [|o i l idx Hi _ IH]; [constructor|].
    constructor; [|exact IH]. rewrite nth_error_map. rewrite (index_of_nth _ string_eqb_ok _ _ _ Hi). reflexivity. }
  rewrite G. reflexivity.
Qed.

Lemma concat_singletons {A B} (f : A -> B) l : concat (map (fun a => [f a]) l) = map f l.
Proof. induction l as [|a l IH]; simpl; [reflexivity|]. f_equal. exact IH. Qed.

Lemma wf_rect_limits_z s os f : wf_rect s os f -> rect_limits_z s = Ok (map f os).
Proof.
  intros [Ho [Hnd [Hne [d [Hd Hw]]]]]. unfold rect_limits_z. rewrite Ho, Hd.
  destruct (dict_wf_keys _ _ _ Hw) as [ks [E1 [E2 [E3 [E4 E5]]]]].
  rewrite E3. simpl. rewrite concat_singletons, E2.
  apply reorder_map_f; [exact Ho|exact Hne| |exact E5]. intros o Hin. apply E4, Hin.
Qed.

Lemma wf_limits s os f : wf_rect s os f -> s_limits s = Ok (map f os).
Proof.
  intros Hw. unfold s_limits, fail_not_rect. rewrite (wf_has_limits _ _ _ Hw), (wf_has_rect _ _ _ Hw).
  simpl. apply wf_rect_limits_z, Hw.
Qed.
Lemma wf_volume s os f : wf_rect s os f -> s_volume s = Ok (rect_area (map f os)).
Proof.
  intros Hw. unfold s_volume, fail_not_rect. rewrite (wf_has_limits _ _ _ Hw), (wf_has_rect _ _ _ Hw).
  simpl. rewrite (wf_rect_limits_z _ _ _ Hw). reflexivity.
Qed.

Lemma reorder_x_one {V} c os (x : list V) o :
  c_obs c = Some os -> length x = length os -> In o os ->
  exists v k, reorder_x c x None None (Some [o]) None = Ok [v] /\ index_of String.eqb o os = Some k /\ nth_error x k = Some v.
Proof.
  intros Ho Hl Hin. destruct (index_of_in _ string_eqb_ok _ _ Hin) as [k Hk].
  pose proof (index_of_lt _ string_eqb_ok _ _ _ Hk) as Hlt.
  destruct (nth_error x k) as [v|] eqn:Ev; [|apply nth_error_None in Ev; lia].
  exists v, k. split; [|split; [exact Hk|exact Ev]].
  assert (Ei : reorder_indices String.eqb os [o] = Ok [k]).
  { apply reorder_indices_ok. constructor; [exact Hk|constructor]. }
  assert (Eg : gather x [k] = Some [v]).
  { apply gather_forall2. constructor; [exact Ev|constructor]. }
  unfold reorder_x. cbn -[reorder_indices gather]. rewrite Ho. destruct os as [|o0 os]; [destruct Hin|].
  rewrite Ei. cbn -[gather]. rewrite Eg. reflexivity.
Qed.

Lemma inside_one v iv : inside_rect_limits [v] [iv] = true <-> between iv v.
Proof.
  unfold inside_rect_limits, between. simpl. rewrite !andb_true_r, andb_true_iff, !Qle_bool_iff. tauto.
Qed.

Lemma mapM_inside s os f x d :
  s_obs s = Some os -> length x = length os -> NoDup os ->
  (forall k l, In (k, l) d -> exists o, k = [o] /\ In o os /\ l = LRect [f o]) ->
  exists bs, mapM (fun e => let* x' := reorder_x (s_coords s) x None None (Some (fst e)) None in
                            lim_inside (snd e) x') d = Ok bs
    /\ (forallb (fun b => b) bs = true <->
        forall o v, In ([o], LRect [f o]) d -> column os x o v -> between (f o) v).
Proof.
  intros Ho Hl Hnd H1. induction d as [|[k l] d IH].
  - exists []. split; [reflexivity|]. split; [intros _ o v []|reflexivity].
  - destruct IH as [bs [E Hb]]; [intros k' l' Hin; apply H1; right; exact Hin|].
    destruct (H1 k l (or_introl eq_refl)) as [o [-> [Hin ->]]].
    destruct (reorder_x_one _ _ x _ Ho Hl Hin) as [v [i [Ex [Ei Ev]]]].
    exists (inside_rect_limits [v] [f o] :: bs). split.
    + assert (El : lim_inside (LRect [f o]) [v] = Ok (inside_rect_limits [v] [f o])) by reflexivity.
      cbn [mapM fst snd]. rewrite Ex. cbn [bind]. rewrite El. cbn [bind]. rewrite E. reflexivity.
    + simpl forallb. rewrite andb_true_iff, inside_one, Hb. split.
      * intros [A B] o' v' [He|Hin'] Hc.
        -- inversion He; subst o'. destruct Hc as [j [Hj1 Hj2]].
           apply (nodup_index_of _ string_eqb_ok _ _ _ Hnd) in Hj1. rewrite Ei in Hj1. inversion Hj1; subst j.
           rewrite Ev in Hj2. inversion Hj2; subst. exact A.
        -- apply B; assumption.
      * intros A. split.
        -- apply (A o v); [left; reflexivity|]. exists i. split; [apply (index_of_nth _ string_eqb_ok), Ei|exact Ev].
        -- intros o' v' Hin' Hc. apply A; [right; exact Hin'|exact Hc].
Qed.

Lemma wf_inside s os f x :
  wf_rect s os f -> length x = length os ->
  exists b, s_inside s x false = Ok b /\ (b = true <-> forall o v, column os x o v -> between (f o) v).
Proof.
  intros Hw Hl. pose proof Hw as [Ho [Hnd [Hne [d [Hd [H1 [H2 H3]]]]]]].
  unfold s_inside, sanitize_x, s_n_obs, n_obs. unfold s_obs in Ho. rewrite Ho, Hl, Nat.eqb_refl. cbn [bind].
  rewrite andb_false_r. unfold s_inside'. unfold s_obs. rewrite Ho, Hd.
  destruct (mapM_inside s os f x d Ho Hl Hnd H1) as [bs [E Hb]]. rewrite E. cbn [bind].
  eexists. split; [reflexivity|]. rewrite Hb. split.
  - intros A o v Hc. apply A; [|exact Hc]. apply H2. destruct Hc as [k [Hk _]]. eapply nth_error_In; exact Hk.
  - intros A o v _ Hc. apply A, Hc.
Qed.
Lemma wf_inside_guarantee s os f x :
  wf_rect s os f -> length x = length os -> s_inside s x true = Ok true.
Proof.
  intros Hw Hl. pose proof Hw as [Ho _]. unfold s_inside, sanitize_x, s_n_obs, n_obs. unfold s_obs in Ho.
  rewrite Ho, Hl, Nat.eqb_refl. cbn [bind]. rewrite (wf_has_rect _ _ _ Hw). reflexivity.
Qed.
Lemma wf_inside_shape s os f x g :
  wf_rect s os f -> length x <> length os -> s_inside s x g = Err ShapeIncompatibleError.
Proof.
  intros [Ho _] Hl. unfold s_inside, sanitize_x, s_n_obs, n_obs. unfold s_obs in Ho. rewrite Ho.
  destruct (Nat.eqb_spec (length x) (length os)); [contradiction|reflexivity].
Qed.
