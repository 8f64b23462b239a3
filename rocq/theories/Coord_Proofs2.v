(** Further proofs for coordinates: axes, automatic axes, equality. *)
From Verif Require Import Base BaseLemmas Coord_Model Coord_Spec Coord_Proofs.

Lemma not_incl_exists_z (a b : list axis_t) : ~ incl a b -> exists o, In o a /\ ~ In o b.
Proof.
  intros H. induction a as [|x a IH]; [exfalso; apply H; intros y []|].
  destruct (eqb_In_dec Z.eqb Z_eqb_ok x b) as [Hx|Hx].
  - destruct IH as [o [Ho Hn]].
    + intros Hi. apply H. intros y [<-|Hy]; [exact Hx|apply Hi, Hy].
    + exists o. split; [right; exact Ho|exact Hn].
  - exists x. split; [left; reflexivity|exact Hx].
Qed.
Lemma with_axes_raises c os axs req sup sub :
  labelled c os axs ->
  ((forall a, In a req -> ~ In a axs) \/ (sup = false /\ exists a, In a req /\ ~ In a axs) \/ (sub = false /\ exists a, In a axs /\ ~ In a req)
   <-> with_axes c (Some req) sup sub = Err AxesIncompatibleError)
  /\ (forall e, with_axes c (Some req) sup sub = Err e -> e = AxesIncompatibleError).
Proof.
  intros [Ho [Ha [Hl [_ [_ Hne]]]]].
  assert (Hane : axs <> []) by (destruct axs; [destruct os; [congruence|discriminate]|discriminate]).
  destruct (with_axes_labelled c os axs req sup sub Ho Ha Hl Hane) as [H1 H2].
  assert (E : (forall a, In a req -> ~ In a axs) \/ (sup = false /\ exists a, In a req /\ ~ In a axs) \/ (sub = false /\ exists a, In a axs /\ ~ In a req)
     <-> ~ areq_ok axs req sup sub).
  { unfold areq_ok. split.
    - intros [H|[[Hs [o [A B]]]|[Hs [o [A B]]]]] [[x [X1 X2]] [P Q]]; [exact (H x X1 X2)|apply B, (P Hs), A|apply B, (Q Hs), A].
    - intros H. destruct (intersectsb Z.eqb req axs) eqn:Ei.
      + apply (intersectsb_iff _ Z_eqb_ok) in Ei. right. destruct (subsetb Z.eqb req axs) eqn:Es.
        * apply (subsetb_incl _ Z_eqb_ok) in Es. destruct sub.
          -- exfalso. apply H. split; [exact Ei|]. split; [auto|discriminate].
          -- right. split; [reflexivity|]. apply not_incl_exists_z. intros Hi. apply H. split; [exact Ei|]. split; auto.
        * destruct sup.
          -- destruct sub.
             ++ exfalso. apply H. split; [exact Ei|]. split; discriminate.
             ++ right. split; [reflexivity|]. apply not_incl_exists_z. intros Hi. apply H. split; [exact Ei|]. split; [discriminate|auto].
          -- left. split; [reflexivity|]. apply not_incl_exists_z. intros Hi. apply (subsetb_incl _ Z_eqb_ok) in Hi. congruence.
      + left. intros a A B. assert (X : intersectsb Z.eqb req axs = true) by (apply (intersectsb_iff _ Z_eqb_ok); eauto). congruence. }
  rewrite E. destruct (areq_ok_dec axs req sup sub) as [Hok|Hok].
  - destruct (H1 Hok) as [idx [os' [_ [_ Hw]]]]. rewrite Hw. split.
    + split; [intros Hn; contradiction|discriminate].
    + intros e He. discriminate.
  - rewrite (H2 Hok). split; [tauto|]. intros e He. congruence.
Qed.

Lemma reorder_x_xaxes {V} c axs (x : list V) a :
  c_axes c = Some axs -> axs <> [] -> is_perm a axs -> length x = length a ->
  exists y, reorder_x c x None (Some a) None None = Ok y
    /\ length y = length axs
    /\ (forall n v, axis_column axs y n v <-> axis_column a x n v).
Proof.
  intros Ho Hne [Hno [Hnos Hp]] Hl.
  destruct (reorder_indices_total Z.eqb Z_eqb_ok a axs) as [idx Hidx]; [intros n Hn; apply Hp, Hn|].
  assert (Hlt : forall i, In i idx -> i < length x).
  { intros i Hi. rewrite Hl. eapply reorder_indices_lt; [exact Z_eqb_ok|exact Hidx|exact Hi]. }
  destruct (gather_total x idx Hlt) as [y Hg].
  exists y. split; [|split].
  - unfold reorder_x. rewrite Ho. destruct axs as [|o0 os']; [congruence|].
    cbn -[reorder_indices gather]. rewrite Hidx. cbn -[gather]. rewrite Hg. reflexivity.
  - apply gather_length in Hg. apply reorder_indices_ok, Forall2_length' in Hidx. lia.
  - intros n v. unfold axis_column. split.
    + intros [k [Hk Hv]]. destruct (reorder_gather_values _ _ _ _ _ _ _ _ Hidx Hg Hk) as [i [Hi He]].
      exists i. split; [eapply index_of_nth; [exact Z_eqb_ok|exact Hi]|congruence].
    + intros [i [Hi Hv]].
      assert (Hin : In n axs) by (apply Hp; eapply nth_error_In; exact Hi).
      apply In_nth_error in Hin. destruct Hin as [k Hk]. exists k. split; [exact Hk|].
      destruct (reorder_gather_values _ _ _ _ _ _ _ _ Hidx Hg Hk) as [j [Hj He]].
      assert (i = j).
      { pose proof (nodup_index_of _ Z_eqb_ok n a i Hno Hi). congruence. }
      congruence.
Qed.
Lemma reorder_x_func_axes {V} c axs (x : list V) a :
  c_axes c = Some axs -> axs <> [] -> NoDup axs -> incl a axs -> length x = length axs ->
  exists y, reorder_x c x None None None (Some a) = Ok y
    /\ length y = length a
    /\ (forall k n, nth_error a k = Some n -> forall v, nth_error y k = Some v <-> axis_column axs x n v).
Proof.
  intros Ho Hne Hnd Hi Hl.
  destruct (reorder_indices_total Z.eqb Z_eqb_ok axs a Hi) as [idx Hidx].
  assert (Hlt : forall i, In i idx -> i < length x).
  { intros i Hii. rewrite Hl. eapply reorder_indices_lt; [exact Z_eqb_ok|exact Hidx|exact Hii]. }
  destruct (gather_total x idx Hlt) as [y Hg].
  exists y. split; [|split].
  - unfold reorder_x. rewrite Ho. destruct axs as [|o0 os']; [congruence|].
    cbn -[reorder_indices gather]. rewrite Hidx. cbn -[gather]. rewrite Hg. reflexivity.
  - apply gather_length in Hg. apply reorder_indices_ok, Forall2_length' in Hidx. lia.
  - intros k n Hk v. destruct (reorder_gather_values _ _ _ _ _ _ _ _ Hidx Hg Hk) as [i [Hii He]]. rewrite He. unfold axis_column. split.
    + intros Hv. exists i. split; [eapply index_of_nth; [exact Z_eqb_ok|exact Hii]|exact Hv].
    + intros [j [Hj Hv]]. pose proof (nodup_index_of _ Z_eqb_ok n axs j Hnd Hj). congruence.
Qed.

Lemma autofill_l c os overwrite : c_obs c = Some os -> os <> [] ->
  (forall axs, c_axes c = Some axs -> axs <> [] -> overwrite = false -> with_autofill_axes c overwrite = Err AxesIncompatibleError)
  /\ (c_axes c = None \/ overwrite = true -> exists c', with_autofill_axes c overwrite = Ok c' /\ c_obs c' = Some os
       /\ forall o a, paired c' o a <-> exists k, nth_error os k = Some o /\ a = Z.of_nat k).
Proof.
  intros Ho Hne. split.
  - intros axs Ha Hna ->. unfold with_autofill_axes. rewrite Ha. destruct axs; [congruence|reflexivity].
  - intros H. unfold with_autofill_axes.
    assert (E : nonempty (c_axes c) && negb overwrite = false).
    { destruct H as [H|H]; rewrite H; [reflexivity|]. destruct (nonempty (c_axes c)); reflexivity. }
    rewrite E. unfold make_coords, n_obs. rewrite Ho. unfold range_axes. rewrite map_length, seq_length, Nat.eqb_refl. cbn [negb].
    destruct os as [|o0 os0] eqn:Eos; [congruence|]. rewrite <- Eos in *. assert (N : nonempty (Some os) = true) by (rewrite Eos; reflexivity).
    rewrite N. cbn [orb negb]. eexists. split; [reflexivity|]. split; [reflexivity|]. intros o a. unfold paired. cbn [c_obs c_axes]. split.
    + intros [os1 [axs1 [k [E1 [E2 [E3 E4]]]]]]. inversion E1; inversion E2; subst os1 axs1. exists k. split; [exact E3|].
      rewrite nth_error_map in E4. destruct (nth_error (seq 0 (length os)) k) as [j|] eqn:Ej; [|discriminate]. cbn in E4.
      assert (k < length os) by (apply nth_error_Some; congruence).
      rewrite (nth_error_nth' _ 0) in Ej by (rewrite seq_length; lia). rewrite seq_nth in Ej by lia. inversion Ej; subst. inversion E4. reflexivity.
    + intros [k [Hk ->]]. exists os, (map Z.of_nat (seq 0 (length os))), k. split; [reflexivity|]. split; [reflexivity|]. split; [exact Hk|].
      assert (k < length os) by (apply nth_error_Some; congruence).
      rewrite nth_error_map, (nth_error_nth' _ 0) by (rewrite seq_length; lia). rewrite seq_nth by lia. reflexivity.
Qed.
Lemma coords_eqb_iff a b : coords_eqb a b = true <->
  (exists x y, c_obs a = Some x /\ c_obs b = Some y /\ same_set x y) \/ (exists x y, c_axes a = Some x /\ c_axes b = Some y /\ same_set x y).
Proof.
  unfold coords_eqb, same_set. rewrite orb_true_iff. split.
  - intros [H|H].
    + left. destruct (c_obs a) as [x|], (c_obs b) as [y|]; try discriminate. exists x, y. split; [reflexivity|]. split; [reflexivity|]. apply (set_eqb_iff _ string_eqb_ok), H.
    + right. destruct (c_axes a) as [x|], (c_axes b) as [y|]; try discriminate. exists x, y. split; [reflexivity|]. split; [reflexivity|]. apply (set_eqb_iff _ Z_eqb_ok), H.
  - intros [[x [y [-> [-> H]]]]|[x [y [-> [-> H]]]]]; [left|right]; [apply (set_eqb_iff _ string_eqb_ok), H|apply (set_eqb_iff _ Z_eqb_ok), H].
Qed.

(** attaching and dropping axes or observables *)
Lemma with_axes_attach c os a sup sub : c_obs c = Some os -> c_axes c = None -> os <> [] ->
  (length a = length os -> with_axes c (Some a) sup sub = Ok (mkCoords (Some os) (Some a)))
  /\ (length a <> length os -> with_axes c (Some a) sup sub = Err AxesIncompatibleError).
Proof.
  intros Ho Ha Hne. unfold with_axes. rewrite Ho, Ha. cbn [nonempty negb andb]. split; intros H.
  - rewrite H, Nat.eqb_refl. cbn [negb]. unfold make_coords. rewrite H, Nat.eqb_refl. cbn [negb]. destruct os; [congruence|reflexivity].
  - apply Nat.eqb_neq in H. rewrite H. reflexivity.
Qed.
Lemma with_obs_attach c axs o sup sub : c_obs c = None -> c_axes c = Some axs -> axs <> [] ->
  (length o = length axs -> with_obs c (Some o) sup sub = Ok (mkCoords (Some o) (Some axs)))
  /\ (length o <> length axs -> with_obs c (Some o) sup sub = Err CoordinatesIncompatibleError).
Proof.
  intros Ho Ha Hne. unfold with_obs. rewrite Ho, Ha. unfold make_coords. split; intros H.
  - rewrite H, Nat.eqb_refl. cbn [negb]. destruct axs as [|z axs]; [congruence|]. destruct o; [discriminate|reflexivity].
  - apply Nat.eqb_neq in H. rewrite H. reflexivity.
Qed.
Lemma dropping c os axs sup sub : labelled c os axs ->
  with_obs c None sup sub = Ok (mkCoords None (Some axs)) /\ with_axes c None sup sub = Ok (mkCoords (Some os) None).
Proof.
  intros [Ho [Ha [Hl [_ [_ Hne]]]]]. unfold with_obs, with_axes. rewrite Ho, Ha. unfold make_coords.
  destruct os as [|o os]; [congruence|]. destruct axs as [|z axs]; [discriminate|]. split; reflexivity.
Qed.
