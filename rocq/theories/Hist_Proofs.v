(** Reordering of binned data. *)
From Verif Require Import Base BaseLemmas Hist_Model Hist_Spec.
From Coq Require Import Sorted Permutation.

(** ** Sorting pairs and inserting *)
Lemma insert_sorted_perm p l : Permutation (insert_sorted p l) (p :: l).
Proof.
  induction l as [|q r IH]; [reflexivity|]. cbn [insert_sorted].
  destruct (Nat.leb (fst p) (fst q)); [reflexivity|].
  apply perm_trans with (q :: p :: r); [apply perm_skip, IH|apply perm_swap].
Qed.

Lemma sort_pairs_perm l : Permutation (sort_pairs l) l.
Proof.
  induction l as [|p r IH]; [reflexivity|]. cbn.
  apply perm_trans with (p :: sort_pairs r); [apply insert_sorted_perm|apply perm_skip, IH].
Qed.

Lemma insert_sorted_sorted p l :
  StronglySorted le (map fst l) -> StronglySorted le (map fst (insert_sorted p l)).
Proof.
  induction l as [|q r IH]; intros H; cbn [insert_sorted].
  - repeat constructor.
  - cbn [map] in H. inversion H as [|? ? Hr Hq]; subst.
    destruct (Nat.leb (fst p) (fst q)) eqn:E; cbn [map].
    + apply Nat.leb_le in E. constructor; [exact H|]. constructor; [exact E|].
      eapply Forall_impl; [|exact Hq]. cbn. intros; lia.
    + apply Nat.leb_gt in E. constructor; [apply IH, Hr|].
      assert (P : Permutation (map fst (insert_sorted p r)) (fst p :: map fst r))
        by (apply (Permutation_map fst (insert_sorted_perm p r))).
      apply (Permutation_Forall (Permutation_sym P)). constructor; [lia|exact Hq].
Qed.

Lemma sort_pairs_sorted l : StronglySorted le (map fst (sort_pairs l)).
Proof. induction l as [|p r IH]; [constructor|]. apply insert_sorted_sorted, IH. Qed.

Lemma sorted_perm_eq (a b : list nat) :
  StronglySorted le a -> StronglySorted le b -> Permutation a b -> a = b.
Proof.
  revert b. induction a as [|x a IH]; intros b Ha Hb P.
  - apply Permutation_nil in P. congruence.
  - destruct b as [|y b]; [apply Permutation_sym, Permutation_nil in P; congruence|].
    inversion Ha as [|? ? Ha1 Ha2]; inversion Hb as [|? ? Hb1 Hb2]; subst.
    rewrite Forall_forall in Ha2, Hb2.
    assert (E : x = y).
    { assert (I1 : In x (y :: b)) by (apply (Permutation_in _ P); left; reflexivity).
      assert (I2 : In y (x :: a)) by (apply (Permutation_in _ (Permutation_sym P)); left; reflexivity).
      destruct I1 as [I1|I1]; [congruence|]. destruct I2 as [I2|I2]; [congruence|].
      specialize (Hb2 _ I1). specialize (Ha2 _ I2). lia. }
    subst y. f_equal. apply IH; [exact Ha1|exact Hb1|].
    apply Permutation_cons_inv with x. exact P.
Qed.

Lemma seq_sorted k n : StronglySorted le (seq k n).
Proof.
  revert k. induction n as [|n IH]; intros k; [constructor|]. cbn. constructor; [apply IH|].
  apply Forall_forall. intros x H. apply in_seq in H. lia.
Qed.

Lemma insert_at_end {A} (a : A) l : insert_at (length l) a l = l ++ [a].
Proof. induction l as [|x l IH]; [reflexivity|]. cbn. rewrite IH. reflexivity. Qed.

Lemma insert_at_length {A} (a : A) k l : length (insert_at k a l) = S (length l).
Proof.
  revert l. induction k as [|k IH]; intros [|x l]; cbn; try reflexivity. f_equal. apply IH.
Qed.

Lemma inserts_length (ps : list (nat * nat)) l :
  length (fold_left (fun order p => insert_at (fst p) (snd p) order) ps l) = length ps + length l.
Proof.
  revert l. induction ps as [|p ps IH]; intros l; [reflexivity|]. cbn [fold_left length].
  rewrite IH, insert_at_length. lia.
Qed.

Lemma inserts_append (ps : list (nat * nat)) l :
  map fst ps = seq (length l) (length ps) ->
  fold_left (fun order p => insert_at (fst p) (snd p) order) ps l = l ++ map snd ps.
Proof.
  revert l. induction ps as [|p ps IH]; intros l H; [symmetry; apply app_nil_r|].
  cbn [fold_left map length seq] in *. injection H as H1 H2. rewrite H1, insert_at_end, IH.
  - rewrite <- app_assoc. reflexivity.
  - rewrite app_length. cbn [length]. rewrite Nat.add_1_r. exact H2.
Qed.

(** ** The order of a full move *)
Definition is_perm (n : nat) (sg : list nat) : Prop := Permutation sg (seq 0 n).

Lemma combine_fst {A B} (a : list A) (b : list B) : length a = length b -> map fst (combine a b) = a.
Proof.
  revert b. induction a as [|x a IH]; intros [|y b] H; try reflexivity; try discriminate.
  cbn. f_equal. apply IH. injection H as H. exact H.
Qed.
Lemma combine_snd {A B} (a : list A) (b : list B) : length a = length b -> map snd (combine a b) = b.
Proof.
  revert b. induction a as [|x a IH]; intros [|y b] H; try reflexivity; try discriminate.
  cbn. f_equal. apply IH. injection H as H. exact H.
Qed.

Lemma filter_none {A} (f : A -> bool) l : (forall x, In x l -> f x = false) -> filter f l = [].
Proof.
  induction l as [|x l IH]; intros H; [reflexivity|]. cbn. rewrite H; [|left; reflexivity].
  apply IH. intros y Hy. apply H. right. exact Hy.
Qed.

Lemma order_snd n sg :
  is_perm n sg ->
  moveaxis_order n (seq 0 n) sg = map snd (sort_pairs (combine sg (seq 0 n))).
Proof.
  intros P. unfold moveaxis_order.
  assert (L : length sg = n) by (rewrite (Permutation_length P); apply seq_length).
  rewrite filter_none.
  - rewrite inserts_append; [reflexivity|]. cbn [length].
    apply sorted_perm_eq; [apply sort_pairs_sorted|apply seq_sorted|].
    apply perm_trans with sg.
    + apply perm_trans with (map fst (combine sg (seq 0 n))).
      * apply Permutation_map, sort_pairs_perm.
      * rewrite combine_fst; [reflexivity|rewrite seq_length; exact L].
    + rewrite (Permutation_length (sort_pairs_perm _)), combine_length, L, seq_length, Nat.min_id. exact P.
  - intros x H. apply negb_false_iff. apply (mem_In Nat.eqb nat_eqb_ok). exact H.
Qed.

Lemma combine_nth_error2 {A B} (a : list A) (b : list B) k x y :
  nth_error a k = Some x -> nth_error b k = Some y -> nth_error (combine a b) k = Some (x, y).
Proof.
  revert b k. induction a as [|a0 a IH]; intros [|b0 b] [|k] H1 H2; try discriminate.
  - cbn in *. congruence.
  - cbn in *. apply IH; assumption.
Qed.

Lemma nth_error_seq0 n k : k < n -> nth_error (seq 0 n) k = Some k.
Proof.
  intros H. rewrite nth_error_nth' with (d := 0) by (rewrite seq_length; exact H).
  rewrite seq_nth by exact H. reflexivity.
Qed.

Lemma order_spec n sg :
  is_perm n sg ->
  length (moveaxis_order n (seq 0 n) sg) = n /\
  is_perm n (moveaxis_order n (seq 0 n) sg) /\
  forall i j, nth_error sg i = Some j -> nth_error (moveaxis_order n (seq 0 n) sg) j = Some i.
Proof.
  intros P. rewrite order_snd by exact P.
  assert (L : length sg = n) by (rewrite (Permutation_length P); apply seq_length).
  set (ps := sort_pairs (combine sg (seq 0 n))).
  assert (Lps : length ps = n).
  { unfold ps. rewrite (Permutation_length (sort_pairs_perm _)), combine_length, L, seq_length.
    apply Nat.min_id. }
  assert (F : map fst ps = seq 0 n).
  { apply sorted_perm_eq; [apply sort_pairs_sorted|apply seq_sorted|].
    apply perm_trans with sg; [|exact P].
    apply perm_trans with (map fst (combine sg (seq 0 n))).
    - apply Permutation_map, sort_pairs_perm.
    - rewrite combine_fst; [reflexivity|rewrite seq_length; exact L]. }
  split; [rewrite map_length; exact Lps|split].
  - apply perm_trans with (map snd (combine sg (seq 0 n))).
    + apply Permutation_map, sort_pairs_perm.
    + rewrite combine_snd; [reflexivity|rewrite seq_length; exact L].
  - intros i j H.
    assert (Hi : i < n) by (rewrite <- L; apply nth_error_Some; congruence).
    assert (I : In (j, i) ps).
    { apply (Permutation_in _ (Permutation_sym (sort_pairs_perm _))).
      apply nth_error_In with i. apply combine_nth_error2; [exact H|apply nth_error_seq0, Hi]. }
    apply In_nth_error in I. destruct I as [k Hk].
    assert (Ek : nth_error (map fst ps) k = Some j) by (rewrite nth_error_map, Hk; reflexivity).
    rewrite F in Ek.
    assert (Kn : k < n) by (rewrite <- Lps; apply nth_error_Some; congruence).
    rewrite nth_error_seq0 in Ek by exact Kn. injection Ek as Ek. subst k.
    rewrite nth_error_map, Hk. reflexivity.
Qed.

Lemma is_perm_nodup n sg : is_perm n sg -> NoDup sg.
Proof. intros P. apply (Permutation_NoDup (Permutation_sym P)), seq_NoDup. Qed.
Lemma is_perm_length n sg : is_perm n sg -> length sg = n.
Proof. intros P. rewrite (Permutation_length P). apply seq_length. Qed.
Lemma is_perm_lt n sg j : is_perm n sg -> In j sg -> j < n.
Proof. intros P H. apply (Permutation_in _ P) in H. apply in_seq in H. lia. Qed.
Lemma is_perm_onto n sg j : is_perm n sg -> j < n -> exists i, nth_error sg i = Some j.
Proof.
  intros P H. apply In_nth_error. apply (Permutation_in _ (Permutation_sym P)). apply in_seq. lia.
Qed.

(** The entry of the moved tensor. *)
Lemma moveaxis_get t sg idx :
  is_perm (length (t_shape t)) sg ->
  t_get (moveaxis t (seq 0 (length (t_shape t))) sg) idx = t_get t (map (fun j => nth j idx 0) sg).
Proof.
  intros P. set (n := length (t_shape t)) in *. destruct (order_spec n sg P) as [L [PO S]].
  unfold moveaxis, transpose. cbn [t_get]. fold n. f_equal. rewrite L.
  apply nth_error_ext. intros k. rewrite !nth_error_map.
  destruct (Nat.lt_ge_cases k n) as [Hk|Hk].
  - rewrite nth_error_seq0 by exact Hk. cbn.
    destruct (nth_error sg k) as [j|] eqn:E.
    + specialize (S _ _ E). rewrite (nodup_index_of Nat.eqb nat_eqb_ok k _ j (is_perm_nodup _ _ PO) S).
      reflexivity.
    + apply nth_error_None in E. rewrite (is_perm_length _ _ P) in E. lia.
  - rewrite (proj2 (nth_error_None (seq 0 n) k)) by (rewrite seq_length; exact Hk).
    rewrite (proj2 (nth_error_None sg k)) by (rewrite (is_perm_length _ _ P); exact Hk). reflexivity.
Qed.

Lemma moveaxis_shape_length t sg :
  is_perm (length (t_shape t)) sg ->
  length (t_shape (moveaxis t (seq 0 (length (t_shape t))) sg)) = length (t_shape t).
Proof.
  intros P. unfold moveaxis, transpose. cbn [t_shape]. rewrite map_length.
  apply (order_spec _ _ P).
Qed.

(** Axis [i] of the argument becomes axis [sg[i]]. *)
Lemma moveaxis_shape t sg i j :
  is_perm (length (t_shape t)) sg -> nth_error sg i = Some j ->
  nth_error (t_shape (moveaxis t (seq 0 (length (t_shape t))) sg)) j = nth_error (t_shape t) i.
Proof.
  intros P E. destruct (order_spec _ sg P) as [L [PO S]].
  unfold moveaxis, transpose. cbn [t_shape]. rewrite nth_error_map, (S _ _ E). cbn.
  symmetry. apply nth_error_nth'.
  rewrite <- (is_perm_length _ _ P). apply nth_error_Some. congruence.
Qed.

(** ** Positions of the new observables in the own ones *)
Definition positions (own new : list string) (sg : list nat) : Prop :=
  all_some (map (fun o => index_of String.eqb o own) new) = Some sg.

Lemma positions_nth own new sg i o :
  positions own new sg -> nth_error new i = Some o ->
  exists j, nth_error sg i = Some j /\ nth_error own j = Some o.
Proof.
  intros H E. apply all_some_forall2 in H. apply Forall2_map_l in H.
  assert (exists j, nth_error sg i = Some j /\ index_of String.eqb o own = Some j) as [j [E1 E2]].
  { clear -H E. revert i E. induction H as [|x y new sg Hx H IH]; intros [|i] E; cbn in *; try discriminate.
    - injection E as E. subst. exists y. auto.
    - apply IH. exact E. }
  exists j. split; [exact E1|]. apply (index_of_nth String.eqb string_eqb_ok). exact E2.
Qed.

Lemma positions_length own new sg : positions own new sg -> length sg = length new.
Proof.
  intros H. apply all_some_forall2 in H. apply Forall2_length' in H. rewrite map_length in H. congruence.
Qed.

Lemma positions_total own new : incl new own -> exists sg, positions own new sg.
Proof.
  intros H. unfold positions. induction new as [|o new IH]; [exists []; reflexivity|].
  destruct IH as [sg E]; [intros x Hx; apply H; right; exact Hx|].
  destruct (index_of_in String.eqb string_eqb_ok o own) as [k Hk]; [apply H; left; reflexivity|].
  exists (k :: sg). cbn. rewrite Hk, E. reflexivity.
Qed.

Lemma positions_perm own new sg :
  NoDup own -> NoDup new -> (forall o, In o own <-> In o new) -> positions own new sg ->
  is_perm (length own) sg.
Proof.
  intros N1 N2 S H. unfold is_perm.
  assert (LL : length new = length own).
  { apply Permutation_length, NoDup_Permutation; [exact N2|exact N1|]. intros o. symmetry. apply S. }
  assert (ND : NoDup sg).
  { apply NoDup_nth_error. intros i j Hi E.
    rewrite (positions_length _ _ _ H) in Hi.
    destruct (nth_error new i) as [a|] eqn:Ea; [|apply nth_error_None in Ea; lia].
    destruct (positions_nth _ _ _ _ _ H Ea) as [p [Hp1 Hp2]].
    rewrite Hp1 in E. symmetry in E.
    assert (Hj : j < length sg) by (apply nth_error_Some; congruence).
    rewrite (positions_length _ _ _ H) in Hj.
    destruct (nth_error new j) as [b|] eqn:Eb; [|apply nth_error_None in Eb; lia].
    destruct (positions_nth _ _ _ _ _ H Eb) as [q [Hq1 Hq2]].
    assert (p = q) by congruence. subst q. assert (a = b) by congruence. subst b.
    apply (proj1 (NoDup_nth_error new) N2); [exact Hi|]. congruence. }
  apply NoDup_Permutation_bis; [exact ND|rewrite seq_length, (positions_length _ _ _ H), LL; lia|].
  intros j Hj. apply In_nth_error in Hj. destruct Hj as [i Hi].
  assert (Hl : i < length new) by (rewrite <- (positions_length _ _ _ H); apply nth_error_Some; congruence).
  destruct (nth_error new i) as [a|] eqn:Ea; [|apply nth_error_None in Ea; lia].
  destruct (positions_nth _ _ _ _ _ H Ea) as [p [Hp1 Hp2]].
  assert (p = j) by congruence. subst p. apply in_seq.
  split; [lia|]. apply nth_error_Some. congruence.
Qed.

Lemma shape_eqb_eq a b : shape_eqb a b = true <-> a = b.
Proof.
  revert b. induction a as [|x a IH]; intros [|y b]; cbn; split; intros H; try reflexivity; try discriminate.
  - apply andb_true_iff in H as [H1 H2]. apply Nat.eqb_eq in H1. apply IH in H2. congruence.
  - injection H as H1 H2. subst. rewrite Nat.eqb_refl. apply IH. reflexivity.
Qed.
Lemma shape_eqb_refl a : shape_eqb a a = true.
Proof. apply shape_eqb_eq. reflexivity. Qed.

(** ** The constructor *)
Lemma make_holder_ok s v var :
  (forall w, var = Some w -> t_shape w = t_shape v) ->
  map (fun e => length e - 1) (b_edges s) = t_shape v ->
  make_holder s v var = Ok (Holder s v var).
Proof.
  intros HV HS. unfold make_holder.
  assert (L : length (b_edges s) = length (t_shape v)) by (rewrite <- HS, map_length; reflexivity).
  destruct var as [w|]; cbn [bind].
  - rewrite (HV _ eq_refl), Nat.eqb_refl, shape_eqb_refl. cbn [negb bind].
    rewrite L, Nat.eqb_refl, HS, shape_eqb_refl. reflexivity.
  - rewrite L, Nat.eqb_refl, HS, shape_eqb_refl. reflexivity.
Qed.

Lemma make_holder_inv s v var h :
  make_holder s v var = Ok h ->
  h = Holder s v var /\ (forall w, var = Some w -> t_shape w = t_shape v) /\
  map (fun e => length e - 1) (b_edges s) = t_shape v.
Proof.
  unfold make_holder. intros H.
  assert (K : (if negb (Nat.eqb (length (b_edges s)) (length (t_shape v))) then Err ShapeIncompatibleError
               else if negb (shape_eqb (map (fun e => length e - 1) (b_edges s)) (t_shape v))
                    then Err InvalidArgumentError else Ok (Holder s v var)) = Ok h
              -> h = Holder s v var /\ map (fun e => length e - 1) (b_edges s) = t_shape v).
  { intros E. destruct (Nat.eqb _ _); cbn [negb] in E; [|discriminate].
    destruct (shape_eqb _ _) eqn:ES; cbn [negb] in E; [|discriminate].
    apply shape_eqb_eq in ES. split; [congruence|exact ES]. }
  destruct var as [w|]; cbn [bind] in H.
  - destruct (Nat.eqb (length (t_shape v)) (length (t_shape w))); cbn [negb bind] in H; [|discriminate].
    destruct (shape_eqb (t_shape w) (t_shape v)) eqn:E; cbn [negb bind] in H; [|discriminate].
    apply shape_eqb_eq in E. apply K in H. destruct H as [H1 H2].
    split; [exact H1|split; [|exact H2]]. intros w' E'. congruence.
  - apply K in H. destruct H as [H1 H2]. split; [exact H1|split; [|exact H2]]. discriminate.
Qed.

Lemma make_holder_shape_err s v var :
  (forall w, var = Some w -> t_shape w = t_shape v) ->
  length (b_edges s) = length (t_shape v) ->
  map (fun e => length e - 1) (b_edges s) <> t_shape v ->
  make_holder s v var = Err InvalidArgumentError.
Proof.
  intros HV L HS. unfold make_holder.
  assert (E : shape_eqb (map (fun e => length e - 1) (b_edges s)) (t_shape v) = false).
  { destruct (shape_eqb _ _) eqn:E; [|reflexivity]. apply shape_eqb_eq in E. contradiction. }
  destruct var as [w|]; cbn [bind].
  - rewrite (HV _ eq_refl), Nat.eqb_refl, shape_eqb_refl. cbn [negb bind].
    rewrite L, Nat.eqb_refl, E. reflexivity.
  - rewrite L, Nat.eqb_refl, E. reflexivity.
Qed.

Lemma make_holder_rank_err s v var :
  (forall w, var = Some w -> t_shape w = t_shape v) ->
  length (b_edges s) <> length (t_shape v) ->
  make_holder s v var = Err ShapeIncompatibleError.
Proof.
  intros HV L. unfold make_holder.
  assert (E : Nat.eqb (length (b_edges s)) (length (t_shape v)) = false) by (apply Nat.eqb_neq; exact L).
  destruct var as [w|]; cbn [bind].
  - rewrite (HV _ eq_refl), Nat.eqb_refl, shape_eqb_refl. cbn [negb bind]. rewrite E. reflexivity.
  - rewrite E. reflexivity.
Qed.
