(** Proofs for uncertainties, part 1: dictionaries and matrices. *)
From Coq Require Import Lqa Qabs.
From Verif Require Import Base BaseLemmas Unc_Model Unc_Spec.
#[local] Open Scope nat_scope.

Lemma pair_eqb_ok : eqb_spec pair_eqb.
Proof.
  intros [a b] [c d]. unfold pair_eqb. cbn [fst snd]. rewrite andb_true_iff, (string_eqb_ok a c), (string_eqb_ok b d).
  split; [intros [-> ->]; reflexivity|intros E; injection E; auto].
Qed.
Lemma mapM_map {A B} (f : A -> result B) (g : A -> B) l : (forall a, In a l -> f a = Ok (g a)) -> mapM f l = Ok (map g l).
Proof.
  induction l as [|a l IH]; intros H; [reflexivity|]. cbn [mapM map]. rewrite H by (left; reflexivity). cbn [bind].
  rewrite IH by (intros b Hb; apply H; right; exact Hb). reflexivity.
Qed.
Lemma mapM_len {A B} (f : A -> result B) l r : mapM f l = Ok r -> length r = length l.
Proof. intros H. apply mapM_ok in H. symmetry. eapply Forall2_length', H. Qed.
Lemma F2_nth {A B} (P : A -> B -> Prop) l r k a b : Forall2 P l r -> nth_error l k = Some a -> nth_error r k = Some b -> P a b.
Proof. intros H. apply Forall2_nth in H. destruct H as [_ H]. apply H. Qed.
Lemma nth_error_seq a n k : k < n -> nth_error (seq a n) k = Some (a + k).
Proof.
  revert a k. induction n as [|n IH]; intros a k H; [lia|]. destruct k; cbn; [f_equal; lia|]. rewrite IH by lia. f_equal. lia.
Qed.
Lemma in_square (ps : list string) (i : nat) : i < length ps -> exists p, nth_error ps i = Some p.
Proof. intros H. destruct (nth_error ps i) as [p|] eqn:E; [eauto|]. apply nth_error_None in E. lia. Qed.

(** entries *)
Lemma dict_to_matrix_entries {V} ps (d : list ((string * string) * V)) m : dict_to_matrix ps d = Ok m ->
  square (length ps) m /\ forall i j v, entry_at m i j v <->
    exists p q, nth_error ps (Nat.min i j) = Some p /\ nth_error ps (Nat.max i j) = Some q /\ lookup pair_eqb (p, q) d = Some v.
Proof.
  intros H. unfold dict_to_matrix in H. apply mapM_ok in H. 
  pose proof (Forall2_length' _ _ _ H) as L. rewrite seq_length in L.
  assert (R : forall i r, nth_error m i = Some r -> i < length ps /\
     mapM (fun j => let* p := opt_result IndexError (nth_error ps (Nat.min i j)) in
          let* q := opt_result IndexError (nth_error ps (Nat.max i j)) in opt_result KeyError (lookup pair_eqb (p, q) d)) (seq 0 (length ps)) = Ok r).
  { intros i r Hr. assert (Hi : i < length ps) by (rewrite L; apply nth_error_Some; congruence). split; [exact Hi|].
    exact (F2_nth _ _ _ _ _ _ H (nth_error_seq 0 (length ps) i Hi) Hr). }
  split.
  - split; [auto|]. intros r Hr. apply In_nth_error in Hr. destruct Hr as [i Hi]. destruct (R i r Hi) as [_ E]. apply mapM_len in E.
    rewrite seq_length in E. exact E.
  - intros i j v. split.
    + intros [r [Hr Hv]]. destruct (R i r Hr) as [Hi E]. pose proof (mapM_len _ _ _ E) as Lr. rewrite seq_length in Lr.
      assert (Hj : j < length ps) by (rewrite <- Lr; apply nth_error_Some; congruence).
      apply mapM_ok in E. pose proof (F2_nth _ _ _ _ _ _ E (nth_error_seq 0 (length ps) j Hj) Hv) as E'. clear E. rename E' into E. cbv beta in E. rewrite Nat.add_0_l in E.
      destruct (nth_error ps (Nat.min i j)) as [p|] eqn:Ep; [|discriminate]. cbn in E. destruct (nth_error ps (Nat.max i j)) as [q|] eqn:Eq; [|discriminate]. cbn in E.
      destruct (lookup pair_eqb (p, q) d) as [v'|] eqn:El; [|discriminate]. cbn in E. injection E as <-. exists p, q. auto.
    + intros [p [q [Hp [Hq Hv]]]].
      assert (Hm : Nat.max i j < length ps) by (apply nth_error_Some; congruence).
      assert (Hi : i < length m) by lia. destruct (nth_error m i) as [r|] eqn:Er; [|apply nth_error_None in Er; lia].
      destruct (R i r Er) as [_ E]. pose proof (mapM_len _ _ _ E) as Lr. rewrite seq_length in Lr.
      destruct (nth_error r j) as [v'|] eqn:Ev; [|apply nth_error_None in Ev; lia].
      exists r. split; [exact Er|]. rewrite Ev. apply mapM_ok in E.
      assert (Hj : j < length ps) by lia. pose proof (F2_nth _ _ _ _ _ _ E (nth_error_seq 0 (length ps) j Hj) Ev) as E'. clear E. rename E' into E. cbv beta in E. rewrite Nat.add_0_l in E. rewrite Hp, Hq in E. cbn in E. rewrite Hv in E. cbn in E. congruence.
Qed.
Lemma dict_to_matrix_symmetric {V} ps (d : list ((string * string) * V)) m : dict_to_matrix ps d = Ok m -> symmetric m.
Proof.
  intros H. destruct (dict_to_matrix_entries _ _ _ H) as [_ E]. intros i j v. rewrite !E. rewrite (Nat.min_comm j i), (Nat.max_comm j i). reflexivity.
Qed.
Lemma dict_to_matrix_total {V} ps (d : list ((string * string) * V)) :
  (forall p q, In p ps -> In q ps -> exists v, lookup pair_eqb (p, q) d = Some v) -> exists m, dict_to_matrix ps d = Ok m.
Proof.
  intros H. unfold dict_to_matrix.
  assert (G : forall l, (forall i, In i l -> i < length ps) -> exists m, mapM (fun i => mapM (fun j =>
          let* p := opt_result IndexError (nth_error ps (Nat.min i j)) in
          let* q := opt_result IndexError (nth_error ps (Nat.max i j)) in
          opt_result KeyError (lookup pair_eqb (p, q) d)) (seq 0 (length ps))) l = Ok m).
  { intros l Hl. induction l as [|i l IH]; [exists []; reflexivity|]. cbn [mapM].
    assert (X : exists r, mapM (fun j =>
          let* p := opt_result IndexError (nth_error ps (Nat.min i j)) in
          let* q := opt_result IndexError (nth_error ps (Nat.max i j)) in
          opt_result KeyError (lookup pair_eqb (p, q) d)) (seq 0 (length ps)) = Ok r).
    { assert (Hi : i < length ps) by (apply Hl; left; reflexivity).
      assert (Y : forall l', (forall j, In j l' -> j < length ps) -> exists r, mapM (fun j =>
          let* p := opt_result IndexError (nth_error ps (Nat.min i j)) in
          let* q := opt_result IndexError (nth_error ps (Nat.max i j)) in
          opt_result KeyError (lookup pair_eqb (p, q) d)) l' = Ok r).
      { induction l' as [|j l' IH']; intros Hl'; [exists []; reflexivity|]. cbn [mapM].
        assert (Hj : j < length ps) by (apply Hl'; left; reflexivity).
        destruct (in_square ps (Nat.min i j)) as [p Hp]; [lia|]. destruct (in_square ps (Nat.max i j)) as [q Hq]; [lia|].
        rewrite Hp, Hq. cbn [opt_result bind]. destruct (H p q (nth_error_In _ _ Hp) (nth_error_In _ _ Hq)) as [v Hv]. rewrite Hv. cbn [opt_result bind].
        destruct IH' as [r Hr]; [intros k Hk; apply Hl'; right; exact Hk|]. rewrite Hr. eexists. reflexivity. }
      apply Y. intros j Hj. apply in_seq in Hj. lia. }
    destruct X as [r Hr]. rewrite Hr. cbn [bind]. destruct IH as [m Hm]; [intros k Hk; apply Hl; right; exact Hk|]. rewrite Hm. eexists. reflexivity. }
  apply G. intros i Hi. apply in_seq in Hi. lia.
Qed.

Lemma mget_entry {V} (d : V) m i j n : square n m -> i < n -> j < n -> entry_at m i j (mget d m i j).
Proof.
  intros [L R] Hi Hj. destruct (nth_error m i) as [r|] eqn:Er; [|apply nth_error_None in Er; lia].
  pose proof (R r (nth_error_In _ _ Er)) as Lr. exists r. split; [exact Er|]. unfold mget. rewrite (nth_error_nth _ _ _ Er).
  apply nth_error_nth'. lia.
Qed.
Lemma entry_mget {V} (d : V) m i j v : entry_at m i j v -> mget d m i j = v.
Proof. intros [r [Hr Hv]]. unfold mget. rewrite (nth_error_nth _ _ _ Hr). apply (nth_error_nth _ _ _ Hv). Qed.

(** matrix_to_dict *)
Lemma matrix_to_dict_In {V} (dv : V) ps m k v : In (k, v) (matrix_to_dict dv ps m) <->
  exists i j p q, i <= j /\ nth_error ps i = Some p /\ nth_error ps j = Some q /\ v = mget dv m i j /\ (k = (p, q) \/ (i <> j /\ k = (q, p))).
Proof.
  unfold matrix_to_dict. rewrite in_concat. split.
  - intros [l [Hl Hin]]. apply in_map_iff in Hl. destruct Hl as [i [<- Hi]]. apply in_seq in Hi.
    apply in_concat in Hin. destruct Hin as [l' [Hl' Hin]]. apply in_map_iff in Hl'. destruct Hl' as [j [<- Hj]]. apply in_seq in Hj.
    destruct (nth_error ps i) as [p|] eqn:Ep; [|destruct Hin]. destruct (nth_error ps j) as [q|] eqn:Eq; [|destruct Hin].
    exists i, j, p, q. split; [lia|]. split; [exact Ep|]. split; [exact Eq|].
    destruct Hin as [E|Hin]; [injection E as <- <-; auto|]. destruct (Nat.eqb_spec i j) as [Ei|Ei]; [destruct Hin|].
    destruct Hin as [E|[]]. injection E as <- <-. auto.
  - intros [i [j [p [q [Hij [Hp [Hq [-> Hk]]]]]]]].
    assert (Hj : j < length ps) by (apply nth_error_Some; congruence).
    eexists. split; [apply in_map_iff; exists i; split; [reflexivity|apply in_seq; lia]|].
    apply in_concat. eexists. split; [apply in_map_iff; exists j; split; [reflexivity|apply in_seq; lia]|]. rewrite Hp, Hq.
    destruct Hk as [-> | [Hn ->]]; [left; reflexivity|]. right. apply Nat.eqb_neq in Hn. rewrite Hn. left. reflexivity.
Qed.
Lemma lookup_functional {K V} (eqb : K -> K -> bool) (ok : eqb_spec eqb) (d : list (K * V)) k v :
  In (k, v) d -> (forall v', In (k, v') d -> v' = v) -> lookup eqb k d = Some v.
Proof.
  intros Hin Hf. destruct (lookup eqb k d) as [v'|] eqn:E.
  - apply (lookup_in _ ok) in E. rewrite (Hf v' E). reflexivity.
  - apply (lookup_none _ ok) in E. exfalso. apply E. apply (in_map fst) in Hin. exact Hin.
Qed.
Lemma NoDup_nth_inj (ps : list string) i j p : NoDup ps -> nth_error ps i = Some p -> nth_error ps j = Some p -> i = j.
Proof.
  intros Hn Hi Hj. pose proof (nodup_index_of _ string_eqb_ok _ _ _ Hn Hi). pose proof (nodup_index_of _ string_eqb_ok _ _ _ Hn Hj). congruence.
Qed.
Lemma matrix_to_dict_lookup {V} (dv : V) ps m i j p q : NoDup ps -> nth_error ps i = Some p -> nth_error ps j = Some q ->
  lookup pair_eqb (p, q) (matrix_to_dict dv ps m) = Some (mget dv m (Nat.min i j) (Nat.max i j)).
Proof.
  intros Hn Hi Hj. apply (lookup_functional _ pair_eqb_ok).
  - apply matrix_to_dict_In. destruct (Nat.le_gt_cases i j) as [H|H].
    + exists i, j, p, q. rewrite Nat.min_l, Nat.max_r by lia. auto 10.
    + exists j, i, q, p. rewrite Nat.min_r, Nat.max_l by lia. split; [lia|]. split; [exact Hj|]. split; [exact Hi|]. split; [reflexivity|]. right. split; [lia|reflexivity].
  - intros v' H. apply matrix_to_dict_In in H. destruct H as [i' [j' [p' [q' [Hle [Hp [Hq [-> [E|[Hne E]]]]]]]]]]; injection E as -> ->.
    + rewrite (NoDup_nth_inj _ _ _ _ Hn Hi Hp), (NoDup_nth_inj _ _ _ _ Hn Hj Hq). rewrite Nat.min_l, Nat.max_r by lia. reflexivity.
    + rewrite (NoDup_nth_inj _ _ _ _ Hn Hi Hq), (NoDup_nth_inj _ _ _ _ Hn Hj Hp). rewrite Nat.min_r, Nat.max_l by lia. reflexivity.
Qed.
Lemma matrix_to_dict_lookup_in {V} (dv : V) ps m p q v : lookup pair_eqb (p, q) (matrix_to_dict dv ps m) = Some v -> In p ps /\ In q ps.
Proof.
  intros H. apply (lookup_in _ pair_eqb_ok) in H. apply matrix_to_dict_In in H.
  destruct H as [i [j [p' [q' [_ [Hp [Hq [_ [E|[_ E]]]]]]]]]]; injection E as -> ->; split; eapply nth_error_In; eassumption.
Qed.
Lemma matrix_to_dict_symmetric ps (m : list (list Q)) : NoDup ps -> symmetric_dict (matrix_to_dict 0%Q ps m).
Proof.
  intros Hn. assert (G : forall p q v, lookup pair_eqb (p, q) (matrix_to_dict 0%Q ps m) = Some v -> lookup pair_eqb (q, p) (matrix_to_dict 0%Q ps m) = Some v).
  { intros p q v H. destruct (matrix_to_dict_lookup_in _ _ _ _ _ _ H) as [Hp Hq]. apply In_nth_error in Hp, Hq. destruct Hp as [i Hi], Hq as [j Hj].
    rewrite (matrix_to_dict_lookup _ _ _ _ _ _ _ Hn Hi Hj) in H. rewrite (matrix_to_dict_lookup _ _ _ _ _ _ _ Hn Hj Hi).
    rewrite (Nat.min_comm j i), (Nat.max_comm j i). exact H. }
  intros p q v. split; apply G.
Qed.
Lemma roundtrip ps (m : list (list Q)) : NoDup ps -> square (length ps) m -> symmetric m ->
  dict_to_matrix ps (matrix_to_dict 0%Q ps m) = Ok m.
Proof.
  intros Hn Hs Hsym. destruct (dict_to_matrix_total ps (matrix_to_dict 0%Q ps m)) as [m' Hm'].
  { intros p q Hp Hq. apply In_nth_error in Hp, Hq. destruct Hp as [i Hi], Hq as [j Hj]. eexists. apply (matrix_to_dict_lookup _ _ _ _ _ _ _ Hn Hi Hj). }
  rewrite Hm'. f_equal. destruct (dict_to_matrix_entries _ _ _ Hm') as [[L R] E]. destruct Hs as [L0 R0].
  apply nth_error_ext. intros i. destruct (nth_error m' i) as [r|] eqn:Er.
  - assert (Hi : i < length ps) by (rewrite <- L; apply nth_error_Some; congruence).
    destruct (nth_error m i) as [r0|] eqn:Er0; [|apply nth_error_None in Er0; lia]. f_equal.
    pose proof (R r (nth_error_In _ _ Er)) as Lr. pose proof (R0 r0 (nth_error_In _ _ Er0)) as Lr0.
    apply nth_error_ext. intros j. destruct (nth_error r j) as [v|] eqn:Ev.
    + assert (Hv : entry_at m' i j v) by (exists r; auto). apply E in Hv. destruct Hv as [p [q [Hp [Hq Hl]]]].
      assert (Hj : j < length ps) by (rewrite <- Lr; apply nth_error_Some; congruence).
      rewrite (matrix_to_dict_lookup _ _ _ _ _ _ _ Hn Hp Hq) in Hl. rewrite Nat.min_l, Nat.max_r in Hl by lia. injection Hl as <-.
      assert (X : entry_at m i j (mget 0%Q m (Nat.min i j) (Nat.max i j))).
      { destruct (Nat.le_gt_cases i j) as [C|C].
        - rewrite Nat.min_l, Nat.max_r by lia. apply (mget_entry _ _ _ _ (length ps)); [split; assumption|lia|lia].
        - rewrite Nat.min_r, Nat.max_l by lia. apply Hsym. apply (mget_entry _ _ _ _ (length ps)); [split; assumption|lia|lia]. }
      destruct X as [r1 [X1 X2]]. rewrite X1 in Er0. injection Er0 as <-. exact (eq_sym X2).
    + apply nth_error_None in Ev. symmetry. apply nth_error_None. lia.
  - apply nth_error_None in Er. symmetry. apply nth_error_None. lia.
Qed.

(** closeness of levels *)
Lemma qabs_Qabs q : (qabs q == Qabs q)%Q.
Proof.
  unfold qabs. destruct (Qle_bool 0 q) eqn:E.
  - apply Qle_bool_iff in E. rewrite Qabs_pos by exact E. reflexivity.
  - rewrite Qabs_neg; [reflexivity|]. apply Qlt_le_weak, Qnot_le_lt. intros C. apply Qle_bool_iff in C. congruence.
Qed.
Lemma qmax_le a b c : (a <= qmax b c <-> a <= b \/ a <= c)%Q.
Proof.
  unfold qmax. destruct (Qle_bool b c) eqn:E.
  - apply Qle_bool_iff in E. split; [auto|]. intros [H|H]; lra.
  - assert (c < b)%Q by (apply Qnot_le_lt; intros C; apply Qle_bool_iff in C; congruence). split; [auto|]. intros [H'|H']; lra.
Qed.
Lemma cl_close_iff c c' : cl_close c c' = true <-> close_levels c c'.
Proof.
  unfold cl_close, isclose, close_levels. rewrite Qle_bool_iff, qmax_le, qabs_Qabs.
  assert (G : forall a x y, (a <= (1 # 1000000000) * qmax x y <-> a <= (1 # 1000000000) * x \/ a <= (1 # 1000000000) * y)%Q).
  { intros a x y. unfold qmax. destruct (Qle_bool x y) eqn:E.
    - apply Qle_bool_iff in E. split; [auto|]. intros [H|H]; lra.
    - assert (y < x)%Q by (apply Qnot_le_lt; intros C; apply Qle_bool_iff in C; congruence). split; [auto|]. intros [H'|H']; lra. }
  rewrite G, !qabs_Qabs. tauto.
Qed.
