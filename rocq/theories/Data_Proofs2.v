(** Proofs for unbinned data, part 2: datasets and cuts. *)
From Coq Require Import Permutation.
From Verif Require Import Base BaseLemmas Coord_Model Coord_Spec Coord_Proofs Space_Model Space_Spec
  Space_Proofs Space_Proofs2 Space_Proofs3 Space_Proofs4 Data_Model Data_Spec Data_Proofs.

(** The columns a dataset stands for. *)
Definition lds_ok (l : lds) (cols : list (list Q)) (N : nat) : Prop :=
  match l with
  | LT t m => rectangular t /\ (forall j, In j m -> (j < t_width t)%nat) /\ length (t_rows t) = N
              /\ cols = map (fun j => map (fun r => nth j r 0%Q) (t_rows t)) m
  | LM c => cols = c /\ (forall x, In x c -> length x = N)
  end.
Definition rowsof (N : nat) (cols : list (list Q)) : list (list Q) :=
  map (fun k => map (fun c => nth k c 0%Q) cols) (seq 0 N).

Lemma rowsof_length N cols : length (rowsof N cols) = N.
Proof. unfold rowsof. rewrite map_length, seq_length. reflexivity. Qed.
Lemma rowsof_width N cols r : In r (rowsof N cols) -> length r = length cols.
Proof. unfold rowsof. rewrite in_map_iff. intros [k [<- _]]. apply map_length. Qed.
Lemma rowsof_nth N cols k : (k < N)%nat -> nth_error (rowsof N cols) k = Some (map (fun c => nth k c 0%Q) cols).
Proof.
  intros H. unfold rowsof. rewrite nth_error_map. rewrite nth_error_nth' with (d := 0%nat) by (rewrite seq_length; exact H).
  rewrite seq_nth by exact H. reflexivity.
Qed.

Lemma lds_ok_cols l cols N : lds_ok l cols N -> forall c, In c cols -> length c = N.
Proof.
  destruct l as [t m|c0]; simpl.
  - intros [_ [_ [<- ->]]] c Hin. apply in_map_iff in Hin. destruct Hin as [j [<- _]]. apply map_length.
  - intros [-> H]. exact H.
Qed.
Lemma lds_ok_ndims l cols N : lds_ok l cols N -> lds_ndims l = length cols.
Proof. destruct l as [t m|c]; simpl; [intros [_ [_ [_ ->]]]; rewrite map_length; reflexivity|intros [-> _]; reflexivity]. Qed.
Lemma lds_ok_num l cols N : lds_ok l cols N -> cols <> [] -> lds_num l = N.
Proof.
  destruct l as [t m|c]; simpl; [intros [_ [_ [H _]]] _; exact H|].
  intros [-> H] Hne. destruct c as [|c0 c]; [congruence|]. apply H. left. reflexivity.
Qed.

Lemma gather_map_nth {A} (d : A) l idx : (forall i, In i idx -> (i < length l)%nat) ->
  gather l idx = Some (map (fun i => nth i l d) idx).
Proof.
  intros H. apply gather_forall2. induction idx as [|i idx IH]; simpl; constructor.
  - apply nth_error_nth'. apply H. left. reflexivity.
  - apply IH. intros j Hj. apply H. right. exact Hj.
Qed.

Lemma lds_force_ok l cols N : lds_ok l cols N ->
  exists l', lds_force l = Ok l' /\ l' = LM cols /\ lds_ok l' cols N.
Proof.
  intros H. pose proof (lds_ok_cols _ _ _ H) as Hc. destruct l as [t m|c]; simpl in *.
  - destruct H as [_ [Hm [_ E]]].
    rewrite (mapM_map_ok (tcolumn t) (fun j => map (fun r => nth j r 0%Q) (t_rows t))).
    + rewrite <- E. cbn [bind]. eexists. split; [reflexivity|]. split; [reflexivity|]. split; [reflexivity|exact Hc].
    + intros j Hj. unfold tcolumn. specialize (Hm j Hj). destruct (Nat.ltb_spec j (t_width t)); [reflexivity|lia].
  - destruct H as [-> H]. eexists. split; [reflexivity|]. split; [reflexivity|]. split; [reflexivity|exact H].
Qed.

Lemma stack_ok cols N : cols <> [] -> (forall c, In c cols -> length c = N) -> stack cols = Ok (rowsof N cols).
Proof.
  intros Hne H. destruct cols as [|c cols]; [congruence|]. unfold stack.
  rewrite (proj2 (forallb_forall _ _)).
  - rewrite (H c (or_introl eq_refl)). reflexivity.
  - intros c' Hc'. apply Nat.eqb_eq. rewrite (H c' Hc'), (H c (or_introl eq_refl)). reflexivity.
Qed.

Lemma nth_map_lt {A B} (f : A -> B) l i d d' : (i < length l)%nat -> nth i (map f l) d = f (nth i l d').
Proof. intros H. rewrite (nth_indep _ d (f d')) by (rewrite map_length; exact H). apply map_nth. Qed.

Lemma map_seq_nth {A B} (f : A -> B) (l : list A) d : map f l = map (fun k => f (nth k l d)) (seq 0 (length l)).
Proof.
  apply nth_error_ext. intros k. rewrite !nth_error_map. destruct (Nat.lt_ge_cases k (length l)) as [H|H].
  - rewrite (nth_error_nth' l d H). rewrite nth_error_nth' with (d := 0%nat) by (rewrite seq_length; exact H).
    rewrite seq_nth by exact H. reflexivity.
  - rewrite (proj2 (nth_error_None l k) H). rewrite (proj2 (nth_error_None (seq 0 (length l)) k)); [reflexivity|].
    rewrite seq_length. exact H.
Qed.

Lemma lds_value_core l' cols N idx : lds_ok l' cols N -> idx <> [] -> (forall i, In i idx -> (i < length cols)%nat) ->
  (match l' with
   | LM c => let* cs := opt_result KeyError (gather c idx) in
             let* rows := stack cs in Ok (l', mkT (length idx) rows)
   | LT t m => let* newindex := opt_result KeyError (gather m idx) in
               let* rows := mapM (fun r => opt_result InvalidArgumentError (gather r newindex)) (t_rows t) in
               Ok (l', mkT (length idx) rows)
   end) = Ok (l', mkT (length idx) (rowsof N (map (fun i => nth i cols []) idx))).
Proof.
  intros H Hne Hi. destruct l' as [t m|c]; simpl in H.
  - destruct H as [Hr [Hm [HN E]]].
    assert (Hl : length cols = length m) by (rewrite E, map_length; reflexivity).
    rewrite (gather_map_nth 0%nat m idx) by (intros i Hin; rewrite <- Hl; apply Hi, Hin). cbn [opt_result bind].
    set (newi := map (fun i => nth i m 0%nat) idx).
    rewrite (mapM_map_ok _ (fun r => map (fun j => nth j r 0%Q) newi)).
    + cbn [bind]. f_equal. f_equal. f_equal. unfold rowsof.
      rewrite (map_seq_nth _ (t_rows t) []). rewrite HN. apply map_ext_in. intros k Hk. apply in_seq in Hk.
      unfold newi. rewrite !map_map. apply map_ext_in. intros i Hin. specialize (Hi i Hin). rewrite Hl in Hi. rewrite E.
      rewrite (nth_map_lt _ m i [] 0%nat Hi). rewrite (nth_map_lt _ (t_rows t) k 0%Q []) by lia. reflexivity.
    + intros r Hin. rewrite (gather_map_nth 0%Q r newi); [reflexivity|].
      intros j Hj. unfold newi in Hj. apply in_map_iff in Hj. destruct Hj as [i [<- Hin']].
      rewrite (Hr r Hin). apply Hm. apply nth_In. rewrite <- Hl. apply Hi, Hin'.
  - destruct H as [-> Hc]. rewrite (gather_map_nth [] c idx Hi). cbn [opt_result bind].
    rewrite (stack_ok _ N).
    + reflexivity.
    + destruct idx; [congruence|discriminate].
    + intros x Hx. apply in_map_iff in Hx. destruct Hx as [i [<- Hin]]. apply Hc. apply nth_In. apply Hi, Hin.
Qed.

Lemma lds_value_ok l cols N idx : lds_ok l cols N -> idx <> [] -> (forall i, In i idx -> (i < length cols)%nat) ->
  exists l', lds_value l (Some idx) = Ok (l', mkT (length idx) (rowsof N (map (fun i => nth i cols []) idx)))
    /\ lds_ok l' cols N.
Proof.
  intros H Hne Hi. unfold lds_value. destruct (_ <? _)%nat.
  - destruct (lds_force_ok _ _ _ H) as [l' [E [-> H']]]. exists (LM cols). split; [|exact H'].
    rewrite E. cbn [bind]. exact (lds_value_core (LM cols) cols N idx H' Hne Hi).
  - exists l. split; [|exact H]. cbn [bind]. apply lds_value_core; assumption.
Qed.
Lemma map_nth_seq {A} (l : list A) d : map (fun i => nth i l d) (seq 0 (length l)) = l.
Proof. rewrite <- (map_seq_nth (fun x => x) l d). apply map_id. Qed.
Lemma lds_value_none l cols N : lds_ok l cols N -> cols <> [] ->
  lds_value l None = Ok (l, mkT (length cols) (rowsof N cols)).
Proof.
  intros H Hne. unfold lds_value. cbn [bind]. rewrite (lds_ok_ndims _ _ _ H).
  rewrite (lds_value_core l cols N (seq 0 (length cols)) H).
  - rewrite map_nth_seq, seq_length. reflexivity.
  - destruct cols; [congruence|discriminate].
  - intros i Hi. apply in_seq in Hi. lia.
Qed.

Lemma lds_with_indices_ok l cols N idx : lds_ok l cols N -> (forall i, In i idx -> (i < length cols)%nat) ->
  exists l', lds_with_indices l idx = Ok l' /\ lds_ok l' (map (fun i => nth i cols []) idx) N.
Proof.
  intros H Hi. destruct l as [t m|c]; simpl in H.
  - destruct H as [Hr [Hm [HN E]]].
    assert (Hl : length cols = length m) by (rewrite E, map_length; reflexivity). rewrite Hl in Hi.
    cbn [lds_with_indices]. rewrite (gather_map_nth 0%nat m idx Hi). cbn [opt_result bind].
    eexists. split; [reflexivity|]. split; [exact Hr|]. split; [|split; [exact HN|]].
    + intros j Hj. apply in_map_iff in Hj. destruct Hj as [i [<- Hin]]. apply Hm, nth_In, Hi, Hin.
    + rewrite map_map. apply map_ext_in. intros i Hin. rewrite E. rewrite (nth_map_lt _ m i [] 0%nat (Hi i Hin)). reflexivity.
  - destruct H as [-> Hc]. cbn [lds_with_indices]. rewrite (gather_map_nth [] c idx Hi). cbn [opt_result bind].
    eexists. split; [reflexivity|]. split; [reflexivity|].
    intros x Hx. apply in_map_iff in Hx. destruct Hx as [i [<- Hin]]. apply Hc. apply nth_In. apply Hi, Hin.
Qed.

Lemma lds_from_tensor_ok t : rectangular t -> t_width t <> 0%nat ->
  lds_from_tensor t (t_width t) = Ok (LT t (seq 0 (t_width t)))
  /\ exists cols, lds_ok (LT t (seq 0 (t_width t))) cols (length (t_rows t)) /\ length cols = t_width t
       /\ rowsof (length (t_rows t)) cols = t_rows t.
Proof.
  intros Hr Hw. unfold lds_from_tensor. rewrite Nat.eqb_refl. split; [reflexivity|].
  eexists. split; [|split].
  - cbn [lds_ok]. split; [exact Hr|]. split; [intros j Hj; apply in_seq in Hj; lia|]. split; reflexivity.
  - rewrite map_length, seq_length. reflexivity.
  - unfold rowsof. transitivity (map (fun k => nth k (t_rows t) []) (seq 0 (length (t_rows t)))); [|apply map_nth_seq].
    apply map_ext_in. intros k Hk. apply in_seq in Hk. rewrite map_map.
    assert (Hlen : length (nth k (t_rows t) []) = t_width t) by (apply Hr, nth_In; lia).
    rewrite <- (map_nth_seq (nth k (t_rows t) []) 0%Q) at 1. rewrite Hlen. apply map_ext_in. intros j _.
    rewrite (nth_map_lt _ (t_rows t) k 0%Q []) by lia. reflexivity.
Qed.

(** ** Cuts *)
Definition inb (f : string -> Q * Q) (o : string) (v : Q) : bool := Qle_bool v (snd (f o)) && Qle_bool (fst (f o)) v.
Definition rowb (f : string -> Q * Q) (os : list string) (r : list Q) : bool :=
  forallb (fun p => inb f (fst p) (snd p)) (combine os r).
Definition keepb (k : lk) (os : list string) (r : list Q) : bool :=
  match k with KR f => rowb f os r | _ => true end.

Lemma inb_between f o v : inb f o v = true <-> between (f o) v.
Proof. unfold inb, between. rewrite andb_true_iff, !Qle_bool_iff. tauto. Qed.
Lemma column_combine os (x : list Q) o v : column os x o v <-> In (o, v) (combine os x).
Proof. unfold column. rewrite combine_In_nth. reflexivity. Qed.
Lemma keepb_inbox k os r : keepb k os r = true <-> inbox k os r.
Proof.
  destruct k as [f| |]; simpl; [|tauto|tauto]. unfold rowb. rewrite forallb_forall. split.
  - intros H o v Hc. apply column_combine in Hc. apply inb_between. exact (H _ Hc).
  - intros H [o v] Hin. apply inb_between. apply H. apply column_combine. exact Hin.
Qed.
Lemma sp_inside_eq s os f r : sp_ok s os (KR f) -> length r = length os -> s_inside s r false = Ok (rowb f os r).
Proof.
  intros S Hl. destruct (sp_inside _ _ _ _ S Hl) as [b [E Hb]]. rewrite E. f_equal. apply bool_eq_iff.
  rewrite Hb. symmetry. apply (keepb_inbox (KR f)).
Qed.

Lemma mask_filter {A} (p : A -> bool) l : boolean_mask l (map p l) = filter p l.
Proof. induction l as [|a l IH]; simpl; [reflexivity|]. rewrite IH. reflexivity. Qed.
Lemma mask_true {A} (l : list A) m : length m = length l -> forallb (fun b => b) m = true -> boolean_mask l m = l.
Proof.
  revert m. induction l as [|a l IH]; intros [|b m] H1 H2; simpl in *; try discriminate; [reflexivity|].
  apply andb_true_iff in H2. destruct H2 as [-> H2]. f_equal. apply IH; [lia|exact H2].
Qed.
Lemma mask_combine {A B} (l : list A) (r : list B) m : length l = length r ->
  boolean_mask (combine l r) m = combine (boolean_mask l m) (boolean_mask r m).
Proof.
  revert r m. induction l as [|a l IH]; intros [|b r] m H; simpl in *; try discriminate; [reflexivity|].
  destruct m as [|c m]; [reflexivity|]. destruct c; simpl; [f_equal|]; apply IH; lia.
Qed.
Lemma mask_length {A B} (l : list A) (r : list B) m : length l = length r ->
  length (boolean_mask l m) = length (boolean_mask r m).
Proof.
  revert r m. induction l as [|a l IH]; intros [|b r] m H; simpl in *; try discriminate; [reflexivity|].
  destruct m as [|c m]; [reflexivity|]. destruct c; simpl; [f_equal|]; apply IH; lia.
Qed.
Lemma mask_kept {A} (P : A -> Prop) l m :
  Forall2 (fun a b => b = true <-> P a) l m -> kept P l (boolean_mask l m).
Proof.
  induction 1 as [|a b l m H F IH]; simpl; [constructor|]. destruct b.
  - apply kept_yes; [apply H; reflexivity|exact IH].
  - apply kept_no; [intros C; apply H in C; discriminate|exact IH].
Qed.

Definition cutw (k : lk) (os : list string) (rows : list (list Q)) (ws : option (list Q)) : option (list Q) :=
  option_map (fun w => boolean_mask w (map (keepb k os) rows)) ws.

Lemma cutw_plain k os rows ws : weights_fit rows ws -> k = KN \/ k = KF -> cutw k os rows ws = ws.
Proof.
  intros Hw Hk. destruct ws as [w|]; [|reflexivity]. simpl in *. f_equal. apply mask_true.
  - rewrite map_length. symmetry. exact Hw.
  - apply forallb_forall. intros b Hb. apply in_map_iff in Hb. destruct Hb as [r [<- _]]. destruct Hk as [-> | ->]; reflexivity.
Qed.
Lemma filter_all {A} (p : A -> bool) l : (forall a, In a l -> p a = true) -> filter p l = l.
Proof.
  induction l as [|a l IH]; intros H; simpl; [reflexivity|]. rewrite (H a (or_introl eq_refl)). f_equal.
  apply IH. intros b Hb. apply H. right. exact Hb.
Qed.

Lemma check_weights_ok {A} (rows : list A) ws : weights_fit rows ws -> check_weights (length rows) ws = Ok tt.
Proof. destruct ws as [w|]; simpl; [intros ->; rewrite Nat.eqb_refl|]; reflexivity. Qed.

Lemma cut_tensor_ok s os k t ws : sp_ok s os k -> rectangular t -> t_width t = length os -> weights_fit (t_rows t) ws ->
  check_cut_tensor s t ws = Ok (mkT (t_width t) (filter (keepb k os) (t_rows t)), cutw k os (t_rows t) ws).
Proof.
  intros S Hr Hw Hf. unfold check_cut_tensor. rewrite (check_weights_ok _ _ Hf). cbn [bind].
  rewrite (sp_has_limits _ _ _ S). destruct k as [f| |].
  - rewrite (mapM_map_ok _ (rowb f os)).
    + cbn [bind]. rewrite mask_filter. reflexivity.
    + intros r Hin. apply sp_inside_eq; [exact S|]. rewrite (Hr r Hin). exact Hw.
  - rewrite cutw_plain; [|exact Hf|left; reflexivity]. rewrite filter_all by reflexivity. destruct t; reflexivity.
  - rewrite cutw_plain; [|exact Hf|right; reflexivity]. rewrite filter_all by reflexivity. destruct t; reflexivity.
Qed.

(** the cut axis by axis *)
Definition acc_at (f : string -> Q * Q) (os : list string) (cols : list (list Q)) (N j : nat) : option (list bool) :=
  match j with
  | O => None
  | _ => Some (map (fun i => forallb (fun p => inb f (fst p) (nth i (snd p) 0%Q)) (combine (firstn j os) (firstn j cols))) (seq 0 N))
  end.
Lemma firstn_snoc {A} (l : list A) j a : nth_error l j = Some a -> firstn (S j) l = firstn j l ++ [a].
Proof.
  revert j. induction l as [|b l IH]; intros [|j] H; simpl in *; try discriminate.
  - inversion H. reflexivity.
  - f_equal. apply IH. exact H.
Qed.
Lemma combine_snoc {A B} (a : list A) (b : list B) x y : length a = length b ->
  combine (a ++ [x]) (b ++ [y]) = combine a b ++ [(x, y)].
Proof. revert b. induction a as [|z a IH]; intros [|w b] H; simpl in *; try discriminate; [reflexivity|]. f_equal. apply IH. lia. Qed.
Lemma combine_map {A B C D} (f : A -> B) (g : C -> D) (l : list A) (r : list C) :
  combine (map f l) (map g r) = map (fun p => (f (fst p), g (snd p))) (combine l r).
Proof. revert r. induction l as [|a l IH]; intros [|c r]; simpl; try reflexivity. f_equal. apply IH. Qed.
Lemma combine_self {A} (l : list A) : combine l l = map (fun a => (a, a)) l.
Proof. induction l as [|a l IH]; simpl; [reflexivity|]. f_equal. exact IH. Qed.

Lemma mask_step_rect s os f cols N j : sp_ok s os (KR f) -> numbered s os -> length cols = length os ->
  (forall c, In c cols -> length c = N) -> (j < length os)%nat ->
  mask_step s cols (acc_at f os cols N j) (Z.of_nat j) = Ok (acc_at f os cols N (S j)).
Proof.
  intros HS Hn Hl Hc Hj. unfold mask_step.
  destruct (nth_error os j) as [o|] eqn:Eo; [|apply nth_error_None in Eo; lia].
  destruct (nth_error cols j) as [c|] eqn:Ec; [|apply nth_error_None in Ec; lia].
  destruct (sp_with_axis _ _ _ _ _ HS Hn Eo) as [s' [E S']]. rewrite E. cbn [bind].
  rewrite Nat2Z.id, Ec. cbn [opt_result bind]. rewrite (sp_has_limits _ _ _ S').
  assert (HcN : length c = N) by (apply Hc; eapply nth_error_In, Ec).
  rewrite (mapM_map_ok _ (fun v => inb f o v)).
  2:{ intros v _. rewrite (sp_inside_eq s' [o] f [v] S' eq_refl). unfold rowb. simpl. rewrite andb_true_r. reflexivity. }
  cbn [bind]. destruct j as [|j].
  - cbn [and_masks acc_at]. f_equal. f_equal.
    rewrite (map_seq_nth _ c 0%Q), HcN. apply map_ext_in. intros i _.
    destruct os as [|o0 os]; [discriminate|]. destruct cols as [|c0 cols]; [discriminate|]. simpl in Eo, Ec.
    inversion Eo; inversion Ec; subst. simpl. rewrite andb_true_r. reflexivity.
  - cbn [acc_at and_masks]. rewrite !map_length, seq_length, HcN, Nat.eqb_refl. f_equal. f_equal.
    rewrite (map_seq_nth _ c 0%Q), HcN. rewrite combine_map, combine_self, !map_map.
    apply map_ext_in. intros i _. cbn [fst snd].
    rewrite (firstn_snoc os (S j) o Eo), (firstn_snoc cols (S j) c Ec).
    rewrite combine_snoc by (rewrite !firstn_length; lia). rewrite forallb_app. cbn [forallb fst snd]. rewrite andb_true_r. reflexivity.
Qed.

Lemma mask_fold_rect s os f cols N : sp_ok s os (KR f) -> numbered s os -> length cols = length os ->
  (forall c, In c cols -> length c = N) -> forall m j, (j + m = length os)%nat ->
  foldM (mask_step s cols) (acc_at f os cols N j) (map Z.of_nat (seq j m)) = Ok (acc_at f os cols N (length os)).
Proof.
  intros S Hn Hl Hc. induction m as [|m IH]; intros j Hj; cbn [seq map foldM].
  - replace j with (length os) by lia. reflexivity.
  - rewrite (mask_step_rect s os f cols N j S Hn Hl Hc) by lia. cbn [bind]. apply IH. lia.
Qed.
Lemma mask_fold_plain s os k cols : sp_ok s os k -> k = KN \/ k = KF -> numbered s os -> length cols = length os ->
  forall m j, (j + m = length os)%nat ->
  foldM (mask_step s cols) None (map Z.of_nat (seq j m)) = Ok None.
Proof.
  intros S Hk Hn Hl. induction m as [|m IH]; intros j Hj; cbn [seq map foldM]; [reflexivity|].
  unfold mask_step at 1.
  destruct (nth_error os j) as [o|] eqn:Eo; [|apply nth_error_None in Eo; lia].
  destruct (nth_error cols j) as [c|] eqn:Ec; [|apply nth_error_None in Ec; lia].
  destruct (sp_with_axis _ _ _ _ _ S Hn Eo) as [s' [E S']]. rewrite E. cbn [bind].
  rewrite Nat2Z.id, Ec. cbn [opt_result bind]. rewrite (sp_has_limits _ _ _ S').
  destruct Hk as [-> | ->]; cbn [bind]; apply IH; lia.
Qed.

Lemma mapM_cols (cols : list (list Q)) : mapM (fun ax => opt_result KeyError (nth_error cols (Z.to_nat ax))) (range_axes (length cols)) = Ok cols.
Proof.
  unfold range_axes. transitivity (Ok (map (fun z => nth (Z.to_nat z) cols []) (map Z.of_nat (seq 0 (length cols))))).
  - apply mapM_map_ok. intros z Hz. apply in_map_iff in Hz. destruct Hz as [i [<- Hi]]. apply in_seq in Hi.
    rewrite Nat2Z.id. rewrite (nth_error_nth' cols []) by lia. reflexivity.
  - f_equal. rewrite map_map. transitivity (map (fun i => nth i cols []) (seq 0 (length cols))); [|apply map_nth_seq].
    apply map_ext. intros i. rewrite Nat2Z.id. reflexivity.
Qed.

Definition maskof (k : lk) (os : list string) (cols : list (list Q)) (N : nat) : list bool :=
  map (keepb k os) (rowsof N cols).
Lemma maskof_length k os cols N : length (maskof k os cols N) = N.
Proof. unfold maskof. rewrite map_length, rowsof_length. reflexivity. Qed.

Lemma cut_map_ok s os k cols N ws : sp_ok s os k -> numbered s os -> length cols = length os ->
  (forall c, In c cols -> length c = N) -> match ws with Some w => length w = N | None => True end ->
  check_cut_map s cols ws
  = Ok (map (fun c => boolean_mask c (maskof k os cols N)) cols, cutw k os (rowsof N cols) ws).
Proof.
  intros S Hn Hl Hc Hw. unfold check_cut_map.
  assert (Hne : os <> []) by apply S.
  assert (Hhd : length (hd [] cols) = N).
  { destruct cols as [|c cols]; [destruct os; [congruence|discriminate]|]. apply Hc. left. reflexivity. }
  assert (Ew : check_weights (length (hd [] cols)) ws = Ok tt).
  { destruct ws as [w|]; simpl; [rewrite Hhd, Hw, Nat.eqb_refl|]; reflexivity. }
  rewrite Ew. cbn [bind]. unfold numbered in Hn. rewrite Hn. rewrite <- Hl, mapM_cols, Hl.
  assert (Htrue : forallb (fun b => b) (maskof k os cols N) = true ->
    (cols, ws) = (map (fun c => boolean_mask c (maskof k os cols N)) cols, cutw k os (rowsof N cols) ws)).
  { intros Ht. f_equal.
    - symmetry. rewrite <- (map_id cols) at 2. apply map_ext_in. intros c Hin. apply mask_true; [|exact Ht].
      rewrite maskof_length. symmetry. apply Hc, Hin.
    - destruct ws as [w|]; [|reflexivity]. cbn [cutw option_map]. f_equal. symmetry. apply mask_true; [|exact Ht].
      change (map (keepb k os) (rowsof N cols)) with (maskof k os cols N). rewrite maskof_length. symmetry. exact Hw. }
  destruct k as [f| |].
  - unfold range_axes. change (@None (list bool)) with (acc_at f os cols N 0).
    rewrite (mask_fold_rect s os f cols N S Hn Hl Hc (length os) 0%nat) by lia. cbn [bind].
    assert (Ea : acc_at f os cols N (length os) = Some (maskof (KR f) os cols N)).
    { assert (Hz : length os <> 0%nat) by (destruct os; [congruence|discriminate]).
      transitivity (Some (map (fun i => forallb (fun p => inb f (fst p) (nth i (snd p) 0%Q))
        (combine (firstn (length os) os) (firstn (length os) cols))) (seq 0 N))).
      { unfold acc_at. destruct (length os); [congruence|reflexivity]. }
      rewrite firstn_all. replace (firstn (length os) cols) with cols by (rewrite <- Hl; symmetry; apply firstn_all). f_equal. unfold maskof, rowsof. rewrite map_map. apply map_ext. intros i.
      cbn [keepb]. unfold rowb. clear. revert cols. induction os as [|o os IH]; intros [|c cols]; simpl; try reflexivity.
      rewrite IH. reflexivity. }
    rewrite Ea. destruct (forallb (fun b => b) (maskof (KR f) os cols N)) eqn:Ef.
    + f_equal. apply Htrue. reflexivity.
    + rewrite (mapM_map_ok _ (fun c => boolean_mask c (maskof (KR f) os cols N))).
      2:{ intros c Hin. unfold mask_column. rewrite maskof_length, (Hc c Hin), Nat.eqb_refl. reflexivity. }
      cbn [bind]. destruct ws as [w|]; [|reflexivity].
      unfold mask_column. rewrite maskof_length, Hw, Nat.eqb_refl. reflexivity.
  - unfold range_axes. rewrite (mask_fold_plain s os KN cols S (or_introl eq_refl) Hn Hl (length os) 0%nat) by lia.
    cbn [bind]. f_equal. apply Htrue. apply forallb_forall. intros b Hb. unfold maskof in Hb. apply in_map_iff in Hb.
    destruct Hb as [r [<- _]]. reflexivity.
  - unfold range_axes. rewrite (mask_fold_plain s os KF cols S (or_intror eq_refl) Hn Hl (length os) 0%nat) by lia.
    cbn [bind]. f_equal. apply Htrue. apply forallb_forall. intros b Hb. unfold maskof in Hb. apply in_map_iff in Hb.
    destruct Hb as [r [<- _]]. reflexivity.
Qed.

(** masking the columns is filtering the rows *)
Lemma mask_nth {A} (l : list A) m d : forall N, length l = N -> length m = N ->
  boolean_mask l m = map (fun k => nth k l d) (boolean_mask (seq 0 N) m).
Proof.
  intros N. assert (G : forall s l m, length l = length m ->
    forall pre, length pre = s -> boolean_mask l m = map (fun k => nth k (pre ++ l) d) (boolean_mask (seq s (length l)) m)).
  { intros s l0. revert s. induction l0 as [|a l0 IH]; intros s [|b m0] H pre Hp; simpl in *; try discriminate; [reflexivity|].
    assert (E : boolean_mask l0 m0 = map (fun k => nth k (pre ++ a :: l0) d) (boolean_mask (seq (S s) (length l0)) m0)).
    { rewrite (IH (S s) m0 ltac:(lia) (pre ++ [a])) by (rewrite app_length; simpl; lia).
      rewrite <- app_assoc. reflexivity. }
    destruct b; [|exact E]. simpl. rewrite app_nth2, Hp, Nat.sub_diag by lia. simpl. f_equal. exact E. }
  intros Hl Hm. rewrite (G 0%nat l m ltac:(lia) [] eq_refl). simpl. rewrite Hl. reflexivity.
Qed.
Lemma mask_map {A B} (f : A -> B) l m : boolean_mask (map f l) m = map f (boolean_mask l m).
Proof. revert m. induction l as [|a l IH]; intros [|b m]; simpl; try reflexivity. destruct b; simpl; rewrite IH; reflexivity. Qed.
Lemma rowsof_mask cols N m : (forall c, In c cols -> length c = N) -> length m = N ->
  rowsof (length (boolean_mask (seq 0 N) m)) (map (fun c => boolean_mask c m) cols) = boolean_mask (rowsof N cols) m.
Proof.
  intros Hc Hm. unfold rowsof at 2. rewrite mask_map. unfold rowsof.
  rewrite (map_seq_nth (fun k => map (fun c => nth k c 0%Q) cols) _ 0%nat). apply map_ext_in. intros k Hk. apply in_seq in Hk.
  rewrite map_map. apply map_ext_in. intros c Hin.
  rewrite (mask_nth c m 0%Q N (Hc c Hin) Hm). rewrite (nth_map_lt (fun j => nth j c 0%Q) _ k 0%Q 0%nat) by lia. reflexivity.
Qed.

Lemma cut_map_rows k os cols N : (forall c, In c cols -> length c = N) -> length cols = length os ->
  exists N', (forall c, In c (map (fun c => boolean_mask c (maskof k os cols N)) cols) -> length c = N')
    /\ rowsof N' (map (fun c => boolean_mask c (maskof k os cols N)) cols) = filter (keepb k os) (rowsof N cols)
    /\ N' = length (filter (keepb k os) (rowsof N cols)).
Proof.
  intros Hc Hl. exists (length (boolean_mask (seq 0 N) (maskof k os cols N))).
  assert (E : boolean_mask (rowsof N cols) (maskof k os cols N) = filter (keepb k os) (rowsof N cols)) by apply mask_filter.
  split; [|split].
  - intros c Hin. apply in_map_iff in Hin. destruct Hin as [c0 [<- Hin]]. apply mask_length.
    rewrite seq_length. apply Hc, Hin.
  - rewrite rowsof_mask; [exact E|exact Hc|apply maskof_length].
  - rewrite <- E. apply mask_length. rewrite rowsof_length, seq_length. reflexivity.
Qed.
