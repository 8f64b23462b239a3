(** Lemmas about the derivatives of a loss. *)
From Verif Require Import Base BaseLemmas Der_Model Der_Spec.

Lemma update_length {A} (l : list A) i a : length (update l i a) = length l.
Proof. revert i. induction l as [|x l IH]; intros [|i]; cbn; auto. Qed.
Lemma update_same {A} (l : list A) i a : i < length l -> nth_error (update l i a) i = Some a.
Proof. revert i. induction l as [|x l IH]; intros [|i] H; cbn in *; try lia; auto. apply IH. lia. Qed.
Lemma update_other {A} (l : list A) i j a : j <> i -> nth_error (update l i a) j = nth_error l j.
Proof. revert i j. induction l as [|x l IH]; intros [|i] [|j] H; cbn; auto; try lia. Qed.
Lemma update_map {A B} (f : A -> B) (l : list A) i a : map f (update l i a) = update (map f l) i (f a).
Proof. revert i. induction l as [|x l IH]; intros [|i]; cbn; auto. now rewrite IH. Qed.
Lemma update_nth_id {A} (l : list A) i a : nth_error l i = Some a -> update l i a = l.
Proof.
  revert i. induction l as [|x l IH]; intros [|i] H; cbn in *; try discriminate; auto.
  - now injection H as <-.
  - now rewrite IH.
Qed.
Lemma update_beyond {A} (l : list A) i a : length l <= i -> update l i a = l.
Proof. revert i. induction l as [|x l IH]; intros [|i] H; cbn in *; auto; try lia. rewrite IH; auto; lia. Qed.

Lemma list_ext {A} (l r : list A) :
  length l = length r -> (forall j, nth_error l j = nth_error r j) -> l = r.
Proof. intros _ H. now apply nth_error_ext. Qed.

(** clipping *)
Lemma Qle_bool_refl (x : Q) : Qle_bool x x = true.
Proof. apply Qle_bool_iff, Qle_refl. Qed.
Lemma Qle_bool_false (x y : Q) : Qle_bool x y = false -> (y < x)%Q.
Proof.
  intros H. apply Qnot_le_lt. intros L. apply Qle_bool_iff in L. congruence.
Qed.
Lemma Qle_bool_not (x y : Q) : (y < x)%Q -> Qle_bool x y = false.
Proof.
  intros H. destruct (Qle_bool x y) eqn:E; auto. apply Qle_bool_iff in E.
  exfalso. apply (Qlt_not_le _ _ H E).
Qed.
Lemma c_value_idem (c : cell) : c_value (mkCell (c_value c) (c_low c) (c_up c)) = c_value c.
Proof.
  unfold c_value; cbn.
  destruct (c_up c) as [u|], (c_low c) as [l|]; cbn.
  - destruct (Qle_bool (c_raw c) u) eqn:Eu.
    + destruct (Qle_bool l (c_raw c)) eqn:El.
      * now rewrite Eu, El.
      * destruct (Qle_bool l u) eqn:Elu.
        -- now rewrite Qle_bool_refl.
        -- now rewrite Elu.
    + destruct (Qle_bool l u) eqn:Elu.
      * now rewrite Qle_bool_refl, Elu.
      * rewrite Elu. now rewrite Elu.
  - destruct (Qle_bool (c_raw c) u) eqn:Eu; [now rewrite Eu|now rewrite Qle_bool_refl].
  - destruct (Qle_bool l (c_raw c)) eqn:El; [now rewrite El|now rewrite Qle_bool_refl].
  - reflexivity.
Qed.
Lemma c_value_allowed (c : cell) (x : Q) :
  allowed c x -> c_value (mkCell x (c_low c) (c_up c)) = x.
Proof.
  intros [L U]. unfold c_value; cbn.
  destruct (c_up c) as [u|].
  - assert (E : Qle_bool x u = true) by (apply Qle_bool_iff; auto). rewrite E.
    destruct (c_low c) as [l|]; auto.
    assert (E' : Qle_bool l x = true) by (apply Qle_bool_iff; auto). now rewrite E'.
  - destruct (c_low c) as [l|]; auto.
    assert (E' : Qle_bool l x = true) by (apply Qle_bool_iff; auto). now rewrite E'.
Qed.
Lemma outside_false (c : cell) (x : Q) : outside c x = false <-> allowed c x.
Proof.
  unfold outside, allowed. rewrite orb_false_iff. split.
  - intros [L U]; split; intros b Eb; rewrite Eb in *.
    + apply negb_false_iff in L. now apply Qle_bool_iff.
    + apply negb_false_iff in U. now apply Qle_bool_iff.
  - intros [L U]; split.
    + destruct (c_low c) as [l|]; auto. apply negb_false_iff, Qle_bool_iff; auto.
    + destruct (c_up c) as [l|]; auto. apply negb_false_iff, Qle_bool_iff; auto.
Qed.

(** assign *)
Lemma assign_length st i v : length (assign st i v) = length st.
Proof. unfold assign. destruct (nth_error st i); auto. apply update_length. Qed.
Lemma assign_other st i v j : j <> i -> nth_error (assign st i v) j = nth_error st j.
Proof. intros H. unfold assign. destruct (nth_error st i); auto. now apply update_other. Qed.
Lemma assign_same st i v c :
  nth_error st i = Some c -> nth_error (assign st i v) i = Some (mkCell v (c_low c) (c_up c)).
Proof.
  intros H. unfold assign. rewrite H. apply update_same. apply nth_error_Some. congruence.
Qed.
Lemma assign_none st i v : nth_error st i = None -> assign st i v = st.
Proof. intros H. unfold assign. now rewrite H. Qed.

(** Two stores that differ at most in the stored values of the parameters [ps]. *)
Definition frame (ps : list par) (st st' : store) : Prop :=
  length st = length st' /\
  forall j c, nth_error st j = Some c ->
    exists c', nth_error st' j = Some c' /\ c_low c' = c_low c /\ c_up c' = c_up c
               /\ (~ In (Indep j) ps -> c' = c).

Lemma frame_refl ps st : frame ps st st.
Proof. split; auto. intros j c H. exists c. auto. Qed.
Lemma frame_trans ps st1 st2 st3 : frame ps st1 st2 -> frame ps st2 st3 -> frame ps st1 st3.
Proof.
  intros [L1 F1] [L2 F2]. split; [congruence|]. intros j c H.
  destruct (F1 j c H) as (c' & H' & A & B & C). destruct (F2 j c' H') as (c2 & H2 & A2 & B2 & C2).
  exists c2. split; [exact H2|]. split; [congruence|]. split; [congruence|].
  intros N. rewrite (C2 N). auto.
Qed.
Lemma frame_sym ps st st' : frame ps st st' -> frame ps st' st.
Proof.
  intros [L F]. split; [auto|]. intros j c' H.
  destruct (nth_error st j) as [c|] eqn:E.
  - destruct (F j c E) as (c2 & H2 & A & B & C). rewrite H in H2. injection H2 as <-.
    exists c. repeat split; auto. intros N. symmetry. auto.
  - apply nth_error_None in E. assert (j < length st') by (apply nth_error_Some; congruence). lia.
Qed.
Lemma frame_incl ps qs st st' : incl ps qs -> frame ps st st' -> frame qs st st'.
Proof.
  intros I [L F]. split; auto. intros j c H. destruct (F j c H) as (c' & H' & A & B & C).
  exists c'. repeat split; auto.
Qed.
Lemma frame_nil st st' : frame [] st st' -> st = st'.
Proof.
  intros [L F]. apply list_ext; auto. intros j.
  destruct (nth_error st j) as [c|] eqn:E.
  - destruct (F j c E) as (c' & H' & _ & _ & C). rewrite H'. f_equal. symmetry. apply C. auto.
  - symmetry. apply nth_error_None. apply nth_error_None in E. lia.
Qed.
Lemma frame_assign ps st i v : In (Indep i) ps -> frame ps st (assign st i v).
Proof.
  intros I. split; [now rewrite assign_length|]. intros j c H.
  destruct (Nat.eq_dec j i) as [->|N].
  - exists (mkCell v (c_low c) (c_up c)). split; [now apply assign_same|].
    split; [reflexivity|]. split; [reflexivity|]. intros M. contradiction.
  - exists c. rewrite assign_other; auto.
Qed.

Lemma frame_assign_both i ps st st' v :
  frame (Indep i :: ps) st st' -> frame ps (assign st i v) (assign st' i v).
Proof.
  intros [L F]. split; [now rewrite !assign_length|]. intros j c H.
  destruct (Nat.eq_dec j i) as [->|N].
  - destruct (nth_error st i) as [c0|] eqn:E.
    + rewrite (assign_same _ _ _ _ E) in H. injection H as <-.
      destruct (F i c0 E) as (c' & H' & A & B & _).
      exists (mkCell v (c_low c') (c_up c')). split; [now apply assign_same|]. cbn.
      split; [exact A|]. split; [exact B|]. intros _. now rewrite A, B.
    + rewrite assign_none in H by auto. congruence.
  - rewrite assign_other in H by auto. destruct (F j c H) as (c' & H' & A & B & C).
    exists c'. rewrite assign_other by auto. repeat split; auto.
    intros M. apply C. intros [[= X]|X]; [congruence|auto].
Qed.

Definition all_indep (ps : list par) : Prop := forall p, In p ps -> exists i, p = Indep i.
Lemma all_indep_tl p ps : all_indep (p :: ps) -> all_indep ps.
Proof. intros H q I. apply H. now right. Qed.
Lemma proper_indep st ps : proper st ps -> all_indep ps.
Proof. intros [_ H] p I. destruct (H p I) as (i & -> & _). eauto. Qed.
Lemma indep_all ps : forallb is_indep ps = true -> all_indep ps.
Proof.
  intros H p I. rewrite forallb_forall in H. specialize (H p I). destruct p; [eauto|discriminate].
Qed.

Lemma assign_loop_ok ps xs st :
  all_indep ps -> exists st', assign_loop ps xs st = (Ok tt, st') /\ frame ps st st'.
Proof.
  revert xs st. induction ps as [|p ps IH]; intros xs st H.
  - exists st. split; [destruct xs; reflexivity|apply frame_refl].
  - destruct (H p (or_introl eq_refl)) as (i & ->). destruct xs as [|x xs].
    + exists st. split; [reflexivity|apply frame_refl].
    + cbn. destruct (IH xs (assign st i x) (all_indep_tl _ _ H)) as (st' & E & F).
      exists st'. split; [exact E|].
      apply (frame_trans _ _ (assign st i x)); [apply frame_assign; now left|].
      apply (frame_incl ps); [intros q; now right|exact F].
Qed.

Lemma assign_loop_frame ps xs st st' :
  all_indep ps -> length ps = length xs -> frame ps st st' ->
  assign_loop ps xs st = assign_loop ps xs st'.
Proof.
  revert xs st st'. induction ps as [|p ps IH]; intros [|x xs] st st' H L F; cbn in *; try discriminate.
  - f_equal. now apply frame_nil.
  - destruct (H p (or_introl eq_refl)) as (i & ->).
    apply IH; [exact (all_indep_tl _ _ H)|lia|]. now apply frame_assign_both.
Qed.

Lemma assign_loop_frame_any ps xs st e st' : assign_loop ps xs st = (e, st') -> frame ps st st'.
Proof.
  revert xs st. induction ps as [|p ps IH]; intros [|x xs] st H; cbn in *;
    try (injection H as _ <-; apply frame_refl).
  - destruct p; injection H as _ <-; apply frame_refl.
  - destruct p as [i|k].
    + apply (frame_trans _ _ (assign st i x)); [apply frame_assign; now left|].
      apply (frame_incl ps); [intros q; now right|]. exact (IH _ _ H).
    + injection H as _ <-. apply frame_refl.
Qed.
Lemma assign_values_frame_any ps xs st e st' : assign_values ps xs st = (e, st') -> frame ps st st'.
Proof.
  unfold assign_values. destruct ps as [|p ps].
  - intros H. injection H as _ <-. apply frame_refl.
  - destruct (Nat.eqb _ _).
    + apply assign_loop_frame_any.
    + intros H. injection H as _ <-. apply frame_refl.
Qed.

Lemma assign_values_frame ps xs st st' :
  all_indep ps -> frame ps st st' ->
  fst (assign_values ps xs st) = fst (assign_values ps xs st')
  /\ (length ps = length xs -> assign_values ps xs st = assign_values ps xs st').
Proof.
  intros H F. unfold assign_values. destruct ps as [|p ps].
  - cbn. split; auto. intros _. f_equal. now apply frame_nil.
  - destruct (Nat.eqb (length (p :: ps)) (length xs)) eqn:E.
    + apply Nat.eqb_eq in E. rewrite (assign_loop_frame (p :: ps) xs st st') by auto. auto.
    + cbn [fst]. split; auto. intros L. rewrite L, Nat.eqb_refl in E. discriminate.
Qed.

(** What one question of a numerical procedure is answered. *)
Definition probe (func : list Q -> result Q) (ps : list par) (st : store) (x : list Q) : result Q :=
  match assign_values ps x st with
  | (Err e, _) => Err e
  | (Ok _, st1) => func (view st1)
  end.
Lemma assign_values_det ps xs st st' st1 :
  all_indep ps -> frame ps st st' -> assign_values ps xs st = (Ok tt, st1) ->
  assign_values ps xs st' = (Ok tt, st1).
Proof.
  intros H F E. destruct (assign_values_frame ps xs st st' H F) as [A B].
  destruct ps as [|p ps].
  - cbn in *. apply frame_nil in F. now subst.
  - rewrite <- B; auto. unfold assign_values in E.
    destruct (Nat.eqb (length (p :: ps)) (length xs)) eqn:L; [now apply Nat.eqb_eq|discriminate].
Qed.
Lemma probe_frame func ps st st' x :
  all_indep ps -> frame ps st st' -> probe func ps st x = probe func ps st' x.
Proof.
  intros H F. unfold probe. destruct (assign_values ps x st) as [[[]|e] s1] eqn:E.
  - now rewrite (assign_values_det _ _ _ _ _ H F E).
  - destruct (assign_values_frame ps x st st' H F) as [A _]. rewrite E in A. cbn in A.
    destruct (assign_values ps x st') as [[?|e'] s2]; cbn in A; congruence.
Qed.

Lemma run_strategy_frame {R} func ps (s : strategy R) st r st' :
  run_strategy func ps s st = (r, st') -> frame ps st st'.
Proof.
  revert st. induction s as [x|x k IH]; intros st H; cbn in H.
  - injection H as _ <-. apply frame_refl.
  - destruct (assign_values ps x st) as [[[]|e] s1] eqn:E.
    + pose proof (assign_values_frame_any _ _ _ _ _ E) as F1.
      destruct (func (view s1)) as [y|e].
      * eapply frame_trans; [exact F1|]. exact (IH y _ H).
      * injection H as _ <-. exact F1.
    + injection H as _ <-. exact (assign_values_frame_any _ _ _ _ _ E).
Qed.

Lemma run_strategy_answer {R} func ps (s : strategy R) st0 st :
  all_indep ps -> frame ps st0 st ->
  fst (run_strategy func ps s st) = answer (probe func ps st0) s.
Proof.
  intros H. revert st. induction s as [x|x k IH]; intros st F; cbn.
  - reflexivity.
  - rewrite (probe_frame func ps st0 st x H F). unfold probe.
    destruct (assign_values ps x st) as [[[]|e] s1] eqn:E; [|reflexivity].
    destruct (func (view s1)) as [y|e]; [|reflexivity].
    apply IH. eapply frame_trans; [exact F|]. exact (assign_values_frame_any _ _ _ _ _ E).
Qed.

(** Reading the values and assigning them again. *)
Lemma nth_view st i c : nth_error st i = Some c -> nth i (view st) 0%Q = c_value c.
Proof.
  intros H. unfold view. apply nth_error_nth. rewrite nth_error_map, H. reflexivity.
Qed.
Lemma frame_view_nth ps st st' j :
  frame ps st st' -> ~ In (Indep j) ps -> nth j (view st') 0%Q = nth j (view st) 0%Q.
Proof.
  intros [L F] N. destruct (nth_error st j) as [c|] eqn:E.
  - destruct (F j c E) as (c' & H' & _ & _ & C). rewrite (nth_view _ _ _ H'), (nth_view _ _ _ E).
    now rewrite (C N).
  - apply nth_error_None in E. rewrite !nth_overflow; auto; unfold view; rewrite map_length; lia.
Qed.

(** [same st st']: the same limits and the same (clipped) values *)
Definition same (st st' : store) : Prop :=
  length st = length st' /\
  forall j c, nth_error st j = Some c ->
    exists c', nth_error st' j = Some c' /\ c_low c' = c_low c /\ c_up c' = c_up c
               /\ c_value c' = c_value c.
Lemma same_view st st' : same st st' -> view st' = view st.
Proof.
  intros [L F]. unfold view. apply list_ext; [now rewrite !map_length|]. intros j.
  rewrite !nth_error_map. destruct (nth_error st j) as [c|] eqn:E.
  - destruct (F j c E) as (c' & -> & _ & _ & V). cbn. now rewrite V.
  - assert (nth_error st' j = None) as ->; auto. apply nth_error_None. apply nth_error_None in E. lia.
Qed.
Lemma same_refl st : same st st.
Proof. split; auto. intros j c H. exists c. auto. Qed.
Lemma same_trans a b c : same a b -> same b c -> same a c.
Proof.
  intros [L1 F1] [L2 F2]. split; [congruence|]. intros j x H.
  destruct (F1 j x H) as (x1 & H1 & A1 & B1 & C1). destruct (F2 j x1 H1) as (x2 & H2 & A2 & B2 & C2).
  exists x2. repeat split; congruence.
Qed.

Lemma assign_back st st' i qs :
  frame (Indep i :: qs) st st' ->
  (** reading [i] from [st] and assigning it to [st'] *)
  let st2 := assign st' i (nth i (view st) 0%Q) in
  frame (Indep i :: qs) st st2 /\
  (forall c, nth_error st i = Some c ->
     exists c', nth_error st2 i = Some c' /\ c_low c' = c_low c /\ c_up c' = c_up c
                /\ c_value c' = c_value c).
Proof.
  intros F st2. split.
  - eapply frame_trans; [exact F|]. apply frame_assign. now left.
  - intros c E. destruct F as [L F]. destruct (F i c E) as (c' & H' & A & B & _).
    exists (mkCell (c_value c) (c_low c') (c_up c')). split.
    + unfold st2. rewrite (nth_view _ _ _ E). now apply assign_same.
    + cbn. split; [exact A|]. split; [exact B|]. rewrite A, B. apply c_value_idem.
Qed.

(** After assigning to all of [ps] the values read from [st], a store that differed only in [ps]
    looks the same. *)
Lemma assign_loop_back comp ps st st' st2 done :
  all_indep ps ->
  length st = length st' ->
  (forall j c, nth_error st j = Some c ->
    exists c', nth_error st' j = Some c' /\ c_low c' = c_low c /\ c_up c' = c_up c
      /\ (In (Indep j) done \/ ~ In (Indep j) (done ++ ps) -> c_value c' = c_value c)) ->
  assign_loop ps (map (par_value comp st) ps) st' = (Ok tt, st2) ->
  same st st2.
Proof.
  revert st' done. induction ps as [|p ps IH]; intros st' done H L F E.
  - cbn in E. injection E as <-. split; auto. intros j c Hj.
    destruct (F j c Hj) as (c' & H' & A & B & C). exists c'. repeat split; auto.
    apply C. destruct (in_dec (fun a b : par => ltac:(decide equality; apply Nat.eq_dec)) (Indep j) done);
      [now left|right]. now rewrite app_nil_r.
  - destruct (H p (or_introl eq_refl)) as (i & ->). cbn in E.
    apply (IH _ (done ++ [Indep i]) (all_indep_tl _ _ H)) in E; auto.
    + now rewrite assign_length.
    + intros j c Hj. destruct (F j c Hj) as (c' & H' & A & B & C).
      destruct (Nat.eq_dec j i) as [->|N].
      * exists (mkCell (nth i (view st) 0%Q) (c_low c') (c_up c')).
        split; [now apply assign_same|]. cbn. split; [exact A|]. split; [exact B|]. intros _.
        rewrite (nth_view _ _ _ Hj), A, B. apply c_value_idem.
      * exists c'. rewrite assign_other by auto. repeat split; auto. intros D. apply C.
        destruct D as [D|D].
        -- apply in_app_or in D as [D|[[= D]|[]]]; [now left|congruence].
        -- right. intros X. apply D. rewrite <- app_assoc. exact X.
Qed.
Lemma frame_back comp ps st st' st2 :
  all_indep ps -> frame ps st st' ->
  assign_values ps (map (par_value comp st) ps) st' = (Ok tt, st2) -> same st st2.
Proof.
  intros H [L F] E.
  apply (assign_loop_back comp ps st st' st2 []); auto.
  - intros j c Hj. destruct (F j c Hj) as (c' & H' & A & B & C). exists c'.
    repeat split; auto. intros [[]|N]. rewrite (C N). reflexivity.
  - unfold assign_values in E. destruct ps as [|p ps]; [exact E|].
    now rewrite map_length, Nat.eqb_refl in E.
Qed.

Lemma not_all_indep ps xs st : length ps = length xs ->
  all_indep ps \/ exists st', assign_loop ps xs st = (Err LogicalUndefinedOperationError, st').
Proof.
  revert xs st. induction ps as [|p ps IH]; intros [|x xs] st L; cbn in L; try discriminate.
  - left. intros q [].
  - destruct p as [i|k].
    + destruct (IH xs (assign st i x) ltac:(lia)) as [A|(s & E)].
      * left. intros q [<-|I]; [eauto|auto].
      * right. exists s. exact E.
    + right. exists st. reflexivity.
Qed.

(** A numerical derivative that succeeds. *)
Lemma numerical_ok {R} comp (nd : list Q -> strategy R) func ps st g st' :
  numerical comp nd func ps st = (Ok g, st') ->
  all_indep ps /\ same st st' /\ frame ps st st'.
Proof.
  unfold numerical. destruct (run_strategy _ _ _ _) as [[g0|e] s1] eqn:E; [|discriminate].
  destruct (assign_values ps _ s1) as [[[]|e] s2] eqn:E2; [|discriminate].
  intros X. injection X as <- <-.
  pose proof (run_strategy_frame _ _ _ _ _ _ E) as F1.
  assert (A : all_indep ps).
  { destruct ps as [|p ps]; [intros q []|].
    unfold assign_values in E2. rewrite map_length, Nat.eqb_refl in E2.
    destruct (not_all_indep (p :: ps) (map (par_value comp st) (p :: ps)) s1) as [A|(s & X)];
      [now rewrite map_length|exact A|]. rewrite X in E2. discriminate. }
  split; [exact A|]. split; [exact (frame_back comp ps st s1 s2 A F1 E2)|].
  eapply frame_trans; [exact F1|]. exact (assign_values_frame_any _ _ _ _ _ E2).
Qed.
Lemma numerical_frame {R} comp (nd : list Q -> strategy R) func ps st g st' :
  numerical comp nd func ps st = (g, st') -> frame ps st st'.
Proof.
  unfold numerical. destruct (run_strategy _ _ _ _) as [[g0|e] s1] eqn:E.
  - pose proof (run_strategy_frame _ _ _ _ _ _ E) as F1.
    destruct (assign_values ps _ s1) as [[[]|e] s2] eqn:E2; intros X; injection X as _ <-;
      (eapply frame_trans; [exact F1|exact (assign_values_frame_any _ _ _ _ _ E2)]).
  - intros X. injection X as _ <-. exact (run_strategy_frame _ _ _ _ _ _ E).
Qed.
(** ... and what it returns. *)
Lemma numerical_answer {R} comp (nd : list Q -> strategy R) func ps st :
  all_indep ps ->
  fst (numerical comp nd func ps st) = answer (probe func ps st) (nd (map (par_value comp st) ps)).
Proof.
  intros H. unfold numerical.
  rewrite <- (run_strategy_answer func ps _ st st H (frame_refl ps st)).
  destruct (run_strategy _ _ _ _) as [[g0|e] s1] eqn:E; [|reflexivity]. cbn.
  assert (exists s2, assign_values ps (map (par_value comp st) ps) s1 = (Ok tt, s2)) as [s2 ->]; auto.
  unfold assign_values. destruct ps as [|p ps]; [eauto|].
  rewrite map_length, Nat.eqb_refl.
  destruct (assign_loop_ok (p :: ps) (map (par_value comp st) (p :: ps)) s1 H) as (s2 & X & _). eauto.
Qed.
