(** Lemmas about the derivatives of a loss: setting values for the time of a call, and central
    differences. *)
From Verif Require Import Base BaseLemmas Der_Model Der_Spec Der_Proofs.

Definition keys (pv : list (nat * Q)) : list par := map (fun iv => Indep (fst iv)) pv.

Lemma set_loop_assign pv st st' :
  set_loop pv st = (Ok tt, st') -> assign_loop (keys pv) (map snd pv) st = (Ok tt, st').
Proof.
  revert st. induction pv as [|[i v] pv IH]; intros st H; cbn in *; [exact H|].
  destruct (nth_error st i) as [c|] eqn:E.
  - destruct (outside c v); [discriminate|]. now apply IH.
  - rewrite assign_none by auto. now apply IH.
Qed.
Lemma keys_indep pv : all_indep (keys pv).
Proof. intros p I. apply in_map_iff in I as ([i v] & <- & _). eauto. Qed.
Lemma set_loop_frame pv st r st' : set_loop pv st = (r, st') -> frame (keys pv) st st'.
Proof.
  revert st. induction pv as [|[i v] pv IH]; intros st H; cbn in *.
  - injection H as _ <-. apply frame_refl.
  - destruct (nth_error st i) as [c|] eqn:E.
    + destruct (outside c v).
      * injection H as _ <-. apply frame_refl.
      * apply (frame_trans _ _ (assign st i v)); [apply frame_assign; now left|].
        apply (frame_incl (keys pv)); [intros q; now right|]. exact (IH _ H).
    + apply (frame_incl (keys pv)); [intros q; now right|]. exact (IH _ H).
Qed.

(** [pv] has only allowed values *)
Definition allowed_all (st : store) (pv : list (nat * Q)) : Prop :=
  forall i v c, In (i, v) pv -> nth_error st i = Some c -> allowed c v.
(** the limits are not contradictory *)
Definition valid (st : store) : Prop :=
  forall i c l u, nth_error st i = Some c -> c_low c = Some l -> c_up c = Some u -> (l <= u)%Q.

Lemma allowed_limits c c' v : c_low c' = c_low c -> c_up c' = c_up c -> allowed c v -> allowed c' v.
Proof. intros A B [L U]. split; intros x; [rewrite A|rewrite B]; auto. Qed.
Lemma set_loop_ok pv st : allowed_all st pv -> exists st', set_loop pv st = (Ok tt, st').
Proof.
  revert st. induction pv as [|[i v] pv IH]; intros st H; cbn.
  - eauto.
  - destruct (nth_error st i) as [c|] eqn:E.
    + assert (outside c v = false) as ->.
      { apply outside_false. apply (H i v); auto. now left. }
      apply IH. intros j w c' I Hj.
      destruct (frame_sym _ _ _ (frame_assign [Indep i] st i v (or_introl eq_refl))) as [_ F].
      destruct (F j c' Hj) as (c2 & H2 & A & B & _).
      apply (allowed_limits c2); auto. apply (H j w); auto. now right.
    + apply IH. intros j w c' I Hj. apply (H j w); auto. now right.
Qed.
Lemma c_value_is_allowed st i c : valid st -> nth_error st i = Some c -> allowed c (c_value c).
Proof.
  intros V E. unfold c_value. split.
  - intros l Hl. rewrite Hl.
    destruct (c_up c) as [u|] eqn:Hu.
    + destruct (Qle_bool (c_raw c) u).
      * destruct (Qle_bool l (c_raw c)) eqn:X; [now apply Qle_bool_iff|apply Qle_refl].
      * destruct (Qle_bool l u) eqn:X; [now apply Qle_bool_iff|apply Qle_refl].
    + destruct (Qle_bool l (c_raw c)) eqn:X; [now apply Qle_bool_iff|apply Qle_refl].
  - intros u Hu. rewrite Hu.
    assert (M : ((if Qle_bool (c_raw c) u then c_raw c else u) <= u)%Q).
    { destruct (Qle_bool (c_raw c) u) eqn:X; [now apply Qle_bool_iff|apply Qle_refl]. }
    destruct (c_low c) as [l|] eqn:Hl; [|exact M].
    destruct (Qle_bool l _); [exact M|]. exact (V i c l u E Hl Hu).
Qed.

Definition olds (st : store) (pv : list (nat * Q)) : list (nat * Q) :=
  map (fun iv => (fst iv, nth (fst iv) (view st) 0%Q)) pv.
Lemma keys_olds st pv : keys (olds st pv) = keys pv.
Proof. unfold keys, olds. rewrite map_map. reflexivity. Qed.
Lemma snd_olds comp st pv : map snd (olds st pv) = map (par_value comp st) (keys pv).
Proof. unfold keys, olds. rewrite !map_map. reflexivity. Qed.

(** the same limits, and the same values except for [ps] *)
Definition agree_off (ps : list par) (st st' : store) : Prop :=
  length st = length st' /\
  forall j c, nth_error st j = Some c ->
    exists c', nth_error st' j = Some c' /\ c_low c' = c_low c /\ c_up c' = c_up c
      /\ (~ In (Indep j) ps -> c_value c' = c_value c).
Lemma agree_frame ps st st' : frame ps st st' -> agree_off ps st st'.
Proof.
  intros [L F]. split; auto. intros j c H. destruct (F j c H) as (c' & H' & A & B & C).
  exists c'. repeat split; auto. intros N. now rewrite (C N).
Qed.
Lemma agree_same ps st st1 st2 : agree_off ps st st1 -> same st1 st2 -> agree_off ps st st2.
Proof.
  intros [L F] [L2 F2]. split; [congruence|]. intros j c H.
  destruct (F j c H) as (c1 & H1 & A & B & C). destruct (F2 j c1 H1) as (c2 & H2 & A2 & B2 & C2).
  exists c2. repeat split; try congruence. intros N. rewrite C2. auto.
Qed.
Lemma restore_same pv st st2 st3 :
  agree_off (keys pv) st st2 -> set_loop (olds st pv) st2 = (Ok tt, st3) -> same st st3.
Proof.
  intros [L F] E. apply set_loop_assign in E. rewrite keys_olds in E.
  rewrite (snd_olds (fun _ _ => 0%Q)) in E.
  apply (assign_loop_back (fun _ _ => 0%Q) (keys pv) st st2 st3 []); auto.
  - apply keys_indep.
  - intros j c H. destruct (F j c H) as (c' & H' & A & B & C). exists c'. repeat split; auto.
    intros [[]|N]. now apply C.
Qed.
Lemma olds_allowed pv qs st st2 : valid st -> agree_off qs st st2 -> allowed_all st2 (olds st pv).
Proof.
  intros V [L F] i v c I Hi. apply in_map_iff in I as ([j w] & [= <- <-] & _).
  destruct (nth_error st j) as [c0|] eqn:E.
  - destruct (F j c0 E) as (c' & H' & A & B & _). cbn in Hi. rewrite Hi in H'. injection H' as <-.
    apply (allowed_limits c0); auto. cbn. rewrite (nth_view _ _ _ E). now apply (c_value_is_allowed st j).
  - apply nth_error_None in E. cbn in Hi.
    assert (j < length st2) by (apply nth_error_Some; congruence). lia.
Qed.

Lemma with_values_same {R} pv (body : store -> result R * store) st r st' :
  (forall s g s', body s = (Ok g, s') -> same s s') ->
  with_values pv body st = (Ok r, st') -> same st st'.
Proof.
  intros HB. unfold with_values. destruct (set_loop pv st) as [[[]|e] s1] eqn:E1; [|discriminate].
  destruct (body s1) as [g s2] eqn:E2.
  fold (olds st pv). destruct (set_loop (olds st pv) s2) as [[[]|e] s3] eqn:E3; [|discriminate].
  intros X. injection X as -> <-.
  apply (restore_same pv st s2); auto.
  apply (agree_same _ _ s1); [apply agree_frame; exact (set_loop_frame _ _ _ _ E1)|].
  exact (HB _ _ _ E2).
Qed.

(** Whatever the body does to parameters of [pv] is undone. *)
Lemma with_values_framed {R} pv ps (body : store -> result R * store) st :
  (forall s g s', body s = (g, s') -> frame ps s s') -> incl ps (keys pv) ->
  valid st -> allowed_all st pv ->
  exists s1, set_loop pv st = (Ok tt, s1) /\ fst (with_values pv body st) = fst (body s1)
             /\ same st (snd (with_values pv body st)).
Proof.
  intros HB I V A. unfold with_values. destruct (set_loop_ok pv st A) as (s1 & E1).
  exists s1. split; [exact E1|]. rewrite E1. destruct (body s1) as [g s2] eqn:E2.
  fold (olds st pv).
  assert (AG : agree_off (keys pv) st s2).
  { apply agree_frame. apply (frame_trans _ _ s1); [exact (set_loop_frame _ _ _ _ E1)|].
    apply (frame_incl ps); auto. exact (HB _ _ _ E2). }
  destruct (set_loop_ok (olds st pv) s2 (olds_allowed _ _ _ _ V AG)) as (s3 & E3).
  rewrite E3. cbn. split; auto. exact (restore_same pv st s2 s3 AG E3).
Qed.

Lemma with_values_fst {R} pv ps (body : store -> result R * store) st :
  (forall s g s', body s = (g, s') -> frame ps s s') ->
  valid st -> allowed_all st pv ->
  exists s1, set_loop pv st = (Ok tt, s1) /\ fst (with_values pv body st) = fst (body s1).
Proof.
  intros HB V A. unfold with_values. destruct (set_loop_ok pv st A) as (s1 & E1).
  exists s1. split; [exact E1|]. rewrite E1. destruct (body s1) as [g s2] eqn:E2.
  fold (olds st pv).
  assert (AG : agree_off (keys pv ++ ps) st s2).
  { apply agree_frame. apply (frame_trans _ _ s1).
    - apply (frame_incl (keys pv)); [apply incl_appl, incl_refl|]. exact (set_loop_frame _ _ _ _ E1).
    - apply (frame_incl ps); [apply incl_appr, incl_refl|]. exact (HB _ _ _ E2). }
  destruct (set_loop_ok (olds st pv) s2 (olds_allowed _ _ _ _ V AG)) as (s3 & E3).
  now rewrite E3.
Qed.

Lemma same_length st st' : same st st' -> length st = length st'.
Proof. now intros [L _]. Qed.

(** Stores that look the same, with values inside of the limits, are the same. *)
Lemma same_frame_eq ps st st' :
  same st st' -> frame ps st st' ->
  (forall i c, nth_error st i = Some c -> c_raw c = c_value c) ->
  (forall i c, nth_error st' i = Some c -> c_raw c = c_value c) -> st = st'.
Proof.
  intros [L S] _ R R'. apply list_ext; auto. intros j.
  destruct (nth_error st j) as [c|] eqn:E.
  - destruct (S j c E) as (c' & H' & A & B & V). rewrite H'. f_equal.
    specialize (R j c E). specialize (R' j c' H'). destruct c, c'. cbn in *. congruence.
  - symmetry. apply nth_error_None. apply nth_error_None in E. lia.
Qed.

(** * Inside of the limits, a question is answered by the function *)
Lemma inside_frame st st' qs ps xs : frame qs st st' -> inside st ps xs -> inside st' ps xs.
Proof.
  intros F I. apply frame_sym in F. destruct F as [_ F]. unfold inside in *.
  induction I as [|p x ps xs Ix Ixs IH]; constructor; auto.
  intros i c -> Hi. destruct (F i c Hi) as (c' & H' & A & B & _).
  apply (allowed_limits c'); auto. exact (Ix i c' eq_refl H').
Qed.
Lemma assign_loop_view ps xs st st1 :
  inside st ps xs -> assign_loop ps xs st = (Ok tt, st1) -> all_indep ps ->
  view st1 = substitute ps xs (view st).
Proof.
  revert xs st. induction ps as [|p ps IH]; intros xs st I E H.
  - inversion I; subst. cbn in *. now injection E as <-.
  - inversion I as [|? x ? xs' Ix Ixs]; subst.
    destruct (H p (or_introl eq_refl)) as (i & ->). cbn in *.
    apply IH in E; [| |exact (all_indep_tl _ _ H)].
    + rewrite E. f_equal. unfold view. destruct (nth_error st i) as [c|] eqn:Ei.
      * unfold assign. rewrite Ei, update_map. f_equal. apply c_value_allowed. exact (Ix i c eq_refl Ei).
      * rewrite assign_none by auto. symmetry. apply update_beyond. rewrite map_length.
        now apply nth_error_None.
    + apply (inside_frame st _ [Indep i]); [|exact Ixs]. apply frame_assign. now left.
Qed.
Lemma inside_length st ps xs : inside st ps xs -> length ps = length xs.
Proof. intros I. exact (Forall2_length' _ _ _ I). Qed.
Lemma probe_inside func ps st x :
  all_indep ps -> inside st ps x -> probe func ps st x = func (substitute ps x (view st)).
Proof.
  intros H I. unfold probe, assign_values. destruct ps as [|p ps].
  - inversion I; subst. reflexivity.
  - rewrite (inside_length _ _ _ I), Nat.eqb_refl.
    destruct (assign_loop_ok (p :: ps) x st H) as (s1 & E & _). rewrite E.
    now rewrite (assign_loop_view _ _ _ _ I E H).
Qed.

Lemma answer_ext {R} (f f' : list Q -> result Q) (s : strategy R) :
  (forall x, In x (asked f' s) -> f x = f' x) -> answer f s = answer f' s.
Proof.
  induction s as [r|x k IH]; intros H; cbn in *; [reflexivity|].
  rewrite (H x (or_introl eq_refl)). destruct (f' x) as [y|e]; [|reflexivity].
  apply IH. intros z I. apply H. now right.
Qed.

(** * Central differences *)
Lemma answer_ask_all {R} (g : list Q -> Q) xs (k : list Q -> strategy R) :
  answer (fun x => Ok (g x)) (ask_all xs k) = answer (fun x => Ok (g x)) (k (map g xs)).
Proof.
  revert k. induction xs as [|x xs IH]; intros k; cbn; [reflexivity|]. apply IH.
Qed.
Lemma asked_ask_all {R} (g : list Q -> Q) xs (k : list Q -> strategy R) :
  asked (fun x => Ok (g x)) (ask_all xs k) = xs ++ asked (fun x => Ok (g x)) (k (map g xs)).
Proof.
  revert k. induction xs as [|x xs IH]; intros k; cbn; [reflexivity|]. f_equal. apply IH.
Qed.

Definition quotient (g : list Q -> Q) (x : list Q) (h : Q) (i : nat) : Q :=
  ((g (update x i (nth i x 0 + h)) - g (update x i (nth i x 0 + - h))) / (2 * h))%Q.
Lemma map2_map {A B C D} (f : B -> C -> D) (a : A -> B) (b : A -> C) l :
  map2 f (map a l) (map b l) = map (fun i => f (a i) (b i)) l.
Proof. induction l; cbn; congruence. Qed.

Definition total (g : list Q -> Q) (x : list Q) (steps : list (Q * Q)) (i : nat) : Q :=
  sumQ (map (fun wh => (fst wh * quotient g x (snd wh) i)%Q) steps).

Lemma extrapolate_answer (g : list Q -> Q) x steps (acc : nat -> Q) :
  exists r, answer (fun x => Ok (g x))
              (extrapolate steps x (map acc (seq 0 (length x)))) = Ok (map r (seq 0 (length x)))
            /\ forall i, (r i == acc i + total g x steps i)%Q.
Proof.
  revert acc. induction steps as [|[w h] steps IH]; intros acc.
  - exists acc. split; [reflexivity|]. intros i. unfold total. cbn. ring.
  - cbn [extrapolate]. rewrite answer_ask_all, answer_ask_all. unfold shifted.
    rewrite !map_map, map2_map, map2_map.
    destruct (IH (fun i => (acc i + w * quotient g x h i)%Q)) as (r & E & V).
    exists r. split; [exact E|]. intros i. rewrite V. unfold total, sumQ. cbn [map fst snd fold_right]. ring.
Qed.
Lemma const_seq_from (x : list Q) n : map (fun _ => 0%Q) x = map (fun _ => 0%Q) (seq n (length x)).
Proof.
  revert n. induction x as [|a x IH]; intros n; cbn; [reflexivity|]. f_equal. apply IH.
Qed.
Lemma const_seq (x : list Q) : map (fun _ => 0%Q) x = map (fun _ => 0%Q) (seq 0 (length x)).
Proof. apply const_seq_from. Qed.
Lemma central_answer (g : list Q -> Q) x steps :
  exists r, answer (fun x => Ok (g x)) (central steps x) = Ok (map r (seq 0 (length x)))
            /\ forall i, (r i == total g x steps i)%Q.
Proof.
  unfold central. rewrite const_seq.
  destruct (extrapolate_answer g x steps (fun _ => 0%Q)) as (r & E & V).
  exists r. split; [exact E|]. intros i. rewrite V. ring.
Qed.
Lemma extrapolate_asked (g : list Q -> Q) x steps acc y :
  In y (asked (fun x => Ok (g x)) (extrapolate steps x acc)) ->
  exists w h i, In (w, h) steps /\ i < length x
    /\ (y = update x i (nth i x 0 + h)%Q \/ y = update x i (nth i x 0 + - h)%Q).
Proof.
  revert acc. induction steps as [|[w h] steps IH]; intros acc I; cbn [extrapolate] in I; [destruct I|].
  rewrite asked_ask_all, asked_ask_all in I.
  apply in_app_or in I as [I|I]; [|apply in_app_or in I as [I|I]].
  - apply in_map_iff in I as (i & <- & Hi). apply in_seq in Hi.
    exists w, h, i. split; [now left|]. split; [lia|]. now left.
  - apply in_map_iff in I as (i & <- & Hi). apply in_seq in Hi.
    exists w, h, i. split; [now left|]. split; [lia|]. now right.
  - destruct (IH _ I) as (w' & h' & i & A & B). exists w', h', i. split; [now right|exact B].
Qed.

Lemma quotient_parabola g x i d h :
  parabola g x i d -> (0 < h)%Q -> (quotient g x h i == d)%Q.
Proof.
  intros [c P] H. unfold quotient. rewrite (P h), (P (- h)%Q). field.
  intros E. rewrite E in H. discriminate H.
Qed.
Lemma total_const g x i d steps :
  (forall w h, In (w, h) steps -> (quotient g x h i == d)%Q) ->
  (total g x steps i == sumQ (map fst steps) * d)%Q.
Proof.
  induction steps as [|[w h] steps IH]; intros H.
  - unfold total, sumQ. cbn. ring.
  - change (total g x ((w, h) :: steps) i) with (w * quotient g x h i + total g x steps i)%Q.
    change (sumQ (map fst ((w, h) :: steps))) with (w + sumQ (map fst steps))%Q.
    rewrite IH by (intros w0 h0 I0; apply (H w0 h0); now right).
    rewrite (H w h) by now left. ring.
Qed.
