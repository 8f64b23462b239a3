(** Proofs about the caching PDF. *)
From Verif Require Import Base BaseLemmas CPdf_Model CPdf_Spec.
From Coq Require Import Qabs Lqa.
#[local] Open Scope nat_scope.

Lemma Qlt_bool_iff : forall a b, Qlt_bool a b = true <-> (a < b)%Q.
Proof.
  intros a b. unfold Qlt_bool. rewrite negb_true_iff. split; intro H.
  - destruct (Qlt_le_dec a b) as [L|L]; [exact L|]. apply Qle_bool_iff in L. congruence.
  - destruct (Qle_bool b a) eqn:E; [|reflexivity]. apply Qle_bool_iff in E. exfalso. lra.
Qed.

Lemma close_length : forall tol a b, close tol a b -> length a = length b.
Proof. intros tol a b C. induction C; cbn; congruence. Qed.

Lemma all_within_close : forall tol a b, length a = length b ->
  exists r, all_within tol a b = Ok r /\ (r = true <-> close tol a b).
Proof.
  intros tol a b L. unfold all_within. rewrite (proj2 (Nat.eqb_eq _ _) L).
  eexists. split; [reflexivity|]. revert b L.
  induction a as [|x a IH]; intros [|y b] L; try discriminate.
  - split; [constructor|reflexivity].
  - cbn in L. injection L as L. specialize (IH b L). cbn. rewrite andb_true_iff. unfold within at 1.
    rewrite Qlt_bool_iff. cbn. split.
    + intros [A B]. constructor; [exact A|apply IH; exact B].
    + intro C. inversion C; subst. split; [assumption|apply IH; assumption].
Qed.

Lemma all_within_shift : forall tol a, (tol <= 19)%Q -> a <> [] ->
  all_within tol a (map (fun x => x + 19)%Q a) = Ok false.
Proof.
  intros tol a T N. destruct (all_within_close tol a (map (fun x => x + 19)%Q a)) as [r [E H]].
  { rewrite map_length. reflexivity. }
  rewrite E. f_equal. destruct r; [|reflexivity]. exfalso.
  pose proof (proj1 H eq_refl) as C. destruct a as [|x a]; [congruence|]. cbn in C.
  inversion C; subst. clear -H3 T.
  assert (A : (Qabs (x - (x + 19)) == 19)%Q).
  { setoid_replace (x - (x + 19))%Q with (-(19))%Q by ring. reflexivity. }
  rewrite A in H3. lra.
Qed.

Lemma all_within_err_len : forall tol a b c, length a = length c ->
  (exists e, all_within tol a b = Err e) -> exists e, all_within tol c b = Err e.
Proof.
  intros tol a b c L [e E]. unfold all_within in *. rewrite <- L.
  destruct (Nat.eqb (length a) (length b)); [discriminate|].
  destruct a as [|x [|x' a]]; destruct c as [|z [|z' c]]; try discriminate L; try discriminate E;
    destruct b as [|y [|y' b]]; try discriminate E; eexists; reflexivity.
Qed.

Section Memo.
  Variable tol : Q.
  Variable key : params -> list Q.
  Variable f : list Q -> list Q -> bool -> result (list Q).
  Variable norm : bool.
  Variable m : nat.
  (** parameters that can follow each other in the histories considered *)
  Variable R : params -> params -> Prop.
  Hypothesis tol19 : (tol <= 19)%Q.
  Hypothesis tol0 : (0 < tol)%Q.
  Hypothesis m1 : 1 <= m.
  Hypothesis f_total : forall p a n, exists v, f p a n = Ok v.
  Hypothesis R_refl : forall p, R p p.
  Hypothesis R_key_len : forall p0 p, R p0 p -> length (key p) = length (key p0).
  Hypothesis R_close : forall p0 p, R p0 p -> close tol (key p) (key p0) -> close tol (values p) (values p0).

  Definition computed (p : params) (mm : memo) : Prop :=
    exists p0 a0 v, m_arg mm = Some a0 /\ length a0 = m /\ m_val mm = Some v /\
      f (values p0) a0 norm = Ok v /\ R p0 p /\ (key p0 <> [] -> m_params mm = key p0).
  Definition stuck (p : params) (mm : memo) : Prop :=
    key p <> [] /\ (exists a0, m_arg mm = Some a0 /\ length a0 = m) /\
    exists e, all_within tol (key p) (m_params mm) = Err e.
  Definition minv (p : params) (mm : memo) : Prop :=
    (m_arg mm = None /\ m_val mm = None) \/ computed p mm \/ stuck p mm.

  Lemma close_refl : forall a, close tol a a.
  Proof.
    induction a; constructor; [|assumption].
    setoid_replace (a - a)%Q with 0%Q by ring. exact tol0.
  Qed.

  Lemma memo_step : forall p arg init mm mm' r, minv p mm -> length arg = m ->
    memo_eval tol (key p) arg init (f (values p) arg norm) mm = (mm', r) ->
    minv p mm' /\ forall v, r = Ok v -> fresh f tol p arg norm v.
  Proof.
    intros p arg init mm mm' r I L E. unfold memo_eval in E.
    assert (Na : arg <> []) by (intros ->; cbn in L; lia).
    destruct (f_total (values p) arg norm) as [v Ev].
    (* after a fresh computation *)
    assert (Comp : forall prm, (key p <> [] -> prm = key p) ->
       minv p {| m_params := prm; m_arg := Some arg; m_val := Some v |} /\
       forall v', Ok v = Ok v' -> fresh f tol p arg norm v').
    { intros prm Hp. split.
      - right. left. exists p, arg, v. cbn. repeat split; auto.
      - intros v' E'. injection E' as <-. exists (values p), arg.
        repeat split; [apply close_refl|apply close_refl|exact Ev]. }
    destruct I as [[Ia Iv]|[[p0 [a0 [v0 [Ia [La [Iv [If [Ir Ik]]]]]]]]|[Nk [[a0 [Ia La]] [e Ee]]]]].
    - rewrite Ia, Iv in E. rewrite (all_within_shift tol arg tol19 Na) in E.
      destruct (key p) as [|k ks] eqn:K.
      + cbn [andb] in E. rewrite Ev in E. inversion E; subst. apply Comp. congruence.
      + destruct (all_within tol (k :: ks) (m_params mm)) as [b|e] eqn:W.
        * rewrite andb_false_r in E. rewrite Ev in E. inversion E; subst. apply Comp. intros _. reflexivity.
        * inversion E; subst. split; [|discriminate]. right. right. unfold stuck. cbn. rewrite K.
          split; [discriminate|]. split; [|eauto]. eexists. split; [reflexivity|]. rewrite map_length. exact L.
    - rewrite Ia, Iv in E. destruct (all_within_close tol arg a0) as [b [Eb Hb]]; [congruence|].
      rewrite Eb in E.
      assert (Same : forall bp, (key p <> [] -> bp = true -> close tol (key p) (key p0)) ->
                bp = true -> b = true ->
                fresh f tol p arg norm v0).
      { intros bp Hc Ebp Eb1. exists (values p0), a0. split; [|split; [apply Hb; exact Eb1|exact If]].
        apply R_close; [exact Ir|]. destruct (key p) as [|k ks] eqn:K.
        - pose proof (R_key_len p0 p Ir) as Len. rewrite K in Len. destruct (key p0); [constructor|discriminate].
        - apply Hc; [discriminate|exact Ebp]. }
      destruct (key p) as [|k ks] eqn:K.
      + cbn [andb] in E. destruct b.
        * inversion E; subst. split.
          -- right. left. exists p0, a0, v0. cbn. repeat split; auto.
          -- intros v' E'. injection E' as <-. apply (Same true); auto. congruence.
        * rewrite Ev in E. inversion E; subst. apply Comp. congruence.
      + assert (Nk0 : key p0 <> []).
        { pose proof (R_key_len p0 p Ir) as Len. rewrite K in Len. destruct (key p0); [discriminate|discriminate]. }
        rewrite (Ik Nk0) in E.
        destruct (all_within_close tol (k :: ks) (key p0)) as [bp [Ebp Hbp]].
        { rewrite <- K. apply R_key_len. exact Ir. }
        rewrite Ebp in E. destruct (bp && b) eqn:BB.
        * apply andb_true_iff in BB. destruct BB as [-> ->]. inversion E; subst. split.
          -- right. left. exists p0, a0, v0. cbn. repeat split; auto.
          -- intros v' E'. injection E' as <-. apply (Same true); auto. intros _ _. apply Hbp. reflexivity.
        * rewrite Ev in E. inversion E; subst. apply Comp. intros _. reflexivity.
    - rewrite Ia in E. destruct (all_within_close tol arg a0) as [b [Eb Hb]]; [congruence|].
      rewrite Eb in E. destruct (key p) as [|k ks] eqn:K; [congruence|].
      rewrite Ee in E. inversion E; subst. split; [|discriminate]. right. right. unfold stuck. cbn. rewrite K.
      split; [discriminate|]. split; eauto.
  Qed.

  Hypothesis R_trans : forall a b c, R a b -> R b c -> R a c.

  Lemma minv_move : forall p p' mm, R p p' -> minv p mm -> minv p' mm.
  Proof.
    intros p p' mm H [I|[[p0 [a0 [v0 [Ia [La [Iv [If [Ir Ik]]]]]]]]|[Nk [A B]]]].
    - left. exact I.
    - right. left. exists p0, a0, v0. repeat split; auto. exact (R_trans _ _ _ Ir H).
    - right. right. pose proof (R_key_len p p' H) as Len. split.
      + intro E. apply Nk. rewrite E in Len. destruct (key p); [reflexivity|discriminate].
      + split; [exact A|]. exact (all_within_err_len tol (key p) (m_params mm) (key p') (eq_sym Len) B).
  Qed.
End Memo.

Lemma cev_in : forall w tol s op h ev, In ev (crun w tol s (op :: h)) ->
  In ev (snd (cstep w tol s op)) \/ In ev (crun w tol (fst (cstep w tol s op)) h).
Proof.
  intros w tol s op h ev H. cbn in H. destruct (cstep w tol s op) as [s1 evs]. apply in_app_or in H. exact H.
Qed.

(** * Densities *)

Definition same_fixed (p p' : params) : Prop :=
  Forall2 (fun a b => snd a = snd b /\ (snd a = false -> fst a = fst b)) p p'.

Lemma same_fixed_refl : forall p, same_fixed p p.
Proof. induction p; constructor; auto. Qed.

Lemma same_fixed_trans : forall a b c, same_fixed a b -> same_fixed b c -> same_fixed a c.
Proof.
  intros a b c H. revert c. induction H as [|x y a b [E1 E2] H IH]; intros c H'; inversion H'; subst; [constructor|].
  constructor; [|apply IH; assumption].
  match goal with K : snd y = snd _ /\ _ |- _ => destruct K as [K1 K2] end.
  split; [congruence|]. intro F. rewrite (E2 F). apply K2. congruence.
Qed.

Lemma same_fixed_len : forall p0 p, same_fixed p0 p ->
  length (floating_values p) = length (floating_values p0).
Proof.
  intros p0 p H. unfold floating_values. rewrite !map_length.
  induction H as [|x y a b [E1 E2] H IH]; [reflexivity|]. cbn. rewrite E1.
  destruct (snd y); cbn; congruence.
Qed.

Lemma same_fixed_close : forall tol p0 p, (0 < tol)%Q -> same_fixed p0 p ->
  close tol (floating_values p) (floating_values p0) -> close tol (values p) (values p0).
Proof.
  intros tol p0 p T H. unfold floating_values.
  induction H as [|x y a b [E1 E2] H IH]; intro C; [constructor|]. cbn in *.
  rewrite E1 in C. destruct (snd y) eqn:F; cbn in C.
  - inversion C; subst. constructor; [assumption|apply IH; assumption].
  - constructor; [|apply IH; assumption]. rewrite (E2 E1).
    setoid_replace (fst y - fst y)%Q with 0%Q by ring. exact T.
Qed.

Lemma upd_nth_same_fixed : forall p i v0 v, nth_error p i = Some (v0, true) ->
  same_fixed p (upd_nth i (fun vf => (v, snd vf)) p).
Proof.
  induction p as [|a p IH]; intros i v0 v H; [destruct i; discriminate|]. destruct i as [|i]; cbn in *.
  - inversion H; subst. constructor; [cbn; split; [reflexivity|discriminate]|apply same_fixed_refl].
  - constructor; [auto|]. eapply IH; eassumption.
Qed.

Lemma same_fixed_nth : forall p p' i v, same_fixed p p' -> nth_error p i = Some (v, true) ->
  exists v', nth_error p' i = Some (v', true).
Proof.
  intros p p' i v H. revert i. induction H as [|x y a b [E1 _] H IH]; intros i E; [destruct i; discriminate|].
  destruct i as [|i]; cbn in *.
  - inversion E; subst. destruct y as [v' fl]. cbn in E1. subst fl. eauto.
  - exact (IH i E).
Qed.

Lemma pdf_fresh : forall w tol norm m p0 h, (0 < tol)%Q -> (tol <= 19)%Q -> 1 <= m ->
  (forall p x n, exists v, w_pdf w p x n = Ok v) ->
  only_floating_change p0 h -> pdf_calls_alike norm m h ->
  forall p x n v, In (EvPdf p x n (Ok v)) (crun w tol (cinit p0) h) ->
  fresh (w_pdf w) tol p x n v.
Proof.
  intros w tol norm m p0 h T0 T19 M1 Tot OF PA.
  set (Inv := minv tol floating_values (w_pdf w) norm m same_fixed).
  assert (G : forall h s, (forall op, In op h -> match op with
                HSet i _ => exists v, nth_error (c_params s) i = Some (v, true) | HFloat _ _ => False | _ => True end) ->
              pdf_calls_alike norm m h -> Inv (c_params s) (c_pdf s) ->
              forall p x n v, In (EvPdf p x n (Ok v)) (crun w tol s h) -> fresh (w_pdf w) tol p x n v).
  { clear h OF PA. induction h as [|op h IH]; intros s OF PA I p x n v H; [destruct H|].
    apply cev_in in H.
    assert (PA' : pdf_calls_alike norm m h) by (intros x' n' H'; apply PA; right; exact H').
    destruct op as [i u|i b|y k|l k].
    - cbn in H. destruct H as [[]|H]. refine (IH _ _ PA' _ _ _ _ _ H); cbn.
      + destruct (OF (HSet i u) (or_introl eq_refl)) as [u0 Hu].
        intros op Hop. specialize (OF op (or_intror Hop)). destruct op as [j q| | |]; auto.
        destruct OF as [q0 Hq]. exact (same_fixed_nth _ _ _ _ (upd_nth_same_fixed _ _ _ u Hu) Hq).
      + destruct (OF (HSet i u) (or_introl eq_refl)) as [u0 Hu].
        apply (minv_move tol floating_values (w_pdf w) norm m same_fixed same_fixed_len same_fixed_trans) with (p := c_params s);
          [exact (upd_nth_same_fixed _ _ _ u Hu)|exact I].
    - destruct (OF (HFloat i b) (or_introl eq_refl)).
    - destruct (PA y k (or_introl eq_refl)) as [-> Ly]. cbn in H.
      destruct (memo_eval tol (floating_values (c_params s)) y (map (fun _ : Q => (- (999))%Q) y)
                  (w_pdf w (values (c_params s)) y norm) (c_pdf s)) as [mm r] eqn:E.
      destruct (memo_step tol floating_values (w_pdf w) norm m same_fixed T19 T0 M1 Tot same_fixed_refl
                  same_fixed_len (fun a b => same_fixed_close tol a b T0) _ _ _ _ _ _ I Ly E) as [I' Fr].
      cbn in H. destruct H as [[H|[]]|H].
      + inversion H; subst. apply Fr. reflexivity.
      + refine (IH _ _ PA' _ _ _ _ _ H); cbn; [intros op Hop; exact (OF op (or_intror Hop))|exact I'].
    - cbn in H.
      destruct (memo_eval tol (all_values (c_params s)) l [0%Q] (w_int w (values (c_params s)) l k) (c_int s)) as [mm r].
      cbn in H. destruct H as [[H|[]]|H]; [discriminate|].
      refine (IH _ _ PA' _ _ _ _ _ H); cbn; [intros op Hop; exact (OF op (or_intror Hop))|exact I]. }
  apply (G h (cinit p0)); [|exact PA|left; split; reflexivity].
  intros op Hop. exact (OF op Hop).
Qed.

(** * Integrals *)

Definition same_len (p p' : params) : Prop := length p' = length p.

Lemma upd_nth_len : forall {A} (g : A -> A) l i, length (upd_nth i g l) = length l.
Proof. induction l as [|a l IH]; intros [|i]; cbn; auto. Qed.

Lemma int_fresh : forall w tol norm m p0 h, (0 < tol)%Q -> (tol <= 19)%Q -> 1 <= m ->
  (forall p x n, exists v, w_int w p x n = Ok v) ->
  int_calls_alike norm m h ->
  forall p l n v, In (EvInt p l n (Ok v)) (crun w tol (cinit p0) h) ->
  fresh (w_int w) tol p l n v.
Proof.
  intros w tol norm m p0 h T0 T19 M1 Tot PA.
  set (Inv := minv tol all_values (w_int w) norm m same_len).
  assert (RL : forall p0 p, same_len p0 p -> length (all_values p) = length (all_values p0))
    by (intros a b H; unfold all_values, values; rewrite !map_length; exact H).
  assert (RT : forall a b c, same_len a b -> same_len b c -> same_len a c) by (unfold same_len; congruence).
  assert (G : forall h s, int_calls_alike norm m h -> Inv (c_params s) (c_int s) ->
              forall p x n v, In (EvInt p x n (Ok v)) (crun w tol s h) -> fresh (w_int w) tol p x n v).
  { clear h PA. induction h as [|op h IH]; intros s PA I p x n v H; [destruct H|].
    apply cev_in in H.
    assert (PA' : int_calls_alike norm m h) by (intros x' n' H'; apply PA; right; exact H').
    assert (Mv : forall i g, Inv (upd_nth i g (c_params s)) (c_int s)).
    { intros i g. apply (minv_move tol all_values (w_int w) norm m same_len RL RT) with (p := c_params s);
        [apply upd_nth_len|exact I]. }
    destruct op as [i u|i b|y k|l k].
    - cbn in H. destruct H as [[]|H]. exact (IH {| c_params := upd_nth i (fun vf => (u, snd vf)) (c_params s); c_pdf := c_pdf s; c_int := c_int s |} PA' (Mv i _) _ _ _ _ H).
    - cbn in H. destruct H as [[]|H]. exact (IH {| c_params := upd_nth i (fun vf => (fst vf, b)) (c_params s); c_pdf := c_pdf s; c_int := c_int s |} PA' (Mv i _) _ _ _ _ H).
    - cbn in H.
      destruct (memo_eval tol (floating_values (c_params s)) y (map (fun _ : Q => (- (999))%Q) y)
                  (w_pdf w (values (c_params s)) y k) (c_pdf s)) as [mm r].
      cbn in H. destruct H as [[H|[]]|H]; [discriminate|].
      refine (IH _ PA' _ _ _ _ _ H); cbn; exact I.
    - destruct (PA l k (or_introl eq_refl)) as [-> Ly]. cbn in H.
      destruct (memo_eval tol (all_values (c_params s)) l [0%Q] (w_int w (values (c_params s)) l norm) (c_int s)) as [mm r] eqn:E.
      destruct (memo_step tol all_values (w_int w) norm m same_len T19 T0 M1 Tot (fun p => eq_refl)
                  RL (fun a b _ C => C) _ _ _ _ _ _ I Ly E) as [I' Fr].
      cbn in H. destruct H as [[H|[]]|H].
      + inversion H; subst. apply Fr. reflexivity.
      + refine (IH _ PA' _ _ _ _ _ H); cbn; exact I'. }
  apply (G h (cinit p0)); [exact PA|left; split; reflexivity].
Qed.

(** * No evaluation fails when all parameters float *)

Lemma memo_total : forall tol key arg init c mm mm' r (m : nat),
  (exists v, c = Ok v) -> length (m_params mm) = length key -> length arg = m ->
  (match m_arg mm with None => True | Some a => length a = m end) ->
  memo_eval tol key arg init c mm = (mm', r) ->
  (exists v, r = Ok v) /\ length (m_params mm') = length key /\
  (match m_arg mm' with None => True | Some a => length a = m end).
Proof.
  intros tol key arg init c mm mm' r m [v Ev] Lk La Ha E. unfold memo_eval in E.
  set (old := match m_arg mm with Some a => a | None => map (fun x => (x + 19)%Q) arg end) in *.
  assert (Lo : length arg = length old).
  { unfold old. destruct (m_arg mm); [congruence|rewrite map_length; reflexivity]. }
  destruct (all_within_close tol arg old Lo) as [b [Eb _]]. rewrite Eb in E.
  assert (K : exists bp, (match key with [] => Ok true | _ => all_within tol key (m_params mm) end) = Ok bp).
  { destruct key as [|k ks]; [eauto|].
    destruct (all_within_close tol (k :: ks) (m_params mm) (eq_sym Lk)) as [bp [Ebp _]]. eauto. }
  destruct K as [bp Ebp]. rewrite Ebp in E. rewrite Ev in E. destruct (bp && b); inversion E; subst; cbn.
  - split; [eauto|]. split; [exact Lk|congruence].
  - split; [eauto|]. split; [destruct key; [exact Lk|reflexivity]|reflexivity].
Qed.

Lemma all_float_len : forall p, Forall (fun vf : Q * bool => snd vf = true) p ->
  length (floating_values p) = length p.
Proof.
  intros p H. unfold floating_values. rewrite map_length.
  induction H as [|a p Ha H IH]; [reflexivity|]. cbn. rewrite Ha. cbn. congruence.
Qed.

Lemma upd_all_float : forall p i v, Forall (fun vf : Q * bool => snd vf = true) p ->
  Forall (fun vf : Q * bool => snd vf = true) (upd_nth i (fun vf => (v, snd vf)) p).
Proof.
  induction p as [|a p IH]; intros i v H; [destruct i; constructor|].
  inversion H; subst. destruct i as [|i]; cbn; constructor; auto.
Qed.

Lemma pdf_total : forall w tol norm m p0 h,
  (forall p x n, exists v, w_pdf w p x n = Ok v) ->
  Forall (fun vf => snd vf = true) p0 ->
  only_floating_change p0 h -> pdf_calls_alike norm m h ->
  forall p x n r, In (EvPdf p x n r) (crun w tol (cinit p0) h) -> exists v, r = Ok v.
Proof.
  intros w tol norm m p0 h Tot AF OF PA.
  assert (G : forall h s, (forall i b, ~ In (HFloat i b) h) -> pdf_calls_alike norm m h ->
      Forall (fun vf => snd vf = true) (c_params s) ->
      length (m_params (c_pdf s)) = length (c_params s) ->
      (match m_arg (c_pdf s) with None => True | Some a => length a = m end) ->
      forall p x n r, In (EvPdf p x n r) (crun w tol s h) -> exists v, r = Ok v).
  { clear h OF PA AF p0. induction h as [|op h IH]; intros s NF PA AF Lm Ha p x n r H; [destruct H|].
    apply cev_in in H.
    assert (PA' : pdf_calls_alike norm m h) by (intros x' n' H'; apply PA; right; exact H').
    assert (NF' : forall i b, ~ In (HFloat i b) h) by (intros i b H'; apply (NF i b); right; exact H').
    destruct op as [i u|i b|y k|l k].
    - cbn in H. destruct H as [[]|H].
      refine (IH _ NF' PA' _ _ _ _ _ _ _ H); cbn; [apply upd_all_float; exact AF|rewrite upd_nth_len; exact Lm|exact Ha].
    - destruct (NF i b (or_introl eq_refl)).
    - destruct (PA y k (or_introl eq_refl)) as [-> Ly]. cbn in H.
      destruct (memo_eval tol (floating_values (c_params s)) y (map (fun _ : Q => (- (999))%Q) y)
                  (w_pdf w (values (c_params s)) y norm) (c_pdf s)) as [mm r'] eqn:E.
      pose proof (all_float_len _ AF) as Lf.
      destruct (memo_total _ _ _ _ _ _ _ _ m (Tot _ _ _) (eq_trans Lm (eq_sym Lf)) Ly Ha E) as [Rv [L' A']].
      cbn in H. destruct H as [[H|[]]|H].
      + inversion H; subst. exact Rv.
      + refine (IH _ NF' PA' _ _ _ _ _ _ _ H); cbn; [exact AF|congruence|exact A'].
    - cbn in H.
      destruct (memo_eval tol (all_values (c_params s)) l [0%Q] (w_int w (values (c_params s)) l k) (c_int s)) as [mm r'].
      cbn in H. destruct H as [[H|[]]|H]; [discriminate|].
      refine (IH _ NF' PA' _ _ _ _ _ _ _ H); cbn; assumption. }
  apply (G h (cinit p0)); [|exact PA|exact AF|cbn; apply map_length|exact Logic.I].
  intros i b H. exact (OF _ H).
Qed.

Lemma int_total : forall w tol norm m p0 h,
  (forall p x n, exists v, w_int w p x n = Ok v) ->
  int_calls_alike norm m h ->
  forall p x n r, In (EvInt p x n r) (crun w tol (cinit p0) h) -> exists v, r = Ok v.
Proof.
  intros w tol norm m p0 h Tot PA.
  assert (G : forall h s, int_calls_alike norm m h ->
      length (m_params (c_int s)) = length (c_params s) ->
      (match m_arg (c_int s) with None => True | Some a => length a = m end) ->
      forall p x n r, In (EvInt p x n r) (crun w tol s h) -> exists v, r = Ok v).
  { clear h PA p0. induction h as [|op h IH]; intros s PA Lm Ha p x n r H; [destruct H|].
    apply cev_in in H.
    assert (PA' : int_calls_alike norm m h) by (intros x' n' H'; apply PA; right; exact H').
    destruct op as [i u|i b|y k|l k].
    - cbn in H. destruct H as [[]|H].
      refine (IH _ PA' _ _ _ _ _ _ H); cbn; [rewrite upd_nth_len; exact Lm|exact Ha].
    - cbn in H. destruct H as [[]|H].
      refine (IH _ PA' _ _ _ _ _ _ H); cbn; [rewrite upd_nth_len; exact Lm|exact Ha].
    - cbn in H.
      destruct (memo_eval tol (floating_values (c_params s)) y (map (fun _ : Q => (- (999))%Q) y)
                  (w_pdf w (values (c_params s)) y k) (c_pdf s)) as [mm r'].
      cbn in H. destruct H as [[H|[]]|H]; [discriminate|].
      refine (IH _ PA' _ _ _ _ _ _ H); cbn; assumption.
    - destruct (PA l k (or_introl eq_refl)) as [-> Ly]. cbn in H.
      destruct (memo_eval tol (all_values (c_params s)) l [0%Q] (w_int w (values (c_params s)) l norm) (c_int s)) as [mm r'] eqn:E.
      assert (Lf : length (all_values (c_params s)) = length (c_params s))
        by (unfold all_values, values; apply map_length).
      destruct (memo_total _ _ _ _ _ _ _ _ m (Tot _ _ _) (eq_trans Lm (eq_sym Lf)) Ly Ha E) as [Rv [L' A']].
      cbn in H. destruct H as [[H|[]]|H].
      + inversion H; subst. exact Rv.
      + refine (IH _ PA' _ _ _ _ _ _ H); cbn; [congruence|exact A']. }
  apply (G h (cinit p0)); [exact PA|cbn; apply map_length|exact Logic.I].
Qed.
