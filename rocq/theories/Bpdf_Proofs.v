(** Lemmas for the dispatch of binned PDFs. *)
From Verif Require Import Base BaseLemmas Hist_Model Hist_Spec Hist_Proofs3 BInt_Model BInt_Spec BInt_Proofs BInt_Proofs3
  BInt_Theorems Bpdf_Model Bpdf_Spec.
From Coq Require Import Lqa.
#[local] Open Scope nat_scope.

Lemma shows_ext e r f g : (forall i, in_shape i (shape_of e) -> (f i == g i)%Q) -> shows e r f -> shows e r g.
Proof. intros H (t&E&S1&V). exists t. split; [exact E|]. split; [exact S1|]. intros i I. rewrite V by exact I. apply H, I. Qed.

Lemma shows_map e r f h : shows e r f -> Proper (Qeq ==> Qeq) h ->
  shows e (let* t := r in Ok (tmap h t)) (fun i => h (f i)).
Proof.
  intros (t&->&S1&V) P. exists (tmap h t). cbn [bind tmap t_shape t_get]. split; [reflexivity|]. split; [exact S1|].
  intros i I. apply P. apply V, I.
Qed.
Lemma shows_scale e r f d : shows e r f -> shows e (let* t := r in Ok (tmap (fun v => v / d)%Q t)) (fun i => f i / d)%Q.
Proof. intros H. apply (shows_map e r f (fun v => v / d)%Q H). intros a b E. rewrite E. reflexivity. Qed.
Lemma shows_times e r f d : shows e r f -> shows e (let* t := r in Ok (tmap (fun v => v * d)%Q t)) (fun i => f i * d)%Q.
Proof. intros H. apply (shows_map e r f (fun v => v * d)%Q H). intros a b E. rewrite E. reflexivity. Qed.

Lemma volume_pos e idx : Forall edges_ok e -> in_shape idx (shape_of e) -> (0 < volume e idx)%Q.
Proof.
  unfold shape_of, volume. intros OK H. revert idx H. induction OK as [|x e [I L] OK IH]; intros idx H; cbn [map] in H; inversion H; subst.
  - cbn. lra.
  - cbn [combine map product fst snd].
    assert (W : (0 < width x x0)%Q) by (apply width_pos; [exact I|assumption]).
    specialize (IH l H4). apply Qmult_lt_0_compat; assumption.
Qed.
Lemma volume_area e idx : in_shape idx (shape_of e) -> area (map widths e) idx = volume e idx.
Proof.
  unfold shape_of, volume. revert idx. induction e as [|x e IH]; intros idx H; cbn [map] in H; inversion H; subst; [reflexivity|].
  cbn [map area combine product fst snd]. rewrite IH by assumption. rewrite nth_widths by lia. reflexivity.
Qed.

Lemma shows_areas b r f : shows (own_edges b) r f ->
  shows (own_edges b) (divide_areas b r) (fun i => f i / volume (own_edges b) i)%Q.
Proof.
  intros (t&->&S1&V). unfold divide_areas. cbn [bind]. eexists. split; [reflexivity|]. cbn [tmap2 t_shape t_get areas].
  split; [exact S1|]. intros i I. rewrite volume_area by exact I. rewrite (V i I). reflexivity.
Qed.
Lemma shows_times_areas b r f : Forall edges_ok (own_edges b) ->
  shows (own_edges b) r (fun i => f i / volume (own_edges b) i)%Q ->
  shows (own_edges b) (let* t := r in Ok (tmap2 Qmult t (areas b))) f.
Proof.
  intros OK (t&->&S1&V). cbn [bind]. eexists. split; [reflexivity|]. cbn [tmap2 t_shape t_get areas].
  split; [exact S1|]. intros i I. rewrite volume_area by exact I. rewrite (V i I).
  pose proof (volume_pos _ i OK I). field. lra.
Qed.

(** Integrals *)
Lemma in_box_ext e rs f g : (forall i, in_shape i (shape_of e) -> (f i == g i)%Q) -> (in_box e rs f == in_box e rs g)%Q.
Proof. intros H. apply qsum_ext. intros i I. apply indices_in in I. rewrite (H i I). reflexivity. Qed.
Lemma in_box_scale e rs f c : (in_box e rs (fun i => c * f i) == c * in_box e rs f)%Q.
Proof. unfold in_box. rewrite <- qsum_scale. apply qsum_ext. intros i _. ring. Qed.
Lemma in_box_div e rs f c : ~ (c == 0)%Q -> (in_box e rs (fun i => f i / c) == in_box e rs f / c)%Q.
Proof.
  intros H. rewrite (in_box_ext e rs _ (fun i => / c * f i)%Q) by (intros; field; exact H).
  rewrite in_box_scale. field. exact H.
Qed.

Lemma box_args e rs : length e = length rs ->
  edges_arg (box e rs) = e /\ limits_arg (box e rs) = rs /\ bins_of (box e rs) = shape_of e /\
  forallb integrated (box e rs) = true.
Proof.
  unfold edges_arg, limits_arg, bins_of, shape_of, box. revert rs. induction e as [|x e IH]; intros [|r rs] H; try discriminate H.
  - repeat split.
  - cbn in H. destruct (IH rs ltac:(lia)) as (A&B&C&D).
    cbn [combine map fst snd flat_map forallb integrated app]. rewrite A, B, C, D. repeat split.
Qed.
Lemma box_axes e rs : box_ok e rs -> Forall axis_ok (box e rs).
Proof.
  intros H. unfold box. induction H as [|x r e rs [O M] H IH]; cbn [combine map]; constructor; [|exact IH].
  split; [exact O|]. cbn. intros r' E. injection E as <-. exact M.
Qed.

Lemma rect_gives e rs r f : box_ok e rs -> shows e r f ->
  gives (let* t := r in rect (LSpace rs (Some e)) t) (in_box e rs f).
Proof.
  intros B (t&->&S1&V). cbn [bind]. unfold rect. cbn [l_binning l_ranges].
  assert (L : length e = length rs) by (apply (Forall2_length' _ _ _ B)).
  destruct (box_args e rs L) as (A1&A2&A3&A4).
  destruct (C41_all_axes (box e rs) t (box_axes e rs B)) as (q&d&E&_&_&_&Vq&_); [congruence|exact A4|].
  rewrite A1, A2 in E. rewrite E. cbn [bind]. exists (t_get q []). split; [reflexivity|].
  rewrite Vq. rewrite A3. unfold in_box. apply qsum_ext. intros i I. apply indices_in in I. rewrite (V i I). reflexivity.
Qed.

Lemma in_box_whole e f : Forall edges_ok e -> (in_box e (whole e) f == in_all e f)%Q.
Proof.
  intros OK. unfold in_box, in_all.
  assert (L : length e = length (whole e)) by (unfold whole; rewrite map_length; reflexivity).
  destruct (box_args e (whole e) L) as (A1&A2&A3&A4).
  assert (F : Forall full_axis (box e (whole e))).
  { clear - OK. unfold box, whole. induction OK as [|x e O OK IH]; cbn [map combine]; constructor; [|exact IH].
    split; [exact O|]. cbn. intros r E. injection E as <-. cbn. lra. }
  rewrite <- A3. apply qsum_ext. intros i I.
  rewrite (full_weight _ _ F). { ring. }
  apply bins_in, I.
Qed.
Lemma whole_ok e : Forall edges_ok e -> box_ok e (whole e).
Proof.
  intros OK. unfold whole, box_ok. induction OK as [|x e O OK IH]; cbn [map]; constructor; [|exact IH].
  split; [exact O|]. destruct O as [I L].
  assert (HL : (hd 0 x < last x 0)%Q) by (rewrite hd_nth, last_nth0 by exact L; apply inc_nth; [exact I|lia|lia]).
  unfold meets. cbn [fst snd]. lra.
Qed.

(** One call *)
Lemma call_pdf_S b n nm : call_pdf b (S n) nm =
  suppress
    (auto (fun nm => match p_pdf b with
                     | Some h => deco b (Some h) nm
                     | None => divide_areas b (call_rel_counts b n nm)
                     end) (normalization b n nm) nm)
    (suppress (divide_areas b (auto (deco b (p_rel_counts b)) (normalization b n nm) nm))
       (let* v := opt_method (p_unnormalized b) in
        match nm with
        | NFalse => Ok v
        | NSpace _ => let* z := normalization b n nm in Ok (tmap (fun x => x / z)%Q v)
        end)).
Proof. reflexivity. Qed.
Lemma call_rel_S b n nm : call_rel_counts b (S n) nm =
  suppress (auto (deco b (p_rel_counts b)) (normalization b n nm) nm)
    (suppress
       (let* c := auto (deco b (p_counts b)) (normalization b n nm) nm in
        let* y := get_yield b in Ok (tmap (fun v => v / y)%Q c))
       (let* d := call_pdf b n nm in Ok (tmap2 Qmult d (areas b)))).
Proof. reflexivity. Qed.
Lemma normalization_S b n s : normalization b (S n) (NSpace s) =
  suppress (match p_normalization b with Some f => f s | None => Err SpecificFunctionNotImplemented end)
    (call_integrate b n s NFalse).
Proof. reflexivity. Qed.
Lemma call_integrate_S b n lim nm : call_integrate b (S n) lim nm =
  suppress
    match p_integrate b with
    | None => Err SpecificFunctionNotImplemented
    | Some f =>
        match f lim nm with
        | Err NormNotImplemented => let* u := f lim NFalse in let* z := normalization b n nm in Ok (u / z)%Q
        | r => r
        end
    end
    (let* c := call_rel_counts b n nm in rect lim c).
Proof. reflexivity. Qed.

(** Methods *)
Lemma auto_ok e f nm asked raw z d : honest e f nm asked raw -> present f nm ->
  (f nm = Err NormNotImplemented -> z = Ok d /\ forall i, in_shape i (shape_of e) -> (raw i / d == asked i)%Q) ->
  shows e (auto f z nm) asked.
Proof.
  intros H P D. unfold auto. destruct H as [H|H|H1 H2].
  - elim P. exact H.
  - destruct H as (t&E&S1&V). rewrite E. exists t. split; [reflexivity|]. split; assumption.
  - destruct (D H1) as [Ez Ev]. rewrite H1, Ez. cbn [bind].
    apply (shows_ext e _ _ _ Ev). apply (shows_scale e (f NFalse) raw d H2).
Qed.
Lemma auto_absent f z nm : absent f nm -> auto f z nm = Err SpecificFunctionNotImplemented.
Proof. intros [H|[H H']]; unfold auto; rewrite H; [reflexivity|]. rewrite H'. reflexivity. Qed.
Lemma honest_false e f a w : honest e f NFalse a w -> f NFalse <> Err NormNotImplemented.
Proof. intros [[H|[H H']]|(t&H&_)|_ (t&H&_)]; congruence. Qed.
Lemma suppress_shows e r k f : shows e r f -> shows e (suppress r k) f.
Proof. intros H. pose proof H as (t&E&_). rewrite E in *. exact H. Qed.
Lemma suppress_gives r k q : gives r q -> gives (suppress r k) q.
Proof. intros H. pose proof H as (t&E&_). rewrite E in *. exact H. Qed.

Lemma present_dec e f nm a w : honest e f nm a w ->
  absent f nm \/ present f nm.
Proof. intros [H|(t&H&_)|H (t&H'&_)]; [left; exact H|right..]; intros [A|[A B]]; congruence. Qed.

Section Contract.
Variable b : bpdf.
Variable v : list nat -> Q.
Variable c : Q.
Let e := own_edges b.
Hypothesis OK : Forall edges_ok e.
Hypothesis C0 : ~ (c == 0)%Q.

Notation factor := (factor b v c).
Notation admissible := (admissible b v).
Let r nm := fun i => (factor nm * v i)%Q.
Let raw := fun i => (c * v i)%Q.

Notation rel_honest := (rel_honest b v c).
Notation counts_honest := (counts_honest b v c).
Notation basis := (basis b).
Hypothesis RelF : rel_honest NFalse.
Hypothesis CountsF : present (deco b (p_rel_counts b)) NFalse \/ counts_honest NFalse.
Hypothesis BaseF : basis NFalse.
Hypothesis Int0 : p_integrate b = None.
Hypothesis EInt0 : p_ext_integrate b = None.
Hypothesis Nrm : norm_honest b v c.

Lemma rel_gen nm z d n : rel_honest nm -> present (deco b (p_rel_counts b)) nm \/ counts_honest nm -> basis nm ->
  (nm = NFalse \/ z = Ok d /\ forall i, in_shape i (shape_of e) -> (raw i / d == r nm i)%Q) ->
  z = normalization b n nm ->
  shows e (call_rel_counts b (S n) nm) (r nm).
Proof.
  intros HR HC HB HD Ez. rewrite call_rel_S, <- Ez.
  assert (AU : forall g asked w, honest e g nm asked w -> present g nm ->
      (forall i, (nm = NFalse \/ z = Ok d /\ (raw i / d == r nm i)%Q) -> in_shape i (shape_of e) -> nm <> NFalse -> (w i / d == asked i)%Q) ->
      shows e (auto g z nm) asked).
  { intros g asked w H P D. apply (auto_ok e g nm asked w z d H P). intros EN. destruct HD as [->|[HZ HD]].
    - exfalso. exact (honest_false _ _ _ _ H EN).
    - split; [exact HZ|]. intros i I. destruct nm as [|s]; [|apply D; [right; split; [exact HZ|apply HD, I]|exact I|discriminate]].
      exfalso. exact (honest_false _ _ _ _ H EN). }
  destruct (present_dec _ _ _ _ _ HR) as [A|P].
  - rewrite (auto_absent _ _ _ A). unfold suppress at 1.
    destruct HB as [P|[(y&Y&Y0) P]]; [elim P; exact A|].
    destruct HC as [HC|HC]; [elim HC; exact A|]. specialize (HC y Y). apply suppress_shows.
    unfold get_yield. rewrite Y. cbn [opt_result bind].
    assert (S1 : shows e (auto (deco b (p_counts b)) z nm) (fun i => y * r nm i)%Q).
    { apply (AU _ _ _ HC P). intros i H I NF. destruct H as [->|[_ H]]; [congruence|]. unfold raw, r in *. rewrite <- H. unfold Qdiv. ring. }
    apply (shows_ext e _ (fun i => y * r nm i / y)%Q). { intros i _. field. exact Y0. }
    apply (shows_scale e _ _ y S1).
  - apply suppress_shows. apply (AU _ _ _ HR P). intros i H I NF. destruct H as [->|[_ H]]; [congruence|exact H].
Qed.

Lemma rel_false n : shows e (call_rel_counts b (S n) NFalse) (r NFalse).
Proof. apply (rel_gen NFalse (normalization b n NFalse) 1%Q n); auto. Qed.

Lemma norm_gives n s : admissible (NSpace s) ->
  gives (normalization b (S (S (S n))) (NSpace s)) (c * in_box e (l_ranges s) v)%Q.
Proof.
  intros (B1&B2&B3). rewrite normalization_S.
  assert (F : gives (call_integrate b (S (S n)) s NFalse) (c * in_box e (l_ranges s) v)%Q).
  { rewrite call_integrate_S. rewrite Int0. unfold suppress. destruct s as [rs bn]. cbn [l_binning l_ranges] in *. rewrite B1.
    destruct (rect_gives e rs _ _ B2 (rel_false n)) as (q&E&V). exists q. split; [exact E|].
    rewrite V. unfold r. cbn [factor]. apply in_box_scale. }
  destruct Nrm as [->|(f&->&H)]; [exact F|].
  destruct (H s (conj B1 (conj B2 B3))) as [->|G]; [exact F|apply suppress_gives, G].
Qed.

(** The divisor of the methods that do not support the norm. *)
Lemma divisor n nm : admissible nm ->
  exists z d, z = normalization b (S (S (S n))) nm /\
    (nm = NFalse \/ z = Ok d /\ (d == c * / factor nm)%Q /\ ~ (d == 0)%Q /\ (forall i, in_shape i (shape_of e) -> (raw i / d == r nm i)%Q)).
Proof.
  intros A. destruct nm as [|s].
  - exists (normalization b (S (S (S n))) NFalse), 1%Q. split; [reflexivity|]. left. reflexivity.
  - destruct (norm_gives n s A) as (d&E&V). destruct A as (B1&B2&B3).
    exists (Ok d), d. split; [symmetry; exact E|]. right. split; [reflexivity|]. unfold Bpdf_Spec.factor.
    assert (D0 : ~ (d == 0)%Q). { rewrite V. intros H. destruct (Qmult_integral _ _ H) as [H1|H1]; contradiction. }
    split; [rewrite V; fold e; field; exact B3|]. split; [exact D0|].
    intros i _. unfold raw, r, Bpdf_Spec.factor. rewrite V. fold e. field. split; assumption.
Qed.

Section At.
Variable nm : normarg.
Hypothesis Adm : admissible nm.
Hypothesis Rel : rel_honest nm.
Hypothesis Cnt : counts_honest nm.
Hypothesis Bas : basis nm.

Lemma rel_at n : shows e (call_rel_counts b (S (S (S (S n)))) nm) (r nm).
Proof.
  destruct (divisor n nm Adm) as (z&d&Ez&[N|(Z&_&_&D)]).
  - apply (rel_gen nm z d _ Rel (or_intror Cnt) Bas (or_introl N) Ez).
  - apply (rel_gen nm z d _ Rel (or_intror Cnt) Bas (or_intror (conj Z D)) Ez).
Qed.

Lemma auto_at g asked w n : honest e g nm asked w -> present g nm ->
  (forall i k, (raw i * k == r nm i)%Q -> (w i * k == asked i)%Q) ->
  shows e (auto g (normalization b (S (S (S n))) nm) nm) asked.
Proof.
  intros H P D. destruct (divisor n nm Adm) as (z&d&<-&HD).
  apply (auto_ok e g nm asked w z d H P). intros EN. destruct HD as [->|(Z&_&_&HD)].
  - exfalso. exact (honest_false _ _ _ _ H EN).
  - split; [exact Z|]. intros i I. apply D. apply HD, I.
Qed.

Lemma counts_at y n : p_yield b = Some y -> shows e (call_counts b (S (S (S n))) nm) (fun i => y * r nm i)%Q.
Proof.
  intros Y. unfold call_counts. pose proof (Cnt y Y) as HC.
  destruct (present_dec _ _ _ _ _ HC) as [A|P].
  - rewrite (auto_absent _ _ _ A). unfold suppress at 1. destruct Bas as [P|[_ P]]; [|elim P; exact A].
    unfold get_yield. rewrite Y. cbn [opt_result bind].
    apply (shows_ext e _ (fun i => r nm i * y)%Q). { intros i _. ring. }
    apply shows_times. apply (auto_at _ _ _ n Rel P). intros i k H. exact H.
  - apply suppress_shows. apply (auto_at _ _ _ n HC P). intros i k H. unfold raw, r in *. rewrite <- H. ring.
Qed.

Hypothesis Pdf : pdf_honest b v c nm.

Lemma pdf_at n : shows e (call_pdf b (S (S (S (S (S n))))) nm) (fun i => r nm i / volume e i)%Q.
Proof.
  rewrite call_pdf_S.
  destruct (p_pdf b) as [h|] eqn:EP.
  - destruct (Pdf h EP) as [HP PR]. destruct (present_dec _ _ _ _ _ HP) as [A|P].
    + rewrite (auto_absent _ _ nm) by exact A. unfold suppress at 1.
      destruct PR as [P|P]; [elim P; exact A|].
      apply suppress_shows. apply shows_areas. apply (auto_at _ _ _ (S n) Rel P). intros i k H. exact H.
    + apply suppress_shows. apply (auto_at _ _ _ (S n) HP P). intros i k H. unfold raw, r in *. rewrite <- H. unfold Qdiv. ring.
  - apply suppress_shows.
    apply (auto_ok e _ nm _ (fun i => raw i / volume e i)%Q _ 1%Q).
    + apply H_direct. apply shows_areas. apply rel_at.
    + destruct (shows_areas b _ _ (rel_at n)) as (t&E&_). intros [A|[A _]]; rewrite E in A; discriminate A.
    + intros EN. destruct (shows_areas b _ _ (rel_at n)) as (t&E&_). rewrite E in EN. discriminate EN.
Qed.

(** Without norm the extended density is not multiplied by the yield. *)
Hypothesis Ext : ext_honest b v c nm.
Hypothesis ENrm : p_ext_normalization b = None.

Lemma ext_pdf_at y n : p_yield b = Some y ->
  shows e (call_ext_pdf b (S (S (S (S (S n))))) nm) (fun i => y * r nm i / volume e i)%Q.
Proof.
  intros Y. unfold call_ext_pdf. destruct (Ext y Y) as [Y0 HE].
  destruct (present_dec _ _ _ _ _ HE) as [A|P].
  - rewrite (auto_absent _ _ _ A). unfold suppress at 1. pose proof (Cnt y Y) as HC.
    destruct (present_dec _ _ _ _ _ HC) as [A'|P'].
    + rewrite (auto_absent _ _ _ A'). unfold divide_areas, suppress. cbn [bind].
      unfold get_yield. rewrite Y. cbn [opt_result bind].
      apply (shows_ext e _ (fun i => (r nm i / volume e i) * y)%Q).
      { intros i _. unfold Qdiv. ring. }
      apply shows_times. apply pdf_at.
    + apply suppress_shows. apply shows_areas. apply (auto_at _ _ _ (S (S n)) HC P'). intros i k H. unfold raw, r in *. rewrite <- H. ring.
  - apply suppress_shows. destruct (divisor (S (S n)) nm Adm) as (z&d&Ez&HD).
    apply (auto_ok e _ nm _ _ _ (d / y)%Q HE P). intros EN. specialize (Y0 P EN). destruct HD as [->|(Z&_&D0&HD)].
    + exfalso. exact (honest_false _ _ _ _ HE EN).
    + destruct nm as [|s]; [exfalso; exact (honest_false _ _ _ _ HE EN)|].
      unfold ext_normalization, get_yield. rewrite Y, ENrm. cbn [opt_result bind suppress].
      rewrite <- Ez, Z. cbn [bind]. split; [reflexivity|]. intros i I. specialize (HD i I). unfold raw, r in *. rewrite <- HD.
      fold e. pose proof (volume_pos e i OK I). field. repeat split; try assumption. lra.
Qed.

Lemma integrate_at n rs : box_ok e rs ->
  gives (call_integrate b (S (S (S (S (S n))))) (LSpace rs (Some e)) nm) (in_box e rs (r nm)).
Proof. intros B. rewrite call_integrate_S, Int0. unfold suppress. apply (rect_gives e rs _ _ B). apply rel_at. Qed.
Lemma ext_integrate_at y n rs : p_yield b = Some y -> box_ok e rs ->
  gives (call_ext_integrate b (S (S (S n))) (LSpace rs (Some e)) nm) (y * in_box e rs (r nm))%Q.
Proof.
  intros Y B. unfold call_ext_integrate. rewrite EInt0. unfold suppress at 1.
  destruct (rect_gives e rs _ _ B (counts_at y n Y)) as (q&E&V). exists q. split; [exact E|]. rewrite V. apply in_box_scale.
Qed.
End At.
End Contract.


(** Together *)
Section Together.
Variables (b : bpdf) (v : list nat -> Q) (c : Q).
Let r nm := fun i => (factor b v c nm * v i)%Q.

Lemma convert_admissible norm : norm_for b v norm -> admissible b v (convert_norm b norm).
Proof.
  assert (H : forall s, space_for b v s -> admissible b v (NSpace (with_own_binning b s))).
  { intros s (B1&B2&B3). unfold with_own_binning, admissible. destruct B1 as [B1|B1]; rewrite B1; cbn [l_binning l_ranges]; repeat split; assumption. }
  destruct norm as [[|s]|]; cbn [convert_norm norm_for]; [intros _; exact I|apply H|apply H].
Qed.

Lemma views_gen norm n : stands_for b v c (convert_norm b norm) ->
  plain_views b (5 + n) norm (r (convert_norm b norm)) /\
  counts_view b (5 + n) norm (r (convert_norm b norm)) /\
  (ext_honest b v c (convert_norm b norm) -> ext_view b (5 + n) norm (r (convert_norm b norm))) /\
  integral_views b (5 + n) norm (r (convert_norm b norm)) /\
  normalised b norm (r (convert_norm b norm)).
Proof.
  intros [E C A [R RF] [K KF] [B BF] P N (I1&I2&I3)]. set (nm := convert_norm b norm) in *.
  assert (Y : forall y, p_yield b = Some y -> get_yield b = Ok y) by (intros y H; unfold get_yield; rewrite H; reflexivity).
  repeat split.
  - eapply (rel_at b v c) with (n := S n); eassumption.
  - eapply (pdf_at b v c); eassumption.
  - intros y H. unfold counts. rewrite (Y y H). cbn [bind].
    eapply (counts_at b v c) with (n := S (S n)); eassumption.
  - intros X y H. unfold ext_pdf. rewrite (Y y H). cbn [bind].
    eapply (ext_pdf_at b v c); eassumption.
  - unfold integrate, convert_limits, with_own_binning. cbn [l_binning l_ranges].
    eapply (integrate_at b v c); eassumption.
  - intros y HY. unfold ext_integrate, convert_limits, with_own_binning. cbn [l_binning l_ranges]. rewrite (Y y HY). cbn [bind].
    eapply (ext_integrate_at b v c) with (n := S (S n)); eassumption.
  - intros ranges (s&<-&BN&HN).
    assert (EN : nm = NSpace (with_own_binning b s)).
    { unfold nm. destruct HN as [->|[-> ->]]; reflexivity. }
    assert (ER : l_ranges (with_own_binning b s) = l_ranges s).
    { unfold with_own_binning. destruct (l_binning s); reflexivity. }
    unfold r. rewrite EN in A |- *. unfold factor. rewrite in_box_scale. destruct A as (_&_&A0).
    rewrite ER in *. field. exact A0.
Qed.
End Together.

(** ** Comparison of spaces *)
Lemma list_eqb_F2 {A} (eqb : A -> A -> bool) a b : list_eqb eqb a b = true <-> Forall2 (fun x y => eqb x y = true) a b.
Proof.
  revert b. induction a as [|x a IH]; intros [|y b]; cbn [list_eqb]; split; intros H; try discriminate H; try constructor; try (inversion H; fail).
  - apply andb_prop in H. apply H.
  - apply IH. apply andb_prop in H. apply H.
  - inversion H; subst. rewrite H3. apply IH. assumption.
Qed.
Lemma fraction_same e k r r' : (fst r == fst r')%Q -> (snd r == snd r')%Q -> (fraction e k r == fraction e k r')%Q.
Proof. intros H1 H2. unfold fraction, covered. rewrite H1, H2. reflexivity. Qed.
Lemma in_box_same e rs rs' f : list_eqb range_eqb rs rs' = true -> (in_box e rs f == in_box e rs' f)%Q.
Proof.
  intros H. apply list_eqb_F2 in H. unfold in_box. apply qsum_ext. intros i _.
  assert (W : (bin_weight fraction_of (box e rs) i == bin_weight fraction_of (box e rs') i)%Q).
  { unfold box, bin_weight. revert e i. induction H as [|a b rs rs' E H IH]; intros [|x e] [|k i]; try reflexivity.
    cbn [combine map fst snd product]. rewrite (IH e i). unfold fraction_of. cbn [fst snd].
    unfold range_eqb in E. apply andb_prop in E. destruct E as [E1 E2]. apply Qeq_bool_iff in E1, E2.
    rewrite (fraction_same x k a b E1 E2). reflexivity. }
  rewrite W. reflexivity.
Qed.
Lemma space_in_box b s f : pdf_space_ok b -> lspace_eqb (p_space b) s = true ->
  (in_box (own_edges b) (l_ranges s) f == in_all (own_edges b) f)%Q.
Proof.
  intros [OK E] H. unfold lspace_eqb in H. apply andb_prop in H. destruct H as [H _].
  rewrite <- (in_box_same _ _ _ f H). rewrite E. cbn [l_ranges]. apply in_box_whole, OK.
Qed.
Lemma range_eqb_refl r : range_eqb r r = true.
Proof. unfold range_eqb. rewrite !(proj2 (Qeq_bool_iff _ _)) by reflexivity. reflexivity. Qed.
Lemma list_eqb_refl {A} (eqb : A -> A -> bool) l : (forall x, eqb x x = true) -> list_eqb eqb l l = true.
Proof. intros H. induction l; cbn [list_eqb]; [reflexivity|]. rewrite H. exact IHl. Qed.
Lemma lspace_eqb_refl s : lspace_eqb s s = true.
Proof.
  unfold lspace_eqb. rewrite list_eqb_refl by exact range_eqb_refl. cbn [andb].
  destruct (l_binning s); [|reflexivity]. apply list_eqb_refl. intros x. apply list_eqb_refl.
  intros q. apply Qeq_bool_iff. reflexivity.
Qed.
