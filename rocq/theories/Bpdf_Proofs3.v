(** Sums, interpolated histograms, and PDFs made from unbinned ones. *)
From Verif Require Import Base BaseLemmas Hist_Model Hist_Spec Hist_Proofs3 BInt_Model BInt_Spec
  Bpdf_Model Bpdf_Spec Bpdf_Proofs Bpdf_Proofs2.
From Coq Require Import Lqa.
#[local] Open Scope nat_scope.

Lemma tsum_all_shows {A} e (ts : list A) (g : A -> result tensor) (h : A -> list nat -> Q) :
  (forall x, In x ts -> shows e (g x) (h x)) ->
  exists us, mapM g ts = Ok us /\ shows e (Ok (tsum_all (shape_of e) us)) (fun i => qsum (map (fun x => h x i) ts)).
Proof.
  induction ts as [|x ts IH]; intros H.
  - exists []. split; [reflexivity|]. apply shows_ok. reflexivity.
  - destruct (H x (or_introl eq_refl)) as (t&E&S1&V). destruct IH as (us&EM&(t'&Et&S2&V')); [intros y I; apply H; right; exact I|].
    exists (t :: us). cbn [mapM]. rewrite E. cbn [bind]. rewrite EM. split; [reflexivity|].
    injection Et as Et. cbn [tsum_all fold_right]. fold (tsum_all (shape_of e) us). rewrite Et.
    eexists. split; [reflexivity|]. cbn [tmap2 t_shape t_get]. split; [exact S1|].
    intros i I. cbn [map]. rewrite qsum_cons. rewrite (V i I), (V' i I). reflexivity.
Qed.

Lemma in_box_plus e rs f g : (in_box e rs (fun i => f i + g i) == in_box e rs f + in_box e rs g)%Q.
Proof. unfold in_box. rewrite <- qsum_plus. apply qsum_ext. intros i _. ring. Qed.
Lemma in_box_zero e rs : (in_box e rs (fun _ => 0) == 0)%Q.
Proof. rewrite (in_box_ext e rs _ (fun i => 0 * 0)%Q) by (intros; ring). rewrite in_box_scale. ring. Qed.
Lemma in_box_sum {A} e rs (xs : list A) (f : A -> Q) (r : A -> list nat -> Q) :
  (in_box e rs (fun i => qsum (map (fun x => f x * r x i) xs)) == qsum (map (fun x => f x * in_box e rs (r x)) xs))%Q.
Proof.
  induction xs as [|x xs IH]; cbn [map].
  - rewrite (in_box_ext e rs _ (fun _ => 0)%Q) by (intros; reflexivity). apply in_box_zero.
  - apply (Qeq_trans _ (in_box e rs (fun i => f x * r x i + qsum (map (fun x => f x * r x i) xs)))%Q).
    { apply in_box_ext. intros i _. rewrite qsum_cons. reflexivity. }
    rewrite in_box_plus, in_box_scale, IH, qsum_cons. reflexivity.
Qed.

(** ** BinnedSumPDF *)
Section Sum.
Variables (m : nat) (e : list (list Q)) (yield : option Q).
(** daughters, fractions, relative contents *)
Variable xs : list (bpdf * Q * (list nat -> Q)).
Let b := sum_pdf m (LSpace (whole e) (Some e)) (map fst xs) yield.
Let v i := qsum (map (fun x => snd (fst x) * snd x i)%Q xs).
Hypothesis OK : Forall edges_ok e.
Hypothesis Own : forall d f r, In (d, f, r) xs -> own_edges d = e /\ plain_views d m None r /\
  (in_box e (l_ranges (norm_of d)) r == 1)%Q.
Hypothesis F1 : (qsum (map (fun x => snd (fst x)) xs) == 1)%Q.
Hypothesis Ext : forall y, yield = Some y -> forall d f r, In (d, f, r) xs ->
  counts_view d m None r /\ ext_view d m None r /\ exists yd, p_yield d = Some yd /\ (f * y == yd)%Q.

Lemma sum_shows (g : bpdf * Q -> result tensor) (h : bpdf * Q * (list nat -> Q) -> list nat -> Q) :
  (forall x, In x xs -> shows e (g (fst x)) (h x)) ->
  shows e (sum_all_of g (LSpace (whole e) (Some e)) (map fst xs)) (fun i => qsum (map (fun x => h x i) xs)).
Proof.
  intros H. unfold sum_all_of.
  destruct (tsum_all_shows e xs (fun x => g (fst x)) h H) as (us&E&S1).
  replace (mapM g (map fst xs)) with (mapM (fun x => g (fst x)) xs).
  - rewrite E. exact S1.
  - clear. induction xs as [|x l IH]; [reflexivity|]. cbn [map mapM]. rewrite IH. reflexivity.
Qed.
Lemma sum_in_box s : equal_norms (map fst xs) (NSpace s) = true -> (in_box e (l_ranges s) v == 1)%Q.
Proof.
  intros H. unfold v. rewrite in_box_sum. rewrite <- F1. apply qsum_ext. intros [[d f] r] I. cbn [fst snd].
  destruct (Own d f r I) as (_&_&N).
  cbn [equal_norms] in H. rewrite forallb_forall in H. specialize (H (d, f) (in_map fst _ _ I)). cbn [fst] in H.
  unfold lspace_eqb in H. apply andb_prop in H. rewrite <- (in_box_same _ _ _ r (proj1 H)), N. ring.
Qed.
Lemma sum_factor nm : equal_norms (map fst xs) nm = true -> (factor b v 1 nm == 1)%Q.
Proof.
  destruct nm as [|s]; [reflexivity|]. intros H. unfold factor. change (own_edges b) with e.
  rewrite (sum_in_box s H). reflexivity.
Qed.
Lemma checked_honest F nm asked raw : shows e F raw ->
  (equal_norms (map fst xs) nm = true -> forall i, in_shape i (shape_of e) -> (raw i == asked i)%Q) ->
  honest e (deco b (Some (checked (map fst xs) F))) nm asked raw.
Proof.
  intros S1 H. destruct (equal_norms (map fst xs) nm) eqn:E.
  - apply H_direct. apply (shows_ext e _ raw); [apply H; reflexivity|].
    destruct nm as [|s]; cbn [deco checked k_fun k_true orb]; rewrite ?E; exact S1.
  - destruct nm as [|s]; [discriminate E|]. apply H_without; cbn [deco checked k_fun k_true orb]; [rewrite E; reflexivity|exact S1].
Qed.
Lemma sum_rel_shows : shows e (sum_all_of (fun d => let* t := rel_counts_of (fst d) m None in Ok (tmap (fun v => v * snd d)%Q t)) (LSpace (whole e) (Some e)) (map fst xs)) v.
Proof.
  apply (shows_ext e _ (fun i => qsum (map (fun x => snd x i * snd (fst x)) xs))%Q).
  { intros i _. apply qsum_ext. intros x _. ring. }
  apply sum_shows. intros [[d f] r] I. cbn [fst snd]. destruct (Own d f r I) as (E1&(P1&_)&_). rewrite E1 in P1.
  apply shows_times, P1.
Qed.
Lemma sum_pdf_shows : shows e (sum_all_of (fun d => let* t := pdf (fst d) m None in Ok (tmap (fun v => v * snd d)%Q t)) (LSpace (whole e) (Some e)) (map fst xs))
  (fun i => v i / volume e i)%Q.
Proof.
  apply (shows_ext e _ (fun i => qsum (map (fun x => snd x i / volume e i * snd (fst x)) xs))%Q).
  { intros i _. unfold v, Qdiv. rewrite Qmult_comm. rewrite <- qsum_scale. apply qsum_ext. intros x _. ring. }
  apply (sum_shows _ (fun x i => snd x i / volume e i * snd (fst x))%Q). intros [[d f] r] I. cbn [fst snd]. destruct (Own d f r I) as (E1&(_&P2)&_). rewrite E1 in P2.
  apply (shows_times e _ (fun i => r i / volume e i)%Q f P2).
Qed.
Lemma sum_counts_shows y : yield = Some y -> shows e (sum_all_of (fun d => counts (fst d) m None) (LSpace (whole e) (Some e)) (map fst xs)) (fun i => y * v i)%Q.
Proof.
  intros Y. apply (shows_ext e _ (fun i => qsum (map (fun x => (snd (fst x) * y) * snd x i) xs))%Q).
  { intros i _. unfold v. rewrite <- qsum_scale. apply qsum_ext. intros x _. ring. }
  apply (sum_shows _ (fun x i => (snd (fst x) * y) * snd x i)%Q). intros [[d f] r] I. cbn [fst snd].
  destruct (Ext y Y d f r I) as (C&_&yd&EY&FY). destruct (Own d f r I) as (E1&_). specialize (C yd EY). rewrite E1 in C.
  apply (shows_ext e _ (fun i => yd * r i)%Q); [|exact C]. intros i _. rewrite FY. reflexivity.
Qed.
Lemma sum_ext_shows y : yield = Some y -> shows e (sum_all_of (fun d => ext_pdf (fst d) m None) (LSpace (whole e) (Some e)) (map fst xs)) (fun i => y * v i / volume e i)%Q.
Proof.
  intros Y. apply (shows_ext e _ (fun i => qsum (map (fun x => (snd (fst x) * y) * snd x i / volume e i) xs))%Q).
  { intros i _. unfold v, Qdiv. rewrite (Qmult_comm (y * _)), Qmult_assoc. rewrite <- qsum_scale. apply qsum_ext. intros x _. ring. }
  apply (sum_shows _ (fun x i => (snd (fst x) * y) * snd x i / volume e i)%Q). intros [[d f] r] I. cbn [fst snd].
  destruct (Ext y Y d f r I) as (_&C&yd&EY&FY). destruct (Own d f r I) as (E1&_). specialize (C yd EY). cbv zeta in C. rewrite E1 in C.
  apply (shows_ext e _ (fun i => yd * r i / volume e i)%Q); [|exact C]. intros i _. rewrite FY. reflexivity.
Qed.
Lemma sum_present F nm f : shows e F f -> present (deco b (Some (checked (map fst xs) F))) nm.
Proof.
  intros (t&E&_). unfold present, absent. destruct nm as [|s]; cbn [deco checked k_fun k_true orb].
  - cbn [equal_norms]. rewrite E. intros [A|[A _]]; discriminate A.
  - destruct (equal_norms (map fst xs) (NSpace s)); cbn [equal_norms]; rewrite E; intros [A|[A B]]; discriminate.
Qed.
Lemma sum_stands norm : norm_for b v norm -> stands_for b v 1 (convert_norm b norm).
Proof.
  intros NF. constructor.
  - exact OK.
  - discriminate.
  - apply convert_admissible, NF.
  - split; apply checked_honest.
    2: intros H i I; rewrite (sum_factor _ H); ring.
    3: intros H i I; reflexivity.
    all: apply (shows_ext e _ v); [intros; ring|apply sum_rel_shows].
  - split; [|left; apply (sum_present _ _ _ sum_rel_shows)].
    intros y Y. apply checked_honest; [apply (shows_ext e _ (fun i => y * v i)%Q); [intros; ring|apply sum_counts_shows, Y]|].
    intros H i I. rewrite (sum_factor _ H). ring.
  - split; left; apply (sum_present _ _ _ sum_rel_shows).
  - intros h E. injection E as <-. split; [|left; apply (sum_present _ _ _ sum_pdf_shows)].
    apply checked_honest; [apply (shows_ext e _ (fun i => v i / volume e i)%Q); [intros i _; change (own_edges b) with e; unfold Qdiv; ring|apply sum_pdf_shows]|].
    intros H i I. rewrite (sum_factor _ H). reflexivity.
  - left. reflexivity.
  - repeat split.
Qed.
Lemma sum_ext_honest norm : equal_norms (map fst xs) (convert_norm b norm) = true ->
  ext_honest b v 1 (convert_norm b norm).
Proof.
  intros EN y Y. match goal with |- _ /\ ?G => cut G end.
  { intros G. split; [|exact G]. intros P E. exfalso. revert E.
    pose proof (sum_ext_shows y Y) as (t&Et&_).
    destruct (convert_norm b norm) as [|s]; cbn [deco p_ext_pdf b sum_pdf checked k_fun k_true orb]; rewrite ?EN; cbn [equal_norms];
      rewrite Et; discriminate. }
  apply H_direct.
  apply (shows_ext e _ (fun i => y * v i / volume e i)%Q).
  { intros i _. rewrite (sum_factor _ EN). change (own_edges b) with e. unfold Qdiv. ring. }
  destruct (convert_norm b norm) as [|s]; cbn [deco p_ext_pdf b sum_pdf checked k_fun k_true orb]; rewrite ?EN; apply sum_ext_shows, Y.
Qed.
End Sum.

(** ** Classes whose methods handle every norm *)
Lemma auto_shows e f z k g : shows e (f k) g -> shows e (auto f z k) g.
Proof. intros (t&E&H). unfold auto. rewrite E. exists t. split; [reflexivity|exact H]. Qed.
Section Direct.
Variables (b : bpdf) (n : nat) (norm : option normarg) (r : list nat -> Q).
Let e := own_edges b.
Let nm := convert_norm b norm.
Hypothesis Rel : shows e (deco b (p_rel_counts b) nm) r.
Hypothesis Pdf : exists h, p_pdf b = Some h /\ shows e (deco b (Some h) nm) (fun i => r i / volume e i)%Q.
Hypothesis Cnt : forall y, p_yield b = Some y -> absent (deco b (p_counts b)) nm \/ shows e (deco b (p_counts b) nm) (fun i => y * r i)%Q.
Hypothesis ExtP : forall y, p_yield b = Some y -> absent (deco b (p_ext_pdf b)) nm \/ shows e (deco b (p_ext_pdf b) nm) (fun i => y * r i / volume e i)%Q.
Hypothesis Int0 : p_integrate b = None /\ p_ext_integrate b = None.

Lemma direct_rel : shows e (call_rel_counts b (S n) nm) r.
Proof. rewrite call_rel_S. apply suppress_shows, auto_shows, Rel. Qed.
Lemma direct_pdf k : shows e (call_pdf b (S k) nm) (fun i => r i / volume e i)%Q.
Proof.
  destruct Pdf as (h&E&H). rewrite call_pdf_S, E.
  apply suppress_shows. apply (auto_shows e (deco b (Some h))). exact H.
Qed.
Lemma direct_counts y k : p_yield b = Some y -> shows e (call_counts b k nm) (fun i => y * r i)%Q.
Proof.
  intros Y. unfold call_counts. destruct (Cnt y Y) as [A|H].
  - rewrite (auto_absent _ _ _ A). unfold suppress at 1. unfold get_yield. rewrite Y. cbn [opt_result bind].
    apply (shows_ext e _ (fun i => r i * y)%Q); [intros; ring|]. apply shows_times, auto_shows, Rel.
  - apply suppress_shows, auto_shows, H.
Qed.
Lemma direct_ext y : p_yield b = Some y -> shows e (call_ext_pdf b (S (S n)) nm) (fun i => y * r i / volume e i)%Q.
Proof.
  intros Y. unfold call_ext_pdf. destruct (ExtP y Y) as [A|H].
  - rewrite (auto_absent _ _ _ A). unfold suppress at 1. destruct (Cnt y Y) as [A'|H'].
    + rewrite (auto_absent _ _ _ A'). unfold divide_areas, suppress. cbn [bind].
      unfold get_yield. rewrite Y. cbn [opt_result bind].
      apply (shows_ext e _ (fun i => (r i / volume e i) * y)%Q); [intros; unfold Qdiv; ring|]. apply shows_times, direct_pdf.
    + apply suppress_shows, shows_areas, auto_shows, H'.
  - apply suppress_shows, auto_shows, H.
Qed.
Lemma direct_views : views b (S (S n)) norm r.
Proof.
  assert (Y : forall y, p_yield b = Some y -> get_yield b = Ok y) by (intros y H; unfold get_yield; rewrite H; reflexivity).
  destruct Int0 as [I1 I2]. unfold views, plain_views, counts_view, ext_view, integral_views.
  fold e. assert (R2 : shows e (call_rel_counts b (S n) nm) r) by apply direct_rel.
  assert (R3 : shows e (call_rel_counts b (S (S n)) nm) r) by (rewrite call_rel_S; apply suppress_shows, auto_shows, Rel).
  split; [split; [exact R3|]|].
  { destruct Pdf as (h&E&H). unfold pdf. rewrite call_pdf_S, E. apply suppress_shows. apply (auto_shows e (deco b (Some h))). exact H. }
  split; [intros y HY; unfold counts; rewrite (Y y HY); apply direct_counts, HY|].
  split; [intros y HY; unfold ext_pdf; rewrite (Y y HY); apply (direct_ext y HY)|].
  intros ranges B. split.
  - unfold integrate, convert_limits, with_own_binning. cbn [l_binning l_ranges]. rewrite call_integrate_S, I1.
    unfold suppress. apply (rect_gives e ranges _ _ B R2).
  - intros y HY. unfold ext_integrate, convert_limits, with_own_binning. cbn [l_binning l_ranges]. rewrite (Y y HY). cbn [bind].
    unfold call_ext_integrate. rewrite I2. unfold suppress at 1.
    destruct (rect_gives e ranges _ _ B (direct_counts y (S (S n)) HY)) as (q&E&V). exists q. split; [exact E|]. rewrite V. apply in_box_scale.
Qed.
End Direct.

(** ** SplineMorphingPDF *)
Definition all_extended (hists : list bpdf) : bool := forallb (fun h => match p_yield h with Some _ => true | None => false end) hists.
Definition morph_auto (hists : list bpdf) (ext : ext_arg) : bool :=
  match ext with ExtNone => all_extended hists | ExtTrue => true | _ => false end.
Definition morph_of m ws hists norm0 sp y (auto : bool) : bpdf :=
  let method (f : bpdf -> normarg -> result tensor) := fun nm => let* ts := mapM (fun h => f h nm) hists in Ok (interpolate (bins sp) ws ts) in
  let only_auto (f : normarg -> result tensor) := fun nm : normarg => if auto then f nm else Err SpecificFunctionNotImplemented in
  let plain f := Some (Hook true false false f) in
  Bpdf sp norm0 y
        (plain (method (fun h nm => pdf h m (Some nm))))
        (plain (only_auto (method (fun h nm => ext_pdf h m (Some nm)))))
        (plain (only_auto (method (fun h nm => counts h m (Some nm)))))
        (plain (method (fun h nm => rel_counts_of h m (Some nm))))
        None None None None None None None.
Lemma all_extended_yields hists : all_extended hists = true -> exists ys, mapM get_yield hists = Ok ys.
Proof.
  unfold all_extended. induction hists as [|x l IH]; [exists []; reflexivity|].
  cbn [forallb]. intros H. apply andb_prop in H. destruct H as [H1 H2]. destruct (IH H2) as (ys&E).
  cbn [mapM]. unfold get_yield at 1. destruct (p_yield x) as [y|]; [|discriminate H1]. cbn [opt_result bind]. rewrite E. eexists. reflexivity.
Qed.
Lemma morph_form m ws hists ext norm0 b : morphing_pdf m ws hists ext norm0 = Ok b ->
  exists h rest y, hists = h :: rest /\ b = morph_of m ws hists norm0 (p_space h) y (morph_auto hists ext) /\
  (morph_auto hists ext = true -> exists ys, mapM get_yield hists = Ok ys /\ y = Some (interpolate_scalar ws ys)) /\
  (morph_auto hists ext = false -> y = match ext with ExtYield q => Some q | _ => None end).
Proof.
  intros B. unfold morphing_pdf in B. fold (all_extended hists) in B. unfold morph_auto.
  pose proof (all_extended_yields hists) as AE.
  destruct hists as [|h rest]; [discriminate B|]. set (hists := h :: rest) in *. cbn [bind] in B.
  exists h, rest.
  destruct ext as [| | |q].
  - destruct (all_extended hists).
    + destruct (AE eq_refl) as (ys&EY). rewrite EY in B. cbn [bind] in B. injection B as <-.
      exists (Some (interpolate_scalar ws ys)). repeat split; try discriminate. intros _. exists ys. split; [exact EY|reflexivity].
    + cbn [bind] in B. injection B as <-. exists None. repeat split; discriminate.
  - cbn [bind] in B. injection B as <-. exists None. repeat split; discriminate.
  - destruct (all_extended hists); [|discriminate B].
    destruct (AE eq_refl) as (ys&EY). rewrite EY in B. cbn [bind] in B. injection B as <-.
    exists (Some (interpolate_scalar ws ys)). repeat split; try discriminate. intros _. exists ys. split; [exact EY|reflexivity].
  - cbn [bind] in B. injection B as <-. exists (Some q). repeat split; discriminate.
Qed.
Lemma bins_own b : bins (p_space b) = shape_of (own_edges b).
Proof. unfold bins, own_edges. destruct (l_binning (p_space b)); reflexivity. Qed.
Lemma interp_shows e (xs : list (bpdf * Q * (list nat -> Q))) (g : bpdf -> result tensor) (h : bpdf * Q * (list nat -> Q) -> list nat -> Q) :
  (forall x, In x xs -> shows e (g (fst (fst x))) (h x)) ->
  shows e (let* ts := mapM g (map (fun x => fst (fst x)) xs) in Ok (interpolate (shape_of e) (map (fun x => snd (fst x)) xs) ts))
    (fun i => qsum (map (fun x => snd (fst x) * h x i)%Q xs)).
Proof.
  induction xs as [|x l IH]; intros H.
  - apply shows_ok. reflexivity.
  - destruct (H x (or_introl eq_refl)) as (t&E&S1&V). destruct IH as (t'&Et&S2&V'); [intros y I; apply H; right; exact I|].
    cbn [map mapM]. rewrite E. cbn [bind]. destruct (mapM g (map (fun x => fst (fst x)) l)) as [us|]; [|discriminate Et].
    cbn [bind] in Et |- *. injection Et as Et. unfold interpolate. cbn [combine map tsum_all fold_right fst snd].
    unfold interpolate, tsum_all in Et. rewrite Et.
    eexists. split; [reflexivity|]. cbn [tmap tmap2 t_shape t_get]. split; [exact S1|].
    intros i I. rewrite qsum_cons, (V i I), (V' i I). reflexivity.
Qed.

Section Morphing.
Variables (m n : nat) (e : list (list Q)) (ext : ext_arg) (norm0 : option lspace) (norm : option normarg) (b : bpdf).
(** histograms, weights, relative contents for the norm *)
Variable xs : list (bpdf * Q * (list nat -> Q)).
Let hists := map (fun x => fst (fst x)) xs.
Let ws := map (fun x => snd (fst x)) xs.
Let v i := qsum (map (fun x => snd (fst x) * snd x i)%Q xs).
Hypothesis B : morphing_pdf m ws hists ext norm0 = Ok b.
Let nm := convert_norm b norm.
Hypothesis Own : forall d f r, In (d, f, r) xs -> own_edges d = e /\ plain_views d m (Some nm) r.

Lemma morph_edges : own_edges b = e.
Proof.
  destruct (morph_form _ _ _ _ _ _ B) as (h&rest&y&EH&->&_). change (own_edges (morph_of _ _ _ _ _ _ _)) with (own_edges h).
  unfold hists in EH. destruct xs as [|[[d f] r] l] eqn:EX; [discriminate EH|]. injection EH as <- _.
  cbn [fst]. apply (Own d f r (or_introl eq_refl)).
Qed.
Lemma morph_method (f : bpdf -> normarg -> result tensor) (h : bpdf * Q * (list nat -> Q) -> list nat -> Q) :
  (forall x, In x xs -> shows e (f (fst (fst x)) nm) (h x)) ->
  shows e (let* ts := mapM (fun h => f h nm) hists in Ok (interpolate (bins (p_space b)) ws ts)) (fun i => qsum (map (fun x => snd (fst x) * h x i)%Q xs)).
Proof. intros H. rewrite bins_own, morph_edges. apply (interp_shows e xs (fun h => f h nm) h H). Qed.
Lemma deco_true b' f k : deco b' (Some (Hook true false false f)) k = f k.
Proof. destruct k; reflexivity. Qed.
Lemma morph_rel : shows e (deco b (p_rel_counts b) nm) v /\
  exists h, p_pdf b = Some h /\ shows e (deco b (Some h) nm) (fun i => v i / volume e i)%Q.
Proof.
  destruct (morph_form _ _ _ _ _ _ B) as (h&rest&y&EH&EB&_).
  assert (ES : p_space h = p_space b) by (rewrite EB; reflexivity).
  assert (E1 : p_rel_counts b = p_rel_counts (morph_of m ws hists norm0 (p_space h) y (morph_auto hists ext))) by (rewrite <- EB; reflexivity).
  assert (E2 : p_pdf b = p_pdf (morph_of m ws hists norm0 (p_space h) y (morph_auto hists ext))) by (rewrite <- EB; reflexivity).
  rewrite E1, E2. cbn [p_rel_counts p_pdf morph_of]. rewrite ES. clear EB E1 E2. split.
  - rewrite deco_true. apply (morph_method (fun h nm => rel_counts_of h m (Some nm)) (fun x => snd x)).
    intros [[d f] r] I. destruct (Own d f r I) as (E1&P1&_). cbn [fst snd]. rewrite E1 in P1. exact P1.
  - eexists. split; [reflexivity|]. rewrite deco_true.
    apply (shows_ext e _ (fun i => qsum (map (fun x => snd (fst x) * (snd x i / volume e i)) xs))%Q).
    + intros i _. unfold v, Qdiv. rewrite (Qmult_comm (qsum _)), <- qsum_scale. apply qsum_ext. intros x _. ring.
    + apply (morph_method (fun h nm => pdf h m (Some nm)) (fun x i => snd x i / volume e i)%Q).
      intros [[d f] r] I. destruct (Own d f r I) as (E1&_&P2). cbn [fst snd]. rewrite E1 in P2. exact P2.
Qed.
(** Given yields, or histograms that all have the same yield. *)
Definition same_yields : Prop := morph_auto hists ext = true ->
  (qsum ws == 1)%Q /\ exists y0, forall d f r, In (d, f, r) xs ->
    counts_view d m (Some nm) r /\ ext_view d m (Some nm) r /\ exists y, p_yield d = Some y /\ (y == y0)%Q.
Lemma interpolate_const y0 : (forall d f r, In (d, f, r) xs -> exists y, p_yield d = Some y /\ (y == y0)%Q) ->
  forall ys, mapM get_yield hists = Ok ys -> (interpolate_scalar ws ys == qsum ws * y0)%Q.
Proof.
  unfold hists, ws, interpolate_scalar. clear. induction xs as [|[[d f] r] l IH]; intros H ys E.
  - cbn in E. injection E as <-. cbn. ring.
  - cbn [map mapM fst snd] in *. destruct (H d f r (or_introl eq_refl)) as (y&EY&Ey). unfold get_yield at 1 in E. rewrite EY in E. cbn [opt_result bind] in E.
    destruct (mapM get_yield (map (fun x => fst (fst x)) l)) as [us|] eqn:EM; [|discriminate E]. cbn [bind] in E. injection E as <-.
    cbn [combine map fst snd]. rewrite !qsum_cons. rewrite (IH (fun d f r I => H d f r (or_intror I)) us eq_refl), Ey. ring.
Qed.
Lemma morph_yields : same_yields -> forall y, p_yield b = Some y ->
  (absent (deco b (p_counts b)) nm \/ shows e (deco b (p_counts b) nm) (fun i => y * v i)%Q) /\
  (absent (deco b (p_ext_pdf b)) nm \/ shows e (deco b (p_ext_pdf b) nm) (fun i => y * v i / volume e i)%Q).
Proof.
  intros SY y Y. destruct (morph_form _ _ _ _ _ _ B) as (h&rest&y'&EH&EB&HA&_).
  assert (ES : p_space h = p_space b) by (rewrite EB; reflexivity).
  assert (E1 : p_counts b = p_counts (morph_of m ws hists norm0 (p_space h) y' (morph_auto hists ext))) by (rewrite <- EB; reflexivity).
  assert (E2 : p_ext_pdf b = p_ext_pdf (morph_of m ws hists norm0 (p_space h) y' (morph_auto hists ext))) by (rewrite <- EB; reflexivity).
  assert (E3 : y' = Some y) by (rewrite EB in Y; exact Y).
  rewrite E1, E2. cbn [p_counts p_ext_pdf morph_of]. rewrite ES. clear EB E1 E2.
  unfold same_yields in SY. destruct (morph_auto hists ext).
  2:{ split; left; left; rewrite deco_true; reflexivity. }
  destruct (SY eq_refl) as (W1&y0&HS). destruct (HA eq_refl) as (ys&EM&E4).
  assert (EY : (y == y0)%Q).
  { assert (y = interpolate_scalar ws ys) as -> by congruence.
    rewrite (interpolate_const y0) by (try exact EM; intros d f r I; apply (HS d f r I)). rewrite W1. ring. }
  split; right; rewrite deco_true.
  - apply (shows_ext e _ (fun i => qsum (map (fun x => snd (fst x) * (y0 * snd x i)) xs))%Q).
    + intros i _. unfold v. rewrite EY, <- qsum_scale. apply qsum_ext. intros x _. ring.
    + apply (morph_method (fun h nm => counts h m (Some nm)) (fun x i => y0 * snd x i)%Q).
      intros [[d f] r] I. destruct (HS d f r I) as (C&_&yd&Yd&Ed). destruct (Own d f r I) as (E1&_).
      specialize (C yd Yd). rewrite E1 in C. cbn [fst snd]. apply (shows_ext e _ (fun i => yd * r i)%Q); [intros; rewrite Ed; reflexivity|exact C].
  - apply (shows_ext e _ (fun i => qsum (map (fun x => snd (fst x) * (y0 * snd x i / volume e i)) xs))%Q).
    + intros i _. unfold v, Qdiv. rewrite EY, (Qmult_comm (y0 * _)), Qmult_assoc, <- qsum_scale. apply qsum_ext. intros x _. ring.
    + apply (morph_method (fun h nm => ext_pdf h m (Some nm)) (fun x i => y0 * snd x i / volume e i)%Q).
      intros [[d f] r] I. destruct (HS d f r I) as (_&C&yd&Yd&Ed). destruct (Own d f r I) as (E1&_).
      specialize (C yd Yd). cbv zeta in C. rewrite E1 in C. cbn [fst snd]. apply (shows_ext e _ (fun i => yd * r i / volume e i)%Q); [intros; rewrite Ed; reflexivity|exact C].
Qed.
Lemma morph_views : same_yields -> views b (2 + n) norm v.
Proof.
  intros SY. apply direct_views; rewrite ?morph_edges.
  - apply morph_rel.
  - apply morph_rel.
  - intros y Y. apply (morph_yields SY y Y).
  - intros y Y. apply (morph_yields SY y Y).
  - destruct (morph_form _ _ _ _ _ _ B) as (h&rest&y'&EH&EB&_). rewrite EB. split; reflexivity.
Qed.
(** Contents of a box *)
Lemma morph_in_box rs : (qsum ws == 1)%Q -> (forall d f r, In (d, f, r) xs -> (in_box e rs r == 1)%Q) -> (in_box e rs v == 1)%Q.
Proof.
  intros W1 H. unfold v. rewrite in_box_sum, <- W1. unfold ws. apply qsum_ext. intros [[d f] r] I. cbn [fst snd]. rewrite (H d f r I). ring.
Qed.
(** Automatic yields: contents are interpolated like everything. *)
Lemma morph_counts n' : morph_auto hists ext = true ->
  (forall d f r, In (d, f, r) xs -> counts_view d m (Some nm) r) ->
  shows e (counts b n' norm) (fun i => qsum (map (fun x => snd (fst x) * (match p_yield (fst (fst x)) with Some y => y | None => 0 end * snd x i)) xs))%Q.
Proof.
  intros AU C. destruct (morph_form _ _ _ _ _ _ B) as (h&rest&y'&EH&EB&HA&_).
  destruct (HA AU) as (ys&EM&E4).
  assert (ES : p_space h = p_space b) by (rewrite EB; reflexivity).
  assert (E1 : p_counts b = p_counts (morph_of m ws hists norm0 (p_space h) y' (morph_auto hists ext))) by (rewrite <- EB; reflexivity).
  assert (E3 : p_yield b = y') by (rewrite EB; reflexivity). clear EB.
  unfold counts, get_yield. rewrite E3, E4. cbn [opt_result bind]. unfold call_counts. apply suppress_shows, auto_shows. fold nm.
  rewrite E1. cbn [p_counts morph_of]. rewrite ES, AU, deco_true.
  apply (morph_method (fun h nm => counts h m (Some nm)) (fun x i => match p_yield (fst (fst x)) with Some y => y | None => 0 end * snd x i)%Q).
  intros [[d f] r] I. cbn [fst snd]. destruct (Own d f r I) as (Ed&_).
  assert (HY : exists y, p_yield d = Some y).
  { clear - I EM. unfold hists in EM. revert ys EM. induction xs as [|x l IH]; intros ys EM; [elim I|].
    cbn [map mapM] in EM. destruct (get_yield (fst (fst x))) as [y|] eqn:EY; [|discriminate EM]. cbn [bind] in EM.
    destruct (mapM get_yield (map (fun x => fst (fst x)) l)) as [us|]; [|discriminate EM].
    destruct I as [->|I]; [|apply (IH I us eq_refl)].
    cbn [fst] in EY. unfold get_yield in EY. destruct (p_yield d) as [y'|]; [exists y'; reflexivity|discriminate EY]. }
  destruct HY as [y EY]. rewrite EY. pose proof (C d f r I y EY) as S1. rewrite Ed in S1. exact S1.
Qed.
End Morphing.

(** ** BinnedFromUnbinnedPDF *)
Section FromUnbinned.
Variables (e : list (list Q)) (ints : tensor) (unorm : lspace -> Q) (uyield : option Q) (ext : ext_arg) (norm0 : option lspace).
Hypothesis OK : Forall edges_ok e.
Hypothesis SH : t_shape ints = shape_of e.
Let b := from_unbinned (LSpace (whole e) (Some e)) ints unorm uyield ext norm0.
Let v := t_get ints.
Hypothesis UN : forall s, (unorm s == in_box e (l_ranges s) v)%Q.
(** The unbinned PDF is not extended, or has the same yield. *)
Hypothesis UY : forall u y, uyield = Some u -> p_yield b = Some y -> (u == y)%Q.

Lemma fu_divided nm k : admissible b v nm -> 
  shows e (Ok match nm with NFalse => tmap (fun v => v * k)%Q ints | NSpace s => tmap (fun v => v / unorm s)%Q (tmap (fun v => v * k)%Q ints) end)
    (fun i => k * (factor b v 1 nm * v i))%Q.
Proof.
  intros A. eexists. split; [reflexivity|]. destruct nm as [|s]; cbn [tmap t_shape t_get factor]; (split; [exact SH|]); intros i I.
  - fold v. ring.
  - fold v. rewrite UN. change (own_edges b) with e. destruct A as (_&_&A). change (own_edges b) with e in A. field. exact A.
Qed.
Lemma fu_rel nm : admissible b v nm -> shows e (deco b (p_rel_counts b) nm) (fun i => factor b v 1 nm * v i)%Q.
Proof.
  intros A. cbn [p_rel_counts b from_unbinned]. rewrite deco_true. eexists. split; [reflexivity|].
  destruct nm as [|s]; cbn [tmap t_shape t_get factor]; (split; [exact SH|]); intros i I.
  - fold v. ring.
  - fold v. rewrite UN. change (own_edges b) with e. destruct A as (_&_&A). change (own_edges b) with e in A. field. exact A.
Qed.
Lemma fu_present nm : present (deco b (p_rel_counts b)) nm.
Proof. cbn [p_rel_counts b from_unbinned]. unfold present, absent. rewrite !deco_true. intros [A|[A _]]; discriminate A. Qed.
Lemma fu_counts nm : admissible b v nm -> counts_honest b v 1 nm.
Proof.
  intros A y Y. apply (honest_hook b).
  - intros -> i. reflexivity.
  - cbn [k_fun]. case_eq uyield; [intros u EU|intros EU]; cbn [bind].
    + apply (shows_ext e _ (fun i => u * (factor b v 1 NFalse * v i))%Q).
      * intros i _. cbn [factor]. rewrite (UY u y EU Y). reflexivity.
      * apply (fu_divided NFalse u I).
    + change (p_yield b) with (match ext with ExtNone => uyield | ExtFalse => None | ExtTrue => Some 1%Q | ExtYield y => Some y end) in Y.
      rewrite EU in Y. rewrite Y. cbn [opt_result bind]. apply (fu_divided NFalse y I).
  - intros s -> E. cbn [k_fun]. case_eq uyield; [intros u EU|intros EU]; cbn [bind].
    + apply (shows_ext e _ (fun i => u * (factor b v 1 (NSpace s) * v i))%Q).
      * intros i _. rewrite (UY u y EU Y). reflexivity.
      * apply (fu_divided (NSpace s) u A).
    + change (p_yield b) with (match ext with ExtNone => uyield | ExtFalse => None | ExtTrue => Some 1%Q | ExtYield y => Some y end) in Y.
      rewrite EU in Y. rewrite Y. cbn [opt_result bind]. apply (fu_divided (NSpace s) y A).
Qed.
Lemma fu_stands norm : norm_for b v norm -> stands_for b v 1 (convert_norm b norm).
Proof.
  intros NF. pose proof (convert_admissible b v norm NF) as A. constructor.
  - exact OK.
  - discriminate.
  - exact A.
  - split; apply H_direct, fu_rel; [exact A|exact I].
  - split; [apply fu_counts, A|left; apply fu_present].
  - split; left; apply fu_present.
  - intros h E. discriminate E.
  - left. reflexivity.
  - repeat split.
Qed.
Lemma fu_ext norm : ext_honest b v 1 (convert_norm b norm).
Proof. intros y Y. split; [intros P; elim P; left; reflexivity|]. apply H_absent. left. reflexivity. Qed.
End FromUnbinned.
