(** Lemmas for C71: the standard shapes and their integrals *)
From Coq Require Import Reals Lra Lia.
From Coquelicot Require Import Coquelicot.
From Verif Require Import Phys_Model Phys_Spec.
#[local] Open Scope R_scope.

Lemma less_t a b : a < b -> less a b = true.
Proof. intros H. unfold less. destruct (Rlt_dec a b); [reflexivity|contradiction]. Qed.
Lemma less_f a b : b <= a -> less a b = false.
Proof. intros H. unfold less. destruct (Rlt_dec a b); [lra|reflexivity]. Qed.
Lemma less_equal_t a b : a <= b -> less_equal a b = true.
Proof. intros H. unfold less_equal. destruct (Rle_dec a b); [reflexivity|contradiction]. Qed.
Lemma less_equal_f a b : b < a -> less_equal a b = false.
Proof. intros H. unfold less_equal. destruct (Rle_dec a b); [lra|reflexivity]. Qed.

Lemma continuous_gauss x : continuous (fun t => exp (- (t * t))) x.
Proof. apply (ex_derive_continuous (fun t => exp (- (t * t)))). auto_derive. exact I. Qed.
Lemma is_derive_erf x : is_derive erf x (2 / sqrt PI * exp (- (x * x))).
Proof.
  unfold erf. apply is_derive_scal. apply (is_derive_RInt (fun t => exp (- (t * t))) (fun x => RInt (fun t => exp (- (t * t))) 0 x) 0 x).
  - apply filter_forall. intros y. apply (@RInt_correct R_CompleteNormedModule), (ex_RInt_continuous (fun t => exp (- (t * t)))). intros z _. apply continuous_gauss.
  - apply continuous_gauss.
Qed.

Definition gaussian (t : R) : R := exp (- (1 / 2) * square t).
Lemma sqrt2_sq : sqrt 2 * sqrt 2 = 2. Proof. apply sqrt_sqrt. lra. Qed.
Lemma sqrt2_pos : 0 < sqrt 2. Proof. apply sqrt_lt_R0. lra. Qed.
Lemma gauss_const : sqrt (PI / 2) * (2 / sqrt PI * / sqrt 2) = 1.
Proof.
  assert (P := PI_RGT_0). assert (H : 0 < sqrt PI) by now apply sqrt_lt_R0. assert (H2 := sqrt2_pos). assert (H3 := sqrt2_sq).
  rewrite sqrt_div; [|lra|lra]. field_simplify; [|lra]. rewrite <- Rsqr_pow2. unfold Rsqr. rewrite H3. lra.
Qed.
Lemma is_derive_gaussian_int t : is_derive (fun t => sqrt (PI / 2) * erf (t / sqrt 2)) t (gaussian t).
Proof.
  assert (H2 := sqrt2_pos). assert (H3 := sqrt2_sq).
  replace (gaussian t) with (sqrt (PI / 2) * (/ sqrt 2 * (2 / sqrt PI * exp (- (t / sqrt 2 * (t / sqrt 2)))))).
  - apply is_derive_scal. apply (is_derive_comp erf (fun t => t / sqrt 2)); [apply is_derive_erf|]. auto_derive; [exact I|]. field. lra.
  - unfold gaussian, square. replace (- (t / sqrt 2 * (t / sqrt 2))) with (- (1 / 2) * (t * t)).
    + transitivity (sqrt (PI / 2) * (2 / sqrt PI * / sqrt 2) * exp (- (1 / 2) * (t * t))); [ring|]. rewrite gauss_const. ring.
    + replace (t / sqrt 2 * (t / sqrt 2)) with (t * t / (sqrt 2 * sqrt 2)) by (field; lra). rewrite H3. field.
Qed.
Lemma continuous_gaussian t : continuous gaussian t.
Proof. apply (ex_derive_continuous gaussian). unfold gaussian, square. auto_derive. exact I. Qed.

(** A function with two pieces, and its integral *)
Definition pieces (c : R) (f g : R -> R) (t : R) : R := if less t c then f t else g t.
Definition pieces_int (c : R) (F G : R -> R) (a b : R) : R :=
  if greater_equal a c then G b - G a else if less_equal b c then F b - F a else (F c - F a) + (G b - G c).
Lemma is_RInt_prim (F f : R -> R) a b : a <= b -> (forall x, a <= x <= b -> is_derive F x (f x)) -> (forall x, a <= x <= b -> continuous f x) -> is_RInt f a b (F b - F a).
Proof.
  intros L D C. assert (K : is_RInt f a b (minus (F b) (F a))).
  { apply (is_RInt_derive F f); intros x; rewrite Rmin_left, Rmax_right by exact L; auto. }
  exact K.
Qed.
Lemma is_RInt_pieces c f g F G a b : a <= b ->
  (forall t, t <= c -> is_derive F t (f t)) -> (forall t, t <= c -> continuous f t) ->
  (forall t, c <= t -> is_derive G t (g t)) -> (forall t, c <= t -> continuous g t) ->
  is_RInt (pieces c f g) a b (pieces_int c F G a b).
Proof.
  intros L DF CF DG CG.
  assert (Lo : forall a b, a <= b -> b <= c -> is_RInt (pieces c f g) a b (F b - F a)).
  { intros a' b' L1 L2. apply (is_RInt_ext f).
    - intros x. rewrite Rmin_left, Rmax_right by exact L1. intros [_ H]. unfold pieces. rewrite less_t; [reflexivity|lra].
    - apply is_RInt_prim; [exact L1| |]; intros x Hx; [apply DF|apply CF]; lra. }
  assert (Hi : forall a b, a <= b -> c <= a -> is_RInt (pieces c f g) a b (G b - G a)).
  { intros a' b' L1 L2. apply (is_RInt_ext g).
    - intros x. rewrite Rmin_left, Rmax_right by exact L1. intros [H _]. unfold pieces. rewrite less_f; [reflexivity|lra].
    - apply is_RInt_prim; [exact L1| |]; intros x Hx; [apply DG|apply CG]; lra. }
  unfold pieces_int, greater_equal. destruct (Rle_lt_dec c a) as [H|H].
  - rewrite less_equal_t by exact H. now apply Hi.
  - rewrite less_equal_f by exact H. destruct (Rle_lt_dec b c) as [H'|H'].
    + rewrite less_equal_t by exact H'. now apply Lo.
    + rewrite less_equal_f by exact H'. apply (is_RInt_Chasles (pieces c f g) a c b); [apply Lo|apply Hi]; lra.
Qed.
Lemma continuous_pieces c (f g : R -> R) (x : R) : (forall t, t <= c -> continuous f t) -> (forall t, c <= t -> continuous g t) -> f c = g c -> continuous (pieces c f g) x.
Proof.
  intros CF CG E. destruct (Rtotal_order x c) as [H|[H|H]].
  - apply (continuous_ext_loc (pieces c f g) f x); [|apply CF; lra]. apply (locally_interval _ x m_infty c); cbn; [exact I|exact H|].
    intros y _ Hy. unfold pieces. cbn in Hy. now rewrite less_t.
  - subst x. intros P [e He]. assert (HP : forall y, Rabs (y - g c) < e -> P y).
    { intros y Hy. apply He. unfold pieces. rewrite less_f by lra. exact Hy. }
    assert (Cf := CF c (Rle_refl _)). assert (Cg := CG c (Rle_refl _)).
    destruct (Cf P) as [d1 H1]; [exists e; intros y Hy; apply HP; rewrite <- E; exact Hy|].
    destruct (Cg P) as [d2 H2]; [exists e; intros y Hy; now apply HP|].
    exists (mkposreal (Rmin d1 d2) (Rmin_pos _ _ (cond_pos d1) (cond_pos d2))). intros y Hy. change (Rabs (y - c) < Rmin d1 d2) in Hy.
    assert (M1 := Rmin_l d1 d2). assert (M2 := Rmin_r d1 d2). unfold pieces, less. destruct (Rlt_dec y c).
    + apply H1. change (Rabs (y - c) < d1). lra.
    + apply H2. change (Rabs (y - c) < d2). lra.
  - apply (continuous_ext_loc (pieces c f g) g x); [|apply CG; lra]. apply (locally_interval _ x c p_infty); cbn; [exact H|exact I|].
    intros y Hy _. unfold pieces. cbn in Hy. rewrite less_f; [reflexivity|lra].
Qed.

(** Power law tail *)
Lemma is_derive_Rpower (b n t : R) : 0 < b - t -> is_derive (fun t => Rpower (b - t) n) t (- (n * Rpower (b - t) (n - 1))).
Proof.
  intros H. unfold Rpower at 1. auto_derive; [exact H|]. replace (b + - t) with (b - t) by ring.
  unfold Rpower. replace ((n - 1) * ln (b - t)) with (n * ln (b - t) + - ln (b - t)) by ring. rewrite exp_plus, exp_Ropp, exp_ln by exact H. field. lra.
Qed.
Definition tail_prim (a b n t : R) : R := a / (1 - n) * - (1 / Rpower (b - t) (n - 1)).
Definition tail_log (a b t : R) : R := a * - ln (b - t).
Definition tail (a b n t : R) : R := powerlaw (b - t) a (- n).
Lemma is_derive_tail a b n t : n <> 1 -> 0 < b - t -> is_derive (tail_prim a b n) t (tail a b n t).
Proof.
  intros Hn H. unfold tail, powerlaw. apply (is_derive_ext (fun t => - (a / (1 - n)) * Rpower (b - t) (1 - n))).
  - intros s. change (- (a / (1 - n)) * Rpower (b - s) (1 - n) = a / (1 - n) * - (1 / Rpower (b - s) (n - 1))).
    replace (Rpower (b - s) (1 - n)) with (/ Rpower (b - s) (n - 1)) by (rewrite <- Rpower_Ropp; f_equal; ring). unfold Rdiv. ring.
  - replace (a * Rpower (b - t) (- n)) with (- (a / (1 - n)) * - ((1 - n) * Rpower (b - t) (1 - n - 1))).
    + apply is_derive_scal. now apply is_derive_Rpower.
    + replace (1 - n - 1) with (- n) by ring. field. lra.
Qed.
Lemma is_derive_tail_log a b t : 0 < b - t -> is_derive (tail_log a b) t (tail a b 1 t).
Proof.
  intros H. unfold tail, powerlaw. replace (Rpower (b - t) (- (1))) with (/ (b - t)) by (now rewrite Rpower_Ropp, Rpower_1).
  unfold tail_log. auto_derive; [exact H|]. field. lra.
Qed.
Lemma continuous_tail a b n t : 0 < b - t -> continuous (tail a b n) t.
Proof.
  intros H. apply (ex_derive_continuous (tail a b n)). exists (a * - (- n * Rpower (b - t) (- n - 1))). apply is_derive_scal. now apply is_derive_Rpower.
Qed.

(** From the standard variable to x *)
Lemma is_RInt_standard (g : R -> R) (mu sigma l u I : R) : 0 < sigma -> is_RInt g ((l - mu) / sigma) ((u - mu) / sigma) I ->
  is_RInt (fun x => g ((x - mu) / sigma)) l u (sigma * I).
Proof.
  intros Hs H. replace ((l - mu) / sigma) with (/ sigma * l + - mu / sigma) in H by (field; lra). replace ((u - mu) / sigma) with (/ sigma * u + - mu / sigma) in H by (field; lra).
  apply (is_RInt_comp_lin g (/ sigma) (- mu / sigma)) in H. apply (is_RInt_scal _ l u sigma) in H.
  eapply is_RInt_ext; [|exact H]. intros x _. cbn. unfold scal; cbn; unfold mult; cbn. replace (/ sigma * x + - mu / sigma) with ((x - mu) / sigma) by (field; lra). field. lra.
Qed.
Lemma is_RInt_mirror (g : R -> R) (mu sigma l u I : R) : 0 < sigma -> is_RInt g (- ((u - mu) / sigma)) (- ((l - mu) / sigma)) I ->
  is_RInt (fun x => g (- ((x - mu) / sigma))) l u (sigma * I).
Proof.
  intros Hs H. replace (- ((l - mu) / sigma)) with (- / sigma * l + mu / sigma) in H by (field; lra). replace (- ((u - mu) / sigma)) with (- / sigma * u + mu / sigma) in H by (field; lra).
  apply is_RInt_swap in H. apply (is_RInt_comp_lin g (- / sigma) (mu / sigma)) in H. apply (is_RInt_scal _ l u (- sigma)) in H.
  replace (sigma * I) with (scal (- sigma) (opp I)) by (unfold scal, opp; cbn; unfold mult; cbn; ring).
  eapply is_RInt_ext; [|exact H]. intros x _. cbn. unfold scal; cbn; unfold mult; cbn. replace (- / sigma * x + mu / sigma) with (- ((x - mu) / sigma)) by (field; lra). field. lra.
Qed.
