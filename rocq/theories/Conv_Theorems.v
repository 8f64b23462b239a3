(** C74: the numerical convolution of two PDFs. *)
From Verif Require Import Base BaseLemmas AccRej_Model AccRej_Spec AccRej_Proofs AccRej_Proofs2 Conv_Model Conv_Spec Conv_Proofs Conv_Proofs2 Conv_Proofs3 Conv_Proofs4 Conv_Proofs5.
From Coq Require Import Ascii Lqa Qround Permutation.
#[local] Open Scope nat_scope.

(** ** The constructor *)

(** A convolution is made exactly if there is one observable, func and kernel have equally many, the limits of each (those given, else those of
    the PDF) are one interval, the interpolation is understood, and the kernel is not wider than the func. It uses these limits and this
    interpolation, and an odd number of points for the kernel: those asked for (51 by default), or one more. *)
Theorem C74_made int nobs nof nok ownf ownk n glf glk ip :
  (exists c, conv_init int nobs nof nok ownf ownk n glf glk ip = Ok c) <->
  exists lf lk i, nobs <= 1 /\ nof = nok /\ parse_interpolation int ip = Ok i /\
    match glf with Some l => l | None => ownf end = [lf] /\ match glk with Some l => l | None => ownk end = [lk] /\
    (width lk <= width lf)%Q.
Proof.
  unfold conv_init, one_interval. split.
  - intros [c E]. destruct (Nat.ltb_spec 1 nobs); [discriminate|].
    destruct (parse_interpolation int ip) as [i|] eqn:EI; cbn [bind] in E; [|discriminate].
    destruct (match glf with Some l => l | None => ownf end) as [|lf [|]] eqn:EF; cbn [bind] in E; try discriminate.
    destruct (match glk with Some l => l | None => ownk end) as [|lk [|]] eqn:EK; cbn [bind] in E; try discriminate.
    destruct (Nat.eqb_spec nof nok) as [EN|]; cbn [negb] in E; [|discriminate].
    destruct (Qlt_bool (snd lf - fst lf) (snd lk - fst lk)) eqn:EW; [discriminate|]. apply qlt_f in EW.
    exists lf, lk, i. repeat split; auto; lia.
  - intros (lf & lk & i & N & EN & EI & EF & EK & W). destruct (Nat.ltb_spec 1 nobs); [lia|]. rewrite EI. cbn [bind]. rewrite EF, EK. cbn [bind].
    rewrite EN, Nat.eqb_refl. cbn [negb]. unfold width in W. rewrite (proj2 (qlt_f _ _)) by exact W. eauto.
Qed.
Theorem C74_settings int nobs nof nok ownf ownk n glf glk ip c : conv_init int nobs nof nok ownf ownk n glf glk ip = Ok c ->
  match glf with Some l => l | None => ownf end = [c_limits_func c] /\ match glk with Some l => l | None => ownk end = [c_kernel c] /\
  parse_interpolation int ip = Ok (c_interp c) /\
  let asked := match n with Some n => n | None => 51%Z end in
  ((0 <= asked)%Z -> Nat.odd (c_nk c) = true /\ (Z.of_nat (c_nk c) = asked \/ Z.even asked = true /\ Z.of_nat (c_nk c) = (asked + 1)%Z)).
Proof.
  unfold conv_init, one_interval. intros E. destruct (Nat.ltb_spec 1 nobs); [discriminate|].
  destruct (parse_interpolation int ip) as [i|] eqn:EI; cbn [bind] in E; [|discriminate].
  destruct (match glf with Some l => l | None => ownf end) as [|lf [|]] eqn:EF; cbn [bind] in E; try discriminate.
  destruct (match glk with Some l => l | None => ownk end) as [|lk [|]] eqn:EK; cbn [bind] in E; try discriminate.
  destruct (Nat.eqb_spec nof nok) as [EN|]; cbn [negb] in E; [|discriminate].
  destruct (Qlt_bool (snd lf - fst lf) (snd lk - fst lk)) eqn:EW; [discriminate|]. injection E as <-. cbn [c_limits_func c_kernel c_interp c_nk].
  repeat (split; [reflexivity|]). cbv zeta. unfold points. set (a := match n with Some n => n | None => 51%Z end). intros A.
  assert (OD : forall k, Nat.odd k = negb (Z.even (Z.of_nat k))).
  { intros k. destruct (Nat.odd k) eqn:H0.
    - apply Nat.odd_spec in H0. destruct H0 as [m ->]. symmetry. apply negb_true_iff. apply not_true_iff_false. intros C. apply Z.even_spec in C. destruct C as [q C]. lia.
    - unfold Nat.odd in H0. apply negb_false_iff in H0. apply Nat.even_spec in H0. destruct H0 as [m ->]. symmetry. apply negb_false_iff. apply Z.even_spec. exists (Z.of_nat m). lia. }
  destruct (Z.even a) eqn:EV.
  - rewrite OD, Z2Nat.id by lia. split; [|right; split; [reflexivity|lia]]. rewrite Z.add_1_r, Z.even_succ, <- Z.negb_even, EV. reflexivity.
  - rewrite OD, Z2Nat.id by lia. rewrite EV. split; [reflexivity|left; reflexivity].
Qed.
(** Each reason has its exception, checked in this order. *)
Theorem C74_refused int nobs nof nok ownf ownk n glf glk ip :
  let lf := match glf with Some l => l | None => ownf end in let lk := match glk with Some l => l | None => ownk end in
  let init := conv_init int nobs nof nok ownf ownk n glf glk ip in
  (1 < nobs -> init = Err WorkInProgressError) /\
  (nobs <= 1 -> forall e, parse_interpolation int ip = Err e -> init = Err ValueError) /\
  (nobs <= 1 -> forall i, parse_interpolation int ip = Ok i ->
    (lf = [] -> init = Err LimitsNotSpecifiedError) /\
    (2 <= length lf -> init = Err WorkInProgressError) /\
    (length lf = 1 -> lk = [] -> init = Err LimitsNotSpecifiedError) /\
    (length lf = 1 -> 2 <= length lk -> init = Err WorkInProgressError) /\
    (forall f k, lf = [f] -> lk = [k] -> nof <> nok -> init = Err ShapeIncompatibleError) /\
    (forall f k, lf = [f] -> lk = [k] -> nof = nok -> (width f < width k)%Q -> init = Err WorkInProgressError)).
Proof.
  cbv zeta. unfold conv_init, one_interval. set (lf := match glf with Some l => l | None => ownf end). set (lk := match glk with Some l => l | None => ownk end).
  clearbody lf lk. split; [|split].
  - intros H. destruct (Nat.ltb_spec 1 nobs); [reflexivity|lia].
  - intros H e E. destruct (Nat.ltb_spec 1 nobs); [lia|]. rewrite E. cbn [bind]. f_equal.
    unfold parse_interpolation, named in E. destruct (split_colon _) as [|a [|b [|]]]; try congruence.
    + destruct (String.eqb _ _); [discriminate|]. destruct (String.eqb _ _); congruence.
    + destruct (int b); [|congruence]. destruct (String.eqb _ _); [discriminate|]. destruct (String.eqb _ _); congruence.
  - intros H i E. destruct (Nat.ltb_spec 1 nobs); [lia|]. rewrite E. cbn [bind]. repeat split.
    + intros ->. reflexivity.
    + destruct lf as [|? [|]]; cbn; intros; try lia. reflexivity.
    + destruct lf as [|? [|]]; cbn; intros L ->; try lia. reflexivity.
    + destruct lf as [|? [|]]; cbn; intros L; try lia. destruct lk as [|? [|]]; cbn; intros; try lia. reflexivity.
    + intros f k -> -> N. cbn [bind]. destruct (Nat.eqb_spec nof nok); [contradiction|reflexivity].
    + intros f k -> -> -> W. cbn [bind]. rewrite Nat.eqb_refl. cbn [negb]. unfold width in W. rewrite (proj2 (qlt_t _ _) W). reflexivity.
Qed.
(** Linear is the default; "spline" has the order 3 unless one is given after a colon; nothing else is understood. *)
Lemma split_colon_none s : (forall a b, s <> (a ++ ":" ++ b)%string) -> split_colon s = [s].
Proof.
  induction s as [|c s IH]; intros H; [reflexivity|]. cbn [split_colon]. rewrite IH.
  2:{ intros a b E. apply (H (String c a) b). rewrite E. reflexivity. }
  destruct (Ascii.eqb c ":"%char) eqn:E; [|reflexivity]. apply Ascii.eqb_eq in E. subst c. destruct (H ""%string s). reflexivity.
Qed.
Lemma split_colon_one a b : (forall x y, a <> (x ++ ":" ++ y)%string) -> (forall x y, b <> (x ++ ":" ++ y)%string) ->
  split_colon (a ++ ":" ++ b) = [a; b].
Proof.
  intros HA HB. induction a as [|c a IH].
  - cbn [append]. cbn [split_colon]. rewrite split_colon_none by exact HB. reflexivity.
  - cbn [append]. cbn [split_colon].
    change (split_colon (a ++ String ":"%char b)) with (split_colon (a ++ ":" ++ b)). rewrite IH.
    2:{ intros x y E. apply (HA (String c x) y). rewrite E. reflexivity. }
    destruct (Ascii.eqb c ":"%char) eqn:E; [|reflexivity]. apply Ascii.eqb_eq in E. subst c. destruct (HA ""%string a). reflexivity.
Qed.
Theorem C74_interpolation int :
  parse_interpolation int None = Ok Linear /\ parse_interpolation int (Some "linear"%string) = Ok Linear /\
  parse_interpolation int (Some "spline"%string) = Ok (Spline 3) /\
  (forall order, (forall a b, order <> (a ++ ":" ++ b)%string) ->
     parse_interpolation int (Some ("spline:" ++ order)%string) = match int order with Some k => Ok (Spline k) | None => Err ValueError end) /\
  (forall s, (forall a b, s <> (a ++ ":" ++ b)%string) -> s <> "linear"%string -> s <> "spline"%string -> parse_interpolation int (Some s) = Err ValueError).
Proof.
  split; [reflexivity|]. split; [reflexivity|]. split; [reflexivity|]. split.
  - intros order H. unfold parse_interpolation. change ("spline:" ++ order)%string with ("spline" ++ ":" ++ order)%string.
    rewrite split_colon_one; [|intros x y E|exact H].
    + destruct (int order); reflexivity.
    + do 6 (destruct x as [|? x]; cbn [append] in E; [discriminate E|injection E as ? E]). destruct x; discriminate E.
  - intros s H N1 N2. unfold parse_interpolation, named. rewrite split_colon_none by exact H.
    destruct (String.eqb_spec s "spline"); [contradiction|]. destruct (String.eqb_spec s "linear"); [contradiction|]. reflexivity.
Qed.
Example C74_interpolation_ex : parse_interpolation (fun s => if String.eqb s "5" then Some 5%Z else None) (Some "spline:5"%string) = Ok (Spline 5).
Proof. reflexivity. Qed.

(** ** The grid *)

(** The grid of the func has bins of the width of those of the kernel; it is as wide as the func and the kernel together, and by less than one
    bin wider; its centre is the sum of the two centres. There are at least twice as many points as for the kernel. *)
Theorem C74_grid lf lk n c : built lf lk n c ->
  c_kernel c = lk /\ c_limits_func c = lf /\ 2 * c_nk c <= c_nf c /\
  let bin := (width lk / qn (c_nk c))%Q in
  (width (c_func c) == qn (c_nf c) * bin)%Q /\ (width lf + width lk <= width (c_func c) < width lf + width lk + bin)%Q /\
  (centre (c_func c) == centre lf + centre lk)%Q.
Proof.
  intros B. destruct (built_facts _ _ _ _ B) as (_ & _ & A & _ & K & F & _). destruct (built_grid _ _ _ _ B) as (G1 & G2 & G3). cbv zeta. auto 8.
Qed.

(** ** The values *)

(** On the positions, the values are the discrete convolution of the func, on its grid and zero outside of it, with the kernel, whose points
    are squeezed towards the centre of its limits by the ratio of the two spacings. *)
Theorem C74_values lf lk n c func kernel : built lf lk n c -> respects func -> respects kernel ->
  length (conv_values func kernel c) = c_nf c /\ length (conv_positions c) = c_nf c /\
  forall i, i < c_nf c -> (nth i (conv_positions c) 0 == position c i)%Q /\
    (nth i (conv_values func kernel c) 0 == convolved (squeezed c) c func kernel (position c i))%Q.
Proof.
  intros B FR KR. destruct (built_facts _ _ _ _ B) as (O & N3 & NF & N6 & EK & _ & W & _).
  split; [apply values_length|]. split; [unfold conv_positions; rewrite map_length, linspace_length; reflexivity|]. intros i Hi.
  split; [apply positions_nth; exact Hi|]. apply values_convolved; auto; try lia; [rewrite EK; exact W|eapply func_width_pos; eauto].
Qed.
(** The squeezing is by a factor below one that depends on the numbers of points only. *)
Theorem C74_squeeze lf lk n c : built lf lk n c ->
  (squeeze c == qn (c_nf c) * (qn (c_nk c) - 1) / ((qn (c_nf c) - 1) * qn (c_nk c)))%Q /\ (0 < squeeze c < 1)%Q.
Proof. apply squeeze_value. Qed.

(** For a func that is zero near the ends of its grid: the values are the law of the sum of two independent draws from the grids, one with the
    weights of the func and one with those of the kernel, the latter squeezed. *)
Theorem C74_law_of_sum_partial lf lk n c func kernel g : built lf lk n c -> respects func -> respects kernel -> respects g -> margin c func ->
  (total (c_nf c) (fun i => nth i (conv_values func kernel c) 0 * g (position c i)) ==
   total (c_nf c) (fun m => total (c_nk c) (fun j =>
     let y := node (c_func c) (c_nf c) m in let t := node (c_kernel c) (c_nk c) j in func y * kernel t * g (y + squeezed c t))))%Q.
Proof. intros B FR KR GR M. eapply law; eauto. Qed.

(** So the masses multiply, the means add (that of the kernel squeezed), and the variance is that of the func and, times the square of the
    factor, that of the kernel. *)
Theorem C74_smearing_partial lf lk n c func kernel : built lf lk n c -> respects func -> respects kernel -> margin c func ->
  let values := fun i => nth i (conv_values func kernel c) 0%Q in
  let f := on_grid (c_func c) (c_nf c) func in let x := node (c_func c) (c_nf c) in
  let k := on_grid (c_kernel c) (c_nk c) kernel in let t := node (c_kernel c) (c_nk c) in
  (mass (c_nf c) values == mass (c_nf c) f * mass (c_nk c) k)%Q /\
  (~ (mass (c_nf c) f == 0)%Q -> ~ (mass (c_nk c) k == 0)%Q ->
   (mean (c_nf c) values (position c) == mean (c_nf c) f x + squeezed c (mean (c_nk c) k t))%Q /\
   (variance (c_nf c) values (position c) == variance (c_nf c) f x + squeeze c * squeeze c * variance (c_nk c) k t)%Q).
Proof.
  intros B FR KR M. cbv zeta. split; [eapply mass_sum; eauto|]. intros MF MK. split.
  - rewrite (mean_sum _ _ _ _ _ _ B FR KR M MF MK). rewrite (squeezed_mean _ _ MK). reflexivity.
  - rewrite (variance_sum _ _ _ _ _ _ B FR KR M MF MK). rewrite (squeezed_variance _ _ MK). reflexivity.
Qed.

(** ** The interpolation *)

(** Between two positions the density is on the line through the two values, so it has the value at each position; outside of the positions it
    is the first or the last value. *)
Theorem C74_linear_interpolation lf lk n c func kernel x : built lf lk n c ->
  let v := fun i => nth i (conv_values func kernel c) 0%Q in let p := position c in
  (forall i, S i < c_nf c -> (p i <= x <= p (S i))%Q -> (conv_pdf func kernel c x == v i + (x - p i) / (p (S i) - p i) * (v (S i) - v i))%Q) /\
  (forall i, i < c_nf c -> (x == p i)%Q -> (conv_pdf func kernel c x == v i)%Q) /\
  ((x <= p 0%nat)%Q -> (conv_pdf func kernel c x == v 0%nat)%Q) /\
  ((p (c_nf c - 1)%nat <= x)%Q -> (conv_pdf func kernel c x == v (c_nf c - 1)%nat)%Q).
Proof.
  intros B. cbv zeta. destruct (built_facts _ _ _ _ B) as (O & N3 & NF & N6 & _).
  assert (H1 : forall i, S i < c_nf c -> (position c i <= x <= position c (S i))%Q -> (conv_pdf func kernel c x == nth i (conv_values func kernel c) 0 + (x - position c i) / (position c (S i) - position c i) * (nth (S i) (conv_values func kernel c) 0 - nth i (conv_values func kernel c) 0))%Q).
  { intros i Hi HX. apply (pdf_between _ _ _ _ B func kernel i x Hi HX). }
  split; [exact H1|]. destruct (pdf_outside _ _ _ _ B func kernel x) as [H2 H3]. split; [|auto].
  intros i Hi E. destruct i as [|i]; [apply H2; rewrite E; apply Qle_refl|].
  assert (P := position_step _ _ _ _ B i). rewrite (H1 i Hi) by (rewrite E; split; lra). rewrite E. field. lra.
Qed.
(** The density is not negative if func and kernel are not; it is linear in the func. *)
Theorem C74_not_negative lf lk n c func kernel x : built lf lk n c -> respects func -> respects kernel ->
  (forall y, within (c_func c) y -> (0 <= func y)%Q) -> (forall t, within lk t -> (0 <= kernel t)%Q) -> (0 <= conv_pdf func kernel c x)%Q.
Proof.
  intros B FR KR FP KP. destruct (pdf_pointwise _ _ _ _ B x) as (i & j & t & Hi & Hj & Ht & E). rewrite E. cbv zeta.
  assert (A := values_nonneg _ _ _ _ B func kernel i FR KR FP KP Hi). assert (A' := values_nonneg _ _ _ _ B func kernel j FR KR FP KP Hj). nra.
Qed.
Theorem C74_linear_in_func lf lk n c f1 f2 kernel a b x : built lf lk n c -> respects f1 -> respects f2 -> respects kernel ->
  (conv_pdf (fun y => a * f1 y + b * f2 y) kernel c x == a * conv_pdf f1 kernel c x + b * conv_pdf f2 kernel c x)%Q.
Proof.
  intros B R1 R2 KR. destruct (pdf_pointwise _ _ _ _ B x) as (i & j & t & Hi & Hj & Ht & E). rewrite !E. cbv zeta.
  rewrite (values_linear _ _ _ _ B a b f1 f2 kernel i R1 R2 KR Hi), (values_linear _ _ _ _ B a b f1 f2 kernel j R1 R2 KR Hj). ring.
Qed.

(** ** What is covered *)

Lemma centre_half l : (centre l == (1 # 2) * (fst l + snd l))%Q.
Proof. unfold centre. field. Qed.
(** For a kernel with limits symmetric around zero, all that the convolution in the limits of the func needs is on the grid, and no point of
    these limits is extrapolated. *)
Theorem C74_covered_partial lf lk n c : built lf lk n c -> (fst lk + snd lk == 0)%Q -> forall x, within lf x ->
  (forall t, within lk t -> within (c_func c) (x - t)) /\ (position c 0 <= x <= position c (c_nf c - 1))%Q.
Proof.
  intros B SY x [X1 X2]. destruct (built_facts _ _ _ _ B) as (O & N3 & NF & N6 & EK & _ & W & V). destruct (built_grid _ _ _ _ B) as (G1 & G2 & G3 & G4).
  destruct (position_ends _ _ _ _ B) as [P1 P2]. rewrite !centre_half in *. unfold width in *.
  assert (L : (fst (c_func c) <= fst lf + fst lk)%Q) by lra. assert (U : (snd lf + snd lk <= snd (c_func c))%Q) by lra.
  split.
  - intros t [T1 T2]. split; lra.
  - rewrite P1, P2. split; lra.
Qed.
(** For a kernel with limits above zero it is not: the density is constant over a part of the limits of the func. *)
Theorem C74_one_sided_constant lf lk n c func kernel : built lf lk n c -> (0 <= fst lk)%Q -> forall x, (fst lf <= x <= fst lf + (2 # 3) * centre lk)%Q ->
  (conv_pdf func kernel c x == conv_pdf func kernel c (fst lf))%Q.
Proof.
  intros B P x [X1 X2]. destruct (built_facts _ _ _ _ B) as (O & N3 & NF & N6 & EK & _ & W & V). destruct (built_grid _ _ _ _ B) as (G1 & G2 & G3 & G4).
  destruct (position_ends _ _ _ _ B) as [P1 P2].
  assert (A := proj1 (qn_le 3 (c_nk c)) N3). change (qn 3) with 3%Q in A.
  assert (BW : (width lk / qn (c_nk c) <= width lk / 3)%Q).
  { apply Qle_shift_div_r; [lra|]. assert (E : (width lk / 3 * qn (c_nk c) == width lk * (qn (c_nk c) / 3))%Q) by field. rewrite E.
    assert (1 <= qn (c_nk c) / 3)%Q by (apply Qle_shift_div_l; lra). nra. }
  assert (T : (width lk / 3 == (1 # 3) * width lk)%Q) by field.
  assert (LO : (fst lf + (2 # 3) * centre lk <= position c 0)%Q).
  { rewrite P1. rewrite !centre_half in *. unfold width in *. lra. }
  assert (CP : (0 <= centre lk)%Q) by (rewrite !centre_half in *; unfold width in *; lra).
  rewrite (proj1 (pdf_outside _ _ _ _ B func kernel x)) by lra. rewrite (proj1 (pdf_outside _ _ _ _ B func kernel (fst lf))) by lra. reflexivity.
Qed.

(** ** Examples, and what fails *)
Definition ex_int (s : string) : option Z := None.
Definition made (lf lk : Q * Q) (n : Z) : result conv := conv_init ex_int 1 1 1 [] [] (Some n) (Some [lf]) (Some [lk]) None.
Definition spike (a : Q) (x : Q) : Q := if Qeq_bool x a then 1%Q else 0%Q.
Lemma spike_respects a : respects (spike a).
Proof. intros x y E. unfold spike. assert (A : Qeq_bool x a = Qeq_bool y a) by (apply eq_true_iff_eq; rewrite !Qeq_bool_iff, E; tauto). rewrite A. reflexivity. Qed.
Definition ex_conv : conv := match made (0, 2)%Q (-(1), 1)%Q 2 with Ok c => c | Err _ => Conv (0,0)%Q (0,0)%Q 0 0 Linear (0,0)%Q end.
Example C74_built_ex : built (0, 2)%Q (-(1), 1)%Q 2 ex_conv /\ c_nk ex_conv = 3 /\ c_nf ex_conv = 6.
Proof.
  split; [|split; reflexivity]. split; [reflexivity|]. split; [discriminate|]. split; [lia|].
  exists ex_int, [], [], None. vm_compute. reflexivity.
Qed.
Example C74_margin_ex : margin ex_conv (spike (3 # 5)) /\ ~ (mass (c_nf ex_conv) (on_grid (c_func ex_conv) (c_nf ex_conv) (spike (3 # 5))) == 0)%Q.
Proof.
  split; [|vm_compute; discriminate]. intros m Hm H. change (c_nf ex_conv) with 6 in *. change (c_nk ex_conv) with 3 in *.
  destruct m as [|[|[|[|[|[|]]]]]]; try lia; vm_compute; reflexivity.
Qed.
Example C74_one_sided_ex : exists c, built (-(10), 10)%Q (1, 3)%Q 4 c /\ c_nk c = 5 /\ c_nf c = 55.
Proof.
  eexists. split; [|split]; [split; [reflexivity|]; split; [discriminate|]; split; [lia|]; exists ex_int, [], [], None; vm_compute; reflexivity|reflexivity|reflexivity].
Qed.

(** The values are not the convolution with the kernel itself: its points are squeezed. A kernel that moves everything by 1 moves a peak by 4/5,
    and the variances do not add up. *)
Theorem C74_convolution_refuted : exists lf lk n c func kernel i, built lf lk n c /\ (fst lk + snd lk == 0)%Q /\ respects func /\ respects kernel /\ i < c_nf c /\
  ~ (nth i (conv_values func kernel c) 0 == convolved (fun t => t) c func kernel (position c i))%Q.
Proof.
  exists (0, 2)%Q, (-(1), 1)%Q, 2, ex_conv, (spike (3 # 5)), (spike 1), 3. split; [apply C74_built_ex|]. split; [reflexivity|].
  split; [apply spike_respects|]. split; [apply spike_respects|]. split; [vm_compute; lia|]. vm_compute. discriminate.
Qed.
(** The variance of the density is not the sum of the variances. *)
Theorem C74_smearing_refuted : exists lf lk n c func kernel, built lf lk n c /\ (fst lk + snd lk == 0)%Q /\ respects func /\ respects kernel /\ margin c func /\
  (variance (c_nf c) (fun i => nth i (conv_values func kernel c) 0%Q) (position c) <
   variance (c_nf c) (on_grid (c_func c) (c_nf c) func) (node (c_func c) (c_nf c)) +
   variance (c_nk c) (on_grid (c_kernel c) (c_nk c) kernel) (node (c_kernel c) (c_nk c)))%Q.
Proof.
  exists (0, 2)%Q, (-(1), 1)%Q, 2, ex_conv, (spike (3 # 5)), (fun _ => 1%Q). split; [apply C74_built_ex|]. split; [reflexivity|].
  split; [apply spike_respects|]. split; [intros x y _; reflexivity|]. split; [apply C74_margin_ex|]. vm_compute. reflexivity.
Qed.
(** With a kernel that is not symmetric around zero, the grid lacks what is needed inside of the limits of the func: a flat func, smeared by a
    flat kernel, is not flat there. *)
Theorem C74_covered_refuted : exists lf lk n c x y, built lf lk n c /\ within lf x /\ within lf y /\ (x < y)%Q /\
  (exists t, within lk t /\ ~ within (c_func c) (x - t)) /\
  ~ (conv_pdf (fun _ => 1%Q) (fun _ => 1%Q) c x == conv_pdf (fun _ => 1%Q) (fun _ => 1%Q) c y)%Q.
Proof.
  set (c0 := match made (-(10), 10)%Q (1, 3)%Q 2 with Ok c => c | Err _ => ex_conv end).
  exists (-(10), 10)%Q, (1, 3)%Q, 2, c0, (-(10))%Q, 5%Q.
  split. { split; [reflexivity|]. split; [discriminate|]. split; [lia|]. exists ex_int, [], [], None. vm_compute. reflexivity. }
  split; [split; discriminate|]. split; [split; discriminate|]. split; [reflexivity|]. split.
  - exists 3%Q. split; [split; discriminate|]. intros [H _]. apply H. vm_compute. reflexivity.
  - vm_compute. discriminate.
Qed.
(** The documentation promises 100 points by default. *)
Theorem C74_default_points_refuted : exists c, conv_init ex_int 1 1 1 [(0, 2)%Q] [(-(1), 1)%Q] None None None None = Ok c /\ c_nk c <> 100 /\ c_nk c <> 101.
Proof. eexists. split; [vm_compute; reflexivity|]. cbn. split; discriminate. Qed.

(** ** Sampling *)

(** Whatever the random numbers: sampling does not fail, and if it ends there are n events; these are, in order and none left out, the first of
    the events of the func, each moved by an event of the kernel, that lie in the limits. The func is sampled in the limits, moved at each end by
    the end of the space of the kernel. *)
Theorem C74_sample draw_func draw_kernel shuffle own lk lim n checks binomial :
  draws_inside draw_func -> draws_inside draw_kernel -> (forall it l, Permutation l (shuffle it l)) -> (forall it k q, binomial it k q <= k) ->
  forall fuel, exists r, conv_sample draw_func draw_kernel shuffle own lk lim n checks binomial fuel = Ok r /\
  forall res, r = Some res -> length res = n /\
    exists asked, res = map (fun x => Some [x])
      (firstn n (in_turn 0 (smeared draw_func draw_kernel shuffle (fst lim + fst own, snd lim + snd own)%Q lk lim) asked)).
Proof. intros DF DK SH BN fuel. exact (conv_sample_rows _ _ _ own lk lim n checks binomial DF BN fuel). Qed.
Theorem C74_sample_inside draw_func draw_kernel shuffle own lk lim n checks binomial :
  (fst own <= snd own)%Q -> (fst lk <= snd lk)%Q -> draws_inside draw_func -> draws_inside draw_kernel -> (forall it l, Permutation l (shuffle it l)) -> (forall it k q, binomial it k q <= k) ->
  forall fuel res, conv_sample draw_func draw_kernel shuffle own lk lim n checks binomial fuel = Ok (Some res) ->
  Forall (fun row => exists x y t, row = Some [x] /\ within lim x /\ (x == y + t)%Q /\ within lk t /\
                       (fst lim + fst own <= y <= snd lim + snd own)%Q) res.
Proof.
  intros P1 P2 DF DK SH BN fuel res E. destruct (C74_sample draw_func draw_kernel shuffle own lk lim n checks binomial DF DK SH BN fuel) as (r & E' & H).
  rewrite E in E'. injection E' as <-. destruct (H res eq_refl) as (_ & asked & ->). apply Forall_forall. intros row HR.
  apply in_map_iff in HR. destruct HR as (x & <- & HX). assert (HX' : In x (in_turn 0 (smeared draw_func draw_kernel shuffle (fst lim + fst own, snd lim + snd own)%Q lk lim) asked)).
  { rewrite <- (firstn_skipn n). apply in_app_iff. left. exact HX. }
  apply in_turn_In in HX'. destruct HX' as (k & m & HI). destruct (events_In draw_func draw_kernel shuffle own lk lim DF DK SH k m x P1 P2 HI) as (I & y & t & E1 & Y & T).
  exists x, y, t. auto 6.
Qed.
(** For a kernel whose space, and limits, are symmetric around zero and the same, every event of the func that can be moved into the limits is
    in the range where the func is sampled. *)
Theorem C74_sample_range_partial lk lim y t : (fst lk + snd lk == 0)%Q -> within lk t -> within lim (y + t) -> within (extended_limits lk lim) y.
Proof. intros S [T1 T2] [X1 X2]. unfold extended_limits, within in *. cbn [fst snd]. lra. Qed.
(** Otherwise it is not: for a kernel with limits above zero no event is ever in the lower part of the limits, although func and kernel can
    add up to a point there. *)
Theorem C74_sample_range_refuted : exists lk lim x y t, within lk t /\ within lim x /\ (x == y + t)%Q /\
  forall draw_func draw_kernel shuffle n checks binomial,
  draws_inside draw_func -> draws_inside draw_kernel -> (forall it l, Permutation l (shuffle it l)) -> (forall it k q, binomial it k q <= k) ->
  forall fuel res, conv_sample draw_func draw_kernel shuffle lk lk lim n checks binomial fuel = Ok (Some res) ->
  Forall (fun row => exists v, row = Some [v] /\ (x < v)%Q) res.
Proof.
  exists (1, 3)%Q, (0, 10)%Q, (1 # 2)%Q, (-(1 # 2))%Q, 1%Q. split; [split; discriminate|]. split; [split; discriminate|]. split; [reflexivity|].
  intros df dk sh n ch bi DF DK SH BN fuel res E. assert (P : (fst (1, 3) <= snd (1, 3))%Q) by discriminate.
  assert (F := C74_sample_inside _ _ _ _ _ _ _ _ _ P P DF DK SH BN fuel res E).
  eapply Forall_impl; [|exact F]. intros row (v & y & t & -> & _ & EV & [T _] & [Y _]). exists v. split; [reflexivity|]. cbn [fst snd] in *. lra.
Qed.
(** Limits of the kernel that are wider than its space are used for its sample, but not for the range of the func. *)
Theorem C74_sample_limits_kernel_refuted : exists own lk lim y t, (fst own + snd own == 0)%Q /\ (fst lk + snd lk == 0)%Q /\ within lk t /\ within lim (y + t) /\
  ~ within (extended_limits own lim) y.
Proof.
  exists (-(1), 1)%Q, (-(3), 3)%Q, (0, 10)%Q, (-(2))%Q, 3%Q. split; [reflexivity|]. split; [reflexivity|]. split; [split; discriminate|]. split; [split; discriminate|].
  intros [H _]. apply H. reflexivity.
Qed.
Definition ex_draw (it : nat) (l : Q * Q) (m : Z) : list Q := repeat ((fst l + snd l) / 2)%Q (Z.to_nat m).
Example C74_sample_ex : draws_inside ex_draw /\
  exists res, conv_sample ex_draw ex_draw (fun _ l => l) (-(1), 1)%Q (-(1), 1)%Q (0, 10)%Q 3 true (fun _ k _ => k) 5 = Ok (Some res) /\ length res = 3.
Proof.
  split.
  - intros it l m. unfold ex_draw. rewrite repeat_length. split; [reflexivity|]. intros H. apply Forall_forall. intros x HX. apply repeat_spec in HX. subst x.
    split; [apply Qle_shift_div_l|apply Qle_shift_div_r]; lra.
  - eexists. split; [vm_compute; reflexivity|reflexivity].
Qed.

Print Assumptions C74_made.
Print Assumptions C74_smearing_partial.
Print Assumptions C74_linear_interpolation.
Print Assumptions C74_one_sided_constant.
Print Assumptions C74_sample.
Print Assumptions C74_sample_range_refuted.
