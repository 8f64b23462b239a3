(** Proofs for Kde_Theorems.v: the estimate with a convolution, the bandwidths. *)
From Verif Require Import Base BaseLemmas Hist_Model Hist_Spec Hist_Proofs Hist_Proofs3 Hist_Proofs5 AccRej_Model Conv_Model Conv_Spec Conv_Proofs Conv_Proofs2 Conv_Proofs3
  Kde_Model Kde_Spec Kde_Proofs Kde_Proofs2 Kde_Proofs3.
From Coq Require Import Qabs Qround Lqa Permutation.
#[local] Open Scope nat_scope.

Lemma reach_facts support h dx n : (0 < dx)%Q -> (0 <= support * h)%Q ->
  let L := kernel_reach support h dx n in
  L <= n /\ (nat_q L * dx <= support * h)%Q /\ (L = n \/ (support * h < nat_q (S L) * dx)%Q).
Proof.
  intros D Sp L. set (q := (support * h / dx)%Q). assert (Q0 : (0 <= q)%Q) by (apply Qle_shift_div_l; [exact D|lra]).
  assert (F0 : (0 <= Qfloor q)%Z) by (rewrite <- (Qfloor_Z 0); apply Qfloor_resp_le; exact Q0).
  assert (F1 := Qfloor_le q). assert (F2 := Qlt_floor q). rewrite inject_Z_plus in F2. change (inject_Z 1) with 1%Q in F2.
  assert (EL : Z.of_nat L = Z.min (Qfloor q) (Z.of_nat n)) by (unfold L, kernel_reach; fold q; lia).
  assert (E : (support * h == q * dx)%Q) by (unfold q; field; lra).
  split; [lia|]. split.
  - rewrite E. apply Qmult_le_compat_r; [|lra]. apply Qle_trans with (inject_Z (Qfloor q)); [|exact F1].
    unfold nat_q. rewrite EL, <- Zle_Qle. lia.
  - destruct (Z_le_gt_dec (Z.of_nat n) (Qfloor q)) as [G|G]; [left; lia|right].
    rewrite E. apply Qmult_lt_r; [exact D|]. unfold nat_q. replace (Z.of_nat (S L)) with (Qfloor q + 1)%Z by lia.
    rewrite inject_Z_plus. change (inject_Z 1) with 1%Q. lra.
Qed.
Lemma reach_comp support h dx dx' n : (dx == dx')%Q -> kernel_reach support h dx n = kernel_reach support h dx' n.
Proof. intros E. unfold kernel_reach. rewrite (Qfloor_comp (support * h / dx) (support * h / dx')); [reflexivity|]. rewrite E. reflexivity. Qed.

Lemma nat_q_S k : (nat_q (S k) == nat_q k + 1)%Q.
Proof. unfold nat_q. rewrite Nat2Z.inj_succ. unfold Z.succ. rewrite inject_Z_plus. reflexivity. Qed.
Lemma points_distance g0 dx m j : (0 < dx)%Q -> (Qabs (grid_point g0 dx m - grid_point g0 dx j) == nat_q (dist_nat m j) * dx)%Q.
Proof.
  intros D. assert (E : (grid_point g0 dx m - grid_point g0 dx j == (nat_q m - nat_q j) * dx)%Q) by (unfold grid_point, nat_q; ring).
  rewrite E, Qabs_Qmult, (Qabs_pos dx) by lra. apply Qmult_comp; [|reflexivity]. unfold dist_nat, nat_q.
  destruct (Nat.le_ge_cases j m) as [C|C].
  - rewrite Qabs_pos by (assert (X := proj1 (nat_q_le j m) C); unfold nat_q in X; lra).
    replace (m - j + (j - m)) with (m - j) by lia. unfold Qminus. rewrite <- inject_Z_opp, <- inject_Z_plus. apply inject_Z_injective. lia.
  - rewrite Qabs_neg by (assert (X := proj1 (nat_q_le m j) C); unfold nat_q in X; lra).
    replace (m - j + (j - m)) with (j - m) by lia. unfold Qminus. rewrite <- inject_Z_opp, <- inject_Z_plus, <- inject_Z_opp. apply inject_Z_injective. lia.
Qed.
Lemma kernel_distance K h x t y : kernel_ok K -> moves_along K -> symmetric_kernel K h -> (Qabs (x - t) == y)%Q -> (K x h t == K 0 h y)%Q.
Proof.
  intros OK M S E. assert (A : (K x h t == K 0 h (t - x))%Q).
  { rewrite <- (M x 0%Q h (t - x)%Q). apply OK; [ring|reflexivity|ring]. }
  rewrite A. destruct (Qlt_le_dec (x - t) 0) as [C|C].
  - rewrite Qabs_neg in E by lra. apply OK; [reflexivity|reflexivity|lra].
  - rewrite Qabs_pos in E by lra. assert (B := S 0%Q 0%Q (t - x)%Q).
    rewrite (OK 0%Q (- 0 + 2 * 0)%Q h h (t - x)%Q (t - x)%Q) by (try reflexivity; ring). rewrite B.
    apply OK; [reflexivity|reflexivity|lra].
Qed.

Section Fft.
Variables (K : dist) (xs : list Q) (weights : option (list Q)) (h support : Q) (num : nat).
Hypothesis OK : kernel_ok K.
Hypothesis Usable : usable xs weights.
Hypothesis Hn : 2 <= Nat.min (length xs) num.
Hypothesis Hrange : (qmin_list xs < qmax_list xs)%Q.
Hypothesis Hs : (0 <= support * h)%Q.
Notation n := (Nat.min (length xs) num).
Notation g0 := (grid_start xs).
Notation dx := (grid_spacing xs n).
Notation evs := (with_weights xs weights).

Lemma fft_values : exists d, fft_grid K xs weights h "linear" num support "conv1d" = Ok d /\ length (f_vals d) = n /\
  (f_lo d == g0)%Q /\ (f_hi d == grid_end xs)%Q /\
  forall j, j < n -> (nth j (f_vals d) 0 ==
    total n (fun m => average (fun x => tri ((x - grid_point g0 dx m) / dx)) evs *
                      (if Nat.leb (dist_nat m j) (kernel_reach support h dx n) then K 0 h (nat_q (dist_nat m j) * dx) else 0)))%Q.
Proof.
  destruct Usable as [W NZ]. unfold fft_grid. destruct (linear_bins xs n Hn Hrange weights W NZ) as [g [E [L [S A]]]].
  rewrite E. cbn [bind]. unfold convolve_1d. cbn [String.eqb Ascii.eqb Bool.eqb bind].
  set (grid := generate_1d_grid xs n). assert (Lg : length grid = n) by (apply grid_len; assumption).
  eexists. split; [reflexivity|]. cbn [f_vals f_lo f_hi].
  set (dx' := ((qmax_list grid - qmin_list grid) / nat_q (length grid - 1))%Q).
  assert (Ed : (dx' == dx)%Q) by (apply (grid_step g0 dx n grid (dx_pos xs n Hn Hrange) Hn (grid_regular xs n Hrange))).
  split; [unfold correlate_same; rewrite map_length, seq_length; exact L|].
  assert (P := fun k Hk => grid_nth_eq xs n Hrange k Hk).
  split; [etransitivity; [apply (P 0); lia|]; unfold grid_point; cbn [Z.of_nat]; change (inject_Z 0) with 0%Q; ring|].
  split.
  - assert (last grid 0%Q = nth (n - 1) grid 0%Q).
    { rewrite <- Lg. destruct grid as [|a l] using rev_ind; [reflexivity|]. rewrite last_last, app_length. cbn [length].
      rewrite app_nth2 by lia. replace (length l + 1 - 1 - length l) with 0 by lia. reflexivity. }
    rewrite H. etransitivity; [apply (P (n - 1)); lia|]. apply grid_point_last; assumption.
  - intros j Hj. rewrite same_values by (try exact OK; lia). rewrite L. apply total_ext. intros m Hm. rewrite (A m Hm).
    rewrite Lg. rewrite (reach_comp support h dx' dx n Ed). destruct (Nat.leb _ _); [|reflexivity].
    rewrite (OK 0%Q 0%Q h h (nat_q (dist_nat m j) * dx')%Q (nat_q (dist_nat m j) * dx)%Q) by (try reflexivity; rewrite Ed; reflexivity). reflexivity.
Qed.

Lemma total_average (c : nat -> Q) (f : nat -> Q -> Q) :
  (total n (fun m => average (f m) evs * c m) == average (fun x => qsum (map (fun k => f k x * c k) (seq 0 n))) evs)%Q.
Proof.
  rewrite total_qsum. unfold average.
  transitivity (qsum (map (fun k => qsum (map (fun e => snd e * (f k (fst e) * c k)) evs)) (seq 0 n)) / weight_of evs)%Q.
  - rewrite <- qsum_map_div. apply qsum_ext. intros k _.
    assert (E : (qsum (map (fun e => snd e * (f k (fst e) * c k)) evs) == c k * qsum (map (fun e => snd e * f k (fst e)) evs))%Q).
    { rewrite <- qsum_map_mul. apply qsum_ext. intros e _. ring. }
    rewrite E. unfold Qdiv. ring.
  - rewrite (qsum_swap (fun k e => snd e * (f k (fst e) * c k))%Q).
    assert (E : (qsum (map (fun y : event => qsum (map (fun x => snd y * (f x (fst y) * c x)) (seq 0 n))) evs) ==
                 qsum (map (fun e => snd e * qsum (map (fun k => f k (fst e) * c k) (seq 0 n))) evs))%Q).
    { apply qsum_ext. intros e _. rewrite <- qsum_map_mul. reflexivity. }
    rewrite E. reflexivity.
Qed.

Lemma fft_cut : moves_along K -> symmetric_kernel K h ->
  exists d L, fft_grid K xs weights h "linear" num support "conv1d" = Ok d /\ length (f_vals d) = n /\
  (f_lo d == g0)%Q /\ (f_hi d == grid_end xs)%Q /\
  L <= n /\ (nat_q L * dx <= support * h)%Q /\ (L = n \/ (support * h < nat_q (S L) * dx)%Q) /\
  forall j, j < n -> (nth j (f_vals d) 0 ==
    average (interpolate g0 dx n (fun x => cut (nat_q L * dx) K x h (grid_point g0 dx j))) evs)%Q.
Proof.
  intros M S. destruct fft_values as [d [E [L [A [B V]]]]]. exists d, (kernel_reach support h dx n). split; [exact E|]. split; [exact L|]. split; [exact A|]. split; [exact B|].
  assert (D := dx_pos xs n Hn Hrange). destruct (reach_facts support h dx n D Hs) as [R1 [R2 R3]]. split; [exact R1|]. split; [exact R2|]. split; [exact R3|].
  intros j Hj. rewrite (V j Hj). rewrite (total_average (fun m => if Nat.leb (dist_nat m j) (kernel_reach support h dx n) then K 0%Q h (nat_q (dist_nat m j) * dx)%Q else 0%Q)
    (fun m x => tri ((x - grid_point g0 dx m) / dx))%Q). apply average_ext. intros e _. unfold interpolate. apply qsum_ext. intros m _.
  apply Qmult_comp; [reflexivity|]. unfold cut. set (y := Qabs (grid_point g0 dx m - grid_point g0 dx j)).
  assert (Y : (y == nat_q (dist_nat m j) * dx)%Q) by (apply points_distance; exact D).
  destruct (Nat.leb (dist_nat m j) (kernel_reach support h dx n)) eqn:C.
  - apply Nat.leb_le in C. replace (Qle_bool y (nat_q (kernel_reach support h dx n) * dx))%Q with true.
    + symmetry. apply kernel_distance; [exact OK|exact M|exact S|]. exact Y.
    + symmetry. apply Qle_bool_iff. rewrite Y. apply Qmult_le_compat_r; [apply nat_q_le; exact C|lra].
  - apply Nat.leb_gt in C. replace (Qle_bool y (nat_q (kernel_reach support h dx n) * dx))%Q with false; [reflexivity|].
    symmetry. destruct (Qle_bool y _) eqn:X; [|reflexivity]. apply Qle_bool_iff in X. rewrite Y in X.
    apply Qmult_le_r in X; [|exact D]. apply nat_q_le in X. lia.
Qed.
End Fft.

(** The other methods need a kernel that reaches exactly over the grid. *)
Lemma fft_method_length K h g grid support m : 2 <= length grid -> length g = length grid -> m <> "conv1d"%string ->
  let dx := ((qmax_list grid - qmin_list grid) / nat_q (length grid - 1))%Q in
  S (kernel_reach support h dx (length grid)) <> length grid ->
  convolve_1d K h g grid support m = Err InvalidArgumentError.
Proof.
  intros Hn Lg M dx R. unfold convolve_1d. destruct (String.eqb m "conv1d") eqn:E; [apply String.eqb_eq in E; contradiction|]. fold dx.
  destruct (Nat.ltb _ _) eqn:P; [reflexivity|]. apply Nat.ltb_ge in P.
  rewrite !app_length, !repeat_length, kernel_weights_length. set (n := length grid) in *.
  set (pw := 2 ^ Nat.log2_up (3 * n - 1)) in *.
  assert (E2 : exists p, pw = p * 2).
  { assert (L1 : 0 < Nat.log2_up (3 * n - 1)) by (apply Nat.log2_up_pos; lia). unfold pw.
    destruct (Nat.log2_up (3 * n - 1)) as [|q]; [lia|]. exists (2 ^ q). rewrite Nat.pow_succ_r'. lia. }
  destruct E2 as [p Ep]. rewrite Ep in *. rewrite Lg. fold n.
  replace (n - 1 + (n + (p * 2 - 2 * n - 1))) with ((p - 1) * 2) by lia.
  set (L := kernel_reach support h dx n) in *.
  replace (2 * L + 1 + (p * 2 - 2 * n - 1)) with ((L + p - n) * 2) by lia. rewrite !Nat.div_mul by lia.
  destruct (Nat.eqb (p - 1) (L + p - n)) eqn:Q; [|reflexivity]. apply Nat.eqb_eq in Q. lia.
Qed.

(** ** The bandwidths under a change of units *)
Section Units.
Variables (a c : Q).
Hypothesis Hc : (0 < c)%Q.
Notation f := (affine a c).
Lemma affine_le x y : Qle_bool (f x) (f y) = Qle_bool x y.
Proof.
  unfold affine. destruct (Qle_bool x y) eqn:E.
  - apply Qle_bool_iff in E. apply Qle_bool_iff. assert (c * x <= c * y)%Q by (apply Qmult_le_l; [exact Hc|exact E]). lra.
  - destruct (Qle_bool (a + c * x) (a + c * y)) eqn:G; [|reflexivity]. apply Qle_bool_iff in G.
    assert (X : (c * x <= c * y)%Q) by lra. apply Qmult_le_l in X; [|exact Hc]. apply Qle_bool_iff in X. congruence.
Qed.
Definition on_key {A} (e : Q * A) : Q * A := (f (fst e), snd e).
Lemma insert_map {A} (e : Q * A) l : insert_key (on_key e) (map on_key l) = map on_key (insert_key e l).
Proof.
  induction l as [|g l IH]; [reflexivity|]. cbn [map insert_key]. unfold on_key at 1 2. cbn [fst]. rewrite affine_le.
  destruct (Qle_bool (fst e) (fst g)); [reflexivity|]. cbn [map]. rewrite IH. reflexivity.
Qed.
Lemma sort_map {A} (l : list (Q * A)) : sort_by_key (map on_key l) = map on_key (sort_by_key l).
Proof. induction l as [|e l IH]; [reflexivity|]. unfold sort_by_key in *. cbn [map fold_right]. rewrite IH. apply insert_map. Qed.
Lemma sort_q_map xs : sort_q (map f xs) = map f (sort_q xs).
Proof.
  unfold sort_q. rewrite !map_map. assert (E : map (fun x => (f x, tt)) xs = map on_key (map (fun x => (x, tt)) xs)) by (rewrite map_map; reflexivity).
  rewrite E, sort_map, map_map. reflexivity.
Qed.
Lemma insert_length {A} (e : Q * A) l : length (insert_key e l) = S (length l).
Proof. induction l as [|g l IH]; [reflexivity|]. cbn. destruct (Qle_bool _ _); cbn; [reflexivity|rewrite IH; reflexivity]. Qed.
Lemma sort_length {A} (l : list (Q * A)) : length (sort_by_key l) = length l.
Proof. induction l as [|e l IH]; [reflexivity|]. unfold sort_by_key in *. cbn [fold_right]. rewrite insert_length, IH. reflexivity. Qed.
Lemma sort_q_length xs : length (sort_q xs) = length xs.
Proof. unfold sort_q. rewrite map_length, sort_length, map_length. reflexivity. Qed.
Lemma round_even_le q m : (q <= inject_Z m)%Q -> (round_even q <= m)%Z.
Proof.
  intros H. unfold round_even. assert (F1 := Qfloor_le q).
  assert (F : (Qfloor q <= m)%Z) by (rewrite <- (Qfloor_Z m); apply Qfloor_resp_le; exact H).
  destruct (Z.eq_dec (Qfloor q) m) as [E|E].
  - rewrite E in *. assert (X : (q - inject_Z m <= 0)%Q) by lra. replace (Qlt_bool (q - inject_Z m) (1 # 2)) with true; [lia|].
    symmetry. apply qlt_t. lra.
  - destruct (Qlt_bool _ _); [lia|]. destruct (Qlt_bool _ _); [lia|]. destruct (Z.even _); lia.
Qed.
Lemma percentile_map xs q : xs <> [] -> (0 <= q <= 1)%Q -> percentile (map f xs) q = f (percentile xs q).
Proof.
  intros N Hq. unfold percentile. rewrite map_length, sort_q_map.
  set (i := Z.to_nat _). rewrite (nth_indep _ 0%Q (f 0)); [apply map_nth|]. rewrite map_length, sort_q_length.
  assert (L : 1 <= length xs) by (destruct xs; [congruence|cbn; lia]).
  assert (R : (round_even (nat_q (length xs - 1) * q) <= Z.of_nat (length xs - 1))%Z).
  { apply round_even_le. unfold nat_q. assert (P : (0 <= inject_Z (Z.of_nat (length xs - 1)))%Q) by (change 0%Q with (inject_Z 0); rewrite <- Zle_Qle; lia). nra. }
  subst i. lia.
Qed.
Lemma mean_map xs (g : Q -> Q) b d : xs <> [] -> (forall x, g x == b + d * x)%Q -> (mean_q (map g xs) == b + d * mean_q xs)%Q.
Proof.
  intros N G. unfold mean_q. rewrite map_length. assert (P := nat_q_pos (length xs)). assert (L : 1 <= length xs) by (destruct xs; [congruence|cbn; lia]). specialize (P L).
  assert (E : (qsum (map g xs) == nat_q (length xs) * b + d * qsum xs)%Q).
  { clear - G. induction xs as [|x xs IH]; [cbn; unfold nat_q; cbn; ring|]. cbn [map length]. rewrite !qsum_cons, IH, G.
    rewrite nat_q_S. ring. }
  rewrite E. field. lra.
Qed.
Lemma mean_ext xs (g g' : Q -> Q) : (forall x, g x == g' x)%Q -> (mean_q (map g xs) == mean_q (map g' xs))%Q.
Proof. intros H. unfold mean_q. rewrite !map_length. rewrite (qsum_ext g g' xs) by (intros; apply H). reflexivity. Qed.
Lemma variance_map xs : xs <> [] -> (variance_q (map f xs) == c * c * variance_q xs)%Q.
Proof.
  intros N. unfold variance_q. rewrite map_map. assert (M := mean_map xs f a c N (fun x => Qeq_refl _)).
  rewrite (mean_ext xs _ (fun x => c * c * ((x - mean_q xs) * (x - mean_q xs)))%Q) by (intros x; rewrite M; unfold affine; ring).
  assert (E := mean_map (map (fun x => (x - mean_q xs) * (x - mean_q xs))%Q xs) (fun y => c * c * y)%Q 0 (c * c)).
  rewrite map_map in E. rewrite E; [ring| |intros; ring]. intros X. apply map_eq_nil in X. contradiction.
Qed.
Lemma combine_on_key xs : forall w : list Q, combine (map f xs) w = map on_key (combine xs w).
Proof. induction xs as [|x xs IH]; intros [|y w]; try reflexivity. cbn. f_equal. apply IH. Qed.
Lemma wquantile_map xs w q r : weighted_quantile xs w q = Ok r -> exists r', weighted_quantile (map f xs) w q = Ok r' /\ (r' == f r)%Q.
Proof.
  unfold weighted_quantile. rewrite combine_on_key, sort_map. rewrite !map_map. cbn [on_key fst snd].
  set (s := sort_by_key (combine xs w)). set (at_ := map _ (combine (cumulated 0 (map snd s)) (map snd s))).
  change (map (fun x : Q * Q => snd x) s) with (map snd s) in *. fold at_.
  rewrite <- (map_map fst f s). rewrite !nth_error_map.
  destruct (nth_error s (length (filter (fun a0 : Q => Qlt_bool a0 q) at_))) as [x|]; [|discriminate]. destruct (nth_error s _) as [y|]; [|discriminate]. cbn [option_map].
  intros [= <-]. cbn [option_map]. eexists. split; [reflexivity|]. unfold affine. field.
Qed.
Lemma wmean_ext (g g' : Q -> Q) xs w : (forall x, g x == g' x)%Q -> (weighted_mean g xs w == weighted_mean g' xs w)%Q.
Proof. intros H. unfold weighted_mean. rewrite (qsum_ext (fun p => snd p * g (fst p))%Q (fun p => snd p * g' (fst p))%Q); [reflexivity|]. intros p _. rewrite H. reflexivity. Qed.
Lemma wmean_map (g : Q -> Q) xs w : (weighted_mean g (map f xs) w == weighted_mean (fun x => g (f x)) xs w)%Q.
Proof. unfold weighted_mean. rewrite combine_on_key, map_map. reflexivity. Qed.
Lemma wmean_affine (g : Q -> Q) b d xs w : length w = length xs -> ~ (qsum w == 0)%Q ->
  (weighted_mean (fun x => b + d * g x) xs w == b + d * weighted_mean g xs w)%Q.
Proof.
  intros L NZ. unfold weighted_mean.
  assert (E : (qsum (map (fun p : Q * Q => snd p * (b + d * g (fst p))) (combine xs w)) == b * qsum w + d * qsum (map (fun p => snd p * g (fst p)) (combine xs w)))%Q).
  { clear NZ. revert w L. induction xs as [|x xs IH]; intros [|y w] L; try discriminate; [cbn; ring|].
    cbn [combine map fst snd]. rewrite !qsum_cons, IH by (injection L; auto). ring. }
  rewrite E. field. exact NZ.
Qed.
Lemma wvariance_map xs w : length w = length xs -> ~ (qsum w == 0)%Q -> (weighted_variance (map f xs) w == c * c * weighted_variance xs w)%Q.
Proof.
  intros L NZ. unfold weighted_variance. rewrite wmean_map.
  assert (M : (weighted_mean (fun x => x) (map f xs) w == a + c * weighted_mean (fun x => x) xs w)%Q).
  { rewrite wmean_map. unfold affine. apply (wmean_affine (fun x => x)); assumption. }
  set (m' := weighted_mean (fun x => x) (map f xs) w) in *. set (m := weighted_mean (fun x => x) xs w) in *.
  rewrite (wmean_ext _ (fun x => 0 + c * c * ((x - m) * (x - m)))%Q) by (intros x; rewrite M; unfold affine; ring).
  rewrite (wmean_affine (fun x => (x - m) * (x - m))%Q 0 (c * c)%Q) by assumption. ring.
Qed.
Lemma qmin2_scale x y x' y' : (x' == c * x -> y' == c * y -> qmin2 x' y' == c * qmin2 x y)%Q.
Proof.
  intros X Y. unfold qmin2. destruct (Qle_bool x y) eqn:E, (Qle_bool x' y') eqn:E'; try assumption; exfalso.
  - assert (N : ~ (x' <= y')%Q) by (intros H; apply Qle_bool_iff in H; congruence). apply Qle_bool_iff in E. apply N. rewrite X, Y. apply Qmult_le_l; assumption.
  - assert (N : ~ (x <= y)%Q) by (intros H; apply Qle_bool_iff in H; congruence). apply Qle_bool_iff in E'. apply N. rewrite X, Y in E'. apply Qmult_le_l in E'; assumption.
Qed.

Variable root : Q -> Q.
Lemma min_std_map xs weights m : usable xs weights -> xs <> [] -> root_at root c (match weights with Some w => weighted_variance xs w | None => variance_q xs end) -> min_std_or_iqr root xs weights = Ok m ->
  exists m', min_std_or_iqr root (map f xs) weights = Ok m' /\ (m' == c * m)%Q.
Proof.
  intros [W NZ] N [R1 R2]. rewrite weight_of_wts in NZ by exact W. unfold min_std_or_iqr. destruct weights as [w|].
  - destruct (weighted_quantile xs w (3 # 4)) as [p|] eqn:E1; [|discriminate]. destruct (weighted_quantile xs w (1 # 4)) as [q|] eqn:E2; [|discriminate].
    cbn [bind]. intros [= <-]. destruct (wquantile_map _ _ _ _ E1) as [p' [-> P]]. destruct (wquantile_map _ _ _ _ E2) as [q' [-> Q]]. cbn [bind].
    eexists. split; [reflexivity|]. apply qmin2_scale.
    + rewrite (R1 _ _ (wvariance_map xs w (W w eq_refl) NZ)). exact R2.
    + rewrite P, Q. unfold affine. ring.
  - intros [= <-]. eexists. split; [reflexivity|]. apply qmin2_scale.
    + rewrite (R1 _ _ (variance_map xs N)). exact R2.
    + rewrite !percentile_map by (try exact N; lra). unfold affine. ring.
Qed.
Lemma rule_map power xs weights k m : usable xs weights -> xs <> [] -> root_at root c (match weights with Some w => weighted_variance xs w | None => variance_q xs end) -> rule_of_thumb root power xs weights k = Ok m ->
  exists m', rule_of_thumb root power (map f xs) weights k = Ok m' /\ (m' == c * m)%Q.
Proof.
  intros U N R. unfold rule_of_thumb. destruct (min_std_or_iqr root xs weights) as [s|] eqn:E; [|discriminate]. cbn [bind]. intros [= <-].
  destruct (min_std_map xs weights s U N R E) as [s' [-> S]]. cbn [bind]. eexists. split; [reflexivity|]. rewrite map_length, S. ring.
Qed.
Lemma with_weights_map xs weights : with_weights (map f xs) weights = map on_key (with_weights xs weights).
Proof. destruct weights as [w|]; cbn [with_weights]; [apply combine_on_key|]. rewrite !map_map. reflexivity. Qed.
Lemma weight_map evs : weight_of (map on_key evs) = weight_of evs.
Proof. unfold weight_of. rewrite map_map. reflexivity. Qed.
Lemma estimate_map K evs h h' t : kernel_ok K -> moves_along K -> scales_along K -> (h' == c * h)%Q ->
  (estimate K h' (map on_key evs) (f t) == estimate K h evs t / c)%Q.
Proof.
  intros OK M S H. unfold estimate, average. rewrite weight_map, map_map. cbn [on_key fst snd].
  assert (E : (qsum (map (fun e : event => snd e * K (f (fst e)) h' (f t)) evs) == qsum (map (fun e => snd e * K (fst e) h t) evs) / c)%Q).
  { rewrite <- qsum_map_div. apply qsum_ext. intros e _.
    assert (X : (K (f (fst e)) h' (f t) == K (fst e) h t / c)%Q).
    { rewrite <- (S c (fst e) h t Hc), <- (M a (c * fst e)%Q (c * h)%Q (c * t)%Q). apply OK; [reflexivity|exact H|reflexivity]. }
    rewrite X. unfold Qdiv. ring. }
  rewrite E. unfold Qdiv. ring.
Qed.
End Units.
