(** Proofs for Kde_Theorems.v: the values between the points of a grid, variance and quartiles, a kernel. *)
From Verif Require Import Base BaseLemmas Hist_Model Hist_Spec Hist_Proofs Hist_Proofs3 Hist_Proofs5 AccRej_Model Conv_Model Conv_Spec Conv_Proofs Conv_Proofs2 Conv_Proofs3
  Kde_Model Kde_Spec Kde_Proofs Kde_Proofs2 Kde_Proofs3 Kde_Proofs4.
From Coq Require Import Qabs Qround Lqa Permutation Sorted Setoid Morphisms.
#[local] Open Scope nat_scope.

#[export] Instance tri_comp : Proper (Qeq ==> Qeq) tri.
Proof. intros a b H. unfold tri. rewrite (Qleb_comp (Qabs a) (Qabs b) (Qabs_wd a b H) 1%Q 1%Q (Qeq_refl 1%Q)). destruct (Qle_bool (Qabs b) 1); [rewrite H|]; reflexivity. Qed.
Lemma tri_out t : (1 <= Qabs t)%Q -> (tri t == 0)%Q.
Proof. intros H. unfold tri. destruct (Qle_bool (Qabs t) 1) eqn:E; [|reflexivity]. apply Qle_bool_iff in E. lra. Qed.
Lemma tri_pos t : (0 <= t <= 1)%Q -> (tri t == 1 - t)%Q.
Proof. intros [A B]. unfold tri. assert (X : Qle_bool (Qabs t) 1%Q = true) by (apply Qle_bool_iff; rewrite Qabs_pos by exact A; exact B). rewrite X, Qabs_pos by exact A. reflexivity. Qed.
Lemma tri_neg t : (- 1 <= t <= 0)%Q -> (tri t == 1 + t)%Q.
Proof. intros [A B]. unfold tri. assert (X : Qle_bool (Qabs t) 1%Q = true) by (apply Qle_bool_iff; rewrite Qabs_neg by exact B; lra). rewrite X, Qabs_neg by exact B. ring. Qed.
Lemma tri_opp t : (tri (- t) == tri t)%Q.
Proof. unfold tri. rewrite (Qleb_comp (Qabs (- t)) (Qabs t) (Qabs_opp t) 1%Q 1%Q (Qeq_refl 1%Q)). destruct (Qle_bool (Qabs t) 1); [rewrite Qabs_opp|]; reflexivity. Qed.
Lemma tri_nonneg t : (0 <= tri t)%Q.
Proof. unfold tri. destruct (Qle_bool (Qabs t) 1) eqn:E; [|lra]. apply Qle_bool_iff in E. lra. Qed.

Lemma total_two n k (F : nat -> Q) : S k < n -> (forall m, m < n -> m <> k -> m <> S k -> (F m == 0)%Q) -> (total n F == F k + F (S k))%Q.
Proof.
  intros Hk H. assert (G : forall j, j <= n -> (total j F == (if Nat.ltb k j then F k else 0) + (if Nat.ltb (S k) j then F (S k) else 0))%Q).
  { induction j as [|j IH]; intros Hj; [cbn; ring|]. cbn [total]. rewrite IH by lia.
    destruct (Nat.ltb_spec k j), (Nat.ltb_spec (S k) j), (Nat.ltb_spec k (S j)), (Nat.ltb_spec (S k) (S j)); try lia.
    - rewrite (H j) by lia. ring.
    - replace j with (S k) by lia. ring.
    - replace j with k by lia. ring.
    - rewrite (H j) by lia. ring. }
  rewrite G by lia. destruct (Nat.ltb_spec k n), (Nat.ltb_spec (S k) n); try lia. reflexivity.
Qed.
Lemma interpolate_between g0 dx n f k s : (0 < dx)%Q -> S k < n -> (0 <= s <= 1)%Q ->
  (interpolate g0 dx n f (grid_point g0 dx k + s * dx) == (1 - s) * f (grid_point g0 dx k) + s * f (grid_point g0 dx (S k)))%Q.
Proof.
  intros D Hk [S0 S1]. unfold interpolate. rewrite <- (total_qsum n). set (x := (grid_point g0 dx k + s * dx)%Q).
  assert (P : forall m, ((x - grid_point g0 dx m) / dx == (nat_q k - nat_q m) + s)%Q).
  { intros m. unfold x, grid_point, nat_q. field. lra. }
  etransitivity; [apply (total_two n k _ Hk)|].
  - intros m Hm N1 N2. rewrite (P m), tri_out; [ring|]. destruct (Nat.le_gt_cases m k) as [C|C].
    + assert (X : (nat_q (S m) <= nat_q k)%Q) by (apply nat_q_le; lia). rewrite nat_q_S in X. rewrite Qabs_pos by lra. lra.
    + assert (X : (nat_q (S (S k)) <= nat_q m)%Q) by (apply nat_q_le; lia). rewrite !nat_q_S in X. rewrite Qabs_neg by lra. lra.
  - cbv beta. rewrite (P k), (P (S k)), nat_q_S. rewrite tri_pos by lra. rewrite tri_neg by lra. ring.
Qed.

Lemma fft_between d n g0 g1 dx j s : length (f_vals d) = n -> (f_lo d == g0)%Q -> (f_hi d == g1)%Q -> (0 < dx)%Q -> (dx * nat_q (n - 1) == g1 - g0)%Q ->
  S j < n -> (0 <= s <= 1)%Q ->
  (fft_pdf d (grid_point g0 dx j + s * dx) == (1 - s) * nth j (f_vals d) 0 + s * nth (S j) (f_vals d) 0)%Q.
Proof.
  intros L A B D W Hj [S0 S1]. unfold fft_pdf.
  assert (R : (0 < nat_q (n - 1))%Q) by (apply nat_q_pos; lia).
  assert (LT : (g0 < g1)%Q) by nra.
  assert (E : ((grid_point g0 dx j + s * dx - f_lo d) / (f_hi d - f_lo d) * inject_Z (Z.of_nat (length (f_vals d)) - 1) == nat_q j + s)%Q).
  { rewrite A, B, L. replace (Z.of_nat n - 1)%Z with (Z.of_nat (n - 1)) by lia. fold (nat_q (n - 1)). rewrite <- W. unfold grid_point, nat_q. field.
    unfold nat_q in R. split; intros Z; rewrite Z in *; lra. }
  rewrite (interp_idx (f_lo d) (f_hi d) (grid_point g0 dx j + s * dx) (f_vals d) j); [|lra|lia|].
  - rewrite E. change (qn j) with (nat_q j). ring.
  - rewrite E. change (qn j) with (nat_q j). split; lra.
Qed.
Lemma fft_outside d n : length (f_vals d) = n -> 1 <= n -> (f_lo d < f_hi d)%Q ->
  (forall x, x <= f_lo d -> fft_pdf d x == nth 0 (f_vals d) 0)%Q /\ (forall x, f_hi d <= x -> fft_pdf d x == nth (n - 1) (f_vals d) 0)%Q.
Proof.
  intros L N LT. split; intros x X; unfold fft_pdf; [rewrite interp_below by (try assumption; lia)|rewrite interp_above by (try assumption; lia); rewrite L]; reflexivity.
Qed.
Lemma fft_index d n g0 g1 dx x : length (f_vals d) = n -> (f_lo d == g0)%Q -> (f_hi d == g1)%Q -> (0 < dx)%Q -> (dx * nat_q (n - 1) == g1 - g0)%Q -> 2 <= n ->
  ((x - f_lo d) / (f_hi d - f_lo d) * inject_Z (Z.of_nat (length (f_vals d)) - 1) == (x - g0) / dx)%Q.
Proof.
  intros L A B D W Hn. assert (R : (0 < nat_q (n - 1))%Q) by (apply nat_q_pos; lia).
  rewrite A, B, L. replace (Z.of_nat n - 1)%Z with (Z.of_nat (n - 1)) by lia. fold (nat_q (n - 1)). rewrite <- W. field.
  repeat split; intros Z; rewrite Z in *; lra.
Qed.
Lemma fft_node d n g0 g1 dx j : length (f_vals d) = n -> (f_lo d == g0)%Q -> (f_hi d == g1)%Q -> (0 < dx)%Q -> (dx * nat_q (n - 1) == g1 - g0)%Q -> 2 <= n ->
  j < n -> (fft_pdf d (grid_point g0 dx j) == nth j (f_vals d) 0)%Q.
Proof.
  intros L A B D W Hn Hj. assert (R : (0 < nat_q (n - 1))%Q) by (apply nat_q_pos; lia). assert (LT : (f_lo d < f_hi d)%Q) by (rewrite A, B; nra).
  destruct (Nat.eq_dec (S j) n) as [Z|Z].
  - rewrite (proj2 (fft_outside d n L ltac:(lia) LT)); [replace (n - 1) with j by lia; reflexivity|].
    rewrite B. unfold grid_point. fold (nat_q j). replace j with (n - 1) by lia. lra.
  - assert (E := fft_index d n g0 g1 dx (grid_point g0 dx j) L A B D W Hn).
    assert (E1 : ((grid_point g0 dx j - g0) / dx == nat_q j)%Q) by (unfold grid_point; fold (nat_q j); field; lra).
    rewrite E1 in E. assert (Y := interp_idx (f_lo d) (f_hi d) (grid_point g0 dx j) (f_vals d) j LT ltac:(lia)). cbv zeta in Y. unfold fft_pdf.
    rewrite Y by (rewrite E; change (qn j) with (nat_q j); split; lra). rewrite E. change (qn j) with (nat_q j). ring.
Qed.
Lemma fft_at d n g0 g1 dx k s t : length (f_vals d) = n -> (f_lo d == g0)%Q -> (f_hi d == g1)%Q -> (0 < dx)%Q -> (dx * nat_q (n - 1) == g1 - g0)%Q -> 2 <= n ->
  S k < n -> (0 <= s <= 1)%Q -> (t == grid_point g0 dx k + s * dx)%Q ->
  (fft_pdf d t == (1 - s) * nth k (f_vals d) 0 + s * nth (S k) (f_vals d) 0)%Q.
Proof.
  intros L A B D W Hn Hk [S0 S1] T. assert (R : (0 < nat_q (n - 1))%Q) by (apply nat_q_pos; lia). assert (LT : (f_lo d < f_hi d)%Q) by (rewrite A, B; nra).
  assert (E := fft_index d n g0 g1 dx t L A B D W Hn). assert (E1 : ((t - g0) / dx == nat_q k + s)%Q) by (rewrite T; unfold grid_point; fold (nat_q k); field; lra).
  rewrite E1 in E. assert (Y := interp_idx (f_lo d) (f_hi d) t (f_vals d) k LT ltac:(lia)). cbv zeta in Y. unfold fft_pdf.
  rewrite Y by (rewrite E; change (qn k) with (nat_q k); split; lra). rewrite E. change (qn k) with (nat_q k). ring.
Qed.
Lemma cell_of g0 dx n t : (0 < dx)%Q -> 2 <= n -> (g0 <= t)%Q -> (t <= grid_point g0 dx (n - 1))%Q ->
  exists k s, S k < n /\ (0 <= s <= 1)%Q /\ (t == grid_point g0 dx k + s * dx)%Q.
Proof.
  intros D Hn C1 C2. unfold grid_point in C2. fold (nat_q (n - 1)) in C2.
  assert (Q0 : (0 <= (t - g0) / dx)%Q) by (apply Qle_shift_div_l; lra).
  assert (Q1 : ((t - g0) / dx <= nat_q (n - 1))%Q) by (apply Qle_shift_div_r; [exact D|]; lra).
  set (q := ((t - g0) / dx)%Q) in *. assert (T : (t == g0 + q * dx)%Q) by (unfold q; field; lra).
  assert (F1 := Qfloor_le q). assert (F2 := Qlt_floor q). rewrite inject_Z_plus in F2. change (inject_Z 1) with 1%Q in F2.
  assert (F0 : (0 <= Qfloor q)%Z) by (rewrite <- (Qfloor_Z 0); apply Qfloor_resp_le; exact Q0).
  destruct (Qlt_le_dec q (nat_q (n - 1))) as [C|C].
  - exists (Z.to_nat (Qfloor q)), (q - inject_Z (Qfloor q))%Q.
    assert (EF : nat_q (Z.to_nat (Qfloor q)) = inject_Z (Qfloor q)) by (unfold nat_q; rewrite Z2Nat.id by exact F0; reflexivity).
    split; [|split; [split; lra|]].
    + assert (X : (Qfloor q < Z.of_nat (n - 1))%Z) by (rewrite Zlt_Qlt; unfold nat_q in C; lra). lia.
    + rewrite T. unfold grid_point. fold (nat_q (Z.to_nat (Qfloor q))). rewrite EF. ring.
  - exists (n - 2), 1%Q. split; [lia|]. split; [split; discriminate|]. rewrite T. unfold grid_point. fold (nat_q (n - 2)).
    assert (X := nat_q_S (n - 2)). replace (S (n - 2)) with (n - 1) in X by lia. assert (Y : (q == nat_q (n - 1))%Q) by lra. rewrite Y, X. ring.
Qed.
Lemma fft_reaches K xs n h support L r j evs : (2 <= n) -> (qmin_list xs < qmax_list xs)%Q -> reaches K h r -> (r <= support * h)%Q ->
  (L = n \/ (support * h < nat_q (S L) * grid_spacing xs n)%Q) -> j < n ->
  (average (interpolate (grid_start xs) (grid_spacing xs n) n (fun x => cut (nat_q L * grid_spacing xs n) K x h (grid_point (grid_start xs) (grid_spacing xs n) j))) evs ==
   average (interpolate (grid_start xs) (grid_spacing xs n) n (fun x => K x h (grid_point (grid_start xs) (grid_spacing xs n) j))) evs)%Q.
Proof.
  intros Hn R HR Hr HL Hj. assert (D := dx_pos xs n Hn R). apply average_ext. intros e _. unfold interpolate. apply qsum_ext. intros m I. apply in_seq in I.
  apply Qmult_comp; [reflexivity|]. unfold cut. set (g0 := grid_start xs) in *. set (dx := grid_spacing xs n) in *.
  assert (Y := points_distance g0 dx m j D). destruct (Qle_bool _ _) eqn:C; [reflexivity|]. symmetry. apply HR.
  assert (N : ~ (Qabs (grid_point g0 dx m - grid_point g0 dx j) <= nat_q L * dx)%Q) by (intros X; apply Qle_bool_iff in X; congruence).
  destruct HL as [->|HL].
  - exfalso. apply N. rewrite Y. apply Qmult_le_compat_r; [|lra]. apply nat_q_le. unfold dist_nat. lia.
  - rewrite Y in *. assert (Z : L < dist_nat m j).
    { destruct (Nat.le_gt_cases (dist_nat m j) L) as [C2|C2]; [|exact C2]. exfalso. apply N. apply Qmult_le_compat_r; [|lra]. apply nat_q_le. exact C2. }
    assert (Z2 : (nat_q (S L) * dx <= nat_q (dist_nat m j) * dx)%Q) by (apply Qmult_le_compat_r; [apply nat_q_le; lia|lra]). lra.
Qed.

(** ** Variance *)
Lemma spread_ext f g evs : (forall x, f x == g x)%Q -> (average f evs == average g evs)%Q.
Proof. intros H. apply average_ext. intros e _. apply H. Qed.
Lemma spread_weighted xs w : length w = length xs -> (weighted_variance xs w == spread (combine xs w))%Q.
Proof.
  intros L. assert (M : forall f, (weighted_mean f xs w == average f (combine xs w))%Q).
  { intros f. unfold weighted_mean, average, weight_of. rewrite combine_snd2 by exact L. reflexivity. }
  unfold weighted_variance, spread. rewrite M. apply spread_ext. intros x. rewrite (M (fun x => x)). reflexivity.
Qed.
Lemma mean_average f xs : (mean_q (map f xs) == average f (map (fun x => (x, 1)) xs))%Q.
Proof.
  unfold mean_q, average, weight_of. rewrite !map_map, map_length. cbn [fst snd].
  assert (E : (qsum (map (fun x : Q => snd (x, 1) * f (fst (x, 1))) xs) == qsum (map f xs))%Q) by (apply qsum_ext; intros x _; cbn [fst snd]; ring).
  cbn [fst snd] in E. rewrite E, qsum_ones. reflexivity.
Qed.
Lemma spread_plain xs : (variance_q xs == spread (map (fun x => (x, 1)) xs))%Q.
Proof.
  unfold variance_q, spread. rewrite mean_average. apply spread_ext. intros x.
  assert (E := mean_average (fun x => x) xs). rewrite map_id in E. rewrite E. reflexivity.
Qed.
Lemma spread_of xs weights : (forall w, weights = Some w -> length w = length xs) ->
  (match weights with Some w => weighted_variance xs w | None => variance_q xs end == spread (with_weights xs weights))%Q.
Proof. intros H. destruct weights as [w|]; [apply spread_weighted, H; reflexivity|apply spread_plain]. Qed.
Lemma root_at_spread root c xs weights : (forall w, weights = Some w -> length w = length xs) -> root_at root c (spread (with_weights xs weights)) ->
  root_at root c (match weights with Some w => weighted_variance xs w | None => variance_q xs end).
Proof.
  intros H [R1 R2]. split; [exact R1|]. assert (E := spread_of xs weights H).
  rewrite (R1 _ _ (Qmult_comp _ _ (Qeq_refl (c * c)) _ _ E)), R2, (R1 _ _ E). reflexivity.
Qed.

(** ** Quartiles *)
Lemma insert_perm {A} (e : Q * A) l : Permutation (insert_key e l) (e :: l).
Proof. induction l as [|g l IH]; [reflexivity|]. cbn [insert_key]. destruct (Qle_bool _ _); [reflexivity|]. rewrite IH. apply perm_swap. Qed.
Lemma sort_perm {A} (l : list (Q * A)) : Permutation (sort_by_key l) l.
Proof. induction l as [|e l IH]; [reflexivity|]. unfold sort_by_key in *. cbn [fold_right]. rewrite insert_perm. constructor. exact IH. Qed.
Lemma sort_q_perm xs : Permutation (sort_q xs) xs.
Proof. unfold sort_q. rewrite (Permutation_map fst (sort_perm _)), map_map. cbn [fst]. rewrite map_id. reflexivity. Qed.
Lemma insert_sorted {A} (e : Q * A) l : StronglySorted Qle (map fst l) -> StronglySorted Qle (map fst (insert_key e l)).
Proof.
  induction l as [|g l IH]; intros S; [cbn; constructor; constructor|]. cbn [insert_key]. inversion S as [|a b S1 S2]; subst.
  destruct (Qle_bool (fst e) (fst g)) eqn:E.
  - apply Qle_bool_iff in E. cbn [map]. constructor; [exact S|]. constructor; [exact E|]. eapply Forall_impl; [|exact S2]. intros x X. cbn in X. lra.
  - assert (G : (fst g <= fst e)%Q) by (destruct (Qlt_le_dec (fst g) (fst e)) as [X|X]; [lra|apply Qle_bool_iff in X; congruence]).
    cbn [map]. constructor; [apply IH, S1|]. apply Forall_forall. intros x I.
    apply (Permutation_in _ (Permutation_map fst (insert_perm e l))) in I. cbn [map] in I. destruct I as [<-|I]; [exact G|]. rewrite Forall_forall in S2. apply S2, I.
Qed.
Lemma sort_q_sorted xs : StronglySorted Qle (sort_q xs).
Proof.
  unfold sort_q. generalize (map (fun x => (x, tt)) xs). intros l. induction l as [|e l IH]; [constructor|].
  unfold sort_by_key in *. cbn [fold_right]. apply insert_sorted, IH.
Qed.
Lemma sorted_counts l : StronglySorted Qle l -> forall k, k < length l ->
  count (fun x => Qlt_bool x (nth k l 0%Q)) l <= k < count (fun x => Qle_bool x (nth k l 0%Q)) l.
Proof.
  induction 1 as [|a l S IH A]; intros k Hk; [cbn in Hk; lia|]. rewrite Forall_forall in A. unfold count in *. destruct k as [|k].
  - cbn [nth filter length]. assert (X : Qlt_bool a a = false) by (apply qlt_f; lra). rewrite X.
    assert (Y : Qle_bool a a = true) by (apply Qle_bool_iff; lra). rewrite Y. cbn [length]. split; [|lia].
    assert (Z : filter (fun x => Qlt_bool x a) l = []).
    { clear - A. induction l as [|b l IH]; [reflexivity|]. cbn [filter]. assert (X : Qlt_bool b a = false) by (apply qlt_f, A; left; reflexivity). rewrite X. apply IH. intros x I. apply A. right. exact I. }
    rewrite Z. cbn. lia.
  - cbn [nth length] in *. assert (H := IH k ltac:(lia)). set (v := nth k l 0%Q) in *.
    assert (V : (a <= v)%Q) by (apply A, nth_In; lia). cbn [filter].
    assert (Y : Qle_bool a v = true) by (apply Qle_bool_iff; exact V). rewrite Y. cbn [length].
    destruct (Qlt_bool a v); cbn [length]; lia.
Qed.
Lemma count_perm p a b : Permutation a b -> count p a = count p b.
Proof. intros P. unfold count. induction P; cbn; [reflexivity|destruct (p x); cbn; congruence|destruct (p x), (p y); reflexivity|congruence]. Qed.
Lemma round_even_near q : (Qabs (inject_Z (round_even q) - q) <= 1 # 2)%Q.
Proof.
  unfold round_even. set (f := Qfloor q). assert (F1 := Qfloor_le q). assert (F2 := Qlt_floor q). fold f in F1, F2. rewrite inject_Z_plus in F2. change (inject_Z 1) with 1%Q in F2.
  destruct (Qlt_bool (q - inject_Z f) (1 # 2)) eqn:A; [apply qlt_t in A; rewrite Qabs_neg by lra; lra|]. apply qlt_f in A.
  destruct (Qlt_bool (1 # 2) (q - inject_Z f)) eqn:B; [apply qlt_t in B; rewrite inject_Z_plus; change (inject_Z 1) with 1%Q; rewrite Qabs_pos by lra; lra|]. apply qlt_f in B.
  destruct (Z.even f); [rewrite Qabs_neg by lra; lra|]. rewrite inject_Z_plus; change (inject_Z 1) with 1%Q; rewrite Qabs_pos by lra; lra.
Qed.
Lemma percentile_rank xs q : xs <> [] -> (0 <= q <= 1)%Q -> nearest_rank xs q (percentile xs q).
Proof.
  intros N Hq. unfold percentile. set (r := round_even (nat_q (length xs - 1) * q)).
  assert (L : 1 <= length xs) by (destruct xs; [congruence|cbn; lia]).
  assert (P : (0 <= nat_q (length xs - 1))%Q) by (apply (proj1 (nat_q_le 0 _)); lia).
  assert (R : (r <= Z.of_nat (length xs - 1))%Z) by (apply round_even_le; unfold nat_q in *; nra).
  assert (R0 : (0 <= r)%Z).
  { unfold r, round_even. assert (F : (0 <= Qfloor (nat_q (length xs - 1) * q))%Z) by (rewrite <- (Qfloor_Z 0); apply Qfloor_resp_le; apply Qmult_le_0_compat; lra).
    destruct (Qlt_bool _ _); [lia|]. destruct (Qlt_bool _ _); [lia|]. destruct (Z.even _); lia. }
  assert (K : Z.to_nat r < length (sort_q xs)) by (rewrite sort_q_length; lia). set (k := Z.to_nat r) in *.
  split; [apply (Permutation_in _ (sort_q_perm xs)), nth_In, K|]. exists k. split.
  - unfold nat_q at 1. replace (Z.of_nat k) with r by lia. apply round_even_near.
  - rewrite <- !(count_perm _ _ _ (sort_q_perm xs)). apply sorted_counts; [apply sort_q_sorted|exact K].
Qed.

(** ** A kernel *)
Definition triangle : dist := fun x h t => (tri ((t - x) / h) / h)%Q.
Lemma triangle_ok : kernel_ok triangle.
Proof. intros x x' h h' t t' A B C. unfold triangle. rewrite A, B, C. reflexivity. Qed.
Lemma triangle_moves : moves_along triangle.
Proof. intros a x h t. unfold triangle. assert (E : ((a + t - (a + x)) == t - x)%Q) by ring. rewrite E. reflexivity. Qed.
Lemma triangle_scales : scales_along triangle.
Proof.
  intros c x h t C. unfold triangle. destruct (Qeq_dec h 0) as [H|H].
  - rewrite H. unfold Qdiv. assert (Z : (/ (c * 0) == 0)%Q) by (assert (X : (c * 0 == 0)%Q) by ring; rewrite X; reflexivity). rewrite Z. change (/ 0)%Q with 0%Q. ring.
  - assert (E : ((c * t - c * x) / (c * h) == (t - x) / h)%Q) by (field; split; [exact H|lra]). rewrite E. field. repeat split; (exact H || lra).
Qed.
Lemma triangle_symmetric h : symmetric_kernel triangle h.
Proof.
  intros x c t. unfold triangle. assert (E : ((t - (- x + 2 * c)) / h == - ((- t + 2 * c - x) / h))%Q) by (unfold Qdiv; ring). rewrite E, tri_opp. reflexivity.
Qed.
Lemma triangle_reaches h : (0 < h)%Q -> reaches triangle h h.
Proof.
  intros H x t R. unfold triangle. rewrite tri_out; [unfold Qdiv; ring|]. unfold Qdiv. rewrite Qabs_Qmult, (Qabs_pos (/ h)) by (apply Qlt_le_weak, Qinv_lt_0_compat, H).
  apply Qle_shift_div_l; [exact H|]. rewrite Qmult_1_l. rewrite (Qabs_Qminus t x). exact R.
Qed.
