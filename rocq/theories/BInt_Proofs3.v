From Verif Require Import Base BaseLemmas Hist_Model Hist_Spec Hist_Proofs Hist_Proofs3 BInt_Model BInt_Spec BInt_Proofs BInt_Proofs2.
From Coq Require Import Qminmax Lqa Permutation.
#[local] Open Scope nat_scope.

Lemma covered_split e k l m u : (l <= m)%Q -> (m <= u)%Q -> (nth k e 0 <= nth (S k) e 0)%Q ->
  (covered e k (l, u) == covered e k (l, m) + covered e k (m, u))%Q.
Proof. intros H1 H2 H3. unfold covered. cbn [fst snd]. qmm; lra. Qed.
Lemma covered_nonneg e k r : (0 <= covered e k r)%Q.
Proof. unfold covered. apply Q.le_max_l. Qed.
Lemma covered_mono e k r r' : (fst r' <= fst r)%Q -> (snd r <= snd r')%Q -> (covered e k r <= covered e k r')%Q.
Proof. destruct r as [l u], r' as [l' u']. intros H1 H2. unfold covered. cbn [fst snd] in *. qmm; lra. Qed.
Lemma covered_full e k r : (fst r <= nth k e 0)%Q -> (nth (S k) e 0 <= snd r)%Q -> (nth k e 0 <= nth (S k) e 0)%Q ->
  (covered e k r == width e k)%Q.
Proof. destruct r as [l u]. intros H1 H2 H3. unfold covered, width. cbn [fst snd] in *. qmm; lra. Qed.

Lemma Qsum_le {A} (f h : A -> Q) l : (forall x, In x l -> (f x <= h x)%Q) -> (qsum (map f l) <= qsum (map h l))%Q.
Proof.
  induction l as [|x l IH]; intros H; [apply Qle_refl|]. cbn [map]. rewrite !qsum_cons.
  apply Qplus_le_compat; [apply H; left; reflexivity|apply IH; intros; apply H; right; assumption].
Qed.

Section Weights.
Variable w : spec_axis -> nat -> Q.

Lemma weight_app pre axes idx : length pre <= length idx ->
  (bin_weight w (pre ++ axes) idx == bin_weight w pre (firstn (length pre) idx) * bin_weight w axes (skipn (length pre) idx))%Q.
Proof.
  revert idx. induction pre as [|a pre IH]; intros idx L.
  - cbn [app length firstn skipn]. unfold bin_weight at 2. cbn. ring.
  - destruct idx as [|k idx]; [cbn in L; lia|]. cbn [app length firstn skipn].
    change (bin_weight w (a :: pre ++ axes) (k :: idx)) with (w a k * bin_weight w (pre ++ axes) idx)%Q.
    change (bin_weight w (a :: pre) (k :: firstn (length pre) idx)) with (w a k * bin_weight w pre (firstn (length pre) idx))%Q.
    rewrite IH by (cbn in L; lia). ring.
Qed.

Lemma weight_split pre post a a1 a2 idx : length idx = length (pre ++ a :: post) ->
  (forall k, nth_error idx (length pre) = Some k -> (w a k == w a1 k + w a2 k)%Q) ->
  (bin_weight w (pre ++ a :: post) idx == bin_weight w (pre ++ a1 :: post) idx + bin_weight w (pre ++ a2 :: post) idx)%Q.
Proof.
  intros L H. rewrite app_length in L. cbn in L. rewrite !weight_app by lia.
  destruct (skipn (length pre) idx) as [|k r] eqn:E.
  - assert (K := f_equal (@length nat) E). rewrite skipn_length in K. cbn in K. lia.
  - assert (N : nth_error idx (length pre) = Some k).
    { rewrite <- (firstn_skipn (length pre) idx), E. rewrite nth_error_app2; rewrite firstn_length; [|lia].
      replace (length pre - Nat.min (length pre) (length idx)) with 0 by lia. reflexivity. }
    specialize (H k N). rewrite !weight_cons, H. ring.
Qed.
End Weights.

Lemma kept_same axes axes' idx : Forall2 (fun a b => integrated a = integrated b) axes axes' -> kept axes idx = kept axes' idx.
Proof.
  intros F. revert idx. induction F as [|a b axes axes' E F IH]; intros idx; [reflexivity|].
  destruct idx as [|k idx]; [reflexivity|]. rewrite !kept_cons, E, IH. reflexivity.
Qed.

Lemma bins_in axes idx : In idx (indices (bins_of axes)) ->
  Forall2 (fun a k => k < length (fst a) - 1) axes idx.
Proof.
  intros H. apply indices_in in H. unfold in_shape, bins_of in H.
  revert idx H. induction axes as [|a axes IH]; intros idx H; inversion H; subst; constructor; [assumption|apply IH; assumption].
Qed.
Lemma F2_nth {A B} (R : A -> B -> Prop) la lb pre a post : Forall2 R la lb -> la = pre ++ a :: post ->
  forall k, nth_error lb (length pre) = Some k -> R a k.
Proof.
  intros F. revert pre. induction F as [|x y la lb H F IH]; intros pre E k N; [destruct pre; discriminate|].
  destruct pre as [|p pre]; cbn in E; injection E as E1 E2; subst; cbn in N.
  - congruence.
  - apply (IH pre eq_refl k N).
Qed.

Lemma integral_split (is_density : bool) pre post e l m u values rest : edges_ok e -> (l <= m)%Q -> (m <= u)%Q ->
  let w := if is_density then length_of else fraction_of in
  (integral w (pre ++ (e, Some (l, u)) :: post) values rest
   == integral w (pre ++ (e, Some (l, m)) :: post) values rest
      + integral w (pre ++ (e, Some (m, u)) :: post) values rest)%Q.
Proof.
  intros [I L] H1 H2 w. unfold integral. rewrite !qsum_filter.
  assert (B : forall r, bins_of (pre ++ (e, r) :: post) = bins_of (pre ++ (e, Some (l, u)) :: post)).
  { intros r. unfold bins_of. rewrite !map_app. reflexivity. }
  rewrite (B (Some (l, m))), (B (Some (m, u))).
  assert (K : forall r r' idx, kept (pre ++ (e, Some r) :: post) idx = kept (pre ++ (e, Some r') :: post) idx).
  { intros r r' idx. apply kept_same. apply Forall2_app; [|constructor; [reflexivity|]].
    - clear. induction pre; constructor; [reflexivity|assumption].
    - clear. induction post; constructor; [reflexivity|assumption]. }
  rewrite <- qsum_plus. apply qsum_ext. intros idx IN. apply bins_in in IN.
  rewrite (K (l, m) (l, u)), (K (m, u) (l, u)).
  destruct (list_eq_dec Nat.eq_dec (kept (pre ++ (e, Some (l, u)) :: post) idx) rest); cbv iota beta; [|ring].
  rewrite (weight_split w pre post (e, Some (l, u)) (e, Some (l, m)) (e, Some (m, u))).
  - apply Qmult_plus_distr_r.
  - symmetry. apply Forall2_length' with (1 := IN).
  - intros k N. assert (KL := F2_nth _ _ _ pre _ post IN eq_refl k N). cbn [fst] in KL.
    assert (P : (nth k e 0 < nth (S k) e 0)%Q) by (apply inc_nth; [exact I|lia|lia]).
    assert (C := covered_split e k l m u H1 H2 ltac:(lra)).
    unfold w. destruct is_density; unfold length_of, fraction_of, fraction; cbn [fst snd]; rewrite C; [reflexivity|].
    unfold width. field. lra.
Qed.

Lemma weight_mono (is_density : bool) axes axes' idx : Forall2 within_axis axes axes' -> Forall (fun a => edges_ok (fst a)) axes ->
  Forall2 (fun a k => k < length (fst a) - 1) axes idx ->
  let w := if is_density then length_of else fraction_of in
  (0 <= bin_weight w axes idx /\ bin_weight w axes idx <= bin_weight w axes' idx)%Q.
Proof.
  intros F OK IN w. revert idx IN. induction F as [|a b axes axes' [E R] F IH]; intros idx IN.
  - split; [unfold bin_weight; cbn; lra|apply Qle_refl].
  - inversion IN as [|? k ? idx' K IN']; subst. inversion OK as [|? ? [I L] OK']; subst.
    destruct (IH OK' idx' IN') as [H1 H2]. rewrite !weight_cons.
    assert (P : (0 < width (fst a) k)%Q) by (apply width_pos; assumption).
    assert (W : (0 <= w a k /\ w a k <= w b k)%Q).
    { unfold w. destruct is_density; unfold length_of, fraction_of, fraction; rewrite <- E;
      destruct (snd a) as [r|], (snd b) as [r'|]; try contradiction R.
      - destruct R. split; [apply covered_nonneg|apply covered_mono; assumption].
      - split; lra.
      - destruct R. split.
        + apply Qle_shift_div_l; [exact P|]. rewrite Qmult_0_l. apply covered_nonneg.
        + unfold Qdiv. apply Qmult_le_compat_r; [apply covered_mono; assumption|]. apply Qlt_le_weak, Qinv_lt_0_compat, P.
      - split; lra. }
    destruct W as [W1 W2]. split; [apply Qmult_le_0_compat; assumption|].
    apply Qle_trans with (w a k * bin_weight w axes' idx')%Q.
    + rewrite (Qmult_comm (w a k)), (Qmult_comm (w a k)). apply Qmult_le_compat_r; assumption.
    + apply Qmult_le_compat_r; [exact W2|]. lra.
Qed.

Lemma within_int a b : within_axis a b -> integrated a = integrated b.
Proof. intros [_ H]. unfold integrated. destruct (snd a), (snd b); try contradiction; reflexivity. Qed.

Lemma integral_mono (is_density : bool) axes axes' values rest :
  Forall2 within_axis axes axes' -> Forall (fun a => edges_ok (fst a)) axes ->
  t_shape values = bins_of axes -> non_negative values ->
  let w := if is_density then length_of else fraction_of in
  (0 <= integral w axes values rest /\ integral w axes values rest <= integral w axes' values rest)%Q.
Proof.
  intros F OK SH NN w. unfold integral. rewrite !qsum_filter.
  assert (B : bins_of axes' = bins_of axes).
  { clear - F. induction F as [|a b axes axes' [E _] F IH]; [reflexivity|]. unfold bins_of in *. cbn [map].
    rewrite IH, E. reflexivity. }
  rewrite B.
  assert (K : forall idx, kept axes' idx = kept axes idx).
  { intros idx. symmetry. apply kept_same. clear - F. induction F; constructor; [apply within_int|]; assumption. }
  assert (T : forall idx, In idx (indices (bins_of axes)) ->
     (0 <= (if list_eq_dec Nat.eq_dec (kept axes idx) rest then t_get values idx * bin_weight w axes idx else 0) /\
      (if list_eq_dec Nat.eq_dec (kept axes idx) rest then t_get values idx * bin_weight w axes idx else 0)
      <= (if list_eq_dec Nat.eq_dec (kept axes idx) rest then t_get values idx * bin_weight w axes' idx else 0))%Q).
  { intros idx IN. assert (V : (0 <= t_get values idx)%Q) by (apply NN; rewrite SH; apply indices_in; exact IN).
    apply bins_in in IN. destruct (weight_mono is_density axes axes' idx F OK IN) as [W1 W2]. fold w in W1, W2.
    destruct (list_eq_dec Nat.eq_dec (kept axes idx) rest); [|split; lra].
    split; [apply Qmult_le_0_compat; assumption|].
    rewrite !(Qmult_comm (t_get values idx)). apply Qmult_le_compat_r; assumption. }
  split.
  - rewrite <- (qsum_zero (fun _ : list nat => 0%Q) (indices (bins_of axes))) by reflexivity.
    apply Qsum_le. intros idx IN. destruct (T idx IN) as [T1 _].
    destruct (list_eq_dec Nat.eq_dec (kept axes idx) rest); exact T1.
  - apply Qsum_le. intros idx IN. rewrite K. destruct (T idx IN) as [_ T2].
    destruct (list_eq_dec Nat.eq_dec (kept axes idx) rest); exact T2.
Qed.

Lemma full_ok a : full_axis a -> axis_ok a.
Proof.
  intros [OK H]. split; [exact OK|]. intros r E. destruct (H r E). destruct OK as [I L].
  assert (hd 0 (fst a) < last (fst a) 0)%Q.
  { rewrite hd_nth, last_nth0 by exact L. apply inc_nth; [exact I|lia|lia]. }
  unfold meets. repeat split; lra.
Qed.
Lemma full_weight axes idx : Forall full_axis axes -> Forall2 (fun a k => k < length (fst a) - 1) axes idx ->
  (bin_weight fraction_of axes idx == 1)%Q.
Proof.
  intros F IN. revert F. induction IN as [|a k axes idx K IN IH]; intros F; [reflexivity|].
  inversion F as [|? ? [[I L] H] F']; subst. rewrite weight_cons, (IH F').
  assert (P : (0 < width (fst a) k)%Q) by (apply width_pos; assumption).
  unfold fraction_of. destruct (snd a) as [r|] eqn:E; [|reflexivity]. unfold fraction.
  destruct (H r eq_refl) as [H1 H2].
  assert (hd 0 (fst a) <= nth k (fst a) 0)%Q by (rewrite hd_nth; apply inc_nth_le; [exact I|lia|lia]).
  assert (nth (S k) (fst a) 0 <= last (fst a) 0)%Q by (rewrite last_nth0 by exact L; apply inc_nth_le; [exact I|lia|lia]).
  assert (nth k (fst a) 0 < nth (S k) (fst a) 0)%Q by (apply inc_nth; [exact I|lia|lia]).
  rewrite covered_full by lra. field. lra.
Qed.
Lemma kept_nothing axes idx : forallb integrated axes = true -> kept axes idx = [].
Proof.
  revert idx. induction axes as [|a axes IH]; intros idx H; [reflexivity|]. cbn in H. apply andb_true_iff in H. destruct H as [H1 H2].
  destruct idx as [|k idx]; [reflexivity|]. rewrite kept_cons, H1. apply IH, H2.
Qed.
Lemma integral_all w axes values : forallb integrated axes = true ->
  (integral w axes values [] == qsum (map (fun idx => t_get values idx * bin_weight w axes idx) (indices (bins_of axes))))%Q.
Proof.
  intros A. unfold integral. rewrite qsum_filter. apply qsum_ext. intros idx _. rewrite kept_nothing by exact A.
  destruct (list_eq_dec Nat.eq_dec [] []); [reflexivity|congruence].
Qed.
Lemma integral_total axes values : Forall full_axis axes -> forallb integrated axes = true -> t_shape values = bins_of axes ->
  (integral fraction_of axes values [] == total values)%Q.
Proof.
  intros F A SH. rewrite integral_all by exact A. unfold total. rewrite SH. apply qsum_ext. intros idx IN.
  apply bins_in in IN. rewrite full_weight by assumption. ring.
Qed.

(** ** Limits that do not meet the binning: one axis, outermost bin. *)
Lemma find_last e x : edges_ok e -> (last e 0 <= x)%Q -> find_bins x e = length e - 2.
Proof.
  intros [I L] H. assert (OK : edges_ok e) by (split; assumption).
  assert (HL : (hd 0 e < last e 0)%Q) by (rewrite hd_nth, last_nth0 by exact L; apply inc_nth; [exact I|lia|lia]).
  destruct (find_ok e x OK ltac:(lra)) as (K1&K2&[K3|K3]); [|exact K3].
  assert (nth (S (find_bins x e)) e 0 <= last e 0)%Q.
  { rewrite last_nth0 by exact L. apply inc_nth_le; [exact I|lia|lia]. } lra.
Qed.
Lemma find_first e x : edges_ok e -> (x <= hd 0 e)%Q -> find_bins x e = 0.
Proof.
  intros [I L] H. unfold find_bins. destruct e as [|a [|b r]]; cbn in L; try lia. cbn [hd] in H.
  assert (P : (a < b)%Q) by (apply (inc_nth (a :: b :: r) 0 1); [exact I|lia|cbn; lia]).
  cbn [upper_bound]. destruct (Qle_bool a x); [|reflexivity].
  destruct (Qle_bool b x) eqn:E; [apply Qle_bool_iff in E; lra|]. reflexivity.
Qed.
Lemma maximum_l a b : (b < a)%Q -> maximum a b = a.
Proof. intros H. destruct (maximum_case a b) as [[? ->]|[? ->]]; [lra|reflexivity]. Qed.
Lemma minimum_r a b : (b < a)%Q -> minimum a b = b.
Proof. intros H. destruct (minimum_case a b) as [[? ->]|[? ->]]; [lra|reflexivity]. Qed.
Lemma maximum_r a b : (a <= b)%Q -> maximum a b = b.
Proof. intros H. destruct (maximum_case a b) as [[? ->]|[? ->]]; [reflexivity|lra]. Qed.
Lemma minimum_l a b : (a <= b)%Q -> minimum a b = a.
Proof. intros H. destruct (minimum_case a b) as [[? ->]|[? ->]]; [reflexivity|lra]. Qed.

Lemma one_bin e b lo up values : edges_ok e -> b < length e - 1 -> t_shape values = [length e - 1] ->
  forall l u, maximum l (hd 0%Q e) = lo -> minimum u (last e 0%Q) = up -> find_bins lo e = b -> find_bins up e = b ->
  exists r, binned_rect_integration [(l, u)] [e] (Some values) None None = Ok r /\ t_shape r = [] /\
    (t_get r [] == t_get values [b] * ((up - lo) / width e b))%Q.
Proof.
  intros [I L] B SH l u E1 E2 F1 F2.
  unfold binned_rect_integration. cbn [bind fst snd]. rewrite SH. cbn [length seq bind cut_edges_and_bins mem Nat.eqb orb].
  unfold cut_axis. cbn [fst snd]. rewrite E1, E2, F1, F2.
  destruct (Nat.ltb_spec (b + 1) b); [lia|]. cbn [bind].
  replace (b + 1 - b) with 1 by lia. cbn [Nat.add].
  assert (SL : slice e b 2 = [nth b e 0%Q; nth (S b) e 0%Q]).
  { apply nth_ext with (d := 0%Q) (d' := 0%Q).
    - rewrite length_slice by lia. reflexivity.
    - intros n N. rewrite length_slice in N by lia. rewrite nth_slice by lia.
      destruct n as [|[|n]]; [rewrite Nat.add_0_r; reflexivity|rewrite Nat.add_1_r; reflexivity|lia]. }
  rewrite SL. change (mem Nat.eqb 0 [0]) with true. cbn [bind map c_lower c_upper slice_fits]. replace (b + 1 - b) with 1 by lia.
  assert (LE : Nat.leb (b + 1) (length e - 1) = true) by (apply Nat.leb_le; lia). rewrite LE.
  cbn [andb negb]. change (axes_fit 1 [0]) with true. cbn [negb].
  eexists. split; [reflexivity|]. split; [reflexivity|]. cbn [reduce_sum t_get t_shape].
  change (pick true 0 [0] [1]) with [1]. change (indices [1]) with [[0]]. unfold qsum. cbn [map fold_right length].
  change (merge 0 1 [0] [] [0]) with [0]. cbn [ add_index Nat.add c_scaled c_unscaled update_nth widths area nth].
  assert (P : (0 < width e b)%Q) by (apply width_pos; assumption). unfold width in *.
  field. lra.
Qed.

Lemma axes_fit_inv n ax : axes_fit n ax = true -> NoDup ax /\ forall a, In a ax -> a < n.
Proof.
  induction ax as [|a ax IH]; intros H; [split; [constructor|intros a []]|]. cbn [axes_fit] in H.
  apply andb_true_iff in H. destruct H as [H H3]. apply andb_true_iff in H. destruct H as [H1 H2].
  destruct (IH H3) as [N B]. apply Nat.ltb_lt in H1. split.
  - constructor; [|exact N]. intros I. apply (mem_In _ nat_eqb_ok) in I. rewrite I in H2. discriminate.
  - intros b [<-|I]; [exact H1|apply B, I].
Qed.
Lemma cut_length i edges ax lims cuts : cut_edges_and_bins i edges ax lims = Ok cuts -> length cuts = length edges.
Proof.
  revert i lims cuts. induction edges as [|e edges IH]; intros i lims cuts H; cbn in H; [injection H as <-; reflexivity|].
  destruct (mem Nat.eqb i ax).
  - destruct lims as [|l lims]; [discriminate|]. destruct (cut_axis e l) as [c|]; [|discriminate]. cbn in H.
    destruct (cut_edges_and_bins (S i) edges ax lims) as [cs|] eqn:E; [|discriminate]. cbn in H. injection H as <-.
    cbn. rewrite (IH _ _ _ E). reflexivity.
  - destruct (cut_edges_and_bins (S i) edges ax lims) as [cs|] eqn:E; [|discriminate]. cbn in H. injection H as <-.
    cbn. rewrite (IH _ _ _ E). reflexivity.
Qed.
Lemma slice_fits_length a b c : slice_fits a b c = true -> length a = length b.
Proof.
  revert b c. induction a as [|x a IH]; intros [|y b] [|z c] H; cbn in H; try discriminate; [reflexivity|].
  apply andb_true_iff in H. destruct H as [_ H]. cbn. rewrite (IH _ _ H). reflexivity.
Qed.
