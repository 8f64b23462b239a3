(** Proofs for Kde_Theorems.v: the grid and the convolution. *)
From Verif Require Import Base BaseLemmas Hist_Model Hist_Spec Hist_Proofs Hist_Proofs3 Hist_Proofs5 AccRej_Model Conv_Model Conv_Spec Conv_Proofs Conv_Proofs2 Conv_Proofs3
  Kde_Model Kde_Spec Kde_Proofs Kde_Proofs2.
From Coq Require Import Qabs Qround Lqa Permutation.
#[local] Open Scope nat_scope.

Lemma qmin_fold_in l : forall a, In (fold_left (fun m x => if Qle_bool m x then m else x) l a) (a :: l) /\
  forall x, In x (a :: l) -> (fold_left (fun m x => if Qle_bool m x then m else x) l a <= x)%Q.
Proof.
  induction l as [|y l IH]; intros a; cbn [fold_left].
  - split; [left; reflexivity|]. intros x [<-|[]]. lra.
  - destruct (IH (if Qle_bool a y then a else y)) as [I M]. destruct (Qle_bool a y) eqn:E.
    + apply Qle_bool_iff in E. split; [destruct I as [<-|I]; [left; reflexivity|right; right; exact I]|].
      intros x [<-|[<-|J]]; [apply M; left; reflexivity| |apply M; right; exact J]. specialize (M a (or_introl eq_refl)). lra.
    + assert (~ (a <= y)%Q) by (intros L; apply Qle_bool_iff in L; congruence).
      split; [destruct I as [<-|I]; [right; left; reflexivity|right; right; exact I]|].
      intros x [<-|[<-|J]]; [|apply M; left; reflexivity|apply M; right; exact J]. specialize (M y (or_introl eq_refl)). lra.
Qed.
Lemma qmin_smallest xs : xs <> [] -> smallest xs (qmin_list xs).
Proof. destruct xs as [|a l]; [congruence|]. intros _. apply qmin_fold_in. Qed.
Lemma qmax_fold_in l : forall a, In (fold_left (fun m x => if Qle_bool x m then m else x) l a) (a :: l) /\
  forall x, In x (a :: l) -> (x <= fold_left (fun m x => if Qle_bool x m then m else x) l a)%Q.
Proof.
  induction l as [|y l IH]; intros a; cbn [fold_left].
  - split; [left; reflexivity|]. intros x [<-|[]]. lra.
  - destruct (IH (if Qle_bool y a then a else y)) as [I M]. destruct (Qle_bool y a) eqn:E.
    + apply Qle_bool_iff in E. split; [destruct I as [<-|I]; [left; reflexivity|right; right; exact I]|].
      intros x [<-|[<-|J]]; [apply M; left; reflexivity| |apply M; right; exact J]. specialize (M a (or_introl eq_refl)). lra.
    + assert (~ (y <= a)%Q) by (intros L; apply Qle_bool_iff in L; congruence).
      split; [destruct I as [<-|I]; [right; left; reflexivity|right; right; exact I]|].
      intros x [<-|[<-|J]]; [|apply M; left; reflexivity|apply M; right; exact J]. specialize (M y (or_introl eq_refl)). lra.
Qed.
Lemma qmax_largest xs : xs <> [] -> largest xs (qmax_list xs).
Proof. destruct xs as [|a l]; [congruence|]. intros _. apply qmax_fold_in. Qed.

Lemma Forall2_maps {A} (f g : A -> Q) l : (forall a, In a l -> f a == g a)%Q -> Forall2 Qeq (map f l) (map g l).
Proof. induction l as [|a l IH]; intros H; constructor; [apply H; left; reflexivity|apply IH; intros; apply H; right; assumption]. Qed.

Lemma nat_q_pos k : 1 <= k -> (0 < nat_q k)%Q.
Proof. intros H. unfold nat_q. change 0%Q with (inject_Z 0). rewrite <- Zlt_Qlt. lia. Qed.
Lemma nat_q_le a b : a <= b <-> (nat_q a <= nat_q b)%Q.
Proof. unfold nat_q. rewrite <- Zle_Qle. lia. Qed.

(** ** The grid *)
Section Grid.
Variables (xs : list Q) (n : nat).
Hypothesis Hn : 2 <= n.
Hypothesis Hrange : (qmin_list xs < qmax_list xs)%Q.
Notation g0 := (grid_start xs).
Notation dx := (grid_spacing xs n).
Notation grid := (generate_1d_grid xs n).

Lemma dx_pos : (0 < dx)%Q.
Proof.
  unfold grid_spacing. apply Qlt_shift_div_l; [apply nat_q_pos; lia|]. unfold grid_end, grid_start. lra.
Qed.
Lemma grid_regular : Forall2 Qeq grid (regular_grid g0 dx n).
Proof.
  unfold generate_1d_grid, linspace, regular_grid.
  replace (Qle_bool 0 ((1 # 20) * (qmax_list xs - qmin_list xs)))%Q with true by (symmetry; apply Qle_bool_iff; lra).
  apply Forall2_maps. intros k _. unfold grid_point, grid_spacing, grid_start, grid_end, nat_q. reflexivity.
Qed.
Lemma grid_point_last : (grid_point g0 dx (n - 1) == grid_end xs)%Q.
Proof. unfold grid_point, grid_spacing. assert (P := nat_q_pos (n - 1) ltac:(lia)). unfold nat_q in *. field. lra. Qed.
Lemma nonempty : xs <> [].
Proof. intros E. rewrite E in Hrange. cbn in Hrange. lra. Qed.
Lemma data_within : Forall (within_grid g0 dx n) xs.
Proof.
  apply Forall_forall. intros x I. unfold within_grid. rewrite grid_point_last. unfold grid_start, grid_end.
  destruct (qmin_smallest xs nonempty) as [_ A]. destruct (qmax_largest xs nonempty) as [_ B]. specialize (A x I). specialize (B x I). split; lra.
Qed.
Lemma grid_len : length grid = n.
Proof. apply (grid_length g0 dx n grid grid_regular). Qed.
Lemma grid_ends : (qmin_list grid == g0)%Q /\ (qmax_list grid == grid_end xs)%Q.
Proof.
  split; [apply (grid_min g0 dx n grid dx_pos Hn grid_regular)|].
  rewrite (grid_max g0 dx n grid dx_pos Hn grid_regular). apply grid_point_last.
Qed.
Lemma ends_differ : Qeq_bool (qmin_list grid) (qmax_list grid) = false.
Proof.
  destruct (Qeq_bool _ _) eqn:E; [|reflexivity]. apply Qeq_bool_iff in E. destruct grid_ends as [A B]. rewrite A, B in E.
  unfold grid_start, grid_end in E. lra.
Qed.
Lemma grid_nth_eq k : k < n -> (nth k grid 0 == grid_point g0 dx k)%Q.
Proof.
  intros H. destruct (grid_nth g0 dx n grid grid_regular k H) as [x [E X]].
  rewrite (nth_error_nth grid k 0%Q E). exact X.
Qed.

(** What the linear binning gives *)
Lemma linear_bins weights : (forall w, weights = Some w -> length w = length xs) -> ~ (weight_of (with_weights xs weights) == 0)%Q ->
  exists g, bin_1d "linear" xs grid weights = Ok g /\ length g = n /\ (qsum g == 1)%Q /\
    forall k, k < n -> (nth k g 0 == average (fun x => tri ((x - grid_point g0 dx k) / dx)) (with_weights xs weights))%Q.
Proof.
  intros W NZ. rewrite weight_of_wts in NZ by exact W. unfold bin_1d. cbn [String.eqb Ascii.eqb Bool.eqb orb]. rewrite ends_differ.
  destruct (bin_form g0 dx n grid dx_pos Hn grid_regular false xs weights data_within) as [out [E [L A]]].
  exists out. split; [exact E|]. split; [exact L|]. split; [apply (bin_total g0 dx n grid dx_pos Hn grid_regular false xs weights out data_within W NZ E)|].
  intros k Hk. rewrite (A k Hk). unfold average. rewrite weight_of_wts by exact W. rewrite <- qsum_map_div.
  rewrite with_weights_wts. apply qsum_ext. intros [x w] Hp. cbn [fst snd].
  rewrite (share_tri g0 dx n grid dx_pos Hn grid_regular k x).
  - unfold Qdiv. ring.
  - apply in_combine_l in Hp. pose proof data_within as D. rewrite Forall_forall in D. apply D, Hp.
Qed.
End Grid.

(** Sums over a list of indices *)
Lemma qsum_swap {A B} (f : A -> B -> Q) a b :
  (qsum (map (fun x => qsum (map (f x) b)) a) == qsum (map (fun y => qsum (map (fun x => f x y) a)) b))%Q.
Proof.
  induction a as [|x a IH]; cbn [map]; [cbn; symmetry; assert (Z : forall l : list B, (qsum (map (fun _ => 0) l) == 0)%Q)
    by (induction l as [|? ? H]; [reflexivity|cbn [map]; rewrite qsum_cons, H; ring]); apply Z|].
  rewrite qsum_cons, IH, <- qsum_map_add. apply qsum_ext. intros y _. rewrite qsum_cons. reflexivity.
Qed.
Lemma map_nth_seq {A} (l : list A) d : l = map (fun i => nth i l d) (seq 0 (length l)).
Proof.
  induction l as [|a l IH]; [reflexivity|]. cbn [length seq map]. rewrite <- seq_shift, map_map. cbn [nth]. f_equal. exact IH.
Qed.
Lemma total_qsum n f : (total n f == qsum (map f (seq 0 n)))%Q.
Proof.
  induction n as [|n IH]; [reflexivity|]. rewrite seq_S. cbn [total]. rewrite map_app, qsum_app, IH. cbn. ring.
Qed.
Lemma combine_nth_seq (a b : list Q) (f : Q -> Q -> Q) : length a = length b ->
  (qsum (map (fun e => f (fst e) (snd e)) (combine a b)) == qsum (map (fun k => f (nth k a 0) (nth k b 0)) (seq 0 (length a))))%Q.
Proof.
  revert b. induction a as [|x a IH]; intros [|y b] L; try discriminate; [reflexivity|].
  cbn [combine map length seq fst snd nth]. rewrite !qsum_cons, IH by (injection L; auto). rewrite <- seq_shift, map_map. reflexivity.
Qed.

(** The mixture on a grid with one bandwidth *)
Lemma grid_mixture_value K xs n h g t : 2 <= n -> (qmin_list xs < qmax_list xs)%Q -> kernel_ok K -> length g = n -> (qsum g == 1)%Q ->
  (mixture K (Kde (generate_1d_grid xs n) (repeat h n) g) t ==
   qsum (map (fun k => nth k g 0 * K (grid_point (grid_start xs) (grid_spacing xs n) k) h t) (seq 0 n)))%Q.
Proof.
  intros Hn R OK L S. unfold mixture. cbn [k_locs k_scales k_probs].
  set (grid := generate_1d_grid xs n). assert (Lg : length grid = n) by (apply grid_len; assumption).
  assert (E : map (fun e => snd e / qsum g * K (fst (fst e)) (snd (fst e)) t)%Q (combine (combine grid (repeat h n)) g) =
              map (fun e => snd e / qsum g * K (fst e) h t)%Q (combine grid g)).
  { rewrite <- Lg in L |- *. clearbody grid. clear - L. set (q := qsum g). clearbody q.
    revert g L. induction grid as [|x gr IH]; intros [|y g] L; try discriminate; [reflexivity|].
    cbn [length repeat combine map fst snd]. f_equal. apply IH. injection L; auto. }
  rewrite E. rewrite (combine_nth_seq grid g (fun x p => p / qsum g * K x h t)%Q) by congruence. rewrite Lg.
  apply qsum_ext. intros k I. apply in_seq in I. rewrite S.
  rewrite (OK (nth k grid 0%Q) (grid_point (grid_start xs) (grid_spacing xs n) k) h h t t); [field|apply grid_nth_eq; try assumption; lia|reflexivity|reflexivity].
Qed.

Lemma grid_average K xs n h g t weights : 2 <= n -> (qmin_list xs < qmax_list xs)%Q -> kernel_ok K -> length g = n -> (qsum g == 1)%Q ->
  (forall k, k < n -> (nth k g 0 == average (fun x => tri ((x - grid_point (grid_start xs) (grid_spacing xs n) k) / grid_spacing xs n)) (with_weights xs weights))%Q) ->
  (mixture K (Kde (generate_1d_grid xs n) (repeat h n) g) t ==
   average (interpolate (grid_start xs) (grid_spacing xs n) n (fun x => K x h t)) (with_weights xs weights))%Q.
Proof.
  intros Hn R OK L S A. rewrite grid_mixture_value by assumption.
  set (P := grid_point (grid_start xs) (grid_spacing xs n)) in *. set (d := grid_spacing xs n) in *. set (evs := with_weights xs weights) in *.
  transitivity (qsum (map (fun k => qsum (map (fun e => snd e * (tri ((fst e - P k) / d) * K (P k) h t)) evs)) (seq 0 n)) / weight_of evs)%Q.
  - rewrite <- qsum_map_div. apply qsum_ext. intros k I. apply in_seq in I. rewrite (A k) by lia. unfold average.
    assert (E : (qsum (map (fun e => snd e * (tri ((fst e - P k) / d) * K (P k) h t)) evs) ==
                 K (P k) h t * qsum (map (fun e => snd e * tri ((fst e - P k) / d)) evs))%Q).
    { rewrite <- qsum_map_mul. apply qsum_ext. intros e _. ring. }
    rewrite E. unfold Qdiv. ring.
  - rewrite (qsum_swap (fun k e => snd e * (tri ((fst e - P k) / d) * K (P k) h t))%Q). unfold average, interpolate. fold P d.
    assert (E : (qsum (map (fun y : event => qsum (map (fun x => snd y * (tri ((fst y - P x) / d) * K (P x) h t)) (seq 0 n))) evs) ==
                 qsum (map (fun e => snd e * qsum (map (fun k => tri ((fst e - P k) / d) * K (P k) h t) (seq 0 n))) evs))%Q).
    { apply qsum_ext. intros e _. rewrite <- qsum_map_mul. reflexivity. }
    rewrite E. reflexivity.
Qed.

(** ** The convolution *)
Lemma window (H : Z -> Q) a k M : (forall z, (z < a)%Z \/ (a + Z.of_nat k <= z)%Z -> (H z == 0)%Q) ->
  (- Z.of_nat M <= a)%Z -> (a + Z.of_nat k <= Z.of_nat M + 1)%Z ->
  (total (2 * M + 1) (fun i => H (Z.of_nat i - Z.of_nat M)%Z) == total k (fun i => H (a + Z.of_nat i)%Z))%Q.
Proof.
  intros Z A B. set (p := Z.to_nat (a + Z.of_nat M)). set (q := 2 * M + 1 - p - k).
  replace (2 * M + 1) with ((k + q) + p) by (subst q p; lia). rewrite total_low by (intros i Hi; apply Z; subst p; lia).
  rewrite total_high by (intros i H1 H2; apply Z; subst p; lia). apply total_ext. intros i Hi.
  replace (Z.of_nat (i + p) - Z.of_nat M)%Z with (a + Z.of_nat i)%Z by (subst p; lia). reflexivity.
Qed.
Lemma correlation (F G : Z -> Q) n L j : j < n -> (forall z, (z < 0)%Z \/ (Z.of_nat n <= z)%Z -> (F z == 0)%Q) ->
  (forall z, (z < - Z.of_nat L)%Z \/ (Z.of_nat L < z)%Z -> (G z == 0)%Q) ->
  (total (2 * L + 1) (fun i => F (Z.of_nat j + Z.of_nat i - Z.of_nat L)%Z * G (Z.of_nat i - Z.of_nat L)%Z) ==
   total n (fun m => F (Z.of_nat m) * G (Z.of_nat m - Z.of_nat j)%Z))%Q.
Proof.
  intros Hj HF HG. set (H := fun z => (F z * G (z - Z.of_nat j)%Z)%Q). set (M := n + L + 1).
  transitivity (total (2 * M + 1) (fun i => H (Z.of_nat i - Z.of_nat M)%Z)).
  - rewrite (window H (Z.of_nat j - Z.of_nat L) (2 * L + 1) M); [|intros z Hz; unfold H; rewrite HG by lia; ring|subst M; lia|subst M; lia].
    apply total_ext. intros i Hi. unfold H.
    replace (Z.of_nat j - Z.of_nat L + Z.of_nat i)%Z with (Z.of_nat j + Z.of_nat i - Z.of_nat L)%Z by lia.
    replace (Z.of_nat j + Z.of_nat i - Z.of_nat L - Z.of_nat j)%Z with (Z.of_nat i - Z.of_nat L)%Z by lia. reflexivity.
  - rewrite (window H 0 n M); [|intros z Hz; unfold H; rewrite HF by lia; ring|subst M; lia|subst M; lia].
    apply total_ext. intros i Hi. unfold H. rewrite Z.add_0_l. reflexivity.
Qed.

Lemma removelast_nth {A} (l : list A) k : S k < length l -> nth_error (removelast l) k = nth_error l k.
Proof.
  revert k. induction l as [|x [|y l] IH]; intros k H; cbn [length] in *; [lia|lia|].
  change (removelast (x :: y :: l)) with (x :: removelast (y :: l)).
  destruct k as [|k]; [reflexivity|]. cbn [nth_error]. apply IH. cbn [length]. lia.
Qed.
Lemma removelast_len {A} (l : list A) : length (removelast l) = length l - 1.
Proof.
  induction l as [|x [|y l] IH]; [reflexivity|reflexivity|].
  change (removelast (x :: y :: l)) with (x :: removelast (y :: l)). cbn [length] in *. rewrite IH. lia.
Qed.
Lemma side_nth K h dx L m : kernel_ok K -> m <= L ->
  (nth m (map (K 0%Q h) (linspace 0 (dx * nat_q L) (S L))) 0 == K 0 h (nat_q m * dx))%Q.
Proof.
  intros OK H. rewrite map_linspace by lia. rewrite linspace_nth by lia. apply OK; [reflexivity|reflexivity|].
  replace (S L - 1) with L by lia. unfold qn. fold (nat_q L) (nat_q m). destruct (Nat.eq_dec L 0) as [->|NZ].
  - replace m with 0 by lia. unfold nat_q. cbn. ring.
  - assert (P := nat_q_pos L ltac:(lia)). field. lra.
Qed.
Lemma kernel_weights_length K h dx L : length (kernel_weights K h dx L) = 2 * L + 1.
Proof.
  unfold kernel_weights. rewrite app_length, removelast_len, rev_length, map_length, linspace_length. lia.
Qed.
Lemma kernel_weights_nth K h dx L i : kernel_ok K -> i < 2 * L + 1 ->
  (nth i (kernel_weights K h dx L) 0 == K 0 h (nat_q (Z.to_nat (Z.abs (Z.of_nat i - Z.of_nat L))) * dx))%Q.
Proof.
  intros OK H. unfold kernel_weights. set (side := map (K 0%Q h) (linspace 0 (dx * nat_q L) (S L))).
  assert (Ls : length side = S L) by (unfold side; rewrite map_length; apply linspace_length).
  assert (Lr : length (removelast (rev side)) = L) by (rewrite removelast_len, rev_length; lia).
  destruct (Nat.lt_ge_cases i L) as [C|C].
  - rewrite app_nth1 by lia.
    assert (E : nth i (removelast (rev side)) 0%Q = nth i (rev side) 0%Q).
    { assert (X := removelast_nth (rev side) i ltac:(rewrite rev_length; lia)).
      destruct (nth_error (rev side) i) as [v|] eqn:V; [|apply nth_error_None in V; rewrite rev_length in V; lia].
      rewrite (nth_error_nth _ _ 0%Q X), (nth_error_nth _ _ 0%Q V). reflexivity. }
    rewrite E, rev_nth by lia. rewrite Ls. replace (S L - S i) with (L - i) by lia. unfold side. rewrite side_nth by (try exact OK; lia).
    replace (Z.to_nat (Z.abs (Z.of_nat i - Z.of_nat L))) with (L - i) by lia. reflexivity.
  - rewrite app_nth2 by lia. rewrite Lr. unfold side. rewrite side_nth by (try exact OK; lia).
    replace (Z.to_nat (Z.abs (Z.of_nat i - Z.of_nat L))) with (i - L) by lia. reflexivity.
Qed.

Definition dist_nat (a b : nat) : nat := (a - b) + (b - a).
Lemma at_or_zero_out l z : (z < 0)%Z \/ (Z.of_nat (length l) <= z)%Z -> at_or_zero l z = 0%Q.
Proof. intros H. unfold at_or_zero. destruct (Z.ltb z 0) eqn:E; [reflexivity|]. apply Z.ltb_ge in E. apply nth_overflow. lia. Qed.
Lemma same_values K h dx L g j : kernel_ok K -> j < length g ->
  (nth j (correlate_same g (kernel_weights K h dx L)) 0 ==
   total (length g) (fun m => nth m g 0 * (if Nat.leb (dist_nat m j) L then K 0 h (nat_q (dist_nat m j) * dx) else 0)))%Q.
Proof.
  intros OK Hj. unfold correlate_same. rewrite kernel_weights_length.
  set (f := fun i => sumf _ _). rewrite (nth_indep _ 0%Q (f 0)) by (rewrite map_length, seq_length; exact Hj).
  rewrite (map_nth f), seq_nth by exact Hj. unfold f. rewrite sumf_total. cbn [Nat.add].
  replace ((2 * L + 1 - 1) / 2) with L by (replace (2 * L + 1 - 1) with (L * 2) by lia; rewrite Nat.div_mul; lia).
  set (G := fun z : Z => if Z.leb (Z.abs z) (Z.of_nat L) then K 0%Q h (nat_q (Z.to_nat (Z.abs z)) * dx)%Q else 0%Q).
  transitivity (total (2 * L + 1) (fun i => at_or_zero g (Z.of_nat j + Z.of_nat i - Z.of_nat L) * G (Z.of_nat i - Z.of_nat L)%Z)%Q).
  - apply total_ext. intros i Hi. rewrite kernel_weights_nth by (try exact OK; exact Hi). unfold G.
    replace (Z.abs (Z.of_nat i - Z.of_nat L) <=? Z.of_nat L)%Z with true by (symmetry; apply Z.leb_le; lia). reflexivity.
  - rewrite (correlation (at_or_zero g) G (length g) L j Hj).
    + apply total_ext. intros m Hm. unfold at_or_zero. replace (Z.of_nat m <? 0)%Z with false by (symmetry; apply Z.ltb_ge; lia).
      rewrite Nat2Z.id. unfold G. replace (Z.to_nat (Z.abs (Z.of_nat m - Z.of_nat j))) with (dist_nat m j) by (unfold dist_nat; lia).
      destruct (Nat.leb (dist_nat m j) L) eqn:E.
      * apply Nat.leb_le in E. replace (Z.abs (Z.of_nat m - Z.of_nat j) <=? Z.of_nat L)%Z with true by (symmetry; apply Z.leb_le; unfold dist_nat in E; lia). reflexivity.
      * apply Nat.leb_gt in E. replace (Z.abs (Z.of_nat m - Z.of_nat j) <=? Z.of_nat L)%Z with false by (symmetry; apply Z.leb_gt; unfold dist_nat in E; lia). reflexivity.
    + intros z Hz. rewrite at_or_zero_out by exact Hz. reflexivity.
    + intros z Hz. unfold G. replace (Z.abs z <=? Z.of_nat L)%Z with false by (symmetry; apply Z.leb_gt; lia). reflexivity.
Qed.
