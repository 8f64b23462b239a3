(** C76: kernel density estimates, bandwidths and findings. *)
From Verif Require Import Base BaseLemmas Hist_Model Hist_Spec Hist_Proofs3 Conv_Model Conv_Spec Conv_Proofs Conv_Proofs3
  Kde_Model Kde_Spec Kde_Proofs Kde_Proofs2 Kde_Proofs3 Kde_Proofs4 Kde_Proofs5 Kde_Theorems.
From Coq Require Import Qabs Lqa Permutation.
#[local] Open Scope string_scope.
#[local] Open Scope list_scope.
#[local] Open Scope nat_scope.

(** ** Bandwidths *)

(** The rules of thumb: a factor times the power of the number of events times the smaller one of
    standard deviation and distance of the quartiles. *)
Theorem C76_rules : forall root power xs, xs <> [] -> (forall a b, a == b -> root a == root b)%Q ->
  exists q1 q3 m, nearest_rank xs (1 # 4) q1 /\ nearest_rank xs (3 # 4) q3 /\
    (m == root (spread (with_weights xs None)) \/ m == q3 - q1)%Q /\ (m <= root (spread (with_weights xs None)))%Q /\ (m <= q3 - q1)%Q /\
    (exists h, silverman root power xs None = Ok h /\ (h == (9 # 10) * m * power (nat_q (length xs)))%Q) /\
    (exists h, scott root power xs None = Ok h /\ (h == (1059 # 1000) * m * power (nat_q (length xs)))%Q).
Proof.
  intros root power xs N R. exists (percentile xs (1 # 4)), (percentile xs (3 # 4)), (qmin2 (root (variance_q xs)) (percentile xs (3 # 4) - percentile xs (1 # 4)))%Q.
  split; [apply percentile_rank; [exact N|split; discriminate]|]. split; [apply percentile_rank; [exact N|split; discriminate]|].
  assert (E := R _ _ (spread_plain xs)). cbn [with_weights]. unfold qmin2. split; [|split; [|split; [|split]]].
  - destruct (Qle_bool _ _); [left; exact E|right; reflexivity].
  - destruct (Qle_bool _ _) eqn:C; [lra|]. assert (X : ~ (root (variance_q xs) <= percentile xs (3 # 4) - percentile xs (1 # 4))%Q) by (intros H; apply Qle_bool_iff in H; congruence). lra.
  - destruct (Qle_bool _ _) eqn:C; [apply Qle_bool_iff in C; exact C|lra].
  - eexists. split; [reflexivity|]. unfold qmin2. ring.
  - eexists. split; [reflexivity|]. unfold qmin2. ring.
Qed.
Print Assumptions C76_rules.

(** A change of the units of the data changes the bandwidth in the same way, ... *)
Theorem C76_rule_units : forall root power a c xs weights h,
  (0 < c)%Q -> usable xs weights -> xs <> [] -> root_at root c (spread (with_weights xs weights)) ->
  (silverman root power xs weights = Ok h -> exists h', silverman root power (map (affine a c) xs) weights = Ok h' /\ (h' == c * h)%Q) /\
  (scott root power xs weights = Ok h -> exists h', scott root power (map (affine a c) xs) weights = Ok h' /\ (h' == c * h)%Q).
Proof.
  intros root power a c xs weights h C U N R. assert (R' := root_at_spread root c xs weights (proj1 U) R).
  split; intros E; apply (rule_map a c C root power xs weights _ h U N R' E).
Qed.
Print Assumptions C76_rule_units.
(** ... and the default estimate of the transformed data is the transformed density. *)
Theorem C76_units : forall root power gmean isj K norm a c xs weights l l' d t,
  (0 < c)%Q -> usable xs weights -> xs <> [] -> root_at root c (spread (with_weights xs weights)) ->
  kernel_ok K -> moves_along K -> scales_along K ->
  exact_kde root power gmean isj K norm (Array xs) weights PadFalse l BwNone = Ok d ->
  exists d', exact_kde root power gmean isj K norm (Array (map (affine a c) xs)) weights PadFalse l' BwNone = Ok d' /\
             (mixture K d' (affine a c t) == mixture K d t / c)%Q.
Proof.
  intros root power gmean isj K norm a c xs weights l l' d t C U N R OK HM HS E. unfold exact_kde in E. cbn [convert_init bind fst snd input_bandwidth] in E.
  unfold methods in E. cbn [app lookup String.eqb Ascii.eqb Bool.eqb] in E.
  destruct (silverman root power xs weights) as [h|] eqn:SH; [|discriminate]. cbn [bind] in E.
  destruct (exact_global K xs weights h U) as [X M]. rewrite X in E. injection E as <-.
  destruct (proj1 (C76_rule_units root power a c xs weights h C U N R) SH) as [h' [SH' HH]].
  assert (U' : usable (map (affine a c) xs) weights).
  { destruct U as [U1 U2]. split; [intros w Hw; rewrite map_length; apply U1, Hw|]. rewrite with_weights_map, weight_map. exact U2. }
  destruct (exact_global K (map (affine a c) xs) weights h' U') as [X' M']. eexists. split.
  - unfold exact_kde. cbn [convert_init bind fst snd input_bandwidth]. unfold methods. cbn [app lookup String.eqb Ascii.eqb Bool.eqb]. rewrite SH'. cbn [bind]. exact X'.
  - rewrite M, M', with_weights_map. apply estimate_map; assumption.
Qed.
Print Assumptions C76_units.
(** a root that is exact for the numbers below *)
Definition some_root (v : Q) : Q := if Qeq_bool v 4 then 2%Q else if Qeq_bool v 36 then 6%Q else if Qeq_bool v (5 # 4) then 1%Q else v.
Example root_example : (spread (with_weights [-3; -1; 0; 1; 3] None) == 4)%Q /\ root_at some_root 3 (spread (with_weights [-3; -1; 0; 1; 3]%Q None)).
Proof.
  split; [reflexivity|]. split; [|reflexivity]. intros a b H. unfold some_root.
  assert (X : forall k, Qeq_bool a k = Qeq_bool b k).
  { intros k. destruct (Qeq_bool a k) eqn:A, (Qeq_bool b k) eqn:B; try reflexivity; exfalso.
    - apply Qeq_bool_iff in A. apply Qeq_bool_neq in B. apply B. rewrite <- H. exact A.
    - apply Qeq_bool_iff in B. apply Qeq_bool_neq in A. apply A. rewrite H. exact B. }
  rewrite !X. destruct (Qeq_bool b 4); [reflexivity|]. destruct (Qeq_bool b 36); [reflexivity|]. destruct (Qeq_bool b (5 # 4)); [reflexivity|exact H].
Qed.

(** A name that the class does not know is refused by all of them. *)
Theorem C76_unknown_name : forall root power gmean isj K norm xs weights l s,
  ~ In s ["scott"; "silverman"; "isj"; "adaptive"; "adaptive_geom"; "adaptive_std"; "adaptive_zfit"] ->
  exact_kde root power gmean isj K norm (Array xs) weights PadFalse l (BwName s) = Err ValueError /\
  (forall i, gaussian_kde root power gmean isj K norm (Array xs) weights i (BwName s) = Err ValueError) /\
  (forall b num, grid_kde root power gmean isj K norm (Array xs) weights PadFalse l (BwName s) b num = Err ValueError) /\
  (forall lim b num sup m, fft_kde_init root power gmean isj K (Array xs) weights PadFalse lim (BwName s) b num sup m = Err ValueError).
Proof.
  intros root power gmean isj K norm xs weights l s N.
  assert (NO : forall c, lookup String.eqb s (methods c) = None).
  { intros c. destruct (lookup String.eqb s (methods c)) as [m|] eqn:E; [|reflexivity]. exfalso. apply N.
    destruct c; cbn in E |- *; repeat match type of E with (if ?b then _ else _) = _ => destruct b eqn:?H end;
      repeat match goal with H : String.eqb _ _ = true |- _ => apply String.eqb_eq in H; subst end; try discriminate; tauto. }
  split; [|split; [|split]]; intros; unfold exact_kde, gaussian_kde, grid_kde, fft_kde_init; cbn [convert_init bind fst snd input_bandwidth]; rewrite ?NO; try reflexivity.
  destruct (mem String.eqb s _); reflexivity.
Qed.
Print Assumptions C76_unknown_name.

(** Adaptive bandwidths of weighted data: the weights only change a common factor, since the estimate
    that they are made from ignores the weights. *)
Theorem C76_adaptive_ignores_weights : forall root power gmean isj K norm xs w l l' d d' h0,
  scott root power xs None = Ok h0 -> ~ (h0 == 0)%Q -> length xs <> 1 ->
  exact_kde root power gmean isj K norm (Array xs) (Some w) PadFalse l (BwName "adaptive_zfit") = Ok d ->
  exact_kde root power gmean isj K norm (Array xs) None PadFalse l' (BwName "adaptive_zfit") = Ok d' ->
  exists r, Forall2 (fun s s' => s == r * s')%Q (k_scales d) (k_scales d').
Proof.
  intros root power gmean isj K norm xs w l l' d d' h0 H0 NZ N1 E E'. unfold exact_kde in E, E'. cbn [convert_init bind fst snd input_bandwidth] in E, E'.
  unfold methods in E, E'. cbn [app lookup String.eqb Ascii.eqb Bool.eqb] in E, E'. unfold initial_exact in E, E'.
  destruct (silverman root power xs None) as [h|]; [|discriminate]. cbn [bind] in E, E'.
  destruct (make_mixture xs (Global h) (calc_kernel_probs (length xs) None)) as [m|]; [|discriminate]. cbn [bind fst snd adaptive] in E, E'.
  rewrite H0 in E'. destruct (scott root power xs (Some w)) as [h1|]; [|discriminate]. cbn [bind] in E, E'. exists (h1 / h0)%Q.
  set (p := map (norm (mixture K m)) xs) in *. assert (Lp : length p = length xs) by apply map_length.
  assert (SC : forall e0 q D, make_mixture xs (Local (map (fun y => (e0 / (root y / mean_q (map root p)))%Q) p)) q = Ok D ->
            k_scales D = map (fun y => (e0 / (root y / mean_q (map root p)))%Q) p).
  { intros e0 q D. unfold make_mixture, broadcast_scale. destruct p as [|p1 [|p2 ps]] eqn:EP.
    - cbn [map length]. destruct (Nat.eqb 0 (length xs)); [|discriminate]. cbn [bind]. destruct (Nat.eqb _ _); [|discriminate]. intros [= <-]. reflexivity.
    - exfalso. apply N1. rewrite <- Lp. reflexivity.
    - rewrite map_length. cbn [map]. destruct (Nat.eqb (length (p1 :: p2 :: ps)) (length xs)); [|discriminate]. cbn [bind]. destruct (Nat.eqb _ _); [|discriminate]. intros [= <-]. reflexivity. }
  rewrite (SC _ _ _ E), (SC _ _ _ E'). generalize (mean_q (map root p)). intros mm. clear - NZ. induction p as [|y p IH]; constructor; [|exact IH].
  unfold Qdiv. assert (X : (h1 * / h0 * (h0 * / (root y * / mm)) == h1 * / (root y * / mm) * (h0 * / h0))%Q) by ring. rewrite X, Qmult_inv_r by exact NZ. ring.
Qed.
Print Assumptions C76_adaptive_ignores_weights.
Example adaptive_example :
  let b w := exact_kde (fun v => v) (fun n => / n)%Q (fun _ _ => 1%Q) (fun _ _ => 1%Q) triangle (fun f => f) (Array [0; 1; 2; 4]%Q) w PadFalse None (BwName "adaptive_zfit") in
  (exists d, b (Some [3; 1; 1; 1]%Q) = Ok d) /\ (exists d, b None = Ok d) /\
  exists h, scott (fun v => v) (fun n => / n)%Q [0; 1; 2; 4]%Q None = Ok h /\ ~ (h == 0)%Q.
Proof. cbv zeta. split; [eexists; vm_compute; reflexivity|]. split; [eexists; vm_compute; reflexivity|]. eexists. split; [vm_compute; reflexivity|vm_compute; discriminate]. Qed.

(** ** Findings *)

(** The documented rule divides the distance of the quartiles by 1.34; the code does not. *)
Theorem C76_documented_rule_refuted :
  ~ (forall root power xs q1 q3 h, root (spread (with_weights xs None)) * root (spread (with_weights xs None)) == spread (with_weights xs None) ->
       nearest_rank xs (1 # 4) q1 -> nearest_rank xs (3 # 4) q3 -> silverman root power xs None = Ok h ->
       h <= (9 # 10) * ((q3 - q1) / (134 # 100)) * power (nat_q (length xs)))%Q.
Proof.
  intros H. set (xs := [-3; -1; 0; 1; 3]%Q).
  specialize (H some_root (fun _ => 1%Q) xs _ _ (2 * 1 * (9 # 10))%Q ltac:(vm_compute; reflexivity)
    (percentile_rank xs (1 # 4) ltac:(discriminate) ltac:(split; discriminate)) (percentile_rank xs (3 # 4) ltac:(discriminate) ltac:(split; discriminate)) ltac:(vm_compute; reflexivity)).
  vm_compute in H. apply H. reflexivity.
Qed.
Print Assumptions C76_documented_rule_refuted.

(** Weights of one change the bandwidth: the weighted quartiles are other ones. *)
Theorem C76_unit_weights_refuted :
  ~ (forall root power xs h h', silverman root power xs None = Ok h -> silverman root power xs (Some (map (fun _ => 1%Q) xs)) = Ok h' -> h == h')%Q.
Proof.
  intros H. specialize (H (fun _ => 5%Q) (fun _ => 1%Q) [0; 1; 2; 3]%Q _ _ ltac:(vm_compute; reflexivity) ltac:(vm_compute; reflexivity)). vm_compute in H. discriminate.
Qed.
Print Assumptions C76_unit_weights_refuted.

(** "This will change the count of the events": the bandwidth uses the number of entries instead of the
    sum of the weights. *)
Theorem C76_bandwidth_copies_refuted :
  ~ (forall root power counts h h',
       silverman root power (map fst counts) (Some (map (fun c => nat_q (snd c)) counts)) = Ok h ->
       let xs := concat (map (fun c => repeat (fst c) (snd c)) counts) in
       silverman root power xs (Some (map (fun _ => 1%Q) xs)) = Ok h' -> h == h')%Q.
Proof.
  intros H. specialize (H (fun _ => (1 # 100)%Q) (fun n => / n)%Q [(0%Q, 2); (1%Q, 2); (2%Q, 2)] _ _ ltac:(vm_compute; reflexivity) ltac:(vm_compute; reflexivity)). vm_compute in H. discriminate.
Qed.
Print Assumptions C76_bandwidth_copies_refuted.

(** A largest event with more than half of the weight makes the default bandwidth fail. *)
Theorem C76_heavy_event_refuted :
  ~ (forall root power gmean isj K norm xs w l, usable xs (Some w) -> (forall y, In y w -> 0 < y)%Q ->
       exists d, exact_kde root power gmean isj K norm (Array xs) (Some w) PadFalse l BwNone = Ok d).
Proof.
  intros H. specialize (H (fun v => v) (fun v => v) (fun _ _ => 1%Q) (fun _ _ => 1%Q) triangle (fun f => f) [0; 1]%Q [1; 3]%Q None).
  destruct H as [d E].
  - split; [intros w [= <-]; reflexivity|vm_compute; discriminate].
  - intros y [<-|[<-|[]]]; reflexivity.
  - vm_compute in E. discriminate.
Qed.
Print Assumptions C76_heavy_event_refuted.

(** Events outside of the limits are mirrored into them. *)
Theorem C76_padding_outside_refuted :
  ~ (forall root power gmean isj K norm xs lo hi h d,
       exact_kde root power gmean isj K norm (Array xs) None PadTrue (Some (lo, hi)) (BwValue (Global h)) = Ok d ->
       let inside x := (Qle_bool lo x && Qle_bool x hi)%bool in
       length (filter inside (k_locs d)) = length (filter inside xs)).
Proof.
  intros H. specialize (H (fun v => v) (fun v => v) (fun _ _ => 1%Q) (fun _ _ => 1%Q) triangle (fun f => f) [- (1 # 2); 1 # 2]%Q 0%Q 1%Q 1%Q _ ltac:(vm_compute; reflexivity)).
  vm_compute in H. discriminate.
Qed.
Print Assumptions C76_padding_outside_refuted.

(** A grid estimate takes one bandwidth for each point of the grid; with padding this is refused. *)
Theorem C76_grid_local_padding_refuted :
  ~ (forall root power gmean isj K norm xs l hs num d, length hs = num ->
       grid_kde root power gmean isj K norm (Array xs) None PadFalse l (BwValue (Local hs)) "linear" num = Ok d ->
       exists d', grid_kde root power gmean isj K norm (Array xs) None PadTrue l (BwValue (Local hs)) "linear" num = Ok d').
Proof.
  intros H. specialize (H (fun v => v) (fun v => v) (fun _ _ => 1%Q) (fun _ _ => 1%Q) triangle (fun f => f) [0; 1; 2; 3]%Q (Some (0, 3)%Q) [1; 1; 1]%Q 3 _ ltac:(vm_compute; reflexivity) ltac:(vm_compute; reflexivity)).
  destruct H as [d E]. vm_compute in E. discriminate.
Qed.
Print Assumptions C76_grid_local_padding_refuted.

(** Equal events have an exact estimate, but none on a grid. *)
Theorem C76_equal_events_refuted :
  ~ (forall root power gmean isj K norm xs l h num d, 2 <= length xs -> 2 <= num ->
       exact_kde root power gmean isj K norm (Array xs) None PadFalse l (BwValue (Global h)) = Ok d ->
       exists d', grid_kde root power gmean isj K norm (Array xs) None PadFalse l (BwValue (Global h)) "linear" num = Ok d').
Proof.
  intros H. specialize (H (fun v => v) (fun v => v) (fun _ _ => 1%Q) (fun _ _ => 1%Q) triangle (fun f => f) [2; 2]%Q None 1%Q 5 _ ltac:(cbn; lia) ltac:(lia) ltac:(vm_compute; reflexivity)).
  destruct H as [d E]. vm_compute in E. discriminate.
Qed.
Print Assumptions C76_equal_events_refuted.

(** Simple binning does not count an event at the nearest point of the grid. *)
Theorem C76_simple_binning_refuted :
  ~ (forall root power gmean isj K norm xs l h num d k x,
       grid_kde root power gmean isj K norm (Array xs) None PadFalse l (BwValue (Global h)) "simple" num = Ok d ->
       k < num -> num = length xs -> In x xs ->
       (2 * Qabs (x - grid_point (grid_start xs) (grid_spacing xs num) k) < grid_spacing xs num)%Q ->
       ~ (nth k (k_probs d) 0 == 0)%Q).
Proof.
  intros H. apply (H (fun v => v) (fun v => v) (fun _ _ => 1%Q) (fun _ _ => 1%Q) triangle (fun f => f) [0; 6; 20]%Q None 1%Q 3 _ 1 6%Q ltac:(vm_compute; reflexivity)); try lia.
  - reflexivity.
  - right; left; reflexivity.
  - vm_compute. reflexivity.
  - vm_compute. reflexivity.
Qed.
Print Assumptions C76_simple_binning_refuted.

(** The other methods of the convolution fail, unless the kernel reaches exactly over the whole grid. *)
Theorem C76_fft_method : forall root power gmean isj K xs weights limits h num support m,
  let n := Nat.min (length xs) num in let dx := grid_spacing xs n in
  usable xs weights -> 2 <= n -> (qmin_list xs < qmax_list xs)%Q -> (0 <= support * h)%Q -> m <> "conv1d" ->
  (support * h < nat_q (n - 1) * dx \/ nat_q n * dx <= support * h)%Q ->
  fft_kde_init root power gmean isj K (Array xs) weights PadFalse limits (BwValue (Global h)) "linear" num (Some support) m = Err InvalidArgumentError.
Proof.
  intros root power gmean isj K xs weights limits h num support m n dx [W NZ] Hn R Hs M C. unfold fft_kde_init. cbn [convert_init bind fst snd input_bandwidth fft_support].
  unfold fft_grid. fold n. destruct (linear_bins xs n Hn R weights W NZ) as [g [E [L [S A]]]]. rewrite E. cbn [bind].
  assert (D := dx_pos xs n Hn R). fold dx in D.
  assert (Lg : length (generate_1d_grid xs n) = n) by (apply grid_len; assumption).
  rewrite fft_method_length; [reflexivity|lia|congruence|exact M|]. rewrite Lg.
  set (q := ((qmax_list (generate_1d_grid xs n) - qmin_list (generate_1d_grid xs n)) / nat_q (n - 1))%Q).
  assert (EQ : (q == dx)%Q).
  { unfold q. rewrite <- Lg at 3. apply (Hist_Proofs5.grid_step (grid_start xs) dx n _ D Hn (grid_regular xs n R)). }
  rewrite (reach_comp support h q dx n EQ). destruct (reach_facts support h dx n D Hs) as [R1 [R2 R3]]. intros Z.
  destruct C as [C|C].
  - apply (Qlt_not_le _ _ C). replace (n - 1) with (kernel_reach support h dx n) by lia. exact R2.
  - destruct R3 as [R3|R3]; [lia|]. rewrite Z in R3. apply (Qlt_not_le _ _ R3). exact C.
Qed.
Print Assumptions C76_fft_method.
Example fft_method_example : ((3 # 1) * (1 # 2) < nat_q (4 - 1) * grid_spacing [0; 1; 4; 10] 4)%Q.
Proof. reflexivity. Qed.

(** Far away from all events the convolution still gives a density. *)
Theorem C76_convolution_outside_refuted :
  ~ (forall root power gmean isj K xs limits h num support d r t,
       reaches K h r -> (forall x, In x xs -> 10 * r <= Qabs (x - t))%Q ->
       fft_kde_init root power gmean isj K (Array xs) None PadFalse limits (BwValue (Global h)) "linear" num (Some support) "conv1d" = Ok d ->
       fft_pdf d t == 0)%Q.
Proof.
  intros H. specialize (H (fun v => v) (fun v => v) (fun _ _ => 1%Q) (fun _ _ => 1%Q) triangle [0; 1; 2; 3; 4]%Q (0, 4)%Q 1%Q 10 2%Q _ 1%Q 100%Q
    (triangle_reaches 1 ltac:(reflexivity)) ltac:(intros x [<-|[<-|[<-|[<-|[<-|[]]]]]]; vm_compute; discriminate) ltac:(vm_compute; reflexivity)).
  vm_compute in H. discriminate.
Qed.
Print Assumptions C76_convolution_outside_refuted.

(** Without a support the kernel is cut off at 1.2 times the size of the space (with its unit) times the
    bandwidth: the same data in other units has another density. *)
Theorem C76_default_support_refuted :
  ~ (forall root power gmean isj K xs lo hi h num c d d' t, (0 < c)%Q -> kernel_ok K -> moves_along K -> scales_along K ->
       fft_kde_init root power gmean isj K (Array xs) None PadFalse (lo, hi) (BwValue (Global h)) "linear" num None "conv1d" = Ok d ->
       fft_kde_init root power gmean isj K (Array (map (fun x => c * x)%Q xs)) None PadFalse (c * lo, c * hi)%Q (BwValue (Global (c * h)%Q)) "linear" num None "conv1d" = Ok d' ->
       (fft_pdf d' (c * t) == fft_pdf d t / c)%Q).
Proof.
  intros H. specialize (H (fun v => v) (fun v => v) (fun _ _ => 1%Q) (fun _ _ => 1%Q) triangle [0; 1; 2; 3; 4; 5; 6]%Q 0%Q 6%Q 3%Q 10 (1 # 20)%Q _ _ 2%Q eq_refl
    triangle_ok triangle_moves triangle_scales ltac:(vm_compute; reflexivity) ltac:(vm_compute; reflexivity)). vm_compute in H. discriminate.
Qed.
Print Assumptions C76_default_support_refuted.
