(** C76: kernel density estimates. *)
From Verif Require Import Base BaseLemmas Hist_Model Hist_Spec Hist_Proofs3 Conv_Model Conv_Spec Conv_Proofs Conv_Proofs3
  Kde_Model Kde_Spec Kde_Proofs Kde_Proofs2 Kde_Proofs3 Kde_Proofs4 Kde_Proofs5.
From Coq Require Import Qabs Lqa Permutation.
#[local] Open Scope string_scope.
#[local] Open Scope list_scope.
#[local] Open Scope nat_scope.

(** ** The exact estimate *)

(** With one bandwidth the density (and the cdf) is the weighted mean of the kernels (of their cdfs). *)
Theorem C76_exact : forall root power gmean isj K norm xs weights limits h,
  usable xs weights ->
  exists d, exact_kde root power gmean isj K norm (Array xs) weights PadFalse limits (BwValue (Global h)) = Ok d /\
            (forall inside, match inside with Some p => forallb p xs = true | None => True end ->
               gaussian_kde root power gmean isj K norm (Array xs) weights inside (BwValue (Global h)) = Ok d) /\
            forall F t, (mixture F d t == estimate F h (with_weights xs weights) t)%Q.
Proof.
  intros root power gmean isj K norm xs weights limits h U. destruct (exact_global K xs weights h U) as [E M].
  eexists. split; [|split; [|exact M]].
  - unfold exact_kde. cbn [convert_init bind fst snd input_bandwidth]. exact E.
  - intros i Hi. unfold gaussian_kde. cbn [convert_init bind fst snd input_bandwidth]. destruct i as [p|]; [rewrite Hi|]; exact E.
Qed.
Print Assumptions C76_exact.
Example usable_example : usable [1; 2; 5]%Q (Some [1; 1 # 2; 2]%Q).
Proof. split; [intros w [= <-]; reflexivity|vm_compute; discriminate]. Qed.

(** An array has one bandwidth for each event. *)
Theorem C76_local : forall root power gmean isj K norm xs weights limits hs,
  usable xs weights ->
  (length hs = length xs ->
   exists d, exact_kde root power gmean isj K norm (Array xs) weights PadFalse limits (BwValue (Local hs)) = Ok d /\
             forall F t, (mixture F d t == local_estimate F (combine (with_weights xs weights) hs) t)%Q) /\
  (length hs <> length xs -> length hs <> 1 ->
   exact_kde root power gmean isj K norm (Array xs) weights PadFalse limits (BwValue (Local hs)) = Err ValueError).
Proof.
  intros root power gmean isj K norm xs weights limits hs U. split.
  - intros L. destruct (exact_local xs weights hs U L) as [d [E M]]. exists d. split; [|exact M].
    unfold exact_kde. cbn [convert_init bind fst snd input_bandwidth]. exact E.
  - intros L L1. unfold exact_kde. cbn [convert_init bind fst snd input_bandwidth]. unfold make_mixture, broadcast_scale.
    apply Nat.eqb_neq in L. destruct hs as [|a [|b hs]]; [rewrite L; reflexivity|contradiction L1; reflexivity|rewrite L; reflexivity].
Qed.
Print Assumptions C76_local.

(** A data object brings its own weights; two sets of weights and more than one observable are refused. *)
Theorem C76_data_object : forall root power gmean isj K norm rows n_obs w weights pad limits bw,
  let build i w := exact_kde root power gmean isj K norm i w pad limits bw in
  (w <> None -> weights <> None -> build (DataObject rows n_obs w) weights = Err OverdefinedError) /\
  (w = None \/ weights = None -> 1 < n_obs -> build (DataObject rows n_obs w) weights = Err ShapeIncompatibleError) /\
  (n_obs = 1 -> weights = None -> build (DataObject rows n_obs w) weights = build (Array (map (fun r => nth 0 r 0%Q) rows)) w) /\
  (n_obs = 1 -> w = None -> build (DataObject rows n_obs w) weights = build (Array (map (fun r => nth 0 r 0%Q) rows)) weights).
Proof.
  intros root power gmean isj K norm rows n_obs w weights pad limits bw build. unfold build, exact_kde, convert_init. split; [|split; [|split]].
  - intros A B. destruct w; [|congruence]. destruct weights; [|congruence]. reflexivity.
  - intros A B. apply Nat.ltb_lt in B. rewrite B. destruct w, weights; try reflexivity. destruct A; discriminate.
  - intros -> ->. destruct w; reflexivity.
  - intros -> ->. destruct weights; reflexivity.
Qed.
Print Assumptions C76_data_object.

(** The order of the events does not matter. *)
Theorem C76_order : forall root power gmean isj K norm xs weights xs' weights' l l' h d d' F t,
  usable xs weights -> usable xs' weights' -> Permutation (with_weights xs weights) (with_weights xs' weights') ->
  exact_kde root power gmean isj K norm (Array xs) weights PadFalse l (BwValue (Global h)) = Ok d ->
  exact_kde root power gmean isj K norm (Array xs') weights' PadFalse l' (BwValue (Global h)) = Ok d' ->
  (mixture F d t == mixture F d' t)%Q.
Proof.
  intros root power gmean isj K norm xs weights xs' weights' l l' h d d' F t U U' P E E'.
  destruct (C76_exact root power gmean isj K norm xs weights l h U) as [e [X [_ M]]]. destruct (C76_exact root power gmean isj K norm xs' weights' l' h U') as [e' [X' [_ M']]].
  rewrite E in X. rewrite E' in X'. injection X as <-. injection X' as <-. rewrite M, M'. apply average_perm. exact P.
Qed.
Print Assumptions C76_order.
(** Nor does a common factor of the weights. *)
Theorem C76_weights_scale : forall root power gmean isj K norm xs w c l l' h d d' F t,
  usable xs (Some w) -> ~ (c == 0)%Q ->
  exact_kde root power gmean isj K norm (Array xs) (Some w) PadFalse l (BwValue (Global h)) = Ok d ->
  exact_kde root power gmean isj K norm (Array xs) (Some (map (Qmult c) w)) PadFalse l' (BwValue (Global h)) = Ok d' ->
  (mixture F d' t == mixture F d t)%Q.
Proof.
  intros root power gmean isj K norm xs w c l l' h d d' F t U C E E'.
  assert (P : with_weights xs (Some (map (Qmult c) w)) = map (fun e => (fst e, c * snd e))%Q (with_weights xs (Some w))).
  { cbn [with_weights]. clear. revert w. induction xs as [|x xs IH]; intros [|y w]; try reflexivity. cbn. f_equal. apply IH. }
  assert (U' : usable xs (Some (map (Qmult c) w))).
  { destruct U as [A B]. split; [intros v [= <-]; rewrite map_length; apply A; reflexivity|]. rewrite P. unfold weight_of in *. rewrite map_map. cbn [snd].
    rewrite (qsum_map_mul snd c). intros Z. apply Qmult_integral in Z. destruct Z; contradiction. }
  destruct (C76_exact root power gmean isj K norm xs _ l h U) as [e [X [_ M]]]. destruct (C76_exact root power gmean isj K norm xs _ l' h U') as [e' [X' [_ M']]].
  rewrite E in X. rewrite E' in X'. injection X as <-. injection X' as <-. rewrite M, M', P. apply average_scaled; [exact C|apply U].
Qed.
Print Assumptions C76_weights_scale.
(** A whole weight stands for that many copies of the event. *)
Theorem C76_copies : forall root power gmean isj K norm counts l l' h d d' F t,
  0 < list_sum (map snd counts) ->
  exact_kde root power gmean isj K norm (Array (map fst counts)) (Some (map (fun c => nat_q (snd c)) counts)) PadFalse l (BwValue (Global h)) = Ok d ->
  exact_kde root power gmean isj K norm (Array (concat (map (fun c => repeat (fst c) (snd c)) counts))) None PadFalse l' (BwValue (Global h)) = Ok d' ->
  (mixture F d t == mixture F d' t)%Q.
Proof.
  intros root power gmean isj K norm counts l l' h d d' F t N E E'.
  assert (P : with_weights (map fst counts) (Some (map (fun c => nat_q (snd c)) counts)) = map (fun c => (fst c, nat_q (snd c))) counts).
  { cbn [with_weights]. clear. induction counts as [|c cs IH]; [reflexivity|]. cbn. f_equal. exact IH. }
  assert (W : forall f, (qsum (map (fun e => snd e * f (fst e)) (map (fun x => (x, 1)) (concat (map (fun c => repeat (fst c) (snd c)) counts))))
     == qsum (map (fun e => snd e * f (fst e)) (map (fun c => (fst c, nat_q (snd c))) counts)))%Q) by (intros f; apply sum_all_copies).
  assert (S : forall evs : list event, (qsum (map (fun e => snd e * 1) evs) == weight_of evs)%Q).
  { intros evs. unfold weight_of. apply qsum_ext. intros e _. ring. }
  assert (T : (weight_of (map (fun c => (fst c, nat_q (snd c))) counts) == nat_q (list_sum (map snd counts)))%Q).
  { clear. unfold weight_of. rewrite map_map. cbn [snd]. induction counts as [|c cs IH]; [reflexivity|]. cbn [map list_sum fold_right].
    change (fold_right Nat.add 0 (map snd cs)) with (list_sum (map snd cs)). rewrite qsum_cons, IH. unfold nat_q. rewrite Nat2Z.inj_add, inject_Z_plus. reflexivity. }
  assert (NZ : ~ (nat_q (list_sum (map snd counts)) == 0)%Q) by (assert (X := nat_q_pos (list_sum (map snd counts)) N); lra).
  assert (U : usable (map fst counts) (Some (map (fun c => nat_q (snd c)) counts))).
  { split; [intros v [= <-]; rewrite !map_length; reflexivity|]. rewrite P, T. exact NZ. }
  assert (U' : usable (concat (map (fun c => repeat (fst c) (snd c)) counts)) None).
  { split; [discriminate|]. cbn [with_weights]. rewrite <- S, (W (fun _ => 1%Q)), S, T. exact NZ. }
  destruct (C76_exact root power gmean isj K norm _ _ l h U) as [e [X [_ M]]]. destruct (C76_exact root power gmean isj K norm _ _ l' h U') as [e' [X' [_ M']]].
  rewrite E in X. rewrite E' in X'. injection X as <-. injection X' as <-. rewrite M, M', P. unfold estimate, average.
  rewrite <- !S. rewrite (W (fun _ => 1%Q)). cbn [with_weights]. rewrite (W (fun x => F x h t)). reflexivity.
Qed.
Print Assumptions C76_copies.
(** If every kernel integrates to one, so does the estimate. [J] stands for the integral. *)
Theorem C76_normalised : forall root power gmean isj K norm xs weights l h d J,
  usable xs weights -> linear_functional J -> (forall x, In x xs -> J (K x h) == 1)%Q ->
  exact_kde root power gmean isj K norm (Array xs) weights PadFalse l (BwValue (Global h)) = Ok d ->
  (J (mixture K d) == 1)%Q.
Proof.
  intros root power gmean isj K norm xs weights l h d J U HJ HK E. destruct (C76_exact root power gmean isj K norm xs weights l h U) as [e [X [_ M]]].
  rewrite E in X. injection X as <-. rewrite (proj1 HJ (mixture K d) (estimate K h (with_weights xs weights)) (M K)).
  apply linear_estimate; [exact HJ|apply U|]. intros e I. apply HK. rewrite with_weights_wts in I. destruct e as [x y]. apply in_combine_l in I. exact I.
Qed.
Print Assumptions C76_normalised.
Example linear_example : linear_functional (fun f => f 0 + 2 * f 3)%Q.
Proof. split; [|split]; intros; [rewrite !H; reflexivity| |]; ring. Qed.
(** The density is not negative. *)
Theorem C76_nonnegative : forall root power gmean isj K norm xs weights l h d t,
  usable xs weights -> (forall w y, weights = Some w -> In y w -> 0 <= y)%Q -> (forall x, In x xs -> 0 <= K x h t)%Q ->
  exact_kde root power gmean isj K norm (Array xs) weights PadFalse l (BwValue (Global h)) = Ok d ->
  (0 <= mixture K d t)%Q.
Proof.
  intros root power gmean isj K norm xs weights l h d t U HW HK E. destruct (C76_exact root power gmean isj K norm xs weights l h U) as [e [X [_ M]]].
  rewrite E in X. injection X as <-. rewrite M. apply average_nonneg; intros [x y] I; rewrite with_weights_wts in I.
  - apply in_combine_r in I. cbn [snd]. destruct weights as [w|]; [apply (HW w y eq_refl I)|]. cbn [wts] in I. apply in_map_iff in I. destruct I as [z [<- _]]. lra.
  - apply in_combine_l in I. apply HK, I.
Qed.
Print Assumptions C76_nonnegative.

(** ** Padding *)

(** Padding adds the events close to a limit once more, mirrored at it, with their weights. *)
Theorem C76_padding : forall root power gmean isj K norm xs weights pad lo hi a b h,
  (forall w, weights = Some w -> length w = length xs) -> fractions pad = Some (a, b) ->
  let evs := mirrored lo hi (of_range lo hi a) (of_range lo hi b) (with_weights xs weights) in
  ~ (weight_of evs == 0)%Q ->
  exists d, exact_kde root power gmean isj K norm (Array xs) weights pad (Some (lo, hi)) (BwValue (Global h)) = Ok d /\
            forall F t, (mixture F d t == estimate F h evs t)%Q.
Proof.
  intros root power gmean isj K norm xs weights pad lo hi a b h W HF evs NZ.
  destruct (convert_padded xs weights pad lo hi (BwValue (Global h)) a b W ltac:(discriminate) HF) as [d' [w' [bw' [E [L [EV B]]]]]].
  cbn in B. subst bw'. assert (U : usable d' w') by (split; [exact L|rewrite EV; exact NZ]).
  destruct (exact_global K d' w' h U) as [X M]. eexists. split; [unfold exact_kde; rewrite E; cbn [bind fst snd input_bandwidth]; exact X|].
  intros F t. rewrite M, EV. reflexivity.
Qed.
Print Assumptions C76_padding.
Example fractions_example : fractions (PadDict [("uppermirror", Some (1 # 5)%Q)]) = Some (None, Some (1 # 5)%Q).
Proof. reflexivity. Qed.
(** A mirrored event takes its own bandwidth along: there is one list of bandwidths that belongs both to
    the weights and to the positions. *)
Theorem C76_padding_local : forall root power gmean isj K norm xs weights pad lo hi a b hs,
  (forall w, weights = Some w -> length w = length xs) -> fractions pad = Some (a, b) -> 1 < length xs -> length hs = length xs ->
  let evs := mirrored lo hi (of_range lo hi a) (of_range lo hi b) (with_weights xs weights) in
  ~ (weight_of evs == 0)%Q ->
  exists d hs', exact_kde root power gmean isj K norm (Array xs) weights pad (Some (lo, hi)) (BwValue (Local hs)) = Ok d /\
    combine (map fst evs) hs' = mirrored lo hi (of_range lo hi a) (of_range lo hi b) (combine xs hs) /\ length hs' = length evs /\
    forall F t, (mixture F d t == local_estimate F (combine evs hs') t)%Q.
Proof.
  intros root power gmean isj K norm xs weights pad lo hi a b hs W HF N LH evs NZ.
  assert (A : arraylike (BwValue (Local hs)) = Some hs) by (unfold arraylike; rewrite LH, (proj2 (Nat.ltb_lt _ _) N); reflexivity).
  destruct (convert_padded xs weights pad lo hi (BwValue (Local hs)) a b W ltac:(rewrite A; intros h [= <-]; exact LH) HF) as [d' [w' [bw' [E [L [EV B]]]]]].
  rewrite A in B. destruct B as [hs' [-> [L' C]]]. assert (U : usable d' w') by (split; [exact L|rewrite EV; exact NZ]).
  assert (FE : map fst (with_weights d' w') = d').
  { rewrite with_weights_wts. apply combine_fst2. apply wts_length. exact L. }
  destruct (exact_local d' w' hs' U L') as [d [X M]]. exists d, hs'. split; [unfold exact_kde; rewrite E; cbn [bind fst snd input_bandwidth]; exact X|].
  unfold evs. rewrite <- EV. rewrite FE. split; [exact C|]. split; [rewrite L'; rewrite <- FE at 1; apply map_length|]. exact M.
Qed.
Print Assumptions C76_padding_local.
(** Any other key is refused. *)
Theorem C76_padding_key : forall root power gmean isj K norm xs weights p key f limits bw,
  In (key, f) p -> key <> "lowermirror" -> key <> "uppermirror" ->
  exact_kde root power gmean isj K norm (Array xs) weights (PadDict p) limits bw = Err ValueError.
Proof.
  intros root power gmean isj K norm xs weights p key f limits bw I N1 N2. unfold exact_kde. rewrite convert_bad_key; [reflexivity|].
  cbn [fractions]. destruct (forallb _ p) eqn:E; [|reflexivity]. rewrite forallb_forall in E. specialize (E _ I). cbn [fst] in E.
  apply orb_true_iff in E. destruct E as [E|E]; apply String.eqb_eq in E; contradiction.
Qed.
Print Assumptions C76_padding_key.
(** With events inside the limits and a kernel that reaches no further than the mirrored region, nothing
    leaks out: the cdfs of the mirrored events add up to the weight inside the limits. *)
Theorem C76_padding_mass : forall root power gmean isj K norm xs weights pad lo hi a b h C r,
  (forall w, weights = Some w -> length w = length xs) -> fractions pad = Some (Some a, Some b) ->
  let mir := mirrored lo hi (Some ((hi - lo) * a)%Q) (Some ((hi - lo) * b)%Q) (with_weights xs weights) in
  ~ (weight_of mir == 0)%Q -> inside lo hi (with_weights xs weights) ->
  symmetric_cdf C h r -> (0 <= r)%Q -> (r <= (hi - lo) * a)%Q -> (r <= (hi - lo) * b)%Q -> (r <= hi - lo)%Q ->
  exists d, exact_kde root power gmean isj K norm (Array xs) weights pad (Some (lo, hi)) (BwValue (Global h)) = Ok d /\
            (mixture_integral C d lo hi == weight_of (with_weights xs weights) / weight_of mir)%Q.
Proof.
  intros root power gmean isj K norm xs weights pad lo hi a b h C r W HF mir NZ I HC R A B D.
  destruct (C76_padding root power gmean isj K norm xs weights pad lo hi (Some a) (Some b) h W HF NZ) as [d [E M]]. exists d. split; [exact E|].
  unfold mixture_integral. rewrite !M. cbn [of_range]. fold mir. unfold estimate, average.
  rewrite <- (mirrored_mass C h r lo hi ((hi - lo) * a) ((hi - lo) * b) (with_weights xs weights) HC R A B D I). fold mir.
  assert (X : (qsum (map (fun e : event => snd e * (C (fst e) h hi - C (fst e) h lo)) mir) ==
               qsum (map (fun e => snd e * C (fst e) h hi) mir) + -(1) * qsum (map (fun e => snd e * C (fst e) h lo) mir))%Q).
  { rewrite <- qsum_map_mul, <- qsum_map_add. apply qsum_ext. intros e _. ring. }
  rewrite X. unfold Qdiv. ring.
Qed.
Print Assumptions C76_padding_mass.
(** The cdf of a uniform kernel *)
Definition box_cdf : dist := fun x h t =>
  if Qle_bool (x + h) t then 1%Q else if Qle_bool t (x - h) then 0%Q else ((t - x + h) / (2 * h))%Q.
Example box_symmetric : symmetric_cdf box_cdf (1 # 2) (1 # 2).
Proof.
  intros x t. unfold box_cdf. assert (D : forall a b, Qle_bool a b = true <-> (a <= b)%Q) by (intros; apply Qle_bool_iff).
  assert (D' : forall a b, Qle_bool a b = false <-> (b < a)%Q).
  { intros a b. rewrite <- not_true_iff_false, D. split; [intros H; apply Qnot_le_lt; exact H|intros H G; lra]. }
  split; [|split].
  - intros H. apply D in H. rewrite H. reflexivity.
  - intros H. destruct (Qle_bool (x + (1 # 2)) t) eqn:A; [apply D in A; lra|]. apply D in H. rewrite H. reflexivity.
  - destruct (Qle_bool (- x + 2 * t + (1 # 2)) t) eqn:A, (Qle_bool t (- x + 2 * t - (1 # 2))) eqn:B, (Qle_bool (x + (1 # 2)) t) eqn:C, (Qle_bool t (x - (1 # 2))) eqn:E;
      rewrite ?D, ?D' in *; try lra; unfold Qdiv; try field; lra.
Qed.
(** Close to a limit the density is even about it. *)
Theorem C76_padding_symmetric : forall root power gmean isj K norm xs weights pad lo hi a b h r s,
  (forall w, weights = Some w -> length w = length xs) -> fractions pad = Some (Some a, Some b) ->
  let mir := mirrored lo hi (Some ((hi - lo) * a)%Q) (Some ((hi - lo) * b)%Q) (with_weights xs weights) in
  ~ (weight_of mir == 0)%Q -> inside lo hi (with_weights xs weights) ->
  kernel_ok K -> symmetric_kernel K h -> reaches K h r -> (0 <= r)%Q -> (0 <= s)%Q -> (s + r <= hi - lo)%Q ->
  exists d, exact_kde root power gmean isj K norm (Array xs) weights pad (Some (lo, hi)) (BwValue (Global h)) = Ok d /\
            (s + r <= (hi - lo) * a -> mixture K d (lo - s) == mixture K d (lo + s))%Q /\
            (s + r <= (hi - lo) * b -> mixture K d (hi - s) == mixture K d (hi + s))%Q.
Proof.
  intros root power gmean isj K norm xs weights pad lo hi a b h r s W HF mir NZ I OK HS HR R S D.
  destruct (C76_padding root power gmean isj K norm xs weights pad lo hi (Some a) (Some b) h W HF NZ) as [d [E M]]. exists d. split; [exact E|].
  split; intros A; rewrite !M; cbn [of_range]; [apply mirrored_even with r|apply mirrored_even_up with r]; assumption.
Qed.
Print Assumptions C76_padding_symmetric.
Example triangle_example : kernel_ok triangle /\ moves_along triangle /\ scales_along triangle /\ symmetric_kernel triangle (1 # 2) /\ reaches triangle (1 # 2) (1 # 2) /\
  (triangle 0 (1 # 2) (1 # 4) == 1)%Q.
Proof. split; [exact triangle_ok|]. split; [exact triangle_moves|]. split; [exact triangle_scales|]. split; [apply triangle_symmetric|]. split; [apply triangle_reaches; reflexivity|reflexivity]. Qed.
(** Away from the limits the shape is that without padding. *)
Theorem C76_padding_inside : forall root power gmean isj K norm xs weights pad lo hi a b h r l d d0 t,
  usable xs weights -> fractions pad = Some (Some a, Some b) ->
  let mir := mirrored lo hi (Some ((hi - lo) * a)%Q) (Some ((hi - lo) * b)%Q) (with_weights xs weights) in
  ~ (weight_of mir == 0)%Q -> inside lo hi (with_weights xs weights) ->
  reaches K h r -> (0 <= r)%Q -> (lo + r <= t)%Q -> (t <= hi - r)%Q ->
  exact_kde root power gmean isj K norm (Array xs) weights pad (Some (lo, hi)) (BwValue (Global h)) = Ok d ->
  exact_kde root power gmean isj K norm (Array xs) weights PadFalse l (BwValue (Global h)) = Ok d0 ->
  (weight_of mir * mixture K d t == weight_of (with_weights xs weights) * mixture K d0 t)%Q.
Proof.
  intros root power gmean isj K norm xs weights pad lo hi a b h r l d d0 t U HF mir NZ I HR R A B E E0.
  destruct (C76_padding root power gmean isj K norm xs weights pad lo hi (Some a) (Some b) h (proj1 U) HF NZ) as [e [X M]].
  destruct (C76_exact root power gmean isj K norm xs weights l h U) as [e0 [X0 [_ M0]]].
  rewrite E in X. rewrite E0 in X0. injection X as <-. injection X0 as <-. rewrite M, M0. cbn [of_range].
  apply mirrored_inside with r; try assumption. apply U.
Qed.
Print Assumptions C76_padding_inside.
Example padding_example : (* the hypotheses of the four theorems above, for events at 1/10, 1 and 19/10 in [0, 2] *)
  let evs := with_weights [1 # 10; 1; 19 # 10]%Q (Some [1; 3; 2]%Q) in
  fractions (PadNumber (1 # 4)) = Some (Some (1 # 4), Some (1 # 4))%Q /\ inside 0 2 evs /\
  ~ (weight_of (mirrored 0 2 (Some ((2 - 0) * (1 # 4))%Q) (Some ((2 - 0) * (1 # 4))%Q) evs) == 0)%Q /\ ((1 # 4) + (1 # 4) <= (2 - 0) * (1 # 4))%Q /\
  length (mirrored 0 2 (Some ((2 - 0) * (1 # 4))%Q) (Some ((2 - 0) * (1 # 4))%Q) evs) = 5.
Proof.
  cbv zeta. split; [reflexivity|]. split; [|split; [vm_compute; discriminate|split; [vm_compute; discriminate|reflexivity]]].
  intros e [<-|[<-|[<-|[]]]]; split; vm_compute; discriminate.
Qed.

(** ** Grid and convolution *)

(** [interpolate] is the linear interpolation between the points of the grid. *)
Theorem C76_interpolation : forall g0 dx n f k s, (0 < dx)%Q -> S k < n -> (0 <= s <= 1)%Q ->
  (interpolate g0 dx n f (grid_point g0 dx k + s * dx) == (1 - s) * f (grid_point g0 dx k) + s * f (grid_point g0 dx (S k)))%Q.
Proof. exact interpolate_between. Qed.
Print Assumptions C76_interpolation.
(** The grid goes from five percent below the smallest event to five percent above the largest. *)
Theorem C76_grid_range : forall xs, xs <> [] -> exists a b, smallest xs a /\ largest xs b /\
  (grid_start xs == a - (1 # 20) * (b - a))%Q /\ (grid_end xs == b + (1 # 20) * (b - a))%Q.
Proof. intros xs N. exists (qmin_list xs), (qmax_list xs). split; [apply qmin_smallest, N|]. split; [apply qmax_largest, N|]. split; reflexivity. Qed.
Print Assumptions C76_grid_range.

(** On a grid with linear binning, the kernel at each event is replaced by its linear interpolation from
    the points of the grid. *)
Theorem C76_grid : forall root power gmean isj K norm xs weights l h num,
  let n := Nat.min (length xs) num in
  usable xs weights -> 2 <= n -> (qmin_list xs < qmax_list xs)%Q ->
  exists d, grid_kde root power gmean isj K norm (Array xs) weights PadFalse l (BwValue (Global h)) "linear" num = Ok d /\
    forall F t, kernel_ok F ->
      (mixture F d t == average (interpolate (grid_start xs) (grid_spacing xs n) n (fun x => F x h t)) (with_weights xs weights))%Q.
Proof.
  intros root power gmean isj K norm xs weights l h num n [W NZ] Hn R. unfold grid_kde. cbn [convert_init bind fst snd input_bandwidth]. unfold grid_mixture. fold n.
  destruct (linear_bins xs n Hn R weights W NZ) as [g [E [L [S A]]]]. rewrite E. cbn [bind check_bw_grid_shapes arraylike]. unfold make_mixture. cbn [broadcast_scale bind].
  assert (Lg : length (generate_1d_grid xs n) = n) by (apply grid_len; assumption).
  rewrite Lg. rewrite L, Nat.eqb_refl. eexists. split; [reflexivity|]. intros F t OK. apply grid_average; assumption.
Qed.
Print Assumptions C76_grid.
(** As with the exact estimate, the integral is that of the kernels. *)
Theorem C76_grid_normalised : forall root power gmean isj K norm xs weights l h num d J,
  let n := Nat.min (length xs) num in
  usable xs weights -> 2 <= n -> (qmin_list xs < qmax_list xs)%Q -> linear_functional J -> (forall x, J (K x h) == 1)%Q ->
  grid_kde root power gmean isj K norm (Array xs) weights PadFalse l (BwValue (Global h)) "linear" num = Ok d ->
  (J (mixture K d) == 1)%Q.
Proof.
  intros root power gmean isj K norm xs weights l h num d J n [W NZ] Hn R HJ HK E. unfold grid_kde in E. cbn [convert_init bind fst snd input_bandwidth] in E.
  unfold grid_mixture in E. fold n in E. destruct (linear_bins xs n Hn R weights W NZ) as [g [EB [L [S A]]]]. rewrite EB in E. cbn [bind check_bw_grid_shapes arraylike] in E.
  unfold make_mixture in E. cbn [broadcast_scale bind] in E. assert (Lg : length (generate_1d_grid xs n) = n) by (apply grid_len; assumption).
  rewrite Lg, L, Nat.eqb_refl in E. injection E as <-.
  assert (NG : ~ (weight_of (combine (generate_1d_grid xs n) g) == 0)%Q).
  { unfold weight_of. rewrite combine_snd2 by congruence. rewrite S. discriminate. }
  rewrite (proj1 HJ _ (estimate K h (combine (generate_1d_grid xs n) g))).
  - apply linear_estimate; [exact HJ|exact NG|intros; apply HK].
  - intros t. assert (G : usable (generate_1d_grid xs n) (Some g)).
    { split; [intros w [= <-]; congruence|exact NG]. }
    unfold mixture, estimate, average, weight_of. cbn [k_locs k_scales k_probs]. rewrite combine_snd2 by congruence.
    rewrite <- qsum_map_div.
    assert (X : forall (a b : list Q) q m, length b = length a -> length a = m ->
      map (fun e => (snd e / q * K (fst (fst e)) (snd (fst e)) t)%Q) (combine (combine a (repeat h m)) b) = map (fun e => (snd e / q * K (fst e) h t)%Q) (combine a b)).
    { induction a as [|x a IH]; intros [|y b] q m LB LM; try discriminate; [reflexivity|]. subst m. cbn [length repeat combine map fst snd]. f_equal. apply IH; [injection LB; auto|reflexivity]. }
    rewrite X by congruence. apply qsum_ext. intros e _. unfold Qdiv. ring.
Qed.
Print Assumptions C76_grid_normalised.
Example grid_example : usable [0; 1; 4; 10]%Q None /\ 2 <= Nat.min (length [0; 1; 4; 10]%Q) 3 /\ (qmin_list [0; 1; 4; 10] < qmax_list [0; 1; 4; 10])%Q.
Proof. split; [split; [discriminate|vm_compute; discriminate]|]. split; [cbn; lia|reflexivity]. Qed.

(** The convolution gives, at the points of the grid, the same with the kernel cut off at the last point
    of the grid within [support * bandwidth]. *)
Theorem C76_convolution : forall root power gmean isj K xs weights limits h num support,
  let n := Nat.min (length xs) num in let dx := grid_spacing xs n in let g0 := grid_start xs in
  usable xs weights -> 2 <= n -> (qmin_list xs < qmax_list xs)%Q -> (0 <= support * h)%Q ->
  kernel_ok K -> moves_along K -> symmetric_kernel K h ->
  exists d reach, fft_kde_init root power gmean isj K (Array xs) weights PadFalse limits (BwValue (Global h)) "linear" num (Some support) "conv1d" = Ok d /\
    (nat_q reach * dx <= support * h)%Q /\ (reach = n \/ (support * h < nat_q (S reach) * dx)%Q) /\
    forall j, j < n ->
      (fft_pdf d (grid_point g0 dx j) == average (interpolate g0 dx n (fun x => cut (nat_q reach * dx) K x h (grid_point g0 dx j))) (with_weights xs weights))%Q.
Proof.
  intros root power gmean isj K xs weights limits h num support n dx g0 U Hn R Hs OK HM HS.
  destruct (fft_cut K xs weights h support num OK U Hn R Hs HM HS) as [d [L [E [LV [A [B [L1 [L2 [L3 V]]]]]]]]].
  exists d, L. split; [unfold fft_kde_init; cbn [convert_init bind fst snd input_bandwidth fft_support]; exact E|]. split; [exact L2|]. split; [exact L3|].
  assert (D : (0 < dx)%Q) by (apply dx_pos; assumption).
  assert (W : (dx * nat_q (n - 1) == grid_end xs - g0)%Q).
  { unfold dx, grid_spacing. fold g0. field. assert (P := nat_q_pos (n - 1) ltac:(lia)). lra. }
  intros j Hj. etransitivity; [|apply (V j Hj)]. apply (fft_node d n g0 (grid_end xs) dx j LV A B D W Hn Hj).
Qed.
Print Assumptions C76_convolution.
(** If the support is large enough for the kernel, nothing is cut off. *)
Theorem C76_convolution_whole : forall root power gmean isj K xs weights limits h num support r,
  let n := Nat.min (length xs) num in let dx := grid_spacing xs n in let g0 := grid_start xs in
  usable xs weights -> 2 <= n -> (qmin_list xs < qmax_list xs)%Q -> (0 <= r)%Q -> (r <= support * h)%Q ->
  kernel_ok K -> moves_along K -> symmetric_kernel K h -> reaches K h r ->
  exists d, fft_kde_init root power gmean isj K (Array xs) weights PadFalse limits (BwValue (Global h)) "linear" num (Some support) "conv1d" = Ok d /\
    forall j, j < n ->
      (fft_pdf d (grid_point g0 dx j) == average (interpolate g0 dx n (fun x => K x h (grid_point g0 dx j))) (with_weights xs weights))%Q.
Proof.
  intros root power gmean isj K xs weights limits h num support r n dx g0 U Hn R R0 R1 OK HM HS HR.
  destruct (C76_convolution root power gmean isj K xs weights limits h num support U Hn R ltac:(lra) OK HM HS) as [d [L [E [L2 [L3 V]]]]].
  exists d. split; [exact E|]. intros j Hj. etransitivity; [apply (V j Hj)|]. apply (fft_reaches K xs n h support L r); assumption.
Qed.
Print Assumptions C76_convolution_whole.
Example convolution_example : (0 <= (1 # 2) /\ 1 # 2 <= 3 * (1 # 2))%Q.
Proof. split; discriminate. Qed.
(** Between the points of the grid the density is interpolated, outside it stays as at the end. *)
Theorem C76_convolution_between : forall root power gmean isj K xs weights limits h num support d,
  let n := Nat.min (length xs) num in let dx := grid_spacing xs n in let g0 := grid_start xs in
  usable xs weights -> 2 <= n -> (qmin_list xs < qmax_list xs)%Q -> kernel_ok K ->
  fft_kde_init root power gmean isj K (Array xs) weights PadFalse limits (BwValue (Global h)) "linear" num (Some support) "conv1d" = Ok d ->
  (forall t, fft_pdf d t == interpolate g0 dx n (fft_pdf d) t \/ t < g0 \/ grid_end xs < t)%Q /\
  (forall t, t <= g0 -> fft_pdf d t == fft_pdf d g0)%Q /\ (forall t, grid_end xs <= t -> fft_pdf d t == fft_pdf d (grid_end xs))%Q.
Proof.
  intros root power gmean isj K xs weights limits h num support d n dx g0 U Hn R OK E.
  destruct (fft_values K xs weights h support num OK U Hn R) as [d' [E' [LV [A [B _]]]]].
  assert (X : fft_kde_init root power gmean isj K (Array xs) weights PadFalse limits (BwValue (Global h)) "linear" num (Some support) "conv1d" = Ok d') by
    (unfold fft_kde_init; cbn [convert_init bind fst snd input_bandwidth fft_support]; exact E').
  rewrite E in X. injection X as <-. fold n in LV. fold g0 in A.
  assert (D : (0 < dx)%Q) by (apply dx_pos; assumption). assert (P1 := nat_q_pos (n - 1) ltac:(lia)).
  assert (W : (dx * nat_q (n - 1) == grid_end xs - g0)%Q) by (unfold dx, grid_spacing; fold g0; field; lra).
  assert (LT : (f_lo d < f_hi d)%Q) by (rewrite A, B; nra).
  assert (LO := proj1 (fft_outside d n LV ltac:(lia) LT)). assert (HI := proj2 (fft_outside d n LV ltac:(lia) LT)).
  assert (NODE := fun j Hj => fft_node d n g0 (grid_end xs) dx j LV A B D W Hn Hj).
  split; [|split].
  - intros t. destruct (Qlt_le_dec t g0) as [C1|C1]; [right; left; exact C1|]. destruct (Qlt_le_dec (grid_end xs) t) as [C2|C2]; [right; right; exact C2|]. left.
    destruct (cell_of g0 dx n t D Hn C1 ltac:(unfold g0, dx; rewrite grid_point_last by exact Hn; exact C2)) as [k [s [Hk [Hs' T]]]].
    assert (PI : forall u v, (u == v)%Q -> (interpolate g0 dx n (fft_pdf d) u == interpolate g0 dx n (fft_pdf d) v)%Q).
    { intros u v H. unfold interpolate. apply qsum_ext. intros m _. rewrite H. reflexivity. }
    rewrite (PI _ _ T), interpolate_between by assumption. rewrite !NODE by lia. apply (fft_at d n g0 (grid_end xs) dx k s t); assumption.
  - intros t Ht. rewrite (LO t) by (rewrite A; exact Ht). rewrite (LO g0) by (rewrite A; lra). reflexivity.
  - intros t Ht. rewrite (HI t) by (rewrite B; exact Ht). rewrite (HI (grid_end xs)) by (rewrite B; lra). reflexivity.
Qed.
Print Assumptions C76_convolution_between.
