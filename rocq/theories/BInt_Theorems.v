(** C41: integrating a histogram over a range takes the covered fraction of each bin. *)
From Verif Require Import Base BaseLemmas Hist_Model Hist_Spec Hist_Proofs Hist_Proofs3 BInt_Model BInt_Spec
  BInt_Proofs BInt_Proofs2 BInt_Proofs3.
From Coq Require Import Qminmax Lqa Permutation.
#[local] Open Scope nat_scope.

(** For every histogram of any number of axes, every choice of the axes to integrate (listed
    in any order), and ranges that meet the edges: the result has the remaining axes, and its
    entries are the sums over the bins of content times covered fraction. *)
Theorem C41_counts (axes : list spec_axis) (values : tensor) (axis : list nat) :
  Forall axis_ok axes -> t_shape values = bins_of axes -> Permutation axis (axis_arg axes) ->
  exists r, binned_rect_integration (limits_arg axes) (edges_arg axes) (Some values) None (Some axis) = Ok r /\
    t_shape r = kept axes (bins_of axes) /\
    forall rest, in_shape rest (t_shape r) -> (t_get r rest == integral fraction_of axes values rest)%Q.
Proof. intros H1 H2 H3. apply (call_ok false values axes axis H1 H2 H3). Qed.

(** The same for a density: it is multiplied by the covered lengths. *)
Theorem C41_density (axes : list spec_axis) (values : tensor) (axis : list nat) :
  Forall axis_ok axes -> t_shape values = bins_of axes -> Permutation axis (axis_arg axes) ->
  exists r, binned_rect_integration (limits_arg axes) (edges_arg axes) None (Some values) (Some axis) = Ok r /\
    t_shape r = kept axes (bins_of axes) /\
    forall rest, in_shape rest (t_shape r) -> (t_get r rest == integral length_of axes values rest)%Q.
Proof. intros H1 H2 H3. apply (call_ok true values axes axis H1 H2 H3). Qed.

(** Without a list of axes all are integrated: a single number. *)
Theorem C41_all_axes (axes : list spec_axis) (values : tensor) :
  Forall axis_ok axes -> t_shape values = bins_of axes -> forallb integrated axes = true ->
  exists r d,
    binned_rect_integration (limits_arg axes) (edges_arg axes) (Some values) None None = Ok r /\
    binned_rect_integration (limits_arg axes) (edges_arg axes) None (Some values) None = Ok d /\
    t_shape r = [] /\ t_shape d = [] /\
    (t_get r [] == qsum (map (fun idx => t_get values idx * bin_weight fraction_of axes idx) (indices (bins_of axes))))%Q /\
    (t_get d [] == qsum (map (fun idx => t_get values idx * bin_weight length_of axes idx) (indices (bins_of axes))))%Q.
Proof.
  intros H1 H2 A.
  destruct (call_ok false values axes _ H1 H2 (Permutation_refl _)) as (r&E&S1&V).
  destruct (call_ok true values axes _ H1 H2 (Permutation_refl _)) as (d&E'&S1'&V').
  rewrite <- call_none in E, E' by assumption. exists r, d.
  rewrite kept_nothing in S1, S1' by exact A.
  repeat (split; [assumption|]). rewrite <- !integral_all by exact A.
  split; [apply V; rewrite S1; constructor|apply V'; rewrite S1'; constructor].
Qed.

(** Adjacent ranges: the integrals add up, along any axis, whatever is done with the other
    axes. *)
Theorem C41_additive (pre post : list spec_axis) (e : list Q) (l m u : Q) (values : tensor) (axis : list nat) :
  let whole := pre ++ (e, Some (l, u)) :: post in
  let left := pre ++ (e, Some (l, m)) :: post in
  let right := pre ++ (e, Some (m, u)) :: post in
  Forall axis_ok whole -> t_shape values = bins_of whole -> Permutation axis (axis_arg whole) ->
  (l <= m <= u)%Q -> (hd 0 e <= m <= last e 0)%Q ->
  exists r r1 r2,
    binned_rect_integration (limits_arg whole) (edges_arg whole) (Some values) None (Some axis) = Ok r /\
    binned_rect_integration (limits_arg left) (edges_arg left) (Some values) None (Some axis) = Ok r1 /\
    binned_rect_integration (limits_arg right) (edges_arg right) (Some values) None (Some axis) = Ok r2 /\
    t_shape r1 = t_shape r /\ t_shape r2 = t_shape r /\
    forall rest, in_shape rest (t_shape r) -> (t_get r rest == t_get r1 rest + t_get r2 rest)%Q.
Proof.
  intros whole left right OK SH P [H1 H2] [H3 H4].
  assert (OKe : edges_ok e /\ meets e (l, u)).
  { apply Forall_app in OK. destruct OK as [_ OK]. inversion OK as [|? ? [O1 O2] _]; subst. split; [exact O1|apply O2; reflexivity]. }
  destruct OKe as [OE (M1&M2&M3)]. cbn [fst snd] in M1, M2, M3.
  assert (O1 : forall r, meets e r -> Forall axis_ok (pre ++ (e, Some r) :: post)).
  { intros r M. apply Forall_app in OK. destruct OK as [O1 O2]. apply Forall_app. split; [exact O1|].
    inversion O2; subst. constructor; [|assumption]. split; [exact OE|]. intros r' E. injection E as <-. exact M. }
  assert (A : forall r, axis_arg (pre ++ (e, Some r) :: post) = axis_arg whole).
  { intros r. unfold axis_arg, whole. rewrite !app_length. cbn [length]. generalize 0 as i. clear.
    induction pre as [|a pre IH]; intros i; cbn [app length Nat.add seq combine filter snd].
    - reflexivity.
    - destruct (integrated a); cbn [map]; rewrite IH; reflexivity. }
  assert (B : forall r, bins_of (pre ++ (e, Some r) :: post) = bins_of whole).
  { intros r. unfold bins_of, whole. rewrite !map_app. reflexivity. }
  destruct (call_ok false values whole axis OK SH P) as (r&E&S0&V).
  destruct (call_ok false values left axis) as (r1&E1&S1&V1).
  { apply O1. repeat split; cbn [fst snd]; lra. } { rewrite SH. symmetry. apply B. } { unfold left. rewrite A. exact P. }
  destruct (call_ok false values right axis) as (r2&E2&S2&V2).
  { apply O1. repeat split; cbn [fst snd]; lra. } { rewrite SH. symmetry. apply B. } { unfold right. rewrite A. exact P. }
  assert (K : forall r' idx, kept (pre ++ (e, Some r') :: post) idx = kept whole idx).
  { intros r' idx. apply kept_same. apply Forall2_app; [|constructor; [reflexivity|]].
    - clear. induction pre; constructor; [reflexivity|assumption].
    - clear. induction post; constructor; [reflexivity|assumption]. }
  unfold left in S1. unfold right in S2. rewrite B, K in S1, S2.
  exists r, r1, r2. split; [exact E|]. split; [exact E1|]. split; [exact E2|].
  split; [congruence|]. split; [congruence|]. intros rest R.
  rewrite (V rest R), (V1 rest), (V2 rest) by congruence. apply (integral_split false); assumption.
Qed.

(** Larger ranges give no smaller integrals if no content is negative, and the integrals are
    not negative. *)
Theorem C41_monotone (axes axes' : list spec_axis) (values : tensor) (axis : list nat) :
  Forall axis_ok axes -> Forall axis_ok axes' -> Forall2 within_axis axes axes' ->
  t_shape values = bins_of axes -> non_negative values ->
  Permutation axis (axis_arg axes) ->
  exists r r',
    binned_rect_integration (limits_arg axes) (edges_arg axes) (Some values) None (Some axis) = Ok r /\
    binned_rect_integration (limits_arg axes') (edges_arg axes') (Some values) None (Some axis) = Ok r' /\
    t_shape r' = t_shape r /\
    forall rest, in_shape rest (t_shape r) -> (0 <= t_get r rest <= t_get r' rest)%Q.
Proof.
  intros OK OK' W SH NN P.
  assert (B : bins_of axes' = bins_of axes).
  { clear - W. induction W as [|a b axes axes' [E _] W IH]; [reflexivity|]. unfold bins_of in *. cbn [map].
    rewrite IH, E. reflexivity. }
  assert (A : axis_arg axes' = axis_arg axes).
  { clear - W. unfold axis_arg. generalize 0 as i. induction W as [|a b axes axes' E W IH]; intros i; [reflexivity|].
    cbn [length seq combine filter snd]. rewrite (within_int a b E). destruct (integrated b); cbn [map]; rewrite IH; reflexivity. }
  assert (K : forall idx, kept axes' idx = kept axes idx).
  { intros idx. symmetry. apply kept_same. clear - W. induction W; constructor; [apply within_int|]; assumption. }
  destruct (call_ok false values axes axis OK SH P) as (r&E&S0&V).
  destruct (call_ok false values axes' axis OK') as (r'&E'&S'&V'); [congruence|rewrite A; exact P|].
  rewrite B, K in S'. exists r, r'. split; [exact E|]. split; [exact E'|]. split; [congruence|].
  intros rest R. rewrite (V rest R), (V' rest) by congruence.
  assert (OKe : Forall (fun a => edges_ok (fst a)) axes) by (revert OK; apply Forall_impl; intros a [H _]; exact H).
  apply (integral_mono false axes axes' values rest W OKe SH NN).
Qed.

(** Ranges that contain all edges: the total of the contents. *)
Theorem C41_full (axes : list spec_axis) (values : tensor) :
  Forall full_axis axes -> t_shape values = bins_of axes -> forallb integrated axes = true ->
  exists r, binned_rect_integration (limits_arg axes) (edges_arg axes) (Some values) None None = Ok r /\
    t_shape r = [] /\ (t_get r [] == total values)%Q.
Proof.
  intros F SH A.
  assert (OK : Forall axis_ok axes) by (revert F; apply Forall_impl; apply full_ok).
  destruct (call_ok false values axes _ OK SH (Permutation_refl _)) as (r&E&S1&V).
  rewrite <- call_none in E by assumption. rewrite kept_nothing in S1 by exact A.
  exists r. split; [exact E|]. split; [exact S1|]. rewrite V by (rewrite S1; constructor).
  apply integral_total; assumption.
Qed.

(** A range that lies outside of the edges: not zero, as the fractions would say, but the
    negative of the distance measured in the outermost bin. *)
Theorem C41_outside_refuted (e : list Q) (values : tensor) (l u : Q) :
  edges_ok e -> t_shape values = [length e - 1] -> (l <= u)%Q ->
  ((last e 0 < l)%Q ->
     exists r, binned_rect_integration [(l, u)] [e] (Some values) None None = Ok r /\ t_shape r = [] /\
       (t_get r [] == - (t_get values [length e - 2]%nat * ((l - last e 0) / width e (length e - 2)%nat)))%Q) /\
  ((u < hd 0 e)%Q ->
     exists r, binned_rect_integration [(l, u)] [e] (Some values) None None = Ok r /\ t_shape r = [] /\
       (t_get r [] == - (t_get values [0]%nat * ((hd 0 e - u) / width e 0)))%Q).
Proof.
  intros OK SH LU. destruct OK as [I L]. assert (OK : edges_ok e) by (split; assumption).
  assert (HL : (hd 0 e < last e 0)%Q) by (rewrite hd_nth, last_nth0 by exact L; apply inc_nth; [exact I|lia|lia]).
  split; intros H.
  - destruct (one_bin e (length e - 2) l (last e 0%Q) values OK ltac:(lia) SH l u) as (r&E&S1&V).
    + apply maximum_l. lra. + apply minimum_r. lra.
    + apply find_last; [exact OK|lra]. + apply find_last; [exact OK|lra].
    + exists r. split; [exact E|]. split; [exact S1|]. rewrite V.
      assert (0 < width e (length e - 2)%nat)%Q by (apply width_pos; [exact I|lia]). field. lra.
  - destruct (one_bin e 0 (hd 0%Q e) u values OK ltac:(lia) SH l u) as (r&E&S1&V).
    + apply maximum_r. lra. + apply minimum_l. lra.
    + apply find_first; [exact OK|lra]. + apply find_first; [exact OK|lra].
    + exists r. split; [exact E|]. split; [exact S1|]. rewrite V.
      assert (0 < width e 0)%Q by (apply width_pos; [exact I|lia]). field. lra.
Qed.

(** A density integrated over some axes only is multiplied by the bin widths of the other
    axes as well: what remains is not a density. *)
Theorem C41_density_axis_refuted (e e' : list Q) (range : Q * Q) (values : tensor) :
  axis_ok (e, Some range) -> edges_ok e' -> t_shape values = [length e - 1; length e' - 1] ->
  exists r, binned_rect_integration [range] [e; e'] None (Some values) (Some [0]) = Ok r /\
    t_shape r = [length e' - 1] /\
    forall j, j < length e' - 1 ->
      (t_get r [j] == width e' j * qsum (map (fun i => t_get values [i; j] * covered e i range) (seq 0 (length e - 1)%nat)))%Q.
Proof.
  intros OK OK' SH.
  destruct (call_ok true values [(e, Some range); (e', None)] [0]) as (r&E&S1&V).
  { constructor; [exact OK|]. constructor; [|constructor]. split; [exact OK'|]. intros r H. discriminate. }
  { exact SH. } { apply Permutation_refl. }
  exists r. split; [exact E|]. split; [exact S1|]. intros j J. rewrite V by (rewrite S1; repeat constructor; exact J).
  unfold integral. rewrite qsum_filter. unfold bins_of. cbn [map fst indices]. rewrite qsum_flat_map.
  rewrite <- qsum_scale. apply qsum_ext. intros i _. rewrite map_map, qsum_flat_map.
  rewrite (qsum_single _ _ j).
  - cbn [map qsum fold_right]. unfold kept. cbn [combine filter map integrated snd fst negb].
    destruct (list_eq_dec Nat.eq_dec [j] [j]) as [_|N]; [|congruence].
    unfold bin_weight. cbn [combine map product fst snd length_of]. unfold length_of. cbn [fst snd]. ring.
  - apply seq_NoDup.
  - apply in_seq. lia.
  - intros k _ NE. cbn [map qsum fold_right]. unfold kept. cbn [combine filter map integrated snd fst negb].
    destruct (list_eq_dec Nat.eq_dec [k] [j]) as [E1|_]; [congruence|]. reflexivity.
Qed.

(** The arguments: exactly one of contents and density, and not more axes than there are. *)
Theorem C41_arguments (limits : list (Q * Q)) (edges : list (list Q)) (v d : tensor) (axis : option (list nat)) :
  binned_rect_integration limits edges (Some v) (Some d) axis = Err ValueError /\
  binned_rect_integration limits edges None None axis = Err ValueError /\
  (forall a, length (t_shape v) < length a ->
     binned_rect_integration limits edges (Some v) None (Some a) = Err ValueError /\
     binned_rect_integration limits edges None (Some v) (Some a) = Err ValueError).
Proof.
  split; [reflexivity|]. split; [reflexivity|]. intros a H. unfold binned_rect_integration. cbn [bind fst snd].
  apply Nat.ltb_lt in H. rewrite H. split; reflexivity.
Qed.

(** An integral is only given for distinct, existing axes, and one list of edges per axis. *)
Theorem C41_axes_checked (limits : list (Q * Q)) (edges : list (list Q)) (counts density : option tensor)
  (axis : list nat) (r : tensor) :
  binned_rect_integration limits edges counts density (Some axis) = Ok r ->
  exists v, (counts = Some v \/ density = Some v) /\ NoDup axis /\
    (forall a, In a axis -> a < length (t_shape v)) /\ length edges = length (t_shape v).
Proof.
  unfold binned_rect_integration. intros H.
  destruct counts as [v|], density as [d|]; try discriminate H; cbn [bind fst snd] in H;
    [exists v; split; [left; reflexivity|]|exists d; split; [right; reflexivity|]];
    (match type of H with context [Nat.ltb ?a ?b] => destruct (Nat.ltb a b); [discriminate H|] end); cbn [bind] in H;
    (destruct (cut_edges_and_bins 0 edges axis limits) as [cuts|] eqn:EC; [|discriminate H]); cbn [bind] in H;
    (match type of H with context [slice_fits ?a ?b ?c] => destruct (slice_fits a b c) eqn:SF; [|discriminate H] end); cbn [negb] in H;
    (match type of H with context [axes_fit ?a ?b] => destruct (axes_fit a b) eqn:AF; [|discriminate H] end);
    apply axes_fit_inv in AF; destruct AF as [A1 A2]; (split; [exact A1|split; [exact A2|]]);
    rewrite <- (cut_length _ _ _ _ _ EC); rewrite (slice_fits_length _ _ _ SF); symmetry; apply map_length.
Qed.

(** ** HistogramPDF *)

(** The integral of a histogram as a PDF: the covered share of the total, and one over the
    whole space. Limits without a binning. *)
Theorem C41_histogram (axes : list spec_axis) (values : tensor) :
  Forall axis_ok axes -> t_shape values = bins_of axes -> forallb integrated axes = true ->
  ~ (total values == 0)%Q ->
  exists r, hist_integrate (edges_arg axes) values (LSpace (limits_arg axes) None) = Ok r /\ t_shape r = [] /\
    (t_get r [] == qsum (map (fun idx => t_get values idx * bin_weight fraction_of axes idx) (indices (bins_of axes)))
                   / total values)%Q /\
    (Forall full_axis axes -> (t_get r [] == 1)%Q).
Proof.
  intros OK SH A T. unfold hist_integrate. cbn [l_binning l_ranges].
  destruct (call_ok false (rel_counts values) axes _ OK SH (Permutation_refl _)) as (r&E&S1&V).
  rewrite <- call_none in E by assumption. rewrite kept_nothing in S1 by exact A.
  exists r. split; [exact E|]. split; [exact S1|].
  assert (V1 : (t_get r [] == qsum (map (fun idx => t_get values idx * bin_weight fraction_of axes idx) (indices (bins_of axes)))
                   / total values)%Q).
  { rewrite V by (rewrite S1; constructor). rewrite integral_all by exact A. unfold Qdiv at 1.
    rewrite (Qmult_comm (qsum _)). rewrite <- qsum_scale. apply qsum_ext. intros idx _.
    unfold rel_counts. cbn [t_get]. change (qsum (flatten values)) with (total values). field. exact T. }
  split; [exact V1|]. intros F. rewrite V1. rewrite <- integral_all by exact A.
  rewrite integral_total by assumption. field. exact T.
Qed.

(** Limits that carry a binning: its edges are combined with the contents of the PDF, so that
    any range with as many bins as the PDF has gives one, however little of the PDF it covers. *)
Theorem C41_binned_limits_refuted (own : list (list Q)) (axes : list spec_axis) (values : tensor) :
  t_shape values = map (fun e => length e - 1) own ->
  Forall full_axis axes -> forallb integrated axes = true -> bins_of axes = t_shape values ->
  ~ (total values == 0)%Q ->
  exists r, hist_integrate own values (LSpace (limits_arg axes) (Some (edges_arg axes))) = Ok r /\
    (t_get r [] == 1)%Q.
Proof.
  intros _ F A B T.
  assert (OK : Forall axis_ok axes) by (revert F; apply Forall_impl; apply full_ok).
  destruct (C41_histogram axes values OK (eq_sym B) A T) as (r&E&_&_&V). exists r. split; [exact E|]. apply V, F.
Qed.

(** ** A concrete histogram: three bins by two, the first axis integrated over a range that
    starts and ends within bins. *)
Definition ex_axes : list spec_axis := [([0; 1; 3; 4]%Q, Some (0.5, 3.25)%Q); ([0; 2; 4]%Q, None)].
Definition ex_values : tensor := Tensor [3; 2] (fun idx => inject_Z (Z.of_nat (nth 0 idx 0 + 2 * nth 1 idx 0 + 1))).
Example ex_ok : Forall axis_ok ex_axes /\ t_shape ex_values = bins_of ex_axes /\ axis_arg ex_axes = [0].
Proof.
  split; [|split; reflexivity]. constructor; [|constructor; [|constructor]]; (split; [split|]).
  - repeat constructor; lra.
  - cbn. lia.
  - intros r E. cbn in E. injection E as <-. unfold meets. cbn. lra.
  - repeat constructor; lra.
  - cbn. lia.
  - intros r E. discriminate.
Qed.
Example ex_integral :
  exists r, binned_rect_integration (limits_arg ex_axes) (edges_arg ex_axes) (Some ex_values) None (Some [0]) = Ok r /\
    t_shape r = [2] /\ (t_get r [0]%nat == 3.25)%Q /\ (t_get r [1]%nat == 6.75)%Q.
Proof. eexists. split; [reflexivity|]. repeat split; vm_compute; reflexivity. Qed.
(** Half of a bin beyond the edges gives minus one half of its content. *)
Example ex_outside :
  exists r, binned_rect_integration [(2.5, 5)%Q] [[0; 1; 2]%Q] (Some (Tensor [2] (fun _ => 6%Q))) None None = Ok r /\
    (t_get r [] == -(3))%Q.
Proof. eexists. split; [reflexivity|]. vm_compute. reflexivity. Qed.
(** A flat histogram on (0, 2): the integral over (0, 1) is one half, with a binning of two
    bins on (0, 1) it is one. *)
Example ex_binned_limits :
  exists a b, hist_integrate [[0; 1; 2]%Q] (Tensor [2] (fun _ => 6%Q)) (LSpace [(0, 1)%Q] None) = Ok a /\
    hist_integrate [[0; 1; 2]%Q] (Tensor [2] (fun _ => 6%Q)) (LSpace [(0, 1)%Q] (Some [[0; 0.5; 1]%Q])) = Ok b /\
    (t_get a [] == 0.5)%Q /\ (t_get b [] == 1)%Q.
Proof. do 2 eexists. split; [reflexivity|]. split; [reflexivity|]. split; vm_compute; reflexivity. Qed.

Print Assumptions C41_counts.
Print Assumptions C41_density.
Print Assumptions C41_all_axes.
Print Assumptions C41_additive.
Print Assumptions C41_monotone.
Print Assumptions C41_full.
Print Assumptions C41_outside_refuted.
Print Assumptions C41_density_axis_refuted.
Print Assumptions C41_arguments.
Print Assumptions C41_axes_checked.
Print Assumptions C41_histogram.
Print Assumptions C41_binned_limits_refuted.
