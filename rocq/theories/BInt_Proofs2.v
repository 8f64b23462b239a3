From Verif Require Import Base BaseLemmas Hist_Model Hist_Spec Hist_Proofs Hist_Proofs3 BInt_Model BInt_Spec BInt_Proofs.
From Coq Require Import Qminmax Lqa Permutation.
#[local] Open Scope nat_scope.

Fixpoint pickm (b : bool) (mask : list bool) (l : list nat) : list nat :=
  match mask, l with
  | m :: mask', x :: r => if Bool.eqb m b then x :: pickm b mask' r else pickm b mask' r
  | _, _ => []
  end.
Fixpoint mergem (mask : list bool) (rest summed : list nat) : list nat :=
  match mask with
  | [] => []
  | true :: m => match summed with s :: r => s :: mergem m rest r | [] => [] end
  | false :: m => match rest with s :: r => s :: mergem m r summed | [] => [] end
  end.
Lemma pick_mask b axis l i : pick b i axis l = pickm b (map (fun j => mem Nat.eqb j axis) (seq i (length l))) l.
Proof. revert i. induction l as [|x l IH]; intros i; [reflexivity|]. cbn. rewrite <- IH. reflexivity. Qed.
Lemma merge_mask n axis i rest summed :
  merge i n axis rest summed = mergem (map (fun j => mem Nat.eqb j axis) (seq i n)) rest summed.
Proof.
  revert i rest summed. induction n as [|n IH]; intros i rest summed; [reflexivity|]. cbn.
  destruct (mem Nat.eqb i axis); [destruct summed|destruct rest]; try reflexivity; rewrite IH; reflexivity.
Qed.

Lemma qsum_flat_map {A B} (f : B -> Q) (h : A -> list B) l :
  (qsum (map f (flat_map h l)) == qsum (map (fun x => qsum (map f (h x))) l))%Q.
Proof.
  induction l as [|x l IH]; [reflexivity|]. cbn [flat_map map]. rewrite map_app, qsum_app, qsum_cons, IH. reflexivity.
Qed.
Lemma qsum_filter {A} (f : A -> Q) (p : A -> bool) l :
  (qsum (map f (filter p l)) == qsum (map (fun x => if p x then f x else 0) l))%Q.
Proof.
  induction l as [|x l IH]; [reflexivity|]. cbn [filter map]. rewrite qsum_cons, <- IH.
  destruct (p x); [reflexivity|]. lra.
Qed.

Lemma qsum_single {A} (f : A -> Q) l a : NoDup l -> In a l ->
  (forall x, In x l -> x <> a -> (f x == 0)%Q) -> (qsum (map f l) == f a)%Q.
Proof.
  induction l as [|x l IH]; intros N I Z; [destruct I|]. inversion N as [|? ? N1 N2]; subst. cbn [map]. rewrite qsum_cons.
  destruct I as [->|I].
  - rewrite qsum_zero; [ring|]. intros y Y. apply Z; [right; exact Y|]. intros ->. contradiction.
  - rewrite IH; [|exact N2|exact I|intros y Y; apply Z; right; exact Y].
    rewrite (Z x); [ring|left; reflexivity|]. intros ->. contradiction.
Qed.

(** A part of a sum over bins: bins outside the part weigh nothing. *)
Lemma sum_window n L U (H w g : nat -> Q) : L <= U <= n ->
  (forall s, s < U - L -> (g s == w (L + s)%nat)%Q) ->
  (forall k, k < n -> ~ L <= k < U -> (w k == 0)%Q) ->
  (qsum (map (fun s => H (s + L)%nat * g s) (seq 0 (U - L)%nat)) == qsum (map (fun k => H k * w k) (seq 0 n)))%Q.
Proof.
  intros B G Z. replace n with (L + ((U - L) + (n - U))) by lia.
  rewrite !seq_app, !map_app, !qsum_app.
  rewrite (qsum_zero (fun k => H k * w k)%Q (seq 0 L)).
  2:{ intros k K. apply in_seq in K. rewrite Z by lia. lra. }
  rewrite (qsum_zero (fun k => H k * w k)%Q (seq (0 + L + (U - L)) (n - U))).
  2:{ intros k K. apply in_seq in K. rewrite Z by lia. lra. }
  rewrite Qplus_0_l, Qplus_0_r. cbn [Nat.add].
  assert (E : seq L (U - L) = map (fun s => (L + s)%nat) (seq 0 (U - L))).
  { clear. generalize (U - L) as m. intros m. revert L. induction m as [|m IH]; intros L; [reflexivity|].
    cbn [seq map]. rewrite IH. rewrite <- seq_shift, map_map. f_equal; [lia|].
    apply map_ext. intros a. lia. }
  rewrite E, map_map. apply qsum_ext. intros s S1. apply in_seq in S1.
  rewrite G by lia. replace (s + L) with (L + s) by lia. reflexivity.
Qed.

Section Main.
Variable w : spec_axis -> nat -> Q.
Variable g : cut -> nat -> Q.

Definition fits1 (a : spec_axis) (c : cut) : Prop :=
  c_lower c <= c_upper c <= length (fst a) - 1 /\
  (forall s, s < c_upper c - c_lower c -> (g c s == w a (c_lower c + s)%nat)%Q) /\
  (forall k, k < length (fst a) - 1 -> ~ c_lower c <= k < c_upper c -> (w a k == 0)%Q) /\
  (snd a = None -> c_lower c = 0 /\ c_upper c = length (fst a) - 1).

Fixpoint prodg (cuts : list cut) (idx : list nat) : Q :=
  match cuts, idx with
  | c :: cs, i :: r => (g c i * prodg cs r)%Q
  | _, _ => 1%Q
  end.
Definition sizes_of (cuts : list cut) : list nat := map (fun c => c_upper c - c_lower c) cuts.

Lemma kept_cons a axes k idx : kept (a :: axes) (k :: idx) = if integrated a then kept axes idx else k :: kept axes idx.
Proof. unfold kept. cbn [combine filter fst]. destruct (integrated a); reflexivity. Qed.
Lemma weight_cons a axes k idx : (bin_weight w (a :: axes) (k :: idx) = w a k * bin_weight w axes idx)%Q.
Proof. reflexivity. Qed.

Lemma sum_main axes cuts : Forall2 fits1 axes cuts -> forall F rest,
  in_shape rest (kept axes (bins_of axes)) ->
  (qsum (map (fun summed => F (add_index (mergem (map integrated axes) rest summed) (map c_lower cuts))
                            * prodg cuts (mergem (map integrated axes) rest summed))
             (indices (pickm true (map integrated axes) (sizes_of cuts))))
   == qsum (map (fun idx => if list_eq_dec Nat.eq_dec (kept axes idx) rest then F idx * bin_weight w axes idx else 0)
                (indices (bins_of axes))))%Q.
Proof.
  induction 1 as [|a c axes cuts [B [G [Z N]]] FF IH]; intros F rest R.
  - cbn in R. inversion R; subst. cbn -[Qmult Qplus]. reflexivity.
  - change (bins_of (a :: axes)) with ((length (fst a) - 1) :: bins_of axes) in *.
    change (sizes_of (c :: cuts)) with ((c_upper c - c_lower c) :: sizes_of cuts).
    cbn [map pickm]. rewrite kept_cons in R.
    destruct (integrated a) eqn:EI; cbn [Bool.eqb].
    + cbn [indices]. rewrite !qsum_flat_map.
      rewrite (qsum_ext _ (fun s => qsum (map (fun summed =>
               F ((s + c_lower c)%nat :: add_index (mergem (map integrated axes) rest summed) (map c_lower cuts))
               * prodg cuts (mergem (map integrated axes) rest summed))
             (indices (pickm true (map integrated axes) (sizes_of cuts)))) * g c s)%Q).
      2:{ intros s _. rewrite map_map. cbn [mergem add_index prodg].
          rewrite (Qmult_comm (qsum _)). rewrite <- qsum_scale. apply qsum_ext. intros x _. ring. }
      rewrite (sum_window (length (fst a) - 1) (c_lower c) (c_upper c)
                (fun s => qsum (map (fun summed =>
               F (s :: add_index (mergem (map integrated axes) rest summed) (map c_lower cuts))
               * prodg cuts (mergem (map integrated axes) rest summed))
             (indices (pickm true (map integrated axes) (sizes_of cuts)))))%Q (w a) (g c) B G Z).
      apply qsum_ext. intros k _. rewrite (IH (fun i => F (k :: i)) rest R).
      rewrite (Qmult_comm (qsum _)). rewrite <- qsum_scale, map_map. apply qsum_ext. intros idx _.
      rewrite kept_cons, EI. destruct (list_eq_dec Nat.eq_dec (kept axes idx) rest); [|lra].
      rewrite weight_cons. ring.
    + destruct rest as [|r rest]; [inversion R|]. inversion R as [|? ? ? ? R1 R2]; subst.
      assert (N1 : snd a = None) by (unfold integrated in EI; destruct (snd a); congruence).
      destruct (N N1) as [Nl Nu].
      cbn [mergem add_index prodg]. rewrite Nl.
      rewrite (qsum_ext _ (fun summed => g c r * (F (r :: add_index (mergem (map integrated axes) rest summed) (map c_lower cuts))
               * prodg cuts (mergem (map integrated axes) rest summed)))%Q).
      2:{ intros x _. rewrite Nat.add_0_r. ring. }
      rewrite qsum_scale, (IH (fun i => F (r :: i)) rest R2).
      rewrite G by lia. rewrite Nl, Nat.add_0_l.
      cbn [indices]. rewrite qsum_flat_map.
      rewrite (qsum_single _ (seq 0 (length (fst a) - 1)) r).
      2:{ apply seq_NoDup. } 2:{ apply in_seq. lia. }
      2:{ intros k K NE. rewrite map_map. apply qsum_zero. intros idx _. rewrite kept_cons, EI.
          destruct (list_eq_dec Nat.eq_dec (k :: kept axes idx) (r :: rest)); [congruence|reflexivity]. }
      rewrite map_map, <- qsum_scale. apply qsum_ext. intros idx _. rewrite kept_cons, EI, weight_cons.
      destruct (list_eq_dec Nat.eq_dec (kept axes idx) rest) as [E|E],
        (list_eq_dec Nat.eq_dec (r :: kept axes idx) (r :: rest)) as [E'|E']; try congruence; ring.
Qed.
End Main.

Lemma nth_area_ratio cuts idx : length idx = length cuts ->
  Forall2 (fun c i => ~ nth i (widths (c_unscaled c)) 0 == 0)%Q cuts idx ->
  (area (map (fun c => widths (c_scaled c)) cuts) idx / area (map (fun c => widths (c_unscaled c)) cuts) idx
   == prodg (fun c i => nth i (widths (c_scaled c)) 0 / nth i (widths (c_unscaled c)) 0) cuts idx)%Q
  /\ ~ (area (map (fun c => widths (c_unscaled c)) cuts) idx == 0)%Q.
Proof.
  intros _ F. induction F as [|c i cuts idx H F IH]; cbn [map area prodg].
  - split; [reflexivity|]. intros E. discriminate.
  - destruct IH as [IH1 IH2]. split.
    + rewrite <- IH1. field. split; assumption.
    + intros E. apply Qmult_integral in E. tauto.
Qed.
Lemma area_prodg cuts idx :
  area (map (fun c => widths (c_scaled c)) cuts) idx = prodg (fun c i => nth i (widths (c_scaled c)) 0%Q) cuts idx.
Proof. revert idx. induction cuts as [|c cuts IH]; intros [|i idx]; try reflexivity. cbn. rewrite IH. reflexivity. Qed.

Lemma good_fits_length a c : good_cut a c -> fits1 length_of (fun c s => nth s (widths (c_scaled c)) 0%Q) a c.
Proof. intros (B&L&G&Z&N). split; [exact B|]. split; [|split; [exact Z|exact N]]. intros s S1. apply (G s S1). Qed.
Lemma good_fits_fraction a c : edges_ok (fst a) -> good_cut a c ->
  fits1 fraction_of (fun c s => nth s (widths (c_scaled c)) 0 / nth s (widths (c_unscaled c)) 0)%Q a c.
Proof.
  intros [I Len] (B&L&G&Z&N). split; [exact B|]. split; [|split; [|exact N]].
  - intros s S1. destruct (G s S1) as [G1 G2]. cbv beta. rewrite G1, G2. unfold fraction_of, length_of, fraction.
    assert (P : (0 < width (fst a) (c_lower c + s))%Q) by (apply width_pos; [exact I|lia]).
    destruct (snd a); [reflexivity|]. field. lra.
  - intros k K NK. specialize (Z k K NK). unfold fraction_of, length_of, fraction in *.
    destruct (snd a) eqn:E.
    + rewrite Z. unfold Qdiv. ring.
    + destruct (N eq_refl). lia.
Qed.

(** ** The arguments of the call *)
Lemma axis_mask_gen axes i ax :
  (forall j, i <= j < i + length axes -> (In j ax <-> exists a, nth_error axes (j - i) = Some a /\ integrated a = true)) ->
  map (fun j => mem Nat.eqb j ax) (seq i (length axes)) = map integrated axes.
Proof.
  revert i. induction axes as [|a axes IH]; intros i H; [reflexivity|]. cbn [length seq map]. f_equal.
  - assert (K := H i ltac:(cbn; lia)). rewrite Nat.sub_diag in K. cbn in K.
    destruct (integrated a) eqn:E.
    + apply (mem_In _ nat_eqb_ok). apply K. exists a. split; [reflexivity|exact E].
    + destruct (mem Nat.eqb i ax) eqn:M; [|reflexivity]. apply (mem_In _ nat_eqb_ok) in M. apply K in M.
      destruct M as (a'&A1&A2). congruence.
  - apply IH. intros j J. rewrite (H j ltac:(cbn; lia)). replace (j - i) with (S (j - S i)) by lia. reflexivity.
Qed.
Lemma axis_arg_In axes j : In j (axis_arg axes) <-> exists a, nth_error axes j = Some a /\ integrated a = true.
Proof.
  unfold axis_arg. rewrite in_map_iff. split.
  - intros ([k a]&E&H). cbn in E. subst k. apply filter_In in H. destruct H as [H1 H2]. exists a. split; [|exact H2].
    apply In_nth_error in H1. destruct H1 as [n H1].
    assert (n < length axes).
    { assert (n < length (combine (seq 0 (length axes)) axes)) by (apply nth_error_Some; congruence).
      rewrite combine_length, seq_length in H. lia. }
    destruct (nth_error axes n) as [b|] eqn:E; [|apply nth_error_None in E; lia].
    rewrite (combine_nth_error2 _ _ n n b) in H1; [congruence|apply nth_error_seq0; exact H|exact E].
  - intros (a&E&H). exists (j, a). split; [reflexivity|]. apply filter_In. split; [|exact H].
    assert (j < length axes) by (apply nth_error_Some; congruence).
    apply nth_error_In with j. apply combine_nth_error2; [apply nth_error_seq0; exact H0|exact E].
Qed.
Lemma axis_arg_nodup axes : NoDup (axis_arg axes).
Proof.
  unfold axis_arg. generalize 0 as i. induction axes as [|a axes IH]; intros i; [constructor|].
  cbn [length seq combine filter]. destruct (integrated (snd (i, a))).
  - cbn [map fst]. constructor; [|apply IH]. intros H. apply in_map_iff in H. destruct H as ([k b]&E&H). cbn in E. subst k.
    apply filter_In in H. destruct H as [H _]. apply in_combine_l in H. apply in_seq in H. lia.
  - apply IH.
Qed.
Lemma axis_mask axes ax : Permutation ax (axis_arg axes) ->
  map (fun j => mem Nat.eqb j ax) (seq 0 (length axes)) = map integrated axes.
Proof.
  intros P. apply axis_mask_gen. intros j J. rewrite Nat.sub_0_r. rewrite <- axis_arg_In.
  split; intros H; [apply (Permutation_in _ P H)|apply (Permutation_in _ (Permutation_sym P) H)].
Qed.
Lemma axes_fit_ok n ax : NoDup ax -> (forall a, In a ax -> a < n) -> axes_fit n ax = true.
Proof.
  induction 1 as [|a ax H ND IH]; intros B; [reflexivity|]. cbn [axes_fit]. rewrite IH by (intros; apply B; right; assumption).
  assert (L : a < n) by (apply B; left; reflexivity). apply Nat.ltb_lt in L. rewrite L.
  destruct (mem Nat.eqb a ax) eqn:M; [|reflexivity]. apply (mem_In _ nat_eqb_ok) in M. contradiction.
Qed.

Lemma cuts_good axes : Forall axis_ok axes -> forall i ax,
  map (fun j => mem Nat.eqb j ax) (seq i (length axes)) = map integrated axes ->
  exists cuts, cut_edges_and_bins i (edges_arg axes) ax (limits_arg axes) = Ok cuts /\ Forall2 good_cut axes cuts.
Proof.
  induction 1 as [|[e r] axes [OK M] F IH]; intros i ax H; [exists []; split; [reflexivity|constructor]|].
  cbn [length seq map] in H. injection H as H1 H2. destruct (IH (S i) ax H2) as (cuts&E&G).
  cbn [edges_arg map fst cut_edges_and_bins]. rewrite H1. cbn [snd fst] in *. destruct r as [r|].
  - change (limits_arg ((e, Some r) :: axes)) with (r :: limits_arg axes). cbn [integrated snd].
    destruct (cut_axis_good e r OK (M r eq_refl)) as (c&C1&C2). rewrite C1. cbn [bind].
    fold (edges_arg axes). rewrite E. cbn [bind]. exists (c :: cuts). split; [reflexivity|constructor; assumption].
  - change (limits_arg ((e, None) :: axes)) with (limits_arg axes). cbn [integrated snd].
    fold (edges_arg axes). rewrite E. cbn [bind]. exists (keep_axis e :: cuts). split; [reflexivity|].
    constructor; [apply keep_axis_good; exact OK|exact G].
Qed.

Lemma slice_fits_good axes cuts : Forall2 good_cut axes cuts ->
  slice_fits (bins_of axes) (map c_lower cuts) (sizes_of cuts) = true.
Proof.
  induction 1 as [|a c axes cuts (B&_) F IH]; [reflexivity|]. cbn. fold (bins_of axes). fold (sizes_of cuts). rewrite IH.
  rewrite andb_true_r. apply Nat.leb_le. lia.
Qed.

Lemma kept_sizes axes cuts : Forall2 good_cut axes cuts ->
  pickm false (map integrated axes) (sizes_of cuts) = kept axes (bins_of axes).
Proof.
  induction 1 as [|a c axes cuts (B&_&_&_&N) F IH]; [reflexivity|].
  change (bins_of (a :: axes)) with ((length (fst a) - 1) :: bins_of axes) in *.
  change (sizes_of (c :: cuts)) with ((c_upper c - c_lower c) :: sizes_of cuts).
  cbn [map pickm]. rewrite kept_cons, IH.
  destruct (integrated a) eqn:E; cbn [Bool.eqb]; [reflexivity|].
  assert (N1 : snd a = None) by (unfold integrated in E; destruct (snd a); congruence). destruct (N N1) as [-> ->].
  f_equal. lia.
Qed.

Lemma mergem_shape axes cuts rest summed : Forall2 good_cut axes cuts ->
  in_shape rest (kept axes (bins_of axes)) ->
  in_shape summed (pickm true (map integrated axes) (sizes_of cuts)) ->
  in_shape (mergem (map integrated axes) rest summed) (sizes_of cuts).
Proof.
  intros F. revert rest summed. induction F as [|a c axes cuts (B&_&_&_&N) F IH]; intros rest summed R S1; [constructor|].
  change (bins_of (a :: axes)) with ((length (fst a) - 1) :: bins_of axes) in *.
  change (sizes_of (c :: cuts)) with ((c_upper c - c_lower c) :: sizes_of cuts) in *.
  cbn [map pickm mergem] in *. rewrite kept_cons in R. destruct (integrated a) eqn:E; cbn [Bool.eqb] in *.
  - inversion S1; subst. constructor; [assumption|]. apply IH; assumption.
  - inversion R as [|? ? ? ? R1 R2]; subst.
    assert (N1 : snd a = None) by (unfold integrated in E; destruct (snd a); congruence). destruct (N N1) as [E1 E2].
    constructor; [rewrite E1, E2; lia|]. apply IH; assumption.
Qed.

Lemma length_shape idx sh : in_shape idx sh -> length idx = length sh.
Proof. apply Forall2_length'. Qed.

Definition call_result (is_density : bool) (values : tensor) (axes : list spec_axis) (r : tensor) : Prop :=
  t_shape r = kept axes (bins_of axes) /\
  forall rest, in_shape rest (t_shape r) ->
    (t_get r rest == integral (if is_density then length_of else fraction_of) axes values rest)%Q.

Definition call (is_density : bool) values axes axis : result tensor :=
  binned_rect_integration (limits_arg axes) (edges_arg axes)
    (if is_density then None else Some values) (if is_density then Some values else None) axis.

Lemma call_ok is_density values axes ax : Forall axis_ok axes -> t_shape values = bins_of axes ->
  Permutation ax (axis_arg axes) ->
  exists r, call is_density values axes (Some ax) = Ok r /\ call_result is_density values axes r.
Proof.
  intros OK SH P. assert (ML := axis_mask axes ax P).
  destruct (cuts_good axes OK 0 ax ML) as (cuts&EC&GC).
  assert (LV : length (t_shape values) = length axes) by (rewrite SH; unfold bins_of; apply map_length).
  assert (ND : NoDup ax) by (apply (Permutation_NoDup (Permutation_sym P)), axis_arg_nodup).
  assert (BD : forall a, In a ax -> a < length axes).
  { intros a H. apply (Permutation_in _ P) in H. apply axis_arg_In in H. destruct H as (x&E&_). apply nth_error_Some. congruence. }
  assert (LA : length ax <= length axes).
  { rewrite <- (seq_length (length axes) 0). apply NoDup_incl_length; [exact ND|]. intros a H. apply in_seq. specialize (BD a H). lia. }
  unfold call, binned_rect_integration.
  assert (E0 : match (if is_density then None else Some values), (if is_density then Some values else None) with
           | Some _, Some _ => Err ValueError | Some v, None => Ok (false, v) | None, Some v => Ok (true, v)
           | None, None => Err ValueError end = Ok (is_density, values)) by (destruct is_density; reflexivity).
  rewrite E0. cbn [bind fst snd]. rewrite LV.
  destruct (Nat.ltb_spec (length axes) (length ax)); [lia|]. cbn [bind]. rewrite EC. cbn [bind]. rewrite SH.
  fold (sizes_of cuts). rewrite (slice_fits_good axes cuts GC). cbn [negb].
  rewrite (axes_fit_ok (length axes) ax ND BD). cbn [negb].
  eexists. split; [reflexivity|].
  assert (LS : length (sizes_of cuts) = length axes).
  { unfold sizes_of. rewrite map_length. symmetry. apply Forall2_length' with (1 := GC). }
  unfold call_result, reduce_sum. cbn [t_shape t_get]. rewrite !pick_mask, LS, ML, (kept_sizes axes cuts GC).
  split; [reflexivity|]. intros rest R. unfold integral. rewrite qsum_filter.
  rewrite (qsum_ext _ (fun summed => t_get values (add_index (mergem (map integrated axes) rest summed) (map c_lower cuts))
     * prodg (if is_density then (fun c s => nth s (widths (c_scaled c)) 0)
              else (fun c s => nth s (widths (c_scaled c)) 0 / nth s (widths (c_unscaled c)) 0)) cuts
             (mergem (map integrated axes) rest summed))%Q).
  2:{ intros summed S1. apply indices_in in S1. rewrite merge_mask, ML.
      assert (MS := mergem_shape axes cuts rest summed GC R S1).
      destruct is_density; [rewrite area_prodg; reflexivity|].
      destruct (nth_area_ratio cuts (mergem (map integrated axes) rest summed)) as [Q1 _].
      - rewrite (length_shape _ _ MS). unfold sizes_of. apply map_length.
      - clear - OK GC MS. revert MS. generalize (mergem (map integrated axes) rest summed) as idx.
        induction GC as [|a c axes cuts (B&_&G&_&_) GC IH]; intros idx MS; inversion MS; subst; constructor.
        + destruct (G x ltac:(assumption)) as [_ G2]. rewrite G2. inversion OK as [|? ? [[I _] _] OK']; subst.
          assert (0 < width (fst a) (c_lower c + x))%Q by (apply width_pos; [exact I|lia]). lra.
        + apply IH; [inversion OK; assumption|assumption].
      - rewrite Q1. reflexivity. }
  rewrite (sum_main (if is_density then length_of else fraction_of)).
  - apply qsum_ext. intros idx _. destruct (list_eq_dec Nat.eq_dec (kept axes idx) rest); reflexivity.
  - clear - OK GC. induction GC as [|a c axes cuts G GC IH]; [constructor|]. inversion OK as [|? ? [O1 _] OK']; subst.
    constructor; [|apply IH; exact OK']. destruct is_density; [apply good_fits_length; exact G|apply good_fits_fraction; assumption].
  - exact R.
Qed.

Lemma all_axes axes : forallb integrated axes = true -> axis_arg axes = seq 0 (length axes).
Proof.
  intros H. unfold axis_arg. generalize 0 as i. revert H. induction axes as [|a axes IH]; intros H i; [reflexivity|].
  cbn in H. apply andb_true_iff in H. destruct H as [H1 H2]. cbn [length seq combine filter snd]. rewrite H1. cbn [map fst].
  rewrite IH by exact H2. reflexivity.
Qed.
Lemma call_none is_density values axes : t_shape values = bins_of axes -> forallb integrated axes = true ->
  call is_density values axes None = call is_density values axes (Some (axis_arg axes)).
Proof.
  intros SH A. rewrite (all_axes axes A). unfold call, binned_rect_integration.
  assert (LV : length (t_shape values) = length axes) by (rewrite SH; unfold bins_of; apply map_length).
  destruct is_density; cbn [bind fst snd]; rewrite LV, seq_length, Nat.ltb_irrefl; reflexivity.
Qed.
