(** Binning of events by name, bin numbers, and back to events. *)
From Verif Require Import Base BaseLemmas Hist_Model Hist_Spec Hist_Proofs Hist_Proofs2 Hist_Proofs3.
From Coq Require Import Sorted Permutation Qround Lqa.
#[local] Open Scope nat_scope.

Definition wlist (d : udata) : list Q :=
  match u_weights d with Some w => w | None => map (fun _ => 1%Q) (u_rows d) end.

Lemma value_of_nth obs row k o x :
  NoDup obs -> nth_error obs k = Some o -> nth_error row k = Some x -> value_of obs row o = x.
Proof.
  intros N H1 H2. unfold value_of. rewrite (nodup_index_of String.eqb string_eqb_ok o obs k N H1).
  apply nth_error_nth. exact H2.
Qed.

Lemma forallb_combine {A B} (f : A * B -> bool) (a : list A) (b : list B) :
  length a = length b ->
  forallb f (combine a b) = true <->
  forall k x y, nth_error a k = Some x -> nth_error b k = Some y -> f (x, y) = true.
Proof.
  intros L. rewrite forallb_forall. split.
  - intros H k x y Hx Hy. apply H. apply nth_error_In with k. apply combine_nth_error2; assumption.
  - intros H [x y] I. apply In_nth_error in I. destruct I as [k Hk].
    assert (Kl : k < length (combine a b)) by (apply nth_error_Some; congruence).
    rewrite combine_length in Kl.
    destruct (nth_error a k) as [x'|] eqn:Ex; [|apply nth_error_None in Ex; lia].
    destruct (nth_error b k) as [y'|] eqn:Ey; [|apply nth_error_None in Ey; lia].
    rewrite (combine_nth_error2 _ _ _ _ _ Ex Ey) in Hk. injection Hk as <- <-. apply (H k); assumption.
Qed.

(** A row of data in the order of the space is filled in the bin that encloses it by name. *)
Lemma hit_by_name closed s row f :
  space_ok s -> Forall increasing (b_edges s) -> length row = length (b_obs s) ->
  hit closed (b_edges s) (map f (b_obs s)) row = row_in_bin closed s (b_obs s) row f.
Proof.
  intros [N L] HF LR. apply Bool.eq_iff_eq_true. unfold hit.
  assert (LR' : length row = length (b_edges s)) by congruence.
  unfold row_in_bin. rewrite forallb_combine by congruence. split.
  - destruct (row_index closed (b_edges s) row) as [i|] eqn:E; [|discriminate]. intros H.
    apply shape_eqb_eq in H. subst i. apply row_index_iff in E; [|exact HF|exact LR'].
    destruct E as [_ A]. intros k o e Ho He. cbn [fst snd].
    assert (kl : k < length row) by (rewrite LR; apply nth_error_Some; congruence).
    destruct (nth_error row k) as [x|] eqn:Ex; [|apply nth_error_None in Ex; lia].
    rewrite (value_of_nth _ _ _ _ _ N Ho Ex). apply (A k e x); [exact He|exact Ex|].
    rewrite nth_error_map, Ho. reflexivity.
  - intros A. assert (E : row_index closed (b_edges s) row = Some (map f (b_obs s))).
    { apply row_index_iff; [exact HF|exact LR'|]. split; [rewrite map_length; congruence|].
      intros k e x i He Ex Hi. rewrite nth_error_map in Hi.
      destruct (nth_error (b_obs s) k) as [o|] eqn:Ho; [|discriminate]. injection Hi as <-.
      specialize (A k o e Ho He). cbn [fst snd] in A. rewrite (value_of_nth _ _ _ _ _ N Ho Ex) in A. exact A. }
    rewrite E. apply shape_eqb_refl.
Qed.

Lemma range_by_name closed s row :
  space_ok s -> Forall increasing (b_edges s) -> length row = length (b_obs s) ->
  match row_index closed (b_edges s) row with Some _ => true | None => false end
  = row_in_range closed s (b_obs s) row.
Proof.
  intros [N L] HF LR. apply Bool.eq_iff_eq_true.
  assert (LR' : length row = length (b_edges s)) by congruence.
  unfold row_in_range. rewrite forallb_combine by congruence.
  assert (RV : forall k o, nth_error (b_obs s) k = Some o ->
     exists x, nth_error row k = Some x /\ value_of (b_obs s) row o = x).
  { intros k o Ho. assert (kl : k < length row) by (rewrite LR; apply nth_error_Some; congruence).
    destruct (nth_error row k) as [x|] eqn:Ex; [|apply nth_error_None in Ex; lia].
    exists x. split; [reflexivity|]. apply (value_of_nth _ _ _ _ _ N Ho Ex). }
  split.
  - destruct (row_index closed (b_edges s) row) as [i|] eqn:E; [|discriminate]. intros _.
    apply row_index_iff in E; [|exact HF|exact LR']. destruct E as [LI A].
    intros k o e Ho He. cbn [fst snd]. destruct (RV k o Ho) as [x [Ex Vx]]. rewrite Vx.
    assert (kl : k < length i) by (rewrite LI; apply nth_error_Some; congruence).
    destruct (nth_error i k) as [j|] eqn:Ej; [|apply nth_error_None in Ej; lia].
    apply in_range_bin; [rewrite Forall_forall in HF; apply HF; apply nth_error_In with k; exact He|].
    exists j. apply (A k e x j He Ex Ej).
  - intros A. assert (X : exists i, row_index closed (b_edges s) row = Some i); [|destruct X as [i X]; rewrite X; reflexivity].
    unfold row_index. apply all_some_map_total. intros [e x] I. apply In_nth_error in I. destruct I as [k Hk].
    cbn [fst snd].
    assert (Kl : k < length (combine (b_edges s) row)) by (apply nth_error_Some; congruence).
    rewrite combine_length in Kl.
    destruct (nth_error (b_edges s) k) as [e'|] eqn:Ee; [|apply nth_error_None in Ee; lia].
    destruct (nth_error row k) as [x'|] eqn:Ex; [|apply nth_error_None in Ex; lia].
    rewrite (combine_nth_error2 _ _ _ _ _ Ee Ex) in Hk. injection Hk as <- <-.
    destruct (nth_error (b_obs s) k) as [o|] eqn:Ho; [|apply nth_error_None in Ho; lia].
    specialize (A k o e' Ho Ee). cbn [fst snd] in A. rewrite (value_of_nth _ _ _ _ _ N Ho Ex) in A.
    assert (HI : increasing e') by (rewrite Forall_forall in HF; apply HF; apply nth_error_In with k; exact Ee).
    apply in_range_bin in A; [|exact HI]. destruct A as [i Hi]. exists i. apply axis_index_iff; assumption.
Qed.

Lemma events_rows d ev : udata_ok d -> In ev (events d) -> length (fst ev) = length (u_obs d).
Proof.
  intros [_ [HR _]] H. destruct ev as [r w]. apply in_combine_l in H. cbn. rewrite Forall_forall in HR. apply HR, H.
Qed.

Lemma binned_form closed d s :
  u_obs d = b_obs s -> space_ok s ->
  exists h, unbinned_to_binned closed d (ASpace s) = Ok h /\ h_space h = s /\
    t_shape (h_values h) = map (fun e => length e - 1) (b_edges s) /\
    exists v, h_variances h = Some v /\ t_shape v = t_shape (h_values h) /\
    forall idx,
      (t_get (h_values h) idx == qsum (map (fun ev => if hit closed (b_edges s) idx (fst ev) then snd ev else 0) (events d)))%Q /\
      (t_get v idx == qsum (map (fun ev => if hit closed (b_edges s) idx (fst ev) then snd ev * snd ev else 0) (events d)))%Q.
Proof.
  intros EO [N L]. unfold unbinned_to_binned. cbn [bind]. unfold unbinned_to_hist.
  rewrite EO, L, Nat.eqb_refl. cbn [negb bind fst snd].
  eexists. split; [apply make_holder_ok; [|reflexivity]|].
  - intros w H. injection H as H. subst w. reflexivity.
  - cbn [h_space h_values h_variances t_shape]. repeat (split; [reflexivity|]).
    eexists. split; [reflexivity|]. split; [reflexivity|].
    intros idx. cbn [t_get]. fold (events d).
    destruct (fill_get closed (b_edges s) (events d) ((fun _ => 0%Q), (fun _ => 0%Q)) idx) as [A B].
    cbn [fst snd] in A, B. rewrite A, B. split; ring.
Qed.

Lemma binned_by_name closed d s :
  u_obs d = b_obs s -> space_ok s -> udata_ok d -> Forall increasing (b_edges s) ->
  exists h, unbinned_to_binned closed d (ASpace s) = Ok h /\ h_space h = s /\ holder_ok h /\
    exists v, h_variances h = Some v /\
    (forall f, content (b_obs s) (h_values h) f
               == weight_where (fun row => row_in_bin closed s (u_obs d) row f) (fun w => w) d)%Q /\
    (forall f, content (b_obs s) v f
               == weight_where (fun row => row_in_bin closed s (u_obs d) row f) (fun w => w * w) d)%Q /\
    (samplesize h == weight_where (row_in_range closed s (u_obs d)) (fun w => w) d)%Q.
Proof.
  intros EO SO UO HF. destruct (binned_form closed d s EO SO) as [h [E [ES [SH [v [EV [SV A]]]]]]].
  exists h. split; [exact E|split; [exact ES|]]. split.
  { split; [rewrite ES; exact SO|split; [rewrite ES; exact SH|]]. intros w Hw. congruence. }
  exists v. split; [exact EV|].
  assert (HB : forall f g, (qsum (map (fun ev : list Q * Q => if hit closed (b_edges s) (map f (b_obs s)) (fst ev) then g (snd ev) else 0) (events d))
             == weight_where (fun row => row_in_bin closed s (u_obs d) row f) g d)%Q).
  { intros f g. unfold weight_where. apply qsum_ext. intros ev I. rewrite EO.
    rewrite hit_by_name; [reflexivity|exact SO|exact HF|]. rewrite <- EO. apply events_rows; assumption. }
  split; [|split].
  - intros f. unfold content. rewrite (proj1 (A _)). apply (HB f (fun w => w)).
  - intros f. unfold content. rewrite (proj2 (A _)). apply (HB f (fun w => w * w)%Q).
  - unfold samplesize, flatten. rewrite SH.
    rewrite (qsum_ext _ _ _ (fun idx _ => proj1 (A idx))).
    rewrite (hit_total closed (b_edges s) (fun w => w) (events d) HF).
    + unfold weight_where. apply qsum_ext. intros ev I. rewrite EO, range_by_name; [reflexivity|exact SO|exact HF|].
      rewrite <- EO. apply events_rows; assumption.
    + apply Forall_forall. intros ev I. rewrite (events_rows d ev UO I), EO. symmetry. apply SO.
Qed.

(** A binning given by its axes is put in the order of the data. *)
Lemma with_binning_ok obs axes :
  NoDup obs -> NoDup (map fst axes) -> (forall o, In o obs <-> In o (map fst axes)) ->
  exists s, with_binning obs axes = Ok s /\ b_obs s = obs /\ space_ok s /\
    (forall o e, edges_of s o e <-> In (o, e) axes).
Proof.
  intros N NA S. unfold with_binning.
  replace (set_eqb String.eqb (map fst axes) obs) with true
    by (symmetry; apply (set_eqb_iff String.eqb string_eqb_ok); intros x; symmetry; apply S).
  cbn [negb].
  destruct (all_some_map_total (fun o => lookup String.eqb o axes) obs) as [es E].
  { intros o Ho. apply (lookup_some_key String.eqb string_eqb_ok). apply S, Ho. }
  rewrite E. cbn. eexists. split; [reflexivity|split; [reflexivity|split]].
  - split; [exact N|]. cbn. apply (all_some_map_length _ _ _ E).
  - intros o e. unfold edges_of. cbn. split.
    + intros [k [H1 H2]]. rewrite (all_some_map_nth _ _ _ _ _ E H1) in H2.
      apply (lookup_in String.eqb string_eqb_ok). exact H2.
    + intros I. assert (Io : In o obs) by (apply S; apply in_map_iff; exists (o, e); split; [reflexivity|exact I]).
      apply In_nth_error in Io. destruct Io as [k Hk]. exists k. split; [exact Hk|].
      rewrite (all_some_map_nth _ _ _ _ _ E Hk). apply (lookup_nodup String.eqb string_eqb_ok); assumption.
Qed.

Lemma binning_arg_as_space closed d axes s :
  with_binning (u_obs d) axes = Ok s ->
  unbinned_to_binned closed d (ABinning axes) = unbinned_to_binned closed d (ASpace s).
Proof. intros H. unfold unbinned_to_binned. rewrite H. reflexivity. Qed.

(** ** Bin numbers *)
Lemma find_bins_some edges x k : increasing edges ->
  find_bins edges x = Some k <-> in_bin true edges k x = true.
Proof. intros S. apply axis_index_iff. exact S. Qed.
Lemma find_bins_none edges x : increasing edges ->
  find_bins edges x = None <-> in_range true edges x = false.
Proof.
  intros S. split; intros H.
  - destruct (in_range true edges x) eqn:E; [|reflexivity]. apply in_range_bin in E; [|exact S].
    destruct E as [k Hk]. apply find_bins_some in Hk; [|exact S]. congruence.
  - destruct (find_bins edges x) as [k|] eqn:E; [|reflexivity]. apply find_bins_some in E; [|exact S].
    assert (in_range true edges x = true) by (apply in_range_bin; [exact S|exists k; exact E]). congruence.
Qed.

Lemma binindex_by_name d s :
  space_ok s -> udata_ok d -> Forall increasing (b_edges s) -> incl (b_obs s) (u_obs d) ->
  exists l, unbinned_to_binindex d s = Ok l /\ length l = length (u_rows d) /\
    forall i row out, nth_error (u_rows d) i = Some row -> nth_error l i = Some out ->
      length out = length (b_obs s) /\
      forall k o e, nth_error (b_obs s) k = Some o -> nth_error (b_edges s) k = Some e ->
        exists r, nth_error out k = Some r /\
          match r with
          | Some b => in_bin true e b (value_of (u_obs d) row o) = true
          | None => in_range true e (value_of (u_obs d) row o) = false
          end.
Proof.
  intros [N L] [NU [HR _]] HF I.
  assert (ROW : forall row, length row = length (u_obs d) ->
    binindex_row s (u_obs d) row
    = Ok (map (fun p => find_bins (snd p) (value_of (u_obs d) row (fst p))) (combine (b_obs s) (b_edges s)))).
  { intros row LR. unfold binindex_row.
    assert (A : forall ps : list (string * list Q), (forall p, In p ps -> In (fst p) (u_obs d)) ->
       mapM (fun p => let* x := column_of (u_obs d) row (fst p) in Ok (find_bins (snd p) x)) ps
       = Ok (map (fun p => find_bins (snd p) (value_of (u_obs d) row (fst p))) ps)).
    { induction ps as [|p ps IH]; intros H; [reflexivity|]. cbn [mapM map].
      assert (C : column_of (u_obs d) row (fst p) = Ok (value_of (u_obs d) row (fst p))).
      { unfold column_of, value_of.
        destruct (index_of_in String.eqb string_eqb_ok (fst p) (u_obs d)) as [k Hk]; [apply H; left; reflexivity|].
        rewrite Hk. pose proof (index_of_lt String.eqb string_eqb_ok _ _ _ Hk) as Kl.
        destruct (nth_error row k) as [x|] eqn:E; [|apply nth_error_None in E; lia].
        cbn. f_equal. symmetry. apply nth_error_nth. exact E. }
      rewrite C. cbn [bind]. rewrite IH; [reflexivity|]. intros q Hq. apply H. right. exact Hq. }
    apply A. intros [o e] Hp. apply in_combine_l in Hp. apply I, Hp. }
  assert (M : unbinned_to_binindex d s
    = Ok (map (fun row => map (fun p => find_bins (snd p) (value_of (u_obs d) row (fst p))) (combine (b_obs s) (b_edges s))) (u_rows d))).
  { unfold unbinned_to_binindex. clear -HR ROW. induction HR as [|row rows H HR IH]; [reflexivity|].
    cbn [mapM map]. rewrite (ROW row H). cbn [bind]. rewrite IH. reflexivity. }
  eexists. split; [exact M|]. split; [apply map_length|].
  intros i row out Hrow Hout. rewrite nth_error_map, Hrow in Hout. injection Hout as <-.
  split; [rewrite map_length, combine_length; lia|].
  intros k o e Ho He. rewrite nth_error_map, (combine_nth_error2 _ _ _ _ _ Ho He). cbn [option_map fst snd].
  eexists. split; [reflexivity|].
  assert (HI : increasing e) by (rewrite Forall_forall in HF; apply HF; apply nth_error_In with k; exact He).
  destruct (find_bins e (value_of (u_obs d) row o)) as [b|] eqn:E.
  - apply find_bins_some; assumption.
  - apply find_bins_none; assumption.
Qed.

(** ** Back to events *)
Lemma centers_length edges : length (centers edges) = length edges - 1.
Proof.
  induction edges as [|a [|b r] IH]; [reflexivity|reflexivity|]. cbn [centers length] in *. rewrite IH. lia.
Qed.

Lemma centers_in_bin closed edges k c :
  increasing edges -> nth_error (centers edges) k = Some c -> in_bin closed edges k c = true.
Proof.
  intros S H. apply in_bin_iff.
  assert (A : forall edges k c, nth_error (centers edges) k = Some c ->
     exists a b, nth_error edges k = Some a /\ nth_error edges (Datatypes.S k) = Some b /\ c = ((a + b) / 2)%Q).
  { clear. induction edges as [|a [|b r] IH]; intros k c H; [destruct k; discriminate|destruct k; discriminate|].
    destruct k as [|k]; cbn [centers nth_error] in H.
    - injection H as H. exists a, b. repeat split. symmetry. exact H.
    - apply IH in H. exact H. }
  destruct (A edges k c H) as [a [b [E1 [E2 Ec]]]].
  assert (a < b)%Q by (apply (increasing_nth edges k (Datatypes.S k)); try assumption; lia).
  assert (Q2 : ((a + b) / 2 == (a + b) * (1 # 2))%Q) by reflexivity.
  exists a, b. split; [exact E1|split; [exact E2|]]. subst c. rewrite Q2. split; [lra|left; lra].
Qed.

Lemma combine_map_both {A B C} (f : A -> B) (g : A -> C) l : combine (map f l) (map g l) = map (fun a => (f a, g a)) l.
Proof. induction l as [|a l IH]; [reflexivity|]. cbn. f_equal. exact IH. Qed.

Lemma to_unbinned_form inside h :
  holder_ok h -> (forall idx, In idx (indices (t_shape (h_values h))) -> inside (center_row (h_space h) idx) = true) ->
  to_unbinned inside h
  = UData (b_obs (h_space h)) (map (center_row (h_space h)) (indices (t_shape (h_values h))))
          (Some (flatten (h_values h))).
Proof.
  intros [SO [SH _]] HI. unfold to_unbinned.
  replace (map (@length Q) (map centers (b_edges (h_space h)))) with (t_shape (h_values h)).
  2:{ rewrite SH, map_map. apply map_ext. intros e. symmetry. apply centers_length. }
  fold (center_row (h_space h)). unfold flatten.
  rewrite (combine_map_both (center_row (h_space h)) (t_get (h_values h))).
  assert (A : forall l : list (list nat), (forall i, In i l -> inside (center_row (h_space h) i) = true) ->
    filter (fun p : list Q * Q => inside (fst p)) (map (fun a => (center_row (h_space h) a, t_get (h_values h) a)) l)
    = map (fun a => (center_row (h_space h) a, t_get (h_values h) a)) l).
  { induction l as [|i l IH]; intros H; [reflexivity|]. cbn [map filter fst].
    rewrite (H i (or_introl eq_refl)). f_equal. apply IH. intros j Hj. apply H. right. exact Hj. }
  rewrite A by exact HI. rewrite !map_map. reflexivity.
Qed.

Lemma center_row_index closed s idx :
  space_ok s -> Forall increasing (b_edges s) -> in_shape idx (map (fun e => length e - 1) (b_edges s)) ->
  length (center_row s idx) = length (b_edges s) /\
  row_index closed (b_edges s) (center_row s idx) = Some idx.
Proof.
  intros SO HF HS. assert (LI : length idx = length (b_edges s)) by (apply Forall2_length' in HS; rewrite map_length in HS; exact HS).
  assert (LR : length (center_row s idx) = length (b_edges s))
    by (unfold center_row; rewrite map_length, combine_length, map_length; lia).
  split; [exact LR|]. apply row_index_iff; [exact HF|exact LR|]. split; [exact LI|].
  intros k e x i He Hx Hi. apply centers_in_bin; [rewrite Forall_forall in HF; apply HF; apply nth_error_In with k; exact He|].
  unfold center_row in Hx. rewrite nth_error_map in Hx.
  rewrite (combine_nth_error2 idx (map centers (b_edges s)) k i (centers e)) in Hx; [|exact Hi|rewrite nth_error_map, He; reflexivity].
  cbn in Hx. injection Hx as <-. apply nth_error_nth'. rewrite centers_length.
  unfold in_shape in HS. pose proof (proj1 (Forall2_nth _ _ _) HS) as X.
  destruct X as [_ X]. specialize (X k i (length e - 1) Hi). apply X. rewrite nth_error_map, He. reflexivity.
Qed.

Lemma to_unbinned_round_trip closed inside h :
  holder_ok h -> Forall increasing (b_edges (h_space h)) ->
  (forall idx, In idx (indices (t_shape (h_values h))) -> inside (center_row (h_space h) idx) = true) ->
  (exists h', unbinned_to_binned closed (to_unbinned inside h) (ASpace (h_space h)) = Ok h' /\
    h_space h' = h_space h /\ t_shape (h_values h') = t_shape (h_values h) /\
    forall idx, in_shape idx (t_shape (h_values h)) -> (t_get (h_values h') idx == t_get (h_values h) idx)%Q) /\
  (qsum (wlist (to_unbinned inside h)) == samplesize h)%Q.
Proof.
  intros OK HF HI. rewrite (to_unbinned_form inside h OK HI). destruct OK as [SO [SH _]].
  split; [|reflexivity].
  set (d := UData _ _ _).
  destruct (binned_form closed d (h_space h) eq_refl SO) as [h' [E [ES [SH' [v [EV [SV A]]]]]]].
  exists h'. split; [exact E|split; [exact ES|split; [congruence|]]].
  intros idx Hidx. rewrite (proj1 (A idx)). unfold events, d. cbn [u_rows u_weights]. unfold flatten.
  rewrite combine_map_both, map_map. cbn [fst snd].
  rewrite (qsum_ext _ (fun i => if list_eq_dec Nat.eq_dec i idx then t_get (h_values h) i else 0%Q)).
  - apply (qsum_pick (list_eq_dec Nat.eq_dec) (t_get (h_values h))); [apply indices_nodup|]. apply indices_in. exact Hidx.
  - intros i Hi. apply indices_in in Hi. rewrite SH in Hi.
    unfold hit. rewrite (proj2 (center_row_index closed (h_space h) i SO HF Hi)).
    destruct (list_eq_dec Nat.eq_dec i idx) as [Ei|Ei].
    + subst. rewrite shape_eqb_refl. reflexivity.
    + destruct (shape_eqb idx i) eqn:X; [apply shape_eqb_eq in X; congruence|reflexivity].
Qed.
