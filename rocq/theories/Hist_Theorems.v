(** Properties C25, C26 and C27: binned data. *)
From Verif Require Import Base BaseLemmas Hist_Model Hist_Spec Hist_Proofs Hist_Proofs2 Hist_Proofs3 Hist_Proofs4 Hist_Proofs5.
From Coq Require Import Sorted Lqa.
#[local] Open Scope string_scope.
#[local] Open Scope list_scope.
#[local] Open Scope nat_scope.

(** ** C25 *)

(** Contents, variances and edges by name are unchanged by a reordering that trades places.
    Missing: reorderings that move observables around in a circle of three or more, see
    [C25_three_cycle_refuted]. *)
Theorem C25_by_name_partial : forall h req,
  holder_ok h -> NoDup req -> incl (b_obs (h_space h)) req -> b_obs (h_space h) <> [] ->
  trades_places (b_obs (h_space h)) (order_in (b_obs (h_space h)) req) ->
  exists h', holder_with_obs h req = Ok h' /\ holder_ok h' /\
    b_obs (h_space h') = order_in (b_obs (h_space h)) req /\
    (forall o e, edges_of (h_space h) o e <-> edges_of (h_space h') o e) /\
    (forall f, content (b_obs (h_space h')) (h_values h') f = content (b_obs (h_space h)) (h_values h) f) /\
    (forall f, var_content (b_obs (h_space h')) (h_variances h') f
               = var_content (b_obs (h_space h)) (h_variances h) f).
Proof. exact with_obs_trades. Qed.
Print Assumptions C25_by_name_partial.

(** Up to two observables every reordering trades places. *)
Theorem C25_two_observables : forall own new,
  NoDup own -> NoDup new -> (forall o, In o own <-> In o new) -> length own <= 2 -> trades_places own new.
Proof. exact two_trade. Qed.
Print Assumptions C25_two_observables.

Definition ex_values : tensor := Tensor [2; 3] (fun i => match i with [a; b] => inject_Z (Z.of_nat (10 * a + b)) | _ => 0%Q end).
Definition ex_holder : holder :=
  Holder (BSpace ["x"; "y"] [[0; 1; 2]; [0; 1; 2; 3]]%Q) ex_values (Some ex_values).
Example ex_holder_meets :
  holder_ok ex_holder /\ NoDup ["z"; "y"; "x"] /\ incl (b_obs (h_space ex_holder)) ["z"; "y"; "x"]
  /\ trades_places ["x"; "y"] (order_in ["x"; "y"] ["z"; "y"; "x"]).
Proof.
  assert (N : NoDup ["x"; "y"]) by (repeat constructor; cbn; intuition discriminate).
  assert (N3 : NoDup ["z"; "y"; "x"]) by (repeat constructor; cbn; intuition discriminate).
  assert (I : incl ["x"; "y"] ["z"; "y"; "x"]) by (intros o [H|[H|[]]]; subst; cbn; tauto).
  split; [|split; [exact N3|split; [exact I|]]].
  - split; [split; [exact N|reflexivity]|]. split; [reflexivity|]. intros v H. injection H as <-. reflexivity.
  - destruct (order_in_same ["x"; "y"] ["z"; "y"; "x"] N3 I) as [N2 S2]. apply C25_two_observables; try assumption. cbn. lia.
Qed.
Example ex_reordered : exists h', holder_with_obs ex_holder ["z"; "y"; "x"] = Ok h' /\
  t_shape (h_values h') = [3; 2] /\ t_get (h_values h') [2; 1] = inject_Z 12.
Proof. eexists. split; [reflexivity|]. split; reflexivity. Qed.

(** What any accepted reordering does to the contents. *)
Theorem C25_content_exactly : forall h req h',
  holder_ok h -> NoDup req -> incl (b_obs (h_space h)) req -> b_obs (h_space h) <> [] ->
  holder_with_obs h req = Ok h' ->
  let own := b_obs (h_space h) in let new := order_in own req in
  b_obs (h_space h') = new /\
  (forall o e, edges_of (h_space h) o e <-> edges_of (h_space h') o e) /\
  forall f, exists idx, length idx = length own /\
    content new (h_values h') f = t_get (h_values h) idx /\
    forall i j o, nth_error new i = nth_error own j -> i < length own -> nth_error new j = Some o ->
      nth_error idx i = Some (f o).
Proof. exact with_obs_content. Qed.
Print Assumptions C25_content_exactly.

(** Which reorderings are accepted. *)
Theorem C25_accepted_exactly : forall h req,
  holder_ok h -> NoDup req -> incl (b_obs (h_space h)) req -> b_obs (h_space h) <> [] ->
  let own := b_obs (h_space h) in let new := order_in own req in
  ((exists h', holder_with_obs h req = Ok h') <-> fits own new (t_shape (h_values h))) /\
  (~ fits own new (t_shape (h_values h)) -> holder_with_obs h req = Err InvalidArgumentError).
Proof. exact with_obs_accepted. Qed.
Print Assumptions C25_accepted_exactly.

(** Reordering and reordering back restores the data, also when the intermediate contents are
    in the wrong places. *)
Theorem C25_round_trip : forall h req h1,
  holder_ok h -> NoDup req -> incl (b_obs (h_space h)) req -> b_obs (h_space h) <> [] ->
  holder_with_obs h req = Ok h1 ->
  exists h2, holder_with_obs h1 (b_obs (h_space h)) = Ok h2 /\
    h_space h2 = h_space h /\ same_tensor (h_values h2) (h_values h) /\
    same_var (h_variances h2) (h_variances h).
Proof. exact with_obs_round_trip. Qed.
Print Assumptions C25_round_trip.

(** Binned data cannot be projected: leaving out an observable raises. *)
Theorem C25_subset_raises : forall h req o,
  holder_ok h -> NoDup req -> (exists x, In x (b_obs (h_space h)) /\ In x req) ->
  In o (b_obs (h_space h)) -> ~ In o req ->
  holder_with_obs h req = Err ShapeIncompatibleError.
Proof. exact with_obs_subset. Qed.
Print Assumptions C25_subset_raises.
Example ex_subset : holder_with_obs ex_holder ["y"] = Err ShapeIncompatibleError.
Proof. reflexivity. Qed.

(** Three observables moved in a circle: with equal numbers of bins the contents are found
    under the wrong names, with different numbers the reordering raises. *)
Definition ex_cube : holder :=
  Holder (BSpace ["x"; "y"; "z"] [[0; 1; 2]; [0; 1; 2]; [0; 1; 2]]%Q)
    (Tensor [2; 2; 2] (fun i => match i with [a; b; c] => inject_Z (Z.of_nat (100 * a + 10 * b + c)) | _ => 0%Q end)) None.
Definition ex_box : holder :=
  Holder (BSpace ["x"; "y"; "z"] [[0; 1; 2]; [0; 1; 2; 3]; [0; 1; 2; 3; 4]]%Q)
    (Tensor [2; 3; 4] (fun _ => 1%Q)) None.
Theorem C25_three_cycle_refuted :
  (exists h req h' f, holder_ok h /\ NoDup req /\ incl (b_obs (h_space h)) req /\
     holder_with_obs h req = Ok h' /\ bin_of (h_space h) f /\
     content (b_obs (h_space h')) (h_values h') f <> content (b_obs (h_space h)) (h_values h) f) /\
  (exists h req, holder_ok h /\ NoDup req /\ incl (b_obs (h_space h)) req /\
     holder_with_obs h req = Err InvalidArgumentError).
Proof.
  assert (N1 : NoDup ["x"; "y"; "z"]) by (repeat constructor; cbn; intuition discriminate).
  assert (N2 : NoDup ["y"; "z"; "x"]) by (repeat constructor; cbn; intuition discriminate).
  assert (I : incl ["x"; "y"; "z"] ["y"; "z"; "x"]) by (intros o [H|[H|[H|[]]]]; subst; cbn; tauto).
  split.
  - exists ex_cube, ["y"; "z"; "x"]. eexists. exists (fun o => if String.eqb o "x" then 1 else 0).
    split; [split; [split; [exact N1|reflexivity]|split; [reflexivity|discriminate]]|].
    split; [exact N2|split; [exact I|split; [reflexivity|]]]. split; [|vm_compute; discriminate].
    intros o n [k [e [H1 [H2 H3]]]]. destruct k as [|[|[|k]]]; cbn in H1, H2.
    1-3: injection H1 as <-; injection H2 as <-; subst n; cbn; lia.
    destruct k; discriminate.
  - exists ex_box, ["y"; "z"; "x"]. split; [split; [split; [exact N1|reflexivity]|split; [reflexivity|discriminate]]|].
    split; [exact N2|split; [exact I|reflexivity]].
Qed.
Print Assumptions C25_three_cycle_refuted.

(** ** C26 *)

(** An event in range is in exactly one bin, and one out of range in none. *)
Theorem C26_one_bin : forall closed edges x, increasing edges ->
  (in_range closed edges x = true ->
     exists k, in_bin closed edges k x = true /\ forall k', in_bin closed edges k' x = true -> k' = k) /\
  (in_range closed edges x = false -> forall k, in_bin closed edges k x = false).
Proof.
  intros closed edges x S. split.
  - intros H. apply in_range_bin in H; [|exact S]. destruct H as [k Hk]. exists k. split; [exact Hk|].
    intros k' Hk'. apply (in_bin_unique closed edges k' k x S Hk' Hk).
  - intros H k. destruct (in_bin closed edges k x) eqn:E; [|reflexivity].
    assert (in_range closed edges x = true) by (apply in_range_bin; [exact S|exists k; exact E]). congruence.
Qed.
Print Assumptions C26_one_bin.

(** Data whose columns are in the order of the space: the content of every bin is the summed
    weight of the events it encloses, the variance their summed squared weights, and the
    total the weight of the events in range. Missing: columns in another order, see
    [C26_column_order_refuted]. *)
Theorem C26_bins_partial : forall closed d s,
  u_obs d = b_obs s -> space_ok s -> udata_ok d -> Forall increasing (b_edges s) ->
  exists h, unbinned_to_binned closed d (ASpace s) = Ok h /\ h_space h = s /\ holder_ok h /\
    exists v, h_variances h = Some v /\
    (forall f, content (b_obs s) (h_values h) f
               == weight_where (fun row => row_in_bin closed s (u_obs d) row f) (fun w => w) d)%Q /\
    (forall f, content (b_obs s) v f
               == weight_where (fun row => row_in_bin closed s (u_obs d) row f) (fun w => w * w) d)%Q /\
    (samplesize h == weight_where (row_in_range closed s (u_obs d)) (fun w => w) d)%Q.
Proof. exact binned_by_name. Qed.
Print Assumptions C26_bins_partial.

Definition ex_data : udata :=
  UData ["x"; "y"] [[1 # 2; 5 # 2]; [0; 0]; [3 # 2; 3]; [1 # 2; 5 # 2]; [-1; 1]]%Q (Some [2; 3; 5; 7; 11]%Q).
Definition ex_space : bspace := BSpace ["x"; "y"] [[0; 1; 2]; [0; 1; 2; 3]]%Q.
Lemma ex_increasing : Forall increasing (b_edges ex_space).
Proof. repeat constructor; unfold Qlt; cbn; lia. Qed.
Example ex_data_meets :
  u_obs ex_data = b_obs ex_space /\ space_ok ex_space /\ udata_ok ex_data /\ Forall increasing (b_edges ex_space).
Proof.
  assert (N : NoDup ["x"; "y"]) by (repeat constructor; cbn; intuition discriminate).
  split; [reflexivity|split; [split; [exact N|reflexivity]|split; [|exact ex_increasing]]].
  split; [exact N|split; [repeat constructor|]]. intros w H. injection H as <-. reflexivity.
Qed.
Example ex_binned : exists h, unbinned_to_binned false ex_data (ASpace ex_space) = Ok h /\
  t_get (h_values h) [0; 2] == 9 /\ t_get (h_values h) [1; 2] == 0 /\ samplesize h == 12.
Proof. eexists. split; [reflexivity|]. repeat split; vm_compute; reflexivity. Qed.

(** A binning given as axes is matched by name whatever its order; the result is in the order
    of the data. *)
Theorem C26_binning_by_name : forall closed d axes,
  udata_ok d -> NoDup (map fst axes) -> (forall o, In o (u_obs d) <-> In o (map fst axes)) ->
  Forall (fun a => increasing (snd a)) axes ->
  exists s h, unbinned_to_binned closed d (ABinning axes) = Ok h /\ h_space h = s /\ b_obs s = u_obs d /\
    (forall o e, edges_of s o e <-> In (o, e) axes) /\
    (forall f, content (u_obs d) (h_values h) f
               == weight_where (fun row => row_in_bin closed s (u_obs d) row f) (fun w => w) d)%Q /\
    (samplesize h == weight_where (row_in_range closed s (u_obs d)) (fun w => w) d)%Q.
Proof.
  intros closed d axes UO NA S HF. destruct (with_binning_ok (u_obs d) axes (proj1 UO) NA S) as [s [E [EO [SO HE]]]].
  assert (HI : Forall increasing (b_edges s)).
  { apply Forall_forall. intros e He. apply In_nth_error in He. destruct He as [k Hk].
    destruct (nth_error (b_obs s) k) as [o|] eqn:Ho.
    - rewrite Forall_forall in HF. apply (HF (o, e)). apply HE. exists k. split; assumption.
    - apply nth_error_None in Ho. assert (k < length (b_edges s)) by (apply nth_error_Some; congruence).
      destruct SO as [_ L]. lia. }
  destruct (binned_by_name closed d s (eq_sym EO) SO UO HI) as [h [E1 [E2 [_ [v [_ [A [_ B]]]]]]]].
  exists s, h. rewrite (binning_arg_as_space closed d axes s E). rewrite EO in A.
  split; [exact E1|split; [exact E2|split; [exact EO|split; [exact HE|split; [exact A|exact B]]]]].
Qed.
Print Assumptions C26_binning_by_name.
Example ex_binning_arg : exists h,
  unbinned_to_binned false ex_data (ABinning [("y", [0; 1; 2; 3]%Q); ("x", [0; 1; 2]%Q)]) = Ok h
  /\ t_get (h_values h) [0; 2] == 9.
Proof. eexists. split; reflexivity. Qed.

(** A binning whose names are not exactly the observables of the data (one too many, or one
    missing) is refused. *)
Theorem C26_other_names_refused : forall closed d axes o,
  (In o (map fst axes) /\ ~ In o (u_obs d)) \/ (In o (u_obs d) /\ ~ In o (map fst axes)) ->
  unbinned_to_binned closed d (ABinning axes) = Err ValueError.
Proof.
  intros closed d axes o H. unfold unbinned_to_binned, with_binning.
  destruct (set_eqb String.eqb (map fst axes) (u_obs d)) eqn:E; [|reflexivity].
  pose proof (proj1 (set_eqb_iff _ string_eqb_ok _ _) E o). tauto.
Qed.
Print Assumptions C26_other_names_refused.
Example ex_other_names :
  unbinned_to_binned false ex_data (ABinning [("y", [0; 1; 2; 3]%Q); ("x", [0; 1; 2]%Q); ("z", [0; 1]%Q)]) = Err ValueError
  /\ unbinned_to_binned false ex_data (ABinning [("y", [0; 1; 2; 3]%Q)]) = Err ValueError.
Proof. split; reflexivity. Qed.

(** A space whose observables are the ones of the data in another order: the columns are
    filled in the axes of other observables. *)
Theorem C26_column_order_refuted :
  exists d s h f, udata_ok d /\ space_ok s /\ Forall increasing (b_edges s) /\
    (forall o, In o (u_obs d) <-> In o (b_obs s)) /\
    unbinned_to_binned true d (ASpace s) = Ok h /\
    ~ (content (b_obs s) (h_values h) f
       == weight_where (fun row => row_in_bin true s (u_obs d) row f) (fun w => w) d)%Q.
Proof.
  exists ex_data, (BSpace ["y"; "x"] [[0; 1; 2; 3]; [0; 1; 2]]%Q). eexists.
  exists (fun o => if String.eqb o "y" then 2 else 0).
  split; [apply ex_data_meets|].
  split; [split; [repeat constructor; cbn; intuition discriminate|reflexivity]|].
  split; [repeat constructor; unfold Qlt; cbn; lia|].
  split; [intros o; cbn; tauto|]. split; [reflexivity|]. vm_compute. discriminate.
Qed.
Print Assumptions C26_column_order_refuted.

(** The bin numbers of events are found by name, in any order of the columns. *)
Theorem C26_bin_numbers : forall d s,
  space_ok s -> udata_ok d -> Forall increasing (b_edges s) -> incl (b_obs s) (u_obs d) ->
  exists l, unbinned_to_binindex d s = Ok l /\ length l = length (u_rows d) /\
    forall i row out, nth_error (u_rows d) i = Some row -> nth_error l i = Some out ->
      length out = length (b_obs s) /\
      forall k o e, nth_error (b_obs s) k = Some o -> nth_error (b_edges s) k = Some e ->
        exists r, nth_error out k = Some r /\
          match r with
          | Some b => in_bin true e b (value_of (u_obs d) row o) = true
          | None => in_range true e (value_of (u_obs d) row o) = false
          end.
Proof. exact binindex_by_name. Qed.
Print Assumptions C26_bin_numbers.
Example ex_bin_numbers :
  unbinned_to_binindex ex_data (BSpace ["y"] [[0; 1; 2; 3]]%Q)
  = Ok [[Some 2]; [Some 0]; [Some 2]; [Some 2]; [Some 1]].
Proof. reflexivity. Qed.

(** With the flow the numbers are one higher and zero is outside. *)
Theorem C26_bin_numbers_flow : forall d s l,
  unbinned_to_binindex d s = Ok l ->
  exists l', unbinned_to_binindex_flow d s = Ok l' /\ length l' = length l /\
    forall i row row' k r, nth_error l i = Some row -> nth_error l' i = Some row' -> nth_error row k = Some r ->
      nth_error row' k = Some (match r with Some b => b + 1 | None => 0 end).
Proof.
  intros d s l H. unfold unbinned_to_binindex_flow. rewrite H. cbn [bind]. eexists. split; [reflexivity|].
  split; [apply map_length|]. intros i row row' k r H1 H2 H3. rewrite nth_error_map, H1 in H2. injection H2 as <-.
  rewrite nth_error_map, H3. cbn. destruct r; cbn; [rewrite Nat.add_1_r|]; reflexivity.
Qed.
Print Assumptions C26_bin_numbers_flow.

(** Converted to events and binned again the data is the same, and the total is kept. The
    hypothesis on the cut: the middle of every bin is inside the limits of the space. *)
Theorem C26_round_trip : forall closed inside h,
  holder_ok h -> Forall increasing (b_edges (h_space h)) ->
  (forall idx, In idx (indices (t_shape (h_values h))) -> inside (center_row (h_space h) idx) = true) ->
  (exists h', unbinned_to_binned closed (to_unbinned inside h) (ASpace (h_space h)) = Ok h' /\
    h_space h' = h_space h /\ t_shape (h_values h') = t_shape (h_values h) /\
    forall idx, in_shape idx (t_shape (h_values h)) -> (t_get (h_values h') idx == t_get (h_values h) idx)%Q) /\
  (qsum (match u_weights (to_unbinned inside h) with
         | Some w => w | None => map (fun _ => 1%Q) (u_rows (to_unbinned inside h)) end) == samplesize h)%Q.
Proof. exact to_unbinned_round_trip. Qed.
Print Assumptions C26_round_trip.
Example ex_to_unbinned :
  (samplesize ex_holder == 36)%Q /\
  u_rows (to_unbinned (fun _ => true) ex_holder)
  = [[1#2; 1#2]; [1#2; 3#2]; [1#2; 5#2]; [3#2; 1#2]; [3#2; 3#2]; [3#2; 5#2]]%Q.
Proof. split; vm_compute; reflexivity. Qed.

(** ** C27 *)

(** Linear binning: the count of every grid point is the sum of the normalised weights times
    the linear weight of the distance; counts sum to one and reproduce the mean. *)
Theorem C27_linear_binning : forall g0 dx n grid data weights,
  (0 < dx)%Q -> 2 <= n -> Forall2 Qeq grid (regular_grid g0 dx n) ->
  Forall (within_grid g0 dx n) data ->
  (forall w, weights = Some w -> length w = length data) ->
  ~ (qsum (wts data weights) == 0)%Q ->
  exists out, bin_1d_weighted false data grid weights = Ok out /\ length out = n /\
    (forall k, k < n -> (nth k out 0 ==
       qsum (map (fun p => (snd p / qsum (wts data weights)) * tri ((fst p - grid_point g0 dx k) / dx))
                 (combine data (wts data weights))))%Q) /\
    (qsum out == 1)%Q /\
    (qsum (map (fun p => fst p * snd p) (combine grid out))
     == qsum (map (fun p => fst p * snd p) (combine data (wts data weights))) / qsum (wts data weights))%Q.
Proof.
  intros g0 dx n grid data weights Hdx Hn Hg HD HW NZ.
  destruct (bin_form g0 dx n grid Hdx Hn Hg false data weights HD) as [out [E [L A]]].
  exists out. split; [exact E|split; [exact L|split; [|split]]].
  - intros k Hk. rewrite (A k Hk). apply qsum_ext. intros [x w] Hp. cbn [fst snd].
    rewrite (share_tri g0 dx n grid Hdx Hn Hg k x); [reflexivity|].
    apply in_combine_l in Hp. rewrite Forall_forall in HD. apply HD, Hp.
  - apply (bin_total g0 dx n grid Hdx Hn Hg false data weights out HD HW NZ E).
  - apply (bin_mean g0 dx n grid Hdx Hn Hg data weights out HD HW NZ E).
Qed.
Print Assumptions C27_linear_binning.

Example ex_grid_meets :
  Forall2 Qeq [0; 1 # 2; 1]%Q (regular_grid 0 (1 # 2) 3) /\
  Forall (within_grid 0 (1 # 2) 3) [1 # 8; 1; 5 # 8]%Q /\ ~ (qsum (wts [1 # 8; 1; 5 # 8] (Some [1; 2; 5])) == 0)%Q.
Proof.
  split; [repeat constructor|split; [|vm_compute; discriminate]].
  repeat constructor; vm_compute; discriminate.
Qed.
Example ex_linear : exists out, bin_1d_weighted false [1 # 8; 1; 5 # 8]%Q [0; 1 # 2; 1]%Q (Some [1; 2; 5]%Q) = Ok out /\
  Forall2 Qeq out [3 # 32; 1 # 2; 13 # 32]%Q.
Proof. eexists. split; [reflexivity|]. repeat constructor. Qed.

(** The "simple" method also conserves the total. *)
Theorem C27_simple_total : forall g0 dx n grid data weights out,
  (0 < dx)%Q -> 2 <= n -> Forall2 Qeq grid (regular_grid g0 dx n) ->
  Forall (within_grid g0 dx n) data ->
  (forall w, weights = Some w -> length w = length data) ->
  ~ (qsum (wts data weights) == 0)%Q ->
  bin_1d_weighted true data grid weights = Ok out -> (qsum out == 1)%Q.
Proof. intros. eapply (bin_total g0 dx n grid); eassumption. Qed.
Print Assumptions C27_simple_total.

(** But it does not put an event on the nearest point: at three quarters of the step an event
    is split. *)
Theorem C27_simple_nearest_refuted :
  exists data grid out, bin_1d_weighted true data grid None = Ok out /\
    data = [3 # 4]%Q /\ grid = [0; 1]%Q /\ ~ (nth 1 out 0 == 1)%Q.
Proof. exists [3 # 4]%Q, [0; 1]%Q. eexists. split; [reflexivity|]. split; [reflexivity|split; [reflexivity|]]. vm_compute. discriminate. Qed.
Print Assumptions C27_simple_nearest_refuted.

(** An event just above the last point is counted at the first one. *)
Theorem C27_above_grid_refuted :
  exists data grid out, bin_1d_weighted false data grid None = Ok out /\
    data = [5 # 2]%Q /\ grid = [0; 1; 2]%Q /\ (nth 0 out 0 == 1 # 2)%Q.
Proof. exists [5 # 2]%Q, [0; 1; 2]%Q. eexists. split; [reflexivity|]. split; [reflexivity|split; [reflexivity|]]. vm_compute. reflexivity. Qed.
Print Assumptions C27_above_grid_refuted.
