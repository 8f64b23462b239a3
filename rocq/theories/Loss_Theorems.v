(** Losses (core/loss.py, _loss/binnedloss.py): C28-C31, C51, C52. *)
From Coq Require Import Reals Lra Permutation.
From Verif Require Import Base Loss_Model Loss_Spec Loss_Proofs2 Loss_Proofs3 Loss_Proofs4 Loss_Proofs5.
#[local] Open Scope R_scope.

(** * Examples used below: a model that expects [v] events of density 1 on the line, data with two
    weighted events. *)
Definition em : model R := mkModel (fun _ _ _ => 1) (Some (fun y => y)) (fun v _ => [v; 2]) (fun _ _ => [1/2; 1/2]).
Definition ed : udata := mkU [[0]; [5]] (Some [2; 3]).
Definition eb : bdata := mkB [3; 4] (Some [1; 0]).
Definition ek : constr R := mkConstr (fun v => v * v) 1.
Definition el (k : kind) : loss R := mkLoss k [(em, DU ed, None); (em, DU ed, Some upto1)] [ek] SubTrue None false [].
Example ed_fits : forall c, In c (l_chan (el (KNLL false))) -> fits c.
Proof. intros c [<-|[<-|[]]]; reflexivity. Qed.
Example eb_fits : fits (em, DB eb, @None range).
Proof. split; [|split]; reflexivity. Qed.

(** * C28 The value is the sum over channels plus the constraints *)
Theorem C28_sum : forall V (l : loss V) (v : V) (x : R), (forall c, In c (l_chan l) -> fits c) ->
  (full_value l v x <-> exists parts, Forall2 (fun c p => full_value (alone l c) v p) (l_chan l) parts
     /\ x = total parts + total (map (fun k => c_value k v) (l_constr l))).
Proof. exact @C28_sum_l. Qed.
Theorem C28_nll_formula : forall V (l : loss V) m d r v x kahan, l_kind l = KNLL kahan -> one_weight_each d ->
  (full_value (alone l (m, DU d, r)) v x <-> x = minus_log_likelihood m r d v).
Proof. exact @C28_single_l. Qed.
Theorem C28_binned_formula : forall V (l : loss V) (extended : bool) m b r v x,
  l_kind l = (if extended then KExtBinned else KBinned) -> fits (m, DB b, r) ->
  Forall (fun c => 0 <= c) (expected_in extended m b v) ->
  (full_value (alone l (m, DB b, r)) v x <-> x = sum2 poisson_of_bin (expected_in extended m b v) (b_values b)).
Proof. exact @binned_formula_l. Qed.
Theorem C28_chi2_formula : forall V (l : loss V) (extended : bool) m b r v x vars,
  l_kind l = (if extended then KExtChi2 false else KChi2 false) -> fits (m, DB b, r) -> b_variances b = Some vars ->
  (full_value (alone l (m, DB b, r)) v x <-> x = sum3 pull_squared (expected_in extended m b v) (b_values b) vars).
Proof. exact @chi2_formula_l. Qed.
Example C28_value : exists x, full_value (el (KNLL true)) 3 x /\ x = (- total [2 * ln (1 + tiny); 3 * ln (1 + tiny)] + (- total [2 * ln (1 + tiny)] + 0)) + (3 * 3 + 0).
Proof.
  eexists. split; [|reflexivity]. apply C28_sum; [exact ed_fits|].
  exists [- total [2 * ln (1 + tiny); 3 * ln (1 + tiny)]; - total [2 * ln (1 + tiny)]]. split; [|cbn; lra].
  constructor; [|constructor; [|constructor]].
  - apply (C28_nll_formula R (el (KNLL true)) em ed None 3 _ true); reflexivity.
  - apply (C28_nll_formula R (el (KNLL true)) em ed (Some upto1) 3 _ true); [reflexivity|reflexivity|].
    unfold minus_log_likelihood, seen. cbn [events ed u_weights u_rows combine filter fst snd upto1 r_in].
    destruct (Rle_dec 0 1); [|lra]. destruct (Rle_dec 5 1); [lra|]. reflexivity.
Qed.
Example C28_chi2_value : full_value (alone (el (KExtChi2 false)) (em, DB eb, None)) 5 4.
Proof.
  apply (C28_chi2_formula R (el (KExtChi2 false)) true em eb None 5 4 [1; 0]); [reflexivity|exact eb_fits|reflexivity|].
  cbn. unfold pull_squared. destruct (Req_EM_T 1 0); [lra|]. destruct (Req_EM_T 0 0); [|lra]. lra.
Qed.

(** Adding losses adds their full values, unless chi2 losses take variances from the expectation. *)
Theorem C28_add_partial : forall V big (a b : loss V), (forall c, In c (l_chan a ++ l_chan b) -> fits c) ->
  uses_expected (l_kind a) = false -> uses_expected (l_kind b) = false -> same_type (l_kind a) (l_kind b) = true ->
  exists l, loss_add big a b = Ok l /\ l_chan l = l_chan a ++ l_chan b /\ l_constr l = l_constr a ++ l_constr b
    /\ forall v x y, full_value a v x -> full_value b v y -> full_value l v (x + y).
Proof. exact @C28_add_l. Qed.
Example C28_add_applies : exists l, loss_add true (el (KNLL false)) (el (KNLL true)) = Ok l /\ length (l_chan l) = 4%nat
  /\ forall v x y, full_value (el (KNLL false)) v x -> full_value (el (KNLL true)) v y -> full_value l v (x + y).
Proof.
  destruct (C28_add_partial R true (el (KNLL false)) (el (KNLL true))) as [l [A [B [C D]]]].
  - intros c [<-|[<-|[<-|[<-|[]]]]]; reflexivity.
  - reflexivity.
  - reflexivity.
  - reflexivity.
  - exists l. split; [exact A|]. split; [rewrite B; reflexivity|exact D].
Qed.
Theorem C28_add_other_type_raises : forall V big (a b : loss V), same_type (l_kind a) (l_kind b) = false -> loss_add big a b = Err ValueError.
Proof. exact @C28_add_raises_l. Qed.
Example C28_add_other : same_type (KNLL true) KExtNLL = false.
Proof. reflexivity. Qed.
(** The option errors="expected" of a chi2 is not handed over to the sum. *)
Theorem C28_add_chi2_refuted : exists (a : loss unit) l, loss_add false a a = Ok l
  /\ exists x y, full_value a tt x /\ full_value l tt y /\ y <> x + x.
Proof. exists chi_loss. exact chi_add_l. Qed.

(** * C29 Pairing *)
Theorem C29_pairs_partial : forall V k (ms : list (model V)) ds rs ks o, length ms = length ds ->
  match rs with Some rl => length rl = length ms | None => True end ->
  exists l, new_loss k ms ds rs ks o = Ok l /\ length (l_chan l) = length ms
    /\ forall i m d r, nth_error (l_chan l) i = Some (m, d, r) <->
         nth_error ms i = Some m /\ nth_error ds i = Some d
         /\ match rs with Some rl => nth_error rl i = Some r | None => r = None /\ (i < length ms)%nat end.
Proof. exact @C29_l. Qed.
Example C29_two : exists l, new_loss KExtNLL [em; em] [DU ed; DU one_event] (Some [None; Some upto1]) [] default_options = Ok l
  /\ l_chan l = [(em, DU ed, None); (em, DU one_event, Some upto1)].
Proof. eexists. split; reflexivity. Qed.
(** What exists is paired in order and never exceeds the shorter list; ranges must fit in number. *)
Theorem C29_accepted_pairs : forall V k (ms : list (model V)) ds rs ks o l, new_loss k ms ds rs ks o = Ok l ->
  length (l_chan l) = Nat.min (length ms) (length ds)
  /\ (forall rl, rs = Some rl -> length rl = Nat.min (length ms) (length ds))
  /\ forall i m d r, nth_error (l_chan l) i = Some (m, d, r) ->
       nth_error ms i = Some m /\ nth_error ds i = Some d /\ match rs with Some rl => nth_error rl i = Some r | None => r = None end.
Proof. exact @pairs_l. Qed.
Theorem C29_numbers_differ_refuted : exists (ms : list (model R)) ds l, length ms <> length ds
  /\ new_loss (KNLL false) ms ds None [] default_options = Ok l /\ length (l_chan l) = 1%nat.
Proof. exists [em; em], [DU ed]. eexists. split; [discriminate|]. split; reflexivity. Qed.

(** * C30 The numerical offset *)
(** The offset of the first evaluation outside of graphs is kept whatever happens afterwards. *)
Theorem C30_offset_once : forall V err hash k (ms : list (model V)) ds rs ks o l0 h v full x h',
  new_loss k ms ds rs ks o = Ok l0 -> let l := run err hash l0 h in
  snd (loss_value err hash true l v full) = Ok x ->
  let l1 := fst (loss_value err hash true l v full) in
  l_offset (run err hash l1 h') = l_offset l1
  /\ (l_subtr l1 = SubTrue -> exists c, l_offset l1 = Some c) /\ (forall c, l_subtr l1 = SubValue c -> l_offset l1 = Some c).
Proof. exact @C30_once_l. Qed.
(** From then on both values differ by one number at all parameter values. *)
Theorem C30_constant : forall V err hash k (ms : list (model V)) ds rs ks o l0 h v full x,
  new_loss k ms ds rs ks o = Ok l0 -> let l := run err hash l0 h in
  (forall c, In c (l_chan l) -> fits c) ->
  snd (loss_value err hash true l v full) = Ok x ->
  let l1 := fst (loss_value err hash true l v full) in
  exists K, forall h' eager v' a b, Forall is_value h' -> let l2 := run err hash l1 h' in
    snd (loss_value err hash eager l2 v' false) = Ok a -> snd (loss_value err hash eager l2 v' true) = Ok b -> a = b + K.
Proof. exact @C30_constant_l. Qed.
Theorem C30_same_minima_and_gradients : forall V err hash k (ms : list (model V)) ds rs ks o l0 h v full x eager (f g : V -> R),
  new_loss k ms ds rs ks o = Ok l0 -> let l := run err hash l0 h in
  (forall c, In c (l_chan l) -> fits c) ->
  snd (loss_value err hash true l v full) = Ok x ->
  let l1 := fst (loss_value err hash true l v full) in
  (forall w, snd (loss_value err hash eager l1 w true) = Ok (f w)) ->
  (forall w, snd (loss_value err hash eager l1 w false) = Ok (g w)) ->
  (forall w0, (forall w, f w0 <= f w) <-> (forall w, g w0 <= g w))
  /\ (forall (path : R -> V) t d, derivable_pt_lim (fun s => f (path s)) t d <-> derivable_pt_lim (fun s => g (path s)) t d).
Proof. exact @C30_minima_l. Qed.
Theorem C30_nll_shift : forall V err hash eager (l : loss V) kahan v o x y, l_kind l = KNLL kahan -> settled l -> l_offset l = Some o ->
  (forall c, In c (l_chan l) -> fits c) ->
  snd (loss_value err hash eager l v false) = Ok x -> snd (loss_value err hash eager l v true) = Ok y ->
  x = y + o * total (map (fun c => INR (nll_events c)) (l_chan l)).
Proof. exact @C30_exact_l. Qed.
(** The hypotheses are met: a new loss, evaluated once; its values exist everywhere. *)
Example C30_applies : exists l0 (x : R) (f g : R -> R),
  new_loss (KNLL false) [em; em] [DU ed; DU ed] (Some [None; Some upto1]) [ek] default_options = Ok l0
  /\ (forall c, In c (l_chan l0) -> fits c)
  /\ snd (loss_value err0 hash0 true l0 1 true) = Ok x
  /\ (forall w, snd (loss_value err0 hash0 true (fst (loss_value err0 hash0 true l0 1 true)) w true) = Ok (f w))
  /\ (forall w, snd (loss_value err0 hash0 true (fst (loss_value err0 hash0 true l0 1 true)) w false) = Ok (g w)).
Proof.
  eexists. eexists. eexists. eexists. split; [reflexivity|]. split; [intros c [<-|[<-|[]]]; reflexivity|].
  split; [reflexivity|]. split; intros w; reflexivity.
Qed.
(** A first evaluation inside a graph does not fix the offset. *)
Theorem C30_graph_first_refuted : exists (l0 : loss unit) a b,
  new_loss (KNLL false) [flat] [DU one_event] None [] default_options = Ok l0
  /\ snd (loss_value err0 hash0 false l0 tt false) = Ok a
  /\ snd (loss_value err0 hash0 true (fst (loss_value err0 hash0 false l0 tt false)) tt false) = Ok b /\ a <> b.
Proof. exact graph_first_l. Qed.
(** For binned losses the difference changes when parameters of a constraint are fixed or floated. *)
Theorem C30_floating_refuted : exists (l0 : loss R) v x a b a' b',
  new_loss KExtBinned [em] [DB eb] None [ek] (SubValue 1, None) = Ok l0
  /\ snd (loss_value err0 hash0 true l0 v true) = Ok x
  /\ let l1 := fst (loss_value err0 hash0 true l0 v true) in
     let l2 := run err0 hash0 l1 [SFloat [0%nat]] in
     snd (loss_value err0 hash0 true l1 v false) = Ok a /\ snd (loss_value err0 hash0 true l1 v true) = Ok b
     /\ snd (loss_value err0 hash0 true l2 v false) = Ok a' /\ snd (loss_value err0 hash0 true l2 v true) = Ok b'
     /\ a - b <> a' - b'.
Proof.
  eexists. exists 3. do 5 eexists. split; [reflexivity|]. split; [reflexivity|]. cbv zeta.
  split; [reflexivity|]. split; [reflexivity|]. split; [reflexivity|]. split; [reflexivity|].
  cbn -[poisson_bin INR]. cbn [INR]. lra.
Qed.

(** * C31 The extended term *)
Theorem C31_extended : forall V (l : loss V) v nys, (forall c, In c (l_chan l) -> fits c) ->
  Forall2 (fun c p => expects c v (fst p) (snd p)) (l_chan l) nys ->
  forall x y, full_value (as_kind (KNLL false) l) v x ->
    (full_value (as_kind KExtNLL l) v y
     <-> y = x + total (map (fun p => poisson_term (fst p) (snd p)) nys) + total (map (fun p => log_factorial (fst p)) nys)).
Proof. intros. rewrite <- stirling_sum. apply C31_ext_l; assumption. Qed.
Example C31_applies : Forall2 (fun c p => expects c 7 (fst p) (snd p)) (l_chan (el KExtNLL)) [(2 + (3 + 0), 7); (2 + (3 + 0), 7)]
  /\ exists x, full_value (as_kind (KNLL false) (el KExtNLL)) 7 x.
Proof.
  split.
  - constructor; [|constructor; [|constructor]]; (split; [reflexivity|exists (fun y => y); split; [reflexivity|split; [reflexivity|cbn; lra]]]).
  - eexists. apply full_iff; [exact ed_fits|]. reflexivity.
Qed.
Theorem C31_minimum : forall V (l : loss V) m d r f v v' x x', l_chan l = [(m, DU d, r)] -> one_weight_each d -> m_yield m = Some f ->
  let n := total (map snd (events d)) in 0 < n -> f v = n -> 0 < f v' ->
  (forall w, m_pdf m v r w = m_pdf m v' r w) -> (forall k, In k (l_constr l) -> c_value k v = c_value k v') ->
  full_value (as_kind KExtNLL l) v x -> full_value (as_kind KExtNLL l) v' x' ->
  x <= x' /\ (x' = x -> f v' = f v).
Proof. exact @C31_min_l. Qed.
Theorem C31_binned_minimum : forall V (l : loss V) m b v v' x x', l_kind l = KExtBinned -> l_chan l = [(m, DB b, None)] ->
  fits (m, DB b, None) -> Forall (fun n => 0 <= n) (b_values b) -> m_counts m v b = b_values b -> Forall (fun c => 0 <= c) (m_counts m v' b) ->
  (forall k, In k (l_constr l) -> c_value k v = c_value k v') ->
  full_value l v x -> full_value l v' x' -> x <= x' /\ (x' = x -> m_counts m v' b = b_values b).
Proof. exact @C31_binned_l. Qed.
(** Weighted data: weights 2 and 3 make the yield 5 the best one. *)
Example C31_minimum_applies : let l := mkLoss KExtNLL [(em, DU ed, None)] [] SubTrue None false [] in
  exists x x', full_value (as_kind KExtNLL l) 5 x /\ full_value (as_kind KExtNLL l) 4 x' /\ x < x'.
Proof.
  intros l. assert (F : forall c, In c (l_chan l) -> fits c) by (intros c [<-|[]]; reflexivity).
  assert (E : forall u, exists x, full_value (as_kind KExtNLL l) u x) by (intros u; eexists; apply full_iff; [exact F|]; reflexivity).
  destruct (E 5) as [x Hx]. destruct (E 4) as [x' Hx']. exists x, x'. split; [exact Hx|]. split; [exact Hx'|].
  destruct (C31_minimum R l em ed None (fun y => y) 5 4 x x') as [A B]; try reflexivity; try assumption; try (cbn; lra); intros k [].
Qed.
Example C31_binned_minimum_applies : let l := mkLoss KExtBinned [(em, DB (mkB [3; 2] None), None)] [] SubTrue None false [] in
  exists x x', full_value l 3 x /\ full_value l 1 x' /\ x < x'.
Proof.
  intros l. assert (W : fits (em, DB (mkB [3; 2] None), @None range)) by (split; [|split]; try reflexivity; exact Logic.I).
  assert (F : forall c, In c (l_chan l) -> fits c) by (intros c [<-|[]]; exact W).
  assert (E : forall u, exists x, full_value l u x) by (intros u; eexists; apply full_iff; [exact F|]; reflexivity).
  destruct (E 3) as [x Hx]. destruct (E 1) as [x' Hx']. exists x, x'. split; [exact Hx|]. split; [exact Hx'|].
  destruct (C31_binned_minimum R l em (mkB [3; 2] None) 3 1 x x') as [A B]; try reflexivity; try assumption.
  - constructor; [lra|constructor; [lra|constructor]].
  - cbn. constructor; [lra|constructor; [lra|constructor]].
  - intros k [].
  - destruct (Req_dec x' x) as [Q|Q]; [apply B in Q; cbn in Q; injection Q; lra|lra].
Qed.
(** With a fit range the Poisson term still counts the events outside: one event is in the range,
    but an expectation of two is preferred to an expectation of one. *)
Theorem C31_fit_range_refuted : length (seen (Some upto1) two_events) = 1%nat
  /\ exists x1 x2, full_value range_loss 1 x1 /\ full_value range_loss 2 x2 /\ x2 < x1.
Proof. exact fit_range_l. Qed.

(** * C51 The order of events does not matter, weights add *)
Theorem C51_order_and_weights : forall V (l l' : loss V) v x, l_kind l = KExtNLL \/ (exists kahan, l_kind l = KNLL kahan) ->
  l_kind l' = l_kind l -> l_constr l' = l_constr l ->
  Forall2 same_channel (l_chan l) (l_chan l') -> full_value l v x -> full_value l' v x.
Proof. exact @C51_l. Qed.
Example C51_applies : same_channel (em, DU ed, Some upto1) (em, DU (mkU [[5]; [0]] (Some [3; 2])), Some upto1)
  /\ same_channel (em, DU (mkU [[5]] (Some [1 + 2])), None) (em, DU (mkU [[5]; [5]] (Some [1; 2])), None).
Proof.
  split.
  - do 4 eexists. split; [reflexivity|]. split; [reflexivity|]. split; [reflexivity|]. split; [reflexivity|]. left. cbn. apply perm_swap.
  - do 4 eexists. split; [reflexivity|]. split; [reflexivity|]. split; [reflexivity|]. split; [reflexivity|]. right.
    exists [], [], [5], 1, 2. split; reflexivity.
Qed.

(** * C52 create_new *)
Theorem C52_copy_same_values : forall V (l : loss V), (unbinned_kind (l_kind l) = false -> forall c, In c (l_chan l) -> snd c = None) ->
  exists l', create_new l None None None = Ok l'
  /\ forall err hash eager v full x, settled l -> snd (loss_value err hash eager l v full) = Ok x -> (forall c, In c (l_chan l) -> fits c) ->
       snd (loss_value err hash eager l' v full) = Ok x.
Proof. exact @C52_copy_l. Qed.
Theorem C52_offset_kept : forall V (l : loss V) ms ds ks l', create_new l ms ds ks = Ok l' -> settled l ->
  forall err hash h, l_offset (run err hash l' h) = l_offset l.
Proof. exact @C52_offset_l. Qed.
Example C52_applies : exists l, l = fst (loss_value err0 hash0 true (el KExtNLL) 1 true) /\ settled l /\ exists l', create_new l None (Some [DU one_event; DU ed]) None = Ok l'.
Proof. eexists. split; [reflexivity|]. split; [discriminate|]. eexists. reflexivity. Qed.

Print Assumptions C28_sum.
Print Assumptions C31_minimum.
Print Assumptions C30_same_minima_and_gradients.
Print Assumptions C29_pairs_partial.
