(** Proofs for losses: formulas of binned losses, minima and gradients, witnesses. *)
From Coq Require Import Reals Lra Permutation.
From Verif Require Import Base BaseLemmas Space_Model Space_Proofs PGraph_Proofs Loss_Model Loss_Spec Loss_Proofs Loss_Proofs2 Loss_Proofs3 Loss_Proofs4.
#[local] Open Scope R_scope.

Lemma tiny_pos : 0 < tiny.
Proof. unfold tiny. apply Rinv_0_lt_compat, pow_lt. lra. Qed.
Lemma tiny_le1 : tiny <= 1.
Proof. unfold tiny. rewrite <- Rinv_1. apply Rinv_le_contravar; [lra|]. apply pow_R1_Rle. lra. Qed.

Lemma stirling_eq n : stirling n = log_factorial n.
Proof. unfold stirling, log_factorial. destruct (Rle_dec 0 n); [destruct (Rle_dec n 1); [reflexivity|lra]|lra]. Qed.
Lemma stirling_sum (l : list (R * R)) : total (map (fun p => stirling (fst p)) l) = total (map (fun p => log_factorial (fst p)) l).
Proof. f_equal. apply map_ext. intros p. apply stirling_eq. Qed.
Section Formulas.
Context {V : Type}.
Lemma expected_eq ext (m : model V) b v : expected_counts ext v m b = expected_in ext m b v.
Proof.
  unfold expected_counts, expected_in. destruct ext; [reflexivity|]. apply map_ext. intros p.
  rewrite (total_rsum (b_values b)). reflexivity.
Qed.
Lemma sum2_combine (f : R -> R -> R) (a b : list R) : rsum (map (fun p => f (fst p) (snd p)) (combine a b)) = sum2 f a b.
Proof. revert b. induction a as [|x a IH]; intros [|y b]; try reflexivity. cbn [combine map sum2 fst snd]. rewrite rsum_cons, IH. reflexivity. Qed.
Lemma sum3_combine (f : R -> R -> R -> R) (a b c : list R) : rsum (map (fun p => f (fst (fst p)) (snd (fst p)) (snd p)) (combine (combine a b) c)) = sum3 f a b c.
Proof.
  revert b c. induction a as [|x a IH]; intros [|y b] [|z c]; try reflexivity. cbn [combine map sum3 fst snd]. rewrite rsum_cons, IH. reflexivity.
Qed.
Lemma binned_formula_l (l : loss V) (ext : bool) m b r v x : l_kind l = (if ext then KExtBinned else KBinned) -> fits (m, DB b, r) ->
  Forall (fun c => 0 <= c) (expected_in ext m b v) ->
  (full_value (alone l (m, DB b, r)) v x <-> x = sum2 poisson_of_bin (expected_in ext m b v) (b_values b)).
Proof.
  intros K F P. rewrite alone_iff by exact F.
  assert (E : loss_func err0 (l_kind l) v [(m, DB b, r)] [] None = Ok (sum2 poisson_of_bin (expected_in ext m b v) (b_values b))).
  { rewrite K. assert (G : binned_func ext v [(m, DB b, r)] [] None = Ok (sum2 poisson_of_bin (expected_in ext m b v) (b_values b))).
    { unfold binned_func. cbn [poisson_parts bind map]. f_equal. rewrite rsum_cons, expected_eq, <- sum2_combine.
      assert (X : rsum (map (poisson_bin None) (combine (expected_in ext m b v) (b_values b)))
         = rsum (map (fun p => poisson_of_bin (fst p) (snd p)) (combine (expected_in ext m b v) (b_values b)))).
      { apply rsum_ext. intros [c n] Hc. apply in_combine_l in Hc. rewrite Forall_forall in P. specialize (P c Hc). pose proof tiny_pos.
        unfold poisson_bin, log_poisson, poisson_of_bin, poisson_term. rewrite <- stirling_eq. cbn [plus_offset is_false fst snd]. rewrite exp_ln by lra. lra. }
      rewrite X. cbn [rsum fold_right]. lra. }
    destruct ext; exact G. }
  split; [intros H; apply (eq_trans (eq_sym E)) in H; apply Ok_inj in H; auto|intros ->; exact E].
Qed.
Lemma chi2_formula_l (l : loss V) (ext : bool) m b r v x vars : l_kind l = (if ext then KExtChi2 false else KChi2 false) -> fits (m, DB b, r) ->
  b_variances b = Some vars ->
  (full_value (alone l (m, DB b, r)) v x <-> x = sum3 pull_squared (expected_in ext m b v) (b_values b) vars).
Proof.
  intros K F P. rewrite alone_iff by exact F.
  assert (E : loss_func err0 (l_kind l) v [(m, DB b, r)] [] None = Ok (sum3 pull_squared (expected_in ext m b v) (b_values b) vars)).
  { rewrite K. assert (G : chi2_func ext false v [(m, DB b, r)] [] None = Ok (sum3 pull_squared (expected_in ext m b v) (b_values b) vars)).
    { unfold chi2_func. cbn [chi2_parts bind map]. rewrite P. cbn [opt_result bind]. f_equal. rewrite rsum_cons, expected_eq, <- (sum3_combine pull_squared).
      assert (X : rsum (map (chi2_bin None) (combine (combine (expected_in ext m b v) (b_values b)) vars))
         = rsum (map (fun p => pull_squared (fst (fst p)) (snd (fst p)) (snd p)) (combine (combine (expected_in ext m b v) (b_values b)) vars))).
      { apply rsum_ext. intros [[c n] w] _. unfold chi2_bin, recip_no_nan, pull_squared. cbn [plus_offset fst snd]. destruct (Req_EM_T w 0); unfold Rdiv; lra. }
      rewrite X. cbn [rsum fold_right]. lra. }
    destruct ext; exact G. }
  split; [intros H; apply (eq_trans (eq_sym E)) in H; apply Ok_inj in H; auto|intros ->; exact E].
Qed.
Lemma C30_minima_l err hash k ms ds rs ks o (l0 : loss V) h v full x eager (f g : V -> R) :
  new_loss k ms ds rs ks o = Ok l0 -> let l := run err hash l0 h in
  (forall c, In c (l_chan l) -> fits c) ->
  snd (loss_value err hash true l v full) = Ok x ->
  let l1 := fst (loss_value err hash true l v full) in
  (forall w, snd (loss_value err hash eager l1 w true) = Ok (f w)) ->
  (forall w, snd (loss_value err hash eager l1 w false) = Ok (g w)) ->
  (forall w0, (forall w, f w0 <= f w) <-> (forall w, g w0 <= g w))
  /\ (forall (path : R -> V) t d, derivable_pt_lim (fun s => f (path s)) t d <-> derivable_pt_lim (fun s => g (path s)) t d).
Proof.
  intros H l F Hv l1 Hf Hg. destruct (C30_constant_l err hash k ms ds rs ks o l0 h v full x H F Hv) as [K HK]. fold l in HK. fold l1 in HK.
  assert (E : forall w, g w = f w + K) by (intros w; apply (HK [] eager w); [constructor|apply Hg|apply Hf]).
  split; [apply (shifted_minima f g K), E|]. intros path. apply shifted_derivative with (K := K). intros t. apply E.
Qed.
Lemma C30_exact_l err hash eager (l : loss V) kahan v o x y : l_kind l = KNLL kahan -> settled l -> l_offset l = Some o ->
  (forall c, In c (l_chan l) -> fits c) ->
  snd (loss_value err hash eager l v false) = Ok x -> snd (loss_value err hash eager l v true) = Ok y ->
  x = y + o * total (map (fun c => INR (nll_events c)) (l_chan l)).
Proof.
  intros K S Eo F Hx Hy. pose proof (value_gap err hash eager l v x y S F Hx Hy) as E. apply value_full_iff in Hy; [|exact F]. rewrite K in Hy.
  apply dec in Hy. destruct Hy as [ps [P _]]. rewrite E. f_equal. unfold gap. rewrite Eo, K. unfold all_shift.
  rewrite (total_rsum (map (fun c => INR (nll_events c)) (l_chan l))).
  assert (A : rsum (map (kshift (KNLL kahan) o) (l_constr l)) = 0).
  { induction (l_constr l) as [|c ks' IH]; [reflexivity|]. cbn [map]. rewrite rsum_cons, IH. cbn. lra. }
  rewrite A. clear - P F. induction P as [|c p cs ps Hp P IH]; [cbn; lra|]. cbn [map]. rewrite !rsum_cons.
  assert (cshift (KNLL kahan) o c = o * INR (nll_events c)).
  { destruct c as [[m [d|b]] r]; [|discriminate Hp]. cbn [cshift nll_events]. rewrite <- events_used, events_length; [reflexivity|].
    apply used_fits. apply (F (m, DU d, r)). left. reflexivity. }
  assert (IH' := IH (fun c' Hc => F c' (or_intror Hc))). lra.
Qed.
End Formulas.

(** ** Witnesses *)
Definition flat : model unit := mkModel (fun _ _ _ => 1) (Some (fun _ => 1)) (fun _ _ => [1]) (fun _ _ => [1]).
Definition one_bin : bdata := mkB [3] (Some [2]).
Definition chi_loss : loss unit := mkLoss (KExtChi2 true) [(flat, DB one_bin, None)] [] SubTrue None false [].
Lemma chi_fits : fits (flat, DB one_bin, @None range).
Proof. split; [|split]; reflexivity. Qed.
Lemma chi_add_l : exists l, loss_add false chi_loss chi_loss = Ok l /\ exists x y, full_value chi_loss tt x /\ full_value l tt y /\ y <> x + x.
Proof.
  eexists. split; [apply add_ok; reflexivity|]. 
  exists (4 * / sqrt (1 + tiny)), 4. split; [|split].
  - apply full_iff; [intros c [<-|[]]; apply chi_fits|]. cbn. f_equal. unfold recip_no_nan.
    assert (S : sqrt (1 + tiny) <> 0). { intros S. apply sqrt_eq_0 in S; pose proof tiny_pos; lra. }
    destruct (Req_EM_T (sqrt (1 + tiny)) 0); [contradiction|]. lra.
  - apply full_iff; [intros c [<-|[<-|[]]]; apply chi_fits|]. cbn. f_equal. unfold recip_no_nan.
    destruct (Req_EM_T 2 0); [lra|]. field.
  - intros E. assert (S : sqrt (1 + tiny) <> 0). { intros S. apply sqrt_eq_0 in S; pose proof tiny_pos; lra. }
    assert (S2 : sqrt (1 + tiny) = 2). { assert (X : (4 * / sqrt (1 + tiny) + 4 * / sqrt (1 + tiny)) * sqrt (1 + tiny) = 8) by (field; assumption). rewrite <- E in X. lra. }
    pose proof (sqrt_sqrt (1 + tiny)) as Q. pose proof tiny_pos. pose proof tiny_le1. rewrite S2 in Q. lra.
Qed.

(** a loss evaluated in a graph first *)
Definition one_event : udata := mkU [[0]] None.
Lemma flat_fits r : fits (flat, DU one_event, r).
Proof. exact Logic.I. Qed.
Lemma flat_value kahan off : exists x, loss_func err0 (KNLL kahan) tt [(flat, DU one_event, None)] [] off = Ok x /\ (off = None -> x < 0).
Proof.
  destruct (loss_func err0 (KNLL kahan) tt [(flat, DU one_event, None)] [] off) as [x|e] eqn:E; [|discriminate E].
  exists x. split; [reflexivity|]. intros ->.
  apply (alone_iff (mkLoss (KNLL kahan) [] [] SubTrue None false [])) in E; [|exact Logic.I].
  apply (C28_single_l (mkLoss (KNLL kahan) [] [] SubTrue None false []) flat one_event None tt x kahan eq_refl Logic.I) in E.
  rewrite E. unfold minus_log_likelihood. cbn. pose proof tiny_pos as T. assert (0 < ln (1 + tiny)). { rewrite <- ln_1. apply ln_increasing; lra. } lra.
Qed.
Lemma graph_first_l : exists (l0 : loss unit) a b,
  new_loss (KNLL false) [flat] [DU one_event] None [] default_options = Ok l0
  /\ snd (loss_value err0 hash0 false l0 tt false) = Ok a
  /\ snd (loss_value err0 hash0 true (fst (loss_value err0 hash0 false l0 tt false)) tt false) = Ok b /\ a <> b.
Proof.
  destruct (flat_value false None) as [x [Hx Nx]]. specialize (Nx eq_refl).
  eexists. exists x, 10000. split; [reflexivity|]. split; [exact Hx|]. split; [|lra].
  set (l0 := fst _). assert (E0 : l0 = mkLoss (KNLL false) [(flat, DU one_event, None)] [] SubTrue None false []) by reflexivity. rewrite E0. clear l0 E0.
  assert (F : forall c : channel unit, In c [(flat, DU one_event, None)] -> fits c) by (intros c [<-|[]]; exact Logic.I).
  pose proof (proj1 (shift_ok err0 (KNLL false) tt 0 [(flat, DU one_event, None)] [] x F) Hx) as H0.
  assert (Z : all_shift (KNLL false) 0 [(flat, DU one_event, None)] [] = 0) by (unfold all_shift; cbn [map cshift]; rewrite rsum_cons; cbn [rsum fold_right]; lra). rewrite Z, Rplus_0_r in H0.
  unfold loss_value, check_precompile. cbn [negb]. unfold refresh_pre, l_data. cbn [l_chan l_hashes map combine forallb]. cbn [l_pre l_subtr l_offset].
  cbn [l_kind l_chan l_constr map fst snd]. unfold channel in *. rewrite H0. cbn [set_pre set_offset l_kind l_chan l_constr l_offset fst snd].
  pose proof (proj1 (shift_ok err0 (KNLL false) tt (- ((x - 10000) / rsum [d_nevents (DU one_event)])) [(flat, DU one_event, None)] [] x F) Hx) as H1.
  etransitivity; [exact H1|]. f_equal. unfold all_shift. cbn [map cshift used u_num one_event u_rows length d_nevents]. unfold u_size, u_num. cbn [u_weights u_rows length one_event INR].
  rewrite !rsum_cons. cbn [rsum fold_right]. field.
Qed.

(** the extended loss with a fit range *)
Definition ymodel : model R := mkModel (fun _ _ _ => 1) (Some (fun y => y)) (fun _ _ => []) (fun _ _ => []).
Definition upto1 : range := mkRange (fun r => match r with q :: _ => if Rle_dec q 1 then true else false | [] => false end).
Definition two_events : udata := mkU [[0]; [5]] None.
Definition range_loss : loss R := mkLoss KExtNLL [(ymodel, DU two_events, Some upto1)] [] SubTrue None false [].
Lemma fit_range_l : length (seen (Some upto1) two_events) = 1%nat
  /\ exists x1 x2, full_value range_loss 1 x1 /\ full_value range_loss 2 x2 /\ x2 < x1.
Proof.
  split; [cbn; destruct (Rle_dec 0 1); [|lra]; destruct (Rle_dec 5 1); [lra|]; reflexivity|].
  assert (W : one_weight_each two_events) by exact Logic.I.
  assert (F : forall c, In c (l_chan range_loss) -> fits c) by (intros c [<-|[]]; exact Logic.I).
  assert (N : forall u, full_value (as_kind (KNLL false) range_loss) u (minus_log_likelihood ymodel (Some upto1) two_events u)).
  { intros u. apply (C28_single_l (as_kind (KNLL false) range_loss) ymodel two_events (Some upto1) u _ false eq_refl W). reflexivity. }
  assert (X : forall u, 0 < u -> Forall2 (fun c p => expects c u (fst p) (snd p)) (l_chan range_loss) [(1 + (1 + 0), u)]).
  { intros u Hu. constructor; [|constructor]. cbn. split; [reflexivity|]. exists (fun y => y). auto. }
  assert (A : forall u, 0 < u -> exists y, full_value range_loss u y /\ y = minus_log_likelihood ymodel (Some upto1) two_events u + (poisson_term 2 u + 0) + (stirling 2 + 0)).
  { intros u Hu. eexists. split; [|reflexivity]. apply (C31_ext_l range_loss u _ F (X u Hu) _ _ (N u)). cbn [map total fst snd].
    replace (1 + (1 + 0)) with 2 by lra. reflexivity. }
  destruct (A 1) as [x1 [H1 E1]]; [lra|]. destruct (A 2) as [x2 [H2 E2]]; [lra|]. exists x1, x2. split; [exact H1|]. split; [exact H2|].
  assert (M : minus_log_likelihood ymodel (Some upto1) two_events 1 = minus_log_likelihood ymodel (Some upto1) two_events 2) by reflexivity.
  destruct (poisson_min 2 1) as [P1 P2]; [lra|lra|].
  assert (poisson_term 2 1 <> poisson_term 2 2) by (intros Q; apply P2 in Q; lra). lra.
Qed.
