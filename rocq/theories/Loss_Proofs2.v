(** Proofs for losses: the numerical offset, pairing, formulas. *)
From Coq Require Import Reals Lra Permutation.
From Verif Require Import Base BaseLemmas Space_Model Space_Proofs PGraph_Proofs Loss_Model Loss_Spec Loss_Proofs.
#[local] Open Scope R_scope.

Lemma mask_length {A B} (a : list A) (b : list B) m : length a = length b ->
  length (boolean_mask a m) = length (boolean_mask b m).
Proof.
  revert b m. induction a as [|x a IH]; intros [|y b] m H; try discriminate; [destruct m; reflexivity|].
  destruct m as [|[|] m]; cbn; [reflexivity| |]; injection H as H; rewrite (IH b m H); reflexivity.
Qed.
Lemma mask_combine {A B} (a : list A) (b : list B) m :
  combine (boolean_mask a m) (boolean_mask b m) = boolean_mask (combine a b) m.
Proof.
  revert b m. induction a as [|x a IH]; intros b m; [destruct m, b; reflexivity|].
  destruct m as [|h m]; [destruct b; reflexivity|]. destruct b as [|y b]; cbn.
  - destruct h; [reflexivity|]. destruct (boolean_mask a m); reflexivity.
  - destruct h; cbn; rewrite IH; reflexivity.
Qed.
Lemma cut_fits r d : one_weight_each d -> one_weight_each (u_cut r d).
Proof. unfold one_weight_each, u_cut. cbn. destruct (u_weights d); cbn; [apply mask_length|auto]. Qed.

Definition shift (K : R) (r : result R) : result R := match r with Ok x => Ok (x + K) | Err e => Err e end.
Definition used (d : udata) (r : option range) : udata := match r with Some f => u_cut f d | None => d end.
Lemma used_fits d r : one_weight_each d -> one_weight_each (used d r).
Proof. destruct r; [apply cut_fits|auto]. Qed.

Lemma nll_calc_value err kahan logs ws off :
  fst (nll_calc err kahan logs ws off) - snd (nll_calc err kahan logs ws off) = - rsum (minus_offset (times_weights logs ws) off).
Proof. unfold nll_calc, kahan_sum. destruct kahan; cbn [fst snd]; lra. Qed.
Lemma times_weights_length d (f : row -> R) : one_weight_each d ->
  length (times_weights (map f (u_rows d)) (u_weights d)) = u_num d.
Proof.
  unfold one_weight_each, times_weights, u_num. destruct (u_weights d) as [w|]; intros H; [|apply map_length].
  rewrite map_length, combine_length, map_length, H. apply Nat.min_id.
Qed.
Lemma times_weights_events d (f : row -> R) : 
  times_weights (map f (u_rows d)) (u_weights d) = map (fun e => snd e * f (fst e)) (events d).
Proof.
  unfold times_weights, events. destruct (u_weights d) as [w|].
  - generalize (u_rows d). intros l. revert w. induction l as [|a l IH]; intros [|x w]; cbn; try reflexivity. rewrite IH. f_equal. lra.
  - rewrite map_map. apply map_ext. intros a. cbn. lra.
Qed.
Lemma minus_rsum l o : rsum (minus_offset l (Some o)) = rsum l - o * INR (length l).
Proof.
  unfold minus_offset. induction l as [|a l IH]; [cbn; lra|]. cbn [map length]. rewrite !rsum_cons, IH, S_INR. lra.
Qed.

Section Shift.
Context {V : Type}.
Definition cshift (k : kind) (o : R) (c : channel V) : R :=
  match c with
  | (_, DU d, r) =>
      match k with
      | KNLL _ => o * INR (u_num (used d r))
      | _ => o * INR (u_num (used d r)) + (o - stirling (u_size d))
      end
  | (_, DB b, _) =>
      match k with
      | KChi2 _ | KExtChi2 _ => o * INR (length (b_values b))
      | _ => o * INR (length (b_values b)) - rsum (map (fun n => stirling (n + tiny)) (b_values b))
      end
  end.
Lemma nll_1_value err kahan (v : V) off m d r :
  fst (unbinned_nll_1 err kahan v off m d r) - snd (unbinned_nll_1 err kahan v off m d r)
  = - rsum (minus_offset (map (fun e => snd e * ln (m_pdf m v r (fst e) + tiny)) (events (used d r))) off).
Proof.
  unfold unbinned_nll_1. rewrite nll_calc_value. fold (used d r). rewrite map_map.
  rewrite (times_weights_events (used d r) (fun x => ln (m_pdf m v r x + tiny))). reflexivity.
Qed.
Lemma events_length d : one_weight_each d -> length (events d) = u_num d.
Proof.
  unfold one_weight_each, events, u_num. destruct (u_weights d) as [w|]; intros H; [|apply map_length].
  rewrite combine_length, H. apply Nat.min_id.
Qed.
Lemma nll_1_shift err kahan (v : V) o m d r : one_weight_each d ->
  fst (unbinned_nll_1 err kahan v (Some o) m d r) - snd (unbinned_nll_1 err kahan v (Some o) m d r)
  = fst (unbinned_nll_1 err kahan v None m d r) - snd (unbinned_nll_1 err kahan v None m d r) + o * INR (u_num (used d r)).
Proof.
  intros H. rewrite !nll_1_value, minus_rsum, map_length. rewrite (events_length (used d r)) by (apply used_fits, H). cbn [minus_offset]. lra.
Qed.
Lemma poisson_bin_shift o p : poisson_bin (Some o) p = poisson_bin None p + (o - stirling (snd p + tiny)).
Proof. destruct p as [a b]. unfold poisson_bin, log_poisson, plus_offset, is_false. cbn [snd]. lra. Qed.
Lemma map_snd_combine {A B} (a : list A) (b : list B) : length a = length b -> map snd (combine a b) = b.
Proof. revert b. induction a as [|x a IH]; intros [|y b] H; try discriminate; [reflexivity|]. cbn. f_equal. apply IH. injection H. auto. Qed.
Lemma poisson_shift o (l : list (R * R)) :
  rsum (map (poisson_bin (Some o)) l) = rsum (map (poisson_bin None) l) + (o * INR (length l) - rsum (map (fun n => stirling (n + tiny)) (map snd l))).
Proof.
  induction l as [|p l IH]; [cbn; lra|]. cbn [map length]. rewrite !rsum_cons, IH, poisson_bin_shift, S_INR. lra.
Qed.
Lemma chi2_shift o (l : list ((R * R) * R)) :
  rsum (map (chi2_bin (Some o)) l) = rsum (map (chi2_bin None) l) + o * INR (length l).
Proof.
  induction l as [|p l IH]; [cbn; lra|]. cbn [map length]. rewrite !rsum_cons, IH, S_INR. destruct p as [[a b] c]. cbn [chi2_bin plus_offset]. lra.
Qed.
Lemma expected_length ext (v : V) m b r : fits (m, DB b, r) -> length (expected_counts ext v m b) = length (b_values b).
Proof. intros [A [B _]]. unfold expected_counts. destruct ext; [apply A|rewrite map_length; apply B]. Qed.

Lemma single_shift err k (v : V) o c : fits c ->
  loss_func err k v [c] [] (Some o) = shift (cshift k o c) (loss_func err k v [c] [] None).
Proof.
  destruct c as [[m [d|b]] r]; intros F.
  - destruct k as [kahan| | | |e|e]; try reflexivity.
    + cbn [loss_func]. unfold nll_func, unbinned_nll. cbn [unbinned_parts bind map shift cshift]. f_equal.
      unfold constraints_value. cbn [map]. rewrite !rsum_cons. pose proof (nll_1_shift err kahan v o m d r F) as X. cbn [rsum fold_right]. lra.
    + cbn [loss_func]. unfold ext_nll_func, unbinned_nll. cbn [unbinned_parts bind map yields_of]. destruct (m_yield m) as [y|]; [|reflexivity].
      cbn [bind map shift cshift fst snd]. f_equal. unfold constraints_value. cbn [map]. rewrite !rsum_cons.
      pose proof (nll_1_shift err false v o m d r F) as X. unfold log_poisson, plus_offset, is_false. cbn [rsum fold_right]. lra.
  - assert (L : forall ext, length (combine (expected_counts ext v m b) (b_values b)) = length (b_values b)).
    { intros ext. rewrite combine_length, (expected_length ext v m b r F). apply Nat.min_id. }
    destruct k as [kahan| | | |e|e]; try reflexivity.
    + cbn [loss_func]. unfold binned_func. cbn [poisson_parts bind map shift cshift]. f_equal. rewrite !rsum_cons, poisson_shift, L.
      rewrite map_snd_combine by apply (expected_length false v m b r F). cbn. lra.
    + cbn [loss_func]. unfold binned_func. cbn [poisson_parts bind map shift cshift]. f_equal. rewrite !rsum_cons, poisson_shift, L.
      rewrite map_snd_combine by apply (expected_length true v m b r F). cbn. lra.
    + cbn [loss_func]. unfold chi2_func. cbn [chi2_parts]. 
      destruct (if e then _ else _) as [vars|er] eqn:Ev; [|reflexivity]. cbn [bind map shift cshift]. f_equal. rewrite !rsum_cons, chi2_shift.
      rewrite combine_length, L. assert (Lv : length vars = length (b_values b)).
      { destruct e; [apply Ok_inj in Ev; subst; rewrite map_length; apply (expected_length false v m b r F)|].
        destruct F as [_ [_ F]]. destruct (b_variances b); [|discriminate]. apply Ok_inj in Ev. subst. exact F. }
      rewrite Lv, Nat.min_id. cbn. lra.
    + cbn [loss_func]. unfold chi2_func. cbn [chi2_parts]. 
      destruct (if e then _ else _) as [vars|er] eqn:Ev; [|reflexivity]. cbn [bind map shift cshift]. f_equal. rewrite !rsum_cons, chi2_shift.
      rewrite combine_length, L. assert (Lv : length vars = length (b_values b)).
      { destruct e; [apply Ok_inj in Ev; subst; rewrite map_length; apply (expected_length true v m b r F)|].
        destruct F as [_ [_ F]]. destruct (b_variances b); [|discriminate]. apply Ok_inj in Ev. subst. exact F. }
      rewrite Lv, Nat.min_id. cbn. lra.
Qed.
Definition kshift (k : kind) (o : R) (c : constr V) : R :=
  match k with
  | KNLL _ | KExtNLL => 0
  | KBinned | KExtBinned => - (o * INR (c_nfloat c))
  | KChi2 _ | KExtChi2 _ => - o
  end.
Definition all_shift (k : kind) (o : R) (cs : list (channel V)) (ks : list (constr V)) : R :=
  rsum (map (cshift k o) cs) + rsum (map (kshift k o) ks).
Lemma kterm_shift k o (v : V) ks : rsum (map (kterm k (Some o) v) ks) = rsum (map (kterm k None v) ks) + rsum (map (kshift k o) ks).
Proof. rewrite <- rsum_plus. apply rsum_ext. intros c _. unfold kterm, kshift, offset_value. destruct k; lra. Qed.
Lemma shift_ok err k (v : V) o cs ks x : (forall c, In c cs -> fits c) ->
  (loss_func err k v cs ks None = Ok x <-> loss_func err k v cs ks (Some o) = Ok (x + all_shift k o cs ks)).
Proof.
  intros F. unfold all_shift. rewrite !dec. split.
  - intros [ps [H ->]]. exists (map (fun p => fst p + cshift k o (snd p)) (combine ps cs)).
    assert (X : rsum (map (fun p => fst p + cshift k o (snd p)) (combine ps cs)) = rsum ps + rsum (map (cshift k o) cs)).
    { clear F. induction H as [|c p cs ps Hp H IH]; [cbn; lra|]. cbn [combine map]. rewrite !rsum_cons, IH. cbn [fst snd]. lra. }
    split; [|rewrite X, kterm_shift; lra].
    clear X. revert F. induction H as [|c p cs ps Hp H IH]; intros F; cbn; constructor.
    + rewrite single_shift by (apply F; left; reflexivity). cbn beta. rewrite Hp. reflexivity.
    + apply IH. intros c' Hc. apply F. right. exact Hc.
  - intros [ps [H E]].
    assert (X : exists qs, Forall2 (fun c p => loss_func err k v [c] [] None = Ok p) cs qs /\ rsum ps = rsum qs + rsum (map (cshift k o) cs)).
    { clear E. revert F. induction H as [|c p cs ps Hp H IH]; intros F; [exists []; split; [constructor|cbn; lra]|].
      destruct IH as [qs [G X]]; [intros c' Hc; apply F; right; exact Hc|]. rewrite single_shift in Hp by (apply F; left; reflexivity).
      destruct (loss_func err k v [c] [] None) as [q|] eqn:Eq; [|discriminate]. exists (q :: qs). split; [constructor; assumption|].
      cbn [shift] in Hp. apply Ok_inj in Hp. cbn [map]. rewrite !rsum_cons, X. subst p. lra. }
    destruct X as [qs [G X]]. exists qs. split; [exact G|]. rewrite kterm_shift, X in E. lra.
Qed.
End Shift.
