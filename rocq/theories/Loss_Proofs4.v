(** Proofs for losses: the offset over histories, the extended term, reordering of events. *)
From Coq Require Import Reals Lra Permutation.
From Verif Require Import Base BaseLemmas Space_Model Space_Proofs PGraph_Proofs Loss_Model Loss_Spec Loss_Proofs Loss_Proofs2 Loss_Proofs3.
#[local] Open Scope R_scope.

Section History.
Context {V : Type}.
Definition inv (l : loss V) : Prop := l_pre l = true -> settled l.
Definition same_core (l l' : loss V) : Prop := l_subtr l' = l_subtr l /\ l_offset l' = l_offset l.

Lemma refresh_core hash (l : loss V) : same_core l (refresh_pre hash l) /\ (l_pre (refresh_pre hash l) = true -> l_pre l = true).
Proof. unfold refresh_pre, same_core. destruct (forallb _ _); cbn; auto. split; [auto|discriminate]. Qed.
Lemma core_settled (l l' : loss V) : same_core l l' -> settled l -> settled l'.
Proof. unfold same_core, settled. intros [-> ->]. auto. Qed.

Lemma pre_settled err hash eager (l : loss V) v : settled l -> same_core l (fst (check_precompile err hash eager l v)).
Proof.
  intros S. unfold check_precompile. destruct eager; cbn [negb]; [|split; reflexivity].
  destruct (refresh_core hash l) as [C _]. pose proof (core_settled _ _ C S) as S'. destruct C as [C1 C2].
  set (q := refresh_pre hash l) in *. destruct (l_pre q); [split; assumption|]. unfold settled in S'. destruct (l_subtr q) as [| |x] eqn:Es.
  - destruct (l_offset q) eqn:Eo; [|congruence]. unfold same_core. cbn. rewrite Es, Eo. split; congruence.
  - unfold same_core. cbn. split; congruence.
  - unfold same_core. cbn. split; congruence.
Qed.
Lemma pre_inv err hash eager (l : loss V) v : inv l -> inv (fst (check_precompile err hash eager l v)).
Proof.
  intros I. unfold check_precompile. destruct eager; cbn [negb]; [|exact I].
  destruct (refresh_core hash l) as [C P].
  assert (I' : inv (refresh_pre hash l)) by (intros H; eapply core_settled; [exact C|]; apply I, P, H).
  set (q := refresh_pre hash l) in *. destruct (l_pre q) eqn:Ep; [exact I'|]. destruct (l_subtr q) as [| |x] eqn:Es.
  - destruct (l_offset q) eqn:Eo.
    + intros _. unfold settled. cbn. rewrite Es, Eo. discriminate.
    + destruct (loss_func _ _ _ _ _ _) eqn:El; cbn [fst].
      * intros _. unfold settled. cbn. rewrite Es. discriminate.
      * intros H. congruence.
  - intros _. unfold settled. cbn. rewrite Es. exact Logic.I.
  - intros _. unfold settled. cbn. rewrite Es. reflexivity.
Qed.
Lemma pre_makes_settled err hash (l : loss V) v u : inv l -> snd (check_precompile err hash true l v) = Ok u ->
  settled (fst (check_precompile err hash true l v)).
Proof.
  intros I. unfold check_precompile. cbn [negb].
  destruct (refresh_core hash l) as [C P].
  assert (I' : inv (refresh_pre hash l)) by (intros H; eapply core_settled; [exact C|]; apply I, P, H).
  set (q := refresh_pre hash l) in *. destruct (l_pre q) eqn:Ep; [intros _; apply I', Ep|]. destruct (l_subtr q) as [| |x] eqn:Es.
  - destruct (l_offset q) eqn:Eo.
    + intros _. unfold settled. cbn. rewrite Es, Eo. discriminate.
    + destruct (loss_func _ _ _ _ _ _) eqn:El; cbn [fst snd].
      * intros _. unfold settled. cbn. rewrite Es. discriminate.
      * discriminate.
  - intros _. unfold settled. cbn. rewrite Es. exact Logic.I.
  - intros _. unfold settled. cbn. rewrite Es. reflexivity.
Qed.
Lemma value_state err hash eager (l : loss V) v full : fst (loss_value err hash eager l v full) = fst (check_precompile err hash eager l v).
Proof. unfold loss_value. destruct (check_precompile err hash eager l v) as [l' [u|e]]; reflexivity. Qed.

Lemma step_settled err hash (l : loss V) s : settled l -> same_core l (do_step err hash l s).
Proof.
  intros S. destruct s as [eager v full|i d|fl]; cbn [do_step].
  - rewrite value_state. apply pre_settled, S.
  - split; reflexivity.
  - split; reflexivity.
Qed.
Lemma step_inv err hash (l : loss V) s : inv l -> inv (do_step err hash l s).
Proof.
  intros I. destruct s as [eager v full|i d|fl]; cbn [do_step].
  - rewrite value_state. apply pre_inv, I.
  - exact I.
  - exact I.
Qed.
Lemma run_settled err hash h : forall l : loss V, settled l -> same_core l (run err hash l h).
Proof.
  induction h as [|s h IH]; intros l S; [split; reflexivity|]. cbn.
  pose proof (step_settled err hash l s S) as C. pose proof (IH _ (core_settled _ _ C S)) as C'.
  destruct C as [C1 C2]. destruct C' as [C3 C4]. split; [rewrite <- C1; exact C3|rewrite <- C2; exact C4].
Qed.
Lemma run_inv err hash h : forall l : loss V, inv l -> inv (run err hash l h).
Proof. induction h as [|s h IH]; intros l I; [exact I|]. cbn. apply IH, step_inv, I. Qed.
Lemma new_inv k ms ds rs ks o (l : loss V) : new_loss k ms ds rs ks o = Ok l -> inv l.
Proof.
  unfold new_loss. intros H. apply bind_ok in H. destruct H as [cs [_ H]]. apply Ok_inj in H. subst l. intros H. discriminate H.
Qed.
Lemma value_settles err hash (l : loss V) v full x : inv l -> snd (loss_value err hash true l v full) = Ok x ->
  settled (fst (loss_value err hash true l v full)).
Proof.
  intros I H. rewrite value_state. unfold loss_value in H. destruct (check_precompile err hash true l v) as [l' [u|e]] eqn:E; [|discriminate].
  pose proof (pre_makes_settled err hash l v u I) as P. rewrite E in P. apply P. reflexivity.
Qed.

Lemma C30_once_l err hash k ms ds rs ks o (l0 : loss V) h v full x h' :
  new_loss k ms ds rs ks o = Ok l0 -> let l := run err hash l0 h in
  snd (loss_value err hash true l v full) = Ok x ->
  let l1 := fst (loss_value err hash true l v full) in
  l_offset (run err hash l1 h') = l_offset l1
  /\ (l_subtr l1 = SubTrue -> exists c, l_offset l1 = Some c) /\ (forall c, l_subtr l1 = SubValue c -> l_offset l1 = Some c).
Proof.
  intros H l Hv l1. assert (S : settled l1) by (eapply value_settles; [apply run_inv, (new_inv _ _ _ _ _ _ _ H)|exact Hv]).
  split; [exact (proj2 (run_settled err hash h' l1 S))|]. unfold settled in S. split.
  - intros E. rewrite E in S. destruct (l_offset l1) as [c|]; [exists c; reflexivity|congruence].
  - intros c E. rewrite E in S. exact S.
Qed.

(** evaluations change neither channels nor constraints *)
Lemma run_values_frame err hash h : forall l : loss V, Forall is_value h ->
  l_kind (run err hash l h) = l_kind l /\ l_chan (run err hash l h) = l_chan l /\ l_constr (run err hash l h) = l_constr l.
Proof.
  induction h as [|s h IH]; intros l F; [auto|]. inversion F as [|? ? Fs Fh]; subst. destruct s as [eager v full|i d|fl]; try contradiction.
  destruct (value_frame err hash eager l v full) as [A [B [C _]]]. 
  change (run err hash l (SValue eager v full :: h)) with (run err hash (fst (loss_value err hash eager l v full)) h).
  destruct (IH (fst (loss_value err hash eager l v full)) Fh) as [A' [B' C']]. split; [congruence|]. split; congruence.
Qed.
Definition gap (l : loss V) : R := match l_offset l with Some o => all_shift (l_kind l) o (l_chan l) (l_constr l) | None => 0 end.
Lemma value_gap err hash eager (l : loss V) v x y : settled l -> (forall c, In c (l_chan l) -> fits c) ->
  snd (loss_value err hash eager l v false) = Ok x -> snd (loss_value err hash eager l v true) = Ok y -> x = y + gap l.
Proof.
  intros S F Hx Hy. apply value_full_iff in Hy; [|exact F]. unfold loss_value in Hx.
  pose proof (pre_frame err hash eager l v) as P. pose proof (pre_settled err hash eager l v S) as C.
  destruct (check_precompile err hash eager l v) as [l' [u|e]]; [|discriminate]. cbn [fst snd] in *. destruct P as [P1 [P2 [P3 _]]]. destruct C as [_ C].
  rewrite P1, P2, P3, C in Hx. unfold gap. destruct (l_offset l) as [o|].
  - apply (shift_ok err _ v o _ _ y F) in Hy. rewrite Hy in Hx. apply Ok_inj in Hx. exact Hx.
  - rewrite Hy in Hx. apply Ok_inj in Hx. rewrite Hx. symmetry. apply Rplus_0_r.
Qed.
Lemma C30_constant_l err hash k ms ds rs ks o (l0 : loss V) h v full x :
  new_loss k ms ds rs ks o = Ok l0 -> let l := run err hash l0 h in
  (forall c, In c (l_chan l) -> fits c) ->
  snd (loss_value err hash true l v full) = Ok x ->
  let l1 := fst (loss_value err hash true l v full) in
  exists K, forall h' eager v' a b, Forall is_value h' -> let l2 := run err hash l1 h' in
    snd (loss_value err hash eager l2 v' false) = Ok a -> snd (loss_value err hash eager l2 v' true) = Ok b -> a = b + K.
Proof.
  intros H l F Hv l1. assert (S : settled l1) by (eapply value_settles; [apply run_inv, (new_inv _ _ _ _ _ _ _ H)|exact Hv]).
  exists (gap l1). intros h' eager v' a b Fh l2 Ha Hb. destruct (run_values_frame err hash h' l1 Fh) as [A [B C]].
  pose proof (run_settled err hash h' l1 S) as SC. fold l2 in A, B, C, SC.
  destruct (value_frame err hash true l v full) as [_ [Bl _]]. fold l1 in Bl.
  assert (G : gap l2 = gap l1) by (unfold gap; rewrite A, B, C, (proj2 SC); reflexivity). rewrite <- G.
  eapply value_gap; [exact (core_settled _ _ SC S)| |exact Ha|exact Hb]. rewrite B, Bl. exact F.
Qed.
(** same minima, same derivatives *)
Lemma shifted_minima (f g : V -> R) K : (forall v, g v = f v + K) -> forall v0, (forall v, f v0 <= f v) <-> (forall v, g v0 <= g v).
Proof. intros E v0. split; intros H v; specialize (H v); rewrite ?E in *; lra. Qed.
Lemma shifted_derivative (f g : R -> R) K : (forall t, g t = f t + K) -> forall t d, derivable_pt_lim f t d <-> derivable_pt_lim g t d.
Proof.
  intros E t d. unfold derivable_pt_lim. split; intros H eps He; destruct (H eps He) as [del Hd]; exists del; intros h Hh Hl; specialize (Hd h Hh Hl).
  - rewrite !E. replace (f (t + h) + K - (f t + K)) with (f (t + h) - f t) by ring. exact Hd.
  - rewrite !E in Hd. replace (f (t + h) + K - (f t + K)) with (f (t + h) - f t) in Hd by ring. exact Hd.
Qed.
End History.

(** ** The extended term *)
Lemma poisson_min n y : 0 < n -> 0 < y -> poisson_term n n <= poisson_term n y /\ (poisson_term n y = poisson_term n n -> y = n).
Proof.
  intros Hn Hy. unfold poisson_term.
  assert (Ey : y = n * (y / n)) by (field; lra). assert (Hq : 0 < y / n) by (apply Rdiv_lt_0_compat; assumption).
  set (q := y / n) in *. rewrite Ey, ln_mult by assumption.
  assert (L : forall z, 0 < z -> ln z <= z - 1).
  { intros z Hz. pose proof (exp_ineq1_le (ln z)) as X. rewrite exp_ln in X by exact Hz. lra. }
  assert (L' : forall z, 0 < z -> z <> 1 -> ln z < z - 1).
  { intros z Hz N. assert (ln z <> 0). { intros Z. apply N. rewrite <- (exp_ln z Hz), Z. apply exp_0. }
    pose proof (exp_ineq1 (ln z) H) as X. rewrite exp_ln in X by exact Hz. lra. }
  split.
  - pose proof (L q Hq). assert (n * ln q <= n * (q - 1)) by (apply Rmult_le_compat_l; lra). lra.
  - intros E. destruct (Req_dec q 1) as [->|N]; [lra|]. pose proof (L' q Hq N).
    assert (n * ln q < n * (q - 1)) by (apply Rmult_lt_compat_l; lra). lra.
Qed.
Lemma size_events d : one_weight_each d -> u_size d = rsum (map snd (events d)).
Proof.
  unfold one_weight_each, u_size, events, u_num. destruct (u_weights d) as [w|]; intros H.
  - rewrite map_snd_combine by auto. reflexivity.
  - rewrite map_map. cbn [snd]. induction (u_rows d) as [|a l IH]; [reflexivity|]. cbn [map length]. rewrite rsum_cons, S_INR, <- IH. lra.
Qed.
Section Ext.
Context {V : Type}.

Lemma total_minus (a b : list R) : length a = length b -> rsum (map (fun p => fst p - snd p) (combine a b)) = rsum a - rsum b.
Proof.
  revert b. induction a as [|x a IH]; intros [|y b] L; try discriminate; [cbn; lra|]. injection L as L. cbn [combine map fst snd].
  rewrite !rsum_cons, (IH b L). lra.
Qed.
Lemma ext_single err v (c : channel V) n y : fits c -> expects c v n y -> forall x,
  (loss_func err KExtNLL v [c] [] None = Ok x <-> exists p, loss_func err (KNLL false) v [c] [] None = Ok p /\ x = p + (poisson_term n y + stirling n)).
Proof.
  destruct c as [[m [d|b]] r]; [|intros _ []]. cbn [expects fits]. intros W [En [f [Ef [-> Hy]]]] x.
  rewrite total_rsum, <- size_events in En by exact W. subst n.
  assert (E : loss_func err KExtNLL v [(m, DU d, r)] [] None
     = bind (loss_func err (KNLL false) v [(m, DU d, r)] [] None) (fun p => Ok (p + (poisson_term (u_size d) (f v) + stirling (u_size d))))).
  { cbn [loss_func]. unfold ext_nll_func, nll_func. destruct (unbinned_nll err false v None [(m, DU d, r)]) as [[p q]|e]; [|reflexivity].
    cbn [bind yields_of is_false]. rewrite Ef. cbn [bind map plus_offset fst snd]. f_equal. unfold log_poisson, poisson_term.
    rewrite rsum_cons. rewrite ?exp_ln by exact Hy. cbn [rsum fold_right]. lra. }
  split.
  - intros H. apply (eq_trans (eq_sym E)) in H. apply bind_ok in H. destruct H as [p [Hp H]]. apply Ok_inj in H. exists p. auto.
  - intros [p [Hp ->]]. apply (eq_trans E). apply (f_equal (fun q => bind q (fun p => Ok (p + (poisson_term (u_size d) (f v) + stirling (u_size d)))))) in Hp. exact Hp.
Qed.
Definition neg_inputs_ok (cs : list (channel V)) : Prop := forall c, In c cs -> fits c.
Lemma as_fits k (l : loss V) : (forall c, In c (l_chan l) -> fits c) -> forall c, In c (l_chan (as_kind k l)) -> fits c.
Proof. intros F. exact F. Qed.
Lemma kterm_none k k' (v : V) ks : rsum (map (kterm k None v) ks) = rsum (map (kterm k' None v) ks).
Proof. apply rsum_ext. intros c _. unfold kterm, offset_value. destruct k, k'; lra. Qed.
Lemma C31_ext_l (l : loss V) v nys : (forall c, In c (l_chan l) -> fits c) ->
  Forall2 (fun c p => expects c v (fst p) (snd p)) (l_chan l) nys ->
  forall x y, full_value (as_kind (KNLL false) l) v x -> 
    (full_value (as_kind KExtNLL l) v y <-> y = x + total (map (fun p => poisson_term (fst p) (snd p)) nys) + total (map (fun p => stirling (fst p)) nys)).
Proof.
  intros F E x y Hx. apply full_iff in Hx; [|exact F]. rewrite (full_iff (as_kind KExtNLL l) v y) by exact F. cbn [as_kind l_kind l_chan l_constr] in *.
  assert (A : forall z, loss_func err0 KExtNLL v (l_chan l) (l_constr l) None = Ok z
     <-> exists ps, Forall2 (fun c p => loss_func err0 (KNLL false) v [c] [] None = Ok p) (l_chan l) ps
        /\ z = rsum ps + rsum (map (fun p => poisson_term (fst p) (snd p)) nys) + rsum (map (fun p => stirling (fst p)) nys) + rsum (map (kterm (KNLL false) None v) (l_constr l))).
  { intros z. rewrite dec. rewrite (kterm_none KExtNLL (KNLL false)). generalize (rsum (map (kterm (KNLL false) None v) (l_constr l))). intros K.
    clear Hx. revert F z. induction E as [|c p cs nys Ec E IH]; intros F z.
    - split; intros [ps [P ->]]; inversion P; subst; exists []; (split; [constructor|cbn; lra]).
    - split.
      + intros [ps [P Ez]]. inversion P as [|? q ? ps' Pq P']; subst. apply (ext_single err0 v c _ _ (F c (or_introl eq_refl)) Ec) in Pq. destruct Pq as [p' [Hp' ->]].
        destruct (proj1 (IH (fun c' H => F c' (or_intror H)) (rsum ps' + K)) (ex_intro _ ps' (conj P' eq_refl))) as [qs [Q Eq]]. exists (p' :: qs). split; [constructor; assumption|].
        cbn [map]. rewrite !rsum_cons. lra.
      + intros [ps [P Ez]]. inversion P as [|? q ? ps' Pq P']; subst.
        destruct (proj2 (IH (fun c' H => F c' (or_intror H)) _) (ex_intro _ ps' (conj P' eq_refl))) as [qs [Q Eq]].
        exists ((q + (poisson_term (fst p) (snd p) + stirling (fst p))) :: qs). split; [constructor; [apply (ext_single err0 v c _ _ (F c (or_introl eq_refl)) Ec); exists q; auto|assumption]|].
        cbn [map]. rewrite !rsum_cons. lra. }
  apply dec in Hx. destruct Hx as [ps [P Ex]]. rewrite A, (total_rsum (map (fun p => poisson_term (fst p) (snd p)) nys)), (total_rsum (map (fun p => stirling (fst p)) nys)). split.
  - intros [qs [Q ->]]. assert (qs = ps).
    { clear - P Q. revert ps P. induction Q as [|c q cs qs Hq Q IH]; intros ps P; inversion P; subst; [reflexivity|]. f_equal; [congruence|]. apply IH. assumption. }
    subst qs. lra.
  - intros ->. exists ps. split; [exact P|]. lra.
Qed.
(** one channel: the yield with the smallest value is the number of events *)
Lemma C31_min_l (l : loss V) m d r f v v' x x' : l_chan l = [(m, DU d, r)] -> one_weight_each d -> m_yield m = Some f ->
  let n := total (map snd (events d)) in 0 < n -> f v = n -> 0 < f v' ->
  (forall w, m_pdf m v r w = m_pdf m v' r w) -> (forall k, In k (l_constr l) -> c_value k v = c_value k v') ->
  full_value (as_kind KExtNLL l) v x -> full_value (as_kind KExtNLL l) v' x' ->
  x <= x' /\ (x' = x -> f v' = f v).
Proof.
  intros Hc W Hm n Hn Ev Hy Hp Hk Hx Hx'.
  assert (F : forall c, In c (l_chan l) -> fits c) by (rewrite Hc; intros c [<-|[]]; exact W).
  assert (N : forall u, loss_func err0 (KNLL false) u (l_chan l) (l_constr l) None = Ok (minus_log_likelihood m r d u + rsum (map (fun k => c_value k u) (l_constr l)))).
  { intros u. apply dec. exists [minus_log_likelihood m r d u]. rewrite Hc. split.
    - constructor; [|constructor]. apply (alone_iff (as_kind (KNLL false) l)); [exact W|]. apply (C28_single_l (as_kind (KNLL false) l) m d r u _ false eq_refl W). reflexivity.
    - rewrite rsum_cons. assert (Y : rsum (map (kterm (KNLL false) None u) (l_constr l)) = rsum (map (fun k => c_value k u) (l_constr l))).
      { apply rsum_ext. intros k _. reflexivity. } rewrite Y. cbn [rsum fold_right]. lra. }
  assert (N' : forall u, full_value (as_kind (KNLL false) l) u (minus_log_likelihood m r d u + rsum (map (fun k => c_value k u) (l_constr l)))).
  { intros u. apply full_iff; [exact F|]. apply N. }
  assert (X1 : Forall2 (fun c p => expects c v (fst p) (snd p)) (l_chan l) [(n, f v)]).
  { rewrite Hc. constructor; [|constructor]. cbn. split; [reflexivity|]. exists f. split; [exact Hm|]. split; [reflexivity|lra]. }
  assert (X2 : Forall2 (fun c p => expects c v' (fst p) (snd p)) (l_chan l) [(n, f v')]).
  { rewrite Hc. constructor; [|constructor]. cbn. split; [reflexivity|]. exists f. split; [exact Hm|]. split; [reflexivity|lra]. }
  apply (C31_ext_l l v _ F X1 _ _ (N' v)) in Hx. apply (C31_ext_l l v' _ F X2 _ _ (N' v')) in Hx'. cbn [map fst snd total] in Hx, Hx'.
  assert (S1 : minus_log_likelihood m r d v = minus_log_likelihood m r d v').
  { unfold minus_log_likelihood. f_equal. f_equal. apply map_ext. intros e. rewrite Hp. reflexivity. }
  assert (S2 : rsum (map (fun k => c_value k v) (l_constr l)) = rsum (map (fun k => c_value k v') (l_constr l))).
  { apply rsum_ext. exact Hk. }
  destruct (poisson_min n (f v') Hn Hy) as [M1 M2]. rewrite Ev in *. split; [lra|]. intros E. apply M2. lra.
Qed.
(** binned: the expected counts with the smallest value are the data *)
Lemma bin_min c n : 0 <= n -> 0 <= c -> poisson_bin None (n, n) <= poisson_bin None (c, n) /\ (poisson_bin None (c, n) = poisson_bin None (n, n) -> c = n).
Proof.
  intros Hn Hc. assert (T : 0 < tiny) by (unfold tiny; apply Rinv_0_lt_compat, pow_lt; lra).
  unfold poisson_bin, log_poisson. cbn [plus_offset is_false]. rewrite !exp_ln by lra.
  destruct (poisson_min (n + tiny) (c + tiny)) as [A B]; [lra|lra|]. unfold poisson_term in *. split; [lra|]. intros E. assert (c + tiny = n + tiny) by (apply B; lra). lra.
Qed.
Lemma bins_min cs : forall ns, length cs = length ns -> Forall (fun n => 0 <= n) ns -> Forall (fun c => 0 <= c) cs ->
  rsum (map (poisson_bin None) (combine ns ns)) <= rsum (map (poisson_bin None) (combine cs ns))
  /\ (rsum (map (poisson_bin None) (combine cs ns)) = rsum (map (poisson_bin None) (combine ns ns)) -> cs = ns).
Proof.
  induction cs as [|c cs IH]; intros [|n ns] L Fn Fc; try discriminate; [split; [apply Rle_refl|reflexivity]|].
  injection L as L. inversion Fn; inversion Fc; subst. destruct (IH ns L) as [A B]; auto. destruct (bin_min c n) as [A' B']; auto.
  cbn [combine map]. rewrite !rsum_cons. split; [lra|]. intros E. f_equal; [apply B'; lra|apply B; lra].
Qed.
Lemma C31_binned_l (l : loss V) m b v v' x x' : l_kind l = KExtBinned -> l_chan l = [(m, DB b, None)] ->
  fits (m, DB b, None) -> Forall (fun n => 0 <= n) (b_values b) -> m_counts m v b = b_values b -> Forall (fun c => 0 <= c) (m_counts m v' b) ->
  (forall k, In k (l_constr l) -> c_value k v = c_value k v') ->
  full_value l v x -> full_value l v' x' -> x <= x' /\ (x' = x -> m_counts m v' b = b_values b).
Proof.
  intros K Hc W Hn Ev Hp Hk Hx Hx'.
  assert (F : forall c, In c (l_chan l) -> fits c) by (rewrite Hc; intros c [<-|[]]; exact W).
  apply full_iff in Hx; [|exact F]. apply full_iff in Hx'; [|exact F]. rewrite K, Hc in Hx, Hx'. apply dec in Hx, Hx'.
  destruct Hx as [ps [P Ex]]. destruct Hx' as [qs [Q Ex']]. inversion P as [|? p ? ? Pp P0]; subst ps. inversion P0; subst. inversion Q as [|? q ? ? Qq Q0]; subst qs. inversion Q0; subst.
  cbn [loss_func binned_func poisson_parts bind expected_counts] in Pp, Qq. unfold binned_func in Pp, Qq.
  cbn [poisson_parts bind expected_counts map] in Pp, Qq. apply Ok_inj in Pp, Qq.
  destruct (bins_min (m_counts m v' b) (b_values b)) as [A B]; [apply (proj1 W)|exact Hn|exact Hp|].
  assert (S2 : rsum (map (kterm KExtBinned None v) (l_constr l)) = rsum (map (kterm KExtBinned None v') (l_constr l))).
  { apply rsum_ext. intros k Hk'. unfold kterm. rewrite (Hk k Hk'). reflexivity. }
  rewrite Ev in Pp. rewrite !rsum_cons in *. cbn [rsum fold_right map] in *. split; [lra|]. intros E. apply B. lra.
Qed.

(** ** Reordering and splitting events *)
Definition same_events (d d' : udata) : Prop :=
  forall f : row * R -> R, (forall r a b, f (r, a + b) = f (r, a) + f (r, b)) -> rsum (map f (events d)) = rsum (map f (events d')).
Lemma perm_same d d' : Permutation (events d) (events d') -> same_events d d'.
Proof. intros P f _. apply rsum_perm, Permutation_map, P. Qed.
Lemma split_same d d' l1 l2 r a b : events d = l1 ++ (r, a + b) :: l2 -> events d' = l1 ++ (r, a) :: (r, b) :: l2 -> same_events d d'.
Proof. intros E1 E2 f Hf. rewrite E1, E2, !map_app. cbn [map]. rewrite !rsum_app, !rsum_cons, Hf. lra. Qed.
Lemma filter_if (g : row * R -> bool) (f : row * R -> R) l : rsum (map f (filter g l)) = rsum (map (fun e => if g e then f e else 0) l).
Proof. induction l as [|e l IH]; [reflexivity|]. cbn [filter map]. rewrite rsum_cons. destruct (g e); cbn [map]; rewrite ?rsum_cons, IH; lra. Qed.
Lemma same_nll d d' m r (v : V) : same_events d d' -> minus_log_likelihood m r d v = minus_log_likelihood m r d' v.
Proof.
  intros S. unfold minus_log_likelihood. f_equal. etransitivity; [apply total_rsum|symmetry; etransitivity; [apply total_rsum|symmetry]]. destruct r as [g|]; cbn [seen].
  - rewrite !filter_if. apply S. intros w a b. cbn [fst snd]. destruct (r_in g w); lra.
  - apply S. intros w a b. cbn [fst snd]. lra.
Qed.
Lemma single_same k d d' m r (v : V) : k = KExtNLL \/ (exists kahan, k = KNLL kahan) -> one_weight_each d -> one_weight_each d' -> same_events d d' ->
  loss_func err0 k v [(m, DU d, r)] [] None = loss_func err0 k v [(m, DU d', r)] [] None.
Proof.
  intros K W W' S.
  assert (N : forall kahan q, one_weight_each q -> loss_func err0 (KNLL kahan) v [(m, DU q, r)] [] None = Ok (minus_log_likelihood m r q v)).
  { intros kahan q Wq. apply (alone_iff (mkLoss (KNLL kahan) [] [] SubTrue None false [])); [exact Wq|]. apply (C28_single_l (mkLoss (KNLL kahan) [] [] SubTrue None false []) m q r v _ kahan eq_refl Wq). reflexivity. }
  destruct K as [->|[kahan ->]]; [|rewrite !N by assumption; f_equal; apply same_nll, S].
  pose proof (N false d W) as A. pose proof (N false d' W') as A'. rewrite <- (same_nll d d' m r v S) in A'. cbn [loss_func] in *. unfold ext_nll_func, nll_func in *.
  assert (Sz : u_size d = u_size d').
  { rewrite !size_events by assumption. apply S. intros; reflexivity. }
  destruct (unbinned_nll err0 false v None [(m, DU d, r)]) as [[p q]|e]; [|discriminate].
  destruct (unbinned_nll err0 false v None [(m, DU d', r)]) as [[p' q']|e]; [|discriminate].
  cbn [bind yields_of] in *. apply Ok_inj in A, A'. destruct (m_yield m) as [f|]; [|reflexivity]. cbn [bind]. rewrite Sz. f_equal. lra.
Qed.
Lemma C51_l (l l' : loss V) v x : l_kind l = KExtNLL \/ (exists kahan, l_kind l = KNLL kahan) -> l_kind l' = l_kind l -> l_constr l' = l_constr l ->
  Forall2 same_channel (l_chan l) (l_chan l') -> full_value l v x -> full_value l' v x.
Proof.
  intros K Ek Ec F H.
  assert (Fl : (forall c, In c (l_chan l) -> fits c) /\ (forall c, In c (l_chan l') -> fits c)).
  { clear - F. induction F as [|c c' cs cs' S F [A B]]; [split; intros ? []|]. destruct S as [m [r [d [d' [-> [-> [W [W' _]]]]]]]].
    split; intros c [<-|Hc]; auto. }
  destruct Fl as [F1 F2]. apply full_iff in H; [|exact F1]. apply full_iff; [exact F2|]. rewrite Ek, Ec. apply dec in H. apply dec.
  destruct H as [ps [P E]]. exists ps. split; [|exact E]. clear E F1 F2. revert ps P. induction F as [|c c' cs cs' S F IH]; intros ps P.
  - inversion P. constructor.
  - inversion P as [|? p ? ps' Pp P']; subst. constructor; [|apply IH, P']. destruct S as [m [r [d [d' [-> [-> [W [W' S]]]]]]]].
    rewrite <- Pp. symmetry. apply single_same; auto. destruct S as [S|[l1 [l2 [w [a [b [S1 S2]]]]]]]; [apply perm_same, S|eapply split_same; eassumption].
Qed.

(** ** create_new *)
Lemma C52_copy_l (l : loss V) : (unbinned_kind (l_kind l) = false -> forall c, In c (l_chan l) -> snd c = None) ->
  exists l', create_new l None None None = Ok l'
  /\ forall err hash eager v full x, settled l -> snd (loss_value err hash eager l v full) = Ok x -> (forall c, In c (l_chan l) -> fits c) ->
       snd (loss_value err hash eager l' v full) = Ok x.
Proof.
  intros R. unfold create_new, new_loss, l_data. rewrite input_self.
  2: { destruct (l_kind l) eqn:E; try reflexivity; intros r Hr; apply in_map_iff in Hr; destruct Hr as [c [<- Hc]]; apply R; auto. }
  cbn [bind fst snd]. eexists. split; [reflexivity|]. intros err hash eager v full x S H F.
  set (l' := mkLoss _ _ _ _ _ _ _). assert (S' : settled l') by exact S.
  assert (G : forall q : loss V, settled q -> (forall c, In c (l_chan q) -> fits c) -> 
     (snd (loss_value err hash eager q v full) = Ok x <-> loss_func err (l_kind q) v (l_chan q) (l_constr q) (if full then None else l_offset q) = Ok x)).
  { intros q Sq Fq. pose proof (pre_frame err hash eager q v) as P. pose proof (pre_settled err hash eager q v Sq) as C. unfold loss_value. split.
    - destruct (check_precompile err hash eager q v) as [q' [u|e]]; [|discriminate]. cbn [fst snd] in *. destruct P as [-> [-> [-> _]]], C as [_ ->]. auto.
    - intros Hq. assert (exists y, loss_func err (l_kind q) v (l_chan q) (l_constr q) None = Ok y) as [y Hy].
      { destruct full; [eauto|]. destruct (l_offset q) as [o|] eqn:Eo; [|eauto].
        exists (x - all_shift (l_kind q) o (l_chan q) (l_constr q)). apply (shift_ok err _ v o _ _ _ Fq). rewrite Hq. f_equal. lra. }
      destruct (pre_ok err hash eager q v y Fq Hy) as [u Hu]. destruct (check_precompile err hash eager q v) as [q' [u'|e]]; [|discriminate Hu].
      cbn [fst snd] in *. destruct P as [-> [-> [-> _]]], C as [_ ->]. exact Hq. }
  apply G in H; auto. apply (G l'); auto.
Qed.
Lemma C52_offset_l (l : loss V) ms ds ks l' : create_new l ms ds ks = Ok l' -> settled l ->
  forall err hash h, l_offset (run err hash l' h) = l_offset l.
Proof.
  intros H S err hash h. unfold create_new, new_loss in H. apply bind_ok in H. destruct H as [cs [_ H]]. apply Ok_inj in H. subst l'.
  match goal with |- l_offset (run _ _ ?q _) = _ => assert (S' : settled q) by exact S; exact (proj2 (run_settled err hash h q S')) end.
Qed.
End Ext.
