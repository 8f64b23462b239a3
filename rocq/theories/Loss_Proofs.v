(** Proofs for losses: decomposition into channels. *)
From Coq Require Import Reals Lra Permutation.
From Verif Require Import Base BaseLemmas Space_Model Space_Proofs PGraph_Proofs Loss_Model Loss_Spec.
#[local] Open Scope R_scope.

Lemma total_rsum l : total l = rsum l.
Proof. induction l as [|a l IH]; simpl; [reflexivity|]. rewrite IH. reflexivity. Qed.
Lemma rsum_app a b : rsum (a ++ b) = rsum a + rsum b.
Proof. induction a as [|x a IH]; simpl; [lra|]. rewrite IH. lra. Qed.
Lemma rsum_shift {A} (f : A -> R) (c : R) l : rsum (map (fun x => f x + c) l) = rsum (map f l) + c * INR (length l).
Proof.
  induction l as [|a l IH]; [simpl; lra|]. cbn [map rsum fold_right length]. fold (rsum (map (fun x => f x + c) l)).
  fold (rsum (map f l)). rewrite IH, S_INR. lra.
Qed.
Lemma rsum_plus {A} (f g : A -> R) l : rsum (map (fun x => f x + g x) l) = rsum (map f l) + rsum (map g l).
Proof. induction l as [|a l IH]; cbn; [lra|]. fold (rsum (map (fun x => f x + g x) l)) (rsum (map f l)) (rsum (map g l)). rewrite IH. lra. Qed.
Lemma rsum_cons a l : rsum (a :: l) = a + rsum l.
Proof. reflexivity. Qed.
Lemma rsum_minus {A} (f g : A -> R) l : rsum (map (fun x => f x - g x) l) = rsum (map f l) - rsum (map g l).
Proof. induction l as [|a l IH]; cbn [map]; rewrite ?rsum_cons; [cbn; lra|]. rewrite IH. lra. Qed.
Lemma rsum_ext {A} (f g : A -> R) l : (forall a, In a l -> f a = g a) -> rsum (map f l) = rsum (map g l).
Proof. intros H. f_equal. apply map_ext_in, H. Qed.
Lemma rsum_perm a b : Permutation a b -> rsum a = rsum b.
Proof. induction 1; simpl; try lra. Qed.

Section Decompose.
Context {V : Type}.
Implicit Types (cs : list (channel V)) (ks : list (constr V)) (v : V) (off : offset).

Lemma uparts_iff err kahan v off cs pr :
  unbinned_parts err kahan v off cs = Ok pr <->
  Forall2 (fun c p => unbinned_parts err kahan v off [c] = Ok [p]) cs pr.
Proof.
  revert pr. induction cs as [|[[m [d|b]] r] cs IH]; intros pr; split; intros H.
  - inversion H. constructor.
  - inversion H. reflexivity.
  - cbn [unbinned_parts] in H. apply bind_ok in H. destruct H as [ps [E H]]. inversion H; subst.
    constructor; [reflexivity|]. apply IH, E.
  - inversion H as [|c p cs' ps Hc Hr]; subst. cbn [unbinned_parts] in *. rewrite (proj2 (IH ps) Hr). cbn in Hc. inversion Hc. reflexivity.
  - discriminate.
  - inversion H as [|c p cs' ps Hc Hr]; subst. discriminate Hc.
Qed.
Lemma yields_iff v cs ys :
  yields_of v cs = Ok ys <-> Forall2 (fun c y => yields_of v [c] = Ok [y]) cs ys.
Proof.
  revert ys. induction cs as [|[[m d] r] cs IH]; intros ys; split; intros H.
  - inversion H. constructor.
  - inversion H. reflexivity.
  - cbn [yields_of] in H. destruct (m_yield m) as [y|] eqn:E; [|discriminate]. destruct d as [u|b]; [|discriminate].
    apply bind_ok in H. destruct H as [ps [E1 H]]. inversion H; subst. constructor; [cbn; rewrite E; reflexivity|]. apply IH, E1.
  - inversion H as [|c p cs' ps Hc Hr]; subst. cbn [yields_of] in *. destruct (m_yield m) as [y|]; [|discriminate].
    destruct d as [u|b]; [|discriminate]. rewrite (proj2 (IH ps) Hr). cbn in Hc. inversion Hc. reflexivity.
Qed.
Lemma pparts_iff ext v off cs ps :
  poisson_parts ext v off cs = Ok ps <-> Forall2 (fun c p => poisson_parts ext v off [c] = Ok [p]) cs ps.
Proof.
  revert ps. induction cs as [|[[m [d|b]] r] cs IH]; intros ps; split; intros H.
  - inversion H. constructor.
  - inversion H. reflexivity.
  - discriminate.
  - inversion H as [|c p cs' ps' Hc Hr]; subst. discriminate Hc.
  - cbn [poisson_parts] in H. apply bind_ok in H. destruct H as [ps' [E H]]. inversion H; subst.
    constructor; [reflexivity|]. apply IH, E.
  - inversion H as [|c p cs' ps' Hc Hr]; subst. cbn [poisson_parts] in *. rewrite (proj2 (IH ps') Hr). cbn in Hc. inversion Hc. reflexivity.
Qed.
Lemma cparts_iff ext e v off cs ps :
  chi2_parts ext e v off cs = Ok ps <-> Forall2 (fun c p => chi2_parts ext e v off [c] = Ok [p]) cs ps.
Proof.
  revert ps. induction cs as [|[[m [d|b]] r] cs IH]; intros ps; split; intros H.
  - inversion H. constructor.
  - inversion H. reflexivity.
  - discriminate.
  - inversion H as [|c p cs' ps' Hc Hr]; subst. discriminate Hc.
  - cbn [chi2_parts] in H. apply bind_ok in H. destruct H as [vars [Ev H]]. apply bind_ok in H. destruct H as [ps' [E H]]. inversion H; subst.
    constructor; [cbn; rewrite Ev; reflexivity|]. apply IH, E.
  - inversion H as [|c p cs' ps' Hc Hr]; subst. cbn [chi2_parts] in *. apply bind_ok in Hc. destruct Hc as [vars [Ev Hc]].
    rewrite Ev. cbn [bind] in *. rewrite (proj2 (IH ps') Hr). cbn in Hc. inversion Hc. reflexivity.
Qed.

(** The term of a constraint *)
Definition kterm (k : kind) off v (c : constr V) : R :=
  match k with
  | KNLL _ | KExtNLL => c_value c v
  | KBinned | KExtBinned => c_value c v - offset_value off * INR (c_nfloat c)
  | KChi2 _ | KExtChi2 _ => c_value c v - offset_value off
  end.

Lemma kterm_nll kahan off v ks : rsum (map (kterm (KNLL kahan) off v) ks) = constraints_value v ks.
Proof. reflexivity. Qed.
Lemma kterm_ext off v ks : rsum (map (kterm KExtNLL off v) ks) = constraints_value v ks.
Proof. reflexivity. Qed.

Lemma F2_map {A B C} (P : A -> B -> Prop) (Q : A -> C -> Prop) (f : B -> C) l m :
  (forall a b, In a l -> P a b -> Q a (f b)) -> Forall2 P l m -> Forall2 Q l (map f m).
Proof.
  intros H F. induction F as [|a b l m Hab F IH]; cbn; constructor.
  - apply H; [left; reflexivity|exact Hab].
  - apply IH. intros x y Hx. apply H. right. exact Hx.
Qed.
Lemma F2_unmap {A B C} (P : A -> B -> Prop) (Q : A -> C -> Prop) (f : B -> C) l m :
  (forall a c, Q a c -> exists b, P a b /\ c = f b) -> Forall2 Q l m -> exists m', Forall2 P l m' /\ m = map f m'.
Proof.
  intros H F. induction F as [|a c l m Hac F IH]; [exists []; split; [constructor|reflexivity]|].
  destruct IH as [m' [F' ->]]. destruct (H a c Hac) as [b [Hb ->]]. exists (b :: m'). split; [constructor; assumption|reflexivity].
Qed.

Lemma dec_nll err kahan v cs ks off x :
  nll_func err kahan v cs ks off = Ok x <->
  exists ps, Forall2 (fun c p => nll_func err kahan v [c] [] off = Ok p) cs ps /\ x = rsum ps + rsum (map (kterm (KNLL kahan) off v) ks).
Proof.
  unfold nll_func, unbinned_nll. split.
  - intros H. apply bind_ok in H. destruct H as [[a b] [E H]]. apply bind_ok in E. destruct E as [parts [E Ep]].
    inversion Ep; subst. inversion H; subst. apply uparts_iff in E.
    exists (map (fun q => fst q - snd q) parts). split.
    + eapply F2_map; [|exact E]. intros c p _ Hp. cbn beta in *. rewrite Hp. cbn. f_equal. lra.
    + rewrite (rsum_minus fst snd). rewrite kterm_nll. lra.
  - intros [ps [F ->]].
    destruct (F2_unmap (fun c p => unbinned_parts err kahan v off [c] = Ok [p]) (fun c p => (let* (nll, corr) := let* parts := unbinned_parts err kahan v off [c] in Ok (rsum (map fst parts), rsum (map snd parts)) in Ok (nll + constraints_value v [] - corr)) = Ok p) (fun q => fst q - snd q) cs ps) as [parts [F' ->]].
    + intros c p H. apply bind_ok in H. destruct H as [[a b] [E H]]. apply bind_ok in E. destruct E as [parts [E Ep]].
      inversion Ep; subst. inversion H; subst. pose proof (proj1 (uparts_iff _ _ _ _ _ _) E) as E2. inversion E2 as [|c' q cs' qs Hq Hn]; subst.
      inversion Hn; subst. exists q. split; [exact E|]. cbn. lra.
    + exact F.
    + apply uparts_iff in F'. rewrite F'. cbn [bind]. f_equal.
      rewrite (rsum_minus fst snd). rewrite kterm_nll. lra.
Qed.
Lemma dec_ext err v cs ks off x :
  ext_nll_func err v cs ks off = Ok x <->
  exists ps, Forall2 (fun c p => ext_nll_func err v [c] [] off = Ok p) cs ps /\ x = rsum ps + rsum (map (kterm KExtNLL off v) ks).
Proof.
  set (T := fun p : R * R => plus_offset (log_poisson (fst p) (ln (snd p)) (is_false off)) off).
  set (P := fun (c : channel V) (q : (R * R) * (R * R)) => unbinned_parts err false v off [c] = Ok [fst q] /\ yields_of v [c] = Ok [snd q]).
  set (f := fun q : (R * R) * (R * R) => fst (fst q) + T (snd q) - snd (fst q)).
  assert (X : forall qs, rsum (map f qs) = rsum (map fst (map fst qs)) + rsum (map T (map snd qs)) - rsum (map snd (map fst qs))).
  { intros qs. unfold f. rewrite !map_map. rewrite <- rsum_plus, <- rsum_minus. reflexivity. }
  split.
  - unfold ext_nll_func, unbinned_nll. fold T. intros H. apply bind_ok in H. destruct H as [[a b] [E H]]. apply bind_ok in E. destruct E as [parts [E Ep]].
    apply bind_ok in H. destruct H as [ys [Ey H]]. apply Ok_inj in Ep, H. inversion Ep; subst. clear Ep.
    apply uparts_iff in E. apply yields_iff in Ey.
    assert (Q : Forall2 P cs (combine parts ys) /\ map fst (combine parts ys) = parts /\ map snd (combine parts ys) = ys).
    { clear - E Ey. revert ys Ey. induction E as [|c p cs parts Hp E IH]; intros ys Ey; inversion Ey; subst; cbn; [repeat split; constructor|].
      destruct (IH l') as [A [B C]]; [assumption|]. split; [constructor; [split; assumption|exact A]|]. split; f_equal; assumption. }
    destruct Q as [Q [Q1 Q2]]. exists (map f (combine parts ys)). split.
    + eapply F2_map; [|exact Q]. intros c q _ [H1 H2]. rewrite H1, H2. cbn [bind map]. fold T. f_equal. unfold constraints_value. cbn [map fst snd].
      rewrite !rsum_cons. unfold f, T. cbn [rsum fold_right]. lra.
    + rewrite X, Q1, Q2, kterm_ext. fold T. lra.
  - intros [ps [F ->]].
    destruct (F2_unmap P (fun c p => ext_nll_func err v [c] [] off = Ok p) f cs ps) as [qs [F' ->]]; [|exact F|].
    + intros c p H. unfold ext_nll_func, unbinned_nll in H. fold T in H. apply bind_ok in H. destruct H as [[a b] [E H]]. apply bind_ok in E. destruct E as [parts [E Ep]].
      apply bind_ok in H. destruct H as [ys [Ey H]]. apply Ok_inj in Ep, H. inversion Ep; subst. clear Ep.
      pose proof (proj1 (uparts_iff _ _ _ _ _ _) E) as E2. inversion E2 as [|c' q cs' qs Hq Hn]; subst. inversion Hn; subst.
      pose proof (proj1 (yields_iff _ _ _) Ey) as Y2. inversion Y2 as [|c' y cs' ys' Hy Hyn]; subst. inversion Hyn; subst.
      exists (q, y). split; [split; assumption|]. unfold f. cbn [map fst snd]. rewrite !rsum_cons. unfold constraints_value. cbn [map rsum fold_right]. lra.
    + assert (Q : Forall2 (fun c p => unbinned_parts err false v off [c] = Ok [p]) cs (map fst qs)).
      { eapply F2_map; [|exact F']. intros c q _ [H _]. exact H. }
      assert (Y : Forall2 (fun c p => yields_of v [c] = Ok [p]) cs (map snd qs)).
      { eapply F2_map; [|exact F']. intros c q _ [_ H]. exact H. }
      apply uparts_iff in Q. apply yields_iff in Y. unfold ext_nll_func, unbinned_nll. rewrite Q. cbn [bind]. rewrite Y. cbn [bind]. fold T.
      f_equal. rewrite X, kterm_ext. lra.
Qed.
Lemma dec_binned ext v cs ks off x :
  binned_func ext v cs ks off = Ok x <->
  exists ps, Forall2 (fun c p => binned_func ext v [c] [] off = Ok p) cs ps /\ x = rsum ps + rsum (map (kterm (if ext then KExtBinned else KBinned) off v) ks).
Proof.
  assert (K : map (kterm (if ext then KExtBinned else KBinned) off v) ks = map (fun k => c_value k v - offset_value off * INR (c_nfloat k)) ks)
    by (destruct ext; reflexivity).
  rewrite K. unfold binned_func. split.
  - intros H. apply bind_ok in H. destruct H as [parts [E H]]. apply Ok_inj in H. subst. apply pparts_iff in E.
    exists parts. split; [|reflexivity]. rewrite <- (map_id parts). eapply F2_map; [|exact E]. intros c p _ Hp. rewrite Hp. cbn. f_equal. lra.
  - intros [ps [F ->]]. 
    assert (Q : Forall2 (fun c p => poisson_parts ext v off [c] = Ok [p]) cs ps).
    { rewrite <- (map_id ps). eapply F2_map; [|exact F]. intros c p _ H. apply bind_ok in H. destruct H as [parts [E H]]. apply Ok_inj in H.
      pose proof (proj1 (pparts_iff _ _ _ _ _) E) as E2. inversion E2 as [|c' q cs' qs Hq Hn]; subst. inversion Hn; subst. rewrite E. do 2 f_equal. cbn. lra. }
    apply pparts_iff in Q. rewrite Q. reflexivity.
Qed.
Lemma dec_chi2 ext e v cs ks off x :
  chi2_func ext e v cs ks off = Ok x <->
  exists ps, Forall2 (fun c p => chi2_func ext e v [c] [] off = Ok p) cs ps /\ x = rsum ps + rsum (map (kterm (if ext then KExtChi2 e else KChi2 e) off v) ks).
Proof.
  assert (K : map (kterm (if ext then KExtChi2 e else KChi2 e) off v) ks = map (fun k => c_value k v - offset_value off) ks)
    by (destruct ext; reflexivity).
  rewrite K. unfold chi2_func. split.
  - intros H. apply bind_ok in H. destruct H as [parts [E H]]. apply Ok_inj in H. subst. apply cparts_iff in E.
    exists parts. split; [|reflexivity]. rewrite <- (map_id parts). eapply F2_map; [|exact E]. intros c p _ Hp. rewrite Hp. cbn. f_equal. lra.
  - intros [ps [F ->]]. 
    assert (Q : Forall2 (fun c p => chi2_parts ext e v off [c] = Ok [p]) cs ps).
    { rewrite <- (map_id ps). eapply F2_map; [|exact F]. intros c p _ H. apply bind_ok in H. destruct H as [parts [E H]]. apply Ok_inj in H.
      pose proof (proj1 (cparts_iff _ _ _ _ _ _) E) as E2. inversion E2 as [|c' q cs' qs Hq Hn]; subst. inversion Hn; subst. rewrite E. do 2 f_equal. cbn. lra. }
    apply cparts_iff in Q. rewrite Q. reflexivity.
Qed.
Lemma dec err k v cs ks off x :
  loss_func err k v cs ks off = Ok x <->
  exists ps, Forall2 (fun c p => loss_func err k v [c] [] off = Ok p) cs ps /\ x = rsum ps + rsum (map (kterm k off v) ks).
Proof.
  destruct k as [kahan| | | |e|e]; cbn [loss_func].
  - apply dec_nll.
  - apply dec_ext.
  - apply (dec_binned false).
  - apply (dec_binned true).
  - apply (dec_chi2 false).
  - apply (dec_chi2 true).
Qed.
End Decompose.
