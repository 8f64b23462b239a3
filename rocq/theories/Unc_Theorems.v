(** Theorems on uncertainties of fit results (C64, C65, C66). *)
From Coq Require Import Lqa.
From Verif Require Import Base BaseLemmas Unc_Model Unc_Spec Unc_Proofs Unc_Proofs2 Unc_Proofs3 Unc_Proofs4.
Open Scope string_scope.
Open Scope list_scope.
Open Scope nat_scope.

(** An instance used in the examples: two parameters, one method "minuit_hesse" that moves the parameters, three weighted events. *)
Definition ex_params := ["mu"; "sigma"].
Definition ex_hinv : covd := [(("mu", "mu"), 4#1); (("mu", "sigma"), 1#1); (("sigma", "mu"), 1#1); (("sigma", "sigma"), 9#1)]%Q.
Definition ex_methods (n : string) : option nat := if String.eqb n "minuit_hesse" then Some 0 else None.
Definition ex_run (n : nat) (w : world) : world * result covd := (set1 w "mu" (77#1)%Q, Ok ex_hinv).
Definition ex_jac (w : world) : result (list (list Q)) := Ok [[1#1; 2#1; 0#1]; [0#1; 1#1; 1#1]]%Q.
Definition ex_err (ps : list string) (c : Q) (w : world) : world * result (list (string * (Q * Q)) * bool) :=
  (set1 w "sigma" (5#1)%Q, Ok (map (fun p => (p, (-(1#1), 2#1)%Q)) ps, false)).
Definition ex_err_new (ps : list string) (c : Q) (w : world) : world * result (list (string * (Q * Q)) * bool) :=
  (w, Ok (map (fun p => (p, (-(1#1), 2#1)%Q)) ps, true)).
Definition ex_w : world := fun p => if String.eqb p "mu" then 1#2 else 3#1.
Definition ex_s : st := mkSt ex_w [] [] true.
Definition ex_sqrt (q : Q) : Q := if Qeq_bool q 4 then 2 else if Qeq_bool q 9 then 3 else 1.
Definition ex_id (q : Q) : Q := q.
Lemma ex_symmetric : symmetric_dict ex_hinv.
Proof.
  assert (G : forall p q v, lookup pair_eqb (p, q) ex_hinv = Some v -> lookup pair_eqb (q, p) ex_hinv = Some v).
  { intros p q v H. apply (lookup_in _ pair_eqb_ok) in H. cbn in H. destruct H as [H|[H|[H|[H|[]]]]]; injection H as <- <- <-; reflexivity. }
  intros p q v. split; apply G.
Qed.
Lemma ex_run_symmetric n w w' d : ex_run n w = (w', Ok d) -> symmetric_dict d.
Proof. intros H. injection H as _ <-. apply ex_symmetric. Qed.
Lemma ex_nodup : NoDup ex_params. Proof. repeat constructor; cbn; intuition discriminate. Qed.

Section Claims.
Variable r_params : list string.
Variable weighted some_unweighted : bool.
Variable hesse_methods : string -> option nat.
Variable run_method : nat -> world -> world * result covd.
Variable jacobian : world -> result (list (list Q)).
Variable error_method : list string -> Q -> world -> world * result (list (string * (Q * Q)) * bool).
Variable sqrt_ ppf cdf : Q -> Q.
Notation covariance_dict := (covariance_dict r_params weighted some_unweighted hesse_methods run_method jacobian).
Notation covariance_matrix := (covariance_matrix r_params weighted some_unweighted hesse_methods run_method jacobian).
Notation hesse := (hesse r_params weighted some_unweighted hesse_methods run_method jacobian sqrt_ ppf).
Notation errors := (errors r_params error_method cdf).
Notation history := (history r_params weighted some_unweighted hesse_methods run_method jacobian error_method sqrt_ ppf cdf).
Notation after := (after r_params weighted some_unweighted hesse_methods run_method jacobian error_method sqrt_ ppf cdf).
Notation requested := (requested r_params).

(** C64: a covariance matrix is square, in the size of the request, and symmetric. *)
Theorem C64_covariance_matrix_symmetric s ps m wc s' M :
  covariance_matrix s ps m wc = (s', Ok (Some M)) -> square (length (requested ps)) M /\ symmetric M.
Proof. intros H. pose proof covariance_matrix_symmetric as G. eapply G in H. destruct H as [A B]. split; assumption. Qed.

(** C64: after a covariance was computed, every later request with the same method, for whatever parameters in whatever order,
    answers with the same number for the same pair, without any change of the state. *)
Theorem C64_requests_agree s ps1 m wc1 s1 d1 : covariance_dict s ps1 m wc1 = (s1, Ok d1) ->
  forall ps2 wc2, exists d2, covariance_dict s1 ps2 m wc2 = (s1, Ok d2)
    /\ (forall p q, (exists v, lookup pair_eqb (p, q) d2 = Some v) <-> In p (requested ps2) /\ In q (requested ps2))
    /\ forall k v1 v2, lookup pair_eqb k d1 = Some v1 -> lookup pair_eqb k d2 = Some v2 -> v1 = v2.
Proof.
  intros H ps2 wc2. edestruct covariance_consistent with (ps2 := ps2) (wc2 := wc2) as [d2 [E [K A]]]; [exact H|]. exists d2. split; [exact E|]. split; [|exact A].
  edestruct covariance_dict_char as [dc [_ [Hd _]]]; [exact E|]. intros p q. split.
  - intros [v Hv]. rewrite Hd in Hv. apply answer_lookup_some in Hv. tauto.
  - intros [Hp Hq]. rewrite Hd, answer_lookup by assumption. eauto.
Qed.

(** C64: the matrix for a request has at (i, j) the covariance of the i-th and the j-th requested parameter. *)
Theorem C64_matrix_is_dictionary s ps m wc s' d :
  NoDup r_params -> (forall n w w' d, run_method n w = (w', Ok d) -> symmetric_dict d) -> caches_symmetric s -> requested ps <> [] ->
  covariance_dict s ps m wc = (s', Ok d) ->
  exists M, covariance_matrix s ps m wc = (s', Ok (Some M)) /\ square (length (requested ps)) M
    /\ forall i j p q, nth_error (requested ps) i = Some p -> nth_error (requested ps) j = Some q ->
         exists v, entry_at M i j v /\ lookup pair_eqb (p, q) d = Some v.
Proof.
  intros Hn Hm Hc Hne E. edestruct matrix_of_dict as [M [A [B [_ C]]]]; [exact Hn|exact Hm|exact Hc|exact Hne|exact E|]. exists M. auto.
Qed.

(** C64: two matrices obtained one after the other agree on common pairs of parameters, whatever the orders of the requests. *)
Theorem C64_matrices_agree s ps1 m wc1 s1 M1 ps2 wc2 s2 M2 :
  NoDup r_params -> (forall n w w' d, run_method n w = (w', Ok d) -> symmetric_dict d) -> caches_symmetric s ->
  covariance_matrix s ps1 m wc1 = (s1, Ok (Some M1)) -> covariance_matrix s1 ps2 m wc2 = (s2, Ok (Some M2)) ->
  s2 = s1 /\ forall i1 j1 i2 j2 p q v, nth_error (requested ps1) i1 = Some p -> nth_error (requested ps1) j1 = Some q ->
    nth_error (requested ps2) i2 = Some p -> nth_error (requested ps2) j2 = Some q -> entry_at M1 i1 j1 v -> entry_at M2 i2 j2 v.
Proof. intros Hn Hm Hc H1 H2. eapply matrices_agree; [exact Hn|exact Hm|exact Hc|exact H1|exact H2]. Qed.

(** C64: with weighted data and the asymptotic correction, the covariance is the sum over the terms e of the likelihood of
    G_i(e) G_j(e), with G the inverse Hessian times the Jacobian. So the corrected variances are never negative. *)
Theorem C64_weight_corrected s ps m wc n w1 hd jac rows (H : nat -> nat -> Q) s' d :
  NoDup r_params -> weighted = true -> wc = None \/ wc = Some ASYMPTOTIC ->
  lookup method_eqb (match m with Some m => m | None => MName "minuit_hesse" end) (cache s) = None ->
  (match m with Some (MName x) => hesse_methods x | Some (MCall n) => Some n | None => hesse_methods "minuit_hesse" end) = Some n ->
  run_method n (vals s) = (w1, Ok hd) -> symmetric_dict hd -> jacobian w1 = Ok jac ->
  (forall k, k < length r_params -> length (nth k jac []) = rows) ->
  (forall i k p q, nth_error r_params i = Some p -> nth_error r_params k = Some q -> lookup pair_eqb (p, q) hd = Some (H i k)) ->
  covariance_dict s ps m wc = (s', Ok d) ->
  forall i j p q, nth_error r_params i = Some p -> nth_error r_params j = Some q -> In p (requested ps) -> In q (requested ps) ->
  exists v, lookup pair_eqb (p, q) d = Some (Some v)
    /\ (v == let G a e := sum_to (length r_params) (fun k => H a k * nth e (nth k jac []) 0) in sum_to rows (fun e => G i e * G j e))%Q
    /\ (i = j -> 0 <= v)%Q.
Proof.
  intros Hn Hw Hwc Hca Hme Hr Hsym Hj Hrows HH E i j p q Hi Hjq Hp Hq.
  assert (Hwc' : (match wc with Some w => w | None => ASYMPTOTIC end) = ASYMPTOTIC) by (destruct Hwc as [-> | ->]; reflexivity).
  assert (Hme' : (match the_method m with MName x => hesse_methods x | MCall n => Some n end) = Some n) by (destruct m as [[x|x]|]; exact Hme).
  edestruct corrected_covariance with (H := H) (i := i) (j := j) (p := p) (q := q) as [v [A B]]; [exact Hn|exact Hw|exact Hwc'|exact Hca|exact Hme'|exact Hr|exact Hsym|exact Hj|exact Hrows|exact HH|exact E|exact Hi|exact Hjq|exact Hp|exact Hq|].
  exists v. split; [exact A|]. split; [exact B|]. intros ->. rewrite B. cbv zeta. apply sum_nonneg. intros e _. apply Qsqr_nonneg || nra.
Qed.

(** C64: a request leaves the requested parameters at their values, and one that had to correct for weights all of the result. *)
Theorem C64_values_kept s ps m wc s' d : covariance_dict s ps m wc = (s', Ok d) ->
  (forall p, In p (requested ps) -> vals s' p = vals s p)
  /\ (weighted = true -> wc <> Some NOCORR -> (exists k v, lookup pair_eqb k d = Some (Some v)) ->
      forall p, In p r_params -> vals s' p = vals s p).
Proof. intros E. exact (covariance_values r_params weighted some_unweighted hesse_methods run_method jacobian s ps m wc s' d E). Qed.

(** C65: [hesse] gives the square root of the covariance's diagonal, scaled to the confidence level; this is what is stored under
    the name, nothing else is touched, and the values of the requested parameters are as before. *)
Theorem C65_hesse s ps m cl name wc s' es : hesse s ps m cl name wc = (s', Ok es) ->
  let level := match cl with Some c => c | None => default_cl end in
  let corr := match wc with Some w => w | None => if weighted then ASYMPTOTIC else NOCORR end in
  let stored_as n := (name = NName n \/ (name = NDefault /\ n = "hesse")) in
  (forall p, In p (requested ps) -> vals s' p = vals s p)
  /\ (es <> [] -> map fst es = requested ps)
  /\ (forall p e, In (p, e) es -> exists v,
        snd (covariance_dict s' (Some [p]) m wc) = Ok [((p, p), Some v)]
        /\ e = EHesse (sqrt_ v * sqrt_ (ppf level)) level corr
        /\ forall n, stored_as n -> lookup pair_eqb (p, n) (errs s') = Some e)
  /\ (forall p n, ~ (stored_as n /\ In p (map fst es)) -> lookup pair_eqb (p, n) (errs s') = lookup pair_eqb (p, n) (errs s)).
Proof.
  intros E. cbv zeta. fold (the_level cl) (the_corr weighted wc).
  edestruct hesse_char as [[e [H _]]|[[H [He Hv]]|[f [H [_ [Hv [[dc [L D]] He]]]]]]]; [exact E|discriminate| |].
  { injection H as ->. split; [exact Hv|]. split; [congruence|]. split; [intros p e []|]. intros p n _. rewrite He. reflexivity. }
  cbv zeta in H, He. injection H as ->. split; [exact Hv|]. split; [intros _; rewrite map_map; cbn; apply map_id|]. split.
  - intros p e Hin. apply in_map_iff in Hin. destruct Hin as [q [Eq Hq]]. injection Eq as -> <-. exists (f p). split; [|split; [reflexivity|]].
    + erewrite covariance_dict_cached by exact L. cbn. rewrite (D p Hq). reflexivity.
    + intros n Hn. assert (Hname : name_of name = Some n) by (destruct Hn as [-> | [-> ->]]; reflexivity).
      rewrite He, Hname, store_lookup. rewrite (proj2 (string_eqb_ok n n) eq_refl).
      rewrite (lookup_rev_fun (fun p => EHesse (sqrt_ (f p) * sqrt_ (ppf (the_level cl))) (the_level cl) (the_corr weighted wc)) _ p Hq). reflexivity.
  - intros p n Hno. rewrite He. destruct (name_of name) as [nm|] eqn:En; [|reflexivity]. rewrite store_lookup.
    destruct (String.eqb n nm) eqn:Enn; [|reflexivity]. apply string_eqb_ok in Enn. subst nm.
    destruct (lookup String.eqb p (rev _)) as [e|] eqn:El; [|reflexivity]. exfalso. apply Hno. split.
    + destruct name; cbn in En; try discriminate; injection En as ->; auto.
    + apply lookup_rev_In in El. apply in_map_iff. exists (p, e). auto.
Qed.

(** C65: [errors] leaves all parameters of the result at their values; what it returns is what is stored, for the level that was
    asked for; if a new minimum was found, the entries are replaced by a message and the result is no longer valid. *)
Theorem C65_errors s ps name cl sigma s' es new :
  (forall q c w w' el b, error_method q c w = (w', Ok (el, b)) -> map fst el = q) ->
  errors s ps name cl sigma = (s', Ok (es, new)) ->
  (forall p, In p r_params -> vals s' p = vals s p)
  /\ map fst es = requested ps
  /\ (forall p e, In (p, e) es -> lookup pair_eqb (p, name) (errs s') = Some e)
  /\ (forall p n, ~ (n = name /\ In p (requested ps)) -> lookup pair_eqb (p, n) (errs s') = lookup pair_eqb (p, n) (errs s))
  /\ (new = true -> valid_flag s' = false /\ forall p e, In (p, e) es -> e = EMsg)
  /\ (new = false -> valid_flag s' = valid_flag s /\ forall p e, In (p, e) es -> exists lower upper,
        e = EAsym lower upper (match sigma with Some g => cdf g | None => match cl with Some c => c | None => default_cl end end)).
Proof. intros HK E. exact (errors_result r_params error_method cdf s ps name cl sigma s' es new HK E). Qed.

(** C65: in any history of calls, an entry stored under a name is never removed, and one call replaces it only by an entry for
    a confidence level that counts as the same and with the same weight correction, or by the message that a new minimum was found, which then stays for ever. *)
Theorem C65_entries_in_any_history :
  (forall q c w w' el b, error_method q c w = (w', Ok (el, b)) -> map fst el = q) ->
  forall s cs p n,
    (forall c, may_become (lookup pair_eqb (p, n) (errs (history s cs))) (lookup pair_eqb (p, n) (errs (history s (cs ++ [c])))))
    /\ (forall e, lookup pair_eqb (p, n) (errs s) = Some e -> exists e', lookup pair_eqb (p, n) (errs (history s cs)) = Some e')
    /\ (lookup pair_eqb (p, n) (errs s) = Some EMsg -> lookup pair_eqb (p, n) (errs (history s cs)) = Some EMsg).
Proof.
  intros HK s cs p n.
  assert (HK' : forall ps c w w' es new, error_method ps c w = (w', Ok (es, new)) -> incl (map fst es) ps).
  { intros q c w w' el b E. rewrite (HK _ _ _ _ _ _ E). apply incl_refl. }
  split; [|split].
  - intros c. unfold Unc_Spec.history. rewrite fold_left_app. cbn [fold_left]. apply after_become. exact HK'.
  - intros e. apply history_kept. exact HK'.
  - apply history_msg. exact HK'.
Qed.

(** C65: a name under which a message is stored can not be used again: every [hesse] and every [errors] call that includes the
    parameter raises, after any further calls. *)
Theorem C65_name_lost_after_new_minimum :
  (forall q c w w' el b, error_method q c w = (w', Ok (el, b)) -> map fst el = q) ->
  forall s cs p n ps, lookup pair_eqb (p, n) (errs s) = Some EMsg -> In p (requested ps) ->
    (forall m cl wc, exists e, snd (hesse (history s cs) ps m cl (NName n) wc) = Err e)
    /\ (forall cl sigma, exists e, snd (errors (history s cs) ps n cl sigma) = Err e).
Proof.
  intros HK s cs p n ps H Hp. assert (H' : lookup pair_eqb (p, n) (errs (history s cs)) = Some EMsg) by (apply (C65_entries_in_any_history HK s cs p n), H).
  split.
  - intros m cl wc. eapply msg_refuses_hesse; [reflexivity|exact Hp|exact H'].
  - intros cl sigma. eapply msg_refuses_errors; [exact Hp|exact H'].
Qed.
End Claims.

(** Two requests in different orders, the second one cheaper. *)
Example C64_ex_requests :
  let cov := covariance_matrix ex_params true false ex_methods ex_run ex_jac in
  let r1 := cov ex_s None None None in
  let r2 := cov (fst r1) (Some ["sigma"; "mu"]) None None in
  (match snd r1 with Ok (Some M) => map (map (option_map Qred)) M = [[Some (98#1); Some (112#1)]; [Some (112#1); Some (203#1)]] | _ => False end)
  /\ (match snd r2 with Ok (Some M) => map (map (option_map Qred)) M = [[Some (203#1); Some (112#1)]; [Some (112#1); Some (98#1)]] | _ => False end)
  /\ vals (fst r1) "mu" = (1#2)%Q.
Proof. repeat split. Qed.
Example C64_ex_hypotheses : NoDup ex_params /\ (forall n w w' d, ex_run n w = (w', Ok d) -> symmetric_dict d) /\ caches_symmetric ex_s.
Proof. split; [apply ex_nodup|]. split; [apply ex_run_symmetric|]. intros m d []. Qed.
(** The weight-corrected covariance of the example: G_mu = (4, 9, 1) and G_sigma = (1, 11, 9). *)
Example C64_ex_weight_corrected : exists v,
  lookup pair_eqb ("mu", "sigma") (match snd (covariance_dict ex_params true false ex_methods ex_run ex_jac ex_s None None None) with Ok d => d | Err _ => [] end) = Some (Some v)
  /\ (v == 4 * 1 + 9 * 11 + 1 * 9)%Q.
Proof. eexists. split; [reflexivity|reflexivity]. Qed.

(** C64: a symmetric matrix survives being turned into a dictionary and back. *)
Theorem C64_matrix_dict_round_trip ps (m : list (list Q)) : NoDup ps -> square (length ps) m -> symmetric m ->
  dict_to_matrix ps (matrix_to_dict 0%Q ps m) = Ok m
  /\ forall i j p q, nth_error ps i = Some p -> nth_error ps j = Some q -> exists v, entry_at m i j v /\ lookup pair_eqb (p, q) (matrix_to_dict 0%Q ps m) = Some v.
Proof.
  intros Hn Hs Hy. split; [apply roundtrip; assumption|]. intros i j p q Hi Hj.
  assert (Li : i < length ps) by (apply nth_error_Some; congruence). assert (Lj : j < length ps) by (apply nth_error_Some; congruence).
  exists (mget 0%Q m i j). split; [eapply mget_entry; eauto|]. rewrite (matrix_to_dict_lookup _ _ _ _ _ _ _ Hn Hi Hj). f_equal.
  destruct (Nat.le_gt_cases i j) as [H|H]; [rewrite Nat.min_l, Nat.max_r by lia; reflexivity|].
  rewrite Nat.min_r, Nat.max_l by lia. apply entry_mget. apply Hy. eapply mget_entry; eauto.
Qed.
Example C64_ex_round_trip : dict_to_matrix ["b"; "a"] (matrix_to_dict 0%Q ["b"; "a"] [[4#1; 1#1]; [1#1; 9#1]]%Q) = Ok [[4#1; 1#1]; [1#1; 9#1]]%Q
  /\ lookup pair_eqb ("a", "b") (matrix_to_dict 0%Q ["b"; "a"] [[4#1; 1#1]; [1#1; 9#1]]%Q) = Some (1#1)%Q.
Proof. split; reflexivity. Qed.

(** C64: a correlation is the covariance divided by both standard deviations; so it is one on the diagonal. *)
Theorem C64_correlation (sqrt_ : Q -> Q) c i j : i < length c -> j < length c ->
  (mget 0%Q (to_correlation sqrt_ c) i j == mget 0 c i j / (sqrt_ (mget 0 c i i) * sqrt_ (mget 0 c j j)))%Q
  /\ (i = j -> ~ mget 0 c i i == 0 -> sqrt_ (mget 0 c i i) * sqrt_ (mget 0 c i i) == mget 0 c i i -> mget 0%Q (to_correlation sqrt_ c) i j == 1)%Q.
Proof.
  intros Hi Hj. split; [apply correlation_get; assumption|]. intros <- Hz Hs. rewrite correlation_get by assumption. rewrite Hs. field. exact Hz.
Qed.
Example C64_ex_correlation : (map (map Qred) (to_correlation ex_sqrt [[4#1; 1#1]; [1#1; 9#1]]) = [[1; 1#6]; [1#6; 1]])%Q.
Proof. reflexivity. Qed.

(** C64: the weight correction is not part of the cache's key: asking for "effsize" after "asymptotic" gives the asymptotic covariance. *)
Theorem C64_weightcorr_in_cache_refuted : exists s s1 d0 d1 d2,
  covariance_dict ex_params true false ex_methods ex_run ex_jac s None None (Some EFFSIZE) = (s1, Ok d0)
  /\ covariance_dict ex_params true false ex_methods ex_run ex_jac
       (fst (covariance_dict ex_params true false ex_methods ex_run ex_jac s None None (Some ASYMPTOTIC))) None None (Some EFFSIZE) = (d1, Ok d2)
  /\ d0 <> d2.
Proof. exists ex_s. do 4 eexists. split; [reflexivity|]. split; [reflexivity|]. discriminate. Qed.

(** C64: the "effsize" correction never changes anything (the inverse Hessian is returned as it is), and it fails with an
    AttributeError as soon as one of several data sets has no weights. *)
Theorem C64_effsize_refuted :
  (exists s' d, covariance_dict ex_params true false ex_methods ex_run ex_jac ex_s None None (Some EFFSIZE) = (s', Ok d)
    /\ forall p q, In p ex_params -> In q ex_params -> lookup pair_eqb (p, q) d = Some (lookup pair_eqb (p, q) ex_hinv))
  /\ snd (covariance_dict ex_params true true ex_methods ex_run ex_jac ex_s None None (Some EFFSIZE)) = Err AttributeError.
Proof.
  split; [|reflexivity]. do 2 eexists. split; [reflexivity|]. intros p q Hp Hq.
  repeat (destruct Hp as [<-|Hp]; [repeat (destruct Hq as [<-|Hq]; [reflexivity|]); destruct Hq|]); destruct Hp.
Qed.

(** C64: the covariance is computed where the parameters happen to stand, not at the minimum: a method that depends on the point gives
    another covariance after the user moved a parameter. *)
Theorem C64_covariance_at_current_values_refuted : exists run s p v,
  let cov s := covariance_dict ["mu"] false false ex_methods run ex_jac s None None None in
  snd (cov s) <> snd (cov (with_vals s (set1 (vals s) p v))).
Proof.
  exists (fun _ w => (w, Ok [(("mu", "mu"), w "mu")])), ex_s, "mu", (9#1)%Q. discriminate.
Qed.

(** C64: the approximate covariance is read with the order of the result's parameters although the approximation has its own order. *)
Theorem C64_approx_order_refuted :
  exists (own result_params : list string) (inv : list (list Q)) d,
    own <> result_params /\ covariance_approx result_params inv ["mu"] = Ok d
    /\ index_of String.eqb "mu" own = Some 0 /\ mget 0%Q inv 0 0 = (4#1)%Q /\ lookup pair_eqb ("mu", "mu") d = Some (9#1)%Q.
Proof. exists ["mu"; "sigma"], ["sigma"; "mu"], [[4#1; 1#1]; [1#1; 9#1]]%Q. eexists. repeat split. discriminate. Qed.
(** With equal orders the approximate covariance is right. *)
Theorem C64_approx_same_order own inv ps d p q i j : NoDup own -> covariance_approx own inv ps = Ok d -> In p ps -> In q ps ->
  nth_error own i = Some p -> nth_error own j = Some q -> lookup pair_eqb (p, q) d = Some (mget 0%Q inv i j).
Proof.
  intros Hn H Hp Hq Hi Hj. unfold covariance_approx in H. destruct (mapM _ (product ps)) as [l|e] eqn:E; [|discriminate]. injection H as <-.
  apply mapM_ok in E.
  assert (G : forall k v, In (k, v) l -> In k (product ps) /\ exists a b, index_of String.eqb (fst k) own = Some a /\ index_of String.eqb (snd k) own = Some b /\ v = mget 0%Q inv a b).
  { intros k v Hin. clear - E Hin. induction E as [|k0 kv0 ks l H F IH]; [destruct Hin|]. destruct Hin as [->|Hin].
    - cbv beta in H. destruct (index_of String.eqb (fst k0) own) as [a|] eqn:A; [|discriminate]. destruct (index_of String.eqb (snd k0) own) as [b|] eqn:B; [|discriminate].
      cbn in H. injection H as <- <-. split; [left; reflexivity|]. eauto.
    - destruct (IH Hin) as [I1 I2]. split; [right; exact I1|exact I2]. }
  destruct (Forall2_In_l _ _ _ (p, q) E (proj2 (product_In _ _ _) (conj Hp Hq))) as [[k v] [Hin Hkv]]. cbn [fst snd] in Hkv.
  rewrite (nodup_index_of _ string_eqb_ok _ _ _ Hn Hi), (nodup_index_of _ string_eqb_ok _ _ _ Hn Hj) in Hkv. cbn in Hkv. injection Hkv as <- <-.
  apply (lookup_functional _ pair_eqb_ok); [exact Hin|]. intros v' Hv'. destruct (G _ _ Hv') as [_ [a [b [A [B ->]]]]]. cbn [fst snd] in A, B.
  rewrite (nodup_index_of _ string_eqb_ok _ _ _ Hn Hi) in A. rewrite (nodup_index_of _ string_eqb_ok _ _ _ Hn Hj) in B. congruence.
Qed.
Example C64_ex_approx : match covariance_approx ["mu"; "sigma"] [[4#1; 1#1]; [1#1; 9#1]]%Q ["sigma"; "mu"] with
  | Ok d => lookup pair_eqb ("sigma", "sigma") d = Some (9#1)%Q | Err _ => False end.
Proof. reflexivity. Qed.

(** C65 examples: both kinds of errors beside each other. *)
Example C65_ex_hesse :
  let r := hesse ex_params false false ex_methods ex_run ex_jac ex_sqrt (fun _ => 4)%Q ex_s (Some ["sigma"]) None (Some (95#100)%Q) NDefault None in
  (match snd r with Ok [(p, EHesse e c w)] => p = "sigma" /\ (e == 3 * 2)%Q /\ c = (95#100)%Q /\ w = NOCORR | _ => False end)
  /\ vals (fst r) "sigma" = (3#1)%Q /\ vals (fst r) "mu" = (77#1)%Q.
Proof. repeat split. Qed.
Example C65_ex_errors :
  let r := errors ex_params ex_err ex_id ex_s None "errors" None None in
  snd r = Ok ([("mu", EAsym (-(1#1)) (2#1) default_cl); ("sigma", EAsym (-(1#1)) (2#1) default_cl)], false) /\ vals (fst r) "sigma" = (3#1)%Q.
Proof. split; reflexivity. Qed.
Example C65_ex_keys : forall q c w w' el b, ex_err q c w = (w', Ok (el, b)) -> map fst el = q.
Proof. intros q c w w' el b H. injection H as _ <- _. rewrite map_map. cbn. apply map_id. Qed.
Example C65_ex_message :
  let s1 := fst (errors ex_params ex_err_new ex_id ex_s (Some ["mu"]) "errors" None None) in
  lookup pair_eqb ("mu", "errors") (errs s1) = Some EMsg /\ valid_flag s1 = false
  /\ snd (errors ex_params ex_err_new ex_id s1 (Some ["mu"]) "errors" None None) = Err TypeError.
Proof. repeat split. Qed.

(** C65: the tolerance on the confidence level is not transitive: calls, each close to the one before, replace an entry by one for a level
    that would have been refused. *)
Theorem C65_level_drift_refuted : exists cs e e', 
  let h := history ex_params false false ex_methods ex_run ex_jac ex_err ex_sqrt ex_id ex_id ex_s in
  lookup pair_eqb ("mu", "hesse") (errs (h [hd (CCovariance None None None) cs])) = Some e
  /\ lookup pair_eqb ("mu", "hesse") (errs (h cs)) = Some e'
  /\ level_of e = Some (500#1000)%Q /\ level_of e' = Some (502#1000)%Q
  /\ ~ close_levels (500#1000) (502#1000).
Proof.
  exists [CHesse None None (Some (500#1000)%Q) NDefault None; CHesse None None (Some (501#1000)%Q) NDefault None; CHesse None None (Some (502#1000)%Q) NDefault None].
  do 2 eexists. do 4 (split; [reflexivity|]). rewrite <- cl_close_iff. discriminate.
Qed.
(** C65: the same name for [errors] and then for [hesse] with a weight correction is a KeyError instead of the explanation. *)
Theorem C65_name_used_by_errors_refuted : exists s1,
  s1 = fst (errors ex_params ex_err ex_id ex_s None "unc" None None)
  /\ snd (hesse ex_params true false ex_methods ex_run ex_jac ex_sqrt ex_id s1 None None None (NName "unc") None) = Err KeyError.
Proof. eexists. split; reflexivity. Qed.
(** C65: [errors(sigma=s)] uses the level cdf(s) of the chi2 distribution, so the loss is scanned up to errordef * s instead of errordef * s**2: for
    any quantile function that inverts cdf, the square of the number of standard deviations of the stored level is s. *)
Theorem C65_sigma_refuted : forall (ppf cdf : Q -> Q), (forall x, (0 <= x)%Q -> ppf (cdf x) = x) ->
  exists s', fst (errors ex_params ex_err cdf ex_s (Some ["mu"]) "errors" None (Some (2#1)%Q)) = s'
  /\ exists l u c, lookup pair_eqb ("mu", "errors") (errs s') = Some (EAsym l u c) /\ ppf c = (2#1)%Q /\ ~ (ppf c == (2#1) * (2#1))%Q.
Proof.
  intros ppf cdf H. eexists. split; [reflexivity|]. do 3 eexists. split; [reflexivity|]. rewrite H by (unfold Qle; cbn; lia). split; [reflexivity|]. unfold Qeq. cbn. lia.
Qed.

(** C66: before freezing, the value of a parameter is the same by parameter, by name and by position. *)
Theorem C66_values_by_any_key {V} (d : list (string * V)) i n v : NoDup (map fst d) -> nth_error d i = Some (n, v) ->
  values_getitem false d (KParam n) = Ok v /\ values_getitem false d (KName n) = Ok v /\ values_getitem false d (KInt i) = Ok v.
Proof.
  intros Hn Hi. rewrite !values_getitem_char. rewrite (proj2 (lookup_nodup _ string_eqb_ok _ _ _ Hn) (nth_error_In _ _ Hi)).
  rewrite nth_error_map, Hi. repeat split.
Qed.
(** C66: the entry of a parameter is found by parameter and by name, before and after freezing, and nothing else is found. *)
Theorem C66_params_same_after_freeze {V} (d : list (string * V)) k :
  params_getitem true d k = params_getitem false d k
  /\ contains (params_getitem true d k) = contains (params_getitem false d k)
  /\ forall n, k = KParam n \/ k = KName n -> forall v, NoDup (map fst d) -> (params_getitem true d k = Ok v <-> In (n, v) d).
Proof.
  rewrite !params_getitem_char. split; [reflexivity|]. split; [reflexivity|].
  intros n Hk v Hn. assert (E : key_name k = Some n) by (destruct Hk as [-> | ->]; reflexivity). rewrite E. split.
  - destruct (lookup String.eqb n d) eqn:L; [|discriminate]. cbn. intros H. injection H as ->. apply (lookup_in _ string_eqb_ok), L.
  - intros H. rewrite (proj2 (lookup_nodup _ string_eqb_ok _ _ _ Hn) H). reflexivity.
Qed.
(** C66: "in" tells whether there is an entry of this parameter or name; for the values before freezing too if there is one. *)
Theorem C66_membership {V} (d : list (string * V)) frozen k n : k = KParam n \/ k = KName n ->
  (contains (params_getitem frozen d k) = Ok true <-> In n (map fst d))
  /\ (contains (params_getitem frozen d k) = Ok false <-> ~ In n (map fst d))
  /\ (In n (map fst d) -> contains (values_getitem false d k) = Ok true).
Proof.
  intros Hk. assert (E : key_name k = Some n) by (destruct Hk as [-> | ->]; reflexivity).
  rewrite params_getitem_char, values_getitem_char, E.
  assert (EV : match k with KParam n | KName n => match lookup String.eqb n d with Some v => Ok v | None => Err TypeError end
     | KInt i => opt_result IndexError (nth_error (map snd d) i) end = match lookup String.eqb n d with Some v => Ok v | None => Err TypeError end)
    by (destruct Hk as [-> | ->]; reflexivity). rewrite EV.
  assert (HK : forall x, lookup String.eqb n d = Some x -> In n (map fst d)).
  { intros x L. apply (lookup_in _ string_eqb_ok) in L. apply (in_map fst) in L. exact L. }
  pose proof (lookup_none _ string_eqb_ok n d) as HN.
  destruct (lookup String.eqb n d) as [x|]; cbn.
  - specialize (HK _ eq_refl). split; [intuition congruence|]. split; [split; [discriminate|contradiction]|]. intros _. reflexivity.
  - destruct HN as [HN _]. specialize (HN eq_refl). split; [split; [discriminate|contradiction]|]. split; [intuition congruence|contradiction].
Qed.
Print Assumptions C66_membership.
(** C66: the covariances by names after freezing are those by parameters before. *)
Theorem C66_covariance_same_after_freeze (d : covd) (names : list string) :
  map (fun kv => (key_name (fst (fst kv)), key_name (snd (fst kv)), snd kv)) (frozen_covariance true d (map KName names))
  = map (fun kv => (key_name (fst (fst kv)), key_name (snd (fst kv)), snd kv)) (frozen_covariance false d (map KParam names))
  /\ (forall p q v, In p names -> In q names -> lookup pair_eqb (p, q) d = Some v ->
        In ((KName p, KName q), Some v) (frozen_covariance true d (map KName names))).
Proof.
  unfold frozen_covariance. split.
  - assert (P : forall f : string -> key, concat (map (fun p => map (fun q => (p, q)) (map f names)) (map f names)) = map (fun pq => (f (fst pq), f (snd pq))) (product names)).
    { intros f. unfold product. rewrite concat_map, !map_map. f_equal. apply map_ext. intros p. rewrite !map_map. reflexivity. }
    rewrite (P KName), (P KParam), !map_map. reflexivity.
  - intros p q v Hp Hq L. apply in_map_iff. exists (KName p, KName q). cbn [fst snd]. rewrite L. split; [reflexivity|].
    apply in_concat. exists (map (fun q => (KName p, q)) (map KName names)). split.
    + apply in_map_iff. exists (KName p). split; [reflexivity|]. apply in_map, Hp.
    + apply in_map_iff. exists (KName q). split; [reflexivity|]. apply in_map, Hq.
Qed.
(** C66: an approximate gradient is given in the order of the request. *)
Theorem C66_gradient_in_requested_order own grad req : NoDup own -> NoDup req -> incl req own -> length grad = length own ->
  exists g, approx_gradient own grad req = Ok g
    /\ Forall2 (fun p v => exists i, nth_error own i = Some p /\ nth_error grad i = Some v) req g.
Proof. apply approx_gradient_ok. Qed.
Example C66_ex : let d := [("mu", 1#1); ("sigma", 2#1)]%Q in
  values_getitem false d (KName "sigma") = Ok (2#1)%Q /\ params_getitem true d (KName "sigma") = Ok (2#1)%Q
  /\ approx_gradient ["a"; "b"; "c"] [1#1; 2#1; 3#1]%Q ["c"; "a"] = Ok [3#1; 1#1]%Q
  /\ frozen_covariance true ex_hinv [KName "sigma"] = [((KName "sigma", KName "sigma"), Some (9#1)%Q)].
Proof. repeat split. Qed.
(** C66: after freezing, the values can not be looked up by name ("Parameters can be accessed by their string name"): the lookup raises
    TypeError and the test with [in] RuntimeError; before freezing this happens for an unknown name. *)
Theorem C66_values_after_freeze_refuted : forall {V} (d : list (string * V)) n,
  values_getitem true d (KName n) = Err TypeError /\ contains (values_getitem true d (KName n)) = Err RuntimeError
  /\ values_getitem true d (KParam n) = Err TypeError
  /\ (~ In n (map fst d) -> contains (values_getitem false d (KName n)) = Err RuntimeError).
Proof.
  intros V d n. assert (A : forall k, key_name k = Some n -> values_getitem true d k = Err TypeError).
  { intros k Hk. unfold values_getitem, resolve. rewrite Hk. destruct (mem String.eqb n (map fst d)); reflexivity. }
  rewrite !A by reflexivity. repeat split. intros Hn. rewrite values_getitem_char. rewrite (proj2 (lookup_none _ string_eqb_ok n d) Hn). reflexivity.
Qed.
(** C66: asking for covariances by names before freezing gives nan, without any complaint. *)
Theorem C66_covariance_by_name_refuted : exists d p, lookup pair_eqb (p, p) d = Some (4#1)%Q
  /\ frozen_covariance false d [KName p] = [((KName p, KName p), None)].
Proof. exists ex_hinv, "mu". split; reflexivity. Qed.
Print Assumptions C64_covariance_matrix_symmetric.
Print Assumptions C64_requests_agree.
Print Assumptions C64_matrix_is_dictionary.
Print Assumptions C64_matrices_agree.
Print Assumptions C64_weight_corrected.
Print Assumptions C64_matrix_dict_round_trip.
Print Assumptions C64_correlation.
Print Assumptions C64_approx_same_order.
Print Assumptions C65_hesse.
Print Assumptions C65_errors.
Print Assumptions C65_entries_in_any_history.
Print Assumptions C65_name_lost_after_new_minimum.
Print Assumptions C66_values_by_any_key.
Print Assumptions C66_params_same_after_freeze.
Print Assumptions C66_covariance_same_after_freeze.
Print Assumptions C66_gradient_in_requested_order.
Print Assumptions C64_values_kept.
