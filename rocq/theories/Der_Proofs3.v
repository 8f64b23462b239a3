(** Lemmas about the derivatives of a loss: the methods of the loss. *)
From Verif Require Import Base BaseLemmas Der_Model Der_Spec Der_Proofs Der_Proofs2.

Section Methods.
Variable comp : nat -> list Q -> Q.
Variable ndg : list Q -> strategy (list Q).
Variable ndh : hess -> list Q -> strategy (list Q).
Variable adg : (list Q -> result Q) -> list par -> list Q -> result (list Q).
Variable adh : hess -> (list Q -> result Q) -> list par -> list Q -> result (list Q).

Lemma pure_same {R} (f : list Q -> result R) s g s' : pure f s = (g, s') -> s' = s.
Proof. unfold pure. intros H. now injection H as _ <-. Qed.

(** Without an exception nothing changes. *)
Lemma call_gradient_same L ps n s g s' :
  call_gradient comp ndg adg L ps n s = (Ok g, s') -> same s s'.
Proof.
  unfold call_gradient, fallback_gradient. destruct (l_grad L).
  - intros H. apply pure_same in H. subst. apply same_refl.
  - destruct n.
    + intros H. now apply numerical_ok in H.
    + intros H. apply pure_same in H. subst. apply same_refl.
Qed.
Lemma numerical_value_gradient_same func ps s g s' :
  numerical_value_gradient comp ndg func ps s = (Ok g, s') ->
  all_indep ps /\ same s s' /\ frame ps s s'.
Proof.
  unfold numerical_value_gradient, numerical_gradient. destruct (func (view s)); [|discriminate].
  destruct (numerical _ _ _ _ _) as [[g0|e] s1] eqn:E; [|discriminate].
  intros H. injection H as _ <-. now apply numerical_ok in E.
Qed.
Lemma call_value_gradient_same L ps n f s g s' :
  call_value_gradient comp ndg adg L ps n f s = (Ok g, s') -> same s s'.
Proof.
  unfold call_value_gradient, fallback_value_gradient. destruct (l_grad L).
  - intros H. apply pure_same in H. subst. apply same_refl.
  - destruct n.
    + intros H. now apply numerical_value_gradient_same in H.
    + intros H. apply pure_same in H. subst. apply same_refl.
Qed.
Lemma call_hessian_same L ps h n s g s' :
  call_hessian comp ndh adh L ps h n s = (Ok g, s') -> same s s'.
Proof.
  unfold call_hessian, fallback_hessian. destruct (l_hess L).
  - intros H. apply pure_same in H. subst. apply same_refl.
  - destruct n.
    + intros H. now apply numerical_ok in H.
    + intros H. apply pure_same in H. subst. apply same_refl.
Qed.
Lemma with_paramvals_same {R} L pv (body : store -> result R * store) s r s' :
  (forall s g s', body s = (Ok g, s') -> same s s') ->
  with_paramvals L pv body s = (Ok r, s') -> same s s'.
Proof.
  intros HB. unfold with_paramvals. destruct (subsetb _ _ _); [|discriminate].
  now apply with_values_same.
Qed.
Lemma gradient_same L params n pv s g s' :
  gradient comp ndg adg L params n pv s = (Ok g, s') -> same s s'.
Proof.
  unfold gradient. destruct (input_check_params _ _ _); [|discriminate].
  apply with_paramvals_same. intros *. apply call_gradient_same.
Qed.
Lemma value_gradient_same L params f n pv s g s' :
  value_gradient comp ndg adg L params f n pv s = (Ok g, s') -> same s s'.
Proof.
  unfold value_gradient. destruct (input_check_params _ _ _); [|discriminate].
  apply with_paramvals_same. intros *. apply call_value_gradient_same.
Qed.
Lemma hessian_same L params h n pv s g s' :
  hessian comp ndh adh L params h n pv s = (Ok g, s') -> same s s'.
Proof.
  unfold hessian. destruct (input_check_params _ _ _); [|discriminate].
  apply with_paramvals_same. intros *. apply call_hessian_same.
Qed.
Lemma call_value_gradient_hessian_same L ps h n f s g s' :
  call_value_gradient_hessian comp ndg ndh adg adh L ps h n f s = (Ok g, s') -> same s s'.
Proof.
  unfold call_value_gradient_hessian. destruct (l_hess L) as [m|].
  - destruct (m ps (view s)); [|discriminate].
    destruct (value_gradient _ _ _ _ _ _ _ _ _) as [[vg|e] s1] eqn:E; [|discriminate].
    intros H. injection H as _ <-. now apply value_gradient_same in E.
  - unfold fallback_value_gradient_hessian. destruct n.
    + unfold numerical_value_gradient_hessian.
      destruct (numerical_value_gradient _ _ _ _ _) as [[vg|e] s1] eqn:E; [|discriminate].
      destruct (numerical_hessian _ _ _ _ _ _) as [[m|e] s2] eqn:E2; [|discriminate].
      intros H. injection H as _ <-. apply (same_trans _ s1).
      * now apply numerical_value_gradient_same in E.
      * now apply numerical_ok in E2.
    + intros H. apply pure_same in H. subst. apply same_refl.
Qed.
Lemma value_gradient_hessian_same L params h f n pv s g s' :
  value_gradient_hessian comp ndg ndh adg adh L params h f n pv s = (Ok g, s') -> same s s'.
Proof.
  unfold value_gradient_hessian. destruct (input_check_params _ _ _); [|discriminate].
  apply with_paramvals_same. intros *. apply call_value_gradient_hessian_same.
Qed.

(** At most the stored values of the given parameters change. *)
Lemma pure_frame {R} (f : list Q -> result R) ps s g s' : pure f s = (g, s') -> frame ps s s'.
Proof. intros H. apply pure_same in H. subst. apply frame_refl. Qed.
Lemma call_gradient_frame L ps n s g s' :
  call_gradient comp ndg adg L ps n s = (g, s') -> frame ps s s'.
Proof.
  unfold call_gradient, fallback_gradient. destruct (l_grad L); [apply pure_frame|].
  destruct n; [apply numerical_frame|apply pure_frame].
Qed.
Lemma numerical_value_gradient_frame func ps s g s' :
  numerical_value_gradient comp ndg func ps s = (g, s') -> frame ps s s'.
Proof.
  unfold numerical_value_gradient, numerical_gradient. destruct (func (view s)).
  - destruct (numerical _ _ _ _ _) as [[g0|e] s1] eqn:E; intros H; injection H as _ <-;
      now apply numerical_frame in E.
  - intros H. injection H as _ <-. apply frame_refl.
Qed.
Lemma call_value_gradient_frame L ps n f s g s' :
  call_value_gradient comp ndg adg L ps n f s = (g, s') -> frame ps s s'.
Proof.
  unfold call_value_gradient, fallback_value_gradient. destruct (l_grad L); [apply pure_frame|].
  destruct n; [apply numerical_value_gradient_frame|apply pure_frame].
Qed.
Lemma call_hessian_frame L ps h n s g s' :
  call_hessian comp ndh adh L ps h n s = (g, s') -> frame ps s s'.
Proof.
  unfold call_hessian, fallback_hessian. destruct (l_hess L); [apply pure_frame|].
  destruct n; [apply numerical_frame|apply pure_frame].
Qed.
Lemma with_nothing {R} (body : store -> result R * store) s : with_values [] body s = body s.
Proof. unfold with_values. cbn. now destruct (body s). Qed.
Lemma with_paramvals_nil {R} L (body : store -> result R * store) s : with_paramvals L [] body s = body s.
Proof. exact (with_nothing body s). Qed.
Lemma value_gradient_frame_nil L ps f n s g s' :
  value_gradient comp ndg adg L (Some ps) f n [] s = (g, s') -> frame ps s s'.
Proof.
  unfold value_gradient. destruct (input_check_params L (Some ps) false) as [ps'|e] eqn:E.
  - rewrite with_paramvals_nil. assert (ps' = ps) as ->.
    { unfold input_check_params in E. cbn [andb] in E.
      destruct (subsetb _ _ _); cbn in E; congruence. }
    apply call_value_gradient_frame.
  - intros H. injection H as _ <-. apply frame_refl.
Qed.
Lemma call_value_gradient_hessian_frame L ps h n f s g s' :
  call_value_gradient_hessian comp ndg ndh adg adh L ps h n f s = (g, s') -> frame ps s s'.
Proof.
  unfold call_value_gradient_hessian. destruct (l_hess L) as [m|].
  - destruct (m ps (view s)).
    + destruct (value_gradient _ _ _ _ _ _ _ _ _) as [[vg|e] s1] eqn:E; intros H;
        injection H as _ <-; now apply value_gradient_frame_nil in E.
    + intros H. injection H as _ <-. apply frame_refl.
  - unfold fallback_value_gradient_hessian. destruct n; [|apply pure_frame].
    unfold numerical_value_gradient_hessian.
    destruct (numerical_value_gradient _ _ _ _ _) as [[vg|e] s1] eqn:E.
    + apply numerical_value_gradient_frame in E.
      destruct (numerical_hessian _ _ _ _ _ _) as [[m|e] s2] eqn:E2; intros H; injection H as _ <-;
        apply numerical_frame in E2; eapply frame_trans; eassumption.
    + intros H. injection H as _ <-. now apply numerical_value_gradient_frame in E.
Qed.

(** Value, gradient and Hessian in one call are the results of the three calls. *)
Lemma numerical_Ok_ext {R} (nd : list Q -> strategy R) func ps s s1 :
  all_indep ps -> frame ps s s1 -> same s s1 ->
  fst (numerical comp nd func ps s1) = fst (numerical comp nd func ps s).
Proof.
  intros H F S. rewrite !numerical_answer by auto.
  assert (map (par_value comp s1) ps = map (par_value comp s) ps) as ->.
  { apply map_ext. intros p. unfold par_value. now rewrite (same_view _ _ S). }
  generalize (nd (map (par_value comp s) ps)). intros t.
  induction t as [r|x k IH]; cbn; [reflexivity|].
  rewrite <- (probe_frame func ps s s1 x H F). destruct (probe func ps s x); auto.
Qed.
Lemma numerical_all func h ps s v g m :
  all_indep ps ->
  (fst (numerical_value_gradient_hessian comp ndg ndh h func ps s) = Ok (v, g, m) <->
   func (view s) = Ok v /\ fst (numerical_gradient comp ndg func ps s) = Ok g
   /\ fst (numerical_hessian comp ndh h func ps s) = Ok m).
Proof.
  intros H. unfold numerical_value_gradient_hessian, numerical_value_gradient.
  destruct (func (view s)) as [v0|e]; [|cbn; split; [discriminate|intros [X _]; discriminate]].
  unfold numerical_gradient, numerical_hessian.
  destruct (numerical comp ndg func ps s) as [[g0|e] s1] eqn:E;
    [|cbn; split; [discriminate|intros (_ & X & _); discriminate]].
  pose proof (numerical_ok _ _ _ _ _ _ _ E) as (_ & S & F).
  pose proof (numerical_Ok_ext (ndh h) func ps s s1 H F S) as X. rewrite <- X.
  destruct (numerical comp (ndh h) func ps s1) as [[m0|e] s2]; cbn.
  - split.
    + intros Y. injection Y as <- <- <-. auto.
    + intros (A & B & C). congruence.
  - split; [discriminate|intros (_ & _ & Y); discriminate].
Qed.
End Methods.
