(** Proofs about functions and their values (C81). *)
From Verif Require Import Base BaseLemmas Ops_Model Ops_Spec.
From Coq Require Import QArith Lia Permutation.
#[local] Open Scope string_scope.
#[local] Open Scope list_scope.

Section Ind.
Variable P : fn -> Prop.
Hypothesis HS : forall o ps b, P (Simple o ps b).
Hypothesis HV : forall o ps p f, P f -> P (Via o ps p f).
Hypothesis HA : forall fs, Forall P fs -> P (SumFunc fs).
Hypothesis HM : forall fs, Forall P fs -> P (ProdFunc fs).
Fixpoint fn_ind' (f : fn) : P f :=
  let all := fix all (l : list fn) : Forall P l := match l with [] => Forall_nil _ | a :: r => Forall_cons _ (fn_ind' a) (all r) end in
  match f with
  | Simple o ps b => HS o ps b
  | Via o ps p f => HV o ps p f (fn_ind' f)
  | SumFunc fs => HA fs (all fs)
  | ProdFunc fs => HM fs (all fs)
  end.
End Ind.

(** ** Observables *)
Definition mem_ok := mem_In String.eqb string_eqb_ok.
Lemma add_new_app l : forall s r, add_new s (l ++ r) = add_new (add_new s l) r.
Proof. induction l as [|o l IH]; intros s r; [reflexivity|]. cbn. apply IH. Qed.
Lemma add_new_snoc s l o : add_new s (l ++ [o]) = if mem String.eqb o (add_new s l) then add_new s l else add_new s l ++ [o].
Proof. rewrite add_new_app. reflexivity. Qed.
Lemma add_new_In l : forall s o, In o (add_new s l) <-> In o s \/ In o l.
Proof.
  induction l as [|a l IH]; intros s o; [cbn; tauto|]. cbn [add_new]. rewrite IH. destruct (mem String.eqb a s) eqn:M.
  - apply mem_ok in M. cbn. split; [tauto|]. intros [H|[->|H]]; auto.
  - rewrite in_app_iff. cbn. tauto.
Qed.
Lemma add_new_NoDup l : forall s, NoDup s -> NoDup (add_new s l).
Proof.
  induction l as [|a l IH]; intros s N; [exact N|]. cbn [add_new]. apply IH. destruct (mem String.eqb a s) eqn:M; [exact N|].
  apply (Permutation_NoDup (Permutation_cons_append _ a)). constructor; [|exact N]. intros I. apply mem_ok in I. congruence.
Qed.
Lemma add_new_twice l : forall s, add_new s (add_new [] l) = add_new s l.
Proof.
  induction l as [|o l IH] using rev_ind; intros s; [reflexivity|]. rewrite !add_new_snoc. destruct (mem String.eqb o (add_new [] l)) eqn:M.
  - rewrite IH. apply mem_ok in M. apply add_new_In in M. destruct M as [[]|M].
    assert (M' : mem String.eqb o (add_new s l) = true) by (apply mem_ok, add_new_In; auto). rewrite M'. reflexivity.
  - rewrite add_new_snoc, IH. reflexivity.
Qed.
Lemma add_new_fix l : NoDup l -> add_new [] l = l.
Proof.
  induction l as [|o l IH] using rev_ind; intros N; [reflexivity|]. rewrite add_new_snoc. apply (Permutation_NoDup (Permutation_sym (Permutation_cons_append _ o))) in N.
  inversion N as [|? ? N1 N2]; subst. rewrite IH by exact N2. destruct (mem String.eqb o l) eqn:M; [|reflexivity]. apply mem_ok in M. contradiction.
Qed.
Lemma add_new_firsts l : firsts (add_new [] l) l.
Proof.
  split; [apply add_new_NoDup; constructor|]. split; [intros o; rewrite add_new_In; cbn; tauto|].
  induction l as [|o l IH] using rev_ind; intros i j a b A B L; [destruct i; discriminate|]. rewrite add_new_snoc in A, B.
  assert (lift : forall i j a b, nth_error (add_new [] l) i = Some a -> nth_error (add_new [] l) j = Some b -> (i < j)%nat ->
    exists i' j', nth_error (l ++ [o]) i' = Some a /\ nth_error (l ++ [o]) j' = Some b /\ (i' < j')%nat /\ forall k, (k < j')%nat -> nth_error (l ++ [o]) k <> Some b).
  { clear - IH. intros i j a b A B L. destruct (IH i j a b A B L) as (i'&j'&A'&B'&L'&F). exists i', j'.
    assert (J : (j' < length l)%nat) by (apply nth_error_Some; congruence).
    rewrite !nth_error_app1 by lia. repeat split; try assumption. intros k K. rewrite nth_error_app1 by lia. apply F. exact K. }
  destruct (mem String.eqb o (add_new [] l)) eqn:M; [apply (lift i j); assumption|].
  destruct (Nat.lt_ge_cases j (length (add_new [] l))) as [J|J].
  - rewrite nth_error_app1 in A, B by lia. apply (lift i j); assumption.
  - assert (J' : j = length (add_new [] l)). { assert (j < length (add_new [] l ++ [o]))%nat by (apply nth_error_Some; congruence). rewrite app_length in H. cbn in H. lia. }
    rewrite nth_error_app2 in B by lia. rewrite J', Nat.sub_diag in B. injection B as <-. rewrite nth_error_app1 in A by lia.
    assert (IA : In a l) by (apply nth_error_In in A; apply add_new_In in A; destruct A as [[]|A]; exact A). apply In_nth_error in IA. destruct IA as [i' IA].
    assert (LI : (i' < length l)%nat) by (apply nth_error_Some; congruence).
    exists i', (length l). rewrite nth_error_app1 by exact LI. split; [exact IA|]. rewrite nth_error_app2, Nat.sub_diag by lia. split; [reflexivity|]. split; [exact LI|].
    intros k K E. rewrite nth_error_app1 in E by exact K. apply nth_error_In in E. assert (mem String.eqb o (add_new [] l) = true) by (apply mem_ok, add_new_In; auto). congruence.
Qed.

(** ** Values *)
Definition covers (x : event) (obs : list string) : Prop := incl obs (map fst x).
Lemma mapM_oks {A B} (f : A -> result B) (g : A -> B) l : (forall a, In a l -> f a = Ok (g a)) -> mapM f l = Ok (map g l).
Proof. induction l as [|a l IH]; intros H; [reflexivity|]. cbn. rewrite H by (left; reflexivity). cbn. rewrite IH by (intros; apply H; right; assumption). reflexivity. Qed.
Lemma sort_ok obs x : covers x obs -> sort_x obs x = Ok (map (fun o => (o, column x o)) obs).
Proof.
  intros C. apply mapM_oks. intros o I. unfold column. destruct (lookup String.eqb o x) eqn:L; [reflexivity|]. apply (lookup_none String.eqb string_eqb_ok) in L. exfalso. apply L, C, I.
Qed.
Lemma column_sorted obs x o : In o obs -> column (map (fun o => (o, column x o)) obs) o = column x o.
Proof.
  induction obs as [|a obs IH]; intros I; [destruct I|]. unfold column at 1. cbn. destruct (String.eqb o a) eqn:E.
  - apply String.eqb_eq in E. subst. reflexivity.
  - destruct I as [->|I]; [rewrite String.eqb_refl in E; discriminate|]. apply IH in I. unfold column at 1 in I. exact I.
Qed.
Fixpoint wf (f : fn) : Prop :=
  match f with
  | Simple _ _ _ => True
  | Via o _ _ f => o = fn_obs f /\ wf f
  | SumFunc fs | ProdFunc fs => fold_right and True (map wf fs)
  end.
Fixpoint fmean (f : fn) (s : store) (x : event) : Q :=
  match f with
  | Simple obs _ body => body s (map (column x) obs)
  | Via _ _ p f => match p with Some p => p_val p s * fmean f s x | None => fmean f s x end
  | SumFunc fs => sumQ (map (fun f => fmean f s x) fs)
  | ProdFunc fs => prodQ (map (fun f => fmean f s x) fs)
  end%Q.
Lemma all_wf fs : fold_right and True (map wf fs) -> forall f, In f fs -> wf f.
Proof. induction fs as [|a fs IH]; intros H f I; [destruct I|]. destruct H as [H1 H2]. destruct I as [<-|I]; auto. Qed.
Lemma child_obs fs f o : In f fs -> In o (fn_obs f) -> In o (add_new [] (concat (map fn_obs fs))).
Proof. intros I O. apply add_new_In. right. apply in_concat. exists (fn_obs f). split; [apply in_map, I|exact O]. Qed.
Lemma fmean_ext f : wf f -> forall s x y, (forall o, In o (fn_obs f) -> column x o = column y o) -> fmean f s x = fmean f s y.
Proof.
  induction f as [o ps b|o ps p f IH|fs IH|fs IH] using fn_ind'; intros W s x y E.
  - cbn. f_equal. apply map_ext_in. exact E.
  - destruct W as [-> W]. cbn in *. rewrite (IH W s x y E). reflexivity.
  - cbn in *. f_equal. apply map_ext_in. intros f I. rewrite Forall_forall in IH. apply (IH f I (all_wf fs W f I)). intros o O. apply E. apply (child_obs fs f o I O).
  - cbn in *. f_equal. apply map_ext_in. intros f I. rewrite Forall_forall in IH. apply (IH f I (all_wf fs W f I)). intros o O. apply E. apply (child_obs fs f o I O).
Qed.
Lemma covers_sorted obs x r : incl r obs -> covers (map (fun o => (o, column x o)) obs) r.
Proof. intros I o O. rewrite map_map. cbn. rewrite map_id. apply I, O. Qed.
Lemma value_ok f : wf f -> forall s x, covers x (fn_obs f) -> value f s x = Ok (fmean f s x).
Proof.
  induction f as [o ps b|o ps p f IH|fs IH|fs IH] using fn_ind'; intros W s x C.
  - cbn. rewrite sort_ok by exact C. cbn. rewrite map_map. reflexivity.
  - destruct W as [-> W]. cbn [value fn_obs] in *. rewrite sort_ok by exact C. cbn [bind]. rewrite (IH W) by (apply covers_sorted, incl_refl). cbn [bind fmean].
    rewrite (fmean_ext f W s (map (fun o => (o, column x o)) (fn_obs f)) x) by (intros; apply column_sorted; assumption). reflexivity.
  - cbn [value fn_obs wf] in *. rewrite sort_ok by exact C. cbn [bind].
    rewrite (mapM_oks _ (fun f => fmean f s x)); [reflexivity|]. intros f I. rewrite Forall_forall in IH. assert (Wf := all_wf fs W f I).
    rewrite (IH f I Wf) by (apply covers_sorted; intros o O; apply (child_obs fs f o I O)). f_equal. apply fmean_ext; [exact Wf|]. intros o O. apply column_sorted. apply (child_obs fs f o I O).
  - cbn [value fn_obs wf] in *. rewrite sort_ok by exact C. cbn [bind].
    rewrite (mapM_oks _ (fun f => fmean f s x)); [reflexivity|]. intros f I. rewrite Forall_forall in IH. assert (Wf := all_wf fs W f I).
    rewrite (IH f I Wf) by (apply covers_sorted; intros o O; apply (child_obs fs f o I O)). f_equal. apply fmean_ext; [exact Wf|]. intros o O. apply column_sorted. apply (child_obs fs f o I O).
Qed.

(** ** Building *)
Record inv (now : store) (e : expr) (f : fn) : Prop := {
  i_wf : wf f;
  i_fun : has_function e = true;
  i_obs : fn_obs f = add_new [] (concat (map obs_of (operands e)));
  i_val : forall s x, (s = now \/ lively e = true) -> (fmean f s x == meaning s x e)%Q }.
Definition inv_obj (now : store) (e : expr) (o : obj) : Prop :=
  match o with
  | OFn f => inv now e f
  | OPar p => e = EObj (OPar p)
  | ONum q => has_function e = false /\ concat (map obs_of (operands e)) = [] /\ forall s x, (s = now \/ lively e = true) -> (q == meaning s x e)%Q
  | OPdf _ => False
  end.
Lemma mult_inv p f g : multiply_param_func p f = Ok g -> g = Via (fn_obs f) (update [(p_name p, p)] (fn_params f)) (Some p) f.
Proof. unfold multiply_param_func. destruct (check_kwargs _); [|discriminate]. cbn. intros [= <-]. reflexivity. Qed.
Lemma obs_add a b : concat (map obs_of (operands (EAdd a b))) = concat (map obs_of (operands a)) ++ concat (map obs_of (operands b)).
Proof. cbn [operands]. rewrite map_app, concat_app. reflexivity. Qed.
Lemma obs_mul a b : concat (map obs_of (operands (EMul a b))) = concat (map obs_of (operands a)) ++ concat (map obs_of (operands b)).
Proof. apply obs_add. Qed.
Lemma both_obs f g a b : fn_obs f = add_new [] a -> fn_obs g = add_new [] b -> add_new [] (concat (map fn_obs [f; g])) = add_new [] (a ++ b).
Proof. intros F G. cbn. rewrite F, G, app_nil_r. rewrite !add_new_app, !add_new_twice. reflexivity. Qed.

Lemma build_inv now e : forall o, Forall well_made (operands e) -> build now e = Ok o -> inv_obj now e o.
Proof.
  induction e as [o0|a IHa b IHb|a IHa b IHb]; intros o W B.
  - cbn in B. injection B as <-. inversion W as [|? ? W1 _]; subst. destruct o0 as [[obs ps body| | |]|p|q|d]; cbn in W1; try contradiction.
    + constructor; [exact I|reflexivity| |intros; reflexivity]. cbn. rewrite app_nil_r. symmetry. apply add_new_fix. tauto.
    + reflexivity.
    + split; [reflexivity|]. split; [reflexivity|]. intros; reflexivity.
  - cbn [operands] in W. apply Forall_app in W. destruct W as [Wa Wb]. cbn [build] in B. destruct (build now a) as [x|] eqn:Ba; [|discriminate]. destruct (build now b) as [y|] eqn:Bb; [|discriminate].
    cbn [bind] in B. specialize (IHa x Wa eq_refl). specialize (IHb y Wb eq_refl).
    assert (LV : forall s, s = now \/ lively (EAdd a b) = true -> (s = now \/ lively a = true) /\ (s = now \/ lively b = true)).
    { intros s [L|L]; [auto|]. cbn in L. rewrite !Bool.andb_true_iff in L. tauto. }
    destruct x as [f|p|q|d], y as [g|p'|q'|d']; cbn in B; try discriminate; cbn in IHa, IHb; try contradiction; injection B as <-; cbn [inv_obj].
    + destruct IHa as [a1 a2 a3 a4], IHb as [b1 b2 b3 b4]. constructor; [cbn; auto|cbn; rewrite a2; reflexivity| |].
      * rewrite obs_add. exact (both_obs f g _ _ a3 b3).
      * intros s x L. destruct (LV s L) as [La Lb]. cbn. rewrite (a4 s x La), (b4 s x Lb). ring.
    + subst. split; [reflexivity|]. split; [reflexivity|]. intros s x [->|L]; [reflexivity|cbn in L; discriminate].
    + subst. destruct IHb as (b1&b2&b3). split; [cbn; rewrite b1; reflexivity|]. split; [rewrite obs_add, b2; reflexivity|]. intros s x [->|L]; [cbn; rewrite <- (b3 now x) by auto; reflexivity|].
      cbn in L. rewrite b1 in L. rewrite !Bool.andb_true_iff in L. destruct L as [_ L]. discriminate.
    + subst. destruct IHa as (b1&b2&b3). split; [cbn; rewrite b1; reflexivity|]. split; [rewrite obs_add, b2; reflexivity|]. intros s x [->|L]; [cbn; rewrite <- (b3 now x) by auto; reflexivity|].
      cbn in L. rewrite b1 in L. rewrite !Bool.andb_true_iff in L. destruct L as [_ L]. rewrite Bool.orb_true_r in L. discriminate.
    + destruct IHa as (a1&a2&a3), IHb as (b1&b2&b3). split; [cbn; rewrite a1, b1; reflexivity|]. split; [rewrite obs_add, a2, b2; reflexivity|].
      intros s x L. destruct (LV s L) as [La Lb]. cbn. rewrite <- (a3 s x La), <- (b3 s x Lb). reflexivity.
  - cbn [operands] in W. apply Forall_app in W. destruct W as [Wa Wb]. cbn [build] in B. destruct (build now a) as [x|] eqn:Ba; [|discriminate]. destruct (build now b) as [y|] eqn:Bb; [|discriminate].
    cbn [bind] in B. specialize (IHa x Wa eq_refl). specialize (IHb y Wb eq_refl).
    assert (LV : forall s, s = now \/ lively (EMul a b) = true -> (s = now \/ lively a = true) /\ (s = now \/ lively b = true)).
    { intros s [L|L]; [auto|]. cbn in L. rewrite !Bool.andb_true_iff in L. tauto. }
    destruct x as [f|p|q|d], y as [g|p'|q'|d']; cbn [op_mul] in B; try discriminate; cbn in IHa, IHb; try contradiction.
    + injection B as <-. cbn [inv_obj]. destruct IHa as [a1 a2 a3 a4], IHb as [b1 b2 b3 b4]. constructor; [cbn; auto|cbn; rewrite a2; reflexivity| |].
      * rewrite obs_mul. exact (both_obs f g _ _ a3 b3).
      * intros s x L. destruct (LV s L) as [La Lb]. cbn. rewrite (a4 s x La), (b4 s x Lb). ring.
    + destruct (multiply_param_func p' f) eqn:M; [|discriminate]. cbn [bind] in B. injection B as <-. apply mult_inv in M. subst. destruct IHa as [a1 a2 a3 a4].
      constructor; [cbn; auto|cbn; rewrite a2; reflexivity|cbn [fn_obs]; rewrite obs_mul; cbn; rewrite app_nil_r; exact a3|].
      intros s x L. destruct (LV s L) as [La Lb]. cbn. rewrite (a4 s x La). ring.
    + destruct (multiply_param_func (const_param q') f) eqn:M; [|discriminate]. cbn [bind] in B. injection B as <-. apply mult_inv in M. subst. destruct IHa as [a1 a2 a3 a4], IHb as (b1&b2&b3).
      constructor; [cbn; auto|cbn; rewrite a2; reflexivity|cbn [fn_obs]; rewrite obs_mul, b2, app_nil_r; exact a3|].
      intros s x L. destruct (LV s L) as [La Lb]. cbn. rewrite (a4 s x La), <- (b3 s x Lb). ring.
    + destruct (multiply_param_func p g) eqn:M; [|discriminate]. cbn [bind] in B. injection B as <-. apply mult_inv in M. subst. destruct IHb as [a1 a2 a3 a4].
      constructor; [cbn; auto|cbn; rewrite a2; reflexivity|cbn [fn_obs]; rewrite obs_mul; cbn; exact a3|].
      intros s x L. destruct (LV s L) as [La Lb]. cbn. rewrite (a4 s x Lb). ring.
    + injection B as <-. subst. split; [reflexivity|]. split; [reflexivity|]. intros s x [->|L]; [reflexivity|cbn in L; discriminate].
    + injection B as <-. subst. destruct IHb as (b1&b2&b3). split; [cbn; rewrite b1; reflexivity|]. split; [rewrite obs_mul, b2; reflexivity|]. intros s x [->|L]; [cbn; rewrite <- (b3 now x) by auto; reflexivity|].
      cbn in L. rewrite b1 in L. rewrite !Bool.andb_true_iff in L. destruct L as [_ L]. discriminate.
    + destruct (multiply_param_func (const_param q) g) eqn:M; [|discriminate]. cbn [bind] in B. injection B as <-. apply mult_inv in M. subst. destruct IHb as [a1 a2 a3 a4], IHa as (b1&b2&b3).
      constructor; [cbn; auto|cbn; rewrite a2, b1; reflexivity|cbn [fn_obs]; rewrite obs_mul, b2; exact a3|].
      intros s x L. destruct (LV s L) as [La Lb]. cbn. rewrite (a4 s x Lb), <- (b3 s x La). ring.
    + injection B as <-. subst. destruct IHa as (b1&b2&b3). split; [cbn; rewrite b1; reflexivity|]. split; [rewrite obs_mul, b2; reflexivity|]. intros s x [->|L]; [cbn; rewrite <- (b3 now x) by auto; reflexivity|].
      cbn in L. rewrite b1 in L. rewrite !Bool.andb_true_iff in L. destruct L as [_ L]. rewrite Bool.orb_true_r in L. discriminate.
    + injection B as <-. destruct IHa as (a1&a2&a3), IHb as (b1&b2&b3). split; [cbn; rewrite a1, b1; reflexivity|]. split; [rewrite obs_mul, a2, b2; reflexivity|].
      intros s x L. destruct (LV s L) as [La Lb]. cbn. rewrite <- (a3 s x La), <- (b3 s x Lb). reflexivity.
Qed.
