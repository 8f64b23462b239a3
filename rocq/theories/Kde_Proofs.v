(** Proofs for Kde_Theorems.v: the mixture of kernels. *)
From Verif Require Import Base BaseLemmas Hist_Model Hist_Spec Hist_Proofs Hist_Proofs3 Hist_Proofs5 Conv_Model Kde_Model Kde_Spec.
From Coq Require Import Qabs Lqa Permutation.
#[local] Open Scope nat_scope.

Lemma qsum_map_div {A} (f : A -> Q) s l : (qsum (map (fun a => f a / s) l) == qsum (map f l) / s)%Q.
Proof. induction l as [|x l IH]; [cbn; unfold Qdiv; ring|]. cbn [map]. rewrite !qsum_cons, IH. unfold Qdiv. ring. Qed.
Lemma qsum_map_mul {A} (f : A -> Q) c l : (qsum (map (fun a => c * f a) l) == c * qsum (map f l))%Q.
Proof. induction l as [|x l IH]; [cbn; ring|]. cbn [map]. rewrite !qsum_cons, IH. ring. Qed.
Lemma qsum_map_add {A} (f g : A -> Q) l : (qsum (map (fun a => f a + g a) l) == qsum (map f l) + qsum (map g l))%Q.
Proof. induction l as [|x l IH]; [cbn; ring|]. cbn [map]. rewrite !qsum_cons, IH. ring. Qed.
Lemma qsum_perm a b : Permutation a b -> (qsum a == qsum b)%Q.
Proof. induction 1; rewrite ?qsum_cons; [reflexivity|rewrite IHPermutation; ring|ring|etransitivity; eassumption]. Qed.
Lemma qsum_F2 a b : Forall2 Qeq a b -> (qsum a == qsum b)%Q.
Proof. induction 1; [reflexivity|]. rewrite !qsum_cons, H, IHForall2. reflexivity. Qed.

Definition triples (xs hs ws : list Q) : list (event * Q) := combine (combine xs ws) hs.

(** The sum over the components with the probabilities *)
Lemma mixture_sum xs : forall hs ps ws f s, length hs = length xs -> length ws = length xs ->
  Forall2 Qeq ps (map (fun w => w / s)%Q ws) ->
  (qsum (map (fun e => snd e * f (fst (fst e)) (snd (fst e))) (combine (combine xs hs) ps))
   == qsum (map (fun e => snd (fst e) * f (fst (fst e)) (snd e)) (triples xs hs ws)) / s)%Q.
Proof.
  unfold triples. induction xs as [|x xs IH]; intros hs ps ws f s Lh Lw F; destruct hs as [|h hs]; try discriminate Lh;
    destruct ws as [|w ws]; try discriminate Lw.
  - cbn. unfold Qdiv. ring.
  - cbn [map] in F. inversion F as [|p q ps' r E F']; subst. cbn [combine map fst snd]. rewrite !qsum_cons.
    rewrite (IH hs ps' ws f s) by (first [injection Lh; auto|injection Lw; auto|exact F']). cbn [fst snd]. rewrite E.
    unfold Qdiv. ring.
Qed.
Lemma combine_fst2 {A B} (a : list A) : forall (b : list B), length b = length a -> map fst (combine a b) = a.
Proof. induction a as [|x a IH]; intros [|y b] L; try discriminate; [reflexivity|]. cbn. f_equal. apply IH. injection L; auto. Qed.
Lemma combine_snd2 {A B} (a : list A) : forall (b : list B), length b = length a -> map snd (combine a b) = b.
Proof. induction a as [|x a IH]; intros [|y b] L; try discriminate; [reflexivity|]. cbn. f_equal. apply IH. injection L; auto. Qed.

Lemma mixture_local K xs hs ps ws t : length hs = length xs -> length ws = length xs ->
  ~ (qsum ws == 0)%Q -> Forall2 Qeq ps (map (fun w => w / qsum ws)%Q ws) ->
  (mixture K (Kde xs hs ps) t == local_estimate K (triples xs hs ws) t)%Q.
Proof.
  intros Lh Lw NZ F. unfold mixture, local_estimate, weight_of. cbn [k_locs k_scales k_probs].
  assert (T : (qsum ps == 1)%Q).
  { rewrite (qsum_F2 _ _ F), (qsum_map_div (fun w => w)), map_id. field. exact NZ. }
  assert (W : map snd (map fst (triples xs hs ws)) = ws).
  { unfold triples. rewrite combine_fst2; [apply combine_snd2; exact Lw|].
    change (length hs = @length (Q * Q) (combine xs ws)). rewrite combine_length. lia. }
  rewrite W. rewrite <- (mixture_sum xs hs ps ws (fun x h => K x h t) (qsum ws) Lh Lw F).
  apply qsum_ext. intros e _. rewrite T. field.
Qed.
Lemma triples_global xs h ws : length ws = length xs ->
  triples xs (repeat h (length xs)) ws = map (fun e => (e, h)) (combine xs ws).
Proof.
  unfold triples. revert ws. induction xs as [|x xs IH]; intros [|w ws] L; try discriminate; [reflexivity|]. cbn. f_equal.
  apply IH. injection L; auto.
Qed.
Lemma local_global K h evs t : (local_estimate K (map (fun e => (e, h)) evs) t == estimate K h evs t)%Q.
Proof. unfold local_estimate, estimate, average, weight_of. rewrite !map_map. cbn [fst snd]. reflexivity. Qed.

(** The weights as a list *)
Lemma with_weights_wts xs weights : with_weights xs weights = combine xs (wts xs weights).
Proof.
  destruct weights as [w|]; [reflexivity|]. cbn. induction xs as [|x xs IH]; [reflexivity|]. cbn. f_equal. exact IH.
Qed.
Lemma wts_length xs weights : (forall w, weights = Some w -> length w = length xs) -> length (wts xs weights) = length xs.
Proof. destruct weights as [w|]; intros H; [apply H; reflexivity|apply map_length]. Qed.
Lemma weight_of_wts xs weights : (forall w, weights = Some w -> length w = length xs) ->
  weight_of (with_weights xs weights) = qsum (wts xs weights).
Proof. intros H. unfold weight_of. rewrite with_weights_wts, combine_snd2; [reflexivity|apply wts_length, H]. Qed.
Lemma qsum_ones {A} (xs : list A) : (qsum (map (fun _ => 1%Q) xs) == nat_q (length xs))%Q.
Proof.
  induction xs as [|x xs IH]; [reflexivity|]. cbn [map length]. rewrite qsum_cons, IH. unfold nat_q.
  rewrite Nat2Z.inj_succ. unfold Z.succ. rewrite inject_Z_plus. ring.
Qed.
Lemma probs_weights xs weights :
  Forall2 Qeq (calc_kernel_probs (length xs) weights) (map (fun w => w / qsum (wts xs weights))%Q (wts xs weights)).
Proof.
  destruct weights as [w|]; cbn [calc_kernel_probs wts].
  - set (l := map _ w). clearbody l. induction l; constructor; [reflexivity|assumption].
  - rewrite map_map. assert (G : forall n (l : list Q), length l = n -> Forall2 Qeq (repeat (1 / nat_q (length xs))%Q n)
      (map (fun _ => 1 / qsum (map (fun _ => 1) xs))%Q l)).
    { induction n as [|n IH]; intros [|y l] L; try discriminate; constructor; [|apply IH; injection L; auto].
      rewrite qsum_ones. reflexivity. }
    apply G. reflexivity.
Qed.
Lemma probs_length (xs : list Q) weights : (forall w, weights = Some w -> length w = length xs) ->
  length (calc_kernel_probs (length xs) weights) = length xs.
Proof. intros H. destruct weights as [w|]; cbn; [rewrite map_length; apply H; reflexivity|apply repeat_length]. Qed.

Lemma exact_global (K : dist) xs weights h : usable xs weights ->
  make_mixture xs (Global h) (calc_kernel_probs (length xs) weights) = Ok (Kde xs (repeat h (length xs)) (calc_kernel_probs (length xs) weights)) /\
  forall K' t, (mixture K' (Kde xs (repeat h (length xs)) (calc_kernel_probs (length xs) weights)) t == estimate K' h (with_weights xs weights) t)%Q.
Proof.
  clear K. intros [L NZ]. split.
  - unfold make_mixture. cbn. rewrite probs_length by exact L. rewrite Nat.eqb_refl. reflexivity.
  - intros K' t. rewrite weight_of_wts in NZ by exact L.
    rewrite (mixture_local K' xs _ _ (wts xs weights) t); [|apply repeat_length|apply wts_length, L|exact NZ|apply probs_weights].
    rewrite triples_global by (apply wts_length, L). rewrite local_global, <- with_weights_wts. reflexivity.
Qed.
Lemma exact_local xs weights hs : usable xs weights -> length hs = length xs ->
  exists d, make_mixture xs (Local hs) (calc_kernel_probs (length xs) weights) = Ok d /\
  forall K t, (mixture K d t == local_estimate K (combine (with_weights xs weights) hs) t)%Q.
Proof.
  intros [L NZ] Lh. rewrite weight_of_wts in NZ by exact L.
  assert (E : exists s, make_mixture xs (Local hs) (calc_kernel_probs (length xs) weights)
                = Ok (Kde xs s (calc_kernel_probs (length xs) weights)) /\ s = hs).
  { unfold make_mixture, broadcast_scale. destruct hs as [|h [|h2 hs]].
    - rewrite Lh, Nat.eqb_refl. cbn [bind]. rewrite probs_length by exact L. rewrite Nat.eqb_refl. eexists. split; reflexivity.
    - cbn [bind]. rewrite probs_length by exact L. rewrite Nat.eqb_refl. eexists. split; [reflexivity|]. rewrite <- Lh. reflexivity.
    - rewrite Lh, Nat.eqb_refl. cbn [bind]. rewrite probs_length by exact L. rewrite Nat.eqb_refl. eexists. split; reflexivity. }
  destruct E as [s [E ->]]. exists (Kde xs hs (calc_kernel_probs (length xs) weights)). split; [exact E|]. intros K t.
  rewrite (mixture_local K xs _ _ (wts xs weights) t); [|exact Lh|apply wts_length, L|exact NZ|apply probs_weights].
  unfold triples. rewrite <- with_weights_wts. reflexivity.
Qed.

(** ** Consequences for the estimate *)
Lemma average_perm f a b : Permutation a b -> (average f a == average f b)%Q.
Proof.
  intros P. unfold average, weight_of. rewrite (qsum_perm _ _ (Permutation_map snd P)).
  rewrite (qsum_perm _ _ (Permutation_map (fun e => snd e * f (fst e))%Q P)). reflexivity.
Qed.
Lemma average_ext f g evs : (forall e, In e evs -> f (fst e) == g (fst e))%Q -> (average f evs == average g evs)%Q.
Proof.
  intros H. unfold average. assert (E : (qsum (map (fun e => snd e * f (fst e)) evs) == qsum (map (fun e => snd e * g (fst e)) evs))%Q).
  { apply qsum_ext. intros e I. rewrite (H e I). reflexivity. }
  rewrite E. reflexivity.
Qed.
Lemma average_scaled f c evs : ~ (c == 0)%Q -> ~ (weight_of evs == 0)%Q ->
  (average f (map (fun e => (fst e, c * snd e)) evs) == average f evs)%Q.
Proof.
  intros C W. unfold average, weight_of in *. rewrite !map_map. cbn [fst snd].
  assert (A : (qsum (map (fun e : Q * Q => c * snd e * f (fst e)) evs) == c * qsum (map (fun e => snd e * f (fst e)) evs))%Q).
  { rewrite <- qsum_map_mul. apply qsum_ext. intros e _. ring. }
  rewrite A, qsum_map_mul. field. split; assumption.
Qed.
Lemma sum_copies (f : Q -> Q) k (e : event) : (qsum (map (fun e => snd e * f (fst e)) (repeat e k)) == nat_q k * (snd e * f (fst e)))%Q.
Proof.
  induction k as [|k IH]; [cbn; unfold nat_q; cbn; ring|]. cbn [repeat map]. rewrite qsum_cons, IH. unfold nat_q. rewrite Nat2Z.inj_succ.
  unfold Z.succ. rewrite inject_Z_plus. ring.
Qed.
Lemma sum_all_copies (f : Q -> Q) (counts : list (Q * nat)) :
  (qsum (map (fun e => snd e * f (fst e)) (map (fun x => (x, 1)) (concat (map (fun c => repeat (fst c) (snd c)) counts))))
   == qsum (map (fun e => snd e * f (fst e)) (map (fun c => (fst c, nat_q (snd c))) counts)))%Q.
Proof.
  induction counts as [|[x k] cs IH]; [reflexivity|]. cbn [map concat fst snd]. rewrite map_app, map_app, qsum_app, IH, qsum_cons.
  assert (R : map (fun x => (x, 1%Q)) (repeat x k) = repeat (x, 1%Q) k) by (clear; induction k; cbn; congruence).
  rewrite R, sum_copies. cbn [fst snd]. ring.
Qed.
Lemma qsum_nonneg l : (forall x, In x l -> 0 <= x)%Q -> (0 <= qsum l)%Q.
Proof. induction l as [|x l IH]; intros H; [cbn; lra|]. rewrite qsum_cons. specialize (IH (fun y I => H y (or_intror I))). specialize (H x (or_introl eq_refl)). lra. Qed.
Lemma average_nonneg f evs : (forall e, In e evs -> 0 <= snd e)%Q -> (forall e, In e evs -> 0 <= f (fst e))%Q -> (0 <= average f evs)%Q.
Proof.
  intros W F. unfold average. assert (A : (0 <= qsum (map (fun e => snd e * f (fst e)) evs))%Q).
  { apply qsum_nonneg. intros x I. apply in_map_iff in I. destruct I as [e [<- I]]. specialize (W e I). specialize (F e I).
    apply Qmult_le_0_compat; assumption. }
  assert (B : (0 <= weight_of evs)%Q).
  { apply qsum_nonneg. intros x I. apply in_map_iff in I. destruct I as [e [<- I]]. apply W, I. }
  unfold Qdiv. apply Qmult_le_0_compat; [exact A|]. apply Qinv_le_0_compat. exact B.
Qed.
Lemma linear_zero (J : (Q -> Q) -> Q) : linear_functional J -> (J (fun _ => 0) == 0)%Q.
Proof.
  intros [E [A M]]. assert (H := M 0%Q (fun _ => 0%Q)). rewrite (E (fun x => 0 * 0)%Q (fun _ => 0%Q)) in H; [|intros; ring].
  rewrite H. ring.
Qed.
Lemma linear_sum J (K : dist) h evs : linear_functional J ->
  (J (fun t => qsum (map (fun e => snd e * K (fst e) h t) evs)) == qsum (map (fun e => snd e * J (K (fst e) h)) evs))%Q.
Proof.
  intros L. pose proof L as [E [A M]]. induction evs as [|e evs IH]; [apply (linear_zero J L)|].
  cbn [map]. rewrite qsum_cons, <- IH, <- M, <- A. apply E. intros t. rewrite qsum_cons. reflexivity.
Qed.
Lemma linear_estimate J K h evs : linear_functional J -> ~ (weight_of evs == 0)%Q -> (forall e, In e evs -> J (K (fst e) h) == 1)%Q ->
  (J (estimate K h evs) == 1)%Q.
Proof.
  intros L NZ H. pose proof L as [E [A M]].
  rewrite (E (estimate K h evs) (fun t => / weight_of evs * qsum (map (fun e => snd e * K (fst e) h t) evs))%Q).
  2:{ intros t. unfold estimate, average, Qdiv. ring. }
  rewrite M, (linear_sum J K h evs L).
  assert (S : (qsum (map (fun e => snd e * J (K (fst e) h)) evs) == weight_of evs)%Q).
  { unfold weight_of. apply qsum_ext. intros e I. rewrite (H e I). ring. }
  rewrite S. field. exact NZ.
Qed.
