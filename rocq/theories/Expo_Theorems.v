(** * C72: the exponential PDF does not depend on its numerical shift

    Whatever was called before, with whatever values of lambda and whatever errors, the normalised values are those of the documentation. What is not normalised
    is exp(lambda x) as long as no call failed; after an error it is not (refuted). lambda = 0 gives NaN (refuted). *)
From Coq Require Import Reals Lra.
From Coquelicot Require Import Coquelicot.
From Verif Require Import Base Expo_Model Expo_Spec Expo_Proofs.
Import ListNotations.
#[local] Open Scope R_scope.

(** ** Normalised values, after every history of calls *)
Theorem C72_pdf finite history lam l xs vs s :
  lam <> 0 -> proper l -> pdf finite lam (Some l) xs (after finite history init) = (Ok vs, s) ->
  exists I, is_integral_over (expo lam) l I /\ 0 < I /\ vs = map (fun x => Some (expo lam x / I)) xs.
Proof.
  intros H P E. exists (total lam l). split; [now apply total_ok|]. assert (T := total_pos lam l H P). split; [exact T|].
  destruct (with_shift_ok _ _ _ _ _ E) as [_ K]. apply fallback_ok in K; [|exact H]. rewrite K. apply map_ext. intros x. now apply ratio_ok.
Qed.
Theorem C72_log_pdf finite history lam l xs vs s :
  lam <> 0 -> proper l -> log_pdf finite lam (Some l) xs (after finite history init) = (Ok vs, s) ->
  exists I, is_integral_over (expo lam) l I /\ 0 < I /\ vs = map (fun x => Some (lam * x - ln I)) xs.
Proof.
  intros H P E. exists (total lam l). split; [now apply total_ok|]. assert (T := total_pos lam l H P). split; [exact T|].
  destruct (with_shift_ok _ _ _ _ _ E) as [_ K]. destruct (fallback_pdf finite lam (Some l) xs (calc_shift l)) as [ws|e] eqn:F; cbn [bind] in K; [|discriminate].
  injection K as <-. apply fallback_ok in F; [|exact H]. rewrite F, map_map. apply map_ext. intros x. rewrite ratio_ok by exact T. cbn [option_map]. f_equal.
  unfold Rdiv. rewrite ln_mult; [|apply exp_pos|now apply Rinv_0_lt_compat]. rewrite ln_Rinv by exact T. unfold expo. rewrite ln_exp. ring.
Qed.
Theorem C72_ext_pdf finite history y lam l xs vs s :
  lam <> 0 -> proper l -> ext_pdf finite y lam (Some l) xs (after finite history init) = (Ok vs, s) ->
  exists I, is_integral_over (expo lam) l I /\ 0 < I /\ vs = map (fun x => Some (y * (expo lam x / I))) xs.
Proof.
  intros H P E. unfold ext_pdf in E. destruct (pdf finite lam (Some l) xs (after finite history init)) as [[ws|e] s1] eqn:F; [|discriminate]. injection E as <- <-.
  destruct (C72_pdf _ _ _ _ _ _ _ H P F) as [I [K1 [K2 ->]]]. exists I. split; [exact K1|]. split; [exact K2|]. rewrite map_map. apply map_ext. intros x. cbn [option_map]. f_equal. ring.
Qed.
Theorem C72_integrate finite history lam lims l :
  lam <> 0 -> proper l ->
  exists I J, is_integral_over (expo lam) lims J /\ is_integral_over (expo lam) l I /\ 0 < I /\
    fst (integrate lam lims (Some l) (after finite history init)) = Ok [Some (J / I)].
Proof.
  intros H P. exists (total lam l), (total lam lims). split; [now apply total_ok|]. split; [now apply total_ok|]. assert (T := total_pos lam l H P). split; [exact T|].
  unfold integrate, with_shift. cbn [fst]. rewrite !integrals_ok by exact H. now rewrite ratio_ok.
Qed.
(** The normalised values are a density: they integrate to one over the range, and integrate says so *)
Theorem C72_normalised finite history lam l : lam <> 0 -> proper l ->
  exists I, is_integral_over (expo lam) l I /\ is_integral_over (fun x => expo lam x / I) l 1 /\
    fst (integrate lam l (Some l) (after finite history init)) = Ok [Some 1].
Proof.
  intros H P. destruct (C72_integrate finite history lam l l H P) as [I [J [K1 [K2 [K3 K4]]]]]. rewrite (total_unique _ _ _ H K1) in K4. rewrite (total_unique _ _ _ H K2) in *.
  exists (total lam l). split; [now apply total_ok|]. split; [|rewrite K4; repeat f_equal; field; lra].
  assert (G : forall m T c, is_integral_over (expo lam) m T -> is_integral_over (fun x => expo lam x / c) m (T / c)).
  { clear. induction m as [|[a b] r IH]; cbn [is_integral_over]; intros T c K; [subst; unfold Rdiv; ring|]. destruct K as [v [J [K1 [K2 ->]]]]. exists (v / c), (J / c).
    split; [|split; [now apply IH|unfold Rdiv; ring]]. apply (is_RInt_scal _ a b (/ c)) in K1. replace (v / c) with (scal (/ c) v) by (unfold scal; cbn; unfold mult; cbn; unfold Rdiv; ring).
    eapply is_RInt_ext; [|exact K1]. intros x _. unfold scal; cbn; unfold mult; cbn. unfold Rdiv. ring. }
  replace 1 with (total lam l / total lam l) by (field; lra). now apply G, total_ok.
Qed.

(** ** What the shift is for: in a range where lambda times half the width does not overflow, data inside of it do not either, wherever the range is *)
Theorem C72_no_overflow finite history lam l w xs B :
  lam <> 0 -> proper l -> spans_at_most l w -> Forall (within l) xs ->
  Rabs lam * (w / 2) <= B -> (forall p, 0 < p <= exp B -> finite p = true) ->
  exists vs, pdf finite lam (Some l) xs (after finite history init) = (Ok vs, after finite history init).
Proof.
  intros H [N P] W D L F. unfold pdf, with_shift, fallback_pdf, unnormalized_pdf. cbv zeta.
  assert (E : forallb finite (map (fun x => exp (lam * shift_x (calc_shift l) x)) xs) = true).
  { apply forallb_forall. intros p Hp. apply in_map_iff in Hp. destruct Hp as [x [<- Hx]]. apply F. split; [apply exp_pos|].
    apply (proj1 (List.Forall_forall (within l) xs)) with (x := x) in D; [|exact Hx]. assert (K := shift_close l w x N W D). unfold shift_x.
    assert (Q : lam * (x - calc_shift l) <= B). { eapply Rle_trans; [apply Rle_abs|]. rewrite Rabs_mult. assert (A := Rabs_pos lam). nra. }
    destruct Q as [Q|Q]; [left; now apply exp_increasing|right; now rewrite Q]. }
  rewrite E. cbn [bind]. now eexists.
Qed.

(** ** Values that are not normalised *)
(** In every state, integrals are those of the values: one function g, which is exp(lambda x) up to a positive factor *)
Theorem C72_unnormalised finite history lam : lam <> 0 ->
  exists g c, 0 < c /\ (forall x, g x = c * expo lam x) /\
    (forall xs vs s, pdf finite lam None xs (after finite history init) = (Ok vs, s) -> vs = map (fun x => Some (g x)) xs) /\
    (forall lims, exists J, fst (integrate lam lims None (after finite history init)) = Ok [Some J] /\ is_integral_over g lims J) /\
    (forall lims, exists J, fst (normalization lam lims (after finite history init)) = Ok [Some J] /\ is_integral_over g lims J).
Proof.
  intros H. set (s0 := after finite history init). exists (fun x => exp (lam * (x - s0))), (exp (- (lam * s0))). split; [apply exp_pos|]. split.
  { intros x. unfold expo. rewrite <- exp_plus. f_equal. ring. }
  split; [|split].
  - intros xs vs s E. destruct (with_shift_ok _ _ _ _ _ E) as [_ K]. apply fallback_ok in K; [|exact H]. exact K.
  - intros lims. exists (exp (- (lam * s0)) * total lam lims). split; [cbn; now rewrite integrals_ok|]. apply scaled_over. now apply total_ok.
  - intros lims. exists (exp (- (lam * s0)) * total lam lims). split; [cbn; now rewrite integrals_ok|]. apply scaled_over. now apply total_ok.
Qed.
(** As long as no call raised an error the function is exp(lambda x) itself *)
Theorem C72_unnormalised_partial finite history lam : lam <> 0 -> no_error finite history init = true ->
  (forall xs vs s, pdf finite lam None xs (after finite history init) = (Ok vs, s) -> vs = map (fun x => Some (expo lam x)) xs) /\
  (forall lims, exists J, fst (integrate lam lims None (after finite history init)) = Ok [Some J] /\ is_integral_over (expo lam) lims J) /\
  (forall lims, exists J, fst (normalization lam lims (after finite history init)) = Ok [Some J] /\ is_integral_over (expo lam) lims J).
Proof.
  intros H E. rewrite (no_error_after _ _ _ E). unfold init. assert (Z : exp (- (lam * 0)) = 1) by (rewrite <- exp_0; f_equal; ring). split; [|split].
  - intros xs vs s F. destruct (with_shift_ok _ _ _ _ _ F) as [_ K]. apply fallback_ok in K; [|exact H]. rewrite K. apply map_ext. intros x. unfold expo. do 2 f_equal. ring.
  - intros lims. exists (total lam lims). split; [cbn; rewrite integrals_ok, Z by exact H; now rewrite Rmult_1_l|now apply total_ok].
  - intros lims. exists (total lam lims). split; [cbn; rewrite integrals_ok, Z by exact H; now rewrite Rmult_1_l|now apply total_ok].
Qed.
(** ... but not after an error: the shift of the call that failed stays. Here the largest float is exp 700; one event far outside of the norm range makes a call fail,
    and from then on pdf(x, norm=False) is smaller by a factor *)
Definition finite700 (p : R) : bool := if Rle_dec p (exp 700) then true else false.
Theorem C72_unnormalised_after_error_refuted : exists history lam x v,
  lam <> 0 /\ after finite700 history init <> init /\
  pdf finite700 lam None [x] (after finite700 history init) = (Ok [Some v], after finite700 history init) /\
  pdf finite700 lam None [x] init = (Ok [Some (expo lam x)], init) /\ v < expo lam x.
Proof.
  exists [(1, CPdf (Some [(0, 2)]) [2000])], 1, 3, (exp 2).
  assert (S : after finite700 [(1, CPdf (Some [(0, 2)]) [2000])] init = 1).
  { cbn [after do_call]. unfold pdf, with_shift, fallback_pdf, unnormalized_pdf. cbv zeta. cbn [map forallb]. unfold shift_x, calc_shift. cbn [map fst snd list_min list_max].
    replace (1 * (2000 - (2 + 0) / 2)) with 1999 by field. unfold finite700. destruct (Rle_dec (exp 1999) (exp 700)) as [L|L].
    - assert (exp 700 < exp 1999) by (apply exp_increasing; lra). lra.
    - cbn [andb bind snd]. field. }
  rewrite S. unfold init. split; [lra|]. split; [lra|]. unfold pdf, with_shift, fallback_pdf, unnormalized_pdf. cbv zeta. cbn [map forallb]. unfold shift_x.
  replace (1 * (3 - 1)) with 2 by ring. replace (1 * (3 - 0)) with 3 by ring. unfold finite700.
  destruct (Rle_dec (exp 2) (exp 700)) as [_|L]. 2:{ assert (exp 2 < exp 700) by (apply exp_increasing; lra). lra. }
  destruct (Rle_dec (exp 3) (exp 700)) as [_|L]. 2:{ assert (exp 3 < exp 700) by (apply exp_increasing; lra). lra. }
  cbn [andb bind]. split; [reflexivity|]. unfold expo. replace (1 * 3) with 3 by ring. split; [reflexivity|]. apply exp_increasing. lra.
Qed.
(** lambda = 0, a uniform density in the documentation: every normalised value is NaN *)
Theorem C72_lambda_zero_refuted finite l x s vs s' : proper l -> pdf finite 0 (Some l) [x] s = (Ok vs, s') ->
  vs = [None] /\ exists I, is_integral_over (expo 0) l I /\ 0 < I.
Proof.
  intros [N P] E. split.
  - destruct (with_shift_ok _ _ _ _ _ E) as [_ K]. unfold fallback_pdf, unnormalized_pdf in K. cbv zeta in K.
    destruct (forallb finite (map (fun x => exp (0 * shift_x (calc_shift l) x)) [x])); cbn [bind] in K; [|discriminate]. injection K as <-. cbn [map]. f_equal.
    destruct l as [|[a b] r]; [contradiction|]. cbn [integrals]. unfold exp_integral. destruct (Req_EM_T 0 0) as [_|F]; [|contradiction F; reflexivity]. reflexivity.
  - assert (G : forall m, List.Forall (fun p => fst p < snd p) m -> exists I, is_integral_over (expo 0) m I /\ 0 <= I /\ (m <> [] -> 0 < I)).
    { clear. intros m F. induction F as [|[a b] r L F IH]; [exists 0; split; [reflexivity|]; split; [lra|intros C; now contradiction C]|]. destruct IH as [J [K1 [K2 _]]]. cbn in L.
      exists ((b - a) + J). split; [|split; [lra|intros _; lra]]. exists (b - a), J. split; [|split; [exact K1|reflexivity]].
      assert (C := @is_RInt_const R_NormedModule a b 1). replace (b - a) with (scal (b - a) 1) by (unfold scal; cbn; unfold mult; cbn; ring). eapply is_RInt_ext; [|exact C].
      intros y _. unfold expo. rewrite Rmult_0_l. symmetry. apply exp_0. }
    destruct (G l P) as [I [K1 [_ K2]]]. exists I. split; [exact K1|now apply K2].
Qed.

(** ** Examples: the hypotheses are met *)
Definition all_finite (_ : R) : bool := true.
Example ex_pdf : exists vs, pdf finite700 (-2) (Some [(1000, 1001); (1002, 1003)]) [1000; 1003] (after finite700 [(1, CPdf (Some [(0, 2)]) [2000])] init)
  = (Ok vs, after finite700 [(1, CPdf (Some [(0, 2)]) [2000])] init).
Proof.
  apply (C72_no_overflow finite700 _ (-2) [(1000, 1001); (1002, 1003)] 3 [1000; 1003] 700).
  - lra.
  - split; [discriminate|]. repeat constructor; cbn; lra.
  - intros p q [<-|[<-|[]]] [<-|[<-|[]]]; cbn; lra.
  - repeat constructor; unfold within.
    + exists (1000, 1001). cbn. split; [now left|lra].
    + exists (1000, 1001). cbn. split; [now left|lra].
    + exists (1000, 1001). cbn. split; [now left|lra].
    + exists (1002, 1003). cbn. split; [now right; left|lra].
  - unfold Rabs. destruct (Rcase_abs (-2)); lra.
  - intros p [_ Hp]. unfold finite700. destruct (Rle_dec p (exp 700)); [reflexivity|contradiction].
Qed.
Example ex_no_error : no_error all_finite [(1, CPdf (Some [(0, 2)]) [1]); (2, CIntegrate [(0, 1)] (Some [(0, 2)]))] init = true.
Proof. reflexivity. Qed.
Example ex_zero : exists vs s', pdf all_finite 0 (Some [(0, 2)]) [1] init = (Ok vs, s').
Proof. cbn. now do 2 eexists. Qed.

Print Assumptions C72_pdf.
Print Assumptions C72_log_pdf.
Print Assumptions C72_ext_pdf.
Print Assumptions C72_integrate.
Print Assumptions C72_normalised.
Print Assumptions C72_no_overflow.
Print Assumptions C72_unnormalised.
Print Assumptions C72_unnormalised_partial.
Print Assumptions C72_unnormalised_after_error_refuted.
Print Assumptions C72_lambda_zero_refuted.
