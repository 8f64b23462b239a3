(** C82: the derivatives of a loss. *)
From Verif Require Import Base BaseLemmas Der_Model Der_Spec Der_Proofs Der_Proofs2 Der_Proofs3.

(** ** The parameters keep their values *)

(** A call of [gradient], [value_gradient], [hessian] or [value_gradient_hessian] that returns
    leaves all parameters at the values they had, for every function, every way to differentiate,
    every choice of the arguments, and also if values of parameters are given for the call. *)
Theorem C82_parameters_unchanged :
  forall comp ndg ndh adg adh L params h full numgrad paramvals st,
  (forall g st', gradient comp ndg adg L params numgrad paramvals st = (Ok g, st') ->
     view st' = view st)
  /\ (forall g st', value_gradient comp ndg adg L params full numgrad paramvals st = (Ok g, st') ->
     view st' = view st)
  /\ (forall g st', hessian comp ndh adh L params h numgrad paramvals st = (Ok g, st') ->
     view st' = view st)
  /\ (forall g st', value_gradient_hessian comp ndg ndh adg adh L params h full numgrad paramvals st
                    = (Ok g, st') -> view st' = view st).
Proof.
  intros. repeat split; intros g st' H; apply same_view.
  - exact (gradient_same _ _ _ _ _ _ _ _ _ _ H).
  - exact (value_gradient_same _ _ _ _ _ _ _ _ _ _ _ H).
  - exact (hessian_same _ _ _ _ _ _ _ _ _ _ _ H).
  - exact (value_gradient_hessian_same _ _ _ _ _ _ _ _ _ _ _ _ _ _ H).
Qed.

(** If values are given for all parameters of the derivative, then the values of before come back
    even if the function raises an exception. *)
Theorem C82_error_restores_given_partial :
  forall comp ndg ndh adg adh L ps h full numgrad paramvals st,
  valid st -> allowed_all st paramvals ->
  incl ps (map (fun iv => Indep (fst iv)) paramvals) ->
  view (snd (gradient comp ndg adg L (Some ps) numgrad paramvals st)) = view st
  /\ view (snd (value_gradient comp ndg adg L (Some ps) full numgrad paramvals st)) = view st
  /\ view (snd (hessian comp ndh adh L (Some ps) h numgrad paramvals st)) = view st
  /\ view (snd (value_gradient_hessian comp ndg ndh adg adh L (Some ps) h full numgrad paramvals st))
     = view st.
Proof.
  intros * V A I.
  assert (G : forall R b (body : list par -> store -> result R * store),
    (forall s g s', body ps s = (g, s') -> frame ps s s') ->
    view (snd match input_check_params L (Some ps) b with
              | Err e => (Err e, st)
              | Ok qs => with_paramvals L paramvals (body qs) st
              end) = view st).
  { intros R b body F. destruct (input_check_params L (Some ps) b) as [qs|e] eqn:E; [|reflexivity].
    assert (qs = ps) as ->.
    { unfold input_check_params in E. destruct (b && _); [discriminate|].
      destruct (negb _); congruence. }
    unfold with_paramvals. destruct (subsetb _ _ _); [|reflexivity].
    destruct (with_values_framed paramvals ps (body ps) st F I V A) as (s1 & _ & _ & S).
    exact (same_view _ _ S). }
  split; [|split; [|split]].
  - apply (G _ true (fun qs => call_gradient comp ndg adg L qs _)). apply call_gradient_frame.
  - apply (G _ false (fun qs => call_value_gradient comp ndg adg L qs _ _)).
    apply call_value_gradient_frame.
  - apply (G _ false (fun qs => call_hessian comp ndh adh L qs h _)). apply call_hessian_frame.
  - apply (G _ false (fun qs => call_value_gradient_hessian comp ndg ndh adg adh L qs h _ _)).
    apply call_value_gradient_hessian_frame.
Qed.

(** Examples: two parameters, the second with limits. *)
Definition no_comp (k : nat) (v : list Q) : Q := 0%Q.
Definition no_ad (f : list Q -> result Q) (ps : list par) (v : list Q) : result (list Q) := Ok [7#1; 7#1]%Q.
Definition no_adh (h : hess) (f : list Q -> result Q) (ps : list par) (v : list Q) : result (list Q) :=
  Ok [9#1]%Q.
Definition no_ndh (h : hess) (x : list Q) : strategy (list Q) := Ask x (fun y => Return [y]).
Definition two : store := [mkCell 3 None None; mkCell 5 (Some 0%Q) (Some 10%Q)].
Definition both : list par := [Indep 0; Indep 1].
Definition f_xy (v : list Q) : Q := (nth 0 v 0 * nth 0 v 0 + 3 * nth 0 v 0 * nth 1 v 0)%Q.
Definition nll : loss :=
  mkLoss (fun _ v => Ok (f_xy v)) both both (Ok both) false true None None.
Definition steps2 : list (Q * Q) := [((-1)#3, 1#5); (4#3, 1#10)]%Q.
Definition red (r : result (list Q) * store) : result (list Q) * list Q :=
  (match fst r with Ok l => Ok (map Qred l) | Err e => Err e end, map Qred (view (snd r))).

Example C82_unchanged_ex :
  red (gradient no_comp (central steps2) no_ad nll None (Some true) [] two)
  = (Ok [21; 9]%Q, [3; 5]%Q).
Proof. vm_compute. reflexivity. Qed.
Example C82_unchanged_paramvals_ex :
  red (gradient no_comp (central steps2) no_ad nll None (Some true) [(0, 1%Q)] two)
  = (Ok [17; 3]%Q, [3; 5]%Q).
Proof. vm_compute. reflexivity. Qed.
(** The hypotheses of [C82_error_restores_given_partial], for a function that fails. *)
Definition failing : loss :=
  mkLoss (fun _ v => if Qle_bool (nth 0 v 0%Q) 3 then Ok (nth 0 v 0%Q) else Err ZeroDivisionError)
    both both (Ok both) false true None None.
Example C82_error_restores_ex :
  valid two /\ allowed_all two [(0, 3%Q)] /\ incl [Indep 0] (map (fun iv => Indep (fst iv)) [(0, 3%Q)])
  /\ red (gradient no_comp (central steps2) no_ad failing (Some [Indep 0]) (Some true) [(0, 3%Q)] two)
     = (Err ZeroDivisionError, [3; 5]%Q).
Proof.
  split; [|split; [|split]].
  - intros i c l u Hc Hl Hu. destruct i as [|[|i]]; cbn in Hc.
    + injection Hc as <-. discriminate Hl.
    + injection Hc as <-. injection Hl as <-. injection Hu as <-. discriminate.
    + destruct i; discriminate Hc.
  - intros i v c [I|[]] Hc. injection I as <- <-. cbn in Hc. injection Hc as <-. split; discriminate.
  - apply incl_refl.
  - vm_compute. reflexivity.
Qed.

(** Without given values, an exception of the function leaves the parameters where the numerical
    procedure had just put them. *)
Theorem C82_error_restores_refuted :
  exists comp ndg adg L ps st e st',
    gradient comp ndg adg L (Some ps) (Some true) [] st = (Err e, st') /\ view st' <> view st.
Proof.
  exists no_comp, (central steps2), no_ad, failing, [Indep 0], two.
  eexists; eexists. split; [vm_compute; reflexivity|]. vm_compute. discriminate.
Qed.

(** ** Given values *)

(** With given values, the result is that of a call without given values after the parameters have
    been set to them. *)
Theorem C82_paramvals :
  forall comp ndg ndh adg adh L ps h full numgrad paramvals st,
  valid st -> allowed_all st paramvals ->
  incl (map (fun iv => Indep (fst iv)) paramvals) (l_params L) ->
  exists st1,
    view st1 = substitute (map (fun iv => Indep (fst iv)) paramvals) (map snd paramvals) (view st)
    /\ fst (gradient comp ndg adg L (Some ps) numgrad paramvals st)
       = fst (gradient comp ndg adg L (Some ps) numgrad [] st1)
    /\ fst (value_gradient comp ndg adg L (Some ps) full numgrad paramvals st)
       = fst (value_gradient comp ndg adg L (Some ps) full numgrad [] st1)
    /\ fst (hessian comp ndh adh L (Some ps) h numgrad paramvals st)
       = fst (hessian comp ndh adh L (Some ps) h numgrad [] st1)
    /\ fst (value_gradient_hessian comp ndg ndh adg adh L (Some ps) h full numgrad paramvals st)
       = fst (value_gradient_hessian comp ndg ndh adg adh L (Some ps) h full numgrad [] st1).
Proof.
  intros * V A I. destruct (set_loop_ok paramvals st A) as (s1 & E1). exists s1.
  assert (G : forall R b (body : list par -> store -> result R * store),
    (forall s g s', body ps s = (g, s') -> frame ps s s') ->
    fst match input_check_params L (Some ps) b with
        | Err e => (Err e, st)
        | Ok qs => with_paramvals L paramvals (body qs) st
        end
    = fst match input_check_params L (Some ps) b with
        | Err e => (Err e, s1)
        | Ok qs => with_paramvals L [] (body qs) s1
        end).
  { intros R b body F. destruct (input_check_params L (Some ps) b) as [qs|e] eqn:E; [|reflexivity].
    assert (qs = ps) as ->.
    { unfold input_check_params in E. destruct (b && _); [discriminate|].
      destruct (negb _); congruence. }
    rewrite with_paramvals_nil. unfold with_paramvals.
    assert (subsetb par_eqb (map (fun iv => Indep (fst iv)) paramvals) (l_params L) = true) as ->.
    { apply forallb_forall. intros p Ip. apply existsb_exists. exists p. split; [auto|].
      destruct p; cbn; apply Nat.eqb_refl. }
    destruct (with_values_fst paramvals ps (body ps) st F V A) as (s2 & X & Y).
    rewrite E1 in X. injection X as <-. exact Y. }
  split; [|split; [|split; [|split]]].
  - pose proof (set_loop_assign _ _ _ E1) as E2.
    refine (assign_loop_view _ _ _ _ _ E2 (keys_indep paramvals)).
    unfold keys. clear E1 E2 G I. induction paramvals as [|[i v] pv IH]; cbn; constructor.
    + intros j c [= <-] Hj. apply (A i v c); auto. now left.
    + apply IH. intros j w c Ij Hj. apply (A j w c); auto. now right.
  - apply (G _ true (fun qs => call_gradient comp ndg adg L qs _)). apply call_gradient_frame.
  - apply (G _ false (fun qs => call_value_gradient comp ndg adg L qs _ _)).
    apply call_value_gradient_frame.
  - apply (G _ false (fun qs => call_hessian comp ndh adh L qs h _)). apply call_hessian_frame.
  - apply (G _ false (fun qs => call_value_gradient_hessian comp ndg ndh adg adh L qs h _ _)).
    apply call_value_gradient_hessian_frame.
Qed.

(** ** Numerical derivatives *)

Definition values (st : store) (ps : list par) : list Q :=
  map (fun p => match p with Indep i => nth i (view st) 0%Q | Composed _ => 0%Q end) ps.
Lemma values_par_value comp st ps : all_indep ps -> map (par_value comp st) ps = values st ps.
Proof.
  intros H. apply map_ext_in. intros p I. destruct (H p I) as (i & ->). reflexivity.
Qed.
Lemma par_eqb_ok : forall a b, par_eqb a b = true <-> a = b.
Proof.
  intros [i|i] [j|j]; cbn; split; intros H; try discriminate; try (apply Nat.eqb_eq in H; congruence);
    injection H as ->; apply Nat.eqb_refl.
Qed.
Lemma input_ok L ps b : (b = true -> all_indep ps) -> incl ps (l_params L) ->
  input_check_params L (Some ps) b = Ok ps.
Proof.
  intros H I. unfold input_check_params.
  assert (b && negb (forallb is_indep ps) = false) as ->.
  { destruct b; [|reflexivity]. cbn. apply negb_false_iff, forallb_forall. intros p Ip.
    destruct (H eq_refl p Ip) as (i & ->). reflexivity. }
  assert (subsetb par_eqb ps (l_params L) = true) as ->; [|reflexivity].
  apply forallb_forall. intros p Ip. apply existsb_exists. exists p. split; [auto|].
  now apply par_eqb_ok.
Qed.

(** As long as the numerical procedure only asks for values of the function inside of the limits,
    its result is the one it has for the loss as a function of the given parameters, in the order in
    which they are given, with all other parameters fixed, at the current values. *)
Theorem C82_numerical_partial :
  forall comp ndg ndh adg adh L ps h st,
  l_grad L = None -> l_hess L = None -> proper st ps -> incl ps (l_params L) ->
  let F := fun x => l_value L false (substitute ps x (view st)) in
  ((forall x, In x (asked F (ndg (values st ps))) -> inside st ps x) ->
   fst (gradient comp ndg adg L (Some ps) (Some true) [] st) = answer F (ndg (values st ps)))
  /\ ((forall x, In x (asked F (ndh h (values st ps))) -> inside st ps x) ->
   fst (hessian comp ndh adh L (Some ps) h (Some true) [] st) = answer F (ndh h (values st ps))).
Proof.
  intros * G H P I F. pose proof (proper_indep _ _ P) as A. split; intros IN.
  - unfold gradient. rewrite (input_ok L ps true) by auto. rewrite with_paramvals_nil.
    unfold call_gradient, fallback_gradient, numerical_gradient. rewrite G.
    rewrite numerical_answer by auto. rewrite values_par_value by auto.
    apply answer_ext. intros x Ix. now apply probe_inside, IN.
  - unfold hessian. rewrite (input_ok L ps false) by (auto; discriminate). rewrite with_paramvals_nil.
    unfold call_hessian, fallback_hessian, numerical_hessian. rewrite H.
    rewrite numerical_answer by auto. rewrite values_par_value by auto.
    apply answer_ext. intros x Ix. now apply probe_inside, IN.
Qed.

(** With central differences, as used by numdifftools, the gradient is exact for every loss that is
    a parabola in each of the parameters, if no parameter is nearer to a limit than the largest
    step; the entries are in the order of the parameters. *)
Theorem C82_central_exact_partial :
  forall comp adg L ps st steps g (ds : list Q),
  l_grad L = None -> proper st ps -> incl ps (l_params L) -> good_steps steps ->
  (forall v, l_value L false v = Ok (g v)) ->
  let G := fun x => g (substitute ps x (view st)) in
  let x0 := values st ps in
  length ds = length ps ->
  (forall i, i < length ps -> parabola G x0 i (nth i ds 0%Q)) ->
  (forall w h i j c, In (w, h) steps -> nth_error ps i = Some (Indep j) -> nth_error st j = Some c ->
     allowed c (nth i x0 0 + h)%Q /\ allowed c (nth i x0 0 - h)%Q) ->
  exists r, fst (gradient comp (central steps) adg L (Some ps) (Some true) [] st) = Ok r
            /\ Forall2 Qeq r ds.
Proof.
  intros * GN P I [W HP] HV G x0 LD PA LIM. pose proof (proper_indep _ _ P) as A.
  assert (LX : length x0 = length ps) by (unfold x0, values; apply map_length).
  assert (IN : forall x, In x (asked (fun x => Ok (G x)) (central steps x0)) -> inside st ps x).
  { intros x Ix. apply extrapolate_asked in Ix as (w & h & i & Iw & Li & Ex).
    assert (Hh := HP w h Iw).
    assert (X : forall k v, nth_error x k = Some v ->
      forall j c, nth_error ps k = Some (Indep j) -> nth_error st j = Some c -> allowed c v).
    { intros k v Hk j c Hp Hc.
      destruct (LIM w h k j c Iw Hp Hc) as [[L1 U1] [L2 U2]].
      destruct (Nat.eq_dec k i) as [->|N].
      - destruct Ex as [-> | ->]; rewrite update_same in Hk by auto; injection Hk as <-;
          [split; auto|split; auto].
      - assert (nth_error x0 k = Some v) as Hk0.
        { destruct Ex as [-> | ->]; now rewrite update_other in Hk by auto. }
        apply nth_error_nth with (d := 0%Q) in Hk0. rewrite Hk0 in *.
        split; intros b Hb.
        + apply Qle_trans with (v - h)%Q; [auto|].
          rewrite <- (Qplus_0_r v) at 2. apply Qplus_le_r. apply (Qopp_le_compat 0 h). now apply Qlt_le_weak.
        + apply Qle_trans with (v + h)%Q; [|auto].
          rewrite <- (Qplus_0_r v) at 1. apply Qplus_le_r. now apply Qlt_le_weak. }
    assert (LE : length ps = length x) by (destruct Ex as [-> | ->]; rewrite update_length; auto).
    clear - X LE. unfold inside. revert x X LE.
    induction ps as [|p ps IH]; intros [|v x] X LE; cbn in LE; try discriminate; constructor.
    - intros j c -> Hc. exact (X 0 v eq_refl j c eq_refl Hc).
    - apply IH; [|lia]. intros k w Hk. exact (X (S k) w Hk). }
  unfold gradient. rewrite (input_ok L ps true) by auto. rewrite with_paramvals_nil.
  unfold call_gradient, fallback_gradient, numerical_gradient. rewrite GN.
  rewrite numerical_answer by auto. rewrite values_par_value by auto. fold x0.
  rewrite (answer_ext _ (fun x => Ok (G x))).
  - destruct (central_answer G x0 steps) as (r & E & V). rewrite E. eexists. split; [reflexivity|].
    assert (ds = map (fun i => nth i ds 0%Q) (seq 0 (length x0))) as ->.
    { apply nth_error_ext. intros i. rewrite nth_error_map.
      destruct (Nat.lt_ge_cases i (length x0)) as [Li|Li].
      - rewrite (nth_error_nth' _ 0 (n := i)) by now rewrite seq_length.
        rewrite seq_nth by auto. cbn. apply nth_error_nth'. lia.
      - rewrite (proj2 (nth_error_None (seq 0 (length x0)) i)) by (rewrite seq_length; lia).
        apply nth_error_None. lia. }
    assert (Q : forall i, In i (seq 0 (length x0)) -> (r i == nth i ds 0)%Q).
    { intros i Ii. apply in_seq in Ii. rewrite V.
      rewrite (total_const G x0 i (nth i ds 0%Q)).
      - rewrite W. ring.
      - intros w h Iw. apply quotient_parabola; [apply PA; lia|]. exact (HP w h Iw). }
    revert Q. generalize (seq 0 (length x0)). intros l. induction l as [|i l IHl]; intros Q; constructor.
    + apply Q. now left.
    + apply IHl. intros j Ij. apply Q. now right.
  - intros x Ix. rewrite probe_inside by auto. apply HV.
Qed.

(** The hypotheses for the example of above: two parameters, the loss x^2 + 3 x y at (3, 5). *)
Example C82_central_exact_ex :
  proper two both /\ incl both (l_params nll) /\ good_steps steps2
  /\ parabola (fun x => f_xy (substitute both x (view two))) (values two both) 0 21
  /\ parabola (fun x => f_xy (substitute both x (view two))) (values two both) 1 9.
Proof.
  split; [|split; [|split; [|split]]].
  - split.
    + repeat constructor; cbn; intuition discriminate.
    + intros p [<-|[<-|[]]]; eexists; split; try reflexivity; cbn; lia.
  - apply incl_refl.
  - split; [reflexivity|]. intros w h [[= <- <-]|[[= <- <-]|[]]]; reflexivity.
  - exists 1%Q. intros t. cbn. unfold f_xy. cbn. ring.
  - exists 0%Q. intros t. cbn. unfold f_xy. cbn. ring.
Qed.

(** At a limit this fails: the function is then asked for values beyond the limit and answers with
    the value at the limit. The loss [x] has the derivative 1, but at the upper limit of [x] the
    numerical gradient is 1/2 for all steps and weights. *)
Theorem C82_numerical_at_limit_refuted :
  exists L st, (forall v, l_value L false v = Ok (nth 0 v 0%Q)) /\ view st = [1%Q]
  /\ forall comp adg steps, good_steps steps ->
     exists r, fst (gradient comp (central steps) adg L (Some [Indep 0]) (Some true) [] st) = Ok [r]
               /\ (r == 1 # 2)%Q.
Proof.
  set (L := mkLoss (fun _ v => Ok (nth 0 v 0%Q)) [Indep 0] [Indep 0] (Ok [Indep 0]) false true None None).
  set (st := [mkCell 1 None (Some 1%Q)]).
  exists L, st. split; [reflexivity|]. split; [reflexivity|]. intros comp adg steps [W HP].
  assert (A : all_indep [Indep 0]) by (intros p [<-|[]]; eauto).
  unfold gradient. rewrite (input_ok L [Indep 0] true) by (auto; apply incl_refl).
  rewrite with_paramvals_nil.
  unfold call_gradient, fallback_gradient, numerical_gradient. cbn [l_grad L].
  rewrite numerical_answer by auto. rewrite values_par_value by auto.
  set (g := fun x : list Q => if Qle_bool (nth 0 x 0%Q) 1 then nth 0 x 0%Q else 1%Q).
  change (values st [Indep 0]) with [1%Q].
  rewrite (answer_ext _ (fun x => Ok (g x))).
  - destruct (central_answer g [1%Q] steps) as (r & E & V). rewrite E. exists (r 0).
    split; [reflexivity|]. rewrite V. rewrite (total_const g [1%Q] 0 (1 # 2)).
    + rewrite W. reflexivity.
    + intros w h Iw. specialize (HP w h Iw). unfold quotient, g. cbn [update nth].
      assert (Qle_bool (1 + h) 1 = false) as ->.
      { apply Qle_bool_not. rewrite <- (Qplus_0_r 1) at 1. now apply Qplus_lt_r. }
      assert (Qle_bool (1 + - h) 1 = true) as ->.
      { apply Qle_bool_iff. rewrite <- (Qplus_0_r 1) at 2. apply Qplus_le_r.
        apply (Qopp_le_compat 0 h). now apply Qlt_le_weak. }
      field. intros X. rewrite X in HP. discriminate HP.
  - intros x Ix. apply extrapolate_asked in Ix as (w & h & i & _ & Li & Ex). cbn in Li.
    assert (i = 0) as -> by lia.
    destruct Ex as [-> | ->]; reflexivity.
Qed.

(** ** Which way to differentiate *)

(** Without functions given by the user: with numgrad=True, [gradient] and [hessian] do not depend
    on the automatic differentiation; with numgrad=False, they do not depend on the numerical
    differentiation; without the argument, the option numgrad of the loss decides. *)
Theorem C82_numgrad_honoured :
  forall comp ndg ndg' ndh ndh' adg adg' adh adh' L params h paramvals st,
  gradient comp ndg adg L params (Some true) paramvals st
    = gradient comp ndg adg' L params (Some true) paramvals st
  /\ gradient comp ndg adg L params (Some false) paramvals st
    = gradient comp ndg' adg L params (Some false) paramvals st
  /\ gradient comp ndg adg L params None paramvals st
    = gradient comp ndg adg L params (Some (l_numgrad L)) paramvals st
  /\ hessian comp ndh adh L params h (Some true) paramvals st
    = hessian comp ndh adh' L params h (Some true) paramvals st
  /\ hessian comp ndh adh L params h (Some false) paramvals st
    = hessian comp ndh' adh L params h (Some false) paramvals st
  /\ hessian comp ndh adh L params h None paramvals st
    = hessian comp ndh adh L params h (Some (l_numgrad L)) paramvals st.
Proof. intros. repeat split; reflexivity. Qed.

(** [value_gradient] does not look at its argument [numgrad]: with numgrad=True the gradient is
    still the automatic one, if the option of the loss says so. *)
Theorem C82_value_gradient_numgrad_refuted :
  (forall comp ndg adg L params full n n' paramvals st,
     value_gradient comp ndg adg L params full n paramvals st
     = value_gradient comp ndg adg L params full n' paramvals st)
  /\ exists comp ndg adg adg' L params st,
     value_gradient comp ndg adg L params None (Some true) [] st
     <> value_gradient comp ndg adg' L params None (Some true) [] st.
Proof.
  split; [reflexivity|].
  exists no_comp, (central steps2), no_ad, (fun _ _ _ => Ok [8%Q; 8%Q]), nll, None, two.
  vm_compute. discriminate.
Qed.

(** One call for value, gradient and Hessian gives the same as three calls, for the same way to
    differentiate and a loss without given functions. *)
Theorem C82_one_call_partial :
  forall comp ndg ndh adg adh L ps h n st v g m,
  l_grad L = None -> l_hess L = None -> proper st ps -> incl ps (l_params L) ->
  (fst (value_gradient_hessian comp ndg ndh adg adh L (Some ps) h (Some false) (Some n) [] st)
   = Ok (v, g, m) <->
   l_value L false (view st) = Ok v
   /\ fst (gradient comp ndg adg L (Some ps) (Some n) [] st) = Ok g
   /\ fst (hessian comp ndh adh L (Some ps) h (Some n) [] st) = Ok m)
  /\ (fst (value_gradient comp ndg adg L (Some ps) (Some false) None [] st) = Ok (v, g) <->
      l_value L false (view st) = Ok v
      /\ fst (gradient comp ndg adg L (Some ps) None [] st) = Ok g).
Proof.
  intros * G H P I. pose proof (proper_indep _ _ P) as A.
  unfold value_gradient_hessian, value_gradient, gradient, hessian.
  rewrite (input_ok L ps true), (input_ok L ps false) by (auto; discriminate).
  rewrite !with_paramvals_nil.
  unfold call_value_gradient_hessian, call_value_gradient, call_gradient, call_hessian.
  rewrite G, H.
  unfold fallback_value_gradient_hessian, fallback_value_gradient, fallback_gradient, fallback_hessian.
  split.
  - destruct n; [now apply numerical_all|]. unfold pure. cbn [fst].
    destruct (check_assert_autograd L ps) as [[]|e]; cbn [bind];
      [|split; [discriminate|intros (_ & X & _); discriminate]].
    destruct (l_value L false (view st)) as [v0|e]; cbn [bind];
      [|split; [discriminate|intros (X & _); discriminate]].
    destruct (adg _ _ _) as [g0|e]; cbn [bind];
      [|split; [discriminate|intros (_ & X & _); discriminate]].
    destruct (adh _ _ _ _) as [m0|e]; cbn [bind];
      [|split; [discriminate|intros (_ & _ & X); discriminate]].
    split; [intros X; injection X as <- <- <-; auto|intros (X & Y & Z); congruence].
  - destruct (l_numgrad L).
    + unfold numerical_value_gradient.
      destruct (l_value L false (view st)) as [v0|e];
        [|cbn; split; [discriminate|intros (X & _); discriminate]].
      destruct (numerical_gradient _ _ _ _ _) as [[g0|e] s1]; cbn;
        [|split; [discriminate|intros (_ & X); discriminate]].
      split; [intros X; injection X as <- <-; auto|intros (X & Y); congruence].
    + unfold pure. cbn [fst].
      destruct (check_assert_autograd L ps) as [[]|e]; cbn [bind];
        [|split; [discriminate|intros (_ & X); discriminate]].
      destruct (l_value L false (view st)) as [v0|e]; cbn [bind];
        [|split; [discriminate|intros (X & _); discriminate]].
      destruct (adg _ _ _) as [g0|e]; cbn [bind];
        [|split; [discriminate|intros (_ & X); discriminate]].
      split; [intros X; injection X as <- <-; auto|intros (X & Y); congruence].
Qed.
Example C82_one_call_ex :
  match fst (value_gradient_hessian no_comp (central steps2) no_ndh no_ad no_adh nll (Some both) Full
               (Some false) (Some true) [] two) with
  | Ok (v, g, m) => Qred v = 54%Q /\ map Qred g = [21; 9]%Q /\ map Qred m = [54]%Q
  | Err _ => False
  end.
Proof. vm_compute. auto. Qed.

(** By default, i.e. with the options that a loss has if none are given, [hessian] is the automatic
    one, but the Hessian of [value_gradient_hessian] is the numerical one. *)
Theorem C82_default_hessian_refuted :
  exists comp ndg ndh adg adh L st v g m m',
    l_numgrad L = init_numgrad None false /\ l_numhess L = init_numhess None
    /\ l_grad L = None /\ l_hess L = None
    /\ fst (value_gradient_hessian comp ndg ndh adg adh L None Full None None [] st) = Ok (v, g, m)
    /\ fst (hessian comp ndh adh L None Full None [] st) = Ok m'
    /\ (forall ndh', hessian comp ndh adh L None Full None [] st
                     = hessian comp ndh' adh L None Full None [] st)
    /\ (forall adg' adh',
          value_gradient_hessian comp ndg ndh adg adh L None Full None None [] st
          = value_gradient_hessian comp ndg ndh adg' adh' L None Full None None [] st)
    /\ m <> m'.
Proof.
  exists no_comp, (fun x => Return x), no_ndh, no_ad, no_adh, nll, two.
  do 4 eexists. do 4 (split; [reflexivity|]). split; [vm_compute; reflexivity|].
  split; [vm_compute; reflexivity|]. split; [reflexivity|]. split; [reflexivity|].
  vm_compute. discriminate.
Qed.

(** ** SimpleLoss *)

(** A gradient or a Hessian that is given as a function is the one that [gradient],
    [value_gradient] and [hessian] return, for every value of [numgrad]. *)
Theorem C82_given_functions :
  forall comp ndg ndh adg adh value params floating gf hf L ps h full n st,
  simple_loss value params floating (Fun gf) (Fun hf) = Ok L ->
  (forall p, In p ps -> exists i, p = Indep i) -> incl ps params ->
  fst (gradient comp ndg adg L (Some ps) n [] st) = gf ps (view st)
  /\ fst (hessian comp ndh adh L (Some ps) h n [] st) = hf ps (view st)
  /\ (forall v g, fst (value_gradient comp ndg adg L (Some ps) full n [] st) = Ok (v, g) <->
                  value (view st) = Ok v /\ gf ps (view st) = Ok g)
  /\ (forall v g m,
        fst (value_gradient_hessian comp ndg ndh adg adh L (Some ps) h full n [] st) = Ok (v, g, m) <->
        value (view st) = Ok v /\ gf ps (view st) = Ok g /\ hf ps (view st) = Ok m).
Proof.
  intros * E A I. cbn in E. injection E as <-.
  set (L := mkLoss _ _ _ _ _ _ _ _).
  assert (VG : forall f0 n0 v g,
    fst (value_gradient comp ndg adg L (Some ps) f0 n0 [] st) = Ok (v, g) <->
    value (view st) = Ok v /\ gf ps (view st) = Ok g).
  { intros f0 n0 v g. unfold value_gradient. rewrite (input_ok L ps false) by (auto; discriminate).
    rewrite with_paramvals_nil. unfold call_value_gradient. cbn.
    destruct (gf ps (view st)) as [g0|e]; cbn; [|split; [discriminate|intros (_ & X); discriminate]].
    destruct (value (view st)) as [v0|e]; cbn; [|split; [discriminate|intros (X & _); discriminate]].
    split; [intros X; injection X as <- <-; auto|intros (X & Y); congruence]. }
  split; [|split; [|split]].
  - unfold gradient. rewrite (input_ok L ps true) by auto. now rewrite with_paramvals_nil.
  - unfold hessian. rewrite (input_ok L ps false) by (auto; discriminate). now rewrite with_paramvals_nil.
  - apply VG.
  - intros v g m. unfold value_gradient_hessian.
    rewrite (input_ok L ps false) by (auto; discriminate). rewrite with_paramvals_nil.
    unfold call_value_gradient_hessian. cbn [l_hess L].
    destruct (hf ps (view st)) as [m0|e];
      [|cbn; split; [discriminate|intros (_ & _ & X); discriminate]].
    specialize (VG (Some match full with None => true | Some b => b end)
                   (Some match n with None => l_numhess L | Some b => b end) v g).
    destruct (value_gradient _ _ _ _ _ _ _ _ _) as [[[v0 g0]|e] s1]; cbn in *.
    + split.
      * intros X. injection X as -> -> ->. destruct VG as [VG _]. destruct (VG eq_refl). auto.
      * intros (X & Y & Z). destruct VG as [_ VG]. specialize (VG (conj X Y)). congruence.
    + split; [discriminate|]. intros (X & Y & _). destruct VG as [_ VG].
      specialize (VG (conj X Y)). discriminate.
Qed.
Example C82_given_functions_ex :
  exists L, simple_loss (fun v => Ok (nth 0 v 0%Q)) both both (Fun (fun _ _ => Ok [1; 0]%Q))
              (Fun (fun _ _ => Ok [0; 0; 0; 0]%Q)) = Ok L
  /\ fst (value_gradient_hessian no_comp (central steps2) no_ndh no_ad no_adh L None Full None None [] two)
     = Ok (3, [1; 0], [0; 0; 0; 0])%Q.
Proof. eexists. split; reflexivity. Qed.

(** If only the gradient is given as a function, then [value_gradient_hessian] does not use it. *)
Theorem C82_given_gradient_refuted :
  exists comp ndg ndh adg adh value gf L st v g g' m,
    simple_loss value both both (Fun gf) Default = Ok L
    /\ fst (gradient comp ndg adg L (Some both) None [] st) = Ok g
    /\ gf both (view st) = Ok g
    /\ fst (value_gradient_hessian comp ndg ndh adg adh L (Some both) Full None None [] st)
       = Ok (v, g', m)
    /\ g' <> g.
Proof.
  exists no_comp, (fun x => Return x), no_ndh, no_ad, no_adh,
    (fun v => Ok (nth 0 v 0%Q)), (fun _ _ => Ok [1; 0]%Q).
  eexists. exists two. do 4 eexists. split; [reflexivity|].
  split; [reflexivity|]. split; [reflexivity|]. split; [vm_compute; reflexivity|]. discriminate.
Qed.

(** A [SimpleLoss] with [gradient="zfit"], i.e. automatic differentiation, never has a gradient: the
    call raises a WorkInProgressError for every function and all parameters; the same holds for
    [hessian="zfit"] and [value_gradient_hessian]. *)
Theorem C82_simple_zfit_refuted :
  forall comp ndg ndh adg adh value params floating h full L ps st,
  (forall p, In p ps -> exists i, p = Indep i) -> incl ps params ->
  (forall ha, simple_loss value params floating (Str "zfit") ha = Ok L ->
     gradient comp ndg adg L (Some ps) None [] st = (Err WorkInProgressError, st)
     /\ value_gradient comp ndg adg L (Some ps) full None [] st = (Err WorkInProgressError, st))
  /\ (forall ga, simple_loss value params floating ga (Str "zfit") = Ok L ->
     value_gradient_hessian comp ndg ndh adg adh L (Some ps) h full None [] st
     = (Err WorkInProgressError, st)).
Proof.
  intros * A I. split.
  - intros ha E. unfold simple_loss in E. cbn [deriv_options bind] in E.
    change (deriv_options (Str "zfit")) with
      (Ok (false, @None (list par -> list Q -> result (list Q)))) in E. cbn [bind] in E.
    destruct (deriv_options ha) as [h0|e]; cbn [bind fst snd] in E; [|discriminate].
    injection E as <-. set (L := mkLoss _ _ _ _ _ _ _ _). split.
    + unfold gradient. rewrite (input_ok L ps true) by auto. now rewrite with_paramvals_nil.
    + unfold value_gradient. rewrite (input_ok L ps false) by (auto; discriminate).
      now rewrite with_paramvals_nil.
  - intros ga E. unfold simple_loss in E.
    destruct (deriv_options ga) as [g0|e]; cbn [bind] in E; [|discriminate].
    change (deriv_options (Str "zfit")) with
      (Ok (false, @None (list par -> list Q -> result (list Q)))) in E. cbn [bind fst snd] in E.
    injection E as <-. set (L := mkLoss _ _ _ _ _ _ _ _).
    unfold value_gradient_hessian. rewrite (input_ok L ps false) by (auto; discriminate).
    now rewrite with_paramvals_nil.
Qed.
Example C82_simple_zfit_ex :
  exists L, simple_loss (fun v => Ok (nth 0 v 0%Q)) both both (Str "zfit") Default = Ok L.
Proof. eexists. reflexivity. Qed.

(** ** Which parameters are accepted *)

(** A parameter the loss does not depend on is refused by all of them, and nothing is changed;
    automatic derivatives are refused for parameters that a PDF says are not differentiable. *)
Theorem C82_refused :
  forall comp ndg ndh adg adh L ps h full numgrad st,
  (~ incl ps (l_params L) ->
     gradient comp ndg adg L (Some ps) numgrad [] st = (Err ValueError, st)
     /\ value_gradient comp ndg adg L (Some ps) full numgrad [] st = (Err ValueError, st)
     /\ hessian comp ndh adh L (Some ps) h numgrad [] st = (Err ValueError, st)
     /\ value_gradient_hessian comp ndg ndh adg adh L (Some ps) h full numgrad [] st
        = (Err ValueError, st))
  /\ (forall ok, l_autograd L = Ok ok -> l_grad L = None -> proper st ps -> incl ps (l_params L) ->
      ~ incl ps ok ->
      gradient comp ndg adg L (Some ps) (Some false) [] st = (Err AutogradNotSupported, st)).
Proof.
  intros. split.
  - intros N.
    assert (S : subsetb par_eqb ps (l_params L) = false).
    { destruct (subsetb par_eqb ps (l_params L)) eqn:E; [|reflexivity]. exfalso. apply N.
      intros p Ip. unfold subsetb in E. rewrite forallb_forall in E. specialize (E p Ip).
      apply existsb_exists in E as (q & Iq & Eq). apply par_eqb_ok in Eq. now subst. }
    assert (C : forall b, input_check_params L (Some ps) b = Err ValueError).
    { intros b. unfold input_check_params. destruct (b && _); [reflexivity|]. now rewrite S. }
    unfold gradient, value_gradient, hessian, value_gradient_hessian. rewrite !C. auto.
  - intros ok E G P I N. pose proof (proper_indep _ _ P) as A.
    unfold gradient. rewrite (input_ok L ps true) by auto. rewrite with_paramvals_nil.
    unfold call_gradient, fallback_gradient, pure, check_assert_autograd. rewrite G, E. cbn [bind].
    assert (subsetb par_eqb ps ok = false) as ->; [|reflexivity].
    destruct (subsetb par_eqb ps ok) eqn:S; [|reflexivity]. exfalso. apply N.
    intros p Ip. unfold subsetb in S. rewrite forallb_forall in S. specialize (S p Ip).
    apply existsb_exists in S as (q & Iq & Eq). apply par_eqb_ok in Eq. now subst.
Qed.
Example C82_refused_ex :
  gradient no_comp (central steps2) no_ad nll (Some [Indep 2]) None [] two = (Err ValueError, two).
Proof. reflexivity. Qed.
