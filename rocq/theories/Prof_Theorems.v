(** Theorems about asymmetric errors (C67). *)
From Verif Require Import Base BaseLemmas Prof_Model Prof_Spec Prof_Proofs Prof_Proofs2.
From Coq Require Import QArith Qabs Qpower Lqa Lia.
#[local] Open Scope nat_scope.

(** If no new minimum is found, there is one pair of errors for every parameter asked for; an error given without a warning is the
    distance to a point where the loss crosses the level asked for; and the parameters are left at the values of the fit. *)
Theorem C67_errors_are_crossings : forall depth S r ps cl sigma rtol covm st st' es,
  compute_errors depth S r ps cl sigma rtol covm st = (st', Ok (es, None)) ->
  exists sg, asked_level S cl sigma sg /\ errors_of S r sg (tolerance rtol * s_errordef S) ps es /\ p_vals st' = f_vals r.
Proof.
  intros depth S r ps cl sigma rtol covm st st' es H. destruct (compute_ok _ _ _ _ _ _ _ _ _ _ _ _ H) as [sg [H1 [H2 [_ H3]]]]. eauto.
Qed.
Print Assumptions C67_errors_are_crossings.

(** If the minimum of the fit is one, and the fit value is strictly within the limits of the parameter, lower errors are negative and
    upper errors positive (or zero), and the crossing is on the right side. *)
Theorem C67_right_side : forall depth S r ps cl sigma rtol covm st st' es sg e,
  compute_errors depth S r ps cl sigma rtol covm st = (st', Ok (es, None)) ->
  length (s_bounds S) = length (f_vals r) -> asked_level S cl sigma sg -> really_minimum S r sg (tolerance rtol * s_errordef S) ->
  In e es ->
  (forall l, fst (nth (e_param e) (s_bounds S) (None, None)) = Some l -> (l < nth (e_param e) (f_vals r) 0)%Q) ->
  (forall u, snd (nth (e_param e) (s_bounds S) (None, None)) = Some u -> (nth (e_param e) (f_vals r) 0 < u)%Q) ->
  (e_lower_warned e = false -> (e_lower e <= 0)%Q /\ exists values l, loss_at S values l
      /\ (e_lower e == nth (e_param e) values 0 - nth (e_param e) (f_vals r) 0)%Q
      /\ (Qabs (l - f_min r - s_errordef S * (sg * sg)) < tolerance rtol * s_errordef S)%Q)
  /\ (e_upper_warned e = false -> (0 <= e_upper e)%Q /\ exists values l, loss_at S values l
      /\ (e_upper e == nth (e_param e) values 0 - nth (e_param e) (f_vals r) 0)%Q
      /\ (Qabs (l - f_min r - s_errordef S * (sg * sg)) < tolerance rtol * s_errordef S)%Q).
Proof.
  intros depth S r ps cl sigma rtol covm st st' es sg e H Hb Ha Hm He Hlo Hup.
  destruct (compute_ok _ _ _ _ _ _ _ _ _ _ _ _ H) as [sg' [A1 [[Hp Hes] [Hlt _]]]].
  assert (sg' = sg) by (destruct Ha; inversion A1; reflexivity). subst sg'.
  assert (Hpoi : e_param e < length (f_vals r)) by (apply Hlt; rewrite <- Hp; apply in_map, He).
  destruct (Hes e He) as [H1 H2].
  assert (G : forall up err, error_at_crossing S r sg (tolerance rtol * s_errordef S) (e_param e) up err ->
     on_side up 0 err /\ exists values l, loss_at S values l
      /\ (err == nth (e_param e) values 0 - nth (e_param e) (f_vals r) 0)%Q
      /\ (Qabs (l - f_min r - s_errordef S * (sg * sg)) < tolerance rtol * s_errordef S)%Q).
  { intros up err [values [Hl [Hc Herr]]]. destruct (crossing_side _ _ _ _ _ _ _ Hm Hc) as [now [l [Hn [Hls [Hs Hab]]]]].
    pose proof (nth_have S values now (e_param e) Hn ltac:(lia) ltac:(lia)) as T.
    pose proof (takes_side _ _ _ _ _ Hlo Hup T Hs) as Hs'. split.
    - unfold on_side in *. destruct up; lra.
    - exists values, l. split; [exists now; split; assumption|]. split; assumption. }
  split; intros W; [specialize (G false _ (H1 W))|specialize (G true _ (H2 W))]; exact G.
Qed.
Print Assumptions C67_right_side.

(** A crossing is accepted when it is the first point looked at, or the fifth in a row, if no warning was given for this parameter. *)
Theorem C67_accepted_first_or_fifth : forall S r cov sigma tol poi st st' e,
  one_param S r cov sigma tol poi st = (st', Done e) -> e_lower_warned e = false -> e_upper_warned e = false ->
  exists lo up, start_values S r cov sigma poi false = Ok lo /\ start_values S r cov sigma poi true = Ok up
    /\ (exists pts x, visited (s_solver S poi false lo) (pts ++ [x]) /\ settled (crossing S r sigma tol poi false) pts x
          /\ (e_lower e == nth poi x 0 - nth poi (f_vals r) 0)%Q)
    /\ (exists pts x, visited (s_solver S poi true up) (pts ++ [x]) /\ settled (crossing S r sigma tol poi true) pts x
          /\ (e_upper e == nth poi x 0 - nth poi (f_vals r) 0)%Q).
Proof.
  intros S r cov sigma tol poi st st' e H W1 W2. unfold one_param in H. destruct (negb _) in H; [discriminate|].
  destruct (start_values S r cov sigma poi false) as [lo|]; [|discriminate].
  destruct (start_values S r cov sigma poi true) as [up|]; [|discriminate].
  destruct (s_loss S _) as [?|]; [|discriminate].
  destruct (one_side S r sigma tol poi false lo _) as [st1 [[l wl]| |]] eqn:E1; try discriminate.
  destruct (one_side S r sigma tol poi true up st1) as [st2 [[u wu]| |]] eqn:E2; try discriminate.
  inversion H; subst. cbn in W1, W2. subst wl wu. exists lo, up. split; [reflexivity|]. split; [reflexivity|].
  destruct (one_side_settled _ _ _ _ _ _ _ _ _ _ E1) as [Hn G1]; [apply Nat.ltb_lt; reflexivity|].
  destruct (one_side_settled _ _ _ _ _ _ _ _ _ _ E2 Hn) as [_ G2]. split; assumption.
Qed.
Print Assumptions C67_accepted_first_or_fifth.

(** With a warning, the error leads to the point where the root finder ended by itself; it was told the distance of the loss to the level
    and the gradient for the other parameters at all points it asked for. *)
Theorem C67_warned_errors : forall S r cov sigma tol poi st st' e, one_param S r cov sigma tol poi st = (st', Done e) ->
  (e_lower_warned e = true -> exists lo x, start_values S r cov sigma poi false = Ok lo
      /\ ends S r sigma poi false (s_solver S poi false lo) x /\ (e_lower e == nth poi x 0 - nth poi (f_vals r) 0)%Q)
  /\ (e_upper_warned e = true -> exists up x, start_values S r cov sigma poi true = Ok up
      /\ ends S r sigma poi true (s_solver S poi true up) x /\ (e_upper e == nth poi x 0 - nth poi (f_vals r) 0)%Q).
Proof.
  intros S r cov sigma tol poi st st' e H. unfold one_param in H. destruct (negb _) in H; [discriminate|].
  destruct (start_values S r cov sigma poi false) as [lo|]; [|discriminate].
  destruct (start_values S r cov sigma poi true) as [up|]; [|discriminate].
  destruct (s_loss S _) as [?|]; [|discriminate].
  destruct (one_side S r sigma tol poi false lo _) as [st1 [[l wl]| |]] eqn:E1; try discriminate.
  destruct (one_side S r sigma tol poi true up st1) as [st2 [[u wu]| |]] eqn:E2; try discriminate.
  inversion H; subst. cbn [e_lower_warned e_upper_warned e_lower e_upper]. split; intros ->.
  - destruct (one_side_warned _ _ _ _ _ _ _ _ _ _ E1) as [x Hx]. exists lo, x. split; [reflexivity|exact Hx].
  - destruct (one_side_warned _ _ _ _ _ _ _ _ _ _ E2) as [x Hx]. exists up, x. split; [reflexivity|exact Hx].
Qed.
Print Assumptions C67_warned_errors.

(** If a new minimum is found, the new result has a lower minimum, the errors belong to it, and the parameters are left at its values;
    the level is that of the confidence level, or 1 whatever was asked for, and the tolerance is multiplied by errordef again. *)
Theorem C67_new_minimum : forall depth S r ps cl sigma rtol covm st st' es r',
  compute_errors depth S r ps cl sigma rtol covm st = (st', Ok (es, Some r')) ->
  (f_min r' < f_min r)%Q /\ p_vals st' = f_vals r'
  /\ exists sg tol, asked_level S cl None sg /\ errors_of S r' sg tol ps es
      /\ exists k, 2 <= k /\ (tol == tolerance rtol * s_errordef S ^ Z.of_nat k)%Q.
Proof.
  intros depth S r ps cl sigma rtol covm st st' es r' H. destruct (compute_ok _ _ _ _ _ _ _ _ _ _ _ _ H) as [H0 [sg [tol [H1 [H2 [_ [H3 H4]]]]]]].
  split; [exact H0|]. split; [exact H3|]. exists sg, tol. auto.
Qed.
Print Assumptions C67_new_minimum.

(** The start values are within the limits: the step, scaled down to 0.8 of it as often as needed and less than 50 times. *)
Theorem C67_start_values : forall S r cov sigma poi up xs i v,
  start_values S r cov sigma poi up = Ok xs -> nth_error xs i = Some v ->
  let b := nth i (s_bounds S) (None, None) in
  let fit := nth i (f_vals r) 0%Q in
  let step := ((if up then 1 else -(1)) * (cov poi i * s_sqrt S (2 * s_errordef S / (s_sqrt S (cov poi poi) * s_sqrt S (cov poi poi)))) * sigma)%Q in
  length xs = length (f_vals r) /\ allowed b v
  /\ exists k, k < 50 /\ (v == fit + step * (4 # 5) ^ Z.of_nat k)%Q /\ forall j, j < k -> ~ allowed b (fit + step * (4 # 5) ^ Z.of_nat j)%Q.
Proof.
  intros S r cov sigma poi up xs i v H Hi b fit step. apply mapM_ok in H.
  pose proof (Forall2_length' _ _ _ H) as Hl. rewrite seq_length in Hl. split; [symmetry; exact Hl|].
  assert (Hlt : i < length xs) by (apply nth_error_Some; congruence).
  pose proof (proj2 (proj1 (Forall2_nth _ _ _) H)) as G.
  assert (Hs : nth_error (seq 0 (length (f_vals r))) i = Some i).
  { rewrite (nth_error_nth' _ 0) by (rewrite seq_length; lia). rewrite seq_nth by lia. reflexivity. }
  specialize (G i _ _ Hs Hi). cbn beta in G. unfold start_value in G. cbv zeta in G.
  destruct (shrink_ok _ _ _ _ _ G) as [k [Hk [Hx [Ha Hj]]]]. split; [exact Ha|]. exists k. split; [exact Hk|]. split; [exact Hx|exact Hj].
Qed.
Print Assumptions C67_start_values.

(** If a parameter correlated with the one asked for (or this one itself) is at one of its limits after the fit, there are no errors but
    a RuntimeError. *)
Theorem C67_at_limit_always_fails : forall depth S r cov poi i ps cl sigma sg rtol covm st,
  f_cov r covm = Some cov -> asked_level S cl sigma sg -> (0 < sg)%Q -> (0 < s_errordef S)%Q -> (0 < cov poi poi)%Q ->
  (forall q, 0 < q -> 0 < s_sqrt S q)%Q ->
  poi < length (f_vals r) -> i < length (f_vals r) -> ~ (cov poi i == 0)%Q ->
  (fst (nth i (s_bounds S) (None, None)) = Some (nth i (f_vals r) 0%Q) \/ snd (nth i (s_bounds S) (None, None)) = Some (nth i (f_vals r) 0%Q)) ->
  snd (compute_errors (Datatypes.S depth) S r (poi :: ps) cl sigma rtol covm st) = Err RuntimeError.
Proof.
  intros depth S r cov poi i ps cl sigma sg rtol covm st Hcov Hl Hsg Hed Hvar Hsq Hpoi Hi Hne Hlim.
  apply level_asked in Hl. cbn [compute_errors]. rewrite Hl, Hcov. cbv zeta. cbn [all_of_them].
  set (ef := (s_sqrt S (2 * s_errordef S / (s_sqrt S (cov poi poi) * s_sqrt S (cov poi poi))))%Q).
  assert (Hef : (0 < ef)%Q).
  { apply Hsq. pose proof (Hsq _ Hvar) as Hv. apply Qlt_shift_div_l; [apply Qmult_lt_0_compat; assumption|]. lra. }
  assert (Hbad : exists up, start_values S r cov sg poi up = Err RuntimeError).
  { assert (Hin : In i (seq 0 (length (f_vals r)))) by (apply in_seq; lia).
    assert (Hex : exists up : bool, shrink 50 (nth i (s_bounds S) (None, None)) (nth i (f_vals r) 0%Q) ((if up then 1 else -(1)) * (cov poi i * ef) * sg)%Q = Err RuntimeError).
    { assert (Hef' : (0 < ef * sg)%Q) by (apply Qmult_lt_0_compat; assumption).
      assert (Hc : (0 < cov poi i \/ cov poi i < 0)%Q).
      { destruct (Qlt_le_dec 0 (cov poi i)) as [C|C]; [left; exact C|]. right. apply Qle_lteq in C. destruct C as [C|C]; [exact C|contradiction]. }
      assert (Hs : (0 < cov poi i * (ef * sg) \/ 0 < (- cov poi i) * (ef * sg))%Q).
      { destruct Hc as [Hc|Hc]; [left|right]; apply Qmult_lt_0_compat; lra. }
      destruct Hlim as [Hlo|Hup].
      - destruct Hs as [Hs|Hs]; [exists false|exists true]; apply at_limit_never; right; eexists; (split; [exact Hlo|]); split; [reflexivity|lra|reflexivity|lra].
      - destruct Hs as [Hs|Hs]; [exists true|exists false]; apply at_limit_never; left; eexists; (split; [exact Hup|]); split; [reflexivity|lra|reflexivity|lra]. }
    destruct Hex as [up Hup]. exists up. unfold start_values. eapply mapM_one_err; [exact Hin| |].
    - intros y e' _ E. eapply start_err, E.
    - unfold start_value. cbv zeta. fold ef. exact Hup. }
  assert (Hsv : forall up e, start_values S r cov sg poi up = Err e -> e = RuntimeError).
  { intros up e E. unfold start_values in E.
    assert (G : forall l e, mapM (fun i => start_value S (nth i (s_bounds S) (None, None)) (nth i (f_vals r) 0%Q) (cov poi i) (cov poi poi) sg up) l = Err e -> e = RuntimeError).
    { induction l as [|y l IH]; intros e0 E0; [discriminate|]. cbn [mapM] in E0.
      destruct (start_value _ _ _ _ _ _ _) as [x|e1] eqn:E1; cbn [bind] in E0; [|inversion E0; subst; eapply start_err, E1].
      destruct (mapM _ l) as [xs|e2] eqn:E2; [discriminate|]. inversion E0; subst. apply IH. reflexivity. }
    apply (G _ _ E). }
  unfold one_param. apply Nat.ltb_lt in Hpoi. rewrite Hpoi. cbn [negb].
  destruct (start_values S r cov sg poi false) as [lo|e1] eqn:E1.
  - destruct (start_values S r cov sg poi true) as [up|e2] eqn:E2.
    + destruct Hbad as [[|] Hb]; congruence.
    + rewrite (Hsv _ _ E2). reflexivity.
  - rewrite (Hsv _ _ E1). reflexivity.
Qed.
Print Assumptions C67_at_limit_always_fails.

(* ---------- examples ---------- *)
Definition ex_sqrt (q : Q) : Q := let q := Qred q in Z.sqrt (Qnum q) # Pos.sqrt (Qden q).
Definition start (vals : list Q) : pstate := mkP vals 0 0 None.
Definition unit_cov (i j : nat) : Q := if Nat.eqb i j then 1%Q else 0%Q.
Definition fit_at (vals : list Q) (fmin : Q) : fitres := mkFit vals fmin (fun _ => Some unit_cov).
Definition ex_setting (bs : list bounds) (loss : list Q -> Q) (mini : list Q -> result fitres) (sol : nat -> bool -> list Q -> solver) : setting :=
  mkSetting bs (fun x => Ok (loss x, x)) (1 # 2) (1 # 1000) mini sol (fun _ => []) ex_sqrt (fun c => c).
Definition val (x : list Q) (k : nat) : Q := nth k x 0%Q.
Definition first_point (poi : nat) (up : bool) (x0 : list Q) : solver := SEval x0 (fun _ => SDone x0).
Fixpoint stay (n : nat) (x : list Q) : solver := match n with O => SDone x | Datatypes.S n => SEval x (fun _ => stay n x) end.

(** a parabola: the errors are the standard deviations, without a warning; the hypotheses of the theorems are met *)
Definition parabola : setting := ex_setting [(Some (-(3))%Q, Some 3%Q)] (fun x => (val x 0 * val x 0 / 2)%Q) (fun _ => Err RuntimeError) first_point.
Example C67_nonvacuous : exists st e,
  compute_errors 1 parabola (fit_at [0%Q] 0) [0] None (Some 2%Q) None None (start [1%Q]) = (st, Ok ([e], None))
  /\ (e_lower e == - (2))%Q /\ (e_upper e == 2)%Q /\ e_lower_warned e = false /\ e_upper_warned e = false
  /\ really_minimum parabola (fit_at [0%Q] 0) 2 ((3 # 1000) * (1 # 2)).
Proof.
  eexists _, _. split; [vm_compute; reflexivity|]. cbn [e_lower e_upper e_lower_warned e_upper_warned].
  split; [reflexivity|]. split; [reflexivity|]. split; [reflexivity|]. split; [reflexivity|]. split.
  - intros now l g E. cbn in E. injection E as E1 E2. rewrite <- E1. cbn [f_min fit_at s_errordef parabola ex_setting].
    assert (0 <= val now 0 * val now 0)%Q by (destruct (Qlt_le_dec (val now 0) 0) as [C|C]; nra).
    unfold Qdiv. cbn. lra.
  - cbn. lra.
Qed.
Example C67_warned_nonvacuous : exists st e,
  compute_errors 1 (ex_setting [(None, None)] (fun x => (val x 0 * val x 0)%Q) (fun _ => Err RuntimeError) first_point)
    (fit_at [0%Q] 0) [0] None None None None (start [1%Q]) = (st, Ok ([e], None))
  /\ e_lower_warned e = true /\ e_upper_warned e = true /\ (e_upper e == 1)%Q.
Proof. eexists _, _. split; [vm_compute; reflexivity|]. repeat split; reflexivity. Qed.
Example C67_at_limit_nonvacuous :
  snd (compute_errors 1 (ex_setting [(Some 0%Q, Some 3%Q)] (fun x => (val x 0 * val x 0 / 2)%Q) (fun _ => Err RuntimeError) first_point)
         (fit_at [0%Q] 0) [0] None None None None (start [1%Q])) = Err RuntimeError.
Proof. vm_compute. reflexivity. Qed.

(** A lower error is positive, without a warning: if the loss is below the minimum on the other side by the level, this counts as a
    crossing and not as a new minimum. *)
Theorem C67_wrong_side_refuted : exists S r st st' e,
  compute_errors 1 S r [0] None None None None st = (st', Ok ([e], None)) /\ e_lower_warned e = false /\ (e_lower e == 3)%Q
  /\ exists l g, s_loss S [3%Q] = Ok (l, g) /\ (l < f_min r - (1 # 4))%Q.
Proof.
  exists (ex_setting [(None, None)] (fun x => if Qle_bool (val x 0) (-(1)) then 2%Q else if Qle_bool 3 (val x 0) then -(1 # 2)%Q else (val x 0 * val x 0 / 2)%Q)
            (fun _ => Err RuntimeError) (fun _ up x0 => SEval x0 (fun _ => if up then SDone x0 else stay 5 [3%Q]))).
  exists (fit_at [0%Q] 0), (start [0%Q]). do 2 eexists. split; [vm_compute; reflexivity|].
  split; [reflexivity|]. split; [reflexivity|]. do 2 eexists. split; [vm_compute; reflexivity|]. reflexivity.
Qed.
Print Assumptions C67_wrong_side_refuted.

(** The other parameters are not at the minimum for the value reached: the loss is the only thing that is tested, so that the first
    point can be accepted. Here the loss is x^2/2 + y^2/2 + x^2*y/2 with minimum 0 at the origin and the unit matrix as covariance. *)
Theorem C67_not_profiled_refuted : exists S r st st' e,
  compute_errors 1 S r [0] None None None None st = (st', Ok ([e], None)) /\ e_lower_warned e = false /\ (e_lower e == -(1))%Q
  /\ (forall x y g l, s_loss S [x; y] = Ok (l, g) -> l == x * x / 2 + y * y / 2 + x * x * y / 2)%Q
  /\ f_vals r = [0; 0]%Q
  /\ exists l g, s_loss S [-(1); -(1 # 2)]%Q = Ok (l, g) /\ (l < f_min r + s_errordef S - (1 # 10))%Q.
Proof.
  exists (ex_setting [(None, None); (None, None)]
            (fun v => (val v 0 * val v 0 / 2 + val v 1 * val v 1 / 2 + val v 0 * val v 0 * val v 1 / 2)%Q) (fun _ => Err RuntimeError) first_point).
  exists (fit_at [0; 0]%Q 0), (start [0; 0]%Q). do 2 eexists. split; [vm_compute; reflexivity|].
  split; [reflexivity|]. split; [reflexivity|]. split; [intros x y g l E; cbn in E; inversion E; reflexivity|]. split; [reflexivity|].
  do 2 eexists. split; [vm_compute; reflexivity|]. reflexivity.
Qed.
Print Assumptions C67_not_profiled_refuted.

(** An error can lead out of the limits of the parameter: the loss is evaluated at the limit, but the value asked for is reported. *)
Theorem C67_beyond_limit_refuted : exists S r st st' e,
  compute_errors 1 S r [0] None None None None st = (st', Ok ([e], None)) /\ e_upper_warned e = false
  /\ s_bounds S = [(None, Some (3 # 2)%Q)] /\ (nth 0 (f_vals r) 0 + e_upper e == 5)%Q.
Proof.
  exists (ex_setting [(None, Some (3 # 2)%Q)] (fun x => (val x 0 * val x 0 * (2 # 9))%Q) (fun _ => Err RuntimeError)
            (fun _ up x0 => SEval x0 (fun _ => if up then stay 5 [5%Q] else SDone x0))).
  exists (fit_at [0%Q] 0), (start [0%Q]). do 2 eexists. split; [vm_compute; reflexivity|]. repeat split; reflexivity.
Qed.
Print Assumptions C67_beyond_limit_refuted.

(** After a new minimum the errors are for one standard deviation although two were asked for. *)
Theorem C67_level_lost_refuted : exists S r r' st st' e,
  compute_errors 2 S r [0] None (Some 2%Q) None None st = (st', Ok ([e], Some r')) /\ e_lower_warned e = false
  /\ (e_lower e == -(1))%Q /\ ~ crossing S r' 2 (3 # 1000) 0 false [nth 0 (f_vals r') 0 + e_lower e]%Q
  /\ crossing S r' 2 (3 # 1000) 0 false [nth 0 (f_vals r') 0 - 2]%Q.
Proof.
  set (S := ex_setting [(None, None)] (fun x => ((val x 0 - 1) * (val x 0 - 1) / 2)%Q) (fun _ => Ok (fit_at [1%Q] 0))
            (fun _ up x0 => SEval x0 (fun _ => SEval [1%Q] (fun _ => SDone x0)))).
  exists S, (fit_at [0%Q] (1 # 2)), (fit_at [1%Q] 0), (start [0%Q]). do 2 eexists. split; [vm_compute; reflexivity|].
  split; [reflexivity|]. split; [reflexivity|]. split.
  - intros [now [l [Hn [Hl Hc]]]]. apply have_fun in Hn. subst now. destruct Hl as [[g Hl]|[Hl _]]; [|vm_compute in Hl; discriminate].
    vm_compute in Hl. inversion Hl; subst l. destruct Hc as [[_ Hc]|[Hs _]].
    + vm_compute in Hc. discriminate.
    + apply Hs. vm_compute. discriminate.
  - eexists (read_all S _), _. split; [apply read_have|]. split; [left; eexists; vm_compute; reflexivity|].
    left. split; [vm_compute; discriminate|vm_compute; reflexivity].
Qed.
Print Assumptions C67_level_lost_refuted.

(** After an exception (here from the loss) the parameters are not at the values of the fit. *)
Theorem C67_values_after_exception_refuted : exists S r st st',
  compute_errors 1 S r [0] None None None None st = (st', Err ValueError) /\ p_vals st = f_vals r /\ p_vals st' <> f_vals r.
Proof.
  exists (mkSetting [(None, None)] (fun x => if Qle_bool 1 (val x 0) then Err ValueError else Ok ((val x 0 * val x 0 / 2)%Q, x)) (1 # 2) (1 # 1000)
            (fun _ => Err RuntimeError) first_point (fun _ => []) ex_sqrt (fun c => c)).
  exists (fit_at [0%Q] 0), (start [0%Q]). eexists. split; [vm_compute; reflexivity|]. split; [reflexivity|]. cbn. discriminate.
Qed.
Print Assumptions C67_values_after_exception_refuted.
