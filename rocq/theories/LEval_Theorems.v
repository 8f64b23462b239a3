(** C42: the evaluation of the loss during a minimisation. *)
From Verif Require Import Base Param_Model LEval_Model LEval_Spec LEval_Proofs.
From Coq Require Import Lqa.
#[local] Open Scope nat_scope.

(** ** The limit *)

(** For every history of requests (of any length, mixing the kinds, with nested blocks in which
    the limit is ignored, whatever the loss did): a request is answered by
    MaximumIterationReached exactly if it is made outside of the blocks, a maximum is set and
    one of the kinds of evaluation was asked for more often than that, this request included.
    The parameters are moved exactly if the request is not refused. *)
Theorem C42_maxiter S hist r : s_print S = false -> no_abandon hist -> evaluates r = true -> own_errors r ->
  let st := reached S hist in
  (says_maxiter (snd (answer S st r)) = true <->
   inside hist = 0 /\ exists m k, s_maxiter S = Some m /\ m < asked k (r :: hist)) /\
  (says_maxiter (snd (answer S st r)) = true -> e_at (fst (answer S st r)) = e_at st) /\
  (says_maxiter (snd (answer S st r)) = false ->
   e_at (fst (answer S st r)) =
   match r with RValue vs _ | RValueGradient vs _ | RGradient vs _ | RHessian vs _ => Some vs | _ => None end).
Proof.
  intros NP NA EV OE st. assert (I := reached_inv S NP hist NA). fold st in I.
  assert (RI : refused (s_maxiter S) hist r = true <->
               inside hist = 0 /\ exists m k, s_maxiter S = Some m /\ m < asked k (r :: hist)).
  { unfold refused, exceeded. rewrite andb_true_iff, Nat.eqb_eq.
    split; intros [A B]; (split; [exact A|]).
    - destruct (s_maxiter S) as [m|]; [|discriminate]. apply existsb_exists in B. destruct B as (k&_&K).
      apply Nat.ltb_lt in K. exists m, k. split; [reflexivity|exact K].
    - destruct B as (m&k&E&L). rewrite E. apply existsb_exists. exists k. split; [destruct k; cbn; auto|apply Nat.ltb_lt, L]. }
  rewrite <- RI.
  destruct r as [vs o|vs o|vs o|vs o| | |]; cbn in EV; try discriminate; cbn [answer].
  - destruct (value_ok S NP hist st vs o I) as (_&H1&H2). destruct (value S st vs o) as [st' a]. cbn [fst snd] in *.
    destruct (refused (s_maxiter S) hist (RValue vs o)).
    + destruct (H1 eq_refl) as [-> E]. split; [split; auto|]. split; [intros _; exact E|discriminate].
    + destruct (H2 eq_refl) as [-> E]. assert (N : says_maxiter (AValue (value_answer S hist o)) = false).
      { unfold value_answer. destruct o as [v| |e]; cbn in OE.
        - destruct (is_nan v); [|reflexivity]. destruct (Nat.ltb _ _); [destruct (last_value _)|]; reflexivity.
        - destruct (Nat.ltb _ _); [destruct (last_value _)|]; reflexivity.
        - destruct e; try reflexivity. contradiction. }
      rewrite N. split; [split; discriminate|]. split; [discriminate|intros _; exact E].
  - destruct (value_gradient_ok S NP hist st vs o I) as (_&H1&H2). destruct (value_gradient S st vs o) as [st' a]. cbn [fst snd] in *.
    destruct (refused (s_maxiter S) hist (RValueGradient vs o)).
    + destruct (H1 eq_refl) as [-> E]. split; [split; auto|]. split; [intros _; exact E|discriminate].
    + destruct (H2 eq_refl) as [-> E]. assert (N : says_maxiter (AValueGradient (value_gradient_answer S hist o)) = false).
      { unfold value_gradient_answer. destruct o as [[v g]| |e]; cbn in OE.
        - destruct (existsb _ _); [reflexivity|]. destruct (_ || _); [|reflexivity]. destruct (Nat.ltb _ _); [destruct (last_value _)|]; reflexivity.
        - destruct (Nat.ltb _ _); [destruct (last_value _)|]; reflexivity.
        - destruct e; try reflexivity. contradiction. }
      rewrite N. split; [split; discriminate|]. split; [discriminate|intros _; exact E].
  - destruct (gradient_ok S hist st vs o I) as (_&H1&H2). destruct (gradient S st vs o) as [st' a]. cbn [fst snd] in *.
    destruct (refused (s_maxiter S) hist (RGradient vs o)).
    + destruct (H1 eq_refl) as [-> E]. split; [split; auto|]. split; [intros _; exact E|discriminate].
    + destruct (H2 eq_refl) as [-> E]. assert (N : says_maxiter (AGradient (gradient_answer S hist o)) = false).
      { unfold gradient_answer. destruct o as [v| |e]; cbn in OE.
        - destruct (existsb _ _); [reflexivity|]. destruct (existsb _ _); [|reflexivity]. destruct (Nat.ltb _ _); reflexivity.
        - destruct (Nat.ltb _ _); reflexivity.
        - destruct e; try reflexivity. contradiction. }
      rewrite N. split; [split; discriminate|]. split; [discriminate|intros _; exact E].
  - destruct (hessian_ok S hist st vs o I) as (_&H1&H2). destruct (hessian S st vs o) as [st' a]. cbn [fst snd] in *.
    destruct (refused (s_maxiter S) hist (RHessian vs o)).
    + destruct (H1 eq_refl) as [-> E]. split; [split; auto|]. split; [intros _; exact E|discriminate].
    + destruct (H2 eq_refl) as [-> E]. assert (N : says_maxiter (AHessian (hessian_answer S hist o)) = false).
      { unfold hessian_answer. destruct o as [v| |e]; cbn in OE.
        - destruct (existsb _ _); [reflexivity|]. destruct (existsb _ _); [|reflexivity]. destruct (Nat.ltb _ _); reflexivity.
        - destruct (Nat.ltb _ _); reflexivity.
        - destruct e; try reflexivity. contradiction. }
      rewrite N. split; [split; discriminate|]. split; [discriminate|intros _; exact E].
Qed.

(** A maximum of two: the third value is refused, and so is a gradient asked for afterwards;
    inside a block the value is calculated. *)
Definition ask (q : Q) : request := RValue [Fin q] (Got (Fin q)).
Definition two : settings := Settings (Some 2) false 100 30.
Example C42_maxiter_second : snd (answer two (reached two [ask 1]) (ask 2)) = AValue (Ok (Fin 2)).
Proof. reflexivity. Qed.
Example C42_maxiter_third : snd (answer two (reached two [ask 2; ask 1]) (ask 3)) = AValue (Err MaximumIterationReached).
Proof. reflexivity. Qed.
Example C42_maxiter_after : snd (answer two (reached two [ask 3; ask 2; ask 1]) (RGradient [Fin 3] (Got [Some (Fin 1)]))) =
  AGradient (Err MaximumIterationReached).
Proof. reflexivity. Qed.
Example C42_maxiter_block : snd (answer two (reached two [REnter; ask 3; ask 2; ask 1]) (ask 4)) = AValue (Ok (Fin 4)).
Proof. reflexivity. Qed.
Example C42_maxiter_left : snd (answer two (reached two [RLeave; ask 4; ask 5; REnter; ask 1]) (ask 4)) = AValue (Ok (Fin 4)).
Proof. reflexivity. Qed.
Print Assumptions C42_maxiter.

(** ** The answers to requests within the limit *)

(** For every history, the value given is the one of the loss; after a NaN or a failed
    numerical check it is the last value that was not NaN plus the penalty times the length of
    the streak of NaNs, or FailMinimizeNaN if the streak reaches the tolerance. Without an
    earlier value the NaN itself is given, or RuntimeError if there is none. *)
Theorem C42_value S hist vs o : s_print S = false -> no_abandon hist ->
  refused (s_maxiter S) hist (RValue vs o) = false ->
  snd (answer S (reached S hist) (RValue vs o)) = AValue (value_answer S hist o).
Proof.
  intros NP NA R. assert (I := reached_inv S NP hist NA). destruct (value_ok S NP hist _ vs o I) as (_&_&H).
  cbn [answer]. destruct (value S (reached S hist) vs o) as [st' a]. cbn [fst snd] in *. destruct (H R) as [-> _]. reflexivity.
Qed.

(** The same for values with gradients; the gradient given after a NaN is minus the last one
    that was good. *)
Theorem C42_value_gradient S hist vs o : s_print S = false -> no_abandon hist ->
  refused (s_maxiter S) hist (RValueGradient vs o) = false ->
  snd (answer S (reached S hist) (RValueGradient vs o)) = AValueGradient (value_gradient_answer S hist o).
Proof.
  intros NP NA R. assert (I := reached_inv S NP hist NA). destruct (value_gradient_ok S NP hist _ vs o I) as (_&_&H).
  cbn [answer]. destruct (value_gradient S (reached S hist) vs o) as [st' a]. cbn [fst snd] in *. destruct (H R) as [-> _]. reflexivity.
Qed.
Theorem C42_gradient S hist vs o : s_print S = false -> no_abandon hist ->
  refused (s_maxiter S) hist (RGradient vs o) = false ->
  snd (answer S (reached S hist) (RGradient vs o)) = AGradient (gradient_answer S hist o).
Proof.
  intros NP NA R. assert (I := reached_inv S NP hist NA). destruct (gradient_ok S hist _ vs o I) as (_&_&H).
  cbn [answer]. destruct (gradient S (reached S hist) vs o) as [st' a]. cbn [fst snd] in *. destruct (H R) as [-> _]. reflexivity.
Qed.
Theorem C42_hessian S hist vs o : s_print S = false -> no_abandon hist ->
  refused (s_maxiter S) hist (RHessian vs o) = false ->
  snd (answer S (reached S hist) (RHessian vs o)) = AHessian (hessian_answer S hist o).
Proof.
  intros NP NA R. assert (I := reached_inv S NP hist NA). destruct (hessian_ok S hist _ vs o I) as (_&_&H).
  cbn [answer]. destruct (hessian S (reached S hist) vs o) as [st' a]. cbn [fst snd] in *. destruct (H R) as [-> _]. reflexivity.
Qed.

(** The default strategy: penalty 100, tolerance 30. Two NaNs after the value 7, then a good
    value and another NaN. *)
Definition nan_value : request := RValue [Fin 0] (Got NaN).
Definition dflt := default_settings None.
Example C42_value_pushback : snd (answer dflt (reached dflt [ask 7]) nan_value) = AValue (Ok (Fin (7 + 100 * 1))).
Proof. reflexivity. Qed.
Example C42_value_pushback2 : snd (answer dflt (reached dflt [nan_value; ask 7]) nan_value) = AValue (Ok (Fin (7 + 100 * 2))).
Proof. reflexivity. Qed.
Example C42_value_reset : snd (answer dflt (reached dflt [ask 5; nan_value; nan_value; ask 7]) nan_value) = AValue (Ok (Fin (5 + 100 * 1))).
Proof. reflexivity. Qed.
Example C42_value_first : snd (answer dflt (reached dflt []) nan_value) = AValue (Ok NaN).
Proof. reflexivity. Qed.
Example C42_value_gradient_case :
  snd (answer dflt (reached dflt [RValueGradient [Fin 1] (Got (Fin 4, [Some (Fin 2)]))])
              (RValueGradient [Fin 1] (Got (Fin 9, [Some NaN])))) =
  AValueGradient (Ok (Fin (4 + 100 * 1), Some [Some (Fin (-2))])).
Proof. reflexivity. Qed.
Print Assumptions C42_value. Print Assumptions C42_value_gradient.
Print Assumptions C42_gradient. Print Assumptions C42_hessian.

(** ** NaNs *)

(** Once a value that is not NaN was seen, no value given to the minimiser is NaN, with or
    without its gradient; and once a good gradient was seen too, no gradient given contains
    a NaN or is missing. *)
Theorem C42_never_nan S hist : s_print S = false -> no_abandon hist ->
  last_value (events (s_maxiter S) hist) <> None ->
  (forall vs o v, snd (answer S (reached S hist) (RValue vs o)) = AValue (Ok v) -> v <> NaN) /\
  (forall vs o v g, snd (answer S (reached S hist) (RValueGradient vs o)) = AValueGradient (Ok (v, g)) -> v <> NaN) /\
  (last_gradient (events (s_maxiter S) hist) <> None ->
   (forall vs o v g, snd (answer S (reached S hist) (RValueGradient vs o)) = AValueGradient (Ok (v, g)) ->
      exists e, g = Some e /\ ~ In (Some NaN) e /\ ~ In None e) /\
   (forall vs o g, snd (answer S (reached S hist) (RGradient vs o)) = AGradient (Ok g) ->
      exists e, g = Some e /\ ~ In (Some NaN) e /\ ~ In None e)).
Proof.
  intros NP NA LV. assert (I := reached_inv S NP hist NA).
  destruct (last_value (events (s_maxiter S) hist)) as [l|] eqn:EL; [|contradiction].
  assert (GL := last_value_good _ _ _ EL).
  assert (NL : forall q, num_add l q <> NaN) by (intros q; destruct l; cbn in *; congruence).
  assert (NN : forall v, is_nan v = false -> v <> NaN) by (intros v H ->; discriminate H).
  assert (GE : forall e, existsb entry_none e = false -> existsb entry_nan e = false -> ~ In (Some NaN) e /\ ~ In None e).
  { intros e H1 H2. split; intros X.
    - assert (existsb entry_nan e = true) by (apply existsb_exists; exists (Some NaN); split; [exact X|reflexivity]). congruence.
    - assert (existsb entry_none e = true) by (apply existsb_exists; exists None; split; [exact X|reflexivity]). congruence. }
  assert (OE : forall e, last_gradient (events (s_maxiter S) hist) = Some e -> ~ In (Some NaN) (opposite e) /\ ~ In None (opposite e)).
  { intros e H. destruct (last_gradient_good _ _ _ H) as [H1 H2]. destruct (GE e H2 H1) as [A B].
    unfold opposite. split; intros X; apply in_map_iff in X; destruct X as ([v|]&X1&X2); cbn in X1; try discriminate.
    - injection X1 as X1. destruct v; cbn in X1; try discriminate. exact (A X2).
    - exact (B X2). }
  split; [|split; [|intros LG; split]].
  - intros vs o v A. destruct (refused (s_maxiter S) hist (RValue vs o)) eqn:R.
    + destruct (value_ok S NP hist _ vs o I) as (_&H&_). cbn [answer] in A. destruct (value S (reached S hist) vs o) as [st' a].
      cbn [snd] in *. destruct (H R) as [-> _]. discriminate.
    + rewrite (C42_value S hist vs o NP NA R) in A. injection A as A. unfold value_answer in A. rewrite EL in A.
      destruct o as [w| |e]; [destruct (is_nan w) eqn:W|..]; try discriminate A;
        try (destruct (Nat.ltb _ _); [|discriminate A]); injection A as <-; auto.
  - intros vs o v g A. destruct (refused (s_maxiter S) hist (RValueGradient vs o)) eqn:R.
    + destruct (value_gradient_ok S NP hist _ vs o I) as (_&H&_). cbn [answer] in A. destruct (value_gradient S (reached S hist) vs o) as [st' a].
      cbn [snd] in *. destruct (H R) as [-> _]. discriminate.
    + rewrite (C42_value_gradient S hist vs o NP NA R) in A. injection A as A. unfold value_gradient_answer in A. rewrite EL in A.
      destruct o as [[w h]| |e]; [destruct (existsb entry_none h); [discriminate A|]; destruct (existsb entry_nan h || is_nan w) eqn:W|..]; try discriminate A;
        try (destruct (Nat.ltb _ _); [|discriminate A]); cbn [bind] in A; injection A as <- _; auto.
      apply orb_false_iff in W. apply NN, W.
  - intros vs o v g A. destruct (last_gradient (events (s_maxiter S) hist)) as [lg|] eqn:EG; [|contradiction].
    destruct (refused (s_maxiter S) hist (RValueGradient vs o)) eqn:R.
    + destruct (value_gradient_ok S NP hist _ vs o I) as (_&H&_). cbn [answer] in A. destruct (value_gradient S (reached S hist) vs o) as [st' a].
      cbn [snd] in *. destruct (H R) as [-> _]. discriminate.
    + rewrite (C42_value_gradient S hist vs o NP NA R) in A. injection A as A. unfold value_gradient_answer in A. rewrite EL, EG in A.
      destruct o as [[w h]| |e]; [destruct (existsb entry_none h) eqn:O; [discriminate A|]; destruct (existsb entry_nan h || is_nan w) eqn:W|..]; try discriminate A;
        try (destruct (Nat.ltb _ _); [|discriminate A]); cbn [bind option_map] in A; injection A as _ <-; eexists; (split; [reflexivity|]); auto.
      apply orb_false_iff in W. apply GE; [exact O|apply W].
  - intros vs o g A. destruct (last_gradient (events (s_maxiter S) hist)) as [lg|] eqn:EG; [|contradiction].
    destruct (refused (s_maxiter S) hist (RGradient vs o)) eqn:R.
    + destruct (gradient_ok S hist _ vs o I) as (_&H&_). cbn [answer] in A. destruct (gradient S (reached S hist) vs o) as [st' a].
      cbn [snd] in *. destruct (H R) as [-> _]. discriminate.
    + rewrite (C42_gradient S hist vs o NP NA R) in A. injection A as A. unfold gradient_answer in A. rewrite EG in A.
      destruct o as [h| |e]; [destruct (existsb entry_none h) eqn:O; [discriminate A|]; destruct (existsb entry_nan h) eqn:W|..]; try discriminate A;
        try (destruct (Nat.ltb _ _); [|discriminate A]); cbn [option_map] in A; injection A as <-; eexists; (split; [reflexivity|]); auto.
Qed.
Example C42_never_nan_case : last_value (events None [nan_value; ask 7]) = Some (Fin 7).
Proof. reflexivity. Qed.
Print Assumptions C42_never_nan.

(** Any number of requests that met NaN, of any kind, in a row after a good value: the next
    value that is NaN is answered by FailMinimizeNaN exactly if it makes the streak as long as
    the tolerance; otherwise by a value larger than the last finite one, and the larger the
    longer the streak is. The streak counts from the last good evaluation. *)
Theorem C42_streak S hist good bads vs o : s_print S = false -> no_abandon hist -> (0 < s_penalty S)%Q ->
  exceeded (s_maxiter S) (RValue vs o :: bads ++ good :: hist) = false ->
  (exists l, event_of good = [Good (Some (Fin l)) None] \/ exists g, event_of good = [Good (Some (Fin l)) (Some g)]) ->
  Forall bad_request bads -> bad_request (RValue vs o) ->
  let a := snd (answer S (reached S (bads ++ good :: hist)) (RValue vs o)) in
  (a = AValue (Err FailMinimizeNaN) <-> s_tol S <= length bads + 1) /\
  (length bads + 1 < s_tol S -> exists l v,
     last_value (event_of good) = Some (Fin l) /\ a = AValue (Ok (Fin v)) /\ (l < v)%Q /\
     (v == l + s_penalty S * inject_Z (Z.of_nat (length bads + 1)))%Q).
Proof.
  intros NP NA PP X (l&GD) BS B a.
  assert (NA' : no_abandon (bads ++ good :: hist)).
  { intros H. apply in_app_iff in H. destruct H as [H|[H|H]].
    - rewrite Forall_forall in BS. discriminate (BS _ H).
    - subst good. destruct GD as [GD|[g GD]]; discriminate.
    - exact (NA H). }
  assert (X' := exceeded_app _ [_] _ X). assert (X'' := exceeded_app _ bads _ X').
  assert (E : value_answer S (bads ++ good :: hist) o =
              if Nat.ltb (length bads + 1) (s_tol S) then Ok (Fin (l + s_penalty S * inject_Z (Z.of_nat (length bads + 1)))%Q) else Err FailMinimizeNaN).
  { unfold value_answer. rewrite bads_events by assumption. rewrite streak_bads, last_value_bads.
    assert (EG : exists go, events (s_maxiter S) (good :: hist) = Good (Some (Fin l)) go :: events (s_maxiter S) hist).
    { cbn [events]. unfold refused. rewrite X'', andb_false_r. destruct GD as [->|[g ->]]; eexists; reflexivity. }
    destruct EG as [go ->]. cbn [streak last_value num_add]. rewrite Nat.add_0_r.
    unfold bad_request in B. cbn [event_of] in B. destruct o as [v| |e]; [|reflexivity|discriminate].
    destruct (is_nan v); [reflexivity|discriminate]. }
  assert (EA : a = AValue (value_answer S (bads ++ good :: hist) o)).
  { apply C42_value; try assumption. unfold refused. rewrite X, andb_false_r. reflexivity. }
  rewrite EA, E. clear a E EA. destruct (Nat.ltb (length bads + 1) (s_tol S)) eqn:L.
  - apply Nat.ltb_lt in L. split; [split; [discriminate|lia]|]. intros _.
    exists l, (l + s_penalty S * inject_Z (Z.of_nat (length bads + 1)))%Q. split; [|split; [reflexivity|split]].
    + destruct GD as [->|[g ->]]; reflexivity.
    + assert (0 < inject_Z (Z.of_nat (length bads + 1)))%Q.
      { change 0%Q with (inject_Z 0). rewrite <- Zlt_Qlt. lia. }
      assert (M := Qmult_lt_0_compat _ _ PP H). lra.
    + reflexivity.
  - apply Nat.ltb_ge in L. split; [split; auto|lia].
Qed.
(** Thirty NaNs in a row are too many for the default strategy, twenty-nine are not. *)
Example C42_streak_29 : snd (answer dflt (reached dflt (repeat nan_value 28 ++ [ask 7])) nan_value) = AValue (Ok (Fin (7 + 100 * 29))).
Proof. reflexivity. Qed.
Example C42_streak_30 : snd (answer dflt (reached dflt (repeat nan_value 29 ++ [ask 7])) nan_value) = AValue (Err FailMinimizeNaN).
Proof. reflexivity. Qed.
Print Assumptions C42_streak.

(** ** What does not hold *)

(** An exception that leaves a block in which the limit is ignored (a FailMinimizeNaN, say):
    the limit stays ignored for ever. *)
Theorem C42_abandon_refuted : forall n, exists hist,
  inside (filter (fun r => match r with REnter | RAbandon => false | _ => true end) hist) = 0 /\
  n < asked Func (filter (fun r => match r with REnter | RAbandon => false | _ => true end) hist) /\
  forall vs v, v <> NaN -> snd (answer two (reached two hist) (RValue vs (Got v))) = AValue (Ok v).
Proof.
  intros n. exists (repeat (ask 1) (S n) ++ [RAbandon; REnter]).
  assert (F : filter (fun r => match r with REnter | RAbandon => false | _ => true end) (repeat (ask 1) (S n) ++ [RAbandon; REnter]) = repeat (ask 1) (S n)).
  { rewrite filter_app. cbn [filter]. rewrite app_nil_r. induction (S n) as [|k IH]; [reflexivity|]. cbn. f_equal. exact IH. }
  rewrite F. assert (IN : forall k, inside (repeat (ask 1) k) = 0) by (induction k; cbn; auto).
  assert (AS : forall k, asked Func (repeat (ask 1) k) = k).
  { induction k as [|k IH]; [reflexivity|]. cbn [repeat asked]. rewrite IH, IN. cbn. lia. }
  split; [apply IN|]. split; [rewrite AS; lia|].
  assert (IG : e_ignoring (reached two (repeat (ask 1) (S n) ++ [RAbandon; REnter])) = true).
  { generalize (S n). intros k. unfold reached, after. induction k as [|k IH]; [reflexivity|].
    cbn [repeat app rev]. rewrite fold_left_app. cbn [fold_left].
    match goal with |- e_ignoring (fst (answer two ?s _)) = _ => set (st := s) in * end.
    cbn [answer ask]. unfold value. cbn [count]. rewrite IH. cbn. exact IH. }
  intros vs v NV. cbn [answer]. unfold value. cbn [count]. rewrite IG.
  assert (NN : is_nan v = false) by (destruct v; [reflexivity..|contradiction]). rewrite NN. reflexivity.
Qed.
Print Assumptions C42_abandon_refuted.

(** A gradient that is NaN before any good gradient was seen is answered by none at all, though
    a finite value was seen. *)
Theorem C42_gradient_refuted :
  last_value (events None [ask 7]) = Some (Fin 7) /\
  snd (answer dflt (reached dflt [ask 7]) (RGradient [Fin 7] (Got [Some NaN]))) = AGradient (Ok None).
Proof. split; reflexivity. Qed.
Print Assumptions C42_gradient_refuted.

(** A Hessian that is NaN is given to the minimiser as it is, whatever was seen before. *)
Theorem C42_hessian_refuted S hist vs h : s_print S = false -> no_abandon hist ->
  refused (s_maxiter S) hist (RHessian vs (Got h)) = false ->
  In (Some NaN) h -> ~ In None h -> streak (events (s_maxiter S) hist) + 1 < s_tol S ->
  snd (answer S (reached S hist) (RHessian vs (Got h))) = AHessian (Ok (Some h)).
Proof.
  intros NP NA R N O L. rewrite C42_hessian by assumption. unfold hessian_answer.
  assert (existsb entry_none h = false) as ->.
  { destruct (existsb entry_none h) eqn:E; [|reflexivity]. apply existsb_exists in E. destruct E as ([v|]&E1&E2); [discriminate|contradiction]. }
  assert (existsb entry_nan h = true) as -> by (apply existsb_exists; exists (Some NaN); split; [exact N|reflexivity]).
  apply Nat.ltb_lt in L. rewrite L. reflexivity.
Qed.
Example C42_hessian_case : snd (answer dflt (reached dflt [ask 7]) (RHessian [Fin 7] (Got [Some NaN]))) = AHessian (Ok (Some [Some NaN])).
Proof. reflexivity. Qed.
Print Assumptions C42_hessian_refuted.

(** With printing switched on a failed numerical check is not pushed back but ends in
    ValueError: the attempt to print the value raises. *)
Theorem C42_print_refuted m penalty tol vs : m <> Some 0 ->
  snd (answer (Settings m true penalty tol) start (RValue vs Invalid)) = AValue (Err ValueError).
Proof.
  intros M. cbn [answer]. unfold value. cbn [count e_ignoring start]. unfold maxiter_reached. cbn [s_maxiter].
  destruct m as [n|]; [|reflexivity]. assert (L : Nat.ltb n (niter (bump Func start)) = false).
  { apply Nat.ltb_ge. cbn. destruct n; [contradiction|lia]. }
  rewrite L, andb_false_r. reflexivity.
Qed.
Example C42_print_case : snd (answer dflt (reached dflt [ask 1]) (RValue [Fin 0] Invalid)) = AValue (Ok (Fin (1 + 100 * 1))).
Proof. reflexivity. Qed.
Print Assumptions C42_print_refuted.
