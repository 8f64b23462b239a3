From Verif Require Import Base BaseLemmas Prof_Model Prof_Spec Prof_Proofs.
From Coq Require Import QArith Qabs Qpower Lqa Lia.
#[local] Open Scope nat_scope.

Lemma one_side_done S r sg tol poi up x0 st st' err w : one_side S r sg tol poi up x0 st = (st', Done (err, w)) ->
  (w = false -> error_at_crossing S r sg tol poi up err).
Proof.
  unfold one_side. intros H ->. destruct (run S r sg tol poi up (s_solver S poi up x0) st) as [st1 []] eqn:E; try discriminate.
  destruct (run_found _ _ _ _ _ _ _ _ _ E) as [pts [x [V [C [L [Rt _]]]]]]. rewrite Rt in H. inversion H; subst.
  exists x. split; [exact L|]. split; [exact C|reflexivity].
Qed.
Lemma one_param_done S r cov sg tol poi st st' e : one_param S r cov sg tol poi st = (st', Done e) ->
  e_param e = poi /\ poi < length (f_vals r)
  /\ (e_lower_warned e = false -> error_at_crossing S r sg tol poi false (e_lower e))
  /\ (e_upper_warned e = false -> error_at_crossing S r sg tol poi true (e_upper e)).
Proof.
  unfold one_param. destruct (Nat.ltb_spec poi (length (f_vals r))) as [Hp|Hp]; cbn [negb]; [|discriminate].
  destruct (start_values S r cov sg poi false) as [lo|]; [|discriminate].
  destruct (start_values S r cov sg poi true) as [up|]; [|discriminate].
  destruct (s_loss S _) as [?|]; [|discriminate].
  destruct (one_side S r sg tol poi false lo _) as [st1 [[l wl]| |]] eqn:E1; try discriminate.
  destruct (one_side S r sg tol poi true up st1) as [st2 [[u wu]| |]] eqn:E2; try discriminate.
  intros H. inversion H; subst. cbn. split; [reflexivity|]. split; [exact Hp|]. split; intros W; eapply one_side_done; eassumption.
Qed.
Lemma all_done S r cov sg tol ps : forall st st' es, all_of_them S r cov sg tol ps st = (st', Done es) ->
  errors_of S r sg tol ps es /\ (forall p, In p ps -> p < length (f_vals r)) /\ p_vals st' = f_vals r.
Proof.
  induction ps as [|p ps IH]; intros st st' es H; cbn [all_of_them] in H.
  - inversion H; subst. split; [split; [reflexivity|intros e []]|]. split; [intros p []|reflexivity].
  - destruct (one_param S r cov sg tol p st) as [st1 [e| |]] eqn:E; try discriminate.
    destruct (all_of_them S r cov sg tol ps st1) as [st2 [es'| |]] eqn:E2; try discriminate. inversion H; subst.
    destruct (IH _ _ _ E2) as [[H1 H2] [H3 H4]]. destruct (one_param_done _ _ _ _ _ _ _ _ _ E) as [P1 [P2 [P3 P4]]].
    split; [split; [cbn; rewrite P1, H1; reflexivity|]|].
    + intros e' [<-|He]; [rewrite P1; split; assumption|apply H2, He].
    + split; [intros q [<-|Hq]; [exact P2|apply H3, Hq]|exact H4].
Qed.

(* new minimum *)
Definition lower_there (S : setting) (r : fitres) (st : pstate) : Prop :=
  exists l, (exists g, s_loss S (read_all S (p_vals st)) = Ok (l, g)) /\ (l < f_min r - s_tol S * s_errordef S * 2)%Q
        \/ s_loss S (read_all S (p_vals st)) = Err InvalidArgumentError.
Lemma run_lower S r sg tol poi up t : forall st st', run S r sg tol poi up t st = (st', Lower) -> lower_there S r st'.
Proof.
  induction t as [x|x k IH|e]; intros st st' H; cbn [run] in H; [discriminate| |discriminate].
  destruct (func S r sg tol poi up st x) as [st1 a] eqn:E. destruct a as [out| | |e]; try discriminate.
  - apply (IH out _ _ H).
  - inversion H; subst st1. pose proof (func_cases _ _ _ _ _ _ _ _ _ _ E) as [Hl [l C]].
    pose proof (func_vals _ _ _ _ _ _ _ _ _ _ E Hl) as Hv. exists l. rewrite Hv. exact C.
Qed.
Lemma one_side_restart S r sg tol poi up x0 st st' : one_side S r sg tol poi up x0 st = (st', Restart) -> lower_there S r st'.
Proof.
  unfold one_side. intros H. destruct (run S r sg tol poi up (s_solver S poi up x0) st) as [st1 []] eqn:E; try discriminate.
  - destruct (p_root st1); discriminate.
  - inversion H; subst. eapply run_lower, E.
Qed.
Lemma all_restart S r cov sg tol ps : forall st st', all_of_them S r cov sg tol ps st = (st', Restart) -> lower_there S r st'.
Proof.
  induction ps as [|p ps IH]; intros st st' H; cbn [all_of_them] in H; [discriminate|].
  destruct (one_param S r cov sg tol p st) as [st1 [e| |]] eqn:E; try discriminate.
  - destruct (all_of_them S r cov sg tol ps st1) as [st2 [es'| |]] eqn:E2; try discriminate. inversion H; subst. eapply IH, E2.
  - inversion H; subst. unfold one_param in E. destruct (negb _) in E; [discriminate|].
    destruct (start_values S r cov sg p false) as [lo|]; [|discriminate].
    destruct (start_values S r cov sg p true) as [up|]; [|discriminate].
    destruct (s_loss S _) as [?|]; [|discriminate].
    destruct (one_side S r sg tol p false lo _) as [st1 [[l wl]| |]] eqn:E1; try discriminate.
    + destruct (one_side S r sg tol p true up st1) as [st2 [[u wu]| |]] eqn:E2; try discriminate.
      inversion E; subst. eapply one_side_restart, E2.
    + inversion E; subst. eapply one_side_restart, E1.
Qed.

Lemma level_asked S cl sigma sg : level S cl sigma = Ok sg <-> asked_level S cl sigma sg.
Proof.
  unfold level. split.
  - destruct cl, sigma; intros H; inversion H; constructor.
  - intros H. destruct H; reflexivity.
Qed.

Lemma compute_ok depth : forall S r ps cl sigma rtol covm st st' es new,
  compute_errors depth S r ps cl sigma rtol covm st = (st', Ok (es, new)) ->
  match new with
  | None => exists sg, asked_level S cl sigma sg /\ errors_of S r sg (tolerance rtol * s_errordef S)%Q ps es
              /\ (forall p, In p ps -> p < length (f_vals r)) /\ p_vals st' = f_vals r
  | Some r' => (f_min r' < f_min r)%Q /\ exists sg tol, asked_level S cl None sg /\ errors_of S r' sg tol ps es
              /\ (forall p, In p ps -> p < length (f_vals r')) /\ p_vals st' = f_vals r'
              /\ exists k, 2 <= k /\ (tol == tolerance rtol * s_errordef S ^ Z.of_nat k)%Q
  end.
Proof.
  induction depth as [|depth IH]; intros S r ps cl sigma rtol covm st st' es new H; cbn [compute_errors] in H; [discriminate|].
  destruct (level S cl sigma) as [sg|] eqn:EL; [|discriminate].
  fold (tolerance rtol) in H. cbv zeta in H.
  destruct (match f_cov r covm with Some c => Some c | None => f_cov r (Some "hesse_np"%string) end) as [cov|]; [|discriminate].
  destruct (all_of_them S r cov sg (tolerance rtol * s_errordef S) ps st) as [st1 [es1| |e]] eqn:EA; [| |discriminate].
  - inversion H; subst. destruct (all_done _ _ _ _ _ _ _ _ _ EA) as [H1 [H2 H3]]. exists sg. split; [apply level_asked, EL|]. auto.
  - pose proof (all_restart _ _ _ _ _ _ _ _ EA) as LT.
    destruct (s_loss S (read_all S (p_vals st1))) as [[newmin g]|] eqn:EN; [|discriminate].
    destruct (s_minimize S (p_vals st1)) as [r'|]; [|discriminate].
    destruct (Qle_bool _ (f_min r')) eqn:EM; [discriminate|]. apply Qle_f in EM.
    assert (Hlow : (f_min r' < f_min r)%Q).
    { unfold lower_there in LT. destruct LT as [l [[[g' El] Hl]|El]]; rewrite EN in El; [|discriminate]. inversion El; subst. lra. }
    destruct (compute_errors depth S r' ps cl None (Some (tolerance rtol * s_errordef S)%Q) None (assign st1 (f_vals r'))) as [st2 [[es2 o]|e]] eqn:EC; [|discriminate].
    specialize (IH _ _ _ _ _ _ _ _ _ _ _ EC). cbn [tolerance] in IH. destruct o as [r''|]; inversion H; subst.
    + destruct IH as [Hlow' [sg' [tol [A1 [A2 [A3 [A4 [k [Hk Et]]]]]]]]]. split; [lra|]. exists sg', tol. split; [exact A1|]. split; [exact A2|].
      split; [exact A3|]. split; [exact A4|]. exists (Datatypes.S k). split; [lia|]. rewrite Et, Nat2Z.inj_succ. unfold Z.succ.
      destruct (Qeq_dec (s_errordef S) 0) as [Z|Z].
      * rewrite Z. rewrite !Qpower_0 by lia. ring.
      * rewrite Qpower_plus by exact Z. rewrite Qpower_1_r. ring.
    + destruct IH as [sg' [A1 [A2 [A3 A4]]]]. split; [exact Hlow|]. exists sg', (tolerance rtol * s_errordef S * s_errordef S)%Q.
      split; [exact A1|]. split; [exact A2|]. split; [exact A3|]. split; [exact A4|]. exists 2. split; [lia|]. change (Z.of_nat 2) with 2%Z. unfold Qpower. cbn. ring.
Qed.

(* ---------- signs ---------- *)
Lemma nth_have S values now poi : have_values S values now -> poi < length (s_bounds S) -> poi < length values ->
  takes (nth poi (s_bounds S) (None, None)) (nth poi values 0%Q) (nth poi now 0%Q).
Proof.
  unfold have_values. intros H. revert poi now H. generalize (s_bounds S) as bs. intros bs. revert values.
  induction bs as [|b bs IH]; intros values poi now H H1 H2; [cbn in H1; lia|]. destruct values as [|v values]; [cbn in H2; lia|].
  cbn [combine] in H. inversion H as [|? w ? now' Ht Hr]; subst. destruct poi as [|poi]; [exact Ht|]. cbn [nth]. apply (IH values poi now' Hr); cbn in *; lia.
Qed.
Lemma takes_side b v w fit (up : bool) : (forall l, fst b = Some l -> (l < fit)%Q) -> (forall u, snd b = Some u -> (fit < u)%Q) ->
  takes b v w -> on_side up fit w -> on_side up fit v.
Proof.
  intros Hl Hu T S. destruct T as [_|u Eu H|l El H _|l u El Eu H1 H2]; unfold on_side in *; destruct up; try assumption.
  - specialize (Hu _ Eu). lra.
  - specialize (Hu _ Eu). lra.
  - specialize (Hl _ El). lra.
  - specialize (Hl _ El). lra.
  - specialize (Hl _ El). specialize (Hu _ Eu). lra.
  - specialize (Hl _ El). specialize (Hu _ Eu). lra.
Qed.
Lemma crossing_side S r sg tol poi up values : really_minimum S r sg tol -> crossing S r sg tol poi up values ->
  exists now l, have_values S values now /\ ((exists g, s_loss S now = Ok (l, g)) \/ (s_loss S now = Err InvalidArgumentError /\ l = 9999999999%Q))
    /\ on_side up (nth poi (f_vals r) 0%Q) (nth poi now 0%Q) /\ (Qabs (l - f_min r - s_errordef S * (sg * sg)) < tol)%Q.
Proof.
  intros [M1 M2] [now [l [Hn [Hl Hc]]]]. exists now, l. split; [exact Hn|]. split; [exact Hl|].
  destruct Hc as [Hc|[_ Hc]]; [exact Hc|]. exfalso. apply Qabs_Qlt_condition in Hc. destruct Hc as [Hc _].
  destruct Hl as [[g Hl]|[_ ->]]; [specialize (M1 _ _ _ Hl)|]; lra.
Qed.

(* ---------- the path of the solver ---------- *)
Lemma settled_of (cross : list Q -> Prop) pts x : cross x ->
  (pts = [] \/ exists pre hits, pts = pre ++ hits /\ (forall y, In y hits -> cross y) /\ 4 <= length hits) -> settled cross pts x.
Proof.
  intros C [->|[pre [hits [-> [Hh Hl]]]]]; (split; [exact C|]); [left; reflexivity|]. right.
  assert (G : exists p a b c d, hits = p ++ [a; b; c; d]).
  { clear - Hl. exists (firstn (length hits - 4) hits). remember (skipn (length hits - 4) hits) as q.
    assert (Lq : length q = 4) by (subst q; rewrite skipn_length; lia).
    destruct q as [|a [|b [|c [|d [|]]]]]; try discriminate. exists a, b, c, d. rewrite Heqq. symmetry. apply firstn_skipn. }
  destruct G as [p [a [b [c [d ->]]]]]. exists (pre ++ p), a, b, c, d. split; [rewrite app_assoc; reflexivity|].
  repeat split; apply Hh, in_or_app; right; cbn; auto.
Qed.
Lemma run_settled S r sg tol poi up t st st' : run S r sg tol poi up t st = (st', Found) -> 3 < p_ntol st ->
  exists pts x, visited t (pts ++ [x]) /\ settled (crossing S r sg tol poi up) pts x /\ p_root st' = Some (nth poi x 0%Q) /\ 3 < p_ntol st'.
Proof.
  intros H Hn. destruct (run_found _ _ _ _ _ _ _ _ _ H) as [pts [x [V [C [L [Rt [_ [Hn' Hp]]]]]]]]. exists pts, x. split; [exact V|].
  split; [|auto]. apply settled_of; [exact C|]. destruct Hp as [[-> _]|[pre [hits [-> [Hh Hc]]]]]; [left; reflexivity|].
  right. exists pre, hits. split; [reflexivity|]. split; [exact Hh|]. destruct Hc as [Hc|[_ [Hc _]]]; lia.
Qed.
Lemma one_side_settled S r sg tol poi up x0 st st' err : one_side S r sg tol poi up x0 st = (st', Done (err, false)) -> 3 < p_ntol st ->
  3 < p_ntol st' /\ exists pts x, visited (s_solver S poi up x0) (pts ++ [x]) /\ settled (crossing S r sg tol poi up) pts x
    /\ (err == nth poi x 0 - nth poi (f_vals r) 0)%Q.
Proof.
  unfold one_side. intros H Hn. destruct (run S r sg tol poi up (s_solver S poi up x0) st) as [st1 []] eqn:E; try discriminate.
  destruct (run_settled _ _ _ _ _ _ _ _ _ E Hn) as [pts [x [V [C [Rt Hn']]]]]. rewrite Rt in H. inversion H; subst. split; [exact Hn'|].
  exists pts, x. split; [exact V|]. split; [exact C|reflexivity].
Qed.

(* ---------- a parameter at its limit ---------- *)
Lemma mapM_one_err {A B} (f : A -> result B) e l x : In x l -> (forall y e', In y l -> f y = Err e' -> e' = e) -> f x = Err e -> mapM f l = Err e.
Proof.
  induction l as [|y l IH]; intros Hx Hall Hf; [destruct Hx|]. cbn [mapM].
  destruct (f y) as [v|e'] eqn:Ey.
  - destruct Hx as [->|Hx]; [congruence|]. cbn [bind]. rewrite IH; [reflexivity|exact Hx|intros z e' Hz; apply Hall; right; exact Hz|exact Hf].
  - cbn [bind]. f_equal. apply (Hall y); [left; reflexivity|exact Ey].
Qed.
Lemma start_err S b v c var sg up e : start_value S b v c var sg up = Err e -> e = RuntimeError.
Proof. intros H. apply shrink_err in H. apply H. Qed.
Lemma at_limit_never b v step : ((exists u, snd b = Some u /\ (u == v)%Q /\ (0 < step)%Q) \/ (exists l, fst b = Some l /\ (l == v)%Q /\ (step < 0)%Q)) ->
  shrink 50 b v step = Err RuntimeError.
Proof.
  intros H. apply shrink_never. intros k _ [A1 A2]. pose proof (pow45_pos k) as Hp. destruct H as [[u [Eu [Hu Hs]]]|[l [El [Hl Hs]]]].
  - specialize (A2 u Eu). assert (0 < step * pow45 k)%Q by (apply Qmult_lt_0_compat; assumption). lra.
  - specialize (A1 l El). assert (0 < (- step) * pow45 k)%Q by (apply Qmult_lt_0_compat; lra). lra.
Qed.

(* what the solver is told *)
Lemma remove_nth_split {A} k (g : list A) : k < length g -> exists b x a, g = b ++ x :: a /\ length b = k /\ remove_nth k g = b ++ a.
Proof.
  intros H. destruct (nth_error g k) as [x|] eqn:E; [|apply nth_error_None in E; lia].
  destruct (nth_error_split _ _ E) as [b [a [-> L]]]. exists b, x, a. split; [reflexivity|]. split; [exact L|].
  unfold remove_nth. subst k. rewrite firstn_app, firstn_all, Nat.sub_diag. cbn [firstn]. rewrite app_nil_r. f_equal.
  rewrite skipn_app, skipn_all2 by lia. replace (length b + 1 - length b) with 1 by lia. reflexivity.
Qed.
Lemma func_answered S r sg tol poi up st x st' out : func S r sg tol poi up st x = (st', Value out) -> answered S r sg poi up x out.
Proof.
  unfold func. intros H. destruct (negb (Nat.eqb (length x) (length (f_vals r)))); [discriminate|].
  set (ev := match s_loss S (read_all S x) with Ok (l, g) => Ok (l, remove_nth poi g) | Err InvalidArgumentError => _ | Err e => Err e end) in H.
  assert (HE : forall l g, ev = Ok (l, g) -> (exists grad, s_loss S (read_all S x) = Ok (l, grad) /\ g = remove_nth poi grad)
            \/ (s_loss S (read_all S x) = Err InvalidArgumentError /\ l = 9999999999%Q)).
  { unfold ev. intros l g E. destruct (s_loss S (read_all S x)) as [[l' g']|e]; [inversion E; subst; left; eauto|].
    destruct e; try discriminate. inversion E; subst. auto. }
  clearbody ev. destruct ev as [[l g]|e]; [|discriminate]. specialize (HE l g eq_refl). cbv zeta in H.
  cbn [p_ncalls p_ntol p_root] in H.
  set (fit := nth poi (f_vals r) 0%Q) in *. set (p := nth poi (read_all S x) 0%Q) in *.
  assert (Hon := side_iff up p fit).
  set (sw := if up then negb (Qle_bool fit p) else negb (Qle_bool p fit)) in *. clearbody sw.
  destruct (negb sw && _) in H; [discriminate|].
  assert (Ho : out = ((if sw then - (l - f_min r) else l - f_min r) - s_errordef S * (sg * sg))%Q :: (if sw then map Qopp g else g)).
  { destruct (negb (Qle_bool tol _)) in H; [destruct (Nat.ltb _ _) in H|]; inversion H; reflexivity. }
  clear H. destruct HE as [[grad [HL Hg]]|[HL ->]].
  - exists (read_all S x), l, grad. do 2 eexists. split; [apply read_have|]. split; [exact Ho|]. fold p fit. rewrite <- Hon. split.
    + left. split; [exact HL|]. intros Hp. destruct (remove_nth_split _ _ Hp) as [b [y [a [E1 [E2 E3]]]]].
      exists b, y, a. split; [exact E1|]. split; [exact E2|]. rewrite <- E3, <- Hg, <- Hon. destruct sw; split; intros C; try discriminate; try reflexivity; exfalso; apply C; reflexivity.
    + destruct sw; split; intros C; try discriminate; try reflexivity; exfalso; apply C; reflexivity.
  - exists (read_all S x), 9999999999%Q, []. do 2 eexists. split; [apply read_have|]. split; [exact Ho|]. fold p fit. rewrite <- Hon. split; [right; auto|].
    destruct sw; split; intros C; try discriminate; try reflexivity; exfalso; apply C; reflexivity.
Qed.
Lemma run_ends S r sg tol poi up t : forall st st' x, run S r sg tol poi up t st = (st', Solved x) -> ends S r sg poi up t x.
Proof.
  induction t as [x|x k IH|e]; intros st st' y H; cbn [run] in H; [inversion H; subst; apply e_done| |discriminate].
  destruct (func S r sg tol poi up st x) as [st1 a] eqn:E. destruct a as [out| | |e]; try discriminate.
  apply e_eval with out; [eapply func_answered, E|]. eapply IH, H.
Qed.
Lemma one_side_warned S r sg tol poi up x0 st st' err : one_side S r sg tol poi up x0 st = (st', Done (err, true)) ->
  exists x, ends S r sg poi up (s_solver S poi up x0) x /\ (err == nth poi x 0 - nth poi (f_vals r) 0)%Q.
Proof.
  unfold one_side. intros H. destruct (run S r sg tol poi up (s_solver S poi up x0) st) as [st1 []] eqn:E; try discriminate.
  - inversion H; subst. exists x. split; [eapply run_ends, E|reflexivity].
  - destruct (p_root st1); discriminate.
Qed.
