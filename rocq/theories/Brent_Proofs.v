(** Lemmas about the root search. *)
From Coq Require Import Qabs Lqa.
From Verif Require Import Base BaseLemmas Brent_Model Brent_Spec.
Open Scope Q_scope.

Lemma qlt_true x y : qlt x y = true <-> x < y.
Proof.
  unfold qlt. rewrite negb_true_iff. split; intros H.
  - apply Qnot_le_lt. intros L. apply Qle_bool_iff in L. congruence.
  - destruct (Qle_bool y x) eqn:E; [|reflexivity]. apply Qle_bool_iff in E. exfalso. apply (Qlt_not_le _ _ H E).
Qed.
Lemma qlt_false x y : qlt x y = false <-> y <= x.
Proof.
  unfold qlt. rewrite negb_false_iff. apply Qle_bool_iff.
Qed.
Lemma qle_false x y : Qle_bool x y = false <-> y < x.
Proof.
  split; intros H.
  - apply Qnot_le_lt. intros L. apply Qle_bool_iff in L. congruence.
  - destruct (Qle_bool x y) eqn:E; [|reflexivity]. apply Qle_bool_iff in E. exfalso. apply (Qlt_not_le _ _ H E).
Qed.
Lemma abs_cases x : (0 <= x /\ Qabs x == x) \/ (x <= 0 /\ Qabs x == - x).
Proof.
  destruct (Qlt_le_dec x 0) as [L|L].
  - right. split; [lra|]. apply Qabs_neg. lra.
  - left. split; [exact L|]. now apply Qabs_pos.
Qed.
Ltac abs x := let A := fresh "A" in let B := fresh "B" in
  destruct (abs_cases x) as [[A B]|[A B]].

Lemma div_pos a b : 0 < a -> 0 < b -> 0 < a / b.
Proof. intros A B. apply Qlt_shift_div_l; [exact B|]. lra. Qed.
Lemma div_opp_r a b : ~ b == 0 -> a / b == - (a / (- b)).
Proof. intros H. field. exact H. Qed.
Lemma div_neg a b : 0 < a -> b < 0 -> a / b < 0.
Proof. intros A B. rewrite div_opp_r by lra. assert (0 < a / - b) by (apply div_pos; lra). lra. Qed.
Lemma div_opp_l a b : ~ b == 0 -> a / b == - ((- a) / b).
Proof. intros H. field. exact H. Qed.
Lemma div_neg' a b : a < 0 -> 0 < b -> a / b < 0.
Proof. intros A B. rewrite div_opp_l by lra. assert (0 < - a / b) by (apply div_pos; lra). lra. Qed.
Lemma div_pos' a b : a < 0 -> b < 0 -> 0 < a / b.
Proof. intros A B. rewrite div_opp_r by lra. assert (a / - b < 0) by (apply div_neg'; lra). lra. Qed.
Lemma mul_pos a b : 0 < a -> 0 < b -> 0 < a * b. Proof. intros. nra. Qed.
Lemma mul_pos' a b : a < 0 -> b < 0 -> 0 < a * b. Proof. intros. nra. Qed.
Lemma mul_neg a b : 0 < a -> b < 0 -> a * b < 0. Proof. intros. nra. Qed.
Lemma mul_neg' a b : a < 0 -> 0 < b -> a * b < 0. Proof. intros. nra. Qed.

(** the steps go towards the contrapoint *)
Lemma signs u v : u * v < 0 -> (u < 0 /\ 0 < v) \/ (0 < u /\ v < 0).
Proof.
  intros H. destruct (Qlt_le_dec u 0) as [N|N].
  - left. split; [exact N|]. nra.
  - right. assert (~ u == 0) by (intros Z; rewrite Z in H; lra). assert (0 < u) by lra. split; [assumption|]. nra.
Qed.
Lemma secant_right b l vb vl : b < l -> vb * vl < 0 -> 0 < secant_step b l vb vl.
Proof.
  intros H V. unfold secant_step. destruct (signs _ _ V) as [[A B]|[A B]].
  - apply div_pos'; [|lra]. apply mul_neg; lra.
  - apply div_pos; [|lra]. apply mul_pos'; lra.
Qed.
Lemma secant_left b l vb vl : l < b -> vb * vl < 0 -> secant_step b l vb vl < 0.
Proof.
  intros H V. unfold secant_step. destruct (signs _ _ V) as [[A B]|[A B]].
  - apply div_neg; [|lra]. apply mul_pos; lra.
  - apply div_neg'; [|lra]. apply mul_neg'; lra.
Qed.
Lemma quad_sign b l c vb vl vc : vb * vc < 0 -> 0 < vb * (vl - vb) ->
  (l < b /\ b < c -> 0 < quadratic_step vb vl vc b l c)
  /\ (c < b /\ b < l -> quadratic_step vb vl vc b l c < 0).
Proof.
  intros H1 H2. unfold quadratic_step.
  set (r2 := (vl - vb) / (l - b)). set (r3 := (vc - vb) / (c - b)).
  destruct (signs _ _ H1) as [[V C]|[V C]]; revgoals.
  - assert (L : vb < vl) by nra. split; intros [X Y].
    + assert (R2 : r2 < 0) by (apply div_neg; lra). assert (R3 : r3 < 0) by (apply div_neg'; lra).
      assert (N : 0 < vc * r3 - vl * r2) by (pose proof (mul_pos' _ _ C R3); pose proof (mul_neg vl r2 ltac:(lra) R2); lra).
      assert (D : r3 * r2 * (vc - vl) < 0) by (apply mul_neg; [now apply mul_pos'|lra]).
      pose proof (div_neg _ _ N D). nra.
    + assert (R2 : 0 < r2) by (apply div_pos; lra). assert (R3 : 0 < r3) by (apply div_pos'; lra).
      assert (N : vc * r3 - vl * r2 < 0) by (pose proof (mul_neg' _ _ C R3); pose proof (mul_pos vl r2 ltac:(lra) R2); lra).
      assert (D : r3 * r2 * (vc - vl) < 0) by (apply mul_neg; [now apply mul_pos|lra]).
      pose proof (div_pos' _ _ N D). nra.
  - assert (L : vl < vb) by nra. split; intros [X Y].
    + assert (R2 : 0 < r2) by (apply div_pos'; lra). assert (R3 : 0 < r3) by (apply div_pos; lra).
      assert (N : 0 < vc * r3 - vl * r2) by (pose proof (mul_pos _ _ C R3); pose proof (mul_neg' vl r2 ltac:(lra) R2); lra).
      assert (D : 0 < r3 * r2 * (vc - vl)) by (apply mul_pos; [now apply mul_pos|lra]).
      pose proof (div_pos _ _ N D). nra.
    + assert (R2 : r2 < 0) by (apply div_neg'; lra). assert (R3 : r3 < 0) by (apply div_neg; lra).
      assert (N : vc * r3 - vl * r2 < 0) by (pose proof (mul_neg _ _ C R3); pose proof (mul_pos' vl r2 ltac:(lra) R2); lra).
      assert (D : 0 < r3 * r2 * (vc - vl)) by (apply mul_pos; [now apply mul_pos'|lra]).
      pose proof (div_neg' _ _ N D). nra.
Qed.

Section Search.
Context (f : Q -> Q) (P : params) (lo hi : Q) (TOL : tolerances P) (LH : lo <= hi).
Definition ins (x : Q) : Prop := lo <= x /\ x <= hi.

(** the state at the beginning of a turn; the root is bracketed in an interval of at most [w] *)
Definition inv (w : Q) (s : st) : Prop :=
  v_best s = f (best s) /\ v_last s = f (last s) /\ ins (best s) /\ ins (last s)
  /\ ((v_last s * v_best s < 0 /\ ~ last s == best s /\ Qabs (last s - best s) <= w)
      \/ (0 <= v_last s * v_best s
          /\ v_contra s = f (contra s) /\ ins (contra s) /\ Qabs (contra s - best s) <= w
          /\ (v_best s == 0 \/ v_contra s * v_best s < 0)
          /\ ((last s < best s /\ best s < contra s) \/ (contra s < best s /\ best s < last s)))).
(** the state before the step *)
Definition mid (w : Q) (s : st) : Prop :=
  v_best s = f (best s) /\ v_last s = f (last s) /\ v_contra s = f (contra s)
  /\ ins (best s) /\ ins (last s) /\ ins (contra s) /\ Qabs (contra s - best s) <= w
  /\ (v_best s == 0 \/ v_contra s * v_best s < 0)
  /\ ~ contra s == best s
  /\ ((last s = contra s /\ v_last s = v_contra s)
      \/ (0 <= v_last s * v_best s
          /\ ((last s < best s /\ best s < contra s) \/ (contra s < best s /\ best s < last s)))).

Lemma to_mid w s : inv w s -> finished s = false -> mid w (exchange (replace_contrapoint s)).
Proof.
  intros (B & Lv & Ib & Il & H) F.
  assert (M : mid w (replace_contrapoint s) /\ finished (replace_contrapoint s) = false).
  { unfold replace_contrapoint. rewrite F. cbn [negb andb].
    destruct H as [(S1 & N & W)|(S1 & C & Ic & W & V & O)].
    - assert (qlt (v_last s * v_best s) 0 = true) as -> by (now apply qlt_true).
      split; [|reflexivity]. unfold mid. cbn [best last contra v_best v_last v_contra].
      do 7 (split; [assumption|]). split; [now right|]. split; [exact N|]. left. now split.
    - assert (qlt (v_last s * v_best s) 0 = false) as -> by (now apply qlt_false).
      split; [|exact F].
      do 8 (split; [assumption|]). split; [destruct O; lra|]. right. now split. }
  clear H F. destruct M as [M F]. set (t := replace_contrapoint s) in *. clearbody t.
  unfold exchange. rewrite F. cbn [negb andb].
  destruct (qlt (Qabs (v_contra t)) (Qabs (v_best t))) eqn:E; [|exact M].
  apply qlt_true in E. destruct M as (B' & L' & C' & Ib' & Il' & Ic' & W & V & N & O).
  unfold mid. cbn [best last contra v_best v_last v_contra]. do 6 (split; [assumption|]). split; [|split; [|split; [|left; now split]]].
  - rewrite Qabs_Qminus. exact W.
  - destruct V as [V|V]; [|right; lra]. exfalso.
    rewrite V in E. pose proof (Qabs_nonneg (v_contra t)). change (Qabs 0) with 0 in E. lra.
  - intros Z. apply N. now symmetry.
Qed.
Lemma exchange_iters s : iters (exchange (replace_contrapoint s)) = iters s
  /\ finished (exchange (replace_contrapoint s)) = finished s.
Proof.
  unfold exchange, replace_contrapoint.
  destruct (negb (finished s) && qlt (v_last s * v_best s) 0); cbn; destruct (negb _ && _); auto.
Qed.

(** the step goes towards the contrapoint, and not too far *)
Lemma move_ok w s : mid w s -> is_finished P s = false ->
  let step_b := if use_short_step P s then short_step s else bisection_step s in
  let move := if qlt (root_tolerance P s) (Qabs step_b) then step_b
              else if qlt 0 (bisection_step s) then root_tolerance P s else - root_tolerance P s in
  let d := contra s - best s in
  0 < root_tolerance P s /\ root_tolerance P s <= (1 # 2) * Qabs d /\ (atol P <= 2 * root_tolerance P s)
  /\ ((0 < d /\ root_tolerance P s <= move /\ move <= (3 # 4) * d)
      \/ (d < 0 /\ move <= - root_tolerance P s /\ (3 # 4) * d <= move)).
Proof.
  intros M F. destruct M as (B & Lv & C & Ib & Il & Ic & W & V & N & O).
  unfold is_finished in F. apply orb_false_iff in F as [F F3]. apply orb_false_iff in F as [F F2].
  apply orb_false_iff in F as [F0 F1].
  apply qlt_false in F2. apply qle_false in F3. destruct TOL as (T1 & T2 & T3).
  set (t := root_tolerance P s) in *.
  assert (AT : atol P <= 2 * t).
  { unfold t, root_tolerance. pose proof (Qabs_nonneg (best s)).
    assert (0 <= rtol P * Qabs (best s)) by (apply Qmult_le_0_compat; assumption). lra. }
  assert (T0 : 0 < t) by lra.
  assert (VB : ~ v_best s == 0).
  { intros Z. rewrite Z in F3. change (Qabs 0) with 0 in F3. lra. }
  destruct V as [V|V]; [now destruct VB|].
  intros step_b move d. split; [exact T0|].
  assert (TD : t <= (1 # 2) * Qabs d).
  { unfold bisection_step in F2. fold d in F2. rewrite Qabs_Qmult in F2. change (Qabs (1 # 2)) with (1 # 2) in F2. exact F2. }
  split; [exact TD|]. split; [exact AT|].
  assert (SD : (0 < d /\ Qabs d == d) \/ (d < 0 /\ Qabs d == - d)).
  { destruct (Qlt_le_dec d 0) as [H|H].
    - right. split; [exact H|]. apply Qabs_neg. lra.
    - left. assert (~ d == 0) by (intros Z; apply N; unfold d in Z; lra). split; [lra|]. now apply Qabs_pos. }
  assert (SB : (0 < d /\ 0 < step_b /\ step_b <= (3 # 4) * d) \/ (d < 0 /\ step_b < 0 /\ (3 # 4) * d <= step_b)).
  { unfold step_b. destruct (use_short_step P s) eqn:U.
    - unfold use_short_step in U. apply andb_true_iff in U as [U1 U2]. apply qlt_true in U2.
      unfold compute_short_step in U1. apply andb_true_iff in U1 as [_ U1]. apply qlt_true in U1.
      assert (BD : 2 * Qabs (short_step s) < 3 * Qabs (bisection_step s)).
      { unfold qmin in U2. destruct (Qle_bool _ _) eqn:E; fold t in U2, E; [lra|]. apply qle_false in E. lra. }
      unfold bisection_step in BD. fold d in BD. rewrite Qabs_Qmult in BD. change (Qabs (1 # 2)) with (1 # 2) in BD.
      assert (SG : (0 < d /\ 0 < short_step s) \/ (d < 0 /\ short_step s < 0)).
      { unfold short_step. destruct O as [[O1 O2]|O].
        - rewrite O1. assert (Qeq_bool (contra s) (contra s) = true) as -> by (apply Qeq_bool_iff; reflexivity).
          rewrite O2. destruct SD as [[D _]|[D _]]; unfold d in D.
          + left. split; [exact D|]. apply secant_right; lra.
          + right. split; [exact D|]. apply secant_left; lra.
        - destruct O as [O1 O].
          assert (Qeq_bool (last s) (contra s) = false) as ->.
          { destruct (Qeq_bool (last s) (contra s)) eqn:E; [|reflexivity]. apply Qeq_bool_iff in E. destruct O; lra. }
          assert (SS : 0 < v_best s * (v_last s - v_best s)).
          { abs (v_best s); abs (v_last s); nra. }
          destruct (quad_sign (best s) (last s) (contra s) (v_best s) (v_last s) (v_contra s)) as [Q1 Q2]; [lra|exact SS|].
          unfold d. destruct O as [O|O]; [left; split; [lra|now apply Q1]|right; split; [lra|now apply Q2]]. }
      abs (short_step s); destruct SG as [SG|SG], SD as [SD|SD]; lra.
    - unfold bisection_step. fold d. lra. }
  unfold move. destruct (qlt t (Qabs step_b)) eqn:E.
  - apply qlt_true in E. abs step_b; destruct SB as [SB|SB]; lra.
  - apply qlt_false in E. destruct (qlt 0 (bisection_step s)) eqn:E2; [apply qlt_true in E2|apply qlt_false in E2];
      unfold bisection_step in E2; fold d in E2; destruct SD as [SD|SD]; lra.
Qed.

Definition done (s : st) : Prop :=
  v_best s = f (best s) /\ ins (best s)
  /\ ((max_iter P <= iters s)%nat \/ Qabs (v_best s) <= ftol P
      \/ exists c, ins c /\ f c * f (best s) < 0 /\ Qabs (c - best s) < atol P + rtol P * Qabs (best s)).

Lemma body_inv w s : inv w s -> finished s = false ->
  (finished (body f P s) = false ->
     inv (w - (1 # 4) * atol P) (body f P s) /\ atol P <= w /\ iters (body f P s) = S (iters s)
     /\ (iters s < max_iter P)%nat)
  /\ (finished (body f P s) = true -> done (body f P s) /\ iters (body f P s) = iters s).
Proof.
  intros I F. pose proof (to_mid w s I F) as M. destruct (exchange_iters s) as [EI EF]. unfold body.
  set (t := exchange (replace_contrapoint s)) in *. clearbody t.
  rewrite F in EF. unfold advance. destruct (is_finished P t) eqn:FI; cbn [finished]; (split; [intros H; try discriminate|intros H; try discriminate]).
  - split; [|exact EI]. destruct M as (B & Lv & C & Ib & Il & Ic & W & V & N & O). unfold done. cbn [best v_best iters].
    split; [exact B|]. split; [exact Ib|]. unfold is_finished in FI. rewrite EF in FI. cbn [orb] in FI.
    apply orb_true_iff in FI as [FI|FI]; [apply orb_true_iff in FI as [FI|FI]|].
    + left. apply Nat.leb_le in FI. exact FI.
    + apply qlt_true in FI. destruct V as [V|V].
      * right. left. rewrite V. destruct TOL as (_ & _ & T). exact T.
      * right. right. exists (contra t). split; [exact Ic|]. split; [rewrite <- C, <- B; exact V|].
        unfold bisection_step, root_tolerance in FI. rewrite Qabs_Qmult in FI. change (Qabs (1 # 2)) with (1 # 2) in FI. lra.
    + right. left. now apply Qle_bool_iff in FI.
  - pose proof (move_ok w t M FI) as MO. cbv zeta in MO. destruct M as (B & Lv & C & Ib & Il & Ic & W & V & N & O).
    set (d := contra t - best t) in *. set (tol := root_tolerance P t) in *.
    set (step_b := if use_short_step P t then short_step t else bisection_step t) in *.
    set (move := if qlt tol (Qabs step_b) then step_b else if qlt 0 (bisection_step t) then tol else - tol) in *.
    clearbody move. destruct MO as (T0 & TD & AT & MO).
    assert (VB : ~ v_best t == 0).
    { intros Z. unfold is_finished in FI. apply orb_false_iff in FI as [_ FI]. apply qle_false in FI. rewrite Z in FI.
      change (Qabs 0) with 0 in FI. destruct TOL as (_ & _ & T). lra. }
    destruct V as [V|V]; [now destruct VB|].
    assert (SD : (0 < d /\ Qabs d == d) \/ (d < 0 /\ Qabs d == - d)).
    { destruct MO as [(D & _)|(D & _)]; [left|right]; (split; [exact D|]); [apply Qabs_pos|apply Qabs_neg]; lra. }
    assert (IT : (iters s < max_iter P)%nat).
    { unfold is_finished in FI. apply orb_false_iff in FI as [FI _]. apply orb_false_iff in FI as [FI _].
      apply orb_false_iff in FI as [_ FI]. apply Nat.leb_gt in FI. lia. }
    split; [|split; [lra|split; [cbn [iters]; now rewrite EI|exact IT]]].
    unfold inv. cbn [best last contra v_best v_last v_contra].
    assert (INB : ins (best t + move)).
    { unfold ins in *. unfold d in MO. destruct MO as [MO|MO]; lra. }
    split; [reflexivity|]. split; [exact B|]. split; [exact INB|]. split; [exact Ib|].
    destruct (Qlt_le_dec (v_best t * f (best t + move)) 0) as [S1|S1].
    + left. split; [exact S1|]. split; [destruct MO as [MO|MO]; lra|].
      setoid_replace (best t - (best t + move)) with (- move) by ring. rewrite Qabs_opp.
      abs move; destruct MO as [MO|MO], SD as [SD|SD]; lra.
    + right. split; [exact S1|]. split; [exact C|]. split; [exact Ic|]. split; [|split].
      * setoid_replace (contra t - (best t + move)) with (d - move) by (unfold d; ring).
        abs (d - move); destruct MO as [MO|MO], SD as [SD|SD]; lra.
      * destruct (Qeq_dec (f (best t + move)) 0) as [Z|Z]; [now left|]. right.
        destruct (signs _ _ V) as [[X Y]|[X Y]]; nra.
      * unfold d in MO. destruct MO as [MO|MO]; [left|right]; lra.
Qed.

Lemma body_done s : finished s = true -> best (body f P s) = best s /\ v_best (body f P s) = v_best s
  /\ iters (body f P s) = iters s /\ finished (body f P s) = true.
Proof.
  intros F. unfold body, exchange, replace_contrapoint. rewrite F. cbn [negb andb]. rewrite F. cbn [negb andb].
  unfold advance, is_finished. rewrite F. cbn. auto.
Qed.

Lemma loop_done n s : finished s = true -> loop f P n s = s.
Proof. destruct n; cbn; [reflexivity|]. now intros ->. Qed.

Definition near (s : st) : Prop :=
  Qabs (v_best s) <= ftol P
  \/ exists c, ins c /\ f c * f (best s) < 0 /\ Qabs (c - best s) < atol P + rtol P * Qabs (best s).

Lemma inv_width w s : inv w s -> 0 <= w.
Proof.
  intros (_ & _ & _ & _ & [(_ & _ & H)|(_ & _ & _ & H & _)]);
    (eapply Qle_trans; [apply Qabs_nonneg|exact H]).
Qed.

Lemma loop_inv n : forall w s, inv w s -> finished s = false -> (iters s + n = max_iter P)%nat ->
  v_best (loop f P n s) = f (best (loop f P n s)) /\ ins (best (loop f P n s))
  /\ (iters (loop f P n s) <= max_iter P)%nat
  /\ (w < (1 # 4) * atol P * inject_Z (Z.of_nat n) -> near (loop f P n s)).
Proof.
  induction n as [|n IH]; intros w s I F E.
  - cbn [loop]. pose proof (inv_width w s I) as W. destruct I as (B & _ & Ib & _).
    split; [exact B|]. split; [exact Ib|]. split; [lia|]. intros H. exfalso.
    change (inject_Z (Z.of_nat 0)) with 0 in H. lra.
  - cbn [loop]. rewrite F. destruct (body_inv w s I F) as [B1 B2].
    destruct (finished (body f P s)) eqn:FB.
    + destruct (B2 eq_refl) as [(B & Ib & D) EI]. rewrite (loop_done n _ FB).
      split; [exact B|]. split; [exact Ib|]. split; [lia|]. intros _.
      destruct D as [D|D]; [lia|exact D].
    + destruct (B1 eq_refl) as (I' & A & EI & _). destruct (IH _ _ I' FB ltac:(lia)) as (R1 & R2 & R3 & R4).
      split; [exact R1|]. split; [exact R2|]. split; [exact R3|]. intros H. apply R4.
      rewrite Nat2Z.inj_succ in H. unfold Z.succ in H. rewrite inject_Z_plus in H.
      change (inject_Z 1) with 1 in H. lra.
Qed.

(** ** only the values between the brackets matter *)
Lemma body_same g s : f (best (body f P s)) = g (best (body f P s)) -> body f P s = body g P s.
Proof.
  unfold body, advance. destruct (is_finished P _); [reflexivity|]. cbn [best]. now intros ->.
Qed.

Lemma loop_same g n : (forall x, ins x -> f x = g x) -> forall w s, inv w s -> finished s = false ->
  loop f P n s = loop g P n s.
Proof.
  intros G. induction n as [|n IH]; intros w s I F; [reflexivity|]. cbn [loop]. rewrite F.
  destruct (body_inv w s I F) as [B1 B2]. destruct (finished (body f P s)) eqn:FB.
  - assert (E : body f P s = body g P s).
    { apply body_same. apply G. destruct (B2 eq_refl) as [(_ & Ib & _) _]. exact Ib. }
    rewrite <- E. rewrite (loop_done n _ FB). destruct n; cbn; [reflexivity|]. now rewrite FB.
  - destruct (B1 eq_refl) as (I' & _). assert (E : body f P s = body g P s).
    { apply body_same. apply G. apply I'. }
    rewrite <- E. now apply (IH _ _ I').
Qed.
End Search.

(** ** the beginning *)
Lemma prepare_true f P l r vl vr : given f l vl -> given f r vr ->
  prepare f P l r vl vr = prepare f P l r None None.
Proof. intros [-> | ->] [-> | ->]; reflexivity. Qed.

Lemma prepare_cases f P l r :
  let s := prepare f P l r None None in
  ((best s = l /\ last s = r) \/ (best s = r /\ last s = l))
  /\ v_best s = f (best s) /\ v_last s = f (last s) /\ v_contra s = 0 /\ contra s = 0 /\ iters s = 0%nat
  /\ Qabs (v_best s) <= Qabs (v_last s)
  /\ finished s = Nat.leb (max_iter P) 0 || Qle_bool (Qabs (v_best s)) (ftol P).
Proof.
  unfold prepare. destruct (qlt (Qabs (f l)) (Qabs (f r))) eqn:E; cbn [best last v_best v_last v_contra contra iters finished].
  - split; [now left|]. do 5 (split; [reflexivity|]). split; [|reflexivity]. apply qlt_true in E. lra.
  - split; [now right|]. do 5 (split; [reflexivity|]). split; [|reflexivity]. now apply qlt_false in E.
Qed.

Lemma prepare_inv f P l r : tolerances P -> ~ l == r -> opposite (f l) (f r) ->
  finished (prepare f P l r None None) = false ->
  inv f (qmin l r) (if Qle_bool l r then r else l) (Qabs (r - l)) (prepare f P l r None None).
Proof.
  intros T N O F. destruct (prepare_cases f P l r) as (BL & B & L & _ & _ & _ & A & FE).
  set (s := prepare f P l r None None) in *. clearbody s.
  rewrite F in FE. symmetry in FE. apply orb_false_iff in FE as [_ FE]. apply qle_false in FE.
  assert (Z : 0 < Qabs (v_best s)) by (destruct T as (_ & _ & T); lra).
  assert (IL : ins (qmin l r) (if Qle_bool l r then r else l) l /\ ins (qmin l r) (if Qle_bool l r then r else l) r).
  { unfold ins, qmin. destruct (Qle_bool l r) eqn:E; [apply Qle_bool_iff in E|apply qle_false in E]; lra. }
  unfold inv. split; [exact B|]. split; [exact L|].
  assert (V : v_last s * v_best s < 0).
  { destruct BL as [[E1 E2]|[E1 E2]]; rewrite E1 in B; rewrite E2 in L; rewrite <- B, <- L in O; revert Z A;
      (destruct (abs_cases (v_best s)) as [[P1 ->]|[P1 ->]]); (destruct (abs_cases (v_last s)) as [[P2 ->]|[P2 ->]]); intros Z A; destruct O as [O|O]; try nra; exfalso; lra. }
  destruct BL as [[E1 E2]|[E1 E2]]; rewrite E1, E2; (split; [apply IL|]); (split; [apply IL|]); left;
    (split; [exact V|]); (split; [intros E; apply N; (exact E || (symmetry; exact E))|]).
  - apply Qle_refl.
  - rewrite Qabs_Qminus. apply Qle_refl.
Qed.

(** ** without a change of sign *)
Lemma no_change f P l r : same_sign (ftol P) (f l) (f r) -> 0 <= ftol P -> (0 < max_iter P)%nat ->
  let s := loop f P (max_iter P) (prepare f P l r None None) in
  best s = 0 /\ v_best s = 0 /\ iters s = 0%nat.
Proof.
  intros SS T M. destruct (prepare_cases f P l r) as (BL & B & L & VC & C & IT & A & FE).
  set (s := prepare f P l r None None) in *. clearbody s. cbv zeta.
  assert (X : ftol P < Qabs (v_best s) /\ 0 < v_last s * v_best s).
  { destruct BL as [[E1 E2]|[E1 E2]]; rewrite E1 in B; rewrite E2 in L; rewrite <- B, <- L in SS;
      (split; [abs (v_best s)|]); destruct SS as [SS|SS]; nra. }
  destruct X as [X1 X2]. destruct (max_iter P) as [|m] eqn:MI; [lia|].
  assert (FN : finished s = false).
  { rewrite FE. cbn [Nat.leb orb]. apply not_true_is_false. intros H. apply Qle_bool_iff in H. lra. }
  cbn [loop]. rewrite FN.
  assert (E : exists t, body f P s = t /\ best t = 0 /\ v_best t = 0 /\ iters t = 0%nat /\ finished t = true).
  { unfold body, replace_contrapoint. rewrite FN. cbn [negb andb].
    assert (E1 : qlt (v_last s * v_best s) 0 = false).
    { apply not_true_is_false. intros H. apply qlt_true in H. lra. }
    rewrite E1. unfold exchange. rewrite FN. cbn [negb andb]. rewrite VC, C.
    assert (E2 : qlt (Qabs 0) (Qabs (v_best s)) = true).
    { destruct (qlt (Qabs 0) (Qabs (v_best s))) eqn:E; [reflexivity|]. apply qlt_false in E. change (Qabs 0) with 0 in E. lra. }
    rewrite E2. unfold advance, is_finished. cbn [finished iters v_best best]. change (Qabs 0) with 0.
    assert (E3 : Qle_bool 0 (ftol P) = true) by now apply Qle_bool_iff.
    rewrite E3, !orb_true_r. eexists. split; [reflexivity|]. cbn. auto. }
  destruct E as (t & -> & E1 & E2 & E3 & E4). rewrite (loop_done f P m t E4). auto.
Qed.

(** ** several searches at once *)
Definition seen (s : st) : Q * Q * nat := (best s, v_best s, iters s).

Lemma iter_shift {A} (g : A -> A) n s : Nat.iter n g (g s) = Nat.iter (S n) g s.
Proof. induction n as [|n IH]; [reflexivity|]. simpl. simpl in IH. now rewrite IH. Qed.

Lemma loop_finish f P n : forall s, finished s = true -> seen (Nat.iter n (body f P) s) = seen s
  /\ finished (Nat.iter n (body f P) s) = true.
Proof.
  induction n as [|n IH]; intros s F; [easy|]. cbn [Nat.iter nat_rect].
  destruct (IH s F) as [E1 E2]. destruct (body_done f P _ E2) as (A & B & C & D).
  split; [|exact D]. rewrite <- E1. unfold seen. unfold Nat.iter in *. now rewrite A, B, C.
Qed.

Lemma loop_iter f P n : forall s, seen (loop f P n s) = seen (Nat.iter n (body f P) s).
Proof.
  induction n as [|n IH]; intros s; [reflexivity|]. cbn [loop].
  destruct (finished s) eqn:F.
  - symmetry. apply (loop_finish f P (S n) s F).
  - rewrite IH. f_equal. apply iter_shift.
Qed.

Lemma loop_all_iter f P n : forall ss, map seen (loop_all f P n ss) = map seen (map (Nat.iter n (body f P)) ss).
Proof.
  induction n as [|n IH]; intros ss.
  - cbn [loop_all]. rewrite map_map. apply map_ext. reflexivity.
  - cbn [loop_all]. destruct (forallb finished ss) eqn:F.
    + rewrite map_map. apply map_ext_in. intros s I. symmetry. apply (loop_finish f P (S n) s).
      now apply (proj1 (forallb_forall _ _) F).
    + rewrite IH. rewrite !map_map. apply map_ext. intros s. f_equal.
      apply iter_shift.
Qed.

Lemma results_seen P ss tt : map seen ss = map seen tt -> map (results P) ss = map (results P) tt.
Proof.
  revert tt. induction ss as [|s ss IH]; intros [|t tt]; cbn; try discriminate; [reflexivity|].
  intros H. injection H as A B C R. unfold results at 1 3. rewrite A, B, C. f_equal. now apply IH.
Qed.
