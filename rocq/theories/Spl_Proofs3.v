(** Three points. *)
From Coq Require Import Reals Lra.
From Verif Require Import Base BaseLemmas PGraph_Proofs Spl_Model Spl_Spec Spl_Proofs Spl_Proofs2.
Open Scope R_scope.
Open Scope list_scope.

Definition e (x y : R) : R := phi 2 (cross_dist2 [x] [y]).
Lemma e_val x y r : r = y - x \/ r = x - y -> e x y = / 2 * (r * r) * L (r * r).
Proof.
  intros H. unfold e. assert (E : cross_dist2 [x] [y] = r * r).
  { unfold cross_dist2. cbn [dot]. destruct H as [->| ->]; ring. }
  rewrite E. apply phi2.
Qed.
Lemma e_diag x : e x x = 0.
Proof. rewrite (e_val x x 0) by lra. ring. Qed.
Lemma lhs3 a b c : lhs 2 0 1 [[a]; [b]; [c]]
  = [[e a a; e a b; e a c; a; 1]; [e b a; e b b; e b c; b; 1]; [e c a; e c b; e c c; c; 1];
     [a; b; c; 0; 0]; [1; 1; 1; 0; 0]].
Proof. unfold lhs, add_diag. destruct (Rlt_dec 0 0) as [H|_]; [lra|reflexivity]. Qed.
Lemma mul3 a b c w1 w2 w3 v1 v0 :
  mulmv (lhs 2 0 1 [[a]; [b]; [c]]) [w1; w2; w3; v1; v0]
  = [e a b * w2 + e a c * w3 + a * v1 + v0; e a b * w1 + e b c * w3 + b * v1 + v0;
     e a c * w1 + e b c * w2 + c * v1 + v0; a * w1 + b * w2 + c * w3; w1 + w2 + w3].
Proof.
  rewrite lhs3. unfold mulmv. cbn [map dot]. rewrite !e_diag.
  rewrite (e_val b a (b - a)), (e_val a b (b - a)), (e_val c a (c - a)), (e_val a c (c - a)), (e_val c b (c - b)), (e_val b c (c - b)) by lra.
  repeat (f_equal; try ring).
Qed.
Lemma five {A} (x : list A) : length x = 5%nat -> exists a b c d f, x = [a; b; c; d; f].
Proof.
  intros H. destruct x as [|a [|b [|c [|d [|f [|g x]]]]]]; try discriminate. now exists a, b, c, d, f.
Qed.

Lemma K_eq a b c (p := b - a) (q := c - b) :
  2 * (q * p * e a c - (p + q) * q * e a b - (p + q) * p * e b c) = K p q.
Proof.
  unfold K. rewrite (e_val a b p), (e_val a c (p + q)), (e_val b c q) by (unfold p, q; left; lra). field.
Qed.

Lemma determined3 a b c : a < b -> b < c -> EPSILON < (c - a) * (c - a) -> determined 2 1 [[a]; [b]; [c]].
Proof.
  intros Hab Hbc E x Lx Z. rewrite lhs_length in Lx. cbn in Lx.
  destruct (five x Lx) as (w1 & w2 & w3 & v1 & v0 & ->). rewrite mul3 in Z.
  assert (Z1 := Z _ (or_introl eq_refl)). assert (Z2 := Z _ (or_intror (or_introl eq_refl))).
  assert (Z3 := Z _ (or_intror (or_intror (or_introl eq_refl)))).
  assert (Z4 := Z _ (or_intror (or_intror (or_intror (or_introl eq_refl))))).
  assert (Z5 := Z _ (or_intror (or_intror (or_intror (or_intror (or_introl eq_refl)))))). clear Z.
  set (p := b - a). set (q := c - b). assert (P : 0 < p) by (unfold p; lra). assert (Q : 0 < q) by (unfold q; lra).
  pose proof (K_pos p q P Q) as KP. replace (p + q) with (c - a) in KP at 1 2 by (unfold p, q; lra). specialize (KP E).
  pose proof (K_eq a b c) as KE. fold p q in KE. cbv zeta in KE.
  set (t := w3 / p). assert (W3 : w3 = p * t) by (unfold t; field; lra).
  assert (W2 : w2 = - (p + q) * t).
  { apply (Rmult_eq_reg_l p); [|lra]. rewrite <- Rmult_assoc. replace (p * - (p + q) * t) with (- (p + q) * w3) by (rewrite W3; ring).
    unfold p, q. nra. }
  assert (W1 : w1 = q * t) by (replace w1 with (- w2 - w3) by lra; rewrite W2, W3; ring).
  assert (T : t * K p q = 0).
  { rewrite <- KE. 
    transitivity (q * (e a b * w2 + e a c * w3 + a * v1 + v0)
      + (- (p + q)) * (e a b * w1 + e b c * w3 + b * v1 + v0)
      + p * (e a c * w1 + e b c * w2 + c * v1 + v0)); [|rewrite Z1, Z2, Z3; ring].
    replace (c * v1) with ((a + p + q) * v1) by (unfold p, q; ring).
    replace (b * v1) with ((a + p) * v1) by (unfold p; ring). rewrite W1, W2, W3. ring. }
  assert (T0 : t = 0) by (apply Rmult_integral in T as [T|T]; [exact T|lra]).
  rewrite T0, Rmult_0_r in W1, W2, W3. subst w1 w2 w3.
  assert (v1 = 0) by nra. subst v1. intros r [<-|[<-|[<-|[<-|[<-|[]]]]]]; lra.
Qed.

(** the solution *)
Lemma solution3 a b c f1 f2 f3 : a < b -> b < c -> EPSILON < (c - a) * (c - a) ->
  exists x, length x = 5%nat /\ mulmv (lhs 2 0 1 [[a]; [b]; [c]]) x = rhs 1 [f1; f2; f3].
Proof.
  intros Hab Hbc E.
  set (p := b - a). set (q := c - b). assert (P : 0 < p) by (unfold p; lra). assert (Q : 0 < q) by (unfold q; lra).
  pose proof (K_pos p q P Q) as KP. replace (p + q) with (c - a) in KP at 1 2 by (unfold p, q; lra). specialize (KP E).
  pose proof (K_eq a b c) as KE. fold p q in KE. cbv zeta in KE.
  set (t := (q * f1 - (p + q) * f2 + p * f3) / K p q).
  assert (T : t * K p q = q * f1 - (p + q) * f2 + p * f3) by (unfold t; field; lra).
  set (w1 := q * t). set (w2 := - (p + q) * t). set (w3 := p * t).
  set (g1 := f1 - (e a b * w2 + e a c * w3)). set (g2 := f2 - (e a b * w1 + e b c * w3)).
  set (v1 := (g2 - g1) / p). set (v0 := g1 - v1 * a).
  assert (V : p * v1 = g2 - g1) by (unfold v1; field; lra).
  exists [w1; w2; w3; v1; v0]. split; [reflexivity|]. rewrite mul3. change (rhs 1 [f1; f2; f3]) with [f1; f2; f3; 0; 0].
  assert (B : b = a + p) by (unfold p; ring). assert (C : c = a + p + q) by (unfold p, q; ring).
  assert (R1 : e a b * w2 + e a c * w3 + a * v1 + v0 = f1) by (unfold v0, g1; ring).
  assert (R2 : e a b * w1 + e b c * w3 + b * v1 + v0 = f2).
  { replace (b * v1) with (a * v1 + p * v1) by (clearbody v1; unfold p; ring). rewrite V. unfold v0, g2. ring. }
  assert (R3 : e a c * w1 + e b c * w2 + c * v1 + v0 = f3).
  { apply (Rmult_eq_reg_l p); [|lra].
    replace (p * f3) with (t * K p q - q * f1 + (p + q) * f2) by (rewrite T; ring).
    rewrite <- KE, <- R1, <- R2. replace (c * v1) with ((a + p + q) * v1) by (clearbody v1; unfold p, q; ring).
    replace (b * v1) with ((a + p) * v1) by (clearbody v1; unfold p; ring). unfold w1, w2, w3. ring. }
  rewrite R1, R2, R3. repeat f_equal.
  - unfold w1, w2, w3. clearbody t. unfold p, q. ring.
  - unfold w1, w2, w3. ring.
Qed.

Lemma L_kernel r : / 2 * (r * r) * L (r * r) = kernel r.
Proof.
  unfold kernel, L. change (/ 10 ^ 10) with EPSILON. set (m := Rmax (r * r) EPSILON).
  assert (M : 0 < m) by (eapply Rlt_le_trans; [apply eps_pos|apply Rmax_r]).
  replace (ln m) with (ln (sqrt m * sqrt m)) by (now rewrite sqrt_sqrt by lra).
  rewrite ln_mult by (now apply sqrt_lt_R0). field.
Qed.
Lemma kernel_0 : kernel 0 = 0. Proof. unfold kernel. ring. Qed.
Lemma kernel_abs r : EPSILON <= r * r -> 0 < r -> kernel r = r * r * ln r.
Proof.
  intros H P. unfold kernel. change (/ 10 ^ 10) with EPSILON. rewrite Rmax_left by exact H.
  rewrite sqrt_square by lra. reflexivity.
Qed.
Lemma eps_small : EPSILON < / 4.
Proof. unfold EPSILON. apply Rinv_lt_contravar; [|]. - assert (0 < 10 ^ 10) by (apply pow_lt; lra). nra. - simpl. lra. Qed.
Lemma kernel_1 : kernel 1 = 0.
Proof. rewrite kernel_abs; [rewrite ln_1; ring| |lra]. pose proof eps_small. lra. Qed.
Lemma kernel_2 : kernel 2 = 4 * ln 2.
Proof. rewrite kernel_abs; [ring| |lra]. pose proof eps_small. lra. Qed.
Lemma kernel_opp r : kernel (- r) = kernel r.
Proof. unfold kernel. replace (- r * - r) with (r * r) by ring. reflexivity. Qed.
Lemma ln2_pos : 0 < ln 2.
Proof. rewrite <- ln_1. apply ln_increasing; lra. Qed.

Lemma solution_m101 f1 f2 f3 (t := (f1 - 2 * f2 + f3) / (8 * ln 2)) :
  mulmv (lhs 2 0 1 [[-1]; [0]; [1]]) [t; -2 * t; t; (f3 - f1) / 2; f2] = rhs 1 [f1; f2; f3].
Proof.
  rewrite mul3. rewrite (e_val (-1) 0 1), (e_val (-1) 1 2), (e_val 0 1 1) by lra. rewrite !L_kernel, kernel_1, kernel_2.
  assert (T : t * (8 * ln 2) = f1 - 2 * f2 + f3) by (unfold t; field; pose proof ln2_pos; lra).
  change (rhs 1 [f1; f2; f3]) with [f1; f2; f3; 0; 0]. repeat f_equal; lra.
Qed.

Section Solver.
Context (solve : list vec -> vec -> result vec) (OK : solves solve).
Lemma interp_m101 f1 f2 f3 alpha y :
  interpolate_spline solve 2 0 1 [[-1]; [0]; [1]] [f1; f2; f3] [alpha] = Ok y -> y = curve f1 f2 f3 alpha.
Proof.
  intros H. assert (D : determined 2 1 [[-1]; [0]; [1]]) by (apply determined3; pose proof eps_small; lra).
  set (t := (f1 - 2 * f2 + f3) / (8 * ln 2)).
  assert (Lx : length [t; -2 * t; t; (f3 - f1) / 2; f2] = length (lhs 2 0 1 [[-1]; [0]; [1]])) by (now rewrite lhs_length).
  rewrite (known solve OK 2 1 [[-1]; [0]; [1]] [f1; f2; f3] [alpha] y _ D eq_refl Lx (solution_m101 f1 f2 f3) H).
  unfold apply_interpolation. cbn [length firstn skipn map dot app].
  fold (e alpha (-1)) (e alpha 0) (e alpha 1).
  rewrite (e_val alpha (-1) (alpha + 1)), (e_val alpha 0 alpha), (e_val alpha 1 (alpha - 1)) by lra.
  rewrite !L_kernel. unfold curve. fold t. lra.
Qed.
Lemma exists3 (CO : complete solve) a b c f1 f2 f3 q : a < b -> b < c -> EPSILON < (c - a) * (c - a) ->
  exists y, interpolate_spline solve 2 0 1 [[a]; [b]; [c]] [f1; f2; f3] [q] = Ok y.
Proof.
  intros Hab Hbc E. destruct (solution3 a b c f1 f2 f3 Hab Hbc E) as (x & Lx & M).
  unfold interpolate_spline, solve_interpolation.
  destruct (CO (lhs 2 0 1 [[a]; [b]; [c]]) (rhs 1 [f1; f2; f3]) x) as (y & ->).
  - rewrite lhs_length. exact Lx.
  - exact M.
  - now apply (determined3 a b c).
  - cbn. eauto.
Qed.
End Solver.

(** within 0.00001 of each other *)
Lemma close3 a b c : a < b -> b < c -> (c - a) * (c - a) <= EPSILON -> ~ determined 2 1 [[a]; [b]; [c]].
Proof.
  intros Hab Hbc E D.
  set (p := b - a). set (q := c - b).
  set (l := / 2 * ln EPSILON).
  assert (G : forall x y r, r = y - x \/ r = x - y -> r * r <= EPSILON -> e x y = l * (r * r)).
  { intros x y r Hr Hl. rewrite (e_val x y r Hr). unfold L. rewrite Rmax_right by exact Hl. unfold l. ring. }
  assert (Eab : e a b = l * (p * p)) by (apply G; unfold p; [lra|nra]).
  assert (Ebc : e b c = l * (q * q)) by (apply G; unfold q; [lra|nra]).
  assert (Eac : e a c = l * ((p + q) * (p + q))) by (apply G; unfold p, q; [lra|nra]).
  assert (Z := D [q; - (p + q); p; 0; - l * (p * q * (p + q))]). rewrite mul3, Eab, Ebc, Eac in Z.
  assert (q = 0); [|unfold q in *; lra].
  apply Z; [rewrite lhs_length; reflexivity| |now left].
  intros r [<-|[<-|[<-|[<-|[<-|[]]]]]]; unfold p, q; ring.
Qed.
