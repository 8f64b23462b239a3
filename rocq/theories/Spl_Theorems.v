(** C86: splines through points, and morphing of histograms. *)
From Coq Require Import Reals Lra.
From Verif Require Import Base BaseLemmas PGraph_Proofs Spl_Model Spl_Spec Spl_Proofs Spl_Proofs2 Spl_Proofs3.
Open Scope R_scope.
Open Scope list_scope.

(** A solver for the examples: it knows the system of the points -1, 0 and 1. *)
Definition ex_solve (A : list vec) (b : vec) : result vec :=
  match b with
  | [f1; f2; f3; _; _] =>
      let t := (f1 - 2 * f2 + f3) / (8 * ln 2) in
      let x := [t; -2 * t; t; (f3 - f1) / 2; f2] in
      if list_eq_dec Req_EM_T (mulmv A x) b then
        if Nat.eqb (length A) 5 then Ok x else Err ValueError
      else Err ValueError
  | _ => Err ValueError
  end.
Lemma ex_solves : solves ex_solve.
Proof.
  intros A b x. unfold ex_solve.
  destruct b as [|f1 [|f2 [|f3 [|z1 [|z2 [|z3 b]]]]]]; try discriminate.
  destruct (list_eq_dec _ _ _) as [E|]; [|discriminate]. destruct (Nat.eqb_spec (length A) 5) as [LA|]; [|discriminate].
  intros H. injection H as <-. now split.
Qed.
Lemma ex_ok f1 f2 f3 alpha :
  interpolate_spline ex_solve 2 0 1 [[-1]; [0]; [1]] [f1; f2; f3] [alpha] = Ok (curve f1 f2 f3 alpha).
Proof.
  assert (H : exists y, interpolate_spline ex_solve 2 0 1 [[-1]; [0]; [1]] [f1; f2; f3] [alpha] = Ok y).
  { unfold interpolate_spline, solve_interpolation, ex_solve. change (rhs 1 [f1; f2; f3]) with [f1; f2; f3; 0; 0].
    cbv beta iota zeta. destruct (list_eq_dec _ _ _) as [E|N].
    - rewrite lhs_length. cbn. eauto.
    - exfalso. apply N. apply solution_m101. }
  destruct H as (y & H). rewrite H. f_equal. exact (interp_m101 ex_solve ex_solves f1 f2 f3 alpha y H).
Qed.

(** A spline of any order, in any dimension, goes through its points. *)
Theorem C86_through : forall solve, solves solve -> forall order d pts f i c y,
  length f = length pts -> nth_error pts i = Some c ->
  interpolate_spline solve order 0 d pts f c = Ok y -> nth_error f i = Some y.
Proof.
  intros solve OK order d pts f i c y Lf Ic H.
  rewrite (through solve OK order d pts f i c y Lf Ic H). apply nth_error_nth'.
  rewrite Lf. apply nth_error_Some. congruence.
Qed.
Example C86_through_ex :
  nth_error [[-1]; [0]; [1]] 2 = Some [1]
  /\ exists y, interpolate_spline ex_solve 2 0 1 [[-1]; [0]; [1]] [3; 5; 4] [1] = Ok y /\ nth_error [3; 5; 4] 2 = Some y.
Proof.
  split; [reflexivity|]. eexists. split; [apply ex_ok|].
  exact (C86_through ex_solve ex_solves 2 1 [[-1]; [0]; [1]] [3; 5; 4] 2 [1] _ eq_refl eq_refl (ex_ok 3 5 4 1)).
Qed.

(** With regularisation the spline misses each point by the regularisation times its weight; the
    weights, with or without regularisation, sum to zero and are orthogonal to the points. *)
Theorem C86_regularised : forall solve, solves solve -> forall order reg d pts f w v,
  0 < reg -> points d pts -> length f = length pts ->
  solve_interpolation solve order reg d pts f = Ok (w, v) ->
  (forall i c y, nth_error pts i = Some c ->
     interpolate_spline solve order reg d pts f c = Ok y -> y = nth i f 0 - reg * nth i w 0)
  /\ sumR w = 0
  /\ (forall k, (k < d)%nat -> dot (map (fun c => nth k c 0) pts) w = 0).
Proof.
  intros solve OK order reg d pts f w v P HP Lf H.
  unfold interpolate_spline. rewrite H. unfold solve_interpolation in H.
  destruct (solve (lhs order reg d pts) (rhs d f)) as [x|] eqn:E; [|discriminate]. cbn in H. injection H as <- <-.
  destruct (OK _ _ _ E) as (Lx & M). split.
  - intros i c y Ic Hy. cbn in Hy. injection Hy as <-. now apply (row_reg order reg d pts x i c f).
  - exact (weights_sum order reg d pts f x HP Lf Lx M).
Qed.
(** two points at distance one, with regularisation: the line *)
Example C86_regularised_ex :
  let solve := fun (A : list vec) (b : vec) => if list_eq_dec Req_EM_T (mulmv A [0; 0; 2; 3]) b then
                 if Nat.eqb (length A) 4 then Ok [0; 0; 2; 3] else Err ValueError else Err ValueError in
  solves solve /\ points 1 [[0]; [1]]
  /\ solve_interpolation solve 1 (1/2) 1 [[0]; [1]] [3; 5] = Ok ([0; 0], [2; 3]).
Proof.
  intros solve. split; [|split].
  - intros A b x. unfold solve. destruct (list_eq_dec _ _ _) as [E|]; [|discriminate].
    destruct (Nat.eqb_spec (length A) 4) as [LA|]; [|discriminate]. intros H. injection H as <-. now split.
  - unfold points. repeat constructor.
  - unfold solve_interpolation, solve. rewrite lhs_length. destruct (list_eq_dec _ _ _) as [E|N]; [reflexivity|].
    exfalso. apply N. unfold lhs, add_diag. destruct (Rlt_dec 0 (1 / 2)) as [_|H]; [|lra].
    unfold mulmv, rhs, zeros. cbn -[phi]. repeat f_equal; try lra.
Qed.

(** An affine function is reproduced everywhere, also outside of the points. *)
Theorem C86_affine : forall solve, solves solve -> forall order d pts a b q y,
  determined order d pts -> points d pts -> length a = d -> length q = d ->
  interpolate_spline solve order 0 d pts (map (affine a b) pts) q = Ok y -> y = affine a b q.
Proof.
  intros solve OK order d pts a b q y D P La Lq H.
  destruct (affine_solution order d pts a b P La) as (Lx & M & V).
  rewrite (known solve OK order d pts _ q y _ D (map_length _ _) Lx M H). now apply V.
Qed.
Example C86_affine_ex :
  determined 2 1 [[-1]; [0]; [1]] /\ points 1 [[-1]; [0]; [1]]
  /\ interpolate_spline ex_solve 2 0 1 [[-1]; [0]; [1]] (map (affine [2] 7) [[-1]; [0]; [1]]) [10] = Ok 27.
Proof.
  assert (D : determined 2 1 [[-1]; [0]; [1]]) by (apply determined3; pose proof eps_small; lra).
  assert (P : points 1 [[-1]; [0]; [1]]) by (repeat constructor).
  split; [exact D|]. split; [exact P|]. cbn [map]. rewrite ex_ok. f_equal.
  pose proof (C86_affine ex_solve ex_solves 2 1 [[-1]; [0]; [1]] [2] 7 [10] _ D P eq_refl eq_refl (ex_ok _ _ _ 10)) as H.
  etransitivity; [exact H|]. unfold affine. cbn. lra.
Qed.

(** The spline is linear in the values. *)
Theorem C86_linear : forall solve, solves solve -> forall order d pts f g a b q yf yg y,
  determined order d pts -> length f = length pts -> length g = length pts ->
  interpolate_spline solve order 0 d pts f q = Ok yf ->
  interpolate_spline solve order 0 d pts g q = Ok yg ->
  interpolate_spline solve order 0 d pts (map (fun xy => a * fst xy + b * snd xy) (combine f g)) q = Ok y ->
  y = a * yf + b * yg.
Proof.
  intros solve OK order d pts f g a b q yf yg y D Lf Lg Hf Hg H.
  apply (linear solve OK order d pts f g a b q yf yg y D Lf Lg Hf Hg).
  assert (E : addv (scalv a f) (scalv b g) = map (fun xy => a * fst xy + b * snd xy) (combine f g)).
  { clear. revert g. induction f as [|x f IH]; intros [|z g]; cbn; try reflexivity. f_equal. apply IH. }
  rewrite E. exact H.
Qed.
Example C86_linear_ex :
  determined 2 1 [[-1]; [0]; [1]]
  /\ exists yf yg y, interpolate_spline ex_solve 2 0 1 [[-1]; [0]; [1]] [1; 5; 2] [3] = Ok yf
     /\ interpolate_spline ex_solve 2 0 1 [[-1]; [0]; [1]] [2; 0; 7] [3] = Ok yg
     /\ interpolate_spline ex_solve 2 0 1 [[-1]; [0]; [1]]
          (map (fun xy => 2 * fst xy + 3 * snd xy) (combine [1; 5; 2] [2; 0; 7])) [3] = Ok y.
Proof.
  split; [apply determined3; pose proof eps_small; lra|]. cbn [combine map fst snd]. rewrite !ex_ok. now do 3 eexists.
Qed.

(** The morphed histogram at the value of a histogram is this histogram. *)
Theorem C86_morph_at_histogram : forall solve, solves solve -> forall l i a h m,
  nth_error l i = Some (a, h) -> morph solve (HMap l) a = Ok m -> m = h.
Proof.
  intros solve OK l i a h m Il H. unfold morph in H. cbn in H.
  destruct l as [|[a0 h0] l0]; [discriminate|]. set (l := (a0, h0) :: l0) in *.
  unfold spline_interpolator in H. change (map snd l) with (h0 :: map snd l0) in H. cbv iota in H.
  change (h0 :: map snd l0) with (map snd l) in H.
  destruct (forallb _ (map snd l)) eqn:F; [|discriminate].
  assert (Lh : forall j x, nth_error l j = Some x -> length (snd x) = length h0).
  { intros j x Ij. rewrite forallb_forall in F. apply Nat.eqb_eq, F. apply in_map. now apply nth_error_In in Ij. }
  apply mapM_ok in H.
  assert (G : forall k y, nth_error m k = Some y -> nth_error h k = Some y).
  { intros k y Ik. assert (Hk : (k < length h0)%nat).
    { assert (k < length m)%nat by (apply nth_error_Some; congruence). apply Forall2_length' in H. rewrite seq_length in H. lia. }
    assert (Sk : nth_error (seq 0 (length h0)) k = Some k).
    { rewrite (nth_error_nth' _ 0%nat) by (now rewrite seq_length). now rewrite seq_nth. }
    apply Forall2_nth in H as HF. pose proof (proj2 HF k k y Sk Ik) as Hy. cbv beta in Hy.
    pose proof (C86_through solve OK 2 1 (map (fun a => [a]) (map fst l)) (column k (map snd l)) i [a] y) as T.
    rewrite map_map in T. unfold column in T, Hy. rewrite !map_map in T. rewrite 2!map_map in Hy. rewrite !map_length in T.
    rewrite !nth_error_map, Il in T. specialize (T eq_refl eq_refl Hy). cbn in T. injection T as <-.
    apply nth_error_nth'. pose proof (Lh i _ Il) as Q. cbn [snd] in Q. lia. }
  apply nth_error_ext. intros k. destruct (nth_error m k) as [y|] eqn:Ek; [symmetry; now apply G|].
  symmetry. apply nth_error_None. apply nth_error_None in Ek. apply Forall2_length' in H. rewrite seq_length in H.
  pose proof (Lh i _ Il) as Q. cbn [snd] in Q. lia.
Qed.

Lemma curve_at f1 f2 f3 : curve f1 f2 f3 0 = f2.
Proof. unfold curve. replace (0 + 1) with 1 by ring. replace (0 - 1) with (Ropp 1) by ring. rewrite kernel_opp, kernel_0, kernel_1. ring. Qed.
Definition ex_map : list (R * vec) := [(-1, [10; 20]); (0, [15; 15]); (1, [21; 9])].
Lemma ex_map_ok alpha :
  morph ex_solve (HMap ex_map) alpha = Ok [curve 10 15 21 alpha; curve 20 15 9 alpha].
Proof.
  unfold morph, spline_interpolator, ex_map. cbn [alphas_of bind map fst snd forallb length Nat.eqb andb seq mapM column nth].
  rewrite !ex_ok. reflexivity.
Qed.
Example C86_morph_at_histogram_ex : nth_error ex_map 1 = Some (0, [15; 15])
  /\ morph ex_solve (HMap ex_map) 0 = Ok [15; 15].
Proof. split; [reflexivity|]. now rewrite ex_map_ok, !curve_at. Qed.

(** The total content of the morphed histogram is the morphed total content: the counts sum to the
    yield that is created automatically. In particular, histograms with the same total content are
    morphed into histograms of this total content, whatever the value of alpha. *)
Theorem C86_total : forall solve, solves solve -> forall l alpha m y,
  determined 2 1 (map (fun ah => [fst ah]) l) ->
  morph solve (HMap l) alpha = Ok m ->
  morph solve (HMap (map (fun ah => (fst ah, [total (snd ah)])) l)) alpha = Ok [y] ->
  total m = y /\ forall T, (forall a h, In (a, h) l -> total h = T) -> total m = T.
Proof.
  intros solve OK l alpha m y D H Hy. unfold morph in H, Hy. cbn [alphas_of bind] in H, Hy.
  destruct l as [|[a0 h0] l0]; [discriminate|]. set (l := (a0, h0) :: l0) in *.
  set (pts := map (fun ah : R * list R => [fst ah]) l) in *.
  unfold spline_interpolator in H, Hy. change (map snd l) with (h0 :: map snd l0) in H. cbv iota in H.
  change (h0 :: map snd l0) with (map snd l) in H.
  destruct (forallb _ (map snd l)) eqn:F in H; [|discriminate].
  assert (Lh : forall x, In x l -> length (snd x) = length h0).
  { intros x Ix. rewrite forallb_forall in F. apply Nat.eqb_eq, F. now apply in_map. }
  assert (P1 : map (fun a => [a]) (map fst l) = pts) by (unfold pts; now rewrite map_map).
  assert (P2 : map (fun a => [a]) (map fst (map (fun ah : R * list R => (fst ah, [total (snd ah)])) l)) = pts)
    by (unfold pts; now rewrite !map_map).
  rewrite P1 in H. rewrite P2 in Hy.
  change (map snd (map (fun ah : R * list R => (fst ah, [total (snd ah)])) l))
    with ([total h0] :: map snd (map (fun ah : R * list R => (fst ah, [total (snd ah)])) l0)) in Hy.
  cbv iota in Hy.
  change ([total h0] :: map snd (map (fun ah : R * list R => (fst ah, [total (snd ah)])) l0))
    with (map snd (map (fun ah : R * list R => (fst ah, [total (snd ah)])) l)) in Hy.
  destruct (forallb _ _) in Hy; [|discriminate]. cbn [length seq mapM] in Hy.
  assert (C : column 0 (map snd (map (fun ah : R * list R => (fst ah, [total (snd ah)])) l)) = map (fun ah => total (snd ah)) l)
    by (unfold column; now rewrite !map_map).
  rewrite C in Hy.
  destruct (interpolate_spline solve 2 0 1 pts (map (fun ah => total (snd ah)) l) [alpha]) as [z|] eqn:E; [|discriminate].
  cbn in Hy. injection Hy as ->.
  assert (Lp : length pts = length l) by apply map_length.
  assert (S : y = sumR m).
  { apply (interp_sum solve OK 2 1 pts (length h0) (fun j => column j (map snd l)) [alpha] m y D).
    - intros j. unfold column. now rewrite !map_length.
    - exact H.
    - rewrite <- E. f_equal. rewrite Lp.
      assert (G : forall n s, (s + n <= length h0)%nat ->
         fold_right (fun j acc => addv (column j (map snd l)) acc) (zeros (length l)) (seq s n)
         = map (fun ah => sumR (firstn n (skipn s (snd ah)))) l).
      { induction n as [|n IH]; intros s Hs; cbn [seq fold_right].
        - cbn [firstn]. symmetry. apply all_zero; [apply map_length|]. intros r Ir. now apply in_map_iff in Ir as (u & <- & _).
        - rewrite IH by lia. unfold column. rewrite map_map.
          assert (A : forall (l' : list (R * list R)), incl l' l -> addv (map (fun x => nth s (snd x) 0) l') (map (fun ah => sumR (firstn n (skipn (S s) (snd ah)))) l')
             = map (fun ah => sumR (firstn (S n) (skipn s (snd ah)))) l').
          { induction l' as [|x l' IHl]; intros Hi; [reflexivity|]. cbn [map addv]. f_equal.
            - assert (Q : length (snd x) = length h0) by (apply Lh, Hi; now left). 
              assert (N : (s < length (snd x))%nat) by lia. revert N. generalize (snd x) as w. clear. revert s.
              induction s as [|s IHs]; intros [|u w] N; cbn [length] in N; try lia; [reflexivity|].
              cbn [nth skipn]. apply IHs. lia.
            - apply IHl. intros u Iu. apply Hi. now right. }
          apply A, incl_refl. }
      rewrite G by lia. apply map_ext_in. intros x Ix. cbn [skipn]. rewrite <- (Lh x Ix), firstn_all. reflexivity. }
  split; [now rewrite S|]. intros T HT. unfold total at 1. rewrite <- S.
  assert (P : points 1 pts) by (unfold points, pts; apply Forall_forall; intros c Ic; now apply in_map_iff in Ic as (u & <- & _)).
  assert (Eq : map (fun ah : R * list R => total (snd ah)) l = map (affine [0] T) pts).
  { unfold pts. rewrite map_map. apply map_ext_in. intros [a h] Ix. cbn [snd fst]. rewrite (HT a h Ix). unfold affine. cbn. lra. }
  rewrite Eq in E. rewrite (C86_affine solve OK 2 1 pts [0] T [alpha] y D P eq_refl eq_refl E). unfold affine. cbn. lra.
Qed.
Example C86_total_ex :
  determined 2 1 (map (fun ah => [fst ah]) ex_map)
  /\ (exists m y, morph ex_solve (HMap ex_map) 3 = Ok m
      /\ morph ex_solve (HMap (map (fun ah => (fst ah, [total (snd ah)])) ex_map)) 3 = Ok [y])
  /\ (forall a h, In (a, h) ex_map -> total h = 30).
Proof.
  split; [change (determined 2 1 [[-1]; [0]; [1]]); apply determined3; pose proof eps_small; lra|]. split.
  - do 2 eexists. split; [apply ex_map_ok|].
    unfold morph, spline_interpolator, ex_map. cbn [alphas_of bind map fst snd forallb length Nat.eqb andb seq mapM column nth].
    rewrite ex_ok. reflexivity.
  - intros a h [E|[E|[E|[]]]]; injection E as <- <-; unfold total; cbn; lra.
Qed.

(** Three histograms in a list: the morphed histogram exists for every alpha, and each content
    follows the curve through the three contents at -1, 0 and 1. Lists of another length are
    refused. *)
Theorem C86_three : forall solve, solves solve ->
  (forall hs alpha, length hs <> 3%nat -> morph solve (HList hs) alpha = Err ValueError)
  /\ forall h1 h2 h3 alpha, length h2 = length h1 -> length h3 = length h1 ->
      (complete solve -> exists m, morph solve (HList [h1; h2; h3]) alpha = Ok m)
      /\ (forall m, morph solve (HList [h1; h2; h3]) alpha = Ok m ->
            length m = length h1
            /\ forall j, (j < length h1)%nat ->
                 nth j m 0 = curve (nth j h1 0) (nth j h2 0) (nth j h3 0) alpha).
Proof.
  intros solve OK. split.
  - intros hs alpha N. unfold morph. cbn. destruct (Nat.eqb_spec (length hs) 3); [contradiction|reflexivity].
  - intros h1 h2 h3 alpha L2 L3. unfold morph, spline_interpolator. cbn [alphas_of length Nat.eqb combine bind map fst snd forallb].
    rewrite L2, L3, Nat.eqb_refl. cbn [andb column map]. split.
    + intros CO. generalize (seq 0 (length h1)). induction l as [|j l IH]; [now exists []|]. cbn [mapM].
      destruct (exists3 solve CO (-1) 0 1 (nth j h1 0) (nth j h2 0) (nth j h3 0) alpha) as (y & ->); [lra|lra|pose proof eps_small; lra|].
      destruct IH as (ys & ->). cbn. eauto.
    + intros m H. apply mapM_ok in H. pose proof (Forall2_length' _ _ _ H) as Lm. rewrite seq_length in Lm.
      split; [lia|]. intros j Hj.
      assert (Sj : nth_error (seq 0 (length h1)) j = Some j).
      { rewrite (nth_error_nth' _ 0%nat) by (now rewrite seq_length). now rewrite seq_nth. }
      assert (Mj : nth_error m j = Some (nth j m 0)) by (apply nth_error_nth'; lia).
      apply Forall2_nth in H as HF. pose proof (proj2 HF j j _ Sj Mj) as Hy. cbv beta in Hy. exact (interp_m101 solve OK _ _ _ _ _ Hy).
Qed.
Example C86_three_ex : morph ex_solve (HList [[10; 20]; [15; 15]; [21; 9]]) 0 = Ok [15; 15].
Proof.
  transitivity (morph ex_solve (HMap ex_map) 0); [reflexivity|]. now rewrite ex_map_ok, !curve_at.
Qed.

(** Three values of alpha determine the morphing exactly if the outermost two are more than 0.00001
    apart. *)
Theorem C86_determined_three : forall a b c, a < b -> b < c ->
  (determined 2 1 [[a]; [b]; [c]] <-> / 10 ^ 5 < c - a).
Proof.
  intros a b c Hab Hbc.
  assert (T : / 10 ^ 5 * / 10 ^ 5 = EPSILON) by (unfold EPSILON; simpl; field).
  assert (T0 : 0 < / 10 ^ 5) by (apply Rinv_0_lt_compat, pow_lt; lra).
  split.
  - intros D. destruct (Rlt_dec (/ 10 ^ 5) (c - a)) as [H|H]; [exact H|]. exfalso.
    apply (close3 a b c Hab Hbc); [|exact D]. rewrite <- T. nra.
  - intros H. apply determined3; [exact Hab|exact Hbc|]. rewrite <- T. nra.
Qed.
Example C86_determined_three_ex : -1 < 0 /\ 0 < 3 /\ / 10 ^ 5 < 3 - -1.
Proof. repeat split; try lra; simpl; lra. Qed.

Definition eo (o : nat) (x y : R) : R := phi o (cross_dist2 [x] [y]).
Lemma lhs3o o a b c : lhs o 0 1 [[a]; [b]; [c]]
  = [[eo o a a; eo o a b; eo o a c; a; 1]; [eo o b a; eo o b b; eo o b c; b; 1]; [eo o c a; eo o c b; eo o c c; c; 1];
     [a; b; c; 0; 0]; [1; 1; 1; 0; 0]].
Proof. unfold lhs, add_diag. destruct (Rlt_dec 0 0) as [H|_]; [lra|reflexivity]. Qed.
Lemma eo_val o x y r : r = (x - y) * (x - y) -> eo o x y = phi o r.
Proof. intros ->. unfold eo. f_equal. unfold cross_dist2. cbn [dot]. ring. Qed.
Lemma Rpower_sq x : 0 < x -> Rpower (x * x) (/ 2 * INR 3) = x * x * x.
Proof.
  intros X. rewrite <- Rpower_mult, Rpower_sqrt by nra. rewrite sqrt_square by lra.
  rewrite Rpower_pow by exact X. ring.
Qed.
Lemma max_eps r : 1 <= r -> Rmax r EPSILON = r.
Proof. intros H. apply Rmax_left. pose proof eps_small. lra. Qed.
Lemma phi1 x : 1 <= x -> phi 1 (x * x) = x.
Proof. intros H. cbn [phi]. rewrite max_eps by nra. apply sqrt_square. lra. Qed.
Lemma phi3 x : 1 <= x -> phi 3 (x * x) = x * x * x.
Proof. intros H. cbn [phi Nat.even]. rewrite max_eps by nra. apply Rpower_sq. lra. Qed.
Lemma eps_100 : EPSILON < / 10 * / 10.
Proof.
  unfold EPSILON. rewrite <- Rinv_mult. apply Rinv_lt_contravar; [|simpl; lra].
  assert (0 < 10 ^ 10) by (apply pow_lt; lra). nra.
Qed.
Lemma phi1_0 : 0 <= phi 1 0 <= / 10.
Proof.
  cbn [phi]. rewrite Rmax_right by (pose proof eps_pos; lra). split; [apply sqrt_pos|].
  replace (/ 10) with (sqrt (/ 10 * / 10)) by (apply sqrt_square; lra). apply sqrt_le_1_alt. left. apply eps_100.
Qed.
Lemma phi3_0 : 0 <= phi 3 0 <= / 10.
Proof.
  cbn [phi Nat.even]. rewrite Rmax_right by (pose proof eps_pos; lra). split; [left; apply exp_pos|].
  apply Rle_trans with (Rpower (/ 10 * / 10) (/ 2 * INR 3)).
  - apply Rle_Rpower_l; [cbn; lra|]. split; [apply eps_pos|left; apply eps_100].
  - rewrite Rpower_sq by lra. nra.
Qed.
Lemma mul3o o a b c w1 w2 w3 v1 v0 b5 : mulmv (lhs o 0 1 [[a]; [b]; [c]]) [w1; w2; w3; v1; v0] = b5 ->
  b5 = [eo o a a * w1 + eo o a b * w2 + eo o a c * w3 + a * v1 + v0;
        eo o b a * w1 + eo o b b * w2 + eo o b c * w3 + b * v1 + v0;
        eo o c a * w1 + eo o c b * w2 + eo o c c * w3 + c * v1 + v0;
        a * w1 + b * w2 + c * w3; w1 + w2 + w3].
Proof. intros <-. rewrite lhs3o. unfold mulmv. cbn [map dot]. repeat (f_equal; try ring). Qed.
(** The splined density goes through the density at the centers of the bins, and with the default
    order the extended one is the yield times the other one. *)
Theorem C86_splined : forall solve, solves solve ->
  (forall order centers density i c y, length density = length centers ->
     nth_error centers i = Some c ->
     (spline_pdf solve order centers density c = Ok y \/ spline_ext_pdf solve order centers density c = Ok y) ->
     nth_error density i = Some y)
  /\ (forall order centers density yield x p ep, length density = length centers ->
       order = None \/ order = Some 3%nat ->
       determined 3 1 (map (fun c => [c]) centers) ->
       spline_pdf solve order centers density x = Ok p ->
       spline_ext_pdf solve order centers (map (Rmult yield) density) x = Ok ep ->
       ep = yield * p).
Proof.
  intros solve OK. split.
  - intros order centers density i c y L Ic [H|H].
    + apply (C86_through solve OK 3 1 (map (fun c => [c]) centers) density i [c] y); [now rewrite map_length| |exact H].
      now rewrite nth_error_map, Ic.
    + unfold spline_ext_pdf in H.
      eapply (C86_through solve OK _ 1 (map (fun c => [c]) centers) density i [c] y); [now rewrite map_length| |exact H].
      now rewrite nth_error_map, Ic.
  - intros order centers density yield x p ep L O D H He. unfold spline_pdf in H. unfold spline_ext_pdf in He.
    assert (E : match order with Some o => o | None => 3%nat end = 3%nat) by (destruct O as [->| ->]; reflexivity).
    rewrite E in He.
    replace (yield * p) with (yield * p + 0 * p) by ring.
    apply (C86_linear solve OK 3 1 (map (fun c => [c]) centers) density density yield 0 [x] p p ep D); try (now rewrite map_length); try exact H.
    rewrite <- He. f_equal. clear. induction density as [|u dn IH]; cbn; [reflexivity|]. rewrite IH. f_equal. lra.
Qed.

Example C86_splined_ex : determined 3 1 (map (fun c => [c]) [-1; 0; 1]).
Proof.
  intros x Lx Z. rewrite lhs_length in Lx. destruct (five x Lx) as (w1 & w2 & w3 & v1 & v0 & ->).
  cbn [map] in Z. destruct (mulmv (lhs 3 0 1 [[-1]; [0]; [1]]) [w1; w2; w3; v1; v0]) as [|z zs] eqn:M; [now rewrite lhs3o in M|].
  apply mul3o in M. rewrite M in Z. clear M.
  assert (Z1 := Z _ (or_introl eq_refl)). assert (Z2 := Z _ (or_intror (or_introl eq_refl))).
  assert (Z3 := Z _ (or_intror (or_intror (or_introl eq_refl)))).
  assert (Z4 := Z _ (or_intror (or_intror (or_intror (or_introl eq_refl))))).
  assert (Z5 := Z _ (or_intror (or_intror (or_intror (or_intror (or_introl eq_refl)))))). clear Z.
  rewrite (eo_val 3 (-1) (-1) 0), (eo_val 3 (-1) 0 1), (eo_val 3 (-1) 1 4) in Z1 by ring.
  rewrite (eo_val 3 0 (-1) 1), (eo_val 3 0 0 0), (eo_val 3 0 1 1) in Z2 by ring.
  rewrite (eo_val 3 1 (-1) 4), (eo_val 3 1 0 1), (eo_val 3 1 1 0) in Z3 by ring.
  pose proof phi3_0. pose proof (phi3 1 ltac:(lra)) as Q1. pose proof (phi3 2 ltac:(lra)) as Q2.
  replace (1 * 1) with 1 in * by ring. replace (2 * 2) with 4 in * by ring. rewrite Q1, Q2 in *.
  set (e3 := phi 3 0) in *. clearbody e3. assert (w3 = w1) by lra. assert (w2 = -2 * w1) by lra. subst w2 w3.
  assert (T1 : w1 * (4 + 3 * e3) = 0) by lra. assert (w1 = 0) by nra. subst w1.
  intros r [<-|[<-|[<-|[<-|[<-|[]]]]]]; lra.
Qed.

(** * What does not hold *)

(** One histogram cannot be morphed: its system has no unique solution, whatever its value of
    alpha. *)
Theorem C86_single_refuted : forall a, ~ determined 2 1 [[a]].
Proof.
  intros a D. assert (H : 1 = 0); [|lra].
  apply (D [0; 1; - a]); [now rewrite lhs_length| |right; now left].
  unfold lhs, add_diag. destruct (Rlt_dec 0 0) as [H|_]; [lra|].
  unfold mulmv. cbn -[phi]. intros r [<-|[<-|[<-|[]]]]; ring.
Qed.

Lemma ln_3_2 : 5 * ln 3 < 8 * ln 2.
Proof.
  assert (P : forall x n, 0 < x -> ln (x ^ n) = INR n * ln x).
  { intros x n X. induction n as [|n IH]; [cbn; rewrite ln_1; ring|]. rewrite S_INR. cbn [pow].
    rewrite ln_mult by (try exact X; now apply pow_lt). rewrite IH. ring. }
  replace 5 with (INR 5) by (cbn; ring). replace 8 with (INR 8) by (cbn; ring).
  rewrite <- !P by lra. apply ln_increasing; simpl; lra.
Qed.
(** Between histograms with positive contents the contents can be negative: 101, 1 and 1 at -1, 0 and
    1 give less than zero at 1/2. *)
Theorem C86_negative_refuted :
  ~ (forall solve, solves solve -> forall h1 h2 h3 alpha m, -1 <= alpha <= 1 ->
       (forall r, In r (h1 ++ h2 ++ h3) -> 0 < r) ->
       morph solve (HList [h1; h2; h3]) alpha = Ok m -> forall r, In r m -> 0 <= r).
Proof.
  intros H. specialize (H ex_solve ex_solves [101] [1] [1] (1/2) [curve 101 1 1 (1/2)]).
  assert (N : curve 101 1 1 (1 / 2) < 0).
  { unfold curve. replace (1 / 2 - 1) with (- (1 / 2)) by lra. rewrite kernel_opp.
    rewrite (kernel_abs (1 / 2)), (kernel_abs (1 / 2 + 1)) by (pose proof eps_small; lra).
    replace (1 / 2 + 1) with (3 / 2) by lra. unfold Rdiv. rewrite Rmult_1_l.
    rewrite (ln_mult 3 (/ 2)), ln_Rinv by lra.
    pose proof ln_3_2. pose proof ln2_pos.
    assert (E : 1 + / 2 * ((1 - 101) * / 2) + (101 - 2 * 1 + 1) * / (8 * ln 2) *
       (3 * / 2 * (3 * / 2) * (ln 3 + - ln 2) - 2 * (/ 2 * / 2 * - ln 2) + / 2 * / 2 * - ln 2)
       = (-384 * ln 2 + 450 * (ln 3) / 2) / (8 * ln 2) * 1 + 0 * (ln 3)
       + ((-384 * ln 2 + 450 * ln 3 / 2) * 0 + (24 * -8 * ln 2 + 100 * (9 / 4 * (ln 3 - ln 2) + ln 2 / 4) - (-384 * ln 2 + 450 * ln 3 / 2)) / (8 * ln 2))) by (field; lra).
    rewrite E.
    replace (_ + _) with ((24 * -8 * ln 2 + 100 * (9 / 4 * (ln 3 - ln 2) + ln 2 / 4)) / (8 * ln 2)) by (field; lra).
    apply Ropp_lt_cancel. rewrite Ropp_0. unfold Rdiv at 1. rewrite Ropp_mult_distr_l. apply Rmult_lt_0_compat; [lra|].
    apply Rinv_0_lt_compat. lra. }
  assert (0 <= curve 101 1 1 (1 / 2)); [|lra].
  apply H; [lra| | |now left].
  - intros r [<-|[<-|[<-|[]]]]; lra.
  - unfold morph, spline_interpolator. cbn [alphas_of length Nat.eqb combine bind map fst snd forallb andb seq mapM column nth].
    rewrite ex_ok. reflexivity.
Qed.

Lemma at_2 solve o y : solves solve ->
  interpolate_spline solve o 0 1 [[-1]; [0]; [1]] [1; 0; 1] [2] = Ok y ->
  exists t v0, y = t * (phi o 9 - 2 * phi o 4 + phi o 1) + v0
    /\ t * (phi o 0 - 2 * phi o 1 + phi o 4) + v0 = 1 /\ t * (2 * phi o 1 - 2 * phi o 0) + v0 = 0.
Proof.
  intros OK H. destruct (interp_solution solve OK o 1 [[-1]; [0]; [1]] [1; 0; 1] [2] y eq_refl H) as (x & _ & Lx & M & ->).
  rewrite lhs_length in Lx. destruct (five x Lx) as (w1 & w2 & w3 & v1 & v0 & ->).
  apply mul3o in M. change (rhs 1 [1; 0; 1]) with [1; 0; 1; 0; 0] in M.
  rewrite (eo_val o (-1) (-1) 0), (eo_val o (-1) 0 1), (eo_val o (-1) 1 4), (eo_val o 0 (-1) 1), (eo_val o 0 0 0),
    (eo_val o 0 1 1), (eo_val o 1 (-1) 4), (eo_val o 1 0 1), (eo_val o 1 1 0) in M by ring.
  injection M as M1 M2 M3 M4 M5.
  unfold apply_interpolation. cbn [length firstn skipn map dot app].
  fold (eo o 2 (-1)) (eo o 2 0) (eo o 2 1).
  rewrite (eo_val o 2 (-1) 9), (eo_val o 2 0 4), (eo_val o 2 1 1) by ring.
  assert (w3 = w1) by lra. assert (w2 = - 2 * w1) by lra. subst w2 w3. exists w1, v0.
  assert (v1 = 0) by lra. subst v1. repeat split; lra.
Qed.
(** The order that is given to a splined density is used for the extended density, but not for the
    density: with order one, the densities 1, 0 and 1 at the centers -1, 0 and 1 and the yield one,
    the two differ at 2 by more than 1/2, whatever the solver. *)
Theorem C86_order_refuted :
  forall solve, solves solve -> forall p ep,
    spline_pdf solve (Some 1%nat) [-1; 0; 1] [1; 0; 1] 2 = Ok p ->
    spline_ext_pdf solve (Some 1%nat) [-1; 0; 1] [1; 0; 1] 2 = Ok ep -> ep + 1 / 2 < p.
Proof.
  intros solve OK p ep Hp He. unfold spline_pdf in Hp. unfold spline_ext_pdf in He. cbn [map] in Hp, He.
  destruct (at_2 solve 3 p OK Hp) as (t & v & -> & A1 & A2). destruct (at_2 solve 1 ep OK He) as (u & w & -> & B1 & B2).
  pose proof phi1_0. pose proof phi3_0.
  pose proof (phi1 1 ltac:(lra)) as P1. pose proof (phi1 2 ltac:(lra)) as P2. pose proof (phi1 3 ltac:(lra)) as P3.
  pose proof (phi3 1 ltac:(lra)) as Q1. pose proof (phi3 2 ltac:(lra)) as Q2. pose proof (phi3 3 ltac:(lra)) as Q3.
  replace (1 * 1) with 1 in * by ring. replace (2 * 2) with 4 in * by ring. replace (3 * 3) with 9 in * by ring.
  rewrite P1, P2 in *. rewrite P3, Q1, Q2, Q3 in *. clear P1 P2 P3 Q1 Q2 Q3 Hp He.
  set (e1 := phi 1 0) in *. set (e3 := phi 3 0) in *. clearbody e1 e3.
  assert (T1 : t * (4 + 3 * e3) = 1) by lra. assert (U1 : u * (2 - 3 * e1) = - 1) by lra.
  assert (0 < t) by nra. assert (u < 0) by nra.
  assert (0 <= t * e3 <= t * / 10) by nra. assert (u * / 10 <= u * e1 <= 0) by nra. lra.
Qed.
