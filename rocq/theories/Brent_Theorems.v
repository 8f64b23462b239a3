(** C87: the root search of zfit/util/root_search.py. *)
From Coq Require Import Qabs Lqa Lia.
From Verif Require Import Base BaseLemmas Brent_Model Brent_Spec Brent_Proofs.
Open Scope Q_scope.

Ltac tol := split; [|split]; cbn [atol rtol ftol]; vm_compute; (reflexivity || discriminate).

Section Result.
Context (f : Q -> Q) (P : params) (validate : bool) (left right : Q) (v_left v_right : option Q).
Hypothesis TOL : tolerances P.
Hypothesis VAL : validate = true -> 0 < rtol P.
Hypothesis NE : ~ left == right.
Hypothesis OPP : opposite (f left) (f right).
Hypothesis GL : given f left v_left.
Hypothesis GR : given f right v_right.

Let lo := qmin left right.
Let hi := if Qle_bool left right then right else left.
Lemma lohi : lo <= hi.
Proof. unfold lo, hi, qmin. destruct (Qle_bool left right) eqn:E; [apply Qle_bool_iff in E|apply qle_false in E]; lra. Qed.
Lemma ins_within x : ins lo hi x -> within left right x.
Proof. unfold ins, within, lo, hi, qmin. destruct (Qle_bool left right) eqn:E; auto. Qed.
Lemma within_ins x : within left right x -> ins lo hi x.
Proof.
  unfold ins, within, lo, hi, qmin. destruct (Qle_bool left right) eqn:E; [apply Qle_bool_iff in E|apply qle_false in E]; intros [H|H]; lra.
Qed.
Lemma ends_within x : x = left \/ x = right -> within left right x.
Proof. intros [-> | ->]; unfold within; destruct (Qlt_le_dec left right); [left|right|left|right]; lra. Qed.

Lemma valid : validate && negb (valid_args P (prepare f P left right v_left v_right)) = false.
Proof.
  destruct validate eqn:V; [|reflexivity]. cbn [andb]. rewrite (prepare_true f P left right v_left v_right GL GR).
  destruct (prepare_cases f P left right) as (BL & B & L & _).
  apply negb_false_iff. unfold valid_args. specialize (VAL eq_refl). destruct TOL as (T1 & T2 & T3).
  assert (Q1 : forall x, 0 < x -> qlt 0 x = true).
  { intros x X. destruct (qlt 0 x) eqn:E; [reflexivity|]. apply qlt_false in E. lra. }
  rewrite (Q1 _ T1), (Q1 _ VAL). rewrite !andb_true_r. apply andb_true_intro. split; [|now apply Qle_bool_iff].
  apply Qle_bool_iff. destruct BL as [[E1 E2]|[E1 E2]]; rewrite E1 in B; rewrite E2 in L; rewrite B, L; destruct OPP as [O|O]; nra.
Qed.

Lemma search : brentq f P validate left right v_left v_right
  = Ok (results P (loop f P (max_iter P) (prepare f P left right None None))).
Proof. unfold brentq. rewrite valid. now rewrite (prepare_true f P left right v_left v_right GL GR). Qed.

Lemma search_ok : let s := loop f P (max_iter P) (prepare f P left right None None) in
  v_best s = f (best s) /\ within left right (best s) /\ (iters s <= max_iter P)%nat
  /\ (4 * Qabs (right - left) < atol P * inject_Z (Z.of_nat (max_iter P)) ->
      Qabs (v_best s) <= ftol P
      \/ exists c, within left right c /\ f c * f (best s) < 0
                   /\ Qabs (c - best s) < atol P + rtol P * Qabs (best s)).
Proof.
  cbv zeta. destruct (prepare_cases f P left right) as (BL & B & L & _ & _ & IT & _ & FE).
  destruct (finished (prepare f P left right None None)) eqn:F.
  - rewrite (loop_done f P _ _ F). split; [exact B|]. split; [apply ends_within; destruct BL as [[-> _]|[-> _]]; auto|].
    rewrite IT. split; [lia|]. intros W. symmetry in FE. apply orb_true_iff in FE as [FE|FE].
    + apply Nat.leb_le in FE. assert (M : max_iter P = 0%nat) by lia. rewrite M in W.
      change (inject_Z (Z.of_nat 0)) with 0 in W. pose proof (Qabs_nonneg (right - left)). lra.
    + left. now apply Qle_bool_iff.
  - pose proof (prepare_inv f P left right TOL NE OPP F) as I.
    destruct (loop_inv f P lo hi TOL (max_iter P) _ _ I F) as (R1 & R2 & R3 & R4); [rewrite IT; reflexivity|].
    split; [exact R1|]. split; [apply ins_within; exact R2|]. split; [exact R3|]. intros W.
    destruct R4 as [R|(c & C1 & C2 & C3)]; [lra|now left|]. right. exists c. split; [now apply ins_within|auto].
Qed.

(** C87: with a change of sign between the two points, the search ends with a point between them and the
    value of the function there, after no more than the allowed number of turns. The result says
    "converged" exactly if this value is within the tolerance. If there are enough turns for the
    distance of the points, then the search has converged, or the function has the other sign
    somewhere nearer than the tolerance of the root. *)
Theorem C87_root : exists r,
  brentq f P validate left right v_left v_right = Ok r
  /\ within left right (root r)
  /\ objective r = f (root r)
  /\ (iterations r <= max_iter P)%nat
  /\ (converged r = true <-> Qabs (f (root r)) <= ftol P)
  /\ (4 * Qabs (right - left) < atol P * inject_Z (Z.of_nat (max_iter P)) ->
      converged r = true
      \/ exists c, within left right c /\ f c * f (root r) < 0
                   /\ Qabs (c - root r) < atol P + rtol P * Qabs (root r)).
Proof.
  rewrite search. eexists. split; [reflexivity|]. unfold results. cbn [root objective iterations converged].
  destruct search_ok as (R1 & R2 & R3 & R4). split; [exact R2|]. split; [exact R1|]. split; [exact R3|].
  rewrite <- R1. split; [apply Qle_bool_iff|]. intros W. destruct (R4 W) as [R|R]; [left; now apply Qle_bool_iff|right].
  now rewrite R1.
Qed.

(** C87: of a function that grows, the zero is found up to the tolerance (of the root, or of the value). *)
Theorem C87_increasing r z :
  brentq f P validate left right v_left v_right = Ok r ->
  4 * Qabs (right - left) < atol P * inject_Z (Z.of_nat (max_iter P)) ->
  increasing f -> f z == 0 -> (forall x, x == z -> f x == 0) ->
  Qabs (f (root r)) <= ftol P \/ Qabs (z - root r) < atol P + rtol P * Qabs (root r).
Proof.
  intros E W INC Z ZZ. destruct C87_root as (r' & E' & _ & _ & _ & CV & R). rewrite E in E'. injection E' as <-.
  destruct (R W) as [R1|(c & _ & N & D)]; [left; now apply CV|].
  assert (M : forall x, (x < z -> f x < 0) /\ (z < x -> 0 < f x)).
  { intros x. split; intros X; apply INC in X; lra. }
  pose proof (M c) as [M1 M2]. pose proof (M (root r)) as [M3 M4]. right.
  eapply Qle_lt_trans; [|exact D].
  assert (NZ : ~ c == z) by (intros X; apply ZZ in X; rewrite X in N; lra).
  assert (NZ' : ~ root r == z) by (intros X; apply ZZ in X; rewrite X in N; lra).
  destruct (Qlt_le_dec c z) as [A|A], (Qlt_le_dec (root r) z) as [B|B].
  - exfalso. specialize (M1 A). specialize (M3 B). nra.
  - rewrite (Qabs_neg (z - root r)), (Qabs_neg (c - root r)); lra.
  - rewrite (Qabs_pos (z - root r)), (Qabs_pos (c - root r)); lra.
  - exfalso. assert (A' : z < c) by (apply Qle_lteq in A as [A|A]; [exact A|symmetry in A; contradiction]).
    assert (B' : z < root r) by (apply Qle_lteq in B as [B|B]; [exact B|symmetry in B; contradiction]).
    specialize (M2 A'). specialize (M4 B'). nra.
Qed.

(** C87: of a function that does not change fast, the value at the result is small. *)
Theorem C87_lipschitz r K :
  brentq f P validate left right v_left v_right = Ok r ->
  4 * Qabs (right - left) < atol P * inject_Z (Z.of_nat (max_iter P)) ->
  0 <= K -> lipschitz K f ->
  Qabs (objective r) <= ftol P \/ Qabs (objective r) <= K * (atol P + rtol P * Qabs (root r)).
Proof.
  intros E W K0 LIP. destruct C87_root as (r' & E' & _ & O & _ & CV & R). rewrite E in E'. injection E' as <-.
  rewrite O. destruct (R W) as [R1|(c & _ & N & D)]; [left; now apply CV|]. right.
  apply Qle_trans with (Qabs (f c - f (root r))).
  - abs (f (root r)); abs (f c - f (root r)); nra.
  - eapply Qle_trans; [apply LIP|]. rewrite (Qmult_comm K), (Qmult_comm K). apply Qmult_le_compat_r; [lra|exact K0].
Qed.

(** C87: the function is only looked at between the two points. *)
Theorem C87_inside g : (forall x, within left right x -> f x = g x) ->
  brentq f P validate left right v_left v_right = brentq g P validate left right v_left v_right.
Proof.
  intros G. assert (PE : prepare f P left right v_left v_right = prepare g P left right v_left v_right).
  { unfold prepare. now rewrite (G left (ends_within _ (or_introl eq_refl))), (G right (ends_within _ (or_intror eq_refl))). }
  unfold brentq. rewrite <- PE, valid. do 2 f_equal. rewrite (prepare_true f P left right v_left v_right GL GR).
  destruct (finished (prepare f P left right None None)) eqn:F; [now rewrite !(loop_done _ P _ _ F)|].
  apply (loop_same f P lo hi TOL g (max_iter P)) with (w := Qabs (right - left)); [|now apply prepare_inv|exact F].
  intros x I. apply G. now apply ins_within.
Qed.
End Result.

(** C87: with the assertions switched on, two points without a change of sign and tolerances that are not positive are refused. *)
Theorem C87_validate f P left right :
  0 < f left * f right \/ atol P <= 0 \/ rtol P <= 0 \/ ftol P < 0 ->
  brentq f P true left right None None = Err InvalidArgument.
Proof.
  intros H. unfold brentq. cbn [andb]. assert (E : valid_args P (prepare f P left right None None) = false).
  { apply not_true_is_false. intros V. unfold valid_args in V. apply andb_true_iff in V as [V V4].
    apply andb_true_iff in V as [V V3]. apply andb_true_iff in V as [V1 V2]. apply Qle_bool_iff in V1, V4.
    apply qlt_true in V2, V3. destruct (prepare_cases f P left right) as (BL & B & L & _).
    rewrite B, L in V1. destruct BL as [[E1 E2]|[E1 E2]]; rewrite E1, E2 in V1; destruct H as [H|[H|[H|H]]]; lra. }
  now rewrite E.
Qed.

(** C87: searches that are made at once do not influence each other. *)
Theorem C87_batch f P brackets :
  map Ok (brentq_all f P brackets) = map (fun lr => brentq f P false (fst lr) (snd lr) None None) brackets.
Proof.
  unfold brentq_all.
  rewrite (results_seen P (loop_all f P (max_iter P) (map (fun lr => prepare f P (fst lr) (snd lr) None None) brackets))
             (map (loop f P (max_iter P)) (map (fun lr => prepare f P (fst lr) (snd lr) None None) brackets))).
  - rewrite !map_map. apply map_ext. reflexivity.
  - rewrite loop_all_iter, !map_map. apply map_ext. intros lr. symmetry. apply loop_iter.
Qed.

(** C87: without a change of sign (and without the assertions, which are off by default) the search
    always claims to have found the root 0 after no turn, with the value 0: the contrapoint starts
    as the number zero with the value zero, and is taken as the better point. *)
Theorem C87_no_change f P left right : 0 <= ftol P -> (0 < max_iter P)%nat -> same_sign (ftol P) (f left) (f right) ->
  brentq f P false left right None None = Ok (mkFound 0 0 0 true).
Proof.
  intros T M SS. unfold brentq. cbn [andb]. destruct (no_change f P left right SS T M) as (A & B & C).
  unfold results. rewrite A, B, C. do 2 f_equal. apply Qle_bool_iff. exact T.
Qed.

(** C87: "the result that is called converged is a root": false without a change of sign; the zero need not even be between the points. *)
Theorem C87_converged_refuted : exists f P left right r,
  tolerances P /\ brentq f P false left right None None = Ok r /\ converged r = true
  /\ ~ within left right (root r) /\ ~ f (root r) == objective r /\ ftol P < Qabs (f (root r)).
Proof.
  exists (fun x => x * x + 1), (mkParams 100 tol_2e7 default_rtol tol_2e7), 1, 2, (mkFound 0 0 0 true).
  split; [tol|]. split; [now vm_compute|]. split; [reflexivity|]. cbn [root objective converged].
  split; [unfold within; intros [H|H]; lra|]. split; vm_compute; [discriminate|reflexivity].
Qed.

(** ** the bandwidth of Improved Sheather Jones *)

Lemma first_right_pos n : 0 < first_right n.
Proof.
  unfold first_right. assert (H : 50 <= inject_Z (Z.max (Z.min 1050 (Z.of_nat n)) 50)).
  { change 50 with (inject_Z 50). rewrite <- Zle_Qle. lia. }
  assert (Q : 0 <= (1 # 100) * (inject_Z (Z.max (Z.min 1050 (Z.of_nat n)) 50) - 50) / 1000).
  { apply Qle_shift_div_l; [reflexivity|]. lra. }
  lra.
Qed.

(** C87: if the function changes its sign in the first bracket and the search converges, the result is the
    optimal value that belongs to the root, nearer than 2e-7 to it. *)
Theorem C87_isj f n fuel t r : opposite (f 0) (f (first_right n)) ->
  brentq f isj_params false 0 (first_right n) None None = Ok r -> converged r = true ->
  find_root f n (S fuel) = Some t ->
  t = root r - f (root r) /\ within 0 (first_right n) (root r) /\ Qabs (t - root r) <= tol_2e7.
Proof.
  intros O E C F. unfold find_root in F. cbn [find_root_from] in F. rewrite E, C in F. injection F as <-.
  assert (T : tolerances isj_params) by (unfold isj_params; tol).
  pose proof (first_right_pos n) as FP.
  destruct (C87_root f isj_params false 0 (first_right n) None None T) as (r' & E' & W & OB & _ & CV & _);
    [discriminate|lra|exact O|now left|now left|]. rewrite E in E'. injection E' as <-.
  rewrite OB. split; [reflexivity|]. split; [exact W|]. apply CV in C. cbn [isj_params ftol] in C.
  setoid_replace (root r - f (root r) - root r) with (- f (root r)) by ring. now rewrite Qabs_opp.
Qed.

(** C87: the bracket is doubled until there is a root: false; if there is no change of sign in the first one,
    zero is returned at once. *)
Theorem C87_isj_no_change f n fuel : same_sign tol_2e7 (f 0) (f (first_right n)) -> find_root f n (S fuel) = Some 0.
Proof.
  intros S1. unfold find_root. cbn [find_root_from]. rewrite C87_no_change; [reflexivity|discriminate|cbn; lia|exact S1].
Qed.

(** C87: "a larger bracket is tried until the root is found": false; the function here has the root 1/10, with up to 50 distinct
    events the first bracket ends at 1e-11, and the result is zero instead. *)
Theorem C87_isj_refuted : exists f : Q -> Q, increasing f /\ f (1 # 10) == 0
  /\ forall n fuel, (n <= 1050)%nat -> find_root f n (S fuel) = Some 0.
Proof.
  exists (fun x => x - (1 # 10)). split; [intros x y H; lra|]. split; [reflexivity|]. intros n fuel N.
  apply C87_isj_no_change. right. split; [vm_compute; reflexivity|].
  assert (H : first_right n <= (1 # 100000000000) + (1 # 100)).
  { unfold first_right. apply Qplus_le_r. apply Qle_shift_div_r; [reflexivity|].
    assert (H : inject_Z (Z.max (Z.min 1050 (Z.of_nat n)) 50) <= 1050).
    { change 1050 with (inject_Z 1050). rewrite <- Zle_Qle. lia. }
    lra. }
  unfold tol_2e7. lra.
Qed.

(** ** the practical support of a kernel *)

(** C87: for a kernel whose density at the centre is below the level (a wide one), the support is 1/1000. *)
Theorem C87_support_wide prob bandwidth : prob 0 < 1 # 10000 -> prob (8 * bandwidth) < 1 # 10000 ->
  practical_support prob bandwidth = Ok (1 # 1000).
Proof.
  intros A B. unfold practical_support. rewrite C87_no_change; [reflexivity|discriminate|cbn; lia|].
  right. cbn [ftol]. split; [lra|]. lra.
Qed.

(** C87: for a kernel that is above the level at the centre and below it after eight bandwidths, the support ends between them
    (up to 1/1000). *)
Theorem C87_support prob bandwidth : 0 < bandwidth -> 1 # 10000 <= prob 0 -> prob (8 * bandwidth) <= 1 # 10000 ->
  exists w, practical_support prob bandwidth = Ok w /\ 1 # 1000 <= w /\ w <= 8 * bandwidth + (1 # 1000).
Proof.
  intros B0 A B. unfold practical_support.
  destruct (C87_root (fun x => prob x - (1 # 10000)) (mkParams 100 (1 # 1000) default_rtol 0) false 0 (8 * bandwidth) None None)
    as (r & E & W & _); [tol|discriminate|lra|right; split; lra|now left|now left|].
  rewrite E. eexists. split; [reflexivity|]. unfold within in W. destruct W as [W|W]; lra.
Qed.

(** ** Examples *)

(** The hypotheses are met by the search for the square root of two, and the search converges after a few turns. *)
Definition square2 (x : Q) : Q := x * x - 2.
Definition coarse : params := mkParams 20 (1 # 4) (1 # 1000) (1 # 100).
Example square2_hypotheses : tolerances coarse /\ ~ 1 == 2 /\ opposite (square2 1) (square2 2)
  /\ 4 * Qabs (2 - 1) < atol coarse * inject_Z (Z.of_nat (max_iter coarse))
  /\ given square2 1 (Some (-1)) /\ given square2 2 None.
Proof.
  split; [tol|]. split; [lra|]. split; [left; split; vm_compute; discriminate|].
  split; [reflexivity|]. split; [right|left]; reflexivity.
Qed.
Definition view (r : result found) : option (Q * Q * nat * bool) :=
  match r with Ok r => Some (Qred (root r), Qred (objective r), iterations r, converged r) | Err _ => None end.
Example square2_root : view (brentq square2 coarse true 1 2 (Some (-1)) None) = Some (1459 # 1000, 128681 # 1000000, 2%nat, false).
Proof. vm_compute. reflexivity. Qed.
Example square2_batch : map (fun r => view (Ok r)) (brentq_all square2 coarse [(1, 2); (3, 4)])
  = [view (brentq square2 coarse false 1 2 None None); Some (0, 0, 0%nat, true)].
Proof. vm_compute. reflexivity. Qed.
Example line_root : view (brentq (fun x => 3 * x - 1) (mkParams 100 tol_2e7 default_rtol tol_2e7) true 0 1 None None)
  = Some (1 # 3, 0, 1%nat, true).
Proof. vm_compute. reflexivity. Qed.
Example line_hypotheses : increasing (fun x => 3 * x - 1) /\ lipschitz 3 (fun x => 3 * x - 1).
Proof.
  split; [intros x y H; lra|]. intros x y. setoid_replace (3 * x - 1 - (3 * y - 1)) with (3 * (x - y)) by ring.
  rewrite Qabs_Qmult. apply Qle_refl.
Qed.
Definition steep (x : Q) : Q := 1000000000000 * x - 5.
Example isj_hypotheses : opposite (steep 0) (steep (first_right 10)).
Proof. left. split; vm_compute; discriminate. Qed.
Example isj_found : option_map Qred (find_root steep 10 1) = Some (1 # 200000000000).
Proof. vm_compute. reflexivity. Qed.
Example isj_converged : view (brentq steep isj_params false 0 (first_right 10) None None) = Some (1 # 200000000000, 0, 1%nat, true).
Proof. vm_compute. reflexivity. Qed.
(** a triangular kernel: of the bandwidth 1, and a very wide one *)
Definition triangle (b x : Q) : Q := if Qle_bool (Qabs x) b then (1 - Qabs x / b) / b else 0.
Example support_narrow : exists w, practical_support (triangle 1) 1 = Ok w /\ 1 # 1000 <= w /\ w <= 8 + (1 # 1000).
Proof.
  destruct (C87_support (triangle 1) 1) as (w & E & A & B);
    [reflexivity|vm_compute; discriminate|vm_compute; discriminate|]. exists w. split; [exact E|]. split; [exact A|]. lra.
Qed.
Example support_wide : practical_support (triangle 20000) 20000 = Ok (1 # 1000).
Proof. apply C87_support_wide; vm_compute; reflexivity. Qed.
