(** C73, continued: what the criterion (EDM) means. *)
From Verif Require Import Base BaseLemmas LM_Model LM_Spec LM_Proofs LM_Proofs2.
From Coq Require Import Lqa.
#[local] Open Scope nat_scope.

Lemma sum_shift n f : (sum_to (S n) f == f 0%nat + sum_to n (fun i => f (S i)))%Q.
Proof. induction n as [|n IH]; [cbn; ring|]. cbn [sum_to]. cbn [sum_to] in IH. rewrite IH. ring. Qed.
Lemma dot_inner a : forall b, length b = length a -> (dot a b == inner (length a) (coord a) (coord b))%Q.
Proof.
  induction a as [|x a IH]; intros [|y b] L; try discriminate; [reflexivity|]. injection L as L.
  cbn [dot length]. unfold inner. rewrite sum_shift. cbn [coord nth]. rewrite (IH b L). reflexivity.
Qed.
Lemma sum_swap n m (f : nat -> nat -> Q) :
  (sum_to n (fun i => sum_to m (fun j => f i j)) == sum_to m (fun j => sum_to n (fun i => f i j)))%Q.
Proof.
  induction n as [|n IH]; cbn [sum_to].
  - clear. induction m as [|m IH]; cbn; [reflexivity|]. rewrite <- IH. ring.
  - rewrite IH, <- sum_plus. apply sum_ext. intros. reflexivity.
Qed.
Lemma sum_opp n f : (sum_to n (fun i => - f i) == - sum_to n f)%Q.
Proof. induction n as [|n IH]; cbn; [ring|]. rewrite IH. ring. Qed.

(** The entries of a Hessian do not depend on the order of the parameters. *)
Definition symmetric (n : nat) (m : mat) : Prop := forall i j, i < n -> j < n -> (ent m i j == ent m j i)%Q.
(** By how much the expansion to second order changes with the step [s]. *)
Definition change (n : nat) (g : vec) (D : mat) (s : nat -> Q) : Q := (inner n (coord g) s + form n D s / 2)%Q.

Lemma form_shift n D g x s : symmetric n D -> solves n D g x ->
  (form n D (fun i => s i + coord x i) == form n D s + 2 * inner n (coord g) s + inner n (coord x) (coord g))%Q.
Proof.
  intros SY SO. rewrite <- (form_of_solution _ _ _ _ SO). destruct SO as [_ E].
  assert (A : (sum_to n (fun i => sum_to n (fun j => s i * ent D i j * coord x j)) == inner n (coord g) s)%Q).
  { unfold inner. apply sum_ext. intros i Hi. rewrite <- (E i Hi), Qmult_comm, <- sum_scale. apply sum_ext. intros; ring. }
  assert (B : (sum_to n (fun i => sum_to n (fun j => coord x i * ent D i j * s j)) == inner n (coord g) s)%Q).
  { rewrite sum_swap, <- A. apply sum_ext. intros i Hi. apply sum_ext. intros j Hj. rewrite (SY j i Hj Hi). ring. }
  setoid_replace (form n D s + 2 * inner n (coord g) s + form n D (coord x))%Q
    with ((form n D s + inner n (coord g) s) + (inner n (coord g) s + form n D (coord x)))%Q by ring.
  rewrite <- A at 1. rewrite <- B. unfold form. rewrite <- !sum_plus. apply sum_ext. intros i Hi.
  rewrite <- !sum_plus. apply sum_ext. intros; ring.
Qed.

(** If the matrix bends upwards, then the criterion is exactly by how much the loss can go down, for a
    loss that is its expansion to second order: no step leads further down, and one leads there. *)
Theorem C73_criterion_is_distance n solve p v g D c : right_solver n solve -> square n D -> symmetric n D -> nonnegative n D ->
  length g = n -> edm_criterion solve p v g D = Ok c ->
  (0 <= c)%Q /\ (forall s, (- c <= change n g D s)%Q) /\ exists s, (change n g D s == - c)%Q.
Proof.
  intros RS SQ SY NN LG E. unfold edm_criterion in E. destruct (solve D g) as [x|] eqn:X; [|discriminate]. cbn in E.
  assert (SO := RS _ _ _ SQ LG X). assert (DI := dot_inner g x). destruct SO as [LX EX]. rewrite LX, LG in DI. specialize (DI eq_refl).
  assert (SO : solves n D g x) by (split; assumption).
  assert (FX := form_of_solution _ _ _ _ SO). rewrite inner_comm in FX. assert (NX := NN (coord x)).
  set (h := (dot g x / 2)%Q) in *. assert (H2 : (dot g x == 2 * h)%Q) by (unfold h; field). clearbody h.
  assert (HC : (c == h)%Q).
  { injection E as <-. destruct (Qlt_bool _ _) eqn:LT; [|reflexivity]. apply lt_b in LT. lra. }
  split; [|split].
  - rewrite HC. lra.
  - intros s. unfold change. assert (F := form_shift n D g x s SY SO). rewrite (inner_comm n (coord x)) in F.
    assert (P := NN (fun i => s i + coord x i)%Q). rewrite HC.
    set (k := (form n D s / 2)%Q). assert (K2 : (form n D s == 2 * k)%Q) by (unfold k; field). clearbody k. lra.
  - exists (fun i => - coord x i)%Q. unfold change.
    assert (A : (inner n (coord g) (fun i => - coord x i) == - inner n (coord g) (coord x))%Q).
    { unfold inner. rewrite <- sum_opp. apply sum_ext. intros; ring. }
    assert (B : (form n D (fun i => - coord x i) == form n D (coord x))%Q).
    { unfold form. apply sum_ext. intros i Hi. apply sum_ext. intros; ring. }
    rewrite A, B, HC, FX, <- DI, H2. field.
Qed.

(** Otherwise the matrix may lead uphill; then the criterion is 999999, which no sensible tolerance
    exceeds, and it is never negative. *)
Theorem C73_criterion_uphill n solve p v g D c x : length g = n -> length x = n -> solve D g = Ok x ->
  edm_criterion solve p v g D = Ok c ->
  (0 <= c)%Q /\ ((inner n (coord g) (coord x) < 0)%Q -> c = 999999%Q).
Proof.
  intros LG LX X E. unfold edm_criterion in E. rewrite X in E. cbn in E. injection E as <-.
  assert (DI := dot_inner g x). rewrite LX, LG in DI. specialize (DI eq_refl).
  destruct (Qlt_bool _ _) eqn:LT.
  - split; [lra|reflexivity].
  - apply lt_b_f in LT. split; [exact LT|]. intros N. exfalso. set (h := (dot g x / 2)%Q) in *. assert (H2 : (dot g x == 2 * h)%Q) by (unfold h; field). clearbody h. lra.
Qed.

(** x^2 at 3, and -x^2 there. *)
Definition solve_one (m : mat) (b : vec) : result vec :=
  match m, b with
  | [[d]], [b] => if Qeq_bool d 0 then Err InvalidArgumentError else Ok [(b / d)%Q]
  | _, _ => Err InvalidArgumentError
  end.
Example criterion_parabola : edm_criterion solve_one [3%Q] 9 [6%Q] [[2%Q]] = Ok (36 # 4)%Q /\
  edm_criterion solve_one [3%Q] (-9) [(-6)%Q] [[(-2)%Q]] = Ok 999999%Q.
Proof. split; reflexivity. Qed.
Example criterion_hypotheses : symmetric 2 [[2; 1]; [1; 3]]%Q /\ nonnegative 2 [[2; 1]; [1; 3]]%Q.
Proof.
  split.
  - intros [|[|i]] [|[|j]] Hi Hj; try lia; reflexivity.
  - intros x. unfold form, ent. cbn [sum_to nth]. assert (A' := sq_nonneg (x 0 + x 1)). assert (B := sq_nonneg (x 0)). assert (C := sq_nonneg (x 1)). nra.
Qed.
