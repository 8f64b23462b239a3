From Coq Require Import Reals Lra Lia.
From Coquelicot Require Import Coquelicot.
From Verif Require Import Base BaseLemmas Poly_Model Poly_Spec.
Import ListNotations.
#[local] Open Scope R_scope.
#[local] Notation length := List.length.

(** The n-th polynomial of a family *)
Fixpoint pol (F : family) (n : nat) (x : R) : R * R :=
  match n with O => (poly0 F x, poly1 F x) | S n => let p := pol F n x in (snd p, recurrence F (snd p) (fst p) (S n) x) end.
Definition P (F : family) (n : nat) (x : R) : R := fst (pol F n x).
Lemma snd_pol F n x : snd (pol F n x) = P F (S n) x. Proof. reflexivity. Qed.
Lemma P_rec F n x : P F (S (S n)) x = recurrence F (P F (S n) x) (P F n x) (S n) x.
Proof. reflexivity. Qed.

Lemma recurrence_fold F x k : fold_left (fun ps i => (ps ++ [recurrence F (nth (length ps - 1) ps 0) (nth (length ps - 2) ps 0) i x])%list) (seq 1 k) [poly0 F x; poly1 F x]
  = map (fun n => P F n x) (seq 0 (k + 2)).
Proof.
  induction k as [|k IH]; [reflexivity|]. rewrite seq_S, fold_left_app, IH. cbn [fold_left].
  rewrite map_length, seq_length.
  rewrite !(nth_indep _ 0 (P F 0 x)) by (rewrite map_length, seq_length; lia). rewrite !(map_nth (fun n => P F n x)), !seq_nth by lia.
  replace (S k + 2)%nat with (S (k + 2))%nat by lia. rewrite (seq_S _ 0). rewrite map_app. f_equal. cbn [map plus]. f_equal.
  replace (0 + (k + 2 - 1))%nat with (S k) by lia. replace (0 + (k + 2 - 2))%nat with k by lia. replace (k + 2)%nat with (S (S k)) by lia. reflexivity.
Qed.
Lemma do_recurrence_ok F x d : do_recurrence F x d = map (fun n => P F n x) (seq 0 (d - 1 + 2)).
Proof. apply recurrence_fold. Qed.
Lemma do_recurrence_nth F x d n : (n <= d)%nat -> nth n (do_recurrence F x d) 0 = P F n x.
Proof.
  intros H. rewrite do_recurrence_ok, (nth_indep _ 0 (P F 0 x)) by (rewrite map_length, seq_length; lia).
  rewrite (map_nth (fun n => P F n x)), seq_nth by lia. reflexivity.
Qed.

Lemma combine_map_series f cs : forall i k, (length cs <= k)%nat ->
  total (map (fun cp => fst cp * snd cp) (combine cs (map f (seq i k)))) = series_from i f cs.
Proof.
  induction cs as [|c cs IH]; intros i k H; [reflexivity|]. destruct k as [|k]; [cbn in H; lia|]. cbn [seq map combine total fold_right series_from fst snd].
  f_equal. apply IH. cbn in H; lia.
Qed.
Lemma create_poly_series F x cs : create_poly F x cs = series (fun n => P F n x) cs.
Proof. unfold create_poly. rewrite do_recurrence_ok. apply combine_map_series. lia. Qed.

(** ** Dictionaries *)
Lemma get_enumerate_from cs : forall i k, get (combine (seq i (length cs)) cs) (i + k) = match nth_error cs k with Some v => Ok v | None => Err KeyError end.
Proof.
  induction cs as [|c cs IH]; intros i k; [now destruct k|]. cbn [length seq combine get].
  destruct (Nat.eqb_spec (i + k) i) as [E|E].
  - assert (k = 0%nat) as -> by lia. reflexivity.
  - destruct k as [|k]; [lia|]. replace (i + S k)%nat with (S i + k)%nat by lia. rewrite IH. reflexivity.
Qed.
Lemma get_enumerate cs i : get (enumerate cs) i = match nth_error cs i with Some v => Ok v | None => Err KeyError end.
Proof. apply (get_enumerate_from cs 0 i). Qed.
Lemma enumerate_length cs : length (enumerate cs) = length cs.
Proof. unfold enumerate. rewrite combine_length, seq_length. apply Nat.min_id. Qed.
Lemma take_from_ok d cs : (forall i, get d i = match nth_error cs i with Some v => Ok v | None => Err KeyError end) -> forall k i, (length cs <= i + k)%nat -> take_from d i k = skipn i cs.
Proof.
  intros H. induction k as [|k IH]; intros i HI; cbn.
  - symmetry. apply skipn_all2. lia.
  - rewrite H. destruct (nth_error cs i) as [v|] eqn:E.
    + rewrite IH by lia. clear - E. revert i E. induction cs as [|c cs IH]; intros [|i] E; cbn in *; try discriminate; [congruence|now apply IH].
    + symmetry. apply skipn_all2. now apply nth_error_None.
Qed.
Lemma to_list_ok d cs : (forall i, get d i = match nth_error cs i with Some v => Ok v | None => Err KeyError end) -> length d = length cs -> convert_coeffs_dict_to_list d = cs.
Proof. intros H HL. unfold convert_coeffs_dict_to_list. rewrite (take_from_ok d cs H); [reflexivity|lia]. Qed.
Lemma enumerate_to_list cs : convert_coeffs_dict_to_list (enumerate cs) = cs.
Proof. apply to_list_ok; [apply get_enumerate|apply enumerate_length]. Qed.

(** The dictionaries with the numbers increased *)
Lemma put_new d i v : (forall w, ~ In (i, w) d) -> put d i v = (d ++ [(i, v)])%list.
Proof.
  induction d as [|[j w] d IH]; intros H; [reflexivity|]. cbn. destruct (Nat.eqb_spec i j) as [->|N]; [exfalso; apply (H w); now left|].
  rewrite IH; [reflexivity|]. intros u HI. apply (H u). now right.
Qed.
Lemma shift_fold (g : nat -> R -> R) cs : forall i d0, (forall j w, In (j, w) d0 -> (j <= i)%nat) ->
  fold_left (fun d ic => put d (fst ic + 1) (g (fst ic) (snd ic))) (combine (seq i (length cs)) cs) d0
  = (d0 ++ map (fun ic => (fst ic + 1, g (fst ic) (snd ic)))%nat (combine (seq i (length cs)) cs))%list.
Proof.
  induction cs as [|c cs IH]; intros i d0 H; cbn [length seq combine fold_left map]; [now rewrite app_nil_r|].
  rewrite put_new by (intros w HI; apply H in HI; cbn in HI; lia). rewrite IH.
  - rewrite <- app_assoc. reflexivity.
  - intros j w HI. apply in_app_or in HI as [HI|[HI|[]]]; [apply H in HI; lia|]. injection HI as <- <-. cbn. lia.
Qed.
Fixpoint scaled_from (g : nat -> R -> R) (i : nat) (cs : list R) : list R :=
  match cs with [] => [] | c :: r => g i c :: scaled_from g (S i) r end.
Lemma map_shift g cs : forall i, map (fun ic => (fst ic + 1, g (fst ic) (snd ic))%nat) (combine (seq i (length cs)) cs) = combine (seq (S i) (length (scaled_from g i cs))) (scaled_from g i cs).
Proof. induction cs as [|c cs IH]; intros i; [reflexivity|]. cbn [length seq combine map fst snd scaled_from]. rewrite IH. f_equal. f_equal. lia. Qed.
Lemma shifted_front g cs : fold_left (fun d ic => put d (fst ic + 1) (g (fst ic) (snd ic))) (enumerate cs) [(0%nat, 0)] = enumerate (0 :: scaled_from g 0 cs).
Proof. unfold enumerate at 1. rewrite shift_fold; [rewrite map_shift; reflexivity|]. intros j w [H|[]]. injection H as <- <-. lia. Qed.
Lemma get_app_l d e i v : get d i = Ok v -> get (d ++ e) i = Ok v.
Proof. induction d as [|[j w] d IH]; cbn; [discriminate|]. destruct (Nat.eqb i j); auto. Qed.
Lemma get_app_r d e i : (forall w, ~ In (i, w) d) -> get (d ++ e) i = get e i.
Proof.
  induction d as [|[j w] d IH]; intros H; [reflexivity|]. cbn. destruct (Nat.eqb_spec i j) as [->|N]; [exfalso; apply (H w); now left|].
  apply IH. intros u HI. apply (H u). now right.
Qed.
Lemma in_enum_from (cs : list R) : forall i j w, In (j, w) (combine (seq i (length cs)) cs) -> (i <= j)%nat.
Proof. intros i j w H. apply in_combine_l in H. apply in_seq in H. lia. Qed.
Lemma shifted_back g cs : convert_coeffs_dict_to_list (put (fold_left (fun d ic => put d (fst ic + 1) (g (fst ic) (snd ic))) (enumerate cs) []) 0 0) = 0 :: scaled_from g 0 cs.
Proof.
  unfold enumerate. rewrite shift_fold by (intros j w []). rewrite map_shift. cbn [app].
  assert (HN : forall w, ~ In (0%nat, w) (combine (seq 1 (length (scaled_from g 0 cs))) (scaled_from g 0 cs))) by (intros w HI; apply in_enum_from in HI; lia).
  rewrite put_new by exact HN. apply to_list_ok.
  - intros [|i]; [rewrite get_app_r by exact HN; reflexivity|]. cbn [nth_error]. pose proof (get_enumerate_from (scaled_from g 0 cs) 1 i) as H. cbn [plus] in H.
    destruct (nth_error (scaled_from g 0 cs) i) as [v|] eqn:E; [now apply get_app_l|].
    rewrite get_app_r; [reflexivity|]. intros w HI. apply nth_error_None in E. apply in_combine_l in HI. apply in_seq in HI. lia.
  - rewrite app_length, combine_length, seq_length. cbn. rewrite Nat.min_id. lia.
Qed.

(** ** Derivatives *)
Ltac der H := rewrite (is_derive_unique _ _ _ H).
(** From the derivative of a pair of neighbours to that of the next *)
Lemma pair_ind (Q : nat -> Prop) : Q 0%nat -> Q 1%nat -> (forall n, Q n -> Q (S n) -> Q (S (S n))) -> forall n, Q n.
Proof. intros H0 H1 HS n. assert (H : Q n /\ Q (S n)); [induction n as [|n [IH1 IH2]]; auto|tauto]. Qed.

Lemma is_derive_eq (f : R -> R) (x l l' : R) : is_derive f x l -> l = l' -> is_derive f x l'.
Proof. now intros H <-. Qed.

(** Hermite *)
Lemma hermite_rec n x : P hermite (S (S n)) x = 2 * (x * P hermite (S n) x - INR (S n) * P hermite n x). Proof. reflexivity. Qed.
Lemma hermite_der n : forall x, is_derive (P hermite n) x (match n with O => 0 | S m => 2 * INR (S m) * P hermite m x end).
Proof.
  induction n as [| |n H0 H1] using pair_ind.
  - intros x. apply (is_derive_const 1 x).
  - intros x. eapply is_derive_eq; [unfold P; cbn; auto_derive; auto|]. unfold P; cbn. ring.
  - intros x. apply (is_derive_ext (fun t => 2 * (t * P hermite (S n) t - INR (S n) * P hermite n t))); [intros t; reflexivity|].
    specialize (H0 x). specialize (H1 x). auto_derive; [split; [eexists; exact H1|split; [eexists; exact H0|exact Logic.I]]|].
    change (fun x0 => P hermite (S n) x0) with (P hermite (S n)). change (fun x0 => P hermite n x0) with (P hermite n). der H0. der H1.
    rewrite !S_INR. destruct n as [|n]; [unfold P; cbn; ring|]. rewrite (hermite_rec n), !S_INR. ring.
Qed.

(** Chebyshev *)
Notation T := (P chebyshev). Notation U := (P chebyshev2).
Lemma T_rec n x : T (S (S n)) x = 2 * (x * T (S n) x) - T n x. Proof. reflexivity. Qed.
Lemma U_rec n x : U (S (S n)) x = 2 * (x * U (S n) x) - U n x. Proof. reflexivity. Qed.
Lemma TU n x : U (S n) x - x * U n x = T (S n) x.
Proof.
  induction n as [| |n H0 H1] using pair_ind; [unfold P; cbn; ring|unfold P; cbn; ring|]. rewrite T_rec, <- H0, <- H1. rewrite (U_rec (S n)), (U_rec n). ring.
Qed.
Lemma T_der n : forall x, is_derive (T n) x (match n with O => 0 | S m => INR (S m) * U m x end).
Proof.
  induction n as [| |n H0 H1] using pair_ind.
  - intros x. apply (is_derive_const 1 x).
  - intros x. eapply is_derive_eq; [apply is_derive_id|]. unfold P; cbn. change (@one _) with 1. ring.
  - intros x. apply (is_derive_ext (fun t => 2 * (t * T (S n) t) - T n t)); [intros t; reflexivity|].
    specialize (H0 x). specialize (H1 x). auto_derive; [split; [eexists; exact H1|split; [eexists; exact H0|exact Logic.I]]|].
    change (fun x0 => T (S n) x0) with (T (S n)). change (fun x0 => T n x0) with (T n). der H0. der H1.
    rewrite <- TU. destruct n as [|n]; [unfold P; cbn; ring|]. rewrite (U_rec n), !S_INR. ring.
Qed.

(** Legendre *)
Notation L := (P legendre).
Lemma INR1 n : INR n + 1 <> 0. Proof. pose proof (pos_INR n). lra. Qed.
Lemma L_rec n x : (INR n + 2) * L (S (S n)) x = (2 * INR n + 3) * (x * L (S n) x) - (INR n + 1) * L n x.
Proof. rewrite P_rec. cbn [recurrence legendre]. rewrite !S_INR. field. pose proof (pos_INR n). lra. Qed.
Fixpoint dL (n : nat) (x : R) : R := match n with O => 0 | S n => x * dL n x + INR (S n) * L n x end.
Lemma L_B n x : x * dL (S n) x - dL n x = INR (S n) * L (S n) x.
Proof.
  induction n as [|n IH]; [unfold P; cbn; ring|].
  cbn [dL] in *. rewrite !S_INR in *. replace ((INR n + 1 + 1) * L (S (S n)) x) with ((INR n + 2) * L (S (S n)) x) by ring. rewrite L_rec.
  set (d := dL n x) in *. set (a := L n x) in *. set (b := L (S n) x) in *.
  (* IH : x (x d + (n+1) a) - d = (n+1) b *)
  assert (E : d * (x * x - 1) = (INR n + 1) * b - x * (INR n + 1) * a) by lra.
  replace (x * (x * (x * d + (INR n + 1) * a) + (INR n + 1 + 1) * b) - (x * d + (INR n + 1) * a)) with (x * (d * (x * x - 1)) + x * x * (INR n + 1) * a + x * (INR n + 2) * b - (INR n + 1) * a) by ring.
  rewrite E. ring.
Qed.
Lemma L_der n : forall x, is_derive (L n) x (dL n x).
Proof.
  induction n as [| |n H0 H1] using pair_ind.
  - intros x. apply (is_derive_const 1 x).
  - intros x. eapply is_derive_eq; [apply is_derive_id|]. unfold P; cbn. change (@one _) with 1. ring.
  - intros x. apply (is_derive_ext (fun t => ((2 * INR (S n) + 1) * (t * L (S n) t) - INR (S n) * L n t) / (INR (S n) + 1))); [intros t; reflexivity|].
    specialize (H0 x). specialize (H1 x). remember (INR (S n)) as k eqn:Ek. auto_derive; [split; [eexists; exact H1|split; [eexists; exact H0|exact Logic.I]]|].
    change (fun x0 => L (S n) x0) with (L (S n)). change (fun x0 => L n x0) with (L n). der H0. der H1.
    pose proof (L_B n x) as B. subst k. cbn [dL] in *. rewrite !S_INR in *. set (d := dL n x) in *. set (a := L n x) in *. set (b := L (S n) x) in *.
    apply (Rmult_eq_reg_r (INR n + 1 + 1)); [|pose proof (pos_INR n); lra].
    apply Rminus_diag_uniq. transitivity ((INR n + 1) * (x * (x * d + (INR n + 1) * a) - d - (INR n + 1) * b)); [field; pose proof (pos_INR n); lra|rewrite B; ring].
Qed.
Lemma L_diff n x : dL (S (S n)) x - dL n x = (2 * INR (S n) + 1) * L (S n) x.
Proof. pose proof (L_B n x) as B. replace (dL n x) with (x * dL (S n) x - INR (S n) * L (S n) x) by lra. change (dL (S (S n)) x) with (x * dL (S n) x + INR (S (S n)) * L (S n) x). rewrite !S_INR. ring. Qed.

(** Laguerre *)
Notation La := (P (laguerre 0)). Notation Lm := (P (laguerre (-1))).
Lemma La_rec n x : (INR n + 2) * La (S (S n)) x = (2 * INR n + 3 - x) * La (S n) x - (INR n + 1) * La n x.
Proof. rewrite P_rec. cbn [recurrence laguerre]. rewrite !S_INR. field. pose proof (pos_INR n). lra. Qed.
Lemma Lm_rec n x : (INR n + 2) * Lm (S (S n)) x = (2 * INR n + 2 - x) * Lm (S n) x - INR n * Lm n x.
Proof. rewrite P_rec. cbn [recurrence laguerre]. rewrite !S_INR. field. pose proof (pos_INR n). lra. Qed.
Lemma Lm_La n x : Lm (S n) x = La (S n) x - La n x.
Proof.
  induction n as [| |n H0 H1] using pair_ind; [unfold P; cbn; field| |].
  - unfold P; cbn. field.
  - apply (Rmult_eq_reg_l (INR (S n) + 2)); [|pose proof (pos_INR (S n)); lra].
    rewrite (Lm_rec (S n)), H0, H1, S_INR. pose proof (La_rec (S n) x) as E1. pose proof (La_rec n x) as E2. rewrite S_INR in E1.
    set (p := La n x) in *. set (q := La (S n) x) in *. set (r := La (S (S n)) x) in *. set (t := La (S (S (S n))) x) in *.
    apply Rminus_diag_uniq.
    transitivity (((INR n + 2) * r - ((2 * INR n + 3 - x) * q - (INR n + 1) * p)) - ((INR n + 1 + 2) * t - ((2 * (INR n + 1) + 3 - x) * r - (INR n + 1 + 1) * q))); [ring|lra].
Qed.
Fixpoint dLa (n : nat) (x : R) : R := match n with O => 0 | S n => dLa n x - La n x end.
Lemma La_E n x : x * dLa (S n) x = INR (S n) * (La (S n) x - La n x).
Proof.
  induction n as [|n IH]; [unfold P; cbn; ring|].
  change (dLa (S (S n)) x) with (dLa (S n) x - La (S n) x). rewrite Rmult_minus_distr_l, IH, !S_INR.
  replace ((INR n + 1 + 1) * (La (S (S n)) x - La (S n) x)) with ((INR n + 2) * La (S (S n)) x - (INR n + 2) * La (S n) x) by ring. rewrite La_rec. ring.
Qed.
Lemma La_der n : forall x, is_derive (La n) x (dLa n x).
Proof.
  induction n as [| |n H0 H1] using pair_ind.
  - intros x. apply (is_derive_const 1 x).
  - intros x. eapply is_derive_eq; [unfold P; cbn; auto_derive; auto|]. unfold P; cbn. ring.
  - intros x. apply (is_derive_ext (fun t => ((2 * INR (S n) + 1 + 0 - t) * La (S n) t - (INR (S n) + 0) * La n t) / (INR (S n) + 1))); [intros t; reflexivity|].
    specialize (H0 x). specialize (H1 x). remember (INR (S n)) as k eqn:Ek. auto_derive; [split; [eexists; exact H1|split; [eexists; exact H0|exact Logic.I]]|].
    change (fun x0 => La (S n) x0) with (La (S n)). change (fun x0 => La n x0) with (La n). der H0. der H1.
    pose proof (La_E n x) as B. subst k. cbn [dLa] in *. rewrite !S_INR in *. set (d := dLa n x) in *. set (a := La n x) in *. set (b := La (S n) x) in *.
    apply (Rmult_eq_reg_r (INR n + 1 + 1)); [|pose proof (pos_INR n); lra].
    apply Rminus_diag_uniq. transitivity ((INR n + 1) * (b - a) - x * (d - a)); [field; pose proof (pos_INR n); lra|rewrite B; ring].
Qed.
Lemma Lm_der n x : is_derive (Lm (S n)) x (- La n x).
Proof.
  apply (is_derive_ext (fun t => La (S n) t - La n t)); [intros t; symmetry; apply Lm_La|].
  eapply is_derive_eq; [apply (is_derive_minus (La (S n)) (La n) x _ _ (La_der (S n) x) (La_der n x))|]. unfold minus, plus, opp; cbn. ring.
Qed.

(** ** Series *)
Lemma is_derive_series (f f' : nat -> R -> R) cs : (forall n x, is_derive (f n) x (f' n x)) ->
  forall i x, is_derive (fun t => series_from i (fun n => f n t) cs) x (series_from i (fun n => f' n x) cs).
Proof.
  intros H. induction cs as [|c cs IH]; intros i x; cbn [series_from]; [apply (is_derive_const 0 x)|].
  apply (is_derive_plus (fun t => c * f i t) (fun t => series_from (S i) (fun n => f n t) cs) x _ _); [|apply IH].
  apply (is_derive_scal (f i) x c (f' i x)). apply H.
Qed.
