(** Proofs about the wrapped distributions, continued: integrals and samples. *)
From Coq Require Import Reals List Lra Lia.
From Coquelicot Require Import Coquelicot.
From Verif Require Import Base BaseLemmas Tfd_Model Tfd_Spec Tfd_Proofs.
Import ListNotations.
#[local] Open Scope R_scope.
Set Bullet Behavior "Strict Subproofs".

Section Dist.
Variable d : dist.
Hypothesis P : proper d.

Lemma cdf_01 x : 0 <= cdf d x <= 1.
Proof.
  rewrite <- (bottom d P) at 1. rewrite <- (top d P). split; apply (mono d P).
  - now destruct x.
  - now destruct x.
Qed.
Lemma mass_pos l : 0 < mass d l -> Rbar_lt (fst l) (snd l).
Proof.
  unfold mass. intros M. destruct (Rbar_lt_le_dec (fst l) (snd l)) as [H|H]; [exact H|]. apply (mono d P) in H. lra.
Qed.

(** The number drawn for an event, and what comes out of it *)
Lemma draw_law q u l x : quantile d = Some q -> 0 < u < 1 -> 0 < mass d l ->
  (q (cdf d (fst l) + u * mass d l) <= x <-> u <= share d l x).
Proof.
  intros Q U M. destruct l as [a b]. unfold share, mass in *. cbn [fst snd] in *. set (p := cdf d a + u * (cdf d b - cdf d a)).
  pose proof (cdf_01 a) as A. pose proof (cdf_01 b) as B.
  assert (W : 0 < u * (cdf d b - cdf d a) < cdf d b - cdf d a).
  { split; [apply Rmult_lt_0_compat; lra|]. rewrite <- (Rmult_1_l (cdf d b - cdf d a)) at 2. apply Rmult_lt_compat_r; lra. }
  assert (P01 : 0 < p < 1) by (unfold p; lra).
  assert (T : forall c, u <= (c - cdf d a) / (cdf d b - cdf d a) <-> p <= c).
  { intros c. assert (E : (c - cdf d a) / (cdf d b - cdf d a) * (cdf d b - cdf d a) = c - cdf d a) by (field; lra). unfold p. split; intros H.
    - apply (Rmult_le_compat_r (cdf d b - cdf d a)) in H; lra.
    - apply (Rmult_le_reg_r (cdf d b - cdf d a)); lra. }
  rewrite T. rewrite (inverse d P q p x Q P01). unfold clamp. destruct (Rbar_lt_dec x a) as [H|H]; [|destruct (Rbar_lt_dec b x) as [H'|H']].
  - apply Rbar_lt_le in H. apply (mono d P) in H. unfold p in *. split; lra.
  - apply Rbar_lt_le in H'. apply (mono d P) in H'. unfold p in *. split; lra.
  - reflexivity.
Qed.
Lemma draw_within q u l : quantile d = Some q -> 0 < u < 1 -> 0 < mass d l -> within (fst l) (snd l) (q (cdf d (fst l) + u * mass d l)).
Proof.
  intros Q U M. pose proof (draw_law q u l) as L. destruct l as [a b]. cbn [fst snd] in *. set (e := q (cdf d a + u * mass d (a, b))) in *. unfold within.
  pose proof (mass_pos _ M) as AB. cbn [fst snd] in AB. split.
  - destruct (Rbar_lt_le_dec a e) as [H|H]; [exact H|]. exfalso. destruct a as [a| |]; [|now destruct b|exact H]. cbn in H.
    apply (L a Q U M) in H. unfold share, clamp, mass in H. cbn [fst snd] in H. destruct (Rbar_lt_dec a a) as [X|X]; [apply Rbar_lt_not_eq in X; congruence|].
    destruct (Rbar_lt_dec b a) as [Y|Y]; [apply Rbar_lt_le in Y; apply Rbar_le_not_lt in Y; contradiction|].
    unfold Rminus in H. rewrite Rplus_opp_r in H. unfold Rdiv in H. rewrite Rmult_0_l in H. lra.
  - destruct b as [b| |]; [|exact I|now destruct a]. cbn. apply (L b Q U M). unfold share, clamp, mass in *. cbn [fst snd] in *.
    destruct (Rbar_lt_dec b a) as [X|X]; [apply Rbar_lt_le in X; apply Rbar_le_not_lt in X; contradiction|].
    destruct (Rbar_lt_dec b b) as [Y|Y]; [apply Rbar_lt_not_eq in Y; congruence|].
    unfold Rdiv. rewrite Rinv_r by lra. lra.
Qed.

Lemma integrals_ok (ls : list (R * R)) : mapM (fun l => analytic_integrate d [l]) (map (fun ab => (Finite (fst ab), Finite (snd ab))) ls) =
  Ok (map (fun ab => mass d (Finite (fst ab), Finite (snd ab))) ls).
Proof. induction ls as [|[a b] ls IH]; [reflexivity|]. cbn [map mapM fst snd]. rewrite IH. reflexivity. Qed.
Lemma sum_ok (ls : list (R * R)) : sum_results (map (integrate_one d) (map (fun ab => (Finite (fst ab), Finite (snd ab))) ls)) =
  Ok (sumR (map (fun ab => mass d (Finite (fst ab), Finite (snd ab))) ls)).
Proof. induction ls as [|[a b] ls IH]; [reflexivity|]. cbn [map sum_results fst snd]. rewrite IH. reflexivity. Qed.
Lemma integrate_ok (ls : list (R * R)) : analytic_integrate d (map (fun ab => (Finite (fst ab), Finite (snd ab))) ls) =
  Ok (sumR (map (fun ab => mass d (Finite (fst ab), Finite (snd ab))) ls)).
Proof.
  destruct ls as [|[a b] [|c ls]]; [reflexivity|cbn; unfold mass, sumR; cbn; f_equal; ring|].
  rewrite <- sum_ok. reflexivity.
Qed.
Lemma finite_all limits v : analytic_integrate d limits = Ok v -> exists ls, limits = map (fun ab => (Finite (fst ab), Finite (snd ab))) ls.
Proof.
  assert (G : forall limits w, sum_results (map (integrate_one d) limits) = Ok w -> exists ls, limits = map (fun ab => (Finite (fst ab), Finite (snd ab))) ls).
  { clear. induction limits as [|[a b] l IH]; intros w H; [exists []; reflexivity|]. cbn [map sum_results] in H. unfold integrate_one at 1 in H. cbn [fst snd] in H.
    destruct a as [a| |], b as [b| |]; cbn [is_fin andb bind] in H; try discriminate. destruct (sum_results (map (integrate_one d) l)) as [u|e] eqn:E; [|discriminate].
    destruct (IH u eq_refl) as (ls&->). exists ((a, b) :: ls). reflexivity. }
  intros H. destruct limits as [|l [|m r]]; [exists []; reflexivity| |exact (G _ _ H)]. apply (G [l] (v + 0)). cbn [map sum_results]. cbn in H. rewrite H. reflexivity.
Qed.
Lemma fractions_ok (ls : list (R * R)) : fractions d (map (fun ab => (Finite (fst ab), Finite (snd ab))) ls) =
  Ok (map (fun ab => mass d (Finite (fst ab), Finite (snd ab)) / sumR (map (fun ab => mass d (Finite (fst ab), Finite (snd ab))) ls)) ls).
Proof. unfold fractions. rewrite integrate_ok, integrals_ok. cbn [bind]. rewrite map_map. reflexivity. Qed.

Lemma sumR_scale c l : sumR (map (fun x => x / c) l) = sumR l / c.
Proof. unfold sumR. induction l as [|a l IH]; cbn; [unfold Rdiv; ring|]. rewrite IH. unfold Rdiv. ring. Qed.
Lemma mass_nonneg a b : Rbar_le a b -> 0 <= mass d (a, b).
Proof. intros H. apply (mono d P) in H. unfold mass. cbn. lra. Qed.

Lemma clamp_between a b x : Rbar_le a b -> Rbar_le a (clamp a b x) /\ Rbar_le (clamp a b x) b.
Proof.
  intros AB. unfold clamp. destruct (Rbar_lt_dec x a) as [H|H]; [split; [apply Rbar_le_refl|exact AB]|].
  destruct (Rbar_lt_dec b x) as [H'|H']; [split; [exact AB|apply Rbar_le_refl]|]. split; [apply Rbar_not_lt_le, H|apply Rbar_not_lt_le, H'].
Qed.
(** A part with its fraction and its share *)
Lemma part_share total l x : Rbar_le (fst l) (snd l) -> mass d l / total * share d l x = mass d (fst l, clamp (fst l) (snd l) x) / total.
Proof.
  intros AB. destruct l as [a b]. cbn [fst snd] in *. unfold share. cbn [fst snd]. destruct (Req_dec (mass d (a, b)) 0) as [Z|Z].
  - destruct (clamp_between a b x AB) as [C1 C2]. apply (mono d P) in C1, C2. unfold mass in *. cbn [fst snd] in *.
    replace (cdf d (clamp a b x) - cdf d a) with 0 by lra. rewrite Z. unfold Rdiv. ring.
  - unfold Rdiv. rewrite (Rmult_comm (mass d (a, b))). rewrite Rmult_assoc. rewrite <- (Rmult_assoc (mass d (a, b))). rewrite (Rmult_comm (mass d (a, b)) (mass d (a, clamp a b x))).
    rewrite Rmult_assoc. rewrite Rinv_r by exact Z. ring.
Qed.
End Dist.

(** ** Parts of a sample *)
Section Parts.
Variable rnd : nat -> nat -> R.
Variable ar : nat -> interval -> nat -> list R.
Variable d : dist.
Fixpoint parts_from (i : nat) (limits : list interval) (ns : list nat) : list (list R) :=
  match limits, ns with l :: limits, n :: ns => call_sample rnd ar d i n l :: parts_from (S i) limits ns | _, _ => [] end.
Lemma sample_concat limits : forall i ns, sample_parts rnd ar d i limits ns = concat (parts_from i limits ns).
Proof. induction limits as [|l limits IH]; intros i [|n ns]; try reflexivity. cbn. rewrite IH. reflexivity. Qed.
Hypothesis AR : forall i l n, length (ar i l n) = n.
Lemma call_length i n l : length (call_sample rnd ar d i n l) = n.
Proof. unfold call_sample, tfd_analytic_sample. destruct (quantile d); [rewrite !map_length, seq_length; reflexivity|apply AR]. Qed.
Lemma parts_lengths limits : forall i ns, length limits = length ns -> map (@length R) (parts_from i limits ns) = ns.
Proof. induction limits as [|l limits IH]; intros i [|n ns] E; try discriminate; [reflexivity|]. cbn. rewrite call_length, IH by (cbn in E; lia). reflexivity. Qed.
Lemma parts_nth limits : forall i ns k l, length limits = length ns -> nth_error limits k = Some l ->
  nth_error (parts_from i limits ns) k = Some (call_sample rnd ar d (i + k) (nth k ns 0%nat) l).
Proof.
  induction limits as [|m limits IH]; intros i [|n ns] k l E N; try discriminate; [destruct k; discriminate|]. destruct k as [|k]; cbn in *.
  - injection N as <-. rewrite Nat.add_0_r. reflexivity.
  - rewrite (IH (S i) ns k l) by (auto; lia). rewrite Nat.add_succ_r. reflexivity.
Qed.
End Parts.
Lemma concat_length_sum {A} (ls : list (list A)) : length (concat ls) = list_sum (map (@length A) ls).
Proof. induction ls as [|l ls IH]; [reflexivity|]. cbn. rewrite app_length, IH. reflexivity. Qed.
