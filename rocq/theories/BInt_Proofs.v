From Verif Require Import Base BaseLemmas Hist_Model Hist_Spec Hist_Proofs Hist_Proofs3 BInt_Model BInt_Spec.
From Coq Require Import Qminmax Lqa Permutation.
#[local] Open Scope nat_scope.

Lemma nth_widths l i : S i < length l -> nth i (widths l) 0%Q = (nth (S i) l 0 - nth i l 0)%Q.
Proof.
  revert i. induction l as [|a l IH]; intros i H; [cbn in H; lia|].
  destruct l as [|b l]; [cbn in H; lia|]. change (widths (a :: b :: l)) with ((b - a)%Q :: widths (b :: l)).
  destruct i as [|i]; [reflexivity|]. cbn [nth]. rewrite IH; [reflexivity|cbn in *; lia].
Qed.
Lemma length_widths l : length (widths l) = length l - 1.
Proof.
  induction l as [|a l IH]; [reflexivity|]. destruct l as [|b l]; [reflexivity|].
  change (widths (a :: b :: l)) with ((b - a)%Q :: widths (b :: l)). cbn [length] in *. rewrite IH. lia.
Qed.
Lemma nth_skipn (l : list Q) f i : nth i (skipn f l) 0%Q = nth (f + i) l 0%Q.
Proof. revert f. induction l as [|a l IH]; intros [|f]; cbn; try reflexivity; [destruct i; reflexivity|apply IH]. Qed.
Lemma nth_firstn (l : list Q) n i : i < n -> nth i (firstn n l) 0%Q = nth i l 0%Q.
Proof.
  revert n i. induction l as [|a l IH]; intros [|n] [|i] H; cbn; try reflexivity; try lia. apply IH. lia.
Qed.
Lemma nth_slice l f s i : i < s -> nth i (slice l f s) 0%Q = nth (f + i) l 0%Q.
Proof. intros H. unfold slice. rewrite nth_firstn by exact H. apply nth_skipn. Qed.
Lemma length_slice l f s : f + s <= length l -> length (slice l f s) = s.
Proof. intros H. unfold slice. rewrite firstn_length, skipn_length. lia. Qed.
Lemma length_update k x l : length (update_nth k x l) = length l.
Proof. revert k. induction l as [|a l IH]; intros [|k]; cbn; try reflexivity. rewrite IH. reflexivity. Qed.
Lemma nth_update_eq k x l : k < length l -> nth k (update_nth k x l) 0%Q = x.
Proof. revert k. induction l as [|a l IH]; intros [|k] H; cbn in *; try lia; [reflexivity|apply IH; lia]. Qed.
Lemma nth_update_ne k j x l : j <> k -> nth j (update_nth k x l) 0%Q = nth j l 0%Q.
Proof.
  revert k j. induction l as [|a l IH]; intros [|k] [|j] H; cbn; try reflexivity; try congruence.
  apply IH. congruence.
Qed.

Lemma nth_error_nth0 (l : list Q) k : k < length l -> nth_error l k = Some (nth k l 0%Q).
Proof. intros H. apply nth_error_nth'. exact H. Qed.
Lemma inc_nth e i j : increasing e -> i < j -> j < length e -> (nth i e 0 < nth j e 0)%Q.
Proof.
  intros I H L. apply (increasing_nth e i j); [exact I|exact H|apply nth_error_nth0; lia|apply nth_error_nth0; lia].
Qed.
Lemma inc_nth_le e i j : increasing e -> i <= j -> j < length e -> (nth i e 0 <= nth j e 0)%Q.
Proof.
  intros I H L. destruct (Nat.eq_dec i j) as [->|N]; [apply Qle_refl|]. apply Qlt_le_weak, inc_nth; [exact I|lia|exact L].
Qed.
Lemma hd_nth (e : list Q) : hd 0%Q e = nth 0 e 0%Q.
Proof. destruct e; reflexivity. Qed.
Lemma last_nth0 (e : list Q) : 2 <= length e -> last e 0%Q = nth (length e - 1) e 0%Q.
Proof.
  intros H. assert (E : e <> []) by (intros ->; cbn in H; lia).
  assert (L := last_nth e E). rewrite nth_error_nth0 in L by lia. congruence.
Qed.

Lemma find_ok e x : edges_ok e -> (hd 0 e <= x)%Q ->
  let k := find_bins x e in
  k <= length e - 2 /\ (nth k e 0 <= x)%Q /\ ((x < nth (S k) e 0)%Q \/ k = length e - 2).
Proof.
  intros [I L] H k. set (u := upper_bound e x).
  assert (U1 : 1 <= u).
  { unfold u. destruct e as [|a r]; [cbn in L; lia|]. cbn [upper_bound]. cbn in H.
    apply Qle_bool_iff in H. rewrite H. lia. }
  assert (Ule : u <= length e) by apply ub_le.
  assert (K : k = Nat.min (u - 1) (length e - 2)) by reflexivity.
  split; [lia|]. split.
  - apply (ub_below e x k); [apply nth_error_nth0; lia|]. fold u. lia.
  - destruct (Nat.lt_ge_cases u (length e)) as [C|C].
    + assert (Q1 : (x < nth u e 0)%Q) by (apply ub_above with e; fold u; apply nth_error_nth0; exact C).
      assert (S k = u \/ k = length e - 2) as [E|E] by lia; [left; rewrite E; exact Q1|right; exact E].
    + right. lia.
Qed.

Lemma maximum_case a b : ((a <= b)%Q /\ maximum a b = b) \/ ((b < a)%Q /\ maximum a b = a).
Proof.
  unfold maximum. destruct (Qle_bool a b) eqn:E.
  - left. split; [apply Qle_bool_iff; exact E|reflexivity].
  - right. split; [|reflexivity]. apply Qnot_le_lt. intros H. apply Qle_bool_iff in H. congruence.
Qed.
Lemma minimum_case a b : ((a <= b)%Q /\ minimum a b = a) \/ ((b < a)%Q /\ minimum a b = b).
Proof.
  unfold minimum. destruct (Qle_bool a b) eqn:E.
  - left. split; [apply Qle_bool_iff; exact E|reflexivity].
  - right. split; [|reflexivity]. apply Qnot_le_lt. intros H. apply Qle_bool_iff in H. congruence.
Qed.

Ltac qmm := repeat match goal with
  | |- context [Qmin ?a ?b] => let H := fresh in destruct (Q.min_spec a b) as [[? H]|[? H]]; rewrite H; clear H
  | |- context [Qmax ?a ?b] =>
      lazymatch b with context [Qmax _ _] => fail | _ => idtac end;
      let H := fresh in destruct (Q.max_spec a b) as [[? H]|[? H]]; rewrite H; clear H
  end.

Lemma covered_zero_above e k l u : (nth (S k) e 0 <= l)%Q -> (covered e k (l, u) == 0)%Q.
Proof. intros H. unfold covered. cbn [fst snd]. qmm; lra. Qed.
Lemma covered_zero_below e k l u : (u <= nth k e 0)%Q -> (covered e k (l, u) == 0)%Q.
Proof. intros H. unfold covered. cbn [fst snd]. qmm; lra. Qed.

(** What is known of the kept part of an axis. *)
Definition good_cut (a : spec_axis) (c : cut) : Prop :=
  c_lower c <= c_upper c <= length (fst a) - 1 /\
  length (c_scaled c) = S (c_upper c - c_lower c) /\
  (forall s, s < c_upper c - c_lower c ->
     (nth s (widths (c_scaled c)) 0 == length_of a (c_lower c + s))%Q /\
     (nth s (widths (c_unscaled c)) 0 == width (fst a) (c_lower c + s))%Q) /\
  (forall k, k < length (fst a) - 1 -> ~ c_lower c <= k < c_upper c -> (length_of a k == 0)%Q) /\
  (snd a = None -> c_lower c = 0 /\ c_upper c = length (fst a) - 1).

Lemma cut_axis_good e r : edges_ok e -> meets e r ->
  exists c, cut_axis e r = Ok c /\ good_cut (e, Some r) c.
Proof.
  intros OK M. destruct r as [l u]. destruct OK as [I Len]. destruct M as (M1&M2&M3). cbn [fst snd] in M1, M2, M3.
  assert (OK : edges_ok e) by (split; assumption).
  unfold cut_axis. cbn [fst snd].
  set (lo := maximum l (hd 0%Q e)). set (up := minimum u (last e 0%Q)).
  assert (HL : (hd 0 e < last e 0)%Q).
  { rewrite hd_nth, last_nth0 by exact Len. apply inc_nth; [exact I|lia|lia]. }
  assert (Hlo : (hd 0 e <= lo /\ lo <= last e 0 /\ l <= lo)%Q).
  { unfold lo. destruct (maximum_case l (hd 0%Q e)) as [[? ->]|[? ->]]; repeat split; lra. }
  assert (Hup : (hd 0 e <= up /\ up <= last e 0 /\ up <= u)%Q).
  { unfold up. destruct (minimum_case u (last e 0%Q)) as [[? ->]|[? ->]]; repeat split; lra. }
  assert (Hlu : (lo <= up)%Q).
  { unfold lo, up. destruct (maximum_case l (hd 0%Q e)) as [[? ->]|[? ->]],
      (minimum_case u (last e 0%Q)) as [[? ->]|[? ->]]; lra. }
  destruct (find_ok e lo OK (proj1 Hlo)) as (L1&L2&L3). destruct (find_ok e up OK (proj1 Hup)) as (U1&U2&U3).
  set (L := find_bins lo e) in *. set (U := find_bins up e) in *.
  assert (LU : L <= U).
  { destruct (Nat.le_gt_cases L U) as [H|H]; [exact H|]. exfalso.
    destruct U3 as [U3|U3]; [|lia].
    assert (nth (S U) e 0 <= nth L e 0)%Q by (apply inc_nth_le; [exact I|lia|lia]). lra. }
  assert (UP : (up <= nth (S U) e 0)%Q).
  { destruct U3 as [U3|U3]; [lra|]. replace (S U) with (length e - 1) by lia. rewrite <- last_nth0 by exact Len. lra. }
  destruct (Nat.ltb_spec (U + 1) L); [lia|].
  eexists. split; [reflexivity|]. unfold good_cut. cbn [fst snd c_lower c_upper c_scaled c_unscaled].
  set (size := U + 1 - L). assert (Hs : size = S (U - L)) by lia.
  assert (LS : length (slice e L (size + 1)) = size + 1) by (apply length_slice; lia).
  split; [lia|]. split; [rewrite !length_update, LS; lia|]. split; [|split; [|discriminate]].
  - intros s S1. rewrite !nth_widths by (rewrite ?length_update; lia). rewrite !nth_slice by lia.
    unfold width, length_of. cbn [fst snd]. replace (L + S s) with (S (L + s)) by lia.
    split; [|reflexivity].
    (* the upper end of the piece *)
    assert (A : (nth (S s) (update_nth size up (update_nth 0 lo (slice e L (size + 1)))) 0 ==
                 Qmin (nth (S (L + s)) e 0) u)%Q).
    { destruct (Nat.eq_dec (S s) size) as [E|E].
      - rewrite E, nth_update_eq by (rewrite length_update; lia). replace (S (L + s)) with (S U) by lia.
        assert (nth (S U) e 0 <= last e 0)%Q by (rewrite last_nth0 by exact Len; apply inc_nth_le; [exact I|lia|lia]).
        unfold up in *. destruct (minimum_case u (last e 0%Q)) as [[? EE]|[? EE]]; rewrite EE in *; qmm; lra.
      - rewrite nth_update_ne by exact E. rewrite nth_update_ne by lia. rewrite nth_slice by lia.
        replace (L + S s) with (S (L + s)) by lia.
        assert (nth (S (L + s)) e 0 <= nth U e 0)%Q by (apply inc_nth_le; [exact I|lia|lia]). qmm; lra. }
    assert (B : (nth s (update_nth size up (update_nth 0 lo (slice e L (size + 1)))) 0 ==
                 Qmax (nth (L + s) e 0) l)%Q).
    { rewrite nth_update_ne by lia. destruct s as [|s].
      - rewrite nth_update_eq by lia. rewrite Nat.add_0_r.
        assert (hd 0 e <= nth L e 0)%Q by (rewrite hd_nth; apply inc_nth_le; [exact I|lia|lia]).
        unfold lo in *. destruct (maximum_case l (hd 0%Q e)) as [[? EE]|[? EE]]; rewrite EE in *; qmm; lra.
      - rewrite nth_update_ne by lia. rewrite nth_slice by lia.
        destruct L3 as [L3|L3]; [|lia].
        assert (nth (S L) e 0 <= nth (L + S s) e 0)%Q by (apply inc_nth_le; [exact I|lia|lia]). qmm; lra. }
    rewrite A, B. unfold covered. cbn [fst snd].
    set (hi := Qmin (nth (S (L + s)) e 0%Q) u) in *. set (low := Qmax (nth (L + s) e 0%Q) l) in *.
    assert (low <= hi)%Q.
    { rewrite <- A, <- B. destruct (Nat.eq_dec (S s) size) as [E|E].
      - rewrite E. rewrite nth_update_eq by (rewrite length_update; lia). rewrite nth_update_ne by lia.
        destruct s as [|s]; [rewrite nth_update_eq by lia; exact Hlu|].
        rewrite nth_update_ne by lia. rewrite nth_slice by lia.
        assert (nth (L + S s) e 0 <= nth U e 0)%Q by (apply inc_nth_le; [exact I|lia|lia]). lra.
      - rewrite (nth_update_ne size s) by lia. rewrite (nth_update_ne size (S s)) by exact E.
        rewrite (nth_update_ne 0 (S s)) by lia. rewrite nth_slice by lia.
        destruct s as [|s].
        + rewrite nth_update_eq by lia. replace (L + 1) with (S L) by lia.
          destruct L3 as [L3|L3]; [lra|lia].
        + rewrite nth_update_ne by lia. rewrite nth_slice by lia. apply inc_nth_le; [exact I|lia|lia]. }
    destruct (Q.max_spec 0 (hi - low)%Q) as [[? ->]|[? ->]]; lra.
  - intros k K N. unfold length_of. cbn [snd fst]. destruct (Nat.lt_ge_cases k L) as [C|C].
    + apply covered_zero_above. assert (nth (S k) e 0 <= nth L e 0)%Q by (apply inc_nth_le; [exact I|lia|lia]).
      unfold lo in *. destruct (maximum_case l (hd 0%Q e)) as [[? EE]|[? EE]]; rewrite EE in *; [|lra].
      assert (hd 0 e < nth L e 0)%Q by (rewrite hd_nth; apply inc_nth; [exact I|lia|lia]). lra.
    + apply covered_zero_below. assert (KU : U < k) by lia.
      assert (nth (S U) e 0 <= nth k e 0)%Q by (apply inc_nth_le; [exact I|lia|lia]).
      destruct U3 as [U3|U3]; [|lia].
      unfold up in *. destruct (minimum_case u (last e 0%Q)) as [[? EE]|[? EE]]; rewrite EE in *; [lra|].
      assert (nth (S U) e 0 <= last e 0)%Q by (rewrite last_nth0 by exact Len; apply inc_nth_le; [exact I|lia|lia]). lra.
Qed.

Lemma keep_axis_good e : edges_ok e -> good_cut (e, None) (keep_axis e).
Proof.
  intros [I L]. unfold good_cut, keep_axis. cbn [fst snd c_lower c_upper c_scaled c_unscaled].
  split; [lia|]. split; [lia|]. split; [|split; [|split; reflexivity]].
  - intros s S1. rewrite nth_widths by lia. cbn [Nat.add]. split; reflexivity.
  - intros k K N. lia.
Qed.

Lemma width_pos e k : increasing e -> k < length e - 1 -> (0 < width e k)%Q.
Proof. intros I K. unfold width. assert (nth k e 0 < nth (S k) e 0)%Q by (apply inc_nth; [exact I|lia|lia]). lra. Qed.
