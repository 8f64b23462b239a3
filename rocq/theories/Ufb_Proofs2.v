(** Samples of the step function. *)
From Verif Require Import Base BaseLemmas Hist_Model Hist_Spec Hist_Proofs Hist_Proofs2 Hist_Proofs3 Hist_Proofs4
  BInt_Model BInt_Spec BInt_Proofs Bpdf_Model Bpdf_Spec Disp_Model Ufb_Model Ufb_Spec.
From Coq Require Import Lqa.
#[local] Open Scope nat_scope.

(** A row and its bin, axis by axis. *)
Fixpoint inb (es : list (list Q)) (idx : list nat) (row : list Q) : bool :=
  match es, idx, row with
  | e :: es', i :: idx', x :: row' => in_bin true e i x && inb es' idx' row'
  | [], [], [] => true
  | _, _, _ => false
  end.
Definition by_name (obs bobs : list string) (es : list (list Q)) (idx : list nat) (row : list Q) : bool :=
  forallb (fun p => in_bin true (fst (snd p)) (snd (snd p)) (value_of obs row (fst p))) (combine bobs (combine es idx)).

Lemma by_name_inb obs es idx row : NoDup obs -> length es = length obs -> length idx = length es -> length row = length obs ->
  by_name obs obs es idx row = inb es idx row.
Proof.
  intros ND. unfold by_name.
  cut (forall pre po post row', obs = pre ++ post -> row = po ++ row' -> length po = length pre -> length es = length post ->
    length idx = length es -> length row' = length post ->
    forallb (fun p => in_bin true (fst (snd p)) (snd (snd p)) (value_of obs row (fst p))) (combine post (combine es idx)) = inb es idx row').
  { intros H L1 L2 L3. apply (H [] [] obs row); auto. }
  revert idx. induction es as [|e es IH]; intros idx pre po post row' EO ER LP L1 L2 L3.
  - destruct post; [|discriminate L1]. destruct idx; [|discriminate L2]. destruct row'; [reflexivity|discriminate L3].
  - destruct post as [|o post]; [discriminate L1|]. destruct idx as [|i idx]; [discriminate L2|]. destruct row' as [|x row']; [discriminate L3|].
    cbn [combine forallb fst snd inb]. f_equal.
    + f_equal. apply (value_of_nth obs row (length pre) o x ND).
      * rewrite EO, nth_error_app2, Nat.sub_diag by lia. reflexivity.
      * rewrite ER, <- LP, nth_error_app2, Nat.sub_diag by lia. reflexivity.
    + apply (IH idx (pre ++ [o]) (po ++ [x]) post row').
      * rewrite <- app_assoc. exact EO.
      * rewrite <- app_assoc. exact ER.
      * rewrite !app_length. cbn. lia.
      * cbn in L1. lia.
      * cbn in L2. lia.
      * cbn in L3. lia.
Qed.
Lemma inb_event u idx row : NoDup (f_obs u) -> f_obs u = f_bobs u -> length (own_edges (f_binned u)) = length (f_obs u) ->
  length idx = length (own_edges (f_binned u)) -> length row = length (f_obs u) ->
  inb (own_edges (f_binned u)) idx row = true -> event_in (own_bins u) (f_obs u) row idx.
Proof.
  intros ND SO LE LI LR H. split; [cbn; rewrite <- SO; lia|]. cbn [own_bins b_obs b_edges].
  intros k o e j Ho He Hj.
  assert (K : k < length row) by (rewrite LR, SO; apply nth_error_Some; congruence).
  destruct (nth_error row k) as [x|] eqn:EX; [|apply nth_error_None in EX; lia].
  rewrite (value_of_nth (f_obs u) row k o x ND) by (rewrite ?SO; assumption).
  revert He Hj EX H. generalize (own_edges (f_binned u)) as es. clear. revert idx row.
  induction k as [|k IH]; intros [|i idx] [|y row] [|z es] He Hj EX H; cbn in *; try discriminate; apply andb_prop in H; destruct H as [H1 H2].
  - congruence.
  - apply (IH idx row es); assumption.
Qed.

(** The point of a bin is in that bin only. *)
Lemma point_in es : Forall edges_ok es -> forall idx us, in_shape idx (shape_of es) -> length us = length es ->
  Forall (fun v => 0 <= v /\ v < 1)%Q us -> length (point es idx us) = length es /\ inb es idx (point es idx us) = true.
Proof.
  intros OK. induction OK as [|e es [I L] OK IH]; intros [|i idx] [|v us] H LU U; try discriminate LU; try (inversion H; fail).
  - split; reflexivity.
  - assert (HY : i < length e - 1 /\ in_shape idx (shape_of es)) by (inversion H; subst; split; assumption). destruct HY as [HI HS].
    inversion U as [|? ? [V0 V1] U']; subst. destruct (IH idx us HS ltac:(cbn in LU; lia) U') as [A B].
    cbn [point length inb]. split; [lia|]. rewrite B, andb_true_r. apply in_bin_iff.
    exists (nth i e 0%Q), (nth (S i) e 0%Q).
    split; [apply nth_error_nth'; lia|]. split; [apply nth_error_nth'; lia|].
    assert (Lt : (nth i e 0 < nth (S i) e 0)%Q) by (apply inc_nth; [exact I|lia|lia]).
    set (lo := nth i e 0%Q) in *. set (hi := nth (S i) e 0%Q) in *.
    assert (P : (0 <= v * (hi - lo))%Q) by (apply Qmult_le_0_compat; lra).
    assert (P2 : (0 < (1 - v) * (hi - lo))%Q) by (apply Qmult_lt_0_compat; lra).
    split; [lra|]. left. lra.
Qed.
Lemma inb_unique es idx idx' row : Forall edges_ok es -> inb es idx row = true -> inb es idx' row = true -> idx = idx'.
Proof.
  intros OK. revert idx idx' row. induction OK as [|e es [I L] OK IH]; intros [|i idx] [|j idx'] [|x row] A B; cbn in A, B; try discriminate; [reflexivity|].
  apply andb_prop in A, B. destruct A as [A1 A2], B as [B1 B2]. f_equal; [apply (in_bin_unique true e i j x I A1 B1)|apply (IH _ _ _ A2 B2)].
Qed.
Lemma inb_limits l es idx row : Forall edges_ok es -> covers l es -> inb es idx row = true -> in_limits l row = true.
Proof.
  intros OK C. revert idx row. induction C as [|r e l es [C1 C2] C IH]; intros [|i idx] [|x row] A; cbn in A; try discriminate; [reflexivity|].
  apply andb_prop in A. destruct A as [A1 A2]. inversion OK as [|? ? [I L] OK']; subst.
  cbn [in_limits]. rewrite (IH OK' idx row A2), andb_true_r. apply in_bin_iff in A1. destruct A1 as (lo&hi&E1&E2&H1&H2).
  assert (K : S i < length e) by (apply nth_error_Some; congruence).
  assert (HL : (hd 0 e <= lo)%Q).
  { rewrite hd_nth. rewrite (nth_error_nth0 e i) in E1 by lia. injection E1 as <-. apply inc_nth_le; [exact I|lia|lia]. }
  assert (HH : (hi <= last e 0)%Q).
  { rewrite last_nth0 by lia. rewrite (nth_error_nth0 e (S i)) in E2 by lia. injection E2 as <-. apply inc_nth_le; [exact I|lia|lia]. }
  apply andb_true_intro. split; apply Qle_bool_iff; [lra|]. destruct H2 as [H2|(_&_&H2)]; lra.
Qed.

(** Counting. *)
Lemma points_length es k draw ps : length (points_at es k draw ps) = length ps.
Proof. revert k. induction ps as [|p ps IH]; intros k; cbn; [reflexivity|]. rewrite IH. reflexivity. Qed.
Lemma points_forall es draw ps (P : list Q -> Prop) : Forall (fun p => forall k, P (point es p (draw k))) ps ->
  forall k, Forall P (points_at es k draw ps).
Proof. intros H. induction H as [|p ps A H IH]; intros k; cbn; constructor; [apply A|apply IH]. Qed.
Lemma points_count es draw ps idx : Forall edges_ok es -> Forall (fun p => in_shape p (shape_of es)) ps ->
  unit_draws (length es) draw -> forall k,
  length (filter (inb es idx) (points_at es k draw ps)) = count_occ (list_eq_dec Nat.eq_dec) ps idx.
Proof.
  intros OK H U. induction H as [|p ps A H IH]; intros k; cbn [points_at filter count_occ]; [reflexivity|].
  destruct (U k) as [U1 U2]. destruct (point_in es OK p (draw k) A U1 U2) as [_ B].
  destruct (list_eq_dec Nat.eq_dec p idx) as [->|N].
  - rewrite B. cbn. rewrite IH. reflexivity.
  - destruct (inb es idx (point es p (draw k))) eqn:E; [|apply IH].
    exfalso. apply N. apply (inb_unique es p idx _ OK B E).
Qed.
Lemma count_repeat (a x : list nat) n : count_occ (list_eq_dec Nat.eq_dec) (repeat x n) a = if list_eq_dec Nat.eq_dec x a then n else 0.
Proof.
  induction n as [|n IH]; cbn; [destruct (list_eq_dec Nat.eq_dec x a); reflexivity|].
  rewrite IH. destruct (list_eq_dec Nat.eq_dec x a); lia.
Qed.
Lemma count_flat f l a : NoDup l -> In a l ->
  count_occ (list_eq_dec Nat.eq_dec) (flat_map (fun i => repeat i (f i)) l) a = f a.
Proof.
  intros ND. induction ND as [|x l NI ND IH]; intros I; [destruct I|]. cbn [flat_map]. rewrite count_occ_app, count_repeat.
  destruct (list_eq_dec Nat.eq_dec x a) as [->|N].
  - assert (Z : forall l', ~ In a l' -> count_occ (list_eq_dec Nat.eq_dec) (flat_map (fun i => repeat i (f i)) l') a = 0).
    { intros l' H. apply count_occ_not_In. intros K. apply in_flat_map in K. destruct K as (y&K1&K2). apply repeat_spec in K2. subst. auto. }
    rewrite Z by exact NI. lia.
  - destruct I as [E|I]; [congruence|]. rewrite IH by exact I. reflexivity.
Qed.
Lemma length_flat f (l : list (list nat)) : length (flat_map (fun i => repeat i (f i)) l) = list_sum (map f l).
Proof. induction l as [|x l IH]; cbn; [reflexivity|]. rewrite app_length, repeat_length, IH. reflexivity. Qed.

Lemma whole_part_of q n : (q == inject_Z (Z.of_nat n))%Q -> whole_part q = Z.of_nat n.
Proof.
  unfold whole_part, Qeq. cbn. intros H. rewrite Z.mul_1_r in H. rewrite H. apply Z.quot_mul. lia.
Qed.
Lemma places_of t c : whole_counts t c ->
  places t = Ok (flat_map (fun i => repeat i (c i)) (indices (t_shape t))).
Proof.
  intros W. unfold places.
  replace (existsb _ _) with false.
  - f_equal. assert (H : Forall (fun i => in_shape i (t_shape t)) (indices (t_shape t))) by (apply Forall_forall; intros i; apply indices_in).
    induction H as [|i l A H IH]; cbn [flat_map]; [reflexivity|]. rewrite IH, (whole_part_of _ _ (W i A)), Nat2Z.id. reflexivity.
  - symmetry. apply Bool.not_true_iff_false. intros H. apply existsb_exists in H. destruct H as (i&I&H).
    apply indices_in in I. rewrite (whole_part_of _ _ (W i I)) in H. apply Z.ltb_lt in H. lia.
Qed.
