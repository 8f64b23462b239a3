(** Lemmas about binned spaces. *)
From Coq Require Import List String Arith Bool ZArith QArith.Qcanon Field Lia.
From Verif Require Import Base BaseLemmas Bsp_Model Bsp_Spec.
Import ListNotations.
Open Scope string_scope.
Open Scope list_scope.

Lemma nat_Qc_0 : nat_Qc 0 = 0%Qc.
Proof. apply Qc_is_canon. reflexivity. Qed.
Lemma nat_Qc_S i : nat_Qc (S i) = (nat_Qc i + 1)%Qc.
Proof.
  unfold nat_Qc. apply Qc_is_canon. unfold Qcplus. cbn [this Q2Qc]. rewrite !Qreduction.Qred_correct.
  rewrite Nat2Z.inj_succ. unfold Z.succ. rewrite QArith_base.inject_Z_plus. reflexivity.
Qed.
Lemma nat_Qc_neq n : n <> 0 -> nat_Qc n <> 0%Qc.
Proof.
  intros H E. apply (f_equal this) in E. unfold nat_Qc in E. cbn [this Q2Qc] in E.
  assert (E' : QArith_base.Qeq (QArith_base.inject_Z (Z.of_nat n)) (QArith_base.inject_Z 0)).
  { rewrite <- (Qreduction.Qred_correct (QArith_base.inject_Z (Z.of_nat n))). rewrite E. reflexivity. }
  unfold QArith_base.Qeq, QArith_base.inject_Z in E'. cbn in E'. lia.
Qed.

Definition edge (n : nat) (a b : Qc) (i : nat) : Qc := (a + nat_Qc i * ((b - a) / nat_Qc n))%Qc.
Lemma edge_0 n a b : edge n a b 0 = a.
Proof. unfold edge. rewrite nat_Qc_0. ring. Qed.
Lemma edge_n n a b : n <> 0 -> edge n a b n = b.
Proof. intros H. unfold edge. field. apply nat_Qc_neq. exact H. Qed.

Lemma regular_nth n a b i : i <= n -> nth_error (regular_edges n a b) i = Some (edge n a b i).
Proof.
  intros H. unfold regular_edges. rewrite nth_error_map.
  rewrite nth_error_nth' with (d := 0) by (rewrite seq_length; lia).
  rewrite seq_nth by lia. reflexivity.
Qed.
Lemma regular_first n a b : hd 0%Qc (regular_edges n a b) = a.
Proof. unfold regular_edges. cbn [seq map hd]. apply edge_0. Qed.
Lemma regular_last n a b : n <> 0 -> last (regular_edges n a b) 0%Qc = b.
Proof.
  intros H. unfold regular_edges. rewrite seq_S, map_app. cbn [map]. rewrite last_last. apply edge_n. exact H.
Qed.

Lemma regular_equidistant n a b : n <> 0 -> equidistant (regular_edges n a b) n a b.
Proof.
  intros H. split; [|split; [|split]].
  - unfold regular_edges. rewrite map_length, seq_length. reflexivity.
  - rewrite <- (edge_0 n a b) at 2. reflexivity.
  - rewrite regular_nth by lia. rewrite edge_n by exact H. reflexivity.
  - intros i x y X Y.
    assert (L : S i <= n).
    { assert (L : S i < length (regular_edges n a b)) by (apply nth_error_Some; congruence).
      unfold regular_edges in L. rewrite map_length, seq_length in L. lia. }
    rewrite regular_nth in X by lia. rewrite regular_nth in Y by lia. injection X as <-. injection Y as <-.
    unfold edge. rewrite nat_Qc_S. field. apply nat_Qc_neq. exact H.
Qed.

Lemma regular_binning_ok n k a b x : regular_binning n k a b = Ok x -> x = Regular n k a b false /\ k <> 0 /\ a <> b /\ n <> "".
Proof.
  unfold regular_binning. destruct (Nat.eqb_spec k 0); [discriminate|].
  destruct (Qc_eq_bool a b) eqn:E; [discriminate|]. destruct (String.eqb_spec n ""); [discriminate|].
  intros H. injection H as <-. split; [reflexivity|]. split; [assumption|]. split; [|assumption].
  intros ->. unfold Qc_eq_bool in E. destruct (Qc_eq_dec b b); [discriminate|contradiction].
Qed.

Lemma new_from_axis_id a b : proper a -> new_from_axis a = Ok b -> b = a /\ name a <> "".
Proof.
  destruct a as [n k s t tr|n e|n]; cbn [new_from_axis].
  - intros (Hk & _). destruct tr; [discriminate|]. intros H. apply regular_binning_ok in H. destruct H as (-> & _ & _ & N).
    split; [|exact N].
    unfold first_edge, last_edge. cbn [edges]. rewrite regular_first, regular_last by exact Hk. reflexivity.
  - intros _. unfold variable_binning. destruct (String.eqb_spec n ""); [discriminate|]. intros H. injection H as <-. split; [reflexivity|assumption].
  - discriminate.
Qed.

Lemma histaxes_id l l' : Forall proper l -> histaxes_to_binning l = Ok l' -> l' = l.
Proof.
  revert l'. induction l as [|a l IH]; intros l' P H; cbn in H.
  - injection H as <-. reflexivity.
  - destruct (new_from_axis a) as [a'|] eqn:A; [|discriminate]. cbn in H.
    destruct (histaxes_to_binning l) as [r|] eqn:R; [|discriminate]. cbn in H. injection H as <-.
    inversion P as [|? ? P1 P2]; subst. destruct (new_from_axis_id a a' P1 A) as (-> & _). f_equal. exact (IH r P2 eq_refl).
Qed.

(** ** Axes by name *)
Lemma axis_named_ok n l a : axis_named n l = Ok a -> In a l /\ name a = n.
Proof.
  induction l as [|b l IH]; cbn; [discriminate|]. destruct (String.eqb_spec n (name b)) as [->|N].
  - intros H. injection H as <-. split; [left|]; reflexivity.
  - intros H. destruct (IH H) as (I & E). split; [right; exact I|exact E].
Qed.
Lemma axis_named_nodup l a : NoDup (map name l) -> In a l -> axis_named (name a) l = Ok a.
Proof.
  induction l as [|b l IH]; cbn; [intros _ []|]. intros ND. inversion ND as [|? ? N1 N2]; subst.
  intros [->|I].
  - rewrite String.eqb_refl. reflexivity.
  - destruct (String.eqb_spec (name a) (name b)) as [E|N].
    + exfalso. apply N1. rewrite <- E. apply in_map. exact I.
    + exact (IH N2 I).
Qed.
Lemma axis_named_total n l : In n (map name l) -> exists a, axis_named n l = Ok a.
Proof.
  induction l as [|b l IH]; cbn; [intros []|]. intros I. destruct (String.eqb_spec n (name b)) as [->|N]; [eexists; reflexivity|].
  destruct I as [E|I]; [congruence|exact (IH I)].
Qed.
Lemma axes_named_forall2 ns l r : axes_named ns l = Ok r -> Forall2 (fun n a => axis_named n l = Ok a) ns r.
Proof.
  revert r. induction ns as [|n ns IH]; intros r H; cbn in H.
  - injection H as <-. constructor.
  - destruct (axis_named n l) as [a|] eqn:A; [|discriminate]. cbn in H.
    destruct (axes_named ns l) as [r'|] eqn:R; [|discriminate]. cbn in H. injection H as <-. constructor; [exact A|exact (IH r' eq_refl)].
Qed.
Lemma axes_named_total ns l : (forall n, In n ns -> In n (map name l)) -> exists r, axes_named ns l = Ok r.
Proof.
  induction ns as [|n ns IH]; intros H; cbn; [eexists; reflexivity|].
  destruct (axis_named_total n l (H n (or_introl eq_refl))) as (a & ->). cbn.
  destruct IH as (r & ->); [intros m I; apply H; right; exact I|]. eexists; reflexivity.
Qed.
Lemma axes_named_names ns l r : axes_named ns l = Ok r -> map name r = ns.
Proof.
  intros H. apply axes_named_forall2 in H. induction H as [|n a ns r A H IH]; [reflexivity|].
  cbn. rewrite IH. f_equal. exact (proj2 (axis_named_ok n l a A)).
Qed.

Lemma by_name_ok obs l r : by_name obs l = Ok r -> axes_named obs l = Ok r /\ (forall n, In n (map name l) <-> In n obs).
Proof.
  unfold by_name. destruct (subsetb String.eqb (map name l) obs) eqn:A; [|discriminate].
  destruct (subsetb String.eqb obs (map name l)) eqn:B; [|discriminate]. cbn. intros H. split; [exact H|].
  apply (subsetb_incl _ string_eqb_ok) in A. apply (subsetb_incl _ string_eqb_ok) in B. intros n. split; [apply A|apply B].
Qed.
Lemma by_name_total obs l : (forall n, In n (map name l) <-> In n obs) -> exists r, by_name obs l = Ok r.
Proof.
  intros H. unfold by_name.
  assert (A : subsetb String.eqb (map name l) obs = true) by (apply (subsetb_incl _ string_eqb_ok); intros n; apply H).
  assert (B : subsetb String.eqb obs (map name l) = true) by (apply (subsetb_incl _ string_eqb_ok); intros n; apply H).
  rewrite A, B. cbn. apply axes_named_total. intros n. apply H.
Qed.
Lemma by_name_err obs l e : by_name obs l = Err e -> e = ObsIncompatibleError.
Proof.
  intros H. destruct (subsetb String.eqb (map name l) obs) eqn:A; [destruct (subsetb String.eqb obs (map name l)) eqn:B|].
  - destruct (by_name_total obs l) as (r & E); [|congruence].
    apply (subsetb_incl _ string_eqb_ok) in A. apply (subsetb_incl _ string_eqb_ok) in B. intros n; split; [apply A|apply B].
  - unfold by_name in H. rewrite A, B in H. cbn in H. congruence.
  - unfold by_name in H. rewrite A in H. cbn in H. congruence.
Qed.

(** ** Spaces from axes *)
Lemma make_of_space obs lims l s : make_space obs lims (OfSpace l) = Ok s ->
  exists o lims' d r, choose_obs obs (OfSpace l) = Ok o /\ limits_from (OfSpace l) lims = Ok lims' /\ convert_limits o lims' = Ok d
    /\ by_name o l = Ok r /\ s = Space o d (Some r).
Proof.
  unfold make_space. cbn [convert_binning]. destruct (existsb _ l); [discriminate|]. cbn [bind].
  destruct (choose_obs obs (OfSpace l)) as [o|]; [|discriminate]. cbn [bind].
  destruct (limits_from (OfSpace l) lims) as [lims'|]; [|discriminate]. cbn [bind].
  destruct (convert_limits o lims') as [d|] eqn:D; [|discriminate]. cbn [bind].
  destruct (by_name o l) as [r|] eqn:R; [|discriminate]. cbn [bind]. intros H. injection H as <-.
  exists o, lims', d, r. repeat split; assumption.
Qed.

Lemma make_axes obs lims l s : l <> [] -> Forall proper l -> make_space obs lims (Axes l) = Ok s ->
  exists o lims' d r, choose_obs obs (OfSpace l) = Ok o /\ limits_from (OfSpace l) lims = Ok lims' /\ convert_limits o lims' = Ok d
    /\ by_name o l = Ok r /\ s = Space o d (Some r).
Proof.
  intros N P. unfold make_space. destruct l as [|a l]; [contradiction|]. cbn [convert_binning].
  destruct (histaxes_to_binning (a :: l)) as [l'|] eqn:H; [|discriminate]. rewrite (histaxes_id _ _ P H) in *. cbn [bind].
  destruct (choose_obs obs (OfSpace (a :: l))) as [o|]; [|discriminate]. cbn [bind].
  destruct (limits_from (OfSpace (a :: l)) lims) as [lims'|]; [|discriminate]. cbn [bind].
  destruct (convert_limits o lims') as [d|] eqn:D; [|discriminate]. cbn [bind].
  destruct (by_name o (a :: l)) as [r|] eqn:R; [|discriminate]. cbn [bind]. intros E. injection E as <-.
  exists o, lims', d, r. repeat split; assumption.
Qed.

Lemma choose_obs_some o b o' : choose_obs (Some o) b = Ok o' -> o' = o /\ o <> [].
Proof. destruct o as [|x o]; cbn; [destruct b; discriminate|]. intros H. injection H as <-. split; [reflexivity|discriminate]. Qed.

(** What is at the positions. *)
Lemma axis_at_named o d l r x a : axes_named o l = Ok r -> axis_at (Space o d (Some r)) x a -> axis_named x l = Ok a.
Proof.
  intros H (l' & i & E & O & A). cbn in E, O. injection E as <-. apply axes_named_forall2 in H.
  assert (F := proj1 (Forall2_nth _ _ _) H). destruct F as (_ & F). exact (F i x a O A).
Qed.
Lemma named_axis_at o d l r x : axes_named o l = Ok r -> In x o -> exists a, axis_at (Space o d (Some r)) x a /\ axis_named x l = Ok a.
Proof.
  intros H I. apply In_nth_error in I. destruct I as (i & I).
  assert (H' := axes_named_forall2 _ _ _ H). assert (L := Forall2_length' _ _ _ H').
  assert (B : i < length r) by (rewrite <- L; apply nth_error_Some; congruence).
  destruct (nth_error r i) as [a|] eqn:A; [|apply nth_error_None in A; lia].
  exists a. split; [exists r, i; repeat split; assumption|]. 
  assert (F := proj1 (Forall2_nth _ _ _) H'). destruct F as (_ & F). exact (F i x a I A).
Qed.
Lemma in_axis_at s l a : s_binning s = Some l -> map name l = s_obs s -> In a l -> axis_at s (name a) a.
Proof.
  intros B M I. apply In_nth_error in I. destruct I as (i & I). exists l, i. split; [exact B|]. split; [|exact I].
  rewrite <- M. rewrite nth_error_map, I. reflexivity.
Qed.
Lemma axis_at_in s l o a : s_binning s = Some l -> map name l = s_obs s -> axis_at s o a -> In a l /\ name a = o.
Proof.
  intros B M (l' & i & E & O & A). assert (l' = l) by congruence. subst l'. split; [exact (nth_error_In _ _ A)|].
  rewrite <- M, nth_error_map, A in O. cbn in O. congruence.
Qed.

(** Limits taken from a dictionary of the space. *)
Lemma combine_nth_error {A B} (l : list A) (k : list B) i x : nth_error (combine l k) i = Some x ->
  nth_error l i = Some (fst x) /\ nth_error k i = Some (snd x).
Proof.
  revert k i. induction l as [|a l IH]; intros k i H; [destruct i; discriminate H|].
  destruct k as [|b k]; [destruct i; discriminate H|]. destruct i as [|i]; cbn in *; [injection H as <-; split; reflexivity|exact (IH k i H)].
Qed.
Lemma convert_limits_by_name o d d' : convert_limits o (ByName d) = Ok d' ->
  exists e, d' = Some e /\ forall x r i, nth_error e i = Some (x, r) -> nth_error o i = Some x /\ lookup String.eqb x d = Some r.
Proof.
  cbn. destruct (all_some (map (fun o => lookup String.eqb o d) o)) as [rs|] eqn:A; [|discriminate]. cbn. intros H. injection H as <-.
  eexists. split; [reflexivity|]. intros x r i H. apply combine_nth_error in H. cbn in H. destruct H as (O & R). split; [exact O|].
  apply all_some_forall2 in A. apply Forall2_map_l in A. assert (F := proj1 (Forall2_nth _ _ _) A). destruct F as (_ & F).
  exact (F i x r O R).
Qed.

(** Axes collected from several spaces. *)
Lemma axis_eqb_ok : eqb_spec axis_eqb.
Proof. intros a b. unfold axis_eqb. destruct (axis_eq_dec a b); split; congruence. Qed.

Lemma add_axis_in o acc s a : In a (add_axis o acc s) ->
  In a acc \/ exists l, s_binning s = Some l /\ In o (s_obs s) /\ axis_named o l = Ok a.
Proof.
  unfold add_axis. destruct (s_binning s) as [l|]; [|auto]. destruct (mem String.eqb o (s_obs s)) eqn:M; [|auto].
  destruct (axis_named o l) as [b|] eqn:B; [|auto]. destruct (mem axis_eqb b acc); [auto|].
  intros I. apply in_app_or in I. destruct I as [I|[<-|[]]]; [auto|]. right. exists l. split; [reflexivity|].
  split; [apply (mem_In _ string_eqb_ok); exact M|exact B].
Qed.
Lemma add_axes_in o ss acc a : In a (fold_left (add_axis o) ss acc) ->
  In a acc \/ exists s l, In s ss /\ s_binning s = Some l /\ In o (s_obs s) /\ axis_named o l = Ok a.
Proof.
  revert acc. induction ss as [|s ss IH]; intros acc I; cbn in I; [auto|].
  destruct (IH _ I) as [J|(s' & l & J & K)].
  - destruct (add_axis_in _ _ _ _ J) as [K|(l & K)]; [auto|]. right. exists s, l. split; [left; reflexivity|exact K].
  - right. exists s', l. split; [right; exact J|exact K].
Qed.
Lemma collect_axes_in ss obs a : In a (collect_axes ss obs) ->
  exists s o l, In s ss /\ s_binning s = Some l /\ In o (s_obs s) /\ axis_named o l = Ok a.
Proof.
  unfold collect_axes. assert (G : forall acc, In a (fold_left (fun acc o => fold_left (add_axis o) ss acc) obs acc) ->
    In a acc \/ exists s o l, In s ss /\ s_binning s = Some l /\ In o (s_obs s) /\ axis_named o l = Ok a).
  { induction obs as [|o obs IH]; intros acc I; cbn in I; [auto|]. destruct (IH _ I) as [J|J]; [|auto].
    destruct (add_axes_in _ _ _ _ J) as [K|(s & l & K)]; [auto|]. right. exists s, o, l. exact K. }
  intros I. destruct (G [] I) as [[]|J]. exact J.
Qed.

Lemma autobinning_names ks d l : autobinning ks d = Ok l -> length ks = length d ->
  Forall2 (fun kx a => a = Regular (fst (snd kx)) (fst kx) (fst (snd (snd kx))) (snd (snd (snd kx))) false
                       /\ fst kx <> 0) (combine ks d) l.
Proof.
  revert d l. induction ks as [|k ks IH]; intros d l H L; destruct d as [|(o & (lo & up)) d]; try discriminate L.
  - injection H as <-. constructor.
  - cbn in H. destruct k as [|k]; [discriminate H|]. cbn [Nat.ltb Nat.leb] in H.
    destruct (regular_binning o (S k) lo up) as [a|] eqn:A; [|discriminate H]. cbn [bind] in H.
    destruct (autobinning ks d) as [r|] eqn:R; [|discriminate H]. cbn [bind] in H. injection H as <-.
    cbn [combine]. constructor; [|apply IH; [exact R|cbn in L; lia]].
    cbn. split; [|discriminate]. exact (proj1 (regular_binning_ok _ _ _ _ _ A)).
Qed.

(** Every observable is among those of the combination. *)
Lemma add_new_in l o x : In x (add_new l o) <-> In x l \/ x = o.
Proof.
  unfold add_new. destruct (mem String.eqb o l) eqn:M.
  - apply (mem_In _ string_eqb_ok) in M. split; [auto|]. intros [I| ->]; assumption.
  - rewrite in_app_iff. cbn. intuition congruence.
Qed.
Lemma fold_add_in os l x : In x (fold_left add_new os l) <-> In x l \/ In x os.
Proof.
  revert l. induction os as [|o os IH]; intros l; cbn; [intuition|]. rewrite IH, add_new_in. intuition congruence.
Qed.
Lemma common_obs_in ss x : In x (common_obs ss) <-> exists s, In s ss /\ In x (s_obs s).
Proof.
  unfold common_obs. rewrite fold_add_in. split.
  - intros [[]|I]. apply in_concat in I. destruct I as (l & I & X). apply in_map_iff in I. destruct I as (s & <- & I). exists s. split; assumption.
  - intros (s & I & X). right. apply in_concat. exists (s_obs s). split; [apply in_map; exact I|exact X].
Qed.

(** Limits are found for all observables. *)
Lemma convert_limits_total o d d' b x : convert_limits o (ByName d) = Ok d' -> In x o -> exists r, range_at (Space o d' b) x r.
Proof.
  cbn. destruct (all_some (map (fun o => lookup String.eqb o d) o)) as [rs|] eqn:A; [|discriminate]. cbn. intros H I. injection H as <-.
  apply all_some_forall2 in A. apply Forall2_map_l in A. assert (L := Forall2_length' _ _ _ A).
  apply In_nth_error in I. destruct I as (i & I).
  assert (B : i < length rs) by (rewrite <- L; apply nth_error_Some; congruence).
  destruct (nth_error rs i) as [r|] eqn:R; [|apply nth_error_None in R; lia].
  exists r. eexists. exists i. split; [reflexivity|]. split; [exact I|].
  clear - I R. revert rs i I R. induction o as [|y o IH]; intros rs i I R; [destruct i; discriminate I|].
  destruct rs as [|z rs]; [destruct i; discriminate R|]. destruct i as [|i]; cbn in *; [congruence|exact (IH rs i I R)].
Qed.

(** The limits of the spaces agree with those of the combination. *)
Lemma range_eqb_ok a b : range_eqb a b = true -> a = b.
Proof.
  unfold range_eqb. rewrite andb_true_iff. intros (A & B). apply Qc_eq_bool_correct in A. apply Qc_eq_bool_correct in B.
  destruct a, b. cbn in *. congruence.
Qed.
Lemma common_limit_agree o ss y : common_limit o ss = Ok y -> forall s z, In s ss -> limit_of o s = Some z -> y = Some z.
Proof.
  revert y. induction ss as [|s ss IH]; intros y H s' z I Z; [destruct I|]. cbn in H.
  destruct (common_limit o ss) as [x|] eqn:X; [|discriminate H]. cbn in H. destruct I as [<-|I].
  - rewrite Z in H. destruct x as [x|]; [destruct (range_eqb z x); [|discriminate H]|]; congruence.
  - rewrite (IH x eq_refl s' z I Z) in H. destruct (limit_of o s) as [w|]; [|congruence].
    destruct (range_eqb w z) eqn:E; [|discriminate H]. apply range_eqb_ok in E. congruence.
Qed.
Lemma common_limits_in obs ss d x r : common_limits obs ss = Ok d -> lookup String.eqb x d = Some r -> common_limit x ss = Ok (Some r).
Proof.
  revert d. induction obs as [|o obs IH]; intros d H L; cbn in H; [injection H as <-; discriminate L|].
  destruct (common_limit o ss) as [y|] eqn:Y; [|discriminate H]. cbn in H.
  destruct (common_limits obs ss) as [d'|] eqn:D; [|discriminate H]. cbn in H. destruct y as [y|]; [|discriminate H]. injection H as <-.
  cbn in L. destruct (String.eqb_spec x o) as [->|N]; [congruence|]. exact (IH d' eq_refl L).
Qed.
