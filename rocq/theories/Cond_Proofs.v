(** Proofs about conditional PDFs. *)
From Verif Require Import Base BaseLemmas Cond_Model Cond_Spec.
From Coq Require Import Lqa.
#[local] Open Scope nat_scope.

Lemma unique_In l o : In o (unique l) <-> In o l.
Proof.
  induction l as [|a l IH]; cbn; [tauto|]. rewrite filter_In, IH. split.
  - intros [->|[H _]]; auto.
  - intros [->|H]; [auto|]. destruct (String.eqb a o) eqn:E; [apply String.eqb_eq in E; auto|]. right. auto.
Qed.
Lemma unique_NoDup l : NoDup (unique l).
Proof.
  induction l as [|a l IH]; cbn; constructor.
  - rewrite filter_In. intros [_ H]. rewrite String.eqb_refl in H. discriminate.
  - apply NoDup_filter. exact IH.
Qed.
Lemma filter_all {A} (f : A -> bool) l : (forall x, In x l -> f x = true) -> filter f l = l.
Proof. induction l as [|a l IH]; cbn; intros H; [reflexivity|]. rewrite (H a) by auto. f_equal. apply IH. auto. Qed.
Lemma unique_app a b : NoDup a -> exists r, unique (a ++ b) = a ++ r.
Proof.
  induction a as [|x a IH]; cbn; intros N; [eauto|]. inversion N as [|? ? NI N']; subst. destruct (IH N') as (r&E).
  exists (filter (fun y => negb (String.eqb x y)) r). rewrite E, filter_app, filter_all; [reflexivity|].
  intros y Y. destruct (String.eqb x y) eqn:Q; [|reflexivity]. apply String.eqb_eq in Q. subst y. contradiction.
Qed.
Lemma unique_fix a : NoDup a -> unique a = a.
Proof.
  induction a as [|x a IH]; cbn; intros N; [reflexivity|]. inversion N as [|? ? NI N']; subst. rewrite (IH N'), filter_all; [reflexivity|].
  intros y Y. destruct (String.eqb x y) eqn:Q; [|reflexivity]. apply String.eqb_eq in Q. subst y. contradiction.
Qed.

(** ** Assignments *)
Lemma assign_same s p v : assign s p v p = v.
Proof. unfold assign. now rewrite String.eqb_refl. Qed.
Lemma assign_other s p v q : q <> p -> assign s p v q = s q.
Proof. unfold assign. intros H. destruct (String.eqb q p) eqn:E; [apply String.eqb_eq in E; contradiction|reflexivity]. Qed.

Lemma assign_row_get idx row : NoDup (map fst idx) -> forall s p,
  assign_row idx row s p = match lookup String.eqb p idx with Some k => nth k row 0%Q | None => s p end.
Proof.
  unfold assign_row. induction idx as [|[q k] idx IH]; intros N s p; [reflexivity|]. cbn [fold_left fst snd lookup].
  inversion N as [|? ? NI N']; subst. rewrite (IH N').
  destruct (String.eqb p q) eqn:E.
  - apply String.eqb_eq in E. subst q. cbn in NI. rewrite (proj2 (lookup_none _ string_eqb_ok _ _) NI). apply assign_same.
  - destruct (lookup String.eqb p idx) eqn:L; [reflexivity|]. apply assign_other. intros ->. now rewrite String.eqb_refl in E.
Qed.
Lemma set_to_get_gen lims old l s p : fold_left (fun s q => assign s q (visible lims old q)) l s p =
  if mem String.eqb p l then visible lims old p else s p.
Proof.
  revert s. induction l as [|q l IH]; intros s; [reflexivity|]. cbn [fold_left]. rewrite IH. unfold mem. cbn [existsb].
  fold (mem String.eqb p l). destruct (mem String.eqb p l); [now rewrite orb_true_r|]. rewrite orb_false_r. unfold assign.
  destruct (String.eqb p q) eqn:E; [|reflexivity]. apply String.eqb_eq in E. now subst q.
Qed.
Lemma set_to_get C lims old s p : set_to C lims old s p = if mem String.eqb p (map fst (c_cond C)) then visible lims old p else s p.
Proof. apply set_to_get_gen. Qed.

(** ** Sorting of the data and the indices *)
Lemma indices_ok C cs : (forall p l, In (p, l) (c_cond C) -> l <> []) ->
  (forall p o r, In (p, o :: r) (c_cond C) -> In o cs) ->
  exists idx, indices C cs = Ok idx /\ map fst idx = map fst (c_cond C) /\
    forall p, match lookup String.eqb p (c_cond C), lookup String.eqb p idx with
              | Some (o :: _), Some k => index_of String.eqb o cs = Some k
              | None, None => True
              | _, _ => False
              end.
Proof.
  unfold indices. induction (c_cond C) as [|[q l] c IH]; intros NE IN.
  - exists []. repeat split. 
  - destruct IH as (idx&E&M&L); [intros; eapply NE; right; eauto|intros; eapply IN; right; eauto|].
    destruct l as [|o r]; [exfalso; apply (NE q []); [now left|reflexivity]|].
    destruct (index_of_in _ string_eqb_ok o cs (IN q o r (or_introl eq_refl))) as (k&K).
    exists ((q, k) :: idx). cbn [mapM snd fst]. rewrite K. cbn [opt_result bind]. rewrite E. cbn [bind]. split; [reflexivity|].
    split; [cbn; now rewrite M|]. intros p. cbn [lookup]. destruct (String.eqb p q); [exact K|apply L].
Qed.

Lemma column_sorted d cs row o k : index_of String.eqb o cs = Some k ->
  nth k (map (fun o => column d o row) cs) 0%Q = column d o row.
Proof.
  intros H. apply (index_of_nth _ string_eqb_ok) in H. apply nth_error_nth. erewrite map_nth_error; [reflexivity|exact H].
Qed.

Lemma observable_lookup C p : observable_of C p = match lookup String.eqb p (c_cond C) with Some (o :: _) => Some o | _ => None end.
Proof. reflexivity. Qed.

(** The values of the parameters after the assignments of a row. *)
Lemma assigned C d cs idx row s p : map fst idx = map fst (c_cond C) -> NoDup (map fst (c_cond C)) ->
  (forall p, match lookup String.eqb p (c_cond C), lookup String.eqb p idx with
             | Some (o :: _), Some k => index_of String.eqb o cs = Some k
             | None, None => True
             | _, _ => False
             end) ->
  assign_row idx (map (fun o => column d o row) cs) s p =
  match observable_of C p with Some o => column d o row | None => s p end.
Proof.
  intros M N L. rewrite assign_row_get by (rewrite M; exact N). specialize (L p). unfold observable_of.
  destruct (lookup String.eqb p (c_cond C)) as [[|o r]|], (lookup String.eqb p idx) as [k|]; try contradiction; [|reflexivity].
  now apply column_sorted.
Qed.

Lemma conditional_iff C p : (forall p l, In (p, l) (c_cond C) -> l <> []) ->
  mem String.eqb p (map fst (c_cond C)) = match observable_of C p with Some _ => true | None => false end.
Proof.
  intros NE. unfold observable_of. destruct (lookup String.eqb p (c_cond C)) as [[|o r]|] eqn:L.
  - exfalso. apply (NE p []); [|reflexivity]. apply (lookup_in _ string_eqb_ok). exact L.
  - apply (mem_In _ string_eqb_ok). apply (lookup_in _ string_eqb_ok) in L. apply (in_map fst) in L. exact L.
  - apply (mem_false _ string_eqb_ok). apply (lookup_none _ string_eqb_ok). exact L.
Qed.

(** ** Over the rows *)
Definition only_conditional C (a b : store) : Prop := forall p, observable_of C p = None -> a p = b p.

Lemma map_rows_spec {B} C (f : nat -> store -> list Q -> store * result B) (g : nat -> list Q -> result B) s0 :
  (forall i s row, only_conditional C s s0 -> only_conditional C (fst (f i s row)) s0 /\ snd (f i s row) = g i row) ->
  forall l i s, only_conditional C s s0 ->
  only_conditional C (fst (map_rows f i s l)) s0 /\
  snd (map_rows f i s l) = mapM (fun ir => g (fst ir) (snd ir)) (combine (seq i (length l)) l).
Proof.
  intros F. induction l as [|row l IH]; intros i s O; [split; [exact O|reflexivity]|].
  cbn [map_rows length seq combine mapM fst snd]. destruct (F i s row O) as [A B0]. destruct (f i s row) as [s1 [b|e]]; cbn [fst snd] in *.
  - rewrite <- B0. cbn [bind]. destruct (IH (S i) s1 A) as [A2 B2]. destruct (map_rows f (S i) s1 l) as [s2 r]. cbn [fst snd] in *.
    split; [exact A2|]. now rewrite B2.
  - rewrite <- B0. split; [exact A|reflexivity].
Qed.
Lemma mapM_ext {A B} (f g : A -> result B) l : (forall a, In a l -> f a = g a) -> mapM f l = mapM g l.
Proof. induction l as [|a l IH]; cbn; intros H; [reflexivity|]. rewrite (H a) by auto. rewrite IH by auto. reflexivity. Qed.
Lemma mapM_map {A B D} (f : B -> result D) (g : A -> B) l : mapM f (map g l) = mapM (fun a => f (g a)) l.
Proof. induction l as [|a l IH]; cbn; [reflexivity|]. now rewrite IH. Qed.
Lemma mapM_index {A B} (f : A -> result B) l : forall i, mapM (fun ir => f (snd ir)) (combine (seq i (length l)) l) = mapM f l.
Proof. induction l as [|a l IH]; intros i; [reflexivity|]. cbn. now rewrite IH. Qed.
Lemma combine_map_r {A B} (f : A -> B) l : forall i, combine (seq i (length l)) (map f l) = map (fun ir => (fst ir, f (snd ir))) (combine (seq i (length l)) l).
Proof. induction l as [|a l IH]; intros i; [reflexivity|]. cbn. now rewrite IH. Qed.

Lemma clip_between l v : between l v -> clip l v = v.
Proof.
  destruct l as [[a|] [b|]]; unfold between, clip; cbn; intros [A B0]; repeat
    match goal with H : (?x <= ?y)%Q |- _ => rewrite (proj2 (Qle_bool_iff x y) H); clear H end; reflexivity.
Qed.
Lemma clip_clip l v : clip l (clip l v) = clip l v.
Proof.
  destruct l as [[a|] [b|]]; unfold clip; cbn; try reflexivity.
  - destruct (Qle_bool a v) eqn:A; [|].
    + destruct (Qle_bool v b) eqn:B0; [rewrite A, B0; reflexivity|]. destruct (Qle_bool a b) eqn:AB.
      * destruct (Qle_bool b b) eqn:BB; [reflexivity|]. exfalso. assert (~ (b <= b)%Q) by (rewrite <- Qle_bool_iff; congruence). lra.
      * destruct (Qle_bool a b); [discriminate|]. reflexivity.
    + destruct (Qle_bool a b) eqn:AB.
      * destruct (Qle_bool a a) eqn:AA; [rewrite AB; reflexivity|]. exfalso. assert (~ (a <= a)%Q) by (rewrite <- Qle_bool_iff; congruence). lra.
      * rewrite AB. rewrite AB. reflexivity.
  - destruct (Qle_bool a v) eqn:A; [rewrite A; reflexivity|]. destruct (Qle_bool a a); reflexivity.
  - destruct (Qle_bool v b) eqn:A; [rewrite A; reflexivity|]. destruct (Qle_bool b b); reflexivity.
Qed.
