(** Lemmas about the shared list primitives of Base.v *)
From Verif Require Import Base.

Definition eqb_spec {A} (eqb : A -> A -> bool) : Prop := forall x y, eqb x y = true <-> x = y.

Lemma string_eqb_ok : eqb_spec String.eqb.
Proof. intros x y. apply String.eqb_eq. Qed.
Lemma Z_eqb_ok : eqb_spec Z.eqb.
Proof. intros x y. apply Z.eqb_eq. Qed.
Lemma nat_eqb_ok : eqb_spec Nat.eqb.
Proof. intros x y. apply Nat.eqb_eq. Qed.
#[global] Hint Resolve string_eqb_ok Z_eqb_ok nat_eqb_ok : core.

Section Eqb.
Context {A : Type} (eqb : A -> A -> bool) (Heqb : eqb_spec eqb).

Lemma eqb_refl_ok x : eqb x x = true.
Proof. apply Heqb. reflexivity. Qed.

Lemma eqb_false x y : eqb x y = false <-> x <> y.
Proof.
  split.
  - intros H E. apply Heqb in E. congruence.
  - intros H. destruct (eqb x y) eqn:E; [|reflexivity]. apply Heqb in E. contradiction.
Qed.

Lemma eqb_In_dec x (l : list A) : In x l \/ ~ In x l.
Proof.
  induction l as [|y l IH]; [right; intros []|].
  destruct (eqb x y) eqn:E.
  - left. left. symmetry. apply Heqb. exact E.
  - apply eqb_false in E. destruct IH as [IH|IH]; [left; right; exact IH|].
    right. intros [H|H]; [congruence|contradiction].
Qed.

Lemma mem_In o l : mem eqb o l = true <-> In o l.
Proof.
  unfold mem. rewrite existsb_exists. split.
  - intros [x [Hx He]]. apply Heqb in He. subst. exact Hx.
  - intros H. exists o. split; [exact H|apply eqb_refl_ok].
Qed.

Lemma mem_false o l : mem eqb o l = false <-> ~ In o l.
Proof.
  rewrite <- mem_In. destruct (mem eqb o l); split; intros H; try congruence; try reflexivity.
Qed.

Lemma subsetb_incl a b : subsetb eqb a b = true <-> incl a b.
Proof.
  unfold subsetb, incl. rewrite forallb_forall. split; intros H x Hx.
  - apply mem_In, H, Hx.
  - apply mem_In, H, Hx.
Qed.

Lemma set_eqb_iff a b : set_eqb eqb a b = true <-> (forall x, In x a <-> In x b).
Proof.
  unfold set_eqb. rewrite andb_true_iff, !subsetb_incl. unfold incl. firstorder.
Qed.

Lemma intersectsb_iff a b : intersectsb eqb a b = true <-> exists x, In x a /\ In x b.
Proof.
  unfold intersectsb. rewrite existsb_exists. split; intros [x [H1 H2]]; exists x.
  - split; [exact H1|apply mem_In; exact H2].
  - split; [exact H1|apply mem_In; exact H2].
Qed.

Lemma index_of_nth o l k : index_of eqb o l = Some k -> nth_error l k = Some o.
Proof.
  revert k. induction l as [|x l IH]; intros k; simpl; [discriminate|].
  destruct (eqb o x) eqn:E.
  - intros H. inversion H; subst. simpl. apply Heqb in E. congruence.
  - destruct (index_of eqb o l) as [n|]; [|discriminate]. intros H. inversion H; subst. simpl. apply IH. reflexivity.
Qed.

Lemma index_of_none o l : index_of eqb o l = None <-> ~ In o l.
Proof.
  induction l as [|x l IH]; simpl; [split; [intros _ []|reflexivity]|].
  destruct (eqb o x) eqn:E.
  - apply Heqb in E. split; [discriminate|intros H; exfalso; apply H; left; congruence].
  - apply eqb_false in E. destruct (index_of eqb o l) as [n|].
    + split; [discriminate|]. intros H. exfalso.
      assert (Hn : ~ In o l) by (intros Hi; apply H; right; exact Hi).
      apply IH in Hn. discriminate.
    + split; [|reflexivity]. intros _ [H|H]; [congruence|]. apply IH in H; [exact H|reflexivity].
Qed.

Lemma index_of_in o l : In o l -> exists k, index_of eqb o l = Some k.
Proof.
  intros H. destruct (index_of eqb o l) as [k|] eqn:E; [exists k; reflexivity|].
  apply index_of_none in E. contradiction.
Qed.

Lemma index_of_lt o l k : index_of eqb o l = Some k -> k < length l.
Proof. intros H. apply index_of_nth in H. apply nth_error_Some. congruence. Qed.

Lemma nodup_index_of o l k : NoDup l -> nth_error l k = Some o -> index_of eqb o l = Some k.
Proof.
  intros Hnd Hk.
  destruct (index_of_in o l) as [j Hj]; [eapply nth_error_In; exact Hk|].
  rewrite Hj. f_equal. apply index_of_nth in Hj.
  rewrite NoDup_nth_error in Hnd. apply Hnd; [apply nth_error_Some; congruence|congruence].
Qed.

Lemma filter_mem_In o own req :
  In o (filter (fun x => mem eqb x own) req) <-> In o req /\ In o own.
Proof. rewrite filter_In, mem_In. reflexivity. Qed.

Lemma lookup_in {V} k (d : list (A * V)) v : lookup eqb k d = Some v -> In (k, v) d.
Proof.
  induction d as [|[k' v'] d IH]; simpl; [discriminate|].
  destruct (eqb k k') eqn:E.
  - intros H. inversion H; subst. left. apply Heqb in E. congruence.
  - intros H. right. apply IH, H.
Qed.

Lemma lookup_none {V} k (d : list (A * V)) : lookup eqb k d = None <-> ~ In k (map fst d).
Proof.
  induction d as [|[k' v'] d IH]; simpl; [split; [intros _ []|reflexivity]|].
  destruct (eqb k k') eqn:E.
  - apply Heqb in E. split; [discriminate|]. intros H. exfalso. apply H. left. congruence.
  - apply eqb_false in E. rewrite IH. split.
    + intros H [H'|H']; [congruence|contradiction].
    + intros H H'. apply H. right. exact H'.
Qed.

Lemma lookup_nodup {V} k (d : list (A * V)) v :
  NoDup (map fst d) -> (lookup eqb k d = Some v <-> In (k, v) d).
Proof.
  intros Hnd. split; [apply lookup_in|].
  induction d as [|[k' v'] d IH]; simpl; [intros []|].
  simpl in Hnd. inversion Hnd as [|? ? Hn Hnd']; subst.
  intros [H|H].
  - inversion H; subst. rewrite eqb_refl_ok. reflexivity.
  - destruct (eqb k k') eqn:E; [|apply IH; assumption].
    apply Heqb in E. subst. exfalso. apply Hn. apply in_map_iff. exists (k', v). split; [reflexivity|exact H].
Qed.

Lemma lookup_some_key {V} k (d : list (A * V)) : In k (map fst d) -> exists v, lookup eqb k d = Some v.
Proof.
  intros H. destruct (lookup eqb k d) as [v|] eqn:E; [exists v; reflexivity|].
  apply lookup_none in E. contradiction.
Qed.
End Eqb.

Lemma all_some_forall2 {A} (l : list (option A)) r :
  all_some l = Some r <-> Forall2 (fun o a => o = Some a) l r.
Proof.
  revert r. induction l as [|[a|] l IH]; intros r; simpl.
  - split; intros H; [inversion H; constructor|inversion H; reflexivity].
  - destruct (all_some l) as [r'|] eqn:E.
    + split; intros H.
      * inversion H; subst. constructor; [reflexivity|]. apply IH. reflexivity.
      * inversion H as [|? b ? r0 Hb Hr]; subst. inversion Hb; subst. apply IH in Hr. congruence.
    + split; [discriminate|]. intros H. inversion H as [|? b ? r0 Hb Hr]; subst. apply IH in Hr. discriminate.
  - split; [discriminate|]. intros H. inversion H as [|? b ? r0 Hb Hr]. discriminate.
Qed.

Lemma Forall2_map_l {A B C} (P : B -> C -> Prop) (f : A -> B) l r :
  Forall2 P (map f l) r <-> Forall2 (fun a c => P (f a) c) l r.
Proof.
  revert r. induction l as [|a l IH]; intros r; simpl.
  - split; intros H; inversion H; constructor.
  - split; intros H; inversion H; subst; constructor; try assumption; apply IH; assumption.
Qed.

Lemma Forall2_nth {A B} (P : A -> B -> Prop) l r :
  Forall2 P l r <-> length l = length r /\ forall k a b, nth_error l k = Some a -> nth_error r k = Some b -> P a b.
Proof.
  revert r. induction l as [|x l IH]; intros [|y r]; simpl.
  - split; [intros _; split; [reflexivity|intros [|k] a b Ha; discriminate]|constructor].
  - split; [intros H; inversion H|intros [H _]; discriminate].
  - split; [intros H; inversion H|intros [H _]; discriminate].
  - split.
    + intros H. inversion H as [|? ? ? ? Hxy Hr]; subst. apply IH in Hr. destruct Hr as [Hl Hk].
      split; [congruence|]. intros [|k] a b Ha Hb; simpl in *; [congruence|]. eapply Hk; eassumption.
    + intros [Hl Hk]. constructor; [apply (Hk 0); reflexivity|]. apply IH. split; [congruence|].
      intros k a b Ha Hb. apply (Hk (S k)); assumption.
Qed.

Lemma Forall2_length' {A B} (P : A -> B -> Prop) l r : Forall2 P l r -> length l = length r.
Proof. intros H. apply Forall2_nth in H. apply H. Qed.

Lemma gather_forall2 {A} (l : list A) idx r :
  gather l idx = Some r <-> Forall2 (fun i a => nth_error l i = Some a) idx r.
Proof. unfold gather. rewrite all_some_forall2, Forall2_map_l. reflexivity. Qed.

Lemma gather_total {A} (l : list A) idx :
  (forall i, In i idx -> i < length l) -> exists r, gather l idx = Some r.
Proof.
  induction idx as [|i idx IH]; intros H; [exists []; reflexivity|].
  unfold gather in *. simpl.
  assert (Hi : i < length l) by (apply H; left; reflexivity).
  destruct (nth_error l i) as [a|] eqn:E; [|apply nth_error_None in E; lia].
  destruct IH as [r Hr]; [intros j Hj; apply H; right; exact Hj|].
  rewrite Hr. exists (a :: r). reflexivity.
Qed.

Lemma gather_length {A} (l : list A) idx r : gather l idx = Some r -> length r = length idx.
Proof. intros H. apply gather_forall2, Forall2_length' in H. congruence. Qed.

Lemma gather_nth {A} (l : list A) idx r k i :
  gather l idx = Some r -> nth_error idx k = Some i -> nth_error r k = nth_error l i.
Proof.
  intros H Hk. pose proof (gather_length _ _ _ H) as Hl. apply gather_forall2 in H.
  apply Forall2_nth in H. destruct H as [_ H].
  destruct (nth_error r k) as [a|] eqn:E.
  - symmetry. eapply H; eassumption.
  - apply nth_error_None in E. assert (k < length idx) by (apply nth_error_Some; congruence). lia.
Qed.

Lemma nth_error_ext {A} (l r : list A) : (forall k, nth_error l k = nth_error r k) -> l = r.
Proof.
  revert r. induction l as [|a l IH]; intros [|b r] H.
  - reflexivity.
  - specialize (H 0). discriminate.
  - specialize (H 0). discriminate.
  - f_equal; [specialize (H 0); simpl in H; congruence|]. apply IH. intros k. apply (H (S k)).
Qed.

Lemma mapM_ok {A B} (f : A -> result B) l r :
  mapM f l = Ok r <-> Forall2 (fun a b => f a = Ok b) l r.
Proof.
  revert r. induction l as [|a l IH]; intros r; simpl.
  - split; intros H; inversion H; constructor.
  - destruct (f a) as [b|e] eqn:E; simpl.
    + destruct (mapM f l) as [bs|e] eqn:E2; simpl.
      * split; intros H.
        -- inversion H; subst. constructor; [exact E|apply IH; reflexivity].
        -- inversion H as [|? ? ? ? Hb Hr]; subst. apply IH in Hr. congruence.
      * split; [discriminate|]. intros H. inversion H as [|? ? ? ? Hb Hr]; subst. apply IH in Hr. discriminate.
    + split; [discriminate|]. intros H. inversion H as [|? ? ? ? Hb Hr]; subst. congruence.
Qed.
