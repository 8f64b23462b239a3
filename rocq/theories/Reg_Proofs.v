(** Proofs about the registry of analytic integrals. *)
From Verif Require Import Base BaseLemmas Reg_Model Reg_Spec.
From Coq Require Import Permutation Lqa Lia.
#[local] Open Scope nat_scope.

Lemma axes_eqb : forall a b, set_eqb Nat.eqb a b = true <-> (forall x, In x a <-> In x b).
Proof. intros. apply (set_eqb_iff Nat.eqb nat_eqb_ok). Qed.
Lemma axes_eqb_refl : forall a, set_eqb Nat.eqb a a = true.
Proof. intro a. apply axes_eqb. tauto. Qed.
Lemma axes_eqb_sym : forall a b, set_eqb Nat.eqb a b = set_eqb Nat.eqb b a.
Proof.
  intros a b. destruct (set_eqb Nat.eqb b a) eqn:E.
  - apply axes_eqb. rewrite axes_eqb in E. firstorder.
  - destruct (set_eqb Nat.eqb a b) eqn:E'; [|reflexivity]. rewrite <- E. symmetry. apply axes_eqb. rewrite axes_eqb in E'. firstorder.
Qed.
Lemma axes_eqb_trans : forall a b c, set_eqb Nat.eqb a b = true -> set_eqb Nat.eqb b c = set_eqb Nat.eqb a c.
Proof.
  intros a b c H. rewrite axes_eqb in H.
  destruct (set_eqb Nat.eqb b c) eqn:E.
  - symmetry. apply axes_eqb. rewrite axes_eqb in E. firstorder.
  - destruct (set_eqb Nat.eqb a c) eqn:E'; [|reflexivity]. rewrite <- E. apply axes_eqb. rewrite axes_eqb in E'. firstorder.
Qed.

(** ** Boxes *)
Lemma bounds_at_in : forall b a iv, box_ok b -> (bounds_at b a = Some iv <-> In (a, iv) b).
Proof.
  intros b a iv H. unfold bounds_at. induction b as [|[a0 iv0] b IH]; simpl.
  - split; [discriminate|tauto].
  - inversion H as [|? ? Hn Hd]; subst. simpl in Hn. destruct (Nat.eqb_spec a0 a) as [->|Hne]; simpl.
    + split.
      * intro E. injection E as ->. auto.
      * intros [E|E]; [congruence|]. exfalso. apply Hn. apply in_map_iff. exists (a, iv). auto.
    + rewrite (IH Hd). split; [auto|]. intros [E|E]; [congruence|exact E].
Qed.
Lemma bounds_at_some : forall b a, In a (map fst b) -> exists iv, bounds_at b a = Some iv.
Proof.
  intros b a H. unfold bounds_at. destruct (find _ b) eqn:E; [eexists; reflexivity|].
  apply in_map_iff in H. destruct H as [p [Ep Hp]]. apply find_none with (x := p) in E; [|exact Hp].
  simpl in E. rewrite Ep, Nat.eqb_refl in E. discriminate E.
Qed.

Lemma on_axes_iff : forall cmp b1 b2, box_ok b2 ->
  (on_axes cmp b1 b2 = true <->
   same_axes b1 b2 /\ forall a i j, In (a, i) b1 -> In (a, j) b2 -> cmp i j = true).
Proof.
  intros cmp b1 b2 H2. unfold on_axes. rewrite andb_true_iff, axes_eqb, forallb_forall. unfold same_axes, axes_of. split.
  - intros [Hs H]. split; [exact Hs|]. intros a i j Hi Hj. specialize (H (a, i) Hi). simpl in H.
    apply (bounds_at_in b2 a j H2) in Hj. rewrite Hj in H. exact H.
  - intros [Hs H]. split; [exact Hs|]. intros [a i] Hi. simpl.
    destruct (bounds_at_some b2 a) as [iv Eiv]. { apply Hs. apply in_map_iff. exists (a, i). auto. }
    rewrite Eiv. apply (H a i iv Hi). apply bounds_at_in; auto.
Qed.

Lemma bound_le_iff : forall x y, bound_le x y = true <-> allows_bound x y.
Proof. intros [|a] [|b]; simpl; try tauto. apply Qle_bool_iff. Qed.

Lemma box_le_iff : forall req reg, box_ok reg -> (box_le req reg = true <-> allows req reg).
Proof.
  intros req reg H. unfold box_le, allows. rewrite on_axes_iff by exact H. split; intros [Hs Hc]; (split; [exact Hs|]).
  - intros a lo up lo' up' Hi Hj. specialize (Hc a _ _ Hi Hj). simpl in Hc. apply andb_true_iff in Hc.
    rewrite !bound_le_iff in Hc. exact Hc.
  - intros a [lo up] [lo' up'] Hi Hj. simpl. apply andb_true_iff. rewrite !bound_le_iff. apply (Hc a lo up lo' up' Hi Hj).
Qed.

Lemma far_not_close : forall x y, far x y -> bound_close x y = false.
Proof.
  intros [|a] [|b]; simpl; try tauto. intro H. destruct (Qle_bool _ _) eqn:E; [|reflexivity].
  apply Qle_bool_iff in E. exfalso. revert E. apply Qlt_not_le. exact H.
Qed.
Lemma far_not_near : forall x y, far x y -> bound_near x y = false.
Proof.
  intros [|a] [|b]; simpl; try tauto. intro H. unfold Qlt_bool'. apply negb_false_iff. apply Qle_bool_iff.
  assert (0 <= Qabs' b)%Q.
  { unfold Qabs'. destruct (Qle_bool 0 b) eqn:E; [apply Qle_bool_iff, E|].
    assert (~ (0 <= b)%Q) by (rewrite <- Qle_bool_iff; congruence). lra. }
  apply Qlt_le_weak in H. eapply Qle_trans; [|exact H]. nra.
Qed.
Lemma told_apart_neq : forall b1 b2, box_ok b2 -> told_apart b1 b2 -> box_eq b1 b2 = false.
Proof.
  intros b1 b2 H2 H. unfold box_eq.
  assert (G : forall cmp, (forall i j, (far (fst i) (fst j) \/ far (snd i) (snd j)) -> cmp i j = false) -> on_axes cmp b1 b2 = false).
  { intros cmp Hcmp. destruct (on_axes cmp b1 b2) eqn:E; [|reflexivity]. apply (on_axes_iff cmp b1 b2 H2) in E.
    destruct E as [Hs Hc]. destruct H as [H|[a [lo [up [lo' [up' [Hi [Hj Hf]]]]]]]]; [contradiction|].
    specialize (Hc a _ _ Hi Hj). rewrite (Hcmp (lo, up) (lo', up') Hf) in Hc. discriminate Hc. }
  destruct (has_any b1 || has_any b2); apply G; intros i j [Hf|Hf].
  - rewrite (far_not_close _ _ Hf). reflexivity.
  - rewrite (far_not_close _ _ Hf). apply andb_false_r.
  - rewrite (far_not_near _ _ Hf). reflexivity.
  - rewrite (far_not_near _ _ Hf). apply andb_false_r.
Qed.
Lemma box_eq_axes : forall b1 b2, box_eq b1 b2 = true -> set_eqb Nat.eqb (axes_of b1) (axes_of b2) = true.
Proof.
  intros b1 b2 H. unfold box_eq, on_axes in H. destruct (has_any b1 || has_any b2); apply andb_true_iff in H; tauto.
Qed.

(** ** Slots *)
Definition keys_apart (s : slot) : Prop :=
  forall n m k k', n < m -> nth_error (map fst s) n = Some k -> nth_error (map fst s) m = Some k' -> box_eq k k' = false.
Lemma keys_apart_tail : forall p s, keys_apart (p :: s) -> keys_apart s.
Proof. intros p s H n m k k' Hnm Hn Hm. apply (H (S n) (S m)); [lia|exact Hn|exact Hm]. Qed.

Lemma slot_set_keys : forall s k i, map fst (slot_set s k i) = map fst s \/
  (map fst (slot_set s k i) = map fst s ++ [k] /\ forall k0, In k0 (map fst s) -> box_eq k0 k = false).
Proof.
  induction s as [|[k0 i0] s IH]; intros k i; simpl.
  - right. split; [reflexivity|]. tauto.
  - destruct (box_eq k0 k) eqn:E; simpl; [auto|]. destruct (IH k i) as [H|[H H']].
    + left. rewrite H. reflexivity.
    + right. rewrite H. split; [reflexivity|]. intros k1 [<-|Hk]; auto.
Qed.
Lemma slot_set_apart : forall s k i, keys_apart s -> keys_apart (slot_set s k i).
Proof.
  intros s k i H n m k1 k2 Hnm Hn Hm. destruct (slot_set_keys s k i) as [E|[E Hk]]; rewrite E in Hn, Hm.
  - apply (H n m); auto.
  - assert (Lm : m < length (map fst s ++ [k])) by (apply nth_error_Some; congruence).
    rewrite app_length in Lm. simpl in Lm.
    rewrite nth_error_app1 in Hn by lia. destruct (Nat.eq_dec m (length (map fst s))) as [->|Hne].
    + rewrite nth_error_app2, Nat.sub_diag in Hm by lia. injection Hm as <-. apply Hk. eapply nth_error_In, Hn.
    + rewrite nth_error_app1 in Hm by lia. apply (H n m); auto.
Qed.
Lemma slot_set_values : forall s k i v, In v (map snd (slot_set s k i)) -> v = i \/ In v (map snd s).
Proof.
  induction s as [|[k0 i0] s IH]; intros k i v; simpl; [intuition|].
  destruct (box_eq k0 k); simpl; [intuition|]. intros [H|H]; [auto|]. destruct (IH k i v H); auto.
Qed.
Lemma slot_set_has : forall s k i, In i (map snd (slot_set s k i)).
Proof. induction s as [|[k0 i0] s IH]; intros k i; simpl; [auto|]. destruct (box_eq k0 k); simpl; auto. Qed.
Lemma slot_set_fresh : forall s k i, (forall k0, In k0 (map fst s) -> box_eq k0 k = false) -> slot_set s k i = s ++ [(k, i)].
Proof.
  induction s as [|[k0 i0] s IH]; intros k i H; simpl; [reflexivity|].
  rewrite (H k0) by (simpl; auto). rewrite IH; [reflexivity|]. intros k1 Hk. apply H. simpl. auto.
Qed.

Lemma slot_get_own : forall s n k i, keys_apart s -> nth_error s n = Some (k, i) -> slot_get s n k = Some i.
Proof.
  induction s as [|[k0 i0] s IH]; intros [|n] k i H E; simpl in E; try discriminate E.
  - injection E as <- <-. reflexivity.
  - simpl. rewrite (H 0 (S n) k0 k).
    + apply IH; [eapply keys_apart_tail, H|exact E].
    + lia.
    + reflexivity.
    + simpl. rewrite nth_error_map, E. reflexivity.
Qed.

Lemma combine_seq_in : forall {A} (l : list A) b n x, In (n, x) (combine (seq b (length l)) l) -> b <= n /\ nth_error l (n - b) = Some x.
Proof.
  intros A l. induction l as [|y l IH]; intros b n x H; simpl in H; [contradiction|].
  destruct H as [H|H].
  - injection H as <- <-. split; [lia|]. rewrite Nat.sub_diag. reflexivity.
  - destruct (IH (S b) n x H) as [H1 H2]. split; [lia|]. replace (n - b) with (S (n - S b)) by lia. exact H2.
Qed.

(** The integrals of a slot that are found for a request are those whose limits allow it. *)
Lemma flat_map_own : forall s (req : box) l,
  (forall n p, In (n, p) l -> nth_error s n = Some p) -> keys_apart s ->
  flat_map (fun m => match slot_get s (fst m) (snd m) with Some i => [i] | None => [] end)
    (map (fun p => (fst p, fst (snd p))) (filter (fun p => box_le req (i_limits (snd (snd p)))) l))
  = filter (fun i => box_le req (i_limits i)) (map (fun p => snd (snd p)) l).
Proof.
  intros s req l Hl Hk. induction l as [|[n [k i]] l IH]; [reflexivity|].
  cbn [filter map fst snd]. destruct (box_le req (i_limits i)) eqn:E.
  - cbn [map flat_map fst snd]. rewrite (slot_get_own s n k i Hk) by (apply Hl; simpl; auto). cbn [app]. f_equal.
    apply IH. intros n' p' H'. apply Hl. simpl. auto.
  - apply IH. intros n' p' H'. apply Hl. simpl. auto.
Qed.
Lemma combine_seq_snd : forall {A B} (f : A -> B) (l : list A) b, map (fun p => f (snd p)) (combine (seq b (length l)) l) = map f l.
Proof. intros A B f l. induction l as [|x l IH]; intro b; simpl; [reflexivity|]. rewrite IH. reflexivity. Qed.
Definition allowed (s : slot) (req : box) : list integral := filter (fun i => box_le req (i_limits i)) (map snd s).
Lemma matched_ok : forall s req, keys_apart s ->
  flat_map (fun m => match slot_get s (fst m) (snd m) with Some i => [i] | None => [] end) (matched s req) = allowed s req.
Proof.
  intros s req H. unfold matched. rewrite flat_map_own; [|..].
  - rewrite (combine_seq_snd snd). reflexivity.
  - intros n p Hp. apply combine_seq_in in Hp. rewrite Nat.sub_0_r in Hp. tauto.
  - exact H.
Qed.
Lemma matched_nil : forall s req, matched s req = [] <-> allowed s req = [].
Proof.
  intros s req. unfold matched, allowed. rewrite <- (combine_seq_snd snd s 0).
  generalize (combine (seq 0 (length s)) s). intro l. induction l as [|[n [k i]] l IH]; simpl; [tauto|].
  destruct (box_le req (i_limits i)); simpl; [split; discriminate|exact IH].
Qed.

(** ** The registry *)
Definition slot_for (reg : registry) (ax : list nat) : slot :=
  match find (fun p => set_eqb Nat.eqb (fst p) ax) reg with Some p => snd p | None => [] end.
Definition reg_ok (reg : registry) : Prop :=
  (forall ax s, In (ax, s) reg -> keys_apart s /\ forall i, In i (map snd s) -> set_eqb Nat.eqb ax (axes_of (i_limits i)) = true) /\
  (forall n m p q, n < m -> nth_error reg n = Some p -> nth_error reg m = Some q -> set_eqb Nat.eqb (fst p) (fst q) = false).

Lemma register_slot : forall reg i ax,
  slot_for (register reg i) ax =
  if set_eqb Nat.eqb (axes_of (i_limits i)) ax then slot_set (slot_for reg ax) (i_limits i) i else slot_for reg ax.
Proof.
  intros reg i ax. unfold slot_for. induction reg as [|[ax0 s] reg IH].
  - simpl. destruct (set_eqb Nat.eqb (axes_of (i_limits i)) ax); reflexivity.
  - cbn [register]. destruct (set_eqb Nat.eqb ax0 (axes_of (i_limits i))) eqn:E.
    + cbn [find fst snd]. rewrite (axes_eqb_trans _ _ ax E). destruct (set_eqb Nat.eqb ax0 ax) eqn:E'; reflexivity.
    + cbn [find fst snd]. destruct (set_eqb Nat.eqb ax0 ax) eqn:E'.
      * rewrite (axes_eqb_sym (axes_of (i_limits i)) ax), (axes_eqb_trans _ _ _ E'), E. reflexivity.
      * exact IH.
Qed.
Lemma keys_apart_nil : keys_apart [].
Proof. intros n m k k' _ Hn _. destruct n; discriminate Hn. Qed.
Lemma keys_apart_single : forall p, keys_apart [p].
Proof. intros p n m k k' Hnm Hn Hm. destruct m as [|[|m]]; [lia| |]; discriminate Hm. Qed.

Lemma register_axes : forall reg i q, In q (register reg i) ->
  (exists s, In (fst q, s) reg) \/ (fst q = axes_of (i_limits i) /\ forall p, In p reg -> set_eqb Nat.eqb (fst p) (axes_of (i_limits i)) = false).
Proof.
  induction reg as [|[ax s] reg IH]; intros i q H.
  - simpl in H. destruct H as [<-|[]]. right. simpl. split; [reflexivity|]. tauto.
  - cbn [register] in H. destruct (set_eqb Nat.eqb ax (axes_of (i_limits i))) eqn:E.
    + left. destruct H as [<-|H]; [exists s; simpl; auto|]. exists (snd q). simpl. destruct q. auto.
    + destruct H as [<-|H]; [left; exists s; simpl; auto|].
      destruct (IH i q H) as [[s' H']|[H1 H2]].
      * left. exists s'. simpl. auto.
      * right. split; [exact H1|]. intros p [<-|Hp]; [exact E|auto].
Qed.
Lemma register_ok : forall reg i, reg_ok reg -> reg_ok (register reg i).
Proof.
  induction reg as [|[ax s] reg IH]; intros i [H1 H2].
  - simpl. split.
    + intros ax s [E|[]]. injection E as <- <-. split; [apply keys_apart_single|]. simpl. intros j [<-|[]]. apply axes_eqb_refl.
    + intros n m p q Hnm Hp Hq. destruct m as [|[|m]]; [lia| |]; discriminate Hq.
  - assert (H' : reg_ok reg).
    { split; [intros ax' s' Hin; apply H1; simpl; auto|]. intros n m p q Hnm Hp Hq. apply (H2 (S n) (S m)); [lia|exact Hp|exact Hq]. }
    destruct (H1 ax s (or_introl eq_refl)) as [Hk Ha].
    cbn [register]. destruct (set_eqb Nat.eqb ax (axes_of (i_limits i))) eqn:E.
    + split.
      * intros ax' s' [Hin|Hin]; [|apply H1; simpl; auto]. injection Hin as <- <-. split; [apply slot_set_apart, Hk|].
        intros j Hj. apply slot_set_values in Hj. destruct Hj as [->|Hj]; auto.
      * intros [|n] m p q Hnm Hp Hq; (destruct m as [|m]; [lia|]); simpl in Hp, Hq.
        -- injection Hp as <-. apply (H2 0 (S m) (ax, s) q); [lia|reflexivity|exact Hq].
        -- apply (H2 (S n) (S m)); [lia|exact Hp|exact Hq].
    + specialize (IH i H'). destruct IH as [I1 I2]. split.
      * intros ax' s' [Hin|Hin]; [injection Hin as <- <-; auto|]. apply I1, Hin.
      * intros [|n] m p q Hnm Hp Hq; (destruct m as [|m]; [lia|]); simpl in Hp, Hq.
        -- injection Hp as <-. simpl. apply nth_error_In in Hq. destruct (register_axes _ _ _ Hq) as [[s' Hs]|[Hs _]].
           ++ apply In_nth_error in Hs. destruct Hs as [k Hk']. apply (H2 0 (S k) (ax, s) (fst q, s')); [lia|reflexivity|exact Hk'].
           ++ rewrite Hs. exact E.
        -- apply (I2 n m); [lia|exact Hp|exact Hq].
Qed.
Lemma register_all_snoc : forall h i, register_all (h ++ [i]) = register (register_all h) i.
Proof. intros h i. unfold register_all. apply fold_left_app. Qed.
Lemma register_all_ok : forall h, reg_ok (register_all h).
Proof.
  induction h as [|i h IH] using rev_ind.
  - split; [intros ax s []|]. intros n m p q _ Hp. destruct n; discriminate Hp.
  - rewrite register_all_snoc. apply register_ok, IH.
Qed.

(** ** Looking up *)
Lemma insert_len_perm : forall x l, Permutation (x :: l) (insert_len x l).
Proof.
  intros x l. induction l as [|y l IH]; simpl; [reflexivity|].
  destruct (Nat.leb _ _); [reflexivity|]. rewrite perm_swap. constructor. exact IH.
Qed.
Lemma by_length_perm : forall reg, Permutation reg (by_length reg).
Proof.
  intro reg. induction reg as [|x reg IH]; simpl; [reflexivity|].
  etransitivity; [|apply insert_len_perm]. constructor. exact IH.
Qed.
Lemma first_match_other : forall l req,
  (forall p, In p l -> set_eqb Nat.eqb (fst p) (axes_of req) = false) ->
  (forall ax s, In (ax, s) l -> forall i, In i (map snd s) -> set_eqb Nat.eqb ax (axes_of (i_limits i)) = true) ->
  first_match l req = [].
Proof.
  induction l as [|[ax s] l IH]; intros req Hn Ha; simpl; [reflexivity|].
  assert (E : matched s req = []).
  { apply matched_nil. unfold allowed. assert (Hs := Ha ax s (or_introl eq_refl)).
    induction (map snd s) as [|i is IHi]; simpl; [reflexivity|].
    destruct (box_le req (i_limits i)) eqn:El.
    - exfalso. unfold box_le, on_axes in El. apply andb_true_iff in El. destruct El as [El _].
      assert (Hx := Hs i (or_introl eq_refl)). assert (Hy := Hn (ax, s) (or_introl eq_refl)). simpl in Hy.
      rewrite axes_eqb_sym in El. rewrite (axes_eqb_trans _ _ (axes_of req) Hx) in El. congruence.
    - apply IHi. intros j Hj. apply Hs. simpl. auto. }
  rewrite E. apply IH.
  - intros p Hp. apply Hn. simpl. auto.
  - intros ax' s' H'. apply Ha. simpl. auto.
Qed.

Lemma first_match_ok : forall l req, NoDup l ->
  (forall ax s, In (ax, s) l -> keys_apart s /\ forall i, In i (map snd s) -> set_eqb Nat.eqb ax (axes_of (i_limits i)) = true) ->
  (forall p q, In p l -> In q l -> set_eqb Nat.eqb (fst p) (axes_of req) = true -> set_eqb Nat.eqb (fst q) (axes_of req) = true -> p = q) ->
  first_match l req = allowed (slot_for l (axes_of req)) req.
Proof.
  induction l as [|[ax s] l IH]; intros req Hd Hok Hu; [reflexivity|].
  inversion Hd as [|? ? Hn Hd']; subst.
  assert (Hok' : forall ax s, In (ax, s) l -> keys_apart s /\ forall i, In i (map snd s) -> set_eqb Nat.eqb ax (axes_of (i_limits i)) = true)
    by (intros ax' s' H'; apply Hok; simpl; auto).
  destruct (Hok ax s (or_introl eq_refl)) as [Hk Ha].
  destruct (set_eqb Nat.eqb ax (axes_of req)) eqn:E.
  - unfold slot_for. cbn [find fst]. rewrite E. cbn [snd first_match].
    destruct (matched s req) as [|m ms] eqn:Em.
    + rewrite (proj1 (matched_nil s req) Em). apply first_match_other.
      * intros p Hp. destruct (set_eqb Nat.eqb (fst p) (axes_of req)) eqn:Ep; [|reflexivity].
        exfalso. apply Hn. rewrite (Hu (ax, s) p); simpl; auto.
      * intros ax' s' H'. apply (Hok' ax' s' H').
    + rewrite <- Em. apply matched_ok, Hk.
  - unfold slot_for. cbn [find fst]. rewrite E. fold (slot_for l (axes_of req)).
    cbn [first_match]. assert (Em : matched s req = []).
    { assert (O := first_match_other [(ax, s)] req). cbn [first_match] in O.
      destruct (matched s req) as [|m ms] eqn:Em; [reflexivity|exfalso].
      assert (Hm : allowed s req <> []) by (intro Q; apply matched_nil in Q; congruence). apply Hm.
      rewrite <- (matched_ok s req Hk), Em. apply O.
      - intros p [<-|[]]. exact E.
      - intros ax' s' [H'|[]]. injection H' as <- <-. exact Ha. }
    rewrite Em. apply IH; auto. intros p q Hp Hq. apply Hu; simpl; auto.
Qed.

Lemma reg_ok_nodup : forall reg, reg_ok reg -> NoDup reg.
Proof.
  intros reg [_ H]. apply NoDup_nth_error. intros n m Hn E.
  destruct (Nat.lt_trichotomy n m) as [L|[L|L]]; [|exact L|].
  - destruct (nth_error reg n) as [p|] eqn:En; [|apply nth_error_Some in Hn; congruence].
    assert (X := H n m p p L En (eq_sym E)). rewrite axes_eqb_refl in X. discriminate X.
  - destruct (nth_error reg n) as [p|] eqn:En; [|apply nth_error_Some in Hn; congruence].
    assert (X := H m n p p L (eq_sym E) En). rewrite axes_eqb_refl in X. discriminate X.
Qed.
Lemma reg_ok_unique : forall reg ax p q, reg_ok reg -> In p reg -> In q reg ->
  set_eqb Nat.eqb (fst p) ax = true -> set_eqb Nat.eqb (fst q) ax = true -> p = q.
Proof.
  intros reg ax p q [_ H] Hp Hq Ep Eq. apply In_nth_error in Hp, Hq. destruct Hp as [n Hn], Hq as [m Hm].
  assert (X : set_eqb Nat.eqb (fst p) (fst q) = true).
  { rewrite <- (axes_eqb_trans _ _ (fst q) Ep), axes_eqb_sym. exact Eq. }
  destruct (Nat.lt_trichotomy n m) as [L|[L|L]].
  - rewrite (H n m p q L Hn Hm) in X. discriminate X.
  - subst. congruence.
  - rewrite axes_eqb_sym, (H m n q p L Hm Hn) in X. discriminate X.
Qed.
Lemma slot_for_in : forall reg reg' ax, reg_ok reg -> Permutation reg reg' -> slot_for reg' ax = slot_for reg ax.
Proof.
  intros reg reg' ax Hok HP. unfold slot_for.
  destruct (find _ reg) as [p|] eqn:E, (find _ reg') as [q|] eqn:E'.
  - apply find_some in E, E'. f_equal. symmetry. apply (reg_ok_unique reg ax p q); try tauto.
    apply Permutation_in with reg'; [symmetry; exact HP|tauto].
  - apply find_some in E. apply find_none with (x := p) in E'; [|apply Permutation_in with reg; tauto]. simpl in E'. destruct E. congruence.
  - apply find_some in E'. apply find_none with (x := q) in E; [|apply Permutation_in with reg'; [symmetry; exact HP|tauto]]. simpl in E. destruct E'. congruence.
  - reflexivity.
Qed.

Definition best (l : list integral) : option integral := match l with [] => None | i :: r => Some (max_prio i r) end.
Lemma find_integral_ok : forall h req,
  find_integral (register_all h) [req] = best (allowed (slot_for (register_all h) (axes_of req)) req).
Proof.
  intros h req. assert (Hok := register_all_ok h). revert Hok. generalize (register_all h). intros reg Hok.
  unfold find_integral. destruct (find (fun p => set_eqb Nat.eqb (fst p) (axes_of req)) reg) as [p|] eqn:E.
  - unfold get_max_integral. rewrite first_match_ok.
    + rewrite (slot_for_in reg) by (auto using by_length_perm). reflexivity.
    + apply Permutation_NoDup with reg; [apply by_length_perm|apply reg_ok_nodup, Hok].
    + intros ax s H. destruct Hok as [H1 _]. apply H1. apply Permutation_in with (by_length reg); [symmetry; apply by_length_perm|exact H].
    + intros x y Hx Hy. apply (reg_ok_unique reg); auto;
        (apply Permutation_in with (by_length reg); [symmetry; apply by_length_perm|assumption]).
  - unfold slot_for. rewrite E. reflexivity.
Qed.

Lemma max_prio_spec : forall l b,
  In (max_prio b l) (b :: l) /\ (forall j, In j (b :: l) -> (i_prio j <= i_prio (max_prio b l))%Q) /\
  (exists l1 l2, b :: l = l1 ++ max_prio b l :: l2 /\ forall j, In j l1 -> (i_prio j < i_prio (max_prio b l))%Q).
Proof.
  induction l as [|i l IH]; intros b.
  - simpl. split; [auto|]. split.
    + intros j [<-|[]]. apply Qle_refl.
    + exists [], []. split; [reflexivity|]. intros j [].
  - cbn [max_prio]. unfold Qlt_bool'. destruct (negb (Qle_bool (i_prio i) (i_prio b))) eqn:E.
    + assert (L : (i_prio b < i_prio i)%Q).
      { apply Qnot_le_lt. rewrite <- Qle_bool_iff. apply negb_true_iff in E. congruence. }
      destruct (IH i) as [H1 [H2 [l1 [l2 [H3 H4]]]]]. split; [simpl; destruct H1; auto|]. split.
      * intros j [<-|Hj]; [|apply H2, Hj]. apply Qlt_le_weak, Qlt_le_trans with (i_prio i); [exact L|apply H2; simpl; auto].
      * exists (b :: l1), l2. split; [rewrite H3; reflexivity|]. intros j [<-|Hj]; [|auto].
        apply Qlt_le_trans with (i_prio i); [exact L|apply H2; simpl; auto].
    + assert (L : (i_prio i <= i_prio b)%Q) by (apply negb_false_iff in E; apply Qle_bool_iff, E).
      destruct (IH b) as [H1 [H2 [l1 [l2 [H3 H4]]]]]. split; [simpl in H1 |- *; destruct H1; auto|]. split.
      * intros j [<-|[<-|Hj]]; [apply H2; simpl; auto| |apply H2; simpl; auto].
        apply Qle_trans with (i_prio b); [exact L|apply H2; simpl; auto].
      * destruct l1 as [|x l1]; simpl in H3; injection H3 as Hb Hl.
        -- exists [], (i :: l2). simpl. rewrite <- Hb, Hl. split; [reflexivity|]. intros j [].
        -- subst x. exists (b :: i :: l1), l2. split; [cbn [app]; f_equal; f_equal; exact Hl|].
           assert (Lb : (i_prio b < i_prio (max_prio b l))%Q) by (apply H4; simpl; auto).
           intros j [<-|[<-|Hj]]; [exact Lb| |apply H4; simpl; auto].
           apply Qle_lt_trans with (i_prio b); [exact L|exact Lb].
Qed.

Lemma best_spec : forall l m, best l = Some m ->
  In m l /\ (forall j, In j l -> (i_prio j <= i_prio m)%Q) /\
  (exists l1 l2, l = l1 ++ m :: l2 /\ forall j, In j l1 -> (i_prio j < i_prio m)%Q).
Proof. intros [|b l] m H; [discriminate H|]. injection H as <-. apply max_prio_spec. Qed.

(** ** Histories *)
Lemma slot_values : forall h ax i, In i (map snd (slot_for (register_all h) ax)) -> In i h.
Proof.
  induction h as [|j h IH] using rev_ind; intros ax i H.
  - simpl in H. contradiction.
  - rewrite register_all_snoc, register_slot in H. apply in_or_app.
    destruct (set_eqb Nat.eqb _ _); [|left; eapply IH, H].
    apply slot_set_values in H. destruct H as [->|H]; [right; simpl; auto|left; eapply IH, H].
Qed.
Lemma slot_keys_values : forall h, Forall (fun i => box_ok (i_limits i)) h -> all_apart h ->
  forall ax, slot_for (register_all h) ax =
    map (fun i => (i_limits i, i)) (filter (fun i => set_eqb Nat.eqb (axes_of (i_limits i)) ax) h).
Proof.
  intros h. induction h as [|j h IH] using rev_ind; intros Hb Ha ax; [reflexivity|].
  apply Forall_app in Hb. destruct Hb as [Hb Hj]. inversion Hj as [|? ? Hj' _]; subst.
  assert (Ha' : all_apart h /\ forall i, In i h -> told_apart (i_limits i) (i_limits j)).
  { clear - Ha. induction h as [|i h IH]; [split; [exact Logic.I|intros i []]|]. destruct Ha as [H1 H2]. destruct (IH H2) as [H3 H4].
    split; [split; [|exact H3]|].
    - intros k Hk. apply H1. apply in_or_app. auto.
    - intros k [<-|Hk]; [|auto]. apply H1. apply in_or_app. simpl. auto. }
  destruct Ha' as [Ha' Hsep]. rewrite register_all_snoc, register_slot, filter_app, map_app, (IH Hb Ha' ax). cbn [filter].
  destruct (set_eqb Nat.eqb (axes_of (i_limits j)) ax).
  - apply slot_set_fresh. intros k Hk. rewrite map_map in Hk. simpl in Hk. apply in_map_iff in Hk. destruct Hk as [i [<- Hi]].
    apply filter_In in Hi. apply told_apart_neq; [exact Hj'|]. apply Hsep. tauto.
  - rewrite app_nil_r. reflexivity.
Qed.
Lemma allowed_history : forall h req, Forall (fun i => box_ok (i_limits i)) h -> all_apart h ->
  allowed (slot_for (register_all h) (axes_of req)) req = filter (fun i => box_le req (i_limits i)) h.
Proof.
  intros h req Hb Ha. unfold allowed. rewrite slot_keys_values by auto. rewrite map_map. simpl. rewrite map_id.
  clear Hb Ha. induction h as [|i h IH]; simpl; [reflexivity|].
  destruct (set_eqb Nat.eqb (axes_of (i_limits i)) (axes_of req)) eqn:E; simpl; rewrite IH; [reflexivity|].
  unfold box_le, on_axes. rewrite axes_eqb_sym, E. reflexivity.
Qed.

Lemma filter_split : forall {A} (f : A -> bool) l l1 m l2, filter f l = l1 ++ m :: l2 ->
  exists h1 h2, l = h1 ++ m :: h2 /\ filter f h1 = l1.
Proof.
  intros A f l. induction l as [|x l IH]; intros l1 m l2 H; simpl in H.
  - destruct l1; discriminate H.
  - destruct (f x) eqn:E.
    + destruct l1 as [|y l1]; simpl in H; injection H as Hx Hl.
      * subst x. exists [], l. auto.
      * subst y. destruct (IH _ _ _ Hl) as [h1 [h2 [H1 H2]]]. exists (x :: h1), h2. simpl. rewrite E, H2, H1. auto.
    + destruct (IH _ _ _ H) as [h1 [h2 [H1 H2]]]. exists (x :: h1), h2. simpl. rewrite E, H1. auto.
Qed.
