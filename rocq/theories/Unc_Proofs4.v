(** Proofs for uncertainties, part 4: lookups in results, freezing, the gradient in the requested order. *)
From Coq Require Import Permutation Sorted.
From Verif Require Import Base BaseLemmas Unc_Model Unc_Spec Unc_Proofs Unc_Proofs2 Unc_Proofs3.
#[local] Open Scope nat_scope.

Lemma mem_fst_lookup {V} (d : list (string * V)) n : mem String.eqb n (map fst d) = match lookup String.eqb n d with Some _ => true | None => false end.
Proof.
  induction d as [|[k v] d IH]; [reflexivity|]. cbn [map mem existsb lookup fst snd] in *. unfold mem in *. cbn [existsb fst]. destruct (String.eqb n k); [reflexivity|exact IH].
Qed.
Lemma params_getitem_char {V} frozen (d : list (string * V)) k :
  params_getitem frozen d k = match key_name k with Some n => opt_result KeyError (lookup String.eqb n d) | None => Err KeyError end.
Proof.
  unfold params_getitem, resolve. destruct k as [n|n|i]; cbn [key_name]; try reflexivity;
    rewrite mem_fst_lookup; destruct (lookup String.eqb n d) as [v|] eqn:E; destruct frozen; rewrite ?E; reflexivity.
Qed.
Lemma values_getitem_char {V} (d : list (string * V)) k :
  values_getitem false d k = match k with
   | KParam n | KName n => match lookup String.eqb n d with Some v => Ok v | None => Err TypeError end
   | KInt i => opt_result IndexError (nth_error (map snd d) i) end.
Proof.
  unfold values_getitem, resolve. destruct k as [n|n|i]; cbn [key_name]; try reflexivity;
    rewrite mem_fst_lookup; destruct (lookup String.eqb n d) as [v|] eqn:E; rewrite ?E; reflexivity.
Qed.

(** sorting by a key *)
Lemma insert_by_perm key i l : Permutation (i :: l) (insert_by key i l).
Proof. induction l as [|j l IH]; cbn; [reflexivity|]. destruct (Nat.leb _ _); [reflexivity|]. rewrite perm_swap. constructor. exact IH. Qed.
Lemma sort_by_perm key l : Permutation l (sort_by key l).
Proof. induction l as [|i l IH]; cbn; [reflexivity|]. rewrite <- insert_by_perm. constructor. exact IH. Qed.
Lemma insert_by_sorted key i l : StronglySorted (fun a b => key a <= key b) l -> StronglySorted (fun a b => key a <= key b) (insert_by key i l).
Proof.
  induction l as [|j l IH]; intros H; cbn; [repeat constructor|]. destruct (Nat.leb (key i) (key j)) eqn:E.
  - apply Nat.leb_le in E. constructor; [exact H|]. inversion H; subst. constructor; [exact E|]. eapply Forall_impl; [|eassumption]. cbn. intros; lia.
  - apply Nat.leb_gt in E. inversion H; subst. constructor; [apply IH; assumption|].
    apply (Permutation_Forall (insert_by_perm key i l)). constructor; [lia|assumption].
Qed.
Lemma sort_by_sorted key l : StronglySorted (fun a b => key a <= key b) (sort_by key l).
Proof. induction l as [|i l IH]; cbn; [constructor|]. apply insert_by_sorted, IH. Qed.
Lemma sorted_unique (key : nat -> nat) : forall l m, Permutation l m -> (forall a b, In a l -> In b l -> key a = key b -> a = b) ->
  StronglySorted (fun a b => key a <= key b) l -> StronglySorted (fun a b => key a <= key b) m -> l = m.
Proof.
  induction l as [|a l IH]; intros m P Hi Sl Sm.
  - apply Permutation_nil in P. subst. reflexivity.
  - destruct m as [|b m]; [symmetry in P; apply Permutation_nil in P; discriminate|].
    inversion Sl as [|? ? Sl' Fl]; subst. inversion Sm as [|? ? Sm' Fm]; subst. rewrite Forall_forall in Fl, Fm.
    assert (a = b).
    { assert (Hb : In b (a :: l)) by (eapply Permutation_in; [symmetry; exact P|left; reflexivity]).
      assert (Ha : In a (b :: m)) by (eapply Permutation_in; [exact P|left; reflexivity]).
      destruct Hb as [Hb|Hb]; [congruence|]. destruct Ha as [Ha|Ha]; [congruence|].
      apply Hi; [left; reflexivity|right; exact Hb|]. apply Nat.le_antisymm; [apply Fl, Hb|apply Fm, Ha]. }
    subst b. f_equal. apply IH; auto. { eapply Permutation_cons_inv, P. } intros x y Hx Hy. apply Hi; right; assumption.
Qed.
Lemma map_index_sorted own req : NoDup req -> incl req own -> NoDup own -> forall pos,
  (forall p i, In p req -> nth_error own i = Some p -> pos i = match index_of String.eqb p req with Some k => k | None => 0 end) ->
  exists L, Forall2 (fun p i => nth_error own i = Some p) req L /\ StronglySorted (fun a b => pos a <= pos b) L /\ NoDup L.
Proof.
  intros Hn Hincl Hno pos Hpos.
  assert (EX : exists L, Forall2 (fun p i => nth_error own i = Some p) req L).
  { clear Hn Hpos. induction req as [|p req IH]; [exists []; constructor|]. destruct IH as [L HL]; [intros x Hx; apply Hincl; right; exact Hx|].
    destruct (In_nth_error own p (Hincl _ (or_introl eq_refl))) as [i Hi]. exists (i :: L). constructor; assumption. }
  destruct EX as [L HL]. exists L. split; [exact HL|].
  assert (HLk : forall k i p, nth_error req k = Some p -> nth_error L k = Some i -> nth_error own i = Some p) by (intros k i p; apply (F2_nth _ _ _ _ _ _ HL)).
  assert (HLlen := Forall2_length' _ _ _ HL).
  assert (Hp : forall k i, nth_error L k = Some i -> pos i = k).
  { intros k i Hk. destruct (in_square req k) as [p Hpk]. { rewrite HLlen. apply nth_error_Some. congruence. }
    rewrite (Hpos p i); [rewrite (nodup_index_of _ string_eqb_ok _ _ _ Hn Hpk); reflexivity|eapply nth_error_In, Hpk|eapply HLk; eassumption]. }
  split.
  - clear -Hp. assert (G : forall l off, (forall k i, nth_error l k = Some i -> pos i = off + k) -> StronglySorted (fun a b => pos a <= pos b) l).
    { induction l as [|a l IH]; intros off H; [constructor|]. constructor.
      - apply (IH (S off)). intros k i Hk. rewrite (H (S k) i Hk). lia.
      - apply Forall_forall. intros b Hb. apply In_nth_error in Hb. destruct Hb as [k Hk]. rewrite (H 0 a eq_refl), (H (S k) b Hk). lia. }
    apply (G L 0). exact Hp.
  - apply NoDup_nth_error. intros i j Hi E. destruct (nth_error L i) as [x|] eqn:Ex; [|apply nth_error_None in Ex; lia].
    rewrite <- (Hp i x Ex). apply Hp. congruence.
Qed.
Lemma approx_gradient_ok own grad req : NoDup own -> NoDup req -> incl req own -> length grad = length own ->
  exists g, approx_gradient own grad req = Ok g /\ Forall2 (fun p v => exists i, nth_error own i = Some p /\ nth_error grad i = Some v) req g.
Proof.
  intros Hno Hnr Hi Hl. unfold approx_gradient.
  set (pos := fun i => match nth_error own i with Some p => match index_of String.eqb p req with Some k => k | None => 0 end | None => 0 end).
  set (known := filter _ _).
  destruct (map_index_sorted own req Hnr Hi Hno pos) as [L [HL [HS HN]]].
  { intros p i Hp Hpi. unfold pos. rewrite Hpi. reflexivity. }
  assert (P : Permutation (sort_by pos known) L).
  { rewrite <- sort_by_perm. apply NoDup_Permutation; [apply NoDup_filter, seq_NoDup|exact HN|]. intros i. unfold known. rewrite filter_In, in_seq. split.
    - intros [_ H]. destruct (nth_error own i) as [p|] eqn:E; [|discriminate]. apply (mem_In _ string_eqb_ok) in H.
      destruct (Forall2_In_l _ _ _ _ HL H) as [j [Hj Hoj]]. cbv beta in Hoj. rewrite (NoDup_nth_inj _ _ _ _ Hno E Hoj). exact Hj.
    - intros H. apply In_nth_error in H. destruct H as [k Hk]. destruct (in_square req k) as [p Hp].
      { rewrite (Forall2_length' _ _ _ HL). apply nth_error_Some. congruence. }
      pose proof (F2_nth _ _ _ _ _ _ HL Hp Hk) as Ho. cbv beta in Ho. split; [split; [lia|]; apply nth_error_Some; congruence|].
      rewrite Ho. apply (mem_In _ string_eqb_ok). eapply nth_error_In, Hp. }
  assert (E : sort_by pos known = L).
  { apply (sorted_unique pos); [exact P| |apply sort_by_sorted|exact HS].
    intros a b Ha Hb Hab. apply (Permutation_in _ P) in Ha, Hb. apply In_nth_error in Ha, Hb. destruct Ha as [ka Ka], Hb as [kb Kb].
    destruct (in_square req ka) as [pa Hpa]; [rewrite (Forall2_length' _ _ _ HL); apply nth_error_Some; congruence|].
    destruct (in_square req kb) as [pb Hpb]; [rewrite (Forall2_length' _ _ _ HL); apply nth_error_Some; congruence|].
    pose proof (F2_nth _ _ _ _ _ _ HL Hpa Ka) as Oa. pose proof (F2_nth _ _ _ _ _ _ HL Hpb Kb) as Ob. cbv beta in Oa, Ob.
    unfold pos in Hab. rewrite Oa, Ob, (nodup_index_of _ string_eqb_ok _ _ _ Hnr Hpa), (nodup_index_of _ string_eqb_ok _ _ _ Hnr Hpb) in Hab. congruence. }
  rewrite E. clear E P HS HN known pos Hnr. induction HL as [|p i req L Hpi HL IH]; [exists []; split; [reflexivity|constructor]|].
  destruct IH as [g [Eg Fg]]; [intros x Hx; apply Hi; right; exact Hx|].
  destruct (nth_error grad i) as [v|] eqn:Ev.
  2: { apply nth_error_None in Ev. assert (i < length own) by (apply nth_error_Some; congruence). lia. }
  exists (v :: g). split.
  - unfold gather in *. cbn [map all_some]. rewrite Ev. destruct (all_some (map (nth_error grad) L)); [|discriminate]. cbn in *. injection Eg as ->. reflexivity.
  - constructor; [eauto|exact Fg].
Qed.
