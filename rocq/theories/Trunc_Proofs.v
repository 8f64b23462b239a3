(** Proofs about truncated PDFs. *)
From Verif Require Import Base BaseLemmas Disp_Model Disp_Spec Sum_Model Sum_Spec Trunc_Model Trunc_Spec.
From Coq Require Import Lra Permutation Sorted.
From Coquelicot Require Import Hierarchy RInt.
Import ListNotations.
#[local] Open Scope R_scope.

Lemma Rleb_iff : forall a b, Rleb a b = true <-> a <= b.
Proof. intros a b. unfold Rleb. destruct (Rle_dec a b); split; auto; discriminate. Qed.
Lemma Rleb_false : forall a b, Rleb a b = false <-> b < a.
Proof. intros a b. unfold Rleb. destruct (Rle_dec a b); split; intros H; try discriminate; auto; lra. Qed.

Lemma insert_perm : forall l ls, Permutation (l :: ls) (insert l ls).
Proof.
  intros l ls. induction ls as [|m r IH]; cbn [insert]; [reflexivity|]. destruct (Rleb (fst l) (fst m)); [reflexivity|].
  rewrite perm_swap. constructor. exact IH.
Qed.
Lemma sorted_perm : forall ls, Permutation ls (sorted_limits ls).
Proof. induction ls as [|l r IH]; cbn [sorted_limits]; [constructor|]. rewrite <- insert_perm. constructor. exact IH. Qed.

Definition by_lower (l m : interval) : Prop := fst l <= fst m.
Lemma insert_sorted : forall l ls, StronglySorted by_lower ls -> StronglySorted by_lower (insert l ls).
Proof.
  intros l ls. induction ls as [|m r IH]; intros H; cbn [insert]; [repeat constructor|].
  apply StronglySorted_inv in H. destruct H as [H1 H2].
  destruct (Rleb (fst l) (fst m)) eqn:E.
  - apply Rleb_iff in E. constructor; [constructor; assumption|]. constructor; [exact E|].
    rewrite Forall_forall in *. intros q Hq. specialize (H2 q Hq). unfold by_lower in *. lra.
  - apply Rleb_false in E. constructor; [apply IH; exact H1|].
    eapply Permutation_Forall; [apply insert_perm|]. constructor; [unfold by_lower; lra|exact H2].
Qed.
Lemma sorted_sorted : forall ls, StronglySorted by_lower (sorted_limits ls).
Proof. induction ls as [|l r IH]; cbn [sorted_limits]; [constructor|]. apply insert_sorted. exact IH. Qed.

(** In order, each limit ends before all later ones begin *)
Definition in_order (ls : list interval) : Prop := StronglySorted (fun l m => snd l <= fst m) ls.
Lemma overlap_iff : forall ls, overlap ls = false <-> in_order ls.
Proof.
  unfold in_order. induction ls as [|l r IH]; cbn [overlap]; [split; [constructor|reflexivity]|].
  rewrite orb_false_iff, IH. split.
  - intros [A B]. constructor; [exact B|]. rewrite Forall_forall. intros m Hm.
    destruct (Rleb (snd l) (fst m)) eqn:E; [apply Rleb_iff; exact E|].
    assert (C : existsb (fun m => negb (Rleb (snd l) (fst m))) r = true) by (apply existsb_exists; exists m; rewrite E; auto). congruence.
  - intros H. apply StronglySorted_inv in H. destruct H as [B A]. split; [|exact B]. rewrite Forall_forall in A.
    match goal with |- ?e = false => destruct e eqn:E end; [|reflexivity]. apply existsb_exists in E. destruct E as [m [Hm E]]. apply A in Hm. apply Rleb_iff in Hm. rewrite Hm in E. discriminate E.
Qed.

(** Rows *)
Lemma inside_iff : forall l x, inside l x = true <-> fst l <= x <= snd l.
Proof. intros l x. unfold inside. rewrite andb_true_iff, !Rleb_iff. reflexivity. Qed.
Definition anywhere (ls : list interval) (x : R) : bool := existsb (fun l => inside l x) ls.
Lemma anywhere_iff : forall ls x, anywhere ls x = true <-> in_some ls x.
Proof.
  intros ls x. unfold anywhere, in_some. rewrite existsb_exists. split; intros [l [A B]]; exists l; (split; [exact A|]); apply inside_iff; exact B.
Qed.
Lemma any_rows_map : forall ls xs, any_rows (length xs) (map (fun l => map (inside l) xs) ls) = map (anywhere ls) xs.
Proof.
  intros ls xs. induction ls as [|l r IH]; cbn [map any_rows].
  - induction xs as [|x xs IHx]; cbn [length repeat map anywhere existsb]; [reflexivity|f_equal; exact IHx].
  - rewrite IH. clear IH. induction xs as [|x xs IHx]; cbn [map combine]; [reflexivity|]. f_equal. exact IHx.
Qed.
Lemma masked_filter : forall {A} (p : A -> bool) xs, masked (map p xs) xs = filter p xs.
Proof. intros A p xs. induction xs as [|x xs IH]; cbn [map masked filter]; [reflexivity|]. rewrite IH. reflexivity. Qed.

Lemma add_at_app : forall pre i v l, add_at (length pre + i) v (pre ++ l) = match add_at i v l with Some r => Some (pre ++ r) | None => None end.
Proof.
  induction pre as [|p pre IH]; intros i v l; cbn [length app Nat.add]; [destruct (add_at i v l); reflexivity|].
  cbn [add_at]. rewrite IH. destruct (add_at i v l); reflexivity.
Qed.
Lemma scatter_positions : forall (p : R -> bool) (f : R -> R) xs pre,
  scatter (combine (positions (length pre) (map p xs)) (map f (filter p xs))) (pre ++ repeat 0 (length xs))
  = Ok (pre ++ map (fun x => if p x then f x else 0) xs).
Proof.
  intros p f xs. induction xs as [|x xs IH]; intros pre; [reflexivity|].
  cbn [map positions filter length repeat]. specialize (IH (pre ++ (if p x then f x else 0) :: nil)).
  rewrite app_length, <- !app_assoc in IH. cbn [length] in IH. rewrite Nat.add_1_r in IH.
  destruct (p x).
  - cbn [map combine scatter]. pose proof (add_at_app pre 0 (f x) (0 :: repeat 0 (length xs))) as A. rewrite Nat.add_0_r in A. rewrite A.
    cbn [add_at]. rewrite Rplus_0_l. exact IH.
  - exact IH.
Qed.
Lemma positions_length : forall {A} (p : A -> bool) xs i, length (positions i (map p xs)) = length (filter p xs).
Proof. intros A p xs. induction xs as [|x xs IH]; intros i; cbn [map positions filter]; [reflexivity|]. destruct (p x); cbn [length]; rewrite IH; reflexivity. Qed.

Lemma trunc_rows : forall ls wrapped (f : R -> R) xs,
  wrapped (filter (anywhere ls) xs) = Ok (map f (filter (anywhere ls) xs)) ->
  trunc_unnorm ls wrapped xs = Ok (map (fun x => if anywhere ls x then f x else 0) xs).
Proof.
  intros ls wrapped f xs H. unfold trunc_unnorm. rewrite any_rows_map, masked_filter, H. cbn [bind]. unfold scatter_nd.
  rewrite positions_length, map_length, Nat.eqb_refl. apply (scatter_positions (anywhere ls) f xs []).
Qed.

(** Integrals *)
Definition clip (I : interval -> R) (a b : R) (l : interval) : R :=
  if Rlt_dec (Rmax a (fst l)) (Rmin b (snd l)) then I (Rmax a (fst l), Rmin b (snd l)) else 0.
Definition trunc (ls : list interval) (f : R -> R) (x : R) : R := if anywhere ls x then f x else 0.

Lemma zero_RInt : forall (g : R -> R) (a b : R), a <= b -> (forall x, a < x < b -> g x = 0) -> is_RInt g a b 0.
Proof.
  intros g a b Hab H. apply is_RInt_ext with (f := fun _ => 0).
  - rewrite Rmin_left, Rmax_right by lra. intros x Hx. symmetry. apply H. exact Hx.
  - pose proof (is_RInt_const (V := R_NormedModule) a b 0) as K. change (is_RInt (fun _ => 0) a b ((b - a) * 0)) in K.
    rewrite Rmult_0_r in K. exact K.
Qed.
Lemma same_RInt : forall (f g : R -> R) (a b v : R), a <= b -> (forall x, a < x < b -> g x = f x) -> is_RInt f a b v -> is_RInt g a b v.
Proof.
  intros f g a b v Hab H. apply is_RInt_ext. rewrite Rmin_left, Rmax_right by lra. intros x Hx. symmetry. apply H. exact Hx.
Qed.
Lemma Chasles : forall (g : R -> R) (a b c u v : R), is_RInt g a b u -> is_RInt g b c v -> is_RInt g a c (u + v).
Proof. intros g a b c u v A B. apply (is_RInt_Chasles g a b c u v A B). Qed.

Lemma trunc_in : forall ls f x, in_some ls x -> trunc ls f x = f x.
Proof. intros ls f x H. unfold trunc. apply anywhere_iff in H. rewrite H. reflexivity. Qed.
Lemma trunc_out : forall ls f x, ~ in_some ls x -> trunc ls f x = 0.
Proof.
  intros ls f x H. unfold trunc. destruct (anywhere ls x) eqn:E; [|reflexivity]. apply anywhere_iff in E. contradiction.
Qed.

Lemma trunc_RInt : forall f I ls, in_order ls -> Forall (fun l => fst l <= snd l) ls -> integrals_within ls f I ->
  forall a b, a <= b -> is_RInt (trunc ls f) a b (sum_list (map (clip I a b) ls)).
Proof.
  intros f I ls. induction ls as [|l r IH]; intros HO HP HI a b Hab.
  - cbn [map sum_list]. apply zero_RInt; [exact Hab|]. intros x _. reflexivity.
  - apply StronglySorted_inv in HO. destruct HO as [HO1 HO2]. inversion HP as [|? ? P1 P2]; subst.
    assert (HI' : integrals_within r f I) by (intros u v m Hm; apply HI; right; exact Hm).
    specialize (IH HO1 P2 HI'). rewrite Forall_forall in HO2.
    set (c := Rmax a (Rmin b (snd l))).
    assert (Hc : a <= c <= b) by (unfold c, Rmax, Rmin; repeat destruct (Rle_dec _ _); lra).
    cbn [map sum_list]. apply Chasles with (b := c).
    + assert (Z : forall x, a < x < c -> x < fst l -> trunc (l :: r) f x = 0).
      { intros x Hx Hl. apply trunc_out. intros [m [[<-|Hm] H]]; [lra|]. specialize (HO2 m Hm). lra. }
      assert (Cu : a < c -> c <= snd l) by (unfold c, Rmax, Rmin; repeat destruct (Rle_dec _ _); lra).
      destruct (Rlt_le_dec a c) as [Hac|Hac].
      * assert (M : Rmin b (snd l) = c) by (unfold c, Rmax, Rmin in *; repeat destruct (Rle_dec _ _); lra).
        unfold clip. rewrite M. destruct (Rlt_dec (Rmax a (fst l)) c) as [Hm|Hm].
        -- assert (Q : a <= Rmax a (fst l) /\ fst l <= Rmax a (fst l)) by (split; [apply Rmax_l|apply Rmax_r]).
           replace (I (Rmax a (fst l), c)) with (0 + I (Rmax a (fst l), c)) by ring. apply Chasles with (b := Rmax a (fst l)).
           ++ apply zero_RInt; [lra|]. intros x Hx. apply Z; [lra|]. revert Hx. unfold Rmax. destruct (Rle_dec a (fst l)); lra.
           ++ apply same_RInt with (f := f); [lra| |].
              ** intros x Hx. apply trunc_in. exists l. split; [left; reflexivity|]. specialize (Cu Hac). lra.
              ** apply (HI _ _ l); [left; reflexivity|lra|lra|auto].
        -- apply zero_RInt; [lra|]. intros x Hx. apply Z; [exact Hx|]. revert Hm. unfold Rmax. destruct (Rle_dec a (fst l)); lra.
      * assert (Ec : c = a) by lra. rewrite Ec. unfold clip.
        assert (E : ~ Rmax a (fst l) < Rmin b (snd l)).
        { revert Ec. unfold c, Rmax, Rmin. repeat destruct (Rle_dec _ _); lra. }
        destruct (Rlt_dec _ _); [contradiction|]. apply zero_RInt; [lra|]. intros x Hx. lra.
    + assert (K : map (clip I a b) r = map (clip I c b) r).
      { apply map_ext_in. intros m Hm. specialize (HO2 m Hm). unfold clip.
        assert (G : Rmax a (fst m) = Rmax c (fst m) \/ (~ Rmax a (fst m) < Rmin b (snd m) /\ ~ Rmax c (fst m) < Rmin b (snd m))).
        { unfold c, Rmax, Rmin. repeat destruct (Rle_dec _ _); lra. }
        destruct G as [-> |[G1 G2]]; [reflexivity|]. destruct (Rlt_dec _ _); [contradiction|]. destruct (Rlt_dec _ _); [contradiction|]. reflexivity. }
      rewrite K. apply same_RInt with (f := trunc r f); [apply Hc| |apply IH; apply Hc].
      intros x Hx. assert (Cx : snd l < x) by (revert Hx; unfold c, Rmax, Rmin; repeat destruct (Rle_dec _ _); lra).
      unfold trunc, anywhere. cbn [existsb]. destruct (inside l x) eqn:E; [apply inside_iff in E; lra|]. reflexivity.
Qed.
Lemma clip_within : forall f I ls a b l, integrals_within ls f I -> In l ls -> fst l <= snd l -> a <= fst l -> snd l <= b -> clip I a b l = I l.
Proof.
  intros f I ls a b l HI Hl H A B. unfold clip. rewrite (Rmax_right a) by lra. rewrite (Rmin_right b) by lra.
  destruct (Rlt_dec (fst l) (snd l)) as [C|C]; [destruct l; reflexivity|].
  destruct l as [u v]; cbn [fst snd] in *. assert (E : v = u) by lra. subst v. pose proof (HI u u (u, u) Hl (Rle_refl _) H (Rle_refl _)) as J.
  pose proof (is_RInt_point f u) as K. unfold integral_is in J.
  apply (is_RInt_unique (V := R_CompleteNormedModule)) in J. apply (is_RInt_unique (V := R_CompleteNormedModule)) in K. rewrite J in K. symmetry. exact K.
Qed.
