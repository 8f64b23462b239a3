(** Linear binning on a grid. *)
From Verif Require Import Base BaseLemmas Hist_Model Hist_Spec Hist_Proofs Hist_Proofs2 Hist_Proofs3.
From Coq Require Import Sorted Permutation Qround Qabs Lqa.
#[local] Open Scope nat_scope.

Lemma combine_maps {A B C D} (f : A -> C) (g : B -> D) a b :
  combine (map f a) (map g b) = map (fun p => (f (fst p), g (snd p))) (combine a b).
Proof. revert b. induction a as [|x a IH]; intros [|y b]; try reflexivity. cbn. f_equal. apply IH. Qed.
Lemma combine_map_l {A B C D} (f : A -> C) (g : A * B -> D) a b :
  combine (map f a) (map g (combine a b)) = map (fun p => (f (fst p), g p)) (combine a b).
Proof. revert b. induction a as [|x a IH]; intros [|y b]; try reflexivity. cbn. f_equal. apply IH. Qed.
Lemma combine_map_r {A B C D} (f : B -> C) (g : A * B -> D) a b :
  combine (map f b) (map g (combine a b)) = map (fun p => (f (snd p), g p)) (combine a b).
Proof. revert b. induction a as [|x a IH]; intros [|y b]; try reflexivity. cbn. f_equal. apply IH. Qed.

Lemma combine_map_self {A B C} (f : A -> B) (g : A -> C) l : combine (map f l) (map g l) = map (fun a => (f a, g a)) l.
Proof. induction l as [|a l IH]; [reflexivity|]. cbn. f_equal. exact IH. Qed.

Lemma qsum_filter {A} (p : A -> bool) (f : A -> Q) l :
  (qsum (map f (filter p l)) == qsum (map (fun x => if p x then f x else 0) l))%Q.
Proof.
  induction l as [|x l IH]; [reflexivity|]. cbn [filter map]. rewrite qsum_cons.
  destruct (p x); cbn [map]; rewrite ?qsum_cons, IH; ring.
Qed.

(** ** The grid *)
Lemma qmin_fold l a m : (m <= a)%Q -> Forall (fun x => m <= x)%Q l -> (a == m)%Q ->
  (fold_left (fun m x => if Qle_bool m x then m else x) l a == m)%Q.
Proof.
  revert a. induction l as [|x l IH]; intros a H F E; [exact E|]. inversion F; subst. cbn [fold_left].
  replace (Qle_bool a x) with true by (symmetry; apply Qle_bool_iff; lra). apply IH; assumption.
Qed.
Lemma qmin_head l x m : nth_error l 0 = Some x -> (x == m)%Q ->
  (forall k y, nth_error l k = Some y -> m <= y)%Q -> (qmin_list l == m)%Q.
Proof.
  intros E X H. destruct l as [|a r]; [discriminate|]. cbn in E. injection E as ->. cbn [qmin_list].
  apply qmin_fold; [lra| |exact X]. apply Forall_forall. intros y Hy. apply In_nth_error in Hy.
  destruct Hy as [k Hk]. apply (H (S k) y). exact Hk.
Qed.
Lemma qmax_fold l a : StronglySorted Qle (a :: l) ->
  (fold_left (fun m x => if Qle_bool x m then m else x) l a == last (a :: l) 0)%Q.
Proof.
  revert a. induction l as [|x l IH]; intros a S; [reflexivity|].
  inversion S as [|? ? S1 F]; subst. inversion F; subst. cbn [fold_left].
  change (last (a :: x :: l) 0%Q) with (last (x :: l) 0%Q).
  destruct (Qle_bool x a) eqn:E; [|apply IH; exact S1].
  apply Qle_bool_iff in E. rewrite (IH a).
  - destruct l as [|y l]; [cbn; lra|reflexivity].
  - inversion S1; subst. constructor; [assumption|]. inversion F; subst. assumption.
Qed.

Lemma qmax_last l : l <> [] -> StronglySorted Qle l -> (qmax_list l == last l 0)%Q.
Proof. destruct l as [|a r]; [congruence|]. intros _ S. apply qmax_fold. exact S. Qed.

Lemma Forall2_map_r2 {A} (f : A -> Q) l g : Forall2 Qeq g (map f l) ->
  forall k a, nth_error l k = Some a -> exists x, nth_error g k = Some x /\ (x == f a)%Q.
Proof.
  intros H k a E. revert g H k E. induction l as [|b l IH]; intros g H k E; [destruct k; discriminate|].
  inversion H as [|x y g' l' Hx Hg]; subst. destruct k as [|k]; cbn in *.
  - injection E as <-. exists x. auto.
  - apply (IH g' Hg k E).
Qed.

Section Grid.
Context (g0 dx : Q) (n : nat) (grid : list Q).
Context (Hdx : (0 < dx)%Q) (Hn : 2 <= n) (Hgrid : Forall2 Qeq grid (regular_grid g0 dx n)).

Lemma grid_length : length grid = n.
Proof. apply Forall2_length' in Hgrid. rewrite Hgrid. unfold regular_grid. rewrite map_length, seq_length. reflexivity. Qed.

Lemma grid_nth k : k < n -> exists x, nth_error grid k = Some x /\ (x == grid_point g0 dx k)%Q.
Proof. intros H. apply (Forall2_map_r2 _ _ _ Hgrid k k). apply nth_error_seq0. exact H. Qed.

Lemma inj_le a b : a <= b -> (inject_Z (Z.of_nat a) <= inject_Z (Z.of_nat b))%Q.
Proof. intros H. rewrite <- Zle_Qle. lia. Qed.

Lemma grid_point_le a b : a <= b -> (grid_point g0 dx a <= grid_point g0 dx b)%Q.
Proof.
  intros H. unfold grid_point. pose proof (inj_le a b H) as I.
  pose proof (Qmult_le_compat_r _ _ dx I). lra.
Qed.

Lemma grid_min : (qmin_list grid == g0)%Q.
Proof.
  destruct (grid_nth 0) as [x [E X]]; [lia|].
  assert (X0 : (x == g0)%Q) by (rewrite X; unfold grid_point; ring).
  apply (qmin_head grid x g0 E X0).
  intros k y Hk. assert (Kl : k < n) by (rewrite <- grid_length; apply nth_error_Some; congruence).
  destruct (grid_nth k Kl) as [y' [E' Y]]. rewrite Hk in E'. injection E' as <-.
  rewrite Y. pose proof (grid_point_le 0 k ltac:(lia)) as H. rewrite <- X in H. lra.
Qed.

Lemma sorted_nth (l : list Q) : (forall i j a b, i < j -> nth_error l i = Some a -> nth_error l j = Some b -> (a <= b)%Q) ->
  StronglySorted Qle l.
Proof.
  induction l as [|x l IH]; intros H; [constructor|]. constructor.
  - apply IH. intros i j a b L Ha Hb. apply (H (S i) (S j)); [lia|exact Ha|exact Hb].
  - apply Forall_forall. intros y Hy. apply In_nth_error in Hy. destruct Hy as [k Hk].
    apply (H 0 (S k)); [lia|reflexivity|exact Hk].
Qed.

Lemma grid_max : (qmax_list grid == grid_point g0 dx (n - 1))%Q.
Proof.
  assert (S : StronglySorted Qle grid).
  { apply sorted_nth. intros i j a b L Ha Hb.
    assert (j < n) by (rewrite <- grid_length; apply nth_error_Some; congruence).
    destruct (grid_nth i ltac:(lia)) as [a' [Ea A]]. destruct (grid_nth j ltac:(lia)) as [b' [Eb B]].
    assert (a' = a) by congruence. assert (b' = b) by congruence. subst a' b'. rewrite A, B.
    apply grid_point_le. lia. }
  assert (NE : grid <> []) by (intros E; pose proof grid_length as GL; rewrite E in GL; cbn in GL; lia).
  pose proof (last_nth grid NE) as LN. rewrite grid_length in LN.
  destruct (grid_nth (n - 1) ltac:(lia)) as [y [Ey Y]]. assert (y = last grid 0%Q) by congruence. subst y.
  rewrite <- Y. apply qmax_last; assumption.
Qed.

Lemma grid_step : ((qmax_list grid - qmin_list grid) / inject_Z (Z.of_nat (length grid - 1)) == dx)%Q.
Proof.
  rewrite grid_max, grid_min, grid_length. unfold grid_point.
  assert (P : (0 < inject_Z (Z.of_nat (n - 1)))%Q) by (replace 0%Q with (inject_Z 0) by reflexivity; rewrite <- Zlt_Qlt; lia).
  field. lra.
Qed.

(** Position of an event in units of the step. *)
Definition pos (x : Q) : Q := ((x - qmin_list grid)
  / ((qmax_list grid - qmin_list grid) / inject_Z (Z.of_nat (length grid - 1))))%Q.

Lemma pos_eq x : (pos x == (x - g0) / dx)%Q.
Proof. unfold pos. rewrite grid_step, grid_min. reflexivity. Qed.

Lemma pos_bounds x : within_grid g0 dx n x -> (0 <= pos x /\ pos x <= inject_Z (Z.of_nat (n - 1)))%Q.
Proof.
  intros [H1 H2]. rewrite pos_eq. unfold grid_point in H2. split.
  - apply Qle_shift_div_l; [exact Hdx|]. lra.
  - apply Qle_shift_div_r; [exact Hdx|]. lra.
Qed.

(** Lower neighbour and distance to it. *)
Definition cell (x : Q) : nat := Z.to_nat (Qfloor (pos x)).
Definition frac (x : Q) : Q := (pos x - inject_Z (Qfloor (pos x)))%Q.

Lemma cell_floor x : within_grid g0 dx n x -> Z.of_nat (cell x) = Qfloor (pos x).
Proof.
  intros H. unfold cell. apply Z2Nat.id. destruct (pos_bounds x H) as [P _].
  assert (Qfloor 0 <= Qfloor (pos x))%Z by (apply Qfloor_resp_le; exact P). cbn in H0. exact H0.
Qed.

Lemma frac_bounds x : (0 <= frac x /\ frac x < 1)%Q.
Proof.
  unfold frac. pose proof (Qfloor_le (pos x)). pose proof (Qlt_floor (pos x)) as H2.
  rewrite inject_Z_plus in H2. change (inject_Z 1) with 1%Q in H2. split; lra.
Qed.

Lemma cell_lt x : within_grid g0 dx n x -> cell x < n.
Proof.
  intros H. destruct (pos_bounds x H) as [_ P]. pose proof (cell_floor x H) as C.
  assert (Qfloor (pos x) <= Z.of_nat (n - 1))%Z.
  { rewrite <- (Qfloor_Z (Z.of_nat (n - 1))). apply Qfloor_resp_le. exact P. }
  lia.
Qed.

(** At the last point the fraction is zero. *)
Lemma frac_last x : within_grid g0 dx n x -> cell x = n - 1 -> (frac x == 0)%Q.
Proof.
  intros H E. destruct (pos_bounds x H) as [_ P]. pose proof (frac_bounds x) as [F _].
  unfold frac in *. rewrite <- (cell_floor x H), E in *. lra.
Qed.

Lemma pos_split x : within_grid g0 dx n x -> (pos x == inject_Z (Z.of_nat (cell x)) + frac x)%Q.
Proof. intros H. unfold frac. rewrite (cell_floor x H). ring. Qed.

(** What one event of unit weight gives to the point [k]. *)
Definition phi (simple : bool) (f : Q) : Q := if simple then (if Qlt_bool (1 # 2) f then f else 0%Q) else f.
Definition share (simple : bool) (k : nat) (x : Q) : Q :=
  ((if Nat.eqb k (S (cell x)) then phi simple (frac x) else 0)
   + (if Nat.eqb k (cell x) then 1 - phi simple (frac x) else 0))%Q.

Lemma phi_zero simple f : (f == 0)%Q -> (phi simple f == 0)%Q.
Proof.
  intros H. unfold phi. destruct simple; [|exact H]. destruct (Qlt_bool (1 # 2) f) eqn:E; [|reflexivity].
  apply Qlt_bool_iff in E. lra.
Qed.

Lemma nth_error_removelast {A} (l : list A) k : S k < length l -> nth_error (removelast l) k = nth_error l k.
Proof.
  revert k. induction l as [|x [|y l] IH]; intros k H; cbn [length] in *; [lia|lia|].
  change (removelast (x :: y :: l)) with (x :: removelast (y :: l)).
  destruct k as [|k]; [reflexivity|]. cbn [nth_error]. apply IH. cbn [length]. lia.
Qed.

Lemma length_removelast {A} (l : list A) : length (removelast l) = length l - 1.
Proof.
  induction l as [|x [|y l] IH]; [reflexivity|reflexivity|].
  change (removelast (x :: y :: l)) with (x :: removelast (y :: l)). cbn [length] in *. rewrite IH. lia.
Qed.

Lemma roll_length l : length (roll1 l) = length l.
Proof. destruct l as [|a l]; [reflexivity|]. unfold roll1. cbn [length]. rewrite length_removelast. cbn. lia. Qed.

Lemma roll_nth (h : nat -> Q) m k : k < m ->
  nth_error (roll1 (map h (seq 0 m))) k = Some (h (match k with 0 => m - 1 | S j => j end)).
Proof.
  intros H. destruct (map h (seq 0 m)) as [|a r] eqn:E.
  { assert (L := f_equal (@length Q) E). rewrite map_length, seq_length in L. cbn in L. lia. }
  assert (L : length (a :: r) = m) by (rewrite <- E, map_length, seq_length; reflexivity).
  unfold roll1. destruct k as [|k]; cbn [nth_error].
  - rewrite <- (last_nth (a :: r)) by discriminate. rewrite L, <- E, nth_error_map, nth_error_seq0 by lia. reflexivity.
  - rewrite nth_error_removelast by lia. rewrite <- E, nth_error_map, nth_error_seq0 by lia. reflexivity.
Qed.

Lemma bin_form simple data weights :
  Forall (within_grid g0 dx n) data ->
  exists out, bin_1d_weighted simple data grid weights = Ok out /\ length out = n /\
    forall k, k < n -> (nth k out 0 ==
      qsum (map (fun p => (snd p / qsum (wts data weights)) * share simple k (fst p)) (combine data (wts data weights))))%Q.
Proof.
  intros HD. unfold bin_1d_weighted. fold (wts data weights). set (ws := wts data weights). set (W := qsum ws).
  cbv zeta. fold W.
  assert (MF : (if simple then map (fun f => if Qlt_bool (1 # 2) f then f else 0%Q)
                   (map (fun t => t - inject_Z (Qfloor t))%Q (map (fun x => (x - qmin_list grid) / ((qmax_list grid - qmin_list grid) / inject_Z (Z.of_nat (length grid - 1))))%Q data))
                else map (fun t => t - inject_Z (Qfloor t))%Q (map (fun x => (x - qmin_list grid) / ((qmax_list grid - qmin_list grid) / inject_Z (Z.of_nat (length grid - 1))))%Q data))
               = map (fun x => phi simple (frac x)) data).
  { destruct simple; rewrite !map_map; reflexivity. }
  rewrite MF. clear MF. rewrite map_map. fold pos. change (fun x => Qfloor (pos x)) with (fun x => Qfloor (pos x)).
  change (map (fun x : Q => Qfloor ((x - qmin_list grid) / ((qmax_list grid - qmin_list grid) / inject_Z (Z.of_nat (length grid - 1))))) data)
    with (map (fun x => Qfloor (pos x)) data).
  rewrite combine_maps. set (evs := combine data ws). rewrite map_map. cbn [fst snd].
  unfold evs. rewrite combine_map_r. fold evs. rewrite map_map. cbn [fst snd].
  assert (NN : existsb (fun z => (z <? 0)%Z) (map (fun x => Qfloor (pos x)) data) = false).
  { destruct (existsb _ _) eqn:E; [|reflexivity]. exfalso. apply existsb_exists in E. destruct E as [z [Hz L]].
    apply in_map_iff in Hz. destruct Hz as [x [Ez Hx]]. subst z. rewrite Forall_forall in HD.
    rewrite <- (cell_floor x (HD x Hx)) in L. apply Z.ltb_lt in L. lia. }
  unfold bincount. rewrite NN. cbn [bind]. unfold evs. rewrite !combine_map_l. fold evs.
  eexists. split; [reflexivity|]. rewrite grid_length.
  split; [rewrite map_length, combine_length, roll_length, !map_length, !seq_length; lia|].
  intros k Hk. apply eq_sym in Hk || idtac.
  set (L := fun k0 : nat => qsum (map snd (filter (fun p : Z * Q => Z.eqb (fst p) (Z.of_nat k0))
     (map (fun p : Q * Q => (Qfloor (pos (fst p)), (phi simple (frac (fst p)) * (snd p / W))%Q)) evs)))).
  set (R := fun k0 : nat => qsum (map snd (filter (fun p : Z * Q => Z.eqb (fst p) (Z.of_nat k0))
     (map (fun p : Q * Q => (Qfloor (pos (fst p)), (snd p / W - phi simple (frac (fst p)) * (snd p / W))%Q)) evs)))).
  assert (NTH : nth_error (map (fun p : Q * Q => (fst p + snd p)%Q) (combine (roll1 (map L (seq 0 n))) (map R (seq 0 n)))) k
     = Some (L (match k with O => (n - 1)%nat | S j => j end) + R k)%Q).
  { rewrite nth_error_map, (combine_nth_error2 _ _ k (L (match k with O => (n - 1)%nat | S j => j end)) (R k)); [reflexivity| |].
    - apply roll_nth. exact Hk.
    - rewrite nth_error_map, nth_error_seq0 by exact Hk. reflexivity. }
  rewrite (nth_error_nth _ _ _ NTH). unfold L, R. rewrite !qsum_filter, !map_map. cbn [fst snd].
  rewrite <- qsum_plus. apply qsum_ext. intros p Hp. destruct p as [x w]. cbn [fst snd].
  assert (G : within_grid g0 dx n x). { apply in_combine_l in Hp. rewrite Forall_forall in HD. apply HD, Hp. }
  rewrite <- (cell_floor x G).
  assert (ZN : forall a b, Z.eqb (Z.of_nat a) (Z.of_nat b) = Nat.eqb a b).
  { intros a b. destruct (Nat.eqb a b) eqn:E; [apply Nat.eqb_eq in E; subst; apply Z.eqb_refl|].
    apply Nat.eqb_neq in E. apply Z.eqb_neq. lia. }
  rewrite !ZN. unfold share. rewrite (Nat.eqb_sym k (cell x)).
  assert (RW : ((if Nat.eqb (cell x) (match k with O => (n - 1)%nat | S j => j end) then phi simple (frac x) * (w / W) else 0)
               == (if Nat.eqb k (S (cell x)) then phi simple (frac x) else 0) * (w / W))%Q).
  { destruct k as [|k].
    - cbn [Nat.eqb]. destruct (Nat.eqb (cell x) (n - 1)) eqn:E; [|ring].
      apply Nat.eqb_eq in E. rewrite (phi_zero simple (frac x) (frac_last x G E)). ring.
    - cbn [Nat.eqb]. rewrite (Nat.eqb_sym k (cell x)). destruct (Nat.eqb (cell x) k); ring. }
  rewrite RW. destruct (Nat.eqb (cell x) k); ring.
Qed.

(** The linear share is the triangle. *)
Lemma Qabs_pos_eq t : (0 <= t -> Qabs t == t)%Q.
Proof. apply Qabs_pos. Qed.
Lemma share_tri k x : within_grid g0 dx n x -> (share false k x == tri ((x - grid_point g0 dx k) / dx))%Q.
Proof.
  intros G.
  assert (T : ((x - grid_point g0 dx k) / dx == inject_Z (Z.of_nat (cell x)) - inject_Z (Z.of_nat k) + frac x)%Q).
  { transitivity (pos x - inject_Z (Z.of_nat k))%Q.
    - rewrite pos_eq. unfold grid_point. field. lra.
    - rewrite (pos_split x G). ring. }
  assert (TC : forall a b, (a == b)%Q -> (tri a == tri b)%Q).
  { intros a b E. unfold tri.
    assert (QB : Qle_bool (Qabs a) 1 = Qle_bool (Qabs b) 1).
    { apply Bool.eq_iff_eq_true. rewrite !Qle_bool_iff. pose proof (Qabs_wd _ _ E). split; intros; lra. }
    rewrite QB. destruct (Qle_bool (Qabs b) 1); [|reflexivity]. pose proof (Qabs_wd _ _ E). lra. }
  rewrite (TC _ _ T). clear T TC. pose proof (frac_bounds x) as [F1 F2]. unfold share, phi.
  assert (IN : (inject_Z (Z.of_nat (cell x)) - inject_Z (Z.of_nat k) == inject_Z (Z.of_nat (cell x) - Z.of_nat k))%Q)
    by (unfold Zminus; rewrite inject_Z_plus, inject_Z_opp; ring).
  unfold tri. set (c := cell x) in *. set (f := frac x) in *.
  set (t := (inject_Z (Z.of_nat c) - inject_Z (Z.of_nat k) + f)%Q).
  assert (Et : (t == inject_Z (Z.of_nat c - Z.of_nat k) + f)%Q) by (unfold t; rewrite IN; reflexivity).
  clearbody t. clear IN.
  destruct (Nat.eqb k (S c)) eqn:E1.
  - apply Nat.eqb_eq in E1. replace (Z.of_nat c - Z.of_nat k)%Z with (-1)%Z in Et by lia. change (inject_Z (-1)) with (-1)%Q in Et.
    replace (Nat.eqb k c) with false by (symmetry; apply Nat.eqb_neq; lia).
    assert (A : (Qabs t == - t)%Q) by (apply Qabs_neg; lra).
    replace (Qle_bool (Qabs t) 1) with true by (symmetry; apply Qle_bool_iff; rewrite A; lra). lra.
  - apply Nat.eqb_neq in E1. destruct (Nat.eqb k c) eqn:E2.
    + apply Nat.eqb_eq in E2. replace (Z.of_nat c - Z.of_nat k)%Z with 0%Z in Et by lia. change (inject_Z 0) with 0%Q in Et.
      assert (A : (Qabs t == t)%Q) by (apply Qabs_pos; lra).
      replace (Qle_bool (Qabs t) 1) with true by (symmetry; apply Qle_bool_iff; rewrite A; lra). lra.
    + apply Nat.eqb_neq in E2.
      assert (A : (1 <= Qabs t)%Q).
      { destruct (Nat.lt_ge_cases c k) as [L|L].
        - assert (Z : (inject_Z (Z.of_nat c - Z.of_nat k) <= inject_Z (-2))%Q) by (rewrite <- Zle_Qle; lia).
          change (inject_Z (-2)) with (-2)%Q in Z. assert (B : (Qabs t == - t)%Q) by (apply Qabs_neg; lra). lra.
        - assert (Z : (inject_Z 1 <= inject_Z (Z.of_nat c - Z.of_nat k))%Q) by (rewrite <- Zle_Qle; lia).
          change (inject_Z 1) with 1%Q in Z. assert (B : (Qabs t == t)%Q) by (apply Qabs_pos; lra). lra. }
      destruct (Qle_bool (Qabs t) 1) eqn:E3; [|lra]. apply Qle_bool_iff in E3. lra.
Qed.

(** Sums of the shares over the points. *)
Lemma share_sum simple (g : nat -> Q) x : within_grid g0 dx n x ->
  (qsum (map (fun k => g k * share simple k x) (seq 0 n))
   == g (cell x) * (1 - phi simple (frac x)) + g (S (cell x)) * phi simple (frac x))%Q.
Proof.
  intros G. pose proof (cell_lt x G) as CL. unfold share.
  rewrite (qsum_ext _ (fun k => (if Nat.eq_dec k (S (cell x)) then g k * phi simple (frac x) else 0)
                              + (if Nat.eq_dec k (cell x) then g k * (1 - phi simple (frac x)) else 0))%Q).
  - rewrite qsum_plus.
    rewrite (qsum_pick Nat.eq_dec (fun k => g k * (1 - phi simple (frac x)))%Q); [|apply seq_NoDup|apply in_seq; lia].
    destruct (Nat.eq_dec (S (cell x)) n) as [E|E].
    + rewrite (phi_zero simple (frac x)) by (apply (frac_last x G); lia).
      rewrite qsum_zero; [ring|]. intros k Hk. apply in_seq in Hk.
      destruct (Nat.eq_dec k (S (cell x))); [lia|reflexivity].
    + rewrite (qsum_pick Nat.eq_dec (fun k => g k * phi simple (frac x))%Q); [ring|apply seq_NoDup|apply in_seq; lia].
  - intros k _. destruct (Nat.eq_dec k (S (cell x))) as [E|E].
    + replace (Nat.eqb k (S (cell x))) with true by (symmetry; apply Nat.eqb_eq; exact E).
      replace (Nat.eqb k (cell x)) with false by (symmetry; apply Nat.eqb_neq; lia).
      destruct (Nat.eq_dec k (cell x)); [lia|ring].
    + replace (Nat.eqb k (S (cell x))) with false by (symmetry; apply Nat.eqb_neq; exact E).
      destruct (Nat.eq_dec k (cell x)) as [E2|E2].
      * replace (Nat.eqb k (cell x)) with true by (symmetry; apply Nat.eqb_eq; exact E2). ring.
      * replace (Nat.eqb k (cell x)) with false by (symmetry; apply Nat.eqb_neq; exact E2). ring.
Qed.

Lemma wts_fold data weights :
  (forall w, weights = Some w -> length w = length data) -> length (wts data weights) = length data.
Proof. intros H. destruct weights as [w|]; cbn; [apply H; reflexivity|apply map_length]. Qed.

Lemma list_as_nth (l : list Q) : l = map (fun k => nth k l 0%Q) (seq 0 (length l)).
Proof.
  apply nth_error_ext. intros k. rewrite nth_error_map. destruct (Nat.lt_ge_cases k (length l)) as [H|H].
  - rewrite nth_error_seq0 by exact H. cbn. apply nth_error_nth'. exact H.
  - rewrite (proj2 (nth_error_None l k)) by exact H. rewrite (proj2 (nth_error_None (seq 0 _) k)) by (rewrite seq_length; exact H). reflexivity.
Qed.

(** Any linear functional of the counts. *)
Lemma bin_functional simple (g : nat -> Q) data weights out :
  Forall (within_grid g0 dx n) data -> bin_1d_weighted simple data grid weights = Ok out ->
  (qsum (map (fun k => g k * nth k out 0) (seq 0 n))
   == qsum (map (fun p => (snd p / qsum (wts data weights)) *
        (g (cell (fst p)) * (1 - phi simple (frac (fst p))) + g (S (cell (fst p))) * phi simple (frac (fst p))))
        (combine data (wts data weights))))%Q.
Proof.
  intros HD E. destruct (bin_form simple data weights HD) as [out' [E' [L A]]].
  assert (out' = out) by congruence. subst out'.
  rewrite (qsum_ext _ (fun k => qsum (map (fun p => (snd p / qsum (wts data weights)) * (g k * share simple k (fst p)))
       (combine data (wts data weights))))%Q).
  - rewrite qsum_swap. apply qsum_ext. intros [x w] Hp. cbn [fst snd]. rewrite qsum_scale.
    rewrite share_sum; [reflexivity|]. apply in_combine_l in Hp. rewrite Forall_forall in HD. apply HD, Hp.
  - intros k Hk. apply in_seq in Hk. rewrite (A k) by lia. rewrite <- qsum_scale. apply qsum_ext. intros p _. ring.
Qed.

Lemma qsum_snd (data ws : list Q) : length ws = length data -> (qsum (map snd (combine data ws)) == qsum ws)%Q.
Proof. intros H. rewrite combine_snd by congruence. reflexivity. Qed.

Lemma bin_total simple data weights out :
  Forall (within_grid g0 dx n) data -> (forall w, weights = Some w -> length w = length data) ->
  ~ (qsum (wts data weights) == 0)%Q ->
  bin_1d_weighted simple data grid weights = Ok out -> (qsum out == 1)%Q.
Proof.
  intros HD HW NZ E. destruct (bin_form simple data weights HD) as [out' [E' [L A]]].
  assert (out' = out) by congruence. subst out'.
  pose proof (bin_functional simple (fun _ => 1%Q) data weights out HD E) as F.
  rewrite (list_as_nth out), L. etransitivity; [|etransitivity; [exact F|]].
  - apply qsum_ext. intros; ring.
  - rewrite (qsum_ext _ (fun p => (/ qsum (wts data weights)) * snd p)%Q) by (intros; unfold Qdiv; ring).
    rewrite qsum_scale, qsum_snd by (apply wts_fold; exact HW). field. exact NZ.
Qed.

Lemma bin_mean data weights out :
  Forall (within_grid g0 dx n) data -> (forall w, weights = Some w -> length w = length data) ->
  ~ (qsum (wts data weights) == 0)%Q ->
  bin_1d_weighted false data grid weights = Ok out ->
  (qsum (map (fun p => fst p * snd p) (combine grid out))
   == qsum (map (fun p => fst p * snd p) (combine data (wts data weights))) / qsum (wts data weights))%Q.
Proof.
  intros HD HW NZ E. destruct (bin_form false data weights HD) as [out' [E' [L A]]].
  assert (out' = out) by congruence. subst out'.
  assert (GL : (qsum (map (fun p => fst p * snd p) (combine grid out))
       == qsum (map (fun k => grid_point g0 dx k * nth k out 0) (seq 0 n)))%Q).
  { pose proof grid_length as GLn.
    rewrite (list_as_nth out) at 1. rewrite (list_as_nth grid) at 1. rewrite L, GLn, combine_map_self, map_map. cbn [fst snd].
    apply qsum_ext. intros k Hk. apply in_seq in Hk. destruct (grid_nth k ltac:(lia)) as [x [Ex X]].
    rewrite (nth_error_nth _ _ _ Ex), X. reflexivity. }
  rewrite GL. rewrite (bin_functional false (grid_point g0 dx) data weights out HD E).
  rewrite (qsum_ext _ (fun p => (/ qsum (wts data weights)) * (fst p * snd p))%Q).
  - rewrite qsum_scale. field. exact NZ.
  - intros [x w] Hp. cbn [fst snd]. assert (G : within_grid g0 dx n x) by (apply in_combine_l in Hp; rewrite Forall_forall in HD; apply HD, Hp).
    unfold phi.
    assert (X : (grid_point g0 dx (cell x) * (1 - frac x) + grid_point g0 dx (S (cell x)) * frac x == x)%Q).
    { transitivity (g0 + dx * (inject_Z (Z.of_nat (cell x)) + frac x))%Q.
      - unfold grid_point. rewrite Nat2Z.inj_succ, <- Z.add_1_r, inject_Z_plus. change (inject_Z 1) with 1%Q. ring.
      - rewrite <- (pos_split x G), pos_eq. field. lra. }
    rewrite X. unfold Qdiv. ring.
Qed.
End Grid.
