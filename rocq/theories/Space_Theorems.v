(** Property theorems for spaces (C04 - C11). *)
From Coq Require Import Permutation Lqa.
From Verif Require Import Base BaseLemmas Coord_Model Coord_Spec Space_Model Space_Spec
  Space_Proofs Space_Proofs2 Space_Proofs3 Space_Proofs4 Space_Proofs5.
Open Scope string_scope.
Open Scope list_scope.

Ltac nodup := repeat (apply NoDup_cons; [simpl; intuition discriminate|]); apply NoDup_nil.
Definition get {A} (d : A) (r : result A) : A := match r with Ok a => a | Err _ => d end.
Definition s_dummy : space := mkSpace (mkCoords None None) None None None.
Lemma mk_rect os lo up : NoDup os -> (exists s, make_space (Some os) None (IRect lo up) None = Ok s) ->
  rect_space (get s_dummy (make_space (Some os) None (IRect lo up) None)).
Proof. intros Hn [s E]. rewrite E. exact (rs_make _ _ _ _ _ _ Hn E). Qed.
Ltac rect := apply mk_rect; [nodup|eexists; reflexivity].
(** A three-dimensional space with limits x in [0,10], y in [-1,1], z in [5,6]. *)
Definition ex_s : space :=
  get s_dummy (make_space (Some ["x"; "y"; "z"]) None (IRect [0; -1; 5]%Q [10; 1; 6]%Q) None).
Example ex_s_made : make_space (Some ["x"; "y"; "z"]) None (IRect [0; -1; 5]%Q [10; 1; 6]%Q) None = Ok ex_s.
Proof. reflexivity. Qed.
Example ex_s_rect : rect_space ex_s.
Proof. eapply (rs_make ["x"; "y"; "z"]); [nodup|exact ex_s_made]. Qed.
Example ex_s_obs : s_obs ex_s = Some ["x"; "y"; "z"].
Proof. reflexivity. Qed.

(** C04: with_obs keeps the limits attached to the names. *)
Theorem C04_with_obs_keeps_limits : forall s os req sup sub s',
  rect_space s -> s_obs s = Some os -> NoDup req -> s_with_obs s (Some req) sup sub = Ok s' ->
  exists os', s_obs s' = Some os' /\ selects os req os'
    /\ (forall o iv, limit_of s' o iv <-> In o req /\ limit_of s o iv).
Proof. exact C04_limits. Qed.
Print Assumptions C04_with_obs_keeps_limits.

Theorem C04_with_obs_raises_exactly : forall s os req sup sub,
  rect_space s -> s_obs s = Some os -> NoDup req ->
  ((exists s', s_with_obs s (Some req) sup sub = Ok s') <->
   ~ (disjoint_names req os \/ (sup = false /\ has_extra req os) \/ (sub = false /\ misses req os)))
  /\ (forall e, s_with_obs s (Some req) sup sub = Err e -> e = ObsIncompatibleError).
Proof. exact C04_with_obs_succeeds. Qed.
Print Assumptions C04_with_obs_raises_exactly.

Theorem C04_subspace_keeps_limits : forall s os req s',
  rect_space s -> s_obs s = Some os -> NoDup req -> s_get_subspace s req = Ok s' ->
  exists os', s_obs s' = Some os' /\ selects os req os'
    /\ (forall o iv, limit_of s' o iv <-> In o req /\ limit_of s o iv).
Proof. exact C04_subspace. Qed.
Print Assumptions C04_subspace_keeps_limits.

Theorem C04_reorder_keeps_inside : forall s os p s' x x',
  rect_space s -> s_obs s = Some os -> is_perm p os -> s_with_obs s (Some p) false false = Ok s' ->
  length x = length os -> length x' = length p -> same_on os os x p x' ->
  s_inside s' x' false = s_inside s x false.
Proof. exact C04_inside. Qed.
Print Assumptions C04_reorder_keeps_inside.

Theorem C04_reorder_keeps_volume : forall s os p s',
  rect_space s -> s_obs s = Some os -> is_perm p os -> s_with_obs s (Some p) false false = Ok s' ->
  exists v v', s_volume s = Ok v /\ s_volume s' = Ok v' /\ (v' == v)%Q.
Proof. exact C04_volume. Qed.
Print Assumptions C04_reorder_keeps_volume.

Theorem C04_volume_is_product : forall s os ivs,
  rect_space s -> s_obs s = Some os -> s_limits s = Ok ivs ->
  length ivs = length os
  /\ exists v, s_volume s = Ok v /\ v = fold_right (fun iv a => (snd iv - fst iv) * a)%Q 1%Q ivs.
Proof. exact vol_is_product. Qed.
Print Assumptions C04_volume_is_product.

Definition ex_s_zxy : space := get s_dummy (s_with_obs ex_s (Some ["z"; "x"; "y"]) false false).
Example C04_nonvacuous :
  s_with_obs ex_s (Some ["z"; "x"; "y"]) false false = Ok ex_s_zxy
  /\ s_limits ex_s_zxy = Ok [(5, 6); (0, 10); (-1, 1)]%Q
  /\ s_inside ex_s [3; 0; (11#2)]%Q false = Ok true
  /\ s_inside ex_s_zxy [(11#2); 3; 0]%Q false = Ok true
  /\ s_inside ex_s_zxy [3; 0; (11#2)]%Q false = Ok false
  /\ s_volume ex_s = Ok (20 # 1)%Q.
Proof. repeat split; reflexivity. Qed.

(** C04 is restricted to rectangular limits for a reason: a limit given by a function of two
    observables is lost, or kept for the wrong number of columns, by with_obs to one of
    them. *)
Definition ex_fun : space :=
  get s_dummy (make_space (Some ["x"; "y"]) None
                 (IFun 7 (fun v => match v with [a; b] => Qle_bool (a + b) 1 | _ => false end) [0; 0]%Q [1; 1]%Q) None).
Theorem C04_functional_limit_refuted :
  exists s s1 s2, make_space (Some ["x"; "y"]) None
      (IFun 7 (fun v => match v with [a; b] => Qle_bool (a + b) 1 | _ => false end) [0; 0]%Q [1; 1]%Q) None = Ok s
    /\ s_inside s [(1#4); (1#4)]%Q false = Ok true
    /\ s_inside s [(3#4); (3#4)]%Q false = Ok false
    /\ s_with_obs s (Some ["x"]) true true = Ok s1 /\ s_has_limits s1 = true
    /\ s_inside s1 [(1#4)]%Q false <> Ok true /\ s_inside s1 [(1#4)]%Q false <> Ok false
    /\ s_with_obs s (Some ["y"]) true true = Ok s2 /\ s_limits_are_false s2 = true.
Proof. exists ex_fun. do 2 eexists. repeat split; try reflexivity; discriminate. Qed.
Print Assumptions C04_functional_limit_refuted.

(** A binning listed in another order than the observables swaps the limits. *)
Theorem C04_binning_order_refuted :
  exists s, make_space (Some ["x"; "y"]) None INone (Some [("y", [0; 1; 2]%Q); ("x", [10; 20]%Q)]) = Ok s
    /\ limit_of s "x" (0, 2)%Q /\ limit_of s "y" (10, 20)%Q.
Proof.
  eexists. split; [reflexivity|]. split; (do 2 eexists; split; [reflexivity|split; [reflexivity|]]);
  [exists 0%nat|exists 1%nat]; split; reflexivity.
Qed.
Print Assumptions C04_binning_order_refuted.

(** After with_autofill_axes(overwrite=True) the limits attached to the axes are those of
    other observables. *)
Theorem C04_autofill_overwrite_refuted :
  exists s s1 s2, make_space (Some ["x"; "y"]) (Some [1; 0]%Z) (IRect [0; 10]%Q [1; 20]%Q) None = Ok s
    /\ s_with_autofill_axes s true = Ok s1 /\ s_limits s1 = Ok [(0, 1); (10, 20)]%Q
    /\ s_with_obs s1 None true true = Ok s2
    /\ s_axes s2 = Some [0; 1]%Z /\ s_limits s2 = Ok [(10, 20); (0, 1)]%Q.
Proof. do 3 eexists. repeat split; reflexivity. Qed.
Print Assumptions C04_autofill_overwrite_refuted.

(** C05 *)
Theorem C05_inside_iff_in_box : forall s os x,
  rect_space s -> s_obs s = Some os -> length x = length os ->
  exists b, s_inside s x false = Ok b /\ (b = true <-> in_box os x (limit_of s)).
Proof. exact C05_inside. Qed.
Print Assumptions C05_inside_iff_in_box.

Theorem C05_every_observable_has_one_limit : forall s os,
  rect_space s -> s_obs s = Some os ->
  NoDup os /\ forall o, In o os -> exists iv, limit_of s o iv /\ forall iv', limit_of s o iv' -> iv' = iv.
Proof. exact C05_limits_total. Qed.
Print Assumptions C05_every_observable_has_one_limit.

Theorem C05_inside_wrong_number_of_columns : forall s os x g,
  rect_space s -> s_obs s = Some os -> length x <> length os ->
  s_inside s x g = Err ShapeIncompatibleError.
Proof. exact C05_inside_shape. Qed.
Print Assumptions C05_inside_wrong_number_of_columns.

Theorem C05_filter_keeps_exactly_inside : forall s os rows,
  rect_space s -> s_obs s = Some os -> (forall x, In x rows -> length x = length os) ->
  exists out, s_filter s rows false = Ok out /\ kept (fun x => in_box os x (limit_of s)) rows out.
Proof. exact C05_filter. Qed.
Print Assumptions C05_filter_keeps_exactly_inside.

Theorem C05_filter_idempotent : forall s os rows out,
  rect_space s -> s_obs s = Some os -> (forall x, In x rows -> length x = length os) ->
  s_filter s rows false = Ok out -> s_filter s out false = Ok out.
Proof. exact C05_idempotent. Qed.
Print Assumptions C05_filter_idempotent.

Theorem C05_filter_twice_keeps_both : forall s1 s2 os rows mid out,
  rect_space s1 -> rect_space s2 -> s_obs s1 = Some os -> s_obs s2 = Some os ->
  (forall x, In x rows -> length x = length os) ->
  s_filter s1 rows false = Ok mid -> s_filter s2 mid false = Ok out ->
  kept (fun x => in_box os x (limit_of s1) /\ in_box os x (limit_of s2)) rows out.
Proof. exact C05_compose. Qed.
Print Assumptions C05_filter_twice_keeps_both.

Theorem C05_filter_dataframe : forall s os cols rows,
  rect_space s -> s_obs s = Some os -> incl os cols ->
  (forall r, In r rows -> map fst r = cols) -> NoDup cols ->
  exists out, s_filter_df s cols rows false = Ok out
    /\ kept (fun r : df_row => forall o v iv, In (o, v) r -> limit_of s o iv -> between iv v) rows out.
Proof. exact C05_filter_df. Qed.
Print Assumptions C05_filter_dataframe.

Example C05_nonvacuous :
  s_filter ex_s [[0; 1; 5]; [11; 0; 6]; [10; -1; 6]; [3; 0; 4]]%Q false = Ok [[0; 1; 5]; [10; -1; 6]]%Q
  /\ s_filter_df ex_s ["w"; "z"; "y"; "x"]
       [[("w", 9%Q); ("z", 5%Q); ("y", 1%Q); ("x", 0%Q)]; [("w", 0%Q); ("z", 7%Q); ("y", 1%Q); ("x", 0%Q)]] false
     = Ok [[("w", 9%Q); ("z", 5%Q); ("y", 1%Q); ("x", 0%Q)]].
Proof. split; reflexivity. Qed.

(** C06 *)
Theorem C06_combined_limits : forall ss oss s',
  Forall rect_space ss -> map s_obs ss = map Some oss -> combine_spaces ss = Ok s' ->
  exists os', s_obs s' = Some os' /\ first_appearance [] oss os'
  /\ forall o iv, limit_of s' o iv <->
       exists l1 s l2, ss = l1 ++ s :: l2 /\ limit_of s o iv /\ forall t, In t l1 -> ~ own t o.
Proof. exact C06_result. Qed.
Print Assumptions C06_combined_limits.

Theorem C06_combined_inside : forall ss s' os' x,
  Forall rect_space ss -> combine_spaces ss = Ok s' -> s_obs s' = Some os' -> length x = length os' ->
  (forall s t o iv iv', In s ss -> In t ss -> limit_of s o iv -> limit_of t o iv' -> iv = iv') ->
  exists b, s_inside s' x false = Ok b /\ (b = true <-> forall s, In s ss -> in_box os' x (limit_of s)).
Proof. exact C06_inside. Qed.
Print Assumptions C06_combined_inside.

(** Two spaces: an error exactly if a shared observable has different limits. *)
Theorem C06_two_spaces_raise_exactly : forall s1 s2,
  rect_space s1 -> rect_space s2 -> s_binning s1 = None -> s_binning s2 = None ->
  let disagree := exists o iv iv', limit_of s1 o iv /\ limit_of s2 o iv' /\ ~ agree iv iv' in
  (disagree -> combine_spaces [s1; s2] = Err LimitsIncompatibleError)
  /\ (~ disagree -> exists s', combine_spaces [s1; s2] = Ok s').
Proof.
  intros s1 s2 R1 R2 B1 B2 dis.
  destruct (C06_raises [s1; s2]) as [H1 H2].
  - repeat constructor; assumption.
  - intros s [<-|[<-|[]]]; assumption.
  - discriminate.
  - apply two_not_nested.
  - split.
    + intros [o [iv [iv' [L1 [L2 Hn]]]]]. apply H1. exists o, [], s1, [s2], s2, iv, iv'.
      split; [reflexivity|]. split; [exact L1|]. split; [intros r []|]. split; [left; reflexivity|]. split; assumption.
    + intros D. apply H2. intros [o [l1 [s [l2 [t [iv [iv' [E [L1 [_ [Ht [L2 Hn]]]]]]]]]]]].
      destruct l1 as [|a [|b l1]]; simpl in E; inversion E; subst.
      * destruct Ht as [<-|[]]. apply D. exists o, iv, iv'. auto.
      * destruct Ht.
      * destruct l1; discriminate.
Qed.
Print Assumptions C06_two_spaces_raise_exactly.

(** Any number of spaces, unless the observables are shared in a nested way. *)
Theorem C06_raise_exactly_partial : forall ss,
  Forall rect_space ss -> (forall s, In s ss -> s_binning s = None) -> ss <> [] -> not_nested ss ->
  let disagree := exists o l1 s l2 t iv iv',
      ss = l1 ++ s :: l2 /\ limit_of s o iv /\ (forall r, In r l1 -> ~ own r o)
      /\ In t l2 /\ limit_of t o iv' /\ ~ agree iv iv' in
  (disagree -> combine_spaces ss = Err LimitsIncompatibleError)
  /\ (~ disagree -> exists s', combine_spaces ss = Ok s').
Proof. exact C06_raises. Qed.
Print Assumptions C06_raise_exactly_partial.

Definition ex_1 : space := get s_dummy (make_space (Some ["x"; "y"]) None (IRect [0; 0]%Q [1; 1]%Q) None).
Definition ex_1' : space := get s_dummy (make_space (Some ["y"; "x"]) None (IRect [0; 0]%Q [1; 1]%Q) None).
Definition ex_2 : space := get s_dummy (make_space (Some ["y"; "z"]) None (IRect [0; 5]%Q [1; 6]%Q) None).
Definition ex_3 : space := get s_dummy (make_space (Some ["y"]) None (IRect [-7]%Q [8]%Q) None).
Definition ex_4 : space := get s_dummy (make_space (Some ["y"]) None (IRect [0]%Q [1]%Q) None).
Example ex_1_rect : rect_space ex_1.  Proof. rect. Qed.
Example ex_1'_rect : rect_space ex_1'. Proof. rect. Qed.
Example ex_2_rect : rect_space ex_2.  Proof. rect. Qed.
Example ex_3_rect : rect_space ex_3.  Proof. rect. Qed.
Example ex_4_rect : rect_space ex_4.  Proof. rect. Qed.
Example C06_nonvacuous :
  (exists s, combine_spaces [ex_1; ex_2] = Ok s /\ s_obs s = Some ["x"; "y"; "z"]
     /\ s_limits s = Ok [(0, 1); (0, 1); (5, 6)]%Q)
  /\ combine_spaces [ex_1; ex_3] = Err LimitsIncompatibleError.
Proof. split; [eexists; repeat split; reflexivity|reflexivity]. Qed.

(** With three spaces the check can be skipped: the y-limits of the third are ignored. *)
Theorem C06_mismatch_accepted_refuted :
  exists s1 s2 s3 s', rect_space s1 /\ rect_space s2 /\ rect_space s3 /\
    combine_spaces [s1; s2; s3] = Ok s' /\
    limit_of s1 "y" (0, 1)%Q /\ limit_of s3 "y" (-7, 8)%Q.
Proof.
  exists ex_1, ex_1, ex_3. eexists. split; [exact ex_1_rect|]. split; [exact ex_1_rect|]. split; [exact ex_3_rect|].
  split; [reflexivity|]. split; (do 2 eexists; split; [reflexivity|split; [reflexivity|]]);
  [exists 1%nat|exists 0%nat]; split; reflexivity.
Qed.
Print Assumptions C06_mismatch_accepted_refuted.

(** ... and compatible spaces can fail with a KeyError. *)
Theorem C06_compatible_key_error_refuted :
  exists s1 s2 s3, rect_space s1 /\ rect_space s2 /\ rect_space s3 /\
    s_eq s1 s2 = Ok true /\ limit_of s1 "y" (0, 1)%Q /\ limit_of s3 "y" (0, 1)%Q /\
    combine_spaces [s1; s2; s3] = Err KeyError.
Proof.
  exists ex_1', ex_1', ex_4. split; [exact ex_1'_rect|]. split; [exact ex_1'_rect|]. split; [exact ex_4_rect|].
  split; [reflexivity|]. split; [|split; [|reflexivity]]; (do 2 eexists; split; [reflexivity|split; [reflexivity|]]);
  exists 0%nat; split; reflexivity.
Qed.
Print Assumptions C06_compatible_key_error_refuted.

(** C07 *)
Theorem C07_any_of_the_limits : forall s0 r os0,
  Forall rect_space (s0 :: r) -> s_obs s0 = Some os0 ->
  (forall s, In s (s0 :: r) -> s_binning s = None) ->
  (forall s os, In s (s0 :: r) -> s_obs s = Some os -> forall o, In o os <-> In o os0) ->
  exists z, add_spaces (map ZSimple (s0 :: r)) = Ok z /\ z_obs z = Some os0 /\
    (forall x, length x = length os0 -> exists b, z_inside z x false = Ok b /\
      (b = true <-> exists s, In s (s0 :: r) /\ in_box os0 x (limit_of s))) /\
    (exists v vs, z_volume z = Ok v
       /\ Forall2 (fun s a => exists a', s_volume s = Ok a' /\ (a == a')%Q) (s0 :: r) vs
       /\ (v == fold_right Qplus 0 vs)%Q).
Proof. exact C07_inside. Qed.
Print Assumptions C07_any_of_the_limits.

Theorem C07_order_independent : forall os l l',
  Forall rect_space l -> Permutation l l' ->
  (forall s, In s l -> s_binning s = None /\ s_obs s = Some os) -> l <> [] ->
  exists z z', add_spaces (map ZSimple l) = Ok z /\ add_spaces (map ZSimple l') = Ok z' /\
    (forall x, length x = length os -> z_inside z x false = z_inside z' x false).
Proof. exact C07_order. Qed.
Print Assumptions C07_order_independent.

Definition ex_5 : space := get s_dummy (make_space (Some ["y"; "x"]) None (IRect [3; 10]%Q [4; 12]%Q) None).
Example C07_nonvacuous :
  exists z, add_spaces [ZSimple ex_1; ZSimple ex_5] = Ok z
    /\ z_inside z [11; (7#2)]%Q false = Ok true /\ z_inside z [(7#2); 11]%Q false = Ok false
    /\ z_inside z [1; 0]%Q false = Ok true /\ z_volume z = Ok 3%Q.
Proof. eexists. repeat split; reflexivity. Qed.

(** C08 *)
Theorem C08_equal_iff : forall s1 os1 s2 os2,
  rect_space s1 -> rect_space s2 -> s_obs s1 = Some os1 -> s_obs s2 = Some os2 ->
  exists b, s_eq s1 s2 = Ok b /\
    (b = true <-> (forall o, In o os1 <-> In o os2)
                  /\ forall o iv1 iv2, limit_of s1 o iv1 -> limit_of s2 o iv2 -> agree iv1 iv2).
Proof. exact C08_eq. Qed.
Print Assumptions C08_equal_iff.

Theorem C08_equality_reflexive : forall s, rect_space s -> s_eq s s = Ok true.
Proof. exact C08_refl. Qed.
Print Assumptions C08_equality_reflexive.

Theorem C08_equality_symmetric : forall s1 s2, rect_space s1 -> rect_space s2 -> s_eq s1 s2 = s_eq s2 s1.
Proof. exact C08_sym. Qed.
Print Assumptions C08_equality_symmetric.

Theorem C08_equality_ignores_order : forall s1 s2 os p s1',
  rect_space s1 -> rect_space s2 -> s_obs s1 = Some os -> is_perm p os ->
  s_with_obs s1 (Some p) false false = Ok s1' -> s_eq s1' s2 = s_eq s1 s2.
Proof. exact C08_reorder. Qed.
Print Assumptions C08_equality_ignores_order.

Example C08_nonvacuous :
  s_eq ex_s_zxy ex_s = Ok true /\ s_eq ex_1 ex_5 = Ok false /\ s_eq ex_1 ex_2 = Ok false.
Proof. repeat split; reflexivity. Qed.

(** Equal spaces can have different hash keys (dictionary order), so a Python set or dict
    keeps them apart. *)
Theorem C08_equal_but_different_hash_refuted :
  exists s1 s2, rect_space s1 /\ rect_space s2 /\ s_eq s1 s2 = Ok true /\ s_hash_key s1 <> s_hash_key s2.
Proof.
  exists ex_1, ex_1'. split; [exact ex_1_rect|]. split; [exact ex_1'_rect|]. split; [reflexivity|discriminate].
Qed.
Print Assumptions C08_equal_but_different_hash_refuted.

(** The tolerance makes equality not transitive, and a binning is not looked at. *)
Definition ex_b (u : Q) : space := get s_dummy (make_space (Some ["x"]) None (IRect [0]%Q [u]%Q) None).
Theorem C08_not_transitive_refuted :
  exists s1 s2 s3, rect_space s1 /\ rect_space s2 /\ rect_space s3
    /\ s_eq s1 s2 = Ok true /\ s_eq s2 s3 = Ok true /\ s_eq s1 s3 = Ok false.
Proof.
  exists (ex_b 1), (ex_b (1 + (6 # 1000000000))), (ex_b (1 + (12 # 1000000000))).
  repeat split; try reflexivity; rect.
Qed.
Print Assumptions C08_not_transitive_refuted.

Theorem C08_binning_ignored_refuted :
  exists s1 s2, rect_space s1 /\ rect_space s2 /\ s_eq s1 s2 = Ok true
    /\ s_binning s1 = Some [("x", [0; 1; 2]%Q)] /\ s_binning s2 = None.
Proof.
  exists (get s_dummy (make_space (Some ["x"]) None INone (Some [("x", [0; 1; 2]%Q)]))), (ex_b 2).
  split; [eapply (rs_binned ["x"] None [("x", [0; 1; 2]%Q)]); [nodup|reflexivity]|]. split; [rect|].
  repeat split; reflexivity.
Qed.
Print Assumptions C08_binning_ignored_refuted.

(** C09: what [<=] compares, and that it is not containment. *)
Theorem C09_less_equal_compares_ends : forall s1 s2 os1 os2,
  rect_space s1 -> rect_space s2 -> s_obs s1 = Some os1 -> s_obs s2 = Some os2 ->
  s_axes s1 = None -> s_axes s2 = None -> s_binning s1 = None -> s_binning s2 = None ->
  exists b, s_le s1 s2 = Ok b /\
    (b = true <-> (forall o, In o os1 <-> In o os2) /\
       forall o l1 u1 l2 u2, limit_of s1 o (l1, u1) -> limit_of s2 o (l2, u2) -> (l1 <= l2 /\ u1 <= u2)%Q).
Proof. exact C09_le. Qed.
Print Assumptions C09_less_equal_compares_ends.

Theorem C09_less_equal_containment_refuted :
  exists s1 s2 x, rect_space s1 /\ rect_space s2 /\ s_le s1 s2 = Ok true
    /\ s_inside s1 x false = Ok true /\ s_inside s2 x false = Ok false.
Proof.
  exists (ex_b 2), (get s_dummy (make_space (Some ["x"]) None (IRect [1]%Q [3]%Q) None)), [(1#2)]%Q.
  repeat split; try reflexivity; rect.
Qed.
Print Assumptions C09_less_equal_containment_refuted.

(** ... nor does containment imply [<=]. *)
Theorem C09_containment_without_less_equal_refuted :
  exists s1 s2, rect_space s1 /\ rect_space s2 /\ s_le s1 s2 = Ok false
    /\ forall x, length x = 1%nat -> s_inside s1 x false = Ok true -> s_inside s2 x false = Ok true.
Proof.
  pose (s1 := get s_dummy (make_space (Some ["x"]) None (IRect [1]%Q [2]%Q) None)).
  assert (R1 : rect_space s1) by (rect).
  assert (R2 : rect_space (ex_b 3)) by (rect).
  exists s1, (ex_b 3). split; [exact R1|]. split; [exact R2|]. split; [reflexivity|].
  intros x Hl H. destruct x as [|v [|w x]]; try discriminate.
  destruct (C05_inside s1 ["x"] [v] R1 eq_refl eq_refl) as [b [E Hb]]. rewrite H in E. inversion E; subst b.
  destruct (C05_inside (ex_b 3) ["x"] [v] R2 eq_refl eq_refl) as [b [E2 Hb2]]. rewrite E2. f_equal. apply Hb2.
  assert (B : between (1, 2)%Q v).
  { apply (proj1 Hb eq_refl "x"); [exists 0%nat; split; reflexivity|].
    do 2 eexists. split; [reflexivity|]. split; [reflexivity|]. exists 0%nat. split; reflexivity. }
  intros o v' iv [k [K1 K2]] [os [ivs [L1 [L2 [k' [K3 K4]]]]]].
  inversion L1; subst os. inversion L2; subst ivs. destruct k as [|[|k]]; try discriminate. destruct k' as [|[|k']]; try discriminate.
  simpl in *. inversion K2; subst v'. inversion K4; subst iv. unfold between in *. simpl in *. lra.
Qed.
Print Assumptions C09_containment_without_less_equal_refuted.

(** C10 *)
Theorem C10_truncated_rejects_exactly_overlaps : forall l,
  (forall iv, In iv l -> (fst iv < snd iv)%Q) ->
  (ForallOrdPairs (fun a b => ~ overlap a b) l -> exists l', check_limits l = Ok l' /\ Permutation l l')
  /\ (~ ForallOrdPairs (fun a b => ~ overlap a b) l -> check_limits l = Err ValueError).
Proof. exact C10_check. Qed.
Print Assumptions C10_truncated_rejects_exactly_overlaps.

Theorem C10_truncated_order_independent : forall l l',
  (forall iv, In iv l -> (fst iv < snd iv)%Q) -> Permutation l l' ->
  (exists r, check_limits l = Ok r) <-> (exists r, check_limits l' = Ok r).
Proof. exact C10_order. Qed.
Print Assumptions C10_truncated_order_independent.

Example C10_nonvacuous :
  check_limits [(3, 4); (0, 1); (1, 3)]%Q = Ok [(0, 1); (1, 3); (3, 4)]%Q
  /\ check_limits [(3, 4); (0, 10); (20, 21)]%Q = Err ValueError
  /\ check_limits [(0, 10); (20, 21); (3, 4)]%Q = Err ValueError.
Proof. repeat split; reflexivity. Qed.

(** limits_overlap depends on the order: an interval around an earlier one is not seen. *)
Theorem C10_limits_overlap_order_refuted :
  exists s1 s2, rect_space s1 /\ rect_space s2
    /\ limits_overlap [ZSimple s1; ZSimple s2] false = Ok true
    /\ limits_overlap [ZSimple s2; ZSimple s1] false = Ok false.
Proof.
  exists (ex_b 10), (get s_dummy (make_space (Some ["x"]) None (IRect [2]%Q [3]%Q) None)).
  repeat split; try reflexivity; rect.
Qed.
Print Assumptions C10_limits_overlap_order_refuted.

(** C11: a partition as long as sharing an observable is transitive among the objects. *)
Theorem C11_obs_subsets_partition_partial : forall dims,
  (forall d, In d dims -> d <> []) ->
  (forall a b c, In a dims -> In b dims -> In c dims -> share a b -> share b c -> share a c) ->
  partition_by_obs dims (obs_subsets dims).
Proof. exact subsets_partition. Qed.
Print Assumptions C11_obs_subsets_partition_partial.

Example C11_nonvacuous :
  obs_subsets [["x"]; ["y"; "z"]; ["x"; "w"]; ["z"; "y"]]
  = [(["x"; "w"], [["x"]; ["x"; "w"]]); (["y"; "z"], [["y"; "z"]; ["z"; "y"]])].
Proof. reflexivity. Qed.

(** An object that bridges two groups joins only the first: the groups overlap. *)
Theorem C11_bridge_refuted :
  exists dims g g', obs_subsets dims = [g; g'] /\ share (fst g) (fst g').
Proof.
  exists [["x"]; ["y"]; ["x"; "y"]]. do 2 eexists. split; [reflexivity|]. exists "y". simpl. auto.
Qed.
Print Assumptions C11_bridge_refuted.

(** Objects can be lost altogether. *)
Theorem C11_object_lost_refuted :
  exists dims d, In d dims /\ forall g, In g (obs_subsets dims) -> ~ In d (snd g).
Proof.
  exists [["x"]; ["y"]; ["x"; "y"]; ["y"; "x"]], ["x"]. split; [left; reflexivity|].
  intros g Hg. vm_compute in Hg. repeat (destruct Hg as [<-|Hg]; [simpl; intuition congruence|]). destruct Hg.
Qed.
Print Assumptions C11_object_lost_refuted.
