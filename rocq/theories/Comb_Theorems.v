(** Theorems about combining spaces with several limits (C06). *)
From Verif Require Import Base BaseLemmas Coord_Model Coord_Spec Coord_Proofs Space_Model Space_Spec Space_Proofs4 Comb_Model Comb_Spec Comb_Proofs Comb_Proofs2 Data_Spec.
Open Scope string_scope. Open Scope list_scope.

(** Combining two spaces, each with any number of limits: an error exactly if the first limits of both disagree in a common
    observable; otherwise the observables are those of the first and then the new ones of the second, and a row is inside if and only
    if it is within some limits of the first and some limits of the second that agree in the common observables. *)
Theorem C06_several_limits_combined : forall os1 os2 a A b B z1 z2,
  has_parts os1 (a :: A) z1 -> has_parts os2 (b :: B) z2 ->
  (disagree a b -> combine_zspaces [z1; z2] = Err LimitsIncompatibleError)
  /\ (~ disagree a b -> exists z os, combine_zspaces [z1; z2] = Ok z /\ z_obs z = Some os /\ first_appearance [] [os1; os2] os
        /\ forall x, length x = length os -> exists r, z_inside z x false = Ok r
             /\ (r = true <-> exists p q, In p (a :: A) /\ In q (b :: B) /\ ~ disagree p q /\ in_both os x p q)).
Proof.
  intros os1 os2 a A b B z1 z2 P1 P2. destruct (combine_two os1 os2 a b A B z1 z2 P1 P2) as [H1 H2]. split; [exact H1|].
  intros D. destruct (H2 D) as [z [ss [E [P H]]]]. exists z, (ordered_union String.eqb [os1; os2]). split; [exact E|].
  split; [apply (parts_obs _ ss); [exact P|destruct P as [[[s [-> _]]|[[? [? [? ->]]] _]] _]; discriminate]|].
  split; [apply union_fa|]. intros x Hl. destruct (parts_inside _ _ _ x P Hl) as [r [Er Hr]]. exists r. split; [exact Er|].
  rewrite Hr. apply H.
Qed.
Print Assumptions C06_several_limits_combined.

(** If the spaces share no observable every combination is taken: a row is inside if and only if it is inside both. *)
Theorem C06_several_limits_product : forall os1 os2 a A b B z1 z2,
  has_parts os1 (a :: A) z1 -> has_parts os2 (b :: B) z2 -> (forall o, In o os1 -> ~ In o os2) ->
  exists z os, combine_zspaces [z1; z2] = Ok z /\ z_obs z = Some os /\ first_appearance [] [os1; os2] os
    /\ forall x, length x = length os -> exists r, z_inside z x false = Ok r
      /\ (r = true <-> (exists p, In p (a :: A) /\ in_box os x (limit_of p)) /\ exists q, In q (b :: B) /\ in_box os x (limit_of q)).
Proof.
  intros os1 os2 a A b B z1 z2 P1 P2 Hd. destruct (C06_several_limits_combined _ _ _ _ _ _ _ _ P1 P2) as [_ H].
  assert (N : forall p q, In p (a :: A) -> In q (b :: B) -> ~ disagree p q).
  { intros p q Hp Hq [o [iv [iv' [L1 [L2 _]]]]]. destruct P1 as [_ K1]. destruct P2 as [_ K2].
    apply (okp_limit_of _ _ _ _ (K1 p Hp)) in L1. apply (okp_limit_of _ _ _ _ (K2 q Hq)) in L2. apply (Hd o); tauto. }
  destruct (H (N a b (or_introl eq_refl) (or_introl eq_refl))) as [z [os [E [Ho [Hf G]]]]].
  exists z, os. split; [exact E|]. split; [exact Ho|]. split; [exact Hf|]. intros x Hl. destruct (G x Hl) as [r [Er Hr]].
  exists r. split; [exact Er|]. rewrite Hr. split.
  - intros [p [q [Hp [Hq [_ [B1 B2]]]]]]. split; [exists p; auto|]. exists q. split; [exact Hq|]. intros o v iv Hc L.
    apply (B2 o v iv Hc). split; [exact L|]. destruct P1 as [_ K1]. destruct P2 as [_ K2]. intros C.
    apply (own_okp _ _ _ (K1 p Hp)) in C. apply (okp_limit_of _ _ _ _ (K2 q Hq)) in L. apply (Hd o); tauto.
  - intros [[p [Hp B1]] [q [Hq B2]]]. exists p, q. split; [exact Hp|]. split; [exact Hq|]. split; [apply N; assumption|].
    split; [exact B1|]. intros o v iv Hc [L _]. apply (B2 o v iv Hc L).
Qed.
Print Assumptions C06_several_limits_product.

Definition dummy : space := mkSpace (mkCoords None None) None None None.
Definition getz {A} (d : A) (r : result A) : A := match r with Ok a => a | Err _ => d end.
Definition sp1 (o : string) (lo up : Q) : space := getz dummy (make_space (Some [o]) None (IRect [lo] [up]) None).
Definition two (o : string) (l1 u1 l2 u2 : Q) : zspace := getz (ZSimple dummy) (add_spaces [ZSimple (sp1 o l1 u1); ZSimple (sp1 o l2 u2)]).
Lemma two_parts : forall o l1 u1 l2 u2 s1 s2, make_space (Some [o]) None (IRect [l1] [u1]) None = Ok s1 ->
  make_space (Some [o]) None (IRect [l2] [u2]) None = Ok s2 -> s_obs s1 = Some [o] -> s_obs s2 = Some [o] ->
  s_axes s1 = None -> s_axes s2 = None -> s_binning s1 = None -> s_binning s2 = None ->
  has_parts [o] [s1; s2] (ZMulti (mkMulti (mkCoords (Some [o]) None) [s1; s2])).
Proof.
  intros o l1 u1 l2 u2 s1 s2 E1 E2 O1 O2 A1 A2 B1 B2. split.
  - right. split; [eauto|reflexivity].
  - intros s [<-|[<-|[]]]; (split; [eapply rs_make; [|eassumption]; repeat constructor; intros []|auto]).
Qed.
(** The hypotheses are met by sums of spaces, and the combination is one of several limits. *)
Example C06_several_limits_nonvacuous :
  has_parts ["x"] [sp1 "x" 0 1; sp1 "x" 2 3] (two "x" 0 1 2 3)
  /\ has_parts ["y"] [sp1 "y" 5 6; sp1 "y" 8 9] (two "y" 5 6 8 9)
  /\ exists z, combine_zspaces [two "x" 0 1 2 3; two "y" 5 6 8 9] = Ok z /\ z_obs z = Some ["x"; "y"]
     /\ z_volume z = Ok (4 # 1)%Q
     /\ z_inside z [(5 # 2)%Q; (11 # 2)%Q] false = Ok true /\ z_inside z [(5 # 2)%Q; 7%Q] false = Ok false.
Proof.
  split; [apply (two_parts "x" 0 1 2 3); reflexivity|]. split; [apply (two_parts "y" 5 6 8 9); reflexivity|].
  eexists. split; [reflexivity|]. repeat split; vm_compute; reflexivity.
Qed.

(** Limits that occur in one of the spaces only are dropped without an error: a row within the limits of both spaces is outside the
    combination. *)
Theorem C06_several_limits_dropped_refuted : exists z1 z2 z x,
  z1 = two "x" 0 1 2 3 /\ z2 = two "x" 0 1 2 (5 # 2) /\ combine_zspaces [z1; z2] = Ok z
  /\ z_inside z1 x false = Ok true /\ z_inside z2 x false = Ok true /\ z_inside z x false = Ok false.
Proof.
  do 3 eexists. exists [(9 # 4)%Q]. split; [reflexivity|]. split; [reflexivity|]. split; [reflexivity|].
  repeat split; vm_compute; reflexivity.
Qed.
Print Assumptions C06_several_limits_dropped_refuted.

(** The same two sets of limits, one listed in another order, are combined or rejected. *)
Theorem C06_several_limits_order_refuted : exists z1 z2 z2',
  z1 = two "x" 0 1 2 3 /\ z2 = two "x" 0 1 2 3 /\ z2' = two "x" 2 3 0 1
  /\ (forall x, z_inside z2 [x] false = z_inside z2' [x] false)
  /\ (exists z, combine_zspaces [z1; z2] = Ok z) /\ combine_zspaces [z1; z2'] = Err LimitsIncompatibleError.
Proof.
  do 3 eexists. split; [reflexivity|]. split; [reflexivity|]. split; [reflexivity|]. split.
  - intros x. cbn. destruct (inside_rect_limits [x] [(0%Q, 1%Q)]), (inside_rect_limits [x] [(2%Q, 3%Q)]); reflexivity.
  - split; [eexists; reflexivity|reflexivity].
Qed.
Print Assumptions C06_several_limits_order_refuted.

(** Combining a space with itself keeps its limits if they are disjoint. *)
Example C06_self_combination : exists z, combine_zspaces [two "x" 0 1 2 3; two "x" 0 1 2 3] = Ok z /\ z_volume z = Ok (2 # 1)%Q.
Proof. eexists. split; [reflexivity|vm_compute; reflexivity]. Qed.

(** Binned spaces: every observable keeps the edges of the first space that has it. *)
Theorem C06_combined_binning : forall ss s' o e,
  Forall rect_space ss -> (forall s, In s ss -> exists b, s_binning s = Some b) -> combine_spaces ss = Ok s' ->
  (edges_of s' o e <-> exists l1 s l2, ss = l1 ++ s :: l2 /\ edges_of s o e /\ forall t, In t l1 -> ~ own t o).
Proof. intros ss s' o e. apply combined_edges. Qed.
Print Assumptions C06_combined_binning.

Definition binned1 (e : list Q) : space := getz dummy (make_space (Some ["x"]) None INone (Some [("x", e)])).
(** Binned spaces with different bin edges of a common observable are combined without an error: the edges of the second are lost. *)
Theorem C06_different_binnings_combined_refuted : exists s1 s2 s e e',
  rect_space s1 /\ rect_space s2 /\ edges_of s1 "x" e /\ edges_of s2 "x" e' /\ length e <> length e'
  /\ combine_spaces [s1; s2] = Ok s /\ edges_of s "x" e /\ ~ edges_of s "x" e'.
Proof.
  exists (binned1 [0; 1 # 2; 1]%Q), (binned1 [0; 1]%Q). eexists. exists [0; 1 # 2; 1]%Q, [0; 1]%Q.
  split; [apply (rs_binned ["x"] None [("x", [0; 1 # 2; 1]%Q)]); [|reflexivity]; repeat constructor; intros []|].
  split; [apply (rs_binned ["x"] None [("x", [0; 1]%Q)]); [|reflexivity]; repeat constructor; intros []|].
  split; [eexists; split; [reflexivity|left; reflexivity]|]. split; [eexists; split; [reflexivity|left; reflexivity]|].
  split; [discriminate|]. split; [reflexivity|]. split; [eexists; split; [reflexivity|left; reflexivity]|].
  intros [b [E Hin]]. injection E as <-. destruct Hin as [Hin|[]]. discriminate.
Qed.
Print Assumptions C06_different_binnings_combined_refuted.

(** Several limits together with a space without limits, or with the limits False, are refused, in both orders. *)
Theorem C06_several_limits_need_limits : forall os1 a b A z1 s2,
  has_parts os1 (a :: b :: A) z1 -> plain_space s2 ->
  combine_zspaces [z1; ZSimple s2] = Err LimitsNotSpecifiedError /\ combine_zspaces [ZSimple s2; z1] = Err LimitsNotSpecifiedError.
Proof. exact combine_plain. Qed.
Print Assumptions C06_several_limits_need_limits.
(** So are binned with unbinned spaces. *)
Theorem C06_several_limits_and_bins : forall os1 a b A z1 s2 os2 e,
  has_parts os1 (a :: b :: A) z1 -> s_obs s2 = Some os2 -> s_binning s2 = Some e ->
  combine_zspaces [z1; ZSimple s2] = Err ValueError /\ combine_zspaces [ZSimple s2; z1] = Err ValueError.
Proof. exact combine_binned. Qed.
Print Assumptions C06_several_limits_and_bins.
Example C06_need_limits_nonvacuous :
  combine_zspaces [two "x" 0 1 2 3; ZSimple (getz dummy (make_space (Some ["y"]) None INone None))] = Err LimitsNotSpecifiedError
  /\ plain_space (getz dummy (make_space (Some ["y"]) None INone None))
  /\ combine_zspaces [two "x" 0 1 2 3; ZSimple (binned1 [0; 1]%Q)] = Err ValueError.
Proof.
  split; [reflexivity|]. split; [|reflexivity]. eapply (ps_make ["y"] None INone); [repeat constructor; intros []|left; reflexivity|reflexivity].
Qed.
