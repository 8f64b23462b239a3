(** Further property theorems for spaces (C04, C05, C07 - C10): creation and flags, axes, sums that
    are refused, equality and order for all kinds of limits, the rule of [limits_overlap]. *)
From Coq Require Import Permutation Lqa.
From Verif Require Import Base BaseLemmas Coord_Model Coord_Spec Space_Model Space_Spec
  Data_Model Data_Spec Data_Proofs Space_Proofs6 Space_Proofs7 Space_Proofs8 Space_Proofs9.
Open Scope string_scope.
Open Scope list_scope.
Open Scope nat_scope.

Ltac nodup := repeat (apply NoDup_cons; [simpl; intuition discriminate|]); apply NoDup_nil.
Definition get {A} (d : A) (r : result A) : A := match r with Ok a => a | Err _ => d end.
Definition s_dummy : space := mkSpace (mkCoords None None) None None None.
Lemma mk_rect os axs lo up b : NoDup os -> (exists s, make_space (Some os) axs (IRect lo up) b = Ok s) ->
  rect_space (get s_dummy (make_space (Some os) axs (IRect lo up) b)).
Proof. intros Hn [s E]. rewrite E. exact (rs_make _ _ _ _ _ _ Hn E). Qed.
Ltac rect := apply mk_rect; [nodup|eexists; reflexivity].

(** C04: [with_axes] on a space that has axes keeps the limit of every axis that stays, under the same
    observable, in the order asked for. *)
Theorem C04_with_axes_keeps_limits : forall s axs req sup sub s',
  rect_space s -> s_axes s = Some axs -> NoDup axs -> NoDup req -> s_with_axes s (Some req) sup sub = Ok s' ->
  s_axes s' = Some (filter (fun a => existsb (Z.eqb a) axs) req)
  /\ (forall o a, paired (s_coords s') o a <-> paired (s_coords s) o a /\ In a req)
  /\ (forall o iv, limit_of s' o iv <-> limit_of s o iv /\ exists a, In a req /\ paired (s_coords s) o a).
Proof. exact with_axes_limits. Qed.
Print Assumptions C04_with_axes_keeps_limits.

(** C04: [with_axes] on a space without axes attaches the axes to the observables in order. *)
Theorem C04_axes_attached : forall s os a sup sub, rect_space s -> s_obs s = Some os -> s_axes s = None ->
  (length a = length os -> exists s', s_with_axes s (Some a) sup sub = Ok s' /\ s_obs s' = Some os /\ s_axes s' = Some a
     /\ s_limits s' = s_limits s)
  /\ (length a <> length os -> s_with_axes s (Some a) sup sub = Err AxesIncompatibleError).
Proof. exact set_axes_limits. Qed.
Print Assumptions C04_axes_attached.

Definition t2_ax : space := get s_dummy (make_space (Some ["x"; "y"; "z"]) (Some [2; 0; 1]%Z) (IRect [0; -1; 5]%Q [10; 1; 6]%Q) None).
Example C04_axes_nonvacuous : rect_space t2_ax /\ NoDup [2; 0; 1]%Z /\ s_axes t2_ax = Some [2; 0; 1]%Z
  /\ exists s', s_with_axes t2_ax (Some [1; 7; 2]%Z) true true = Ok s' /\ s_obs s' = Some ["z"; "x"]
       /\ s_limits s' = Ok [(5, 6); (0, 10)]%Q.
Proof.
  split; [rect|]. split; [nodup|]. split; [reflexivity|]. eexists. split; [reflexivity|]. split; reflexivity.
Qed.

(** C05: a space with rectangular limits can be created exactly if there is one lower and one upper end
    per observable, each lower end strictly below its upper end; its limits are those given, in order. *)
Theorem C05_created_limits : forall os axs lo up,
  os <> [] -> NoDup os -> (forall a, axs = Some a -> length a = length os) ->
  (length lo = length os -> length up = length os -> Forall2 Qlt lo up ->
     exists s, make_space (Some os) axs (IRect lo up) None = Ok s /\ s_obs s = Some os /\ s_axes s = axs /\ s_limits s = Ok (combine lo up))
  /\ (~ (length lo = length os /\ length up = length os) -> make_space (Some os) axs (IRect lo up) None = Err ShapeIncompatibleError)
  /\ (length lo = length os -> length up = length os -> ~ Forall2 Qlt lo up ->
        make_space (Some os) axs (IRect lo up) None = Err InvalidArgumentError).
Proof.
  intros os axs lo up Hne Hnd Ha. split; [|split].
  - intros H1 H2 F. destruct (created_ok os axs lo up Hne Hnd Ha H1 H2 F) as [s E]. exists s. split; [exact E|].
    apply (created_limits _ _ _ _ _ Hnd E).
  - apply created_shape; assumption.
  - apply created_order; assumption.
Qed.
Print Assumptions C05_created_limits.

Example C05_created_nonvacuous :
  Forall2 Qlt [0; -1]%Q [10; 1]%Q /\ ~ Forall2 Qlt [0; 1]%Q [10; 1]%Q
  /\ make_space (Some ["x"; "y"]) None (IRect [0; 1]%Q [10; 1]%Q) None = Err InvalidArgumentError.
Proof.
  split; [repeat constructor|]. split; [|reflexivity]. intros F. inversion F as [|? ? ? ? _ F1]; subst. inversion F1 as [|? ? ? ? C _]; subst. discriminate C.
Qed.

(** C05: the flags of a space tell what is known of its limits: rectangular limits; explicitly no limits
    ([False]); nothing given. Only in the first case can one ask for the limits or whether a point is inside. *)
Theorem C05_limit_flags : forall os axs i s, NoDup os -> make_space (Some os) axs i None = Ok s ->
  (i = INone -> s_limits_are_set s = false /\ s_limits_are_false s = false /\ s_has_limits s = false /\ s_has_rect s = false)
  /\ (i = IFalse -> s_limits_are_set s = true /\ s_limits_are_false s = true /\ s_has_limits s = false /\ s_has_rect s = false)
  /\ (i = INone \/ i = IFalse -> (exists e, s_limits s = Err e)
        /\ forall x, length x = s_n_obs s -> s_inside s x false = Err LimitsNotSpecifiedError)
  /\ (forall lo up, i = IRect lo up -> s_limits_are_set s = true /\ s_limits_are_false s = false /\ s_has_limits s = true /\ s_has_rect s = true).
Proof.
  intros os axs i s Hnd H. destruct (make_plain_flags _ _ _ _ Hnd H) as [A B].
  assert (P : i = INone \/ i = IFalse -> plain_space s) by (intros Hi; exact (ps_make _ _ _ _ Hnd Hi H)).
  split; [|split; [|split]].
  - intros E. destruct (A E) as [A1 A2]. destruct (plain_flags s (P (or_introl E))) as [P1 [P2 _]]. auto.
  - intros E. destruct (B E) as [A1 A2]. destruct (plain_flags s (P (or_intror E))) as [P1 [P2 _]]. auto.
  - intros E. destruct (plain_flags s (P E)) as [_ [_ [_ [P4 P5]]]]. auto.
  - intros lo up ->. apply rect_flags. exact (rs_make _ _ _ _ _ _ Hnd H).
Qed.
Print Assumptions C05_limit_flags.

Example C05_flags_nonvacuous :
  (exists s, make_space (Some ["x"; "y"]) None INone None = Ok s) /\ (exists s, make_space (Some ["x"; "y"]) None IFalse None = Ok s).
Proof. split; eexists; reflexivity. Qed.

(** C05: a point lies inside a space with a function as limits exactly if the function says so, for the
    values in the order of the observables of the space as it was created, also after the space was
    reordered; the rectangle around the function plays no part. *)
Theorem C05_functional_limits : forall os os2 f fn lo up s sup sub s2 x x2 g,
  os <> [] -> NoDup os -> NoDup os2 -> (forall o, In o os2 <-> In o os) ->
  make_space (Some os) None (IFun f fn lo up) None = Ok s -> s_with_obs s (Some os2) sup sub = Ok s2 ->
  length x = length os -> length x2 = length os2 -> (forall o v, column os x o v <-> column os2 x2 o v) ->
  s_inside s x g = Ok (fn x) /\ s_inside s2 x2 g = Ok (fn x).
Proof. exact fun_inside. Qed.
Print Assumptions C05_functional_limits.

Example C05_functional_nonvacuous :
  let fn := fun l => match l with a :: b :: _ => Qle_bool a b | _ => false end in
  exists s s2, make_space (Some ["x"; "y"]) None (IFun 0 fn [0; 0]%Q [10; 10]%Q) None = Ok s
    /\ s_with_obs s (Some ["y"; "x"]) false false = Ok s2
    /\ s_inside s [1; 50]%Q true = Ok true /\ s_inside s2 [50; 1]%Q true = Ok true /\ s_inside s2 [1; 5]%Q true = Ok false.
Proof. intros fn. do 2 eexists. split; [reflexivity|]. split; [reflexivity|]. split; [reflexivity|]. split; reflexivity. Qed.

(** C07: spaces with different observables cannot be added. *)
Theorem C07_different_observables_refused : forall s0 r os0, Forall data_space (s0 :: r) -> s_obs s0 = Some os0 ->
  (exists s os, In s r /\ s_obs s = Some os /\ ~ (forall o, In o os <-> In o os0)) ->
  add_spaces (map ZSimple (s0 :: r)) = Err ObsIncompatibleError.
Proof. exact add_obs_differ. Qed.
Print Assumptions C07_different_observables_refused.

(** C07: spaces with limits and spaces without cannot be added; of spaces that all have none the first stays. *)
Theorem C07_mixed_limits_refused : forall s0 r os0, Forall data_space (s0 :: r) -> s_obs s0 = Some os0 ->
  (forall s, In s (s0 :: r) -> s_axes s = None /\ exists os, s_obs s = Some os /\ forall o, In o os <-> In o os0) ->
  ((exists s, In s (s0 :: r) /\ s_has_limits s = true) -> (exists s, In s (s0 :: r) /\ s_has_limits s = false) ->
     add_spaces (map ZSimple (s0 :: r)) = Err LimitsIncompatibleError)
  /\ ((forall s, In s (s0 :: r) -> s_has_limits s = false) ->
     exists s, add_spaces (map ZSimple (s0 :: r)) = Ok (ZSimple s) /\ s_obs s = Some os0 /\ s_has_limits s = false
       /\ s_limits_are_set s = s_limits_are_set s0).
Proof. exact add_mixed. Qed.
Print Assumptions C07_mixed_limits_refused.

(** C07: neither can spaces with different binnings. *)
Theorem C07_different_binnings_refused : forall s0 r, (exists s, In s r /\ ~ same_binning (s_binning s) (s_binning s0)) ->
  add_spaces (map ZSimple (s0 :: r)) = Err ValueError.
Proof. exact add_binnings_differ. Qed.
Print Assumptions C07_different_binnings_refused.

(** C07: a caller who guarantees that the points are inside gets [true] for every point with the right
    number of columns, if all the limits are rectangular. *)
Theorem C07_guaranteed_inside : forall c ss x, Forall rect_space ss -> length x = n_obs c ->
  z_inside (ZMulti (mkMulti c ss)) x true = Ok true.
Proof.
  intros c ss x R Hx. unfold z_inside. cbn [m_coords m_spaces]. unfold sanitize_x. rewrite Hx, Nat.eqb_refl. cbn [negb bind].
  replace (m_has_rect (mkMulti c ss)) with true; [reflexivity|]. symmetry. unfold m_has_rect. cbn [m_spaces]. apply forallb_forall.
  intros s Hs. rewrite Forall_forall in R. apply (rect_flags s (R s Hs)).
Qed.
Print Assumptions C07_guaranteed_inside.

Definition t2_1 : space := get s_dummy (make_space (Some ["x"; "y"]) None (IRect [0; -1]%Q [10; 1]%Q) None).
Definition t2_2 : space := get s_dummy (make_space (Some ["y"; "x"]) None INone None).
Definition t2_3 : space := get s_dummy (make_space (Some ["y"; "z"]) None (IRect [0; -1]%Q [10; 1]%Q) None).
Definition t2_b : space := get s_dummy (make_space (Some ["x"; "y"]) None (IRect [0; -1]%Q [10; 1]%Q) (Some [("x", [0; 10]%Q); ("y", [-1; 1]%Q)])).
Example C07_refused_nonvacuous : data_space t2_1 /\ data_space t2_2 /\ data_space t2_3
  /\ add_spaces [ZSimple t2_1; ZSimple t2_2] = Err LimitsIncompatibleError
  /\ add_spaces [ZSimple t2_1; ZSimple t2_3] = Err ObsIncompatibleError
  /\ add_spaces [ZSimple t2_1; ZSimple t2_b] = Err ValueError
  /\ s_has_limits t2_1 = true /\ s_has_limits t2_2 = false /\ s_axes t2_1 = None /\ s_axes t2_2 = None.
Proof.
  assert (R : rect_space t2_1) by rect. assert (R3 : rect_space t2_3) by rect.
  split; [left; split; [exact R|reflexivity]|]. split; [right; apply (ps_make ["y"; "x"] None INone); [nodup|left; reflexivity|reflexivity]|].
  split; [left; split; [exact R3|reflexivity]|]. repeat split.
Qed.

(** C08: equality of spaces for unbinned data, with or without limits: the same observables in any order,
    the same kind of limits, and limits that agree. *)
Theorem C08_equal_with_or_without_limits : forall s1 s2 os1 os2,
  data_space s1 -> data_space s2 -> s_obs s1 = Some os1 -> s_obs s2 = Some os2 ->
  exists b, s_eq s1 s2 = Ok b /\
    (b = true <-> (forall o, In o os1 <-> In o os2)
       /\ s_limits_are_set s1 = s_limits_are_set s2 /\ s_limits_are_false s1 = s_limits_are_false s2
       /\ forall o iv1 iv2, limit_of s1 o iv1 -> limit_of s2 o iv2 -> agree iv1 iv2).
Proof. exact eq_data. Qed.
Print Assumptions C08_equal_with_or_without_limits.

(** C08: spaces with a function as limits are equal exactly if they have the same observables and the
    same function, whatever the rectangle around it. *)
Theorem C08_equal_functional_limits : forall os1 os2 f g fn gn lo1 up1 lo2 up2 s1 s2,
  os1 <> [] -> os2 <> [] -> NoDup os1 ->
  make_space (Some os1) None (IFun f fn lo1 up1) None = Ok s1 -> make_space (Some os2) None (IFun g gn lo2 up2) None = Ok s2 ->
  exists b, s_eq s1 s2 = Ok b /\ (b = true <-> (forall o, In o os1 <-> In o os2) /\ f = g).
Proof. exact fun_equal. Qed.
Print Assumptions C08_equal_functional_limits.

(** C08: a space with a function as limits is never equal to one with rectangular limits. *)
Theorem C08_functional_not_rectangular : forall os1 os2 f fn lo1 up1 s1 s2, os1 <> [] -> NoDup os1 ->
  make_space (Some os1) None (IFun f fn lo1 up1) None = Ok s1 -> rect_space s2 -> s_obs s2 = Some os2 -> s_axes s2 = None ->
  s_eq s1 s2 = Ok false /\ s_eq s2 s1 = Ok false.
Proof. exact fun_rect_unequal. Qed.
Print Assumptions C08_functional_not_rectangular.

Example C08_functional_not_rectangular_nonvacuous :
  (exists s, make_space (Some ["x"; "y"]) None (IFun 0 (fun _ => true) [0; 0]%Q [10; 10]%Q) None = Ok s)
  /\ rect_space (get s_dummy (make_space (Some ["y"; "x"]) None (IRect [0; 0]%Q [10; 10]%Q) None)).
Proof. split; [eexists; reflexivity|rect]. Qed.

(** C08, false: equal spaces contain the same points. With a function as limits, a space over (x, y) and one
    over (y, x) are equal although the function takes its arguments in the order of the observables; the
    point x = 1, y = 5 is inside the one and outside the other. *)
Theorem C08_equal_functional_different_points_refuted :
  exists fn s1 s2, make_space (Some ["x"; "y"]) None (IFun 0 fn [0; 0]%Q [10; 10]%Q) None = Ok s1
    /\ make_space (Some ["y"; "x"]) None (IFun 0 fn [0; 0]%Q [10; 10]%Q) None = Ok s2
    /\ s_eq s1 s2 = Ok true
    /\ s_inside s1 [1; 5]%Q false = Ok true /\ s_inside s2 [5; 1]%Q false = Ok false.
Proof.
  exists (fun l => match l with a :: b :: _ => Qle_bool a b | _ => false end). do 2 eexists.
  split; [reflexivity|]. split; [reflexivity|]. split; [reflexivity|]. split; reflexivity.
Qed.
Print Assumptions C08_equal_functional_different_points_refuted.

(** C08: the limit objects themselves: rectangular limits are equal if all their ends are, up to a part in
    1e5 of the second; functional ones if they have the same function; the others by their kind. *)
Theorem C08_limit_objects_equal :
  (forall i1 i2, exists b, lim_equal (LRect i1) (LRect i2) = Ok b
     /\ (b = true <-> Forall2 (fun p q => near (fst p) (fst q) /\ near (snd p) (snd q)) i1 i2))
  /\ (forall f fn i g gn j, exists b, lim_equal (LFun f fn i) (LFun g gn j) = Ok b /\ (b = true <-> f = g))
  /\ (forall i n f fn j, lim_equal (LRect i) (LNone n) = Ok false /\ lim_equal (LNone n) (LRect i) = Ok false
        /\ lim_equal (LRect i) (LFalse n) = Ok false /\ lim_equal (LFalse n) (LRect i) = Ok false
        /\ lim_equal (LRect i) (LFun f fn j) = Ok false /\ lim_equal (LFun f fn j) (LRect i) = Ok false)
  /\ (forall n m, lim_equal (LNone n) (LNone m) = Ok true /\ lim_equal (LFalse n) (LFalse m) = Ok true
        /\ lim_equal (LNone n) (LFalse m) = Ok false /\ lim_equal (LFalse n) (LNone m) = Ok false)
  /\ (forall n f fn j, lim_equal (LNone n) (LFun f fn j) = Ok false /\ lim_equal (LFun f fn j) (LNone n) = Ok false
        /\ lim_equal (LFalse n) (LFun f fn j) = Ok false /\ lim_equal (LFun f fn j) (LFalse n) = Ok false).
Proof.
  split; [exact lim_equal_rect|]. split; [|repeat split].
  intros. exists (f =? g). split; [reflexivity|apply Nat.eqb_eq].
Qed.
Print Assumptions C08_limit_objects_equal.

(** C08, false: equality of limits is symmetric. The tolerance is relative to the second limit. *)
Theorem C08_limit_equality_not_symmetric_refuted :
  exists a b, lim_equal a b = Ok true /\ lim_equal b a = Ok false.
Proof.
  exists (LRect [(0, 100000)]%Q), (LRect [(0, 100001 + (5 # 1000000))]%Q). split; reflexivity.
Qed.
Print Assumptions C08_limit_equality_not_symmetric_refuted.

(** C09: [<=] between spaces, with the binning: the same observables, the same binning with its axes in the
    same order, and every end not above the other's. *)
Theorem C09_less_equal_with_binning : forall s1 s2 os1 os2,
  rect_space s1 -> rect_space s2 -> s_obs s1 = Some os1 -> s_obs s2 = Some os2 -> s_axes s1 = None -> s_axes s2 = None ->
  exists b, s_le s1 s2 = Ok b /\
    (b = true <-> (forall o, In o os1 <-> In o os2) /\ same_binning (s_binning s1) (s_binning s2) /\
       forall o l1 u1 l2 u2, limit_of s1 o (l1, u1) -> limit_of s2 o (l2, u2) -> (l1 <= l2 /\ u1 <= u2)%Q).
Proof. exact le_binned. Qed.
Print Assumptions C09_less_equal_with_binning.

Example C09_binned_nonvacuous : rect_space t2_b /\ rect_space t2_1 /\ s_le t2_b t2_b = Ok true /\ s_le t2_1 t2_b = Ok false
  /\ s_binning t2_b = Some [("x", [0; 10]%Q); ("y", [-1; 1]%Q)].
Proof. split; [rect|]. split; [rect|]. repeat split. Qed.

(** C09: [<=] between limit objects that have a rectangle: all ends in order, and the second may only have a
    function if the first has the same. *)
Theorem C09_limit_objects_less_equal : forall l1 l2 i1 i2, lim_rect_limits l1 = Ok i1 -> lim_rect_limits l2 = Ok i2 ->
  exists b, lim_less_equal l1 l2 = Ok b
  /\ (b = true <-> Forall2 (fun p q => (fst p <= fst q /\ snd p <= snd q)%Q) i1 i2
        /\ (forall g, lim_fid l2 = Some g -> lim_fid l1 = Some g)).
Proof. exact lim_le_set. Qed.
Print Assumptions C09_limit_objects_less_equal.

Example C09_limit_objects_nonvacuous : forall fn,
  lim_less_equal (LFun 0 fn [(0, 1)]%Q) (LRect [(0, 1)]%Q) = Ok true
  /\ lim_less_equal (LRect [(0, 1)]%Q) (LFun 0 fn [(0, 1)]%Q) = Ok false
  /\ lim_less_equal (LRect [(0, 2)]%Q) (LRect [(0, 1)]%Q) = Ok false.
Proof. intros fn. repeat split. Qed.

(** C06: spaces with and without binning cannot be combined. *)
Theorem C06_binned_and_unbinned_refused : forall ss,
  (exists s, In s ss /\ s_binning s = None) -> (exists s, In s ss /\ s_binning s <> None) ->
  (forall s, In s ss -> exists os, s_obs s = Some os) -> combine_spaces ss = Err ValueError.
Proof. exact combine_mixed. Qed.
Print Assumptions C06_binned_and_unbinned_refused.
Example C06_binned_nonvacuous : s_binning t2_1 = None /\ s_binning t2_b <> None /\ combine_spaces [t2_3; t2_b] = Err ValueError.
Proof. repeat split. discriminate. Qed.

(** C10: [limits_overlap] answers yes exactly if, along some observable, one end of a later space's limit is
    inside the limit of an earlier one (up to 1e-8), exact agreement being excused when [allow_exact]. *)
Theorem C10_limits_overlap_rule : forall ss allow_exact, Forall rect_space ss ->
  exists b, limits_overlap (map ZSimple ss) allow_exact = Ok b /\
    (b = true <-> exists l1 s l2 t l3 o a b, ss = l1 ++ s :: l2 ++ t :: l3 /\ limit_of s o a /\ limit_of t o b
                    /\ end_inside allow_exact a b).
Proof. exact overlap_rule. Qed.
Print Assumptions C10_limits_overlap_rule.

Definition t2_o1 : space := get s_dummy (make_space (Some ["x"]) None (IRect [0]%Q [2]%Q) None).
Definition t2_o2 : space := get s_dummy (make_space (Some ["x"]) None (IRect [1]%Q [3]%Q) None).
Definition t2_o3 : space := get s_dummy (make_space (Some ["x"]) None (IRect [2]%Q [3]%Q) None).
Example C10_rule_nonvacuous : Forall rect_space [t2_o1; t2_o2; t2_o3]
  /\ limits_overlap [ZSimple t2_o1; ZSimple t2_o2] false = Ok true /\ limits_overlap [ZSimple t2_o1; ZSimple t2_o3] false = Ok false
  /\ limits_overlap [ZSimple t2_o1; ZSimple t2_o1] false = Ok true /\ limits_overlap [ZSimple t2_o1; ZSimple t2_o1] true = Ok false.
Proof. split; [repeat constructor; rect|]. repeat split. Qed.
