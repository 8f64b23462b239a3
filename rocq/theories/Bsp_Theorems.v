(** C95: binned spaces. *)
From Coq Require Import List String Arith Bool ZArith QArith.Qcanon Lia.
From Verif Require Import Base BaseLemmas Bsp_Model Bsp_Spec Bsp_Proofs.
Import ListNotations.
Open Scope string_scope.
Open Scope list_scope.

(** ** The spaces of the examples *)
Definition q (z : Z) : Qc := Q2Qc (QArith_base.inject_Z z).
Definition ax_x : axis := Regular "x" 4 (q 0) (q 2) false.
Definition ax_y : axis := Varied "y" [q 10; q 11; q 15].
Definition ax_x' : axis := Varied "x" [q 0; q 1; q 2].
Definition sp : space := Space ["x"; "y"] (Some [("x", (q 0, q 2)); ("y", (q 10, q 15))]) (Some [ax_x; ax_y]).

Lemma ax_proper : Forall proper [ax_x; ax_y].
Proof.
  constructor; [|constructor; [|constructor]]; cbn.
  - split; [discriminate|]. intros E. apply (f_equal this) in E. vm_compute in E. discriminate E.
  - do 3 eexists. reflexivity.
Qed.

(** C95: a space made of axes has for each observable one axis, the one of this name that was given. The observables
    are the ones given, or the names of the axes in order. *)
Theorem C95_axes : forall obs lims l s,
  l <> [] -> Forall proper l -> make_space obs lims (Axes l) = Ok s ->
  well_binned s
  /\ (forall o a, axis_at s o a -> In a l /\ name a = o)
  /\ (forall a, In a l -> In (name a) (s_obs s))
  /\ (NoDup (map name l) -> forall a, In a l -> axis_at s (name a) a)
  /\ s_obs s = match obs with Some o => o | None => map name l end.
Proof.
  intros obs lims l s N P H. destruct (make_axes obs lims l s N P H) as (o & lims' & d & r & C & _ & _ & B & ->).
  apply by_name_ok in B. destruct B as (B & S). assert (M := axes_named_names _ _ _ B).
  split; [|split; [|split; [|split]]].
  - exists r. split; [reflexivity|exact M].
  - intros x a A. apply (axis_at_named _ _ _ _ _ _ B) in A. exact (axis_named_ok _ _ _ A).
  - intros a I. cbn. apply S. apply in_map. exact I.
  - intros ND a I. destruct (named_axis_at o d l r (name a) B) as (b & A & Nb).
    + apply S. apply in_map. exact I.
    + rewrite (axis_named_nodup l a ND I) in Nb. injection Nb as <-. exact A.
  - cbn. destruct obs as [ob|]; [exact (proj1 (choose_obs_some _ _ _ C))|].
    cbn in C. destruct l; [contradiction|]. injection C as <-. reflexivity.
Qed.

Example C95_axes_applies : make_space (Some ["x"; "y"]) (Ranges [(q 0, q 2); (q 10, q 15)]) (Axes [ax_y; ax_x]) = Ok sp.
Proof. reflexivity. Qed.

(** Axes that zfit takes: named, of the two kinds, without a transformation. *)
Definition usable (a : axis) : Prop :=
  name a <> "" /\ match a with Regular _ _ _ _ t => t = false | Varied _ _ => True | Other _ => False end.

Lemma usable_converted l : Forall proper l -> Forall usable l -> histaxes_to_binning l = Ok l.
Proof.
  induction l as [|a l IH]; intros P U; [reflexivity|]. inversion P as [|? ? P1 P2]; inversion U as [|? ? U1 U2]; subst.
  cbn [histaxes_to_binning]. rewrite (IH P2 U2).
  assert (A : new_from_axis a = Ok a).
  { destruct U1 as (N & K). destruct a as [n k s t tr|n e|n]; [| |contradiction].
    - subst tr. destruct P1 as (Hk & Hs). cbn [new_from_axis]. unfold first_edge, last_edge. cbn [edges].
      rewrite regular_first, regular_last by exact Hk. unfold regular_binning. cbn in N.
      destruct (Nat.eqb_spec k 0); [contradiction|]. destruct (Qc_eq_bool s t) eqn:E; [apply Qc_eq_bool_correct in E; contradiction|].
      destruct (String.eqb_spec n ""); [contradiction|]. reflexivity.
    - cbn. unfold variable_binning. cbn in N. destruct (String.eqb_spec n ""); [contradiction|]. reflexivity. }
  rewrite A. reflexivity.
Qed.

(** C95: axes are accepted exactly if their names are the observables, and refused with ObsIncompatibleError
    otherwise. *)
Theorem C95_accepted : forall obs rs l,
  l <> [] -> Forall proper l -> Forall usable l -> obs <> [] -> length rs = length obs ->
  ((exists s, make_space (Some obs) (Ranges rs) (Axes l) = Ok s) <-> (forall n, In n (map name l) <-> In n obs))
  /\ (forall e, make_space (Some obs) (Ranges rs) (Axes l) = Err e -> e = ObsIncompatibleError).
Proof.
  intros obs rs l N P U O L.
  assert (E : make_space (Some obs) (Ranges rs) (Axes l) = let* r := by_name obs l in Ok (Space obs (Some (combine obs rs)) (Some r))).
  { unfold make_space. destruct l as [|a l]; [contradiction|]. cbn [convert_binning]. rewrite (usable_converted _ P U). cbn [bind].
    destruct obs as [|o obs]; [contradiction|]. cbn [choose_obs bind limits_from convert_limits].
    rewrite L, Nat.eqb_refl. cbn [bind]. reflexivity. }
  rewrite E. split.
  - split.
    + intros (s & H). destruct (by_name obs l) as [r|] eqn:B; [|discriminate H]. exact (proj2 (by_name_ok _ _ _ B)).
    + intros H. destruct (by_name_total obs l H) as (r & ->). eexists. reflexivity.
  - intros e H. destruct (by_name obs l) as [r|e'] eqn:B; [discriminate H|]. cbn in H. injection H as <-. exact (by_name_err _ _ _ B).
Qed.

Example C95_accepted_applies : Forall usable [ax_x; ax_y]
  /\ make_space (Some ["x"; "z"]) (Ranges [(q 0, q 2); (q 10, q 15)]) (Axes [ax_y; ax_x]) = Err ObsIncompatibleError.
Proof. split; [|reflexivity]. repeat constructor; discriminate. Qed.

(** C95 (partial): without limits, the limits of each observable are the outer edges of its axis. Missing: observables
    that are given in another order than the axes. *)
Theorem C95_limits_partial : forall obs l s,
  l <> [] -> Forall proper l -> NoDup (map name l) -> obs = None \/ obs = Some (map name l) ->
  make_space obs NoLimits (Axes l) = Ok s ->
  spanned s /\ forall o, In o (s_obs s) -> exists r, range_at s o r.
Proof.
  intros obs l s N P ND O H. destruct (make_axes obs NoLimits l s N P H) as (o & lims' & d & r & C & F & D & B & ->).
  assert (o = map name l).
  { destruct O as [-> | ->]; [|exact (proj1 (choose_obs_some _ _ _ C))]. cbn in C. destruct l; [contradiction|]. injection C as <-. reflexivity. }
  subst o. cbn in F. injection F as <-. cbn [convert_limits] in D. rewrite !map_length, Nat.eqb_refl in D. injection D as <-.
  apply by_name_ok in B. destruct B as (B & _). split.
  - intros x a rg A (d & i & E & Ox & R). cbn in E, Ox. injection E as <-. apply combine_nth_error in R. cbn [fst snd] in R. destruct R as (_ & R).
    rewrite nth_error_map in R, Ox. destruct (nth_error l i) as [b|] eqn:L; [|discriminate R]. cbn in R, Ox.
    injection R as <-. injection Ox as <-. apply (axis_at_named _ _ _ _ _ _ B) in A.
    rewrite (axis_named_nodup l b ND (nth_error_In _ _ L)) in A. injection A as <-. reflexivity.
  - intros x I. cbn in I. apply In_nth_error in I. destruct I as (i & I).
    assert (I' := I). rewrite nth_error_map in I'. destruct (nth_error l i) as [b|] eqn:L; [|discriminate I']. cbn in I'. injection I' as E. subst x.
    exists (first_edge b, last_edge b). eexists. exists i. split; [reflexivity|]. split; [exact I|].
    clear - L. revert i L. induction l as [|a l IH]; intros i L; [destruct i; discriminate L|].
    destruct i as [|i]; cbn in *; [injection L as ->; reflexivity|exact (IH i L)].
Qed.

Example C95_limits_partial_applies : make_space None NoLimits (Axes [ax_x; ax_y]) = Ok sp.
Proof. vm_compute. reflexivity. Qed.

(** REFUTED: "without limits, the limits of each observable are the outer edges of its axis". With the observables in
    another order than the axes the limits are attached to the wrong observables. *)
Theorem C95_limits_refuted : exists obs l s, Forall proper l /\ NoDup obs
  /\ make_space (Some obs) NoLimits (Axes l) = Ok s
  /\ axis_at s "x" ax_x /\ range_at s "x" (first_edge ax_y, last_edge ax_y) /\ ~ spanned s.
Proof.
  exists ["y"; "x"], [ax_x; ax_y]. eexists. split; [exact ax_proper|]. split; [|split; [reflexivity|]].
  - constructor; [intros [E|[]]; discriminate E|]. constructor; [intros []|constructor].
  - match goal with |- axis_at ?s _ _ /\ _ => 
      assert (A : axis_at s "x" ax_x) by (eexists; exists 1; split; [reflexivity|split; reflexivity]);
      assert (R : range_at s "x" (first_edge ax_y, last_edge ax_y)) by (eexists; exists 1; split; [reflexivity|split; reflexivity]) end.
    split; [exact A|]. split; [exact R|]. intros S. specialize (S _ _ _ A R).
    apply (f_equal (fun p => this (fst p))) in S. vm_compute in S. discriminate S.
Qed.

(** C95: numbers of bins lead to bins of the same width between the limits of each observable. *)
Theorem C95_numbers : forall obs rs ks s,
  NoDup obs -> make_space (Some obs) (Ranges rs) (BinsEach ks) = Ok s ->
  well_binned s /\ s_obs s = obs /\ length ks = length obs
  /\ forall i o k r, nth_error obs i = Some o -> nth_error ks i = Some k -> nth_error rs i = Some r ->
       exists a, axis_at s o a /\ equidistant (edges a) k (fst r) (snd r).
Proof.
  intros obs rs ks s ND H. unfold make_space in H. cbn [convert_binning bind] in H.
  destruct (choose_obs (Some obs) (BinsEach ks)) as [o|] eqn:C; [|discriminate]. destruct (choose_obs_some _ _ _ C) as (-> & NE). cbn [bind] in H.
  assert (LF : limits_from (BinsEach ks) (Ranges rs) = Ok (Ranges rs)) by reflexivity. rewrite LF in H. cbn [bind convert_limits] in H.
  destruct (Nat.eqb_spec (length rs) (length obs)) as [L|L]; [|discriminate H]. cbn [bind] in H. unfold from_numbers in H.
  destruct (Nat.eqb_spec (length ks) (length obs)) as [K|K]; [|discriminate H]. cbn [negb] in H.
  destruct (autobinning ks (combine obs rs)) as [l|] eqn:A; [|discriminate H]. cbn [bind] in H.
  destruct (by_name obs l) as [r|] eqn:B; [|discriminate H]. cbn [bind] in H. injection H as <-.
  apply autobinning_names in A; [|rewrite combine_length; lia].
  assert (F := proj1 (Forall2_nth _ _ _) A). destruct F as (LL & F). apply by_name_ok in B. destruct B as (B & _).
  split; [exists r; split; [reflexivity|exact (axes_named_names _ _ _ B)]|]. split; [reflexivity|]. split; [exact K|].
  assert (CN : forall (X Y : Type) (xs : list X) (ys : list Y) i x y, nth_error xs i = Some x -> nth_error ys i = Some y -> nth_error (combine xs ys) i = Some (x, y)).
  { intros X Y xs. induction xs as [|x xs IH]; intros ys i x0 y0 E1 E2; [destruct i; discriminate E1|].
    destruct ys as [|y ys]; [destruct i; discriminate E2|]. destruct i; cbn in *; [congruence|exact (IH _ _ _ _ E1 E2)]. }
  assert (NA : forall i o, nth_error obs i = Some o -> exists k rg, nth_error l i = Some (Regular o k (fst rg) (snd rg) false)
      /\ nth_error ks i = Some k /\ nth_error rs i = Some rg /\ k <> 0).
  { intros i o O. assert (Li : i < length obs) by (apply nth_error_Some; congruence).
    destruct (nth_error ks i) as [k|] eqn:Ek; [|apply nth_error_None in Ek; lia].
    destruct (nth_error rs i) as [rg|] eqn:Er; [|apply nth_error_None in Er; lia].
    assert (Z := CN _ _ _ _ _ _ _ Ek (CN _ _ _ _ _ _ _ O Er)).
    destruct (nth_error l i) as [a|] eqn:Ea.
    - destruct (F i _ _ Z Ea) as (-> & K0). cbn. exists k, rg. cbn in K0. repeat split; assumption.
    - apply nth_error_None in Ea. assert (Q := proj1 (nth_error_Some (combine ks (combine obs rs)) i)). rewrite Z in Q. specialize (Q ltac:(discriminate)). exfalso. apply (Nat.lt_irrefl i). apply (Nat.lt_le_trans _ _ _ Q). refine (Nat.le_trans _ _ _ _ Ea). exact (Nat.eq_le_incl _ _ LL). }
  assert (MN : map name l = obs).
  { apply nth_error_ext. intros i. rewrite nth_error_map. destruct (nth_error obs i) as [o|] eqn:O.
    - destruct (NA i o O) as (k & rg & -> & _). reflexivity.
    - destruct (nth_error l i) as [a|] eqn:Ea; [|reflexivity]. apply nth_error_None in O.
      assert (Q := proj1 (nth_error_Some l i)). rewrite Ea in Q. specialize (Q ltac:(discriminate)). rewrite !combine_length in LL. lia. }
  intros i o k rg O Ek Er. destruct (NA i o O) as (k' & rg' & Ea & Ek' & Er' & K0). 
  assert (k' = k) by congruence. assert (rg' = rg) by congruence. subst k' rg'.
  destruct (named_axis_at obs (Some (combine obs rs)) l r o B (nth_error_In _ _ O)) as (a & At & An).
  exists a. split; [exact At|].
  assert (Nd : axis_named (name (Regular o k (fst rg) (snd rg) false)) l = Ok (Regular o k (fst rg) (snd rg) false)).
  { apply axis_named_nodup; [rewrite MN; exact ND|exact (nth_error_In _ _ Ea)]. }
  cbn [name] in Nd. rewrite Nd in An. injection An as <-. cbn [edges]. apply regular_equidistant. exact K0.
Qed.

Example C95_numbers_applies : exists s, make_space (Some ["x"; "y"]) (Ranges [(q 0, q 2); (q 10, q 15)]) (BinsEach [4; 2]) = Ok s.
Proof. eexists. reflexivity. Qed.

(** A space as it is made: an axis for each observable, limits for each observable. *)
Definition made (s : space) : Prop :=
  well_binned s /\ NoDup (s_obs s) /\ (forall l, s_binning s = Some l -> Forall proper l) /\ (exists d, s_limits s = Some d /\ map fst d = s_obs s).

Lemma kept_range s o d' : (exists d, s_limits s = Some d /\ map fst d = s_obs s) -> convert_limits o (own_limits s) = Ok d' ->
  forall b x r, range_at (Space o d' b) x r -> range_at s x r.
Proof.
  intros (d & E & M) H b x r (e & i & E' & O & R). unfold own_limits in H. rewrite E in H.
  destruct (convert_limits_by_name _ _ _ H) as (e' & -> & F). cbn in E'. injection E' as ->.
  destruct (F x r i R) as (_ & L). apply lookup_in in L; [|exact string_eqb_ok]. apply In_nth_error in L. destruct L as (j & L).
  exists d, j. split; [exact E|]. split; [|exact L]. rewrite <- M, nth_error_map, L. reflexivity.
Qed.

(** C95: sorted by observables, also some or more of them, a space keeps axis and limits of each observable. *)
Theorem C95_with_obs : forall s obs t, made s -> with_obs s obs = Ok t ->
  s_obs t = filter (fun o => mem String.eqb o (s_obs s)) obs
  /\ well_binned t
  /\ (forall o a, axis_at t o a -> axis_at s o a)
  /\ (forall o r, range_at t o r -> range_at s o r)
  /\ (forall o, In o (s_obs t) -> exists r, range_at t o r).
Proof.
  intros s obs t ((l & B & M) & _ & P & D) H. specialize (P l B). unfold with_obs in H. rewrite B in H.
  set (new := filter (fun o => mem String.eqb o (s_obs s)) obs) in *.
  destruct new as [|n0 new'] eqn:EN; [discriminate H|]. rewrite <- EN in *.
  destruct (axes_named new l) as [l'|] eqn:L'; [|discriminate H]. cbn [bind] in H.
  assert (I : forall a, In a l' -> In a l).
  { intros a I. apply axes_named_forall2 in L'. revert I. clear - L'. induction L' as [|n b ns r A F IH]; [intros []|].
    intros [<-|J]; [exact (proj1 (axis_named_ok _ _ _ A))|exact (IH J)]. }
  assert (P' : Forall proper l') by (rewrite Forall_forall in *; intros a Ia; apply P, I, Ia).
  assert (NE : l' <> []).
  { intros ->. apply axes_named_names in L'. rewrite EN in L'. discriminate L'. }
  destruct (make_axes _ _ _ _ NE P' H) as (o & lims' & d & r & C & F & Dd & Bn & ->).
  destruct (choose_obs_some _ _ _ C) as (-> & _). apply by_name_ok in Bn. destruct Bn as (Bn & _).
  assert (LF : lims' = own_limits s).
  { destruct D as (dd & Ed & _). unfold own_limits in *. rewrite Ed in *. cbn in F. congruence. }
  subst lims'. split; [reflexivity|]. split; [exists r; split; [reflexivity|exact (axes_named_names _ _ _ Bn)]|]. split.
  - intros x a A. apply (axis_at_named _ _ _ _ _ _ Bn) in A. apply axis_named_ok in A. destruct A as (A & <-).
    exact (in_axis_at s l a B M (I a A)).
  - split; [intros x rg R; exact (kept_range s new d D Dd _ x rg R)|].
    destruct D as (dd & Ed & _). unfold own_limits in Dd. rewrite Ed in Dd. intros x I'. exact (convert_limits_total _ _ _ _ x Dd I').
Qed.

Lemma sp_made : made sp.
Proof.
  split; [exists [ax_x; ax_y]; split; reflexivity|].
  split; [constructor; [intros [E|[]]; discriminate E|]; constructor; [intros []|constructor]|].
  split; [intros l E; injection E as <-; exact ax_proper|].
  eexists. split; reflexivity.
Qed.

Example C95_with_obs_applies : exists t, with_obs sp ["z"; "y"; "x"] = Ok t /\ s_obs t = ["y"; "x"] /\ exists u, with_obs sp ["y"] = Ok u.
Proof. eexists. split; [vm_compute; reflexivity|]. split; [reflexivity|]. eexists. vm_compute; reflexivity. Qed.

(** C95 (partial): a subspace keeps the limits of each observable. Missing: its axis. *)
Theorem C95_subspace_partial : forall s obs t, made s -> get_subspace s obs = Ok t ->
  s_obs t = filter (fun o => mem String.eqb o (s_obs s)) obs
  /\ (forall o r, range_at t o r -> range_at s o r)
  /\ (forall o, In o (s_obs t) -> exists r, range_at t o r).
Proof.
  intros s obs t (_ & _ & _ & D) H. unfold get_subspace in H.
  set (new := filter (fun o => mem String.eqb o (s_obs s)) obs) in *.
  destruct new as [|n0 new'] eqn:EN; [discriminate H|]. rewrite <- EN in *.
  unfold make_space in H. cbn [convert_binning bind] in H.
  destruct (choose_obs (Some new) NoBinning) as [o|] eqn:C; [|discriminate H]. destruct (choose_obs_some _ _ _ C) as (-> & _). cbn [bind] in H.
  assert (LF : limits_from NoBinning (own_limits s) = Ok (own_limits s)) by (unfold limits_from; destruct (own_limits s); reflexivity).
  rewrite LF in H. cbn [bind] in H. destruct (convert_limits new (own_limits s)) as [d|] eqn:Dd; [|discriminate H]. cbn [bind] in H. injection H as <-.
  split; [reflexivity|]. split; [intros x rg R; exact (kept_range s new d D Dd _ x rg R)|].
  destruct D as (dd & Ed & _). unfold own_limits in Dd. rewrite Ed in Dd. intros x I'. exact (convert_limits_total _ _ _ _ x Dd I').
Qed.

Example C95_subspace_partial_applies : exists t, get_subspace sp ["y"] = Ok t.
Proof. eexists. vm_compute. reflexivity. Qed.

(** REFUTED: "a subspace of a binned space is binned". It has no bins, while the same part taken with [with_obs] has. *)
Theorem C95_subspace_refuted : made sp /\ (exists t, with_obs sp ["y"] = Ok t /\ axis_at t "y" ax_y)
  /\ exists t, get_subspace sp ["y"] = Ok t /\ s_binning t = None.
Proof.
  split; [exact sp_made|]. split; eexists; (split; [vm_compute; reflexivity|]); [|reflexivity].
  eexists; exists 0; (split; [reflexivity|split; [reflexivity|vm_compute; reflexivity]]).
Qed.

(** C95 (partial): sorted by axes, a space keeps axis and limits of each observable. Missing: some of the axes only. *)
Theorem C95_with_axes_partial : forall s own axes t, made s -> length own = length (s_obs s) -> with_axes s own axes = Ok t ->
  well_binned t
  /\ (forall o a, axis_at t o a -> axis_at s o a)
  /\ (forall o r, range_at t o r -> range_at s o r)
  /\ (forall o, In o (s_obs t) -> exists r, range_at t o r).
Proof.
  intros s own axes t ((l & B & M) & _ & P & D) L H. unfold with_axes in H.
  destruct (all_some _) as [new|] eqn:A; [|discriminate H]. destruct new as [|n0 new']; [discriminate H|]. remember (n0 :: new') as new eqn:EN.
  unfold own_binning in H. rewrite B in H.
  destruct (make_of_space _ _ _ _ H) as (o & lims' & d & r & C & F & Dd & Bn & ->).
  destruct (choose_obs_some _ _ _ C) as (-> & _). apply by_name_ok in Bn. destruct Bn as (Bn & _).
  assert (LF : lims' = own_limits s).
  { destruct D as (dd & Ed & _). unfold own_limits in *. rewrite Ed in *. cbn in F. congruence. }
  subst lims'. split; [exists r; split; [reflexivity|exact (axes_named_names _ _ _ Bn)]|]. split.
  - intros x a At. apply (axis_at_named _ _ _ _ _ _ Bn) in At. apply axis_named_ok in At. destruct At as (At & <-).
    exact (in_axis_at s l a B M At).
  - split; [intros x rg R; exact (kept_range s new d D Dd _ x rg R)|].
    destruct D as (dd & Ed & _). unfold own_limits in Dd. rewrite Ed in Dd. intros x I'. exact (convert_limits_total _ _ _ _ x Dd I').
Qed.

Example C95_with_axes_partial_applies : exists t, with_axes sp [0; 1] [1; 0] = Ok t /\ s_obs t = ["y"; "x"].
Proof. eexists. split; vm_compute; reflexivity. Qed.

(** REFUTED: "a part of a binned space can be taken by axes as by observables". The whole binning is given to the
    part, which is refused. *)
Theorem C95_with_axes_refuted : made sp /\ (exists t, with_obs sp ["y"] = Ok t) /\ with_axes sp [0; 1] [1] = Err ObsIncompatibleError.
Proof. split; [exact sp_made|]. split; [eexists; vm_compute; reflexivity|]. vm_compute. reflexivity. Qed.

(** C95 (partial): a combination of binned spaces has for each observable the axis of one of the spaces, and the axis
    of all of them if they agree. Missing: that spaces which do not agree are refused. *)
Theorem C95_combine_partial : forall ss t, (forall s, In s ss -> made s) -> ss <> [] -> combine_spaces ss = Ok t ->
  well_binned t
  /\ (forall o a, axis_at t o a -> exists s, In s ss /\ axis_at s o a)
  /\ ((forall s s' o a a', In s ss -> In s' ss -> axis_at s o a -> axis_at s' o a' -> a = a') ->
      forall s o a, In s ss -> axis_at s o a -> axis_at t o a)
  /\ (forall o, In o (s_obs t) <-> exists s, In s ss /\ In o (s_obs s))
  /\ (forall s o r r', In s ss -> range_at s o r -> range_at t o r' -> r = r').
Proof.
  intros ss t Mk NE H. unfold combine_spaces in H.
  assert (BB : forallb is_binned ss = true).
  { apply forallb_forall. intros s I. destruct (Mk s I) as ((l & E & _) & _). unfold is_binned. rewrite E. reflexivity. }
  rewrite BB in H. cbn [orb negb] in H. destruct (common_limits (common_obs ss) ss) as [d0|] eqn:D0; [|discriminate H]. cbn [bind] in H.
  destruct (make_of_space _ _ _ _ H) as (o & lims' & d & r & C & F & Dd & Bn & ->).
  destruct (choose_obs_some _ _ _ C) as (-> & _). cbn in F. injection F as <-.
  apply by_name_ok in Bn. destruct Bn as (Bn & _).
  assert (From : forall x a, axis_named x (collect_axes ss (common_obs ss)) = Ok a -> exists s, In s ss /\ axis_at s x a).
  { intros x a A. apply axis_named_ok in A. destruct A as (A & <-). apply collect_axes_in in A. destruct A as (s & o' & l & I & E & _ & N).
    exists s. split; [exact I|]. destruct (Mk s I) as ((l' & E' & M) & _). assert (l' = l) by congruence. subst l'.
    exact (in_axis_at s l a E M (proj1 (axis_named_ok _ _ _ N))). }
  split; [exists r; split; [reflexivity|exact (axes_named_names _ _ _ Bn)]|]. split; [|split; [|split]].
  - intros x a A. apply From. exact (axis_at_named _ _ _ _ _ _ Bn A).
  - intros Ag s x a I A.
    assert (O : In x (common_obs ss)).
    { apply common_obs_in. exists s. split; [exact I|]. destruct A as (l & i & _ & O & _). exact (nth_error_In _ _ O). }
    destruct (named_axis_at (common_obs ss) d _ r x Bn O) as (b & At & N).
    destruct (From x b N) as (s' & I' & A'). rewrite (Ag s s' x a b I I' A A'). exact At.
  - intros x. apply common_obs_in.
  - intros s x r0 r' I (d1 & i & E1 & O1 & R1) (d2 & j & E2 & O2 & R2).
    destruct (convert_limits_by_name _ _ _ Dd) as (e & Ee & F). cbn in E2. assert (d2 = e) by congruence. subst d2.
    destruct (F x r' j R2) as (_ & Lk). assert (CL := common_limits_in _ _ _ _ _ D0 Lk).
    destruct (Mk s I) as (_ & ND & _ & (d3 & E3 & M3)). assert (d3 = d1) by congruence. subst d3.
    assert (L1 : limit_of x s = Some r0).
    { unfold limit_of. rewrite E1. apply (lookup_nodup _ string_eqb_ok); [rewrite M3; exact ND|exact (nth_error_In _ _ R1)]. }
    assert (Q := common_limit_agree _ _ _ CL s r0 I L1). congruence.
Qed.

Definition sp_z : space := Space ["z"] (Some [("z", (q 0, q 2))]) (Some [Regular "z" 4 (q 0) (q 2) false]).
Example C95_combine_partial_applies : exists t, combine_spaces [sp; sp_z] = Ok t /\ s_obs t = ["x"; "y"; "z"].
Proof. eexists. split; vm_compute; reflexivity. Qed.

(** C95: binned and other spaces can not be combined. *)
Theorem C95_mixed : forall ss s s', In s ss -> In s' ss -> s_binning s <> None -> s_binning s' = None -> combine_spaces ss = Err ValueError.
Proof.
  intros ss s s' I I' B B'. unfold combine_spaces.
  assert (X : forallb is_binned ss = false).
  { destruct (forallb is_binned ss) eqn:F; [|reflexivity]. rewrite forallb_forall in F. specialize (F s' I'). unfold is_binned in F. rewrite B' in F. discriminate F. }
  assert (Y : forallb (fun s => negb (is_binned s)) ss = false).
  { destruct (forallb (fun s => negb (is_binned s)) ss) eqn:F; [|reflexivity]. rewrite forallb_forall in F. specialize (F s I). unfold is_binned in F.
    destruct (s_binning s); [discriminate F|contradiction]. }
  rewrite X, Y. reflexivity.
Qed.

Example C95_mixed_applies : combine_spaces [sp; Space ["z"] (Some [("z", (q 0, q 2))]) None] = Err ValueError.
Proof. vm_compute. reflexivity. Qed.

(** REFUTED: "spaces with different bins for the same observable are refused". The bins of the first space are taken,
    so that the combination depends on the order. *)
Theorem C95_combine_refuted : exists s s' t t', axis_at s "x" ax_x /\ axis_at s' "x" ax_x' /\ ax_x <> ax_x'
  /\ combine_spaces [s; s'] = Ok t /\ combine_spaces [s'; s] = Ok t' /\ axis_at t "x" ax_x /\ axis_at t' "x" ax_x'.
Proof.
  exists (Space ["x"] (Some [("x", (q 0, q 2))]) (Some [ax_x])), (Space ["x"] (Some [("x", (q 0, q 2))]) (Some [ax_x'])).
  do 2 eexists. split; [exists [ax_x], 0; repeat split|]. split; [exists [ax_x'], 0; repeat split|]. split; [discriminate|].
  split; [vm_compute; reflexivity|]. split; [vm_compute; reflexivity|].
  split; eexists; exists 0; (split; [reflexivity|split; [reflexivity|vm_compute; reflexivity]]).
Qed.

(** C95 (partial): a space is equal to itself sorted in another way if it has no bins. Missing: spaces with bins. *)
Theorem C95_equal_partial : forall obs obs' d t, NoDup obs' -> (forall x, In x obs' <-> In x obs) ->
  with_obs (Space obs (Some d) None) (obs') = Ok t -> equal_space (Space obs (Some d) None) t = true.
Proof.
  intros obs obs' d t ND SE H. unfold with_obs in H. cbn [s_obs s_binning] in H.
  assert (E : filter (fun o => mem String.eqb o obs) (obs') = obs').
  { assert (G : forall l, incl l obs -> filter (fun o => mem String.eqb o obs) l = l).
    { induction l as [|x l IH]; intros I; [reflexivity|]. cbn [filter].
      assert (X : mem String.eqb x obs = true) by (apply (mem_In _ string_eqb_ok); apply I; left; reflexivity).
      rewrite X, IH; [reflexivity|]. intros y J. apply I. right. exact J. }
    apply G. intros x I. apply SE. exact I. }
  rewrite E in H. assert (NE : obs' <> []) by (intros X; rewrite X in H; discriminate H).
  destruct obs' as [|x0 r0] eqn:R; [contradiction|]. rewrite <- R in *. cbn [bind] in H. unfold make_space in H. cbn [convert_binning bind] in H.
  destruct (choose_obs (Some (obs')) NoBinning) as [o|] eqn:C; [|discriminate H]. destruct (choose_obs_some _ _ _ C) as (-> & _). cbn [bind] in H.
  cbn [own_limits s_limits limits_from bind] in H.
  destruct (convert_limits (obs') (ByName d)) as [d'|] eqn:D; [|discriminate H]. cbn [bind] in H. injection H as <-.
  cbn [convert_limits] in D. destruct (all_some (map (fun o => lookup String.eqb o d) (obs'))) as [rs|] eqn:A; [|discriminate D]. cbn in D. injection D as <-.
  unfold equal_space. cbn [s_obs s_binning axes_eqb]. apply andb_true_iff. split; [apply andb_true_iff; split; [|reflexivity]|].
  - apply (set_eqb_iff _ string_eqb_ok). intros y. symmetry. apply SE.
  - unfold same_limits. cbn [s_limits s_obs]. apply forallb_forall. intros y I.
    apply all_some_forall2 in A. apply Forall2_map_l in A. assert (F := proj1 (Forall2_nth _ _ _) A). destruct F as (LL & F).
    assert (J := proj2 (SE y) I). apply In_nth_error in J. destruct J as (i & J).
    destruct (nth_error rs i) as [rg|] eqn:Rg; [|apply nth_error_None in Rg; assert (Q := proj1 (nth_error_Some (obs') i)); rewrite J in Q; specialize (Q ltac:(discriminate)); lia].
    assert (L := F i y rg J Rg). cbn in L. rewrite L.
    assert (L2 : lookup String.eqb y (combine (obs') rs) = Some rg).
    { assert (FST : map fst (combine (obs') rs) = obs').
      { clear - LL. revert rs LL. induction obs' as [|a k IH]; intros rs LL; [reflexivity|]. destruct rs; [discriminate LL|]. cbn in *. f_equal. apply IH. lia. }
      apply (lookup_nodup _ string_eqb_ok); [rewrite FST; exact ND|].
      assert (CN : forall (xs : list string) (ys : list range) i x y, nth_error xs i = Some x -> nth_error ys i = Some y -> In (x, y) (combine xs ys)).
      { clear. intros xs. induction xs as [|x xs IH]; intros ys i x0 y0 E1 E2; [destruct i; discriminate E1|].
        destruct ys as [|y ys]; [destruct i; discriminate E2|]. destruct i; cbn in *; [left; congruence|right; exact (IH _ _ _ _ E1 E2)]. }
      exact (CN _ _ _ _ _ J Rg). }
    rewrite L2. unfold range_eqb. unfold Qc_eq_bool. destruct (Qc_eq_dec (fst rg) (fst rg)); [|contradiction]. destruct (Qc_eq_dec (snd rg) (snd rg)); [reflexivity|contradiction].
Qed.

Example C95_equal_partial_applies : exists t, with_obs (Space ["x"; "y"] (s_limits sp) None) ["y"; "x"] = Ok t.
Proof. eexists. vm_compute. reflexivity. Qed.

(** REFUTED: "a space is equal to itself sorted in another way". With bins it is not, the axes are compared in order. *)
Theorem C95_equal_refuted : made sp /\ exists t, with_obs sp ["y"; "x"] = Ok t /\ equal_space sp t = false
  /\ equal_space (Space (s_obs sp) (s_limits sp) None) (Space (s_obs t) (s_limits t) None) = true.
Proof. split; [exact sp_made|]. eexists. split; [vm_compute; reflexivity|]. split; vm_compute; reflexivity. Qed.

(** REFUTED: "the bins of a space cover its limits". New limits leave the bins as they are, and limits that are given
    beside axes are not compared with them. *)
Theorem C95_cover_refuted : made sp /\ spanned sp /\ exists t, with_limits sp (Ranges [(q 0, q 1); (q 10, q 15)]) = Ok t
  /\ axis_at t "x" ax_x /\ range_at t "x" (q 0, q 1) /\ ~ spanned t.
Proof.
  split; [exact sp_made|]. split.
  { destruct (C95_limits_partial None [ax_x; ax_y] sp) as (S & _); [discriminate|exact ax_proper| |left; reflexivity|vm_compute; reflexivity|exact S].
    constructor; [intros [E|[]]; discriminate E|]. constructor; [intros []|constructor]. }
  eexists. split; [vm_compute; reflexivity|].
  match goal with |- axis_at ?s _ _ /\ _ => 
      assert (A : axis_at s "x" ax_x) by (eexists; exists 0; split; [reflexivity|split; reflexivity]);
      assert (R : range_at s "x" (q 0, q 1)) by (eexists; exists 0; split; [reflexivity|split; reflexivity]) end.
  split; [exact A|]. split; [exact R|]. intros S. specialize (S _ _ _ A R).
  apply (f_equal (fun p => this (snd p))) in S. vm_compute in S. discriminate S.
Qed.
