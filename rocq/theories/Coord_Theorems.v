(** Property theorems for coordinates (C01, C02, C03, C53, C54). *)
From Verif Require Import Base BaseLemmas Coord_Model Coord_Spec Coord_Proofs Coord_Proofs2.
Open Scope string_scope.

Definition ex_c : coords := mkCoords (Some ["x"; "y"; "z"]) (Some [4%Z; 0%Z; 7%Z]).
Example ex_c_labelled : labelled ex_c ["x"; "y"; "z"] [4%Z; 0%Z; 7%Z].
Proof.
  unfold labelled. repeat split; try reflexivity; try discriminate;
  repeat constructor; simpl; intuition congruence.
Qed.

(** C01: with_obs selects the requested names that are owned, in the requested order, and
    keeps the name/axis pairing. *)
Theorem C01_with_obs_keeps_pairing : forall c os axs req sup sub c',
  labelled c os axs -> with_obs c (Some req) sup sub = Ok c' ->
  exists os' axs', c_obs c' = Some os' /\ c_axes c' = Some axs' /\ length os' = length axs'
    /\ selects os req os'
    /\ (forall o a, In o os' -> (paired c' o a <-> paired c o a)).
Proof. exact with_obs_correct. Qed.
Print Assumptions C01_with_obs_keeps_pairing.

Theorem C01_with_obs_raises_exactly : forall c os axs req sup sub,
  labelled c os axs ->
  (disjoint_names req os \/ (sup = false /\ has_extra req os) \/ (sub = false /\ misses req os)
   <-> with_obs c (Some req) sup sub = Err ObsIncompatibleError)
  /\ (forall e, with_obs c (Some req) sup sub = Err e -> e = ObsIncompatibleError).
Proof. exact with_obs_raises. Qed.
Print Assumptions C01_with_obs_raises_exactly.

Theorem C01_with_axes_keeps_pairing : forall c os axs req sup sub c',
  labelled c os axs -> with_axes c (Some req) sup sub = Ok c' ->
  exists os' axs', c_obs c' = Some os' /\ c_axes c' = Some axs' /\ length os' = length axs'
    /\ axs' = filter (fun a => existsb (Z.eqb a) axs) req
    /\ (forall o a, In a axs' -> (paired c' o a <-> paired c o a)).
Proof. exact with_axes_correct. Qed.
Print Assumptions C01_with_axes_keeps_pairing.

Theorem C01_with_axes_raises_exactly : forall c os axs req sup sub,
  labelled c os axs ->
  ((forall a, In a req -> ~ In a axs) \/ (sup = false /\ exists a, In a req /\ ~ In a axs) \/ (sub = false /\ exists a, In a axs /\ ~ In a req)
   <-> with_axes c (Some req) sup sub = Err AxesIncompatibleError)
  /\ (forall e, with_axes c (Some req) sup sub = Err e -> e = AxesIncompatibleError).
Proof. exact with_axes_raises. Qed.

Example C01_nonvacuous :
  with_obs ex_c (Some ["z"; "q"; "x"]) true true = Ok (mkCoords (Some ["z"; "x"]) (Some [7%Z; 4%Z]))
  /\ with_obs ex_c (Some ["z"; "q"; "x"]) false true = Err ObsIncompatibleError
  /\ with_obs ex_c (Some ["z"; "x"]) true false = Err ObsIncompatibleError
  /\ with_obs ex_c (Some ["q"]) true true = Err ObsIncompatibleError
  /\ with_axes ex_c (Some [0%Z; 4%Z]) true true = Ok (mkCoords (Some ["y"; "x"]) (Some [0%Z; 4%Z])).
Proof. repeat split; reflexivity. Qed.

(** C02: reorderings compose (also for sub-selections) and can be undone. *)
Theorem C02_with_obs_compose : forall c os axs req1 req2 c1,
  labelled c os axs -> incl req2 req1 ->
  with_obs c (Some req1) true true = Ok c1 ->
  with_obs c1 (Some req2) true true = with_obs c (Some req2) true true.
Proof. exact with_obs_compose. Qed.
Print Assumptions C02_with_obs_compose.

Theorem C02_with_obs_undo : forall c os axs p c1,
  labelled c os axs -> is_perm p os ->
  with_obs c (Some p) false false = Ok c1 -> with_obs c1 (Some os) false false = Ok c.
Proof. exact with_obs_undo. Qed.
Print Assumptions C02_with_obs_undo.

Theorem C02_with_own_obs_is_identity : forall c os axs sup sub,
  labelled c os axs -> with_obs c (Some os) sup sub = Ok c.
Proof. exact with_obs_own. Qed.
Print Assumptions C02_with_own_obs_is_identity.

Example C02_nonvacuous :
  exists c1, with_obs ex_c (Some ["y"; "z"; "x"]) false false = Ok c1 /\ c1 <> ex_c
    /\ with_obs c1 (Some ["x"; "y"; "z"]) false false = Ok ex_c.
Proof. eexists. split; [reflexivity|]. split; [discriminate|reflexivity]. Qed.

(** C03: columns are moved by name, and the two directions are inverse. *)
Theorem C03_reorder_x_by_name : forall V c os (x : list V) o,
  c_obs c = Some os -> os <> [] -> is_perm o os -> length x = length o ->
  exists y, reorder_x c x (Some o) None None None = Ok y
    /\ length y = length os
    /\ (forall n v, column os y n v <-> column o x n v).
Proof. exact @reorder_x_xobs. Qed.
Print Assumptions C03_reorder_x_by_name.

Theorem C03_reorder_x_for_function : forall V c os (x : list V) o,
  c_obs c = Some os -> os <> [] -> NoDup os -> incl o os -> length x = length os ->
  exists y, reorder_x c x None None (Some o) None = Ok y
    /\ length y = length o
    /\ (forall k n, nth_error o k = Some n -> forall v, nth_error y k = Some v <-> column os x n v).
Proof. exact @reorder_x_func. Qed.
Print Assumptions C03_reorder_x_for_function.

Theorem C03_reorder_x_directions_inverse : forall V c os (x : list V) o,
  c_obs c = Some os -> os <> [] -> is_perm o os -> length x = length os ->
  (exists y, reorder_x c x (Some o) None None None = Ok y
    /\ reorder_x c y None None (Some o) None = Ok x)
  /\ (exists y, reorder_x c x None None (Some o) None = Ok y
    /\ reorder_x c y (Some o) None None None = Ok x).
Proof.
  intros V c os x o Ho Hne Hp Hl. split.
  - apply (reorder_x_roundtrip c os x o Ho Hne Hp).
    rewrite Hl. destruct Hp as [H1 [H2 H3]].
    apply Nat.le_antisymm; apply NoDup_incl_length; try assumption; intros n Hn; apply H3; exact Hn.
  - exact (reorder_x_roundtrip' c os x o Ho Hne Hp Hl).
Qed.
Print Assumptions C03_reorder_x_directions_inverse.

Example C03_nonvacuous :
  reorder_x ex_c [10; 20; 30] (Some ["z"; "x"; "y"]) None None None = Ok [20; 30; 10]
  /\ reorder_x ex_c [10; 20; 30] None None (Some ["z"; "x"; "y"]) None = Ok [30; 10; 20].
Proof. split; reflexivity. Qed.

(** The same by axes. *)
Theorem C03_reorder_x_by_axis : forall V c axs (x : list V) a,
  c_axes c = Some axs -> axs <> [] -> is_perm a axs -> length x = length a ->
  exists y, reorder_x c x None (Some a) None None = Ok y
    /\ length y = length axs
    /\ (forall n v, axis_column axs y n v <-> axis_column a x n v).
Proof. exact @reorder_x_xaxes. Qed.
Theorem C03_reorder_x_for_function_axes : forall V c axs (x : list V) a,
  c_axes c = Some axs -> axs <> [] -> NoDup axs -> incl a axs -> length x = length axs ->
  exists y, reorder_x c x None None None (Some a) = Ok y
    /\ length y = length a
    /\ (forall k n, nth_error a k = Some n -> forall v, nth_error y k = Some v <-> axis_column axs x n v).
Proof. exact @reorder_x_func_axes. Qed.
Example C03_axes_nonvacuous :
  reorder_x ex_c [10; 20; 30] None (Some [7%Z; 4%Z; 0%Z]) None None = Ok [20; 30; 10]
  /\ reorder_x ex_c [10; 20; 30] None None None (Some [7%Z; 4%Z; 0%Z]) = Ok [30; 10; 20].
Proof. split; reflexivity. Qed.

(** C53: automatic axes number the observables in their order; existing axes are only replaced on
    request. *)
Theorem C53_autofill_axes : forall c os overwrite, c_obs c = Some os -> os <> [] ->
  (forall axs, c_axes c = Some axs -> axs <> [] -> overwrite = false -> with_autofill_axes c overwrite = Err AxesIncompatibleError)
  /\ (c_axes c = None \/ overwrite = true -> exists c', with_autofill_axes c overwrite = Ok c' /\ c_obs c' = Some os
       /\ forall o a, paired c' o a <-> exists k, nth_error os k = Some o /\ a = Z.of_nat k).
Proof. exact autofill_l. Qed.
Example C53_nonvacuous : with_autofill_axes ex_c true = Ok (mkCoords (Some ["x"; "y"; "z"]) (Some [0%Z; 1%Z; 2%Z]))
  /\ with_autofill_axes ex_c false = Err AxesIncompatibleError.
Proof. split; reflexivity. Qed.
(** Axes given to observables (or observables to axes) are attached in order if they are as many. *)
Theorem C53_attach_axes : forall c os a sup sub, c_obs c = Some os -> c_axes c = None -> os <> [] ->
  (length a = length os -> with_axes c (Some a) sup sub = Ok (mkCoords (Some os) (Some a)))
  /\ (length a <> length os -> with_axes c (Some a) sup sub = Err AxesIncompatibleError).
Proof. exact with_axes_attach. Qed.
Theorem C53_attach_obs : forall c axs o sup sub, c_obs c = None -> c_axes c = Some axs -> axs <> [] ->
  (length o = length axs -> with_obs c (Some o) sup sub = Ok (mkCoords (Some o) (Some axs)))
  /\ (length o <> length axs -> with_obs c (Some o) sup sub = Err CoordinatesIncompatibleError).
Proof. exact with_obs_attach. Qed.
Theorem C53_drop : forall c os axs sup sub, labelled c os axs ->
  with_obs c None sup sub = Ok (mkCoords None (Some axs)) /\ with_axes c None sup sub = Ok (mkCoords (Some os) None).
Proof. exact dropping. Qed.
Example C53_attach_nonvacuous : with_axes (mkCoords (Some ["x"; "y"]) None) (Some [3%Z; 1%Z]) false false = Ok (mkCoords (Some ["x"; "y"]) (Some [3%Z; 1%Z]))
  /\ with_obs (mkCoords None (Some [3%Z])) (Some ["x"; "y"]) false false = Err CoordinatesIncompatibleError.
Proof. split; reflexivity. Qed.

(** C54: equality of coordinates: the same set of observables or the same set of axes. Equal ones
    have the same hash, the order of the arguments does not matter, but it is not transitive. *)
Theorem C54_equality : forall a b, coords_eqb a b = true <->
  (exists x y, c_obs a = Some x /\ c_obs b = Some y /\ same_set x y) \/ (exists x y, c_axes a = Some x /\ c_axes b = Some y /\ same_set x y).
Proof. exact coords_eqb_iff. Qed.
Theorem C54_equality_symmetric_and_hash : forall a b, coords_eqb a b = coords_eqb b a /\ (coords_eqb a b = true -> coords_hash a = coords_hash b).
Proof.
  intros a b. split; [|reflexivity]. destruct (coords_eqb a b) eqn:E, (coords_eqb b a) eqn:F; try reflexivity; exfalso.
  - apply coords_eqb_iff in E. assert (coords_eqb b a = true); [|congruence]. apply coords_eqb_iff. unfold same_set in *.
    destruct E as [[x [y [A [B C]]]]|[x [y [A [B C]]]]]; [left|right]; exists y, x; (split; [exact B|]; split; [exact A|]; intros z; symmetry; apply C).
  - apply coords_eqb_iff in F. assert (coords_eqb a b = true); [|congruence]. apply coords_eqb_iff. unfold same_set in *.
    destruct F as [[x [y [A [B C]]]]|[x [y [A [B C]]]]]; [left|right]; exists y, x; (split; [exact B|]; split; [exact A|]; intros z; symmetry; apply C).
Qed.
Theorem C54_transitive_refuted : exists a b c, coords_eqb a b = true /\ coords_eqb b c = true /\ coords_eqb a c = false.
Proof.
  exists (mkCoords (Some ["x"]) None), (mkCoords (Some ["x"]) (Some [0%Z])), (mkCoords None (Some [0%Z])). repeat split.
Qed.
Print Assumptions C54_equality.
Print Assumptions C53_autofill_axes.
