(** C21 - C24, C49, C50: unbinned data, concatenation, samplers. *)
From Verif Require Import Base BaseLemmas Coord_Model Coord_Spec Space_Model Space_Spec Data_Model Data_Spec
  Data_Proofs Data_Proofs2 Data_Proofs3 Data_Proofs4 Data_Proofs5 Data_Proofs6 Data_Proofs7.
Open Scope string_scope.
Open Scope list_scope.

Ltac nodup := repeat (apply NoDup_cons; [simpl; intuition discriminate|]); apply NoDup_nil.
Definition got {A} (d : A) (r : result A) : A := match r with Ok a => a | Err _ => d end.
Definition s_none : space := mkSpace (mkCoords None None) None None None.
Definition d_none : data := mkData s_none (LM []) None.

(** x in [0, 10], y in [-1, 1]; three rows, the second one outside. *)
Definition ex_sp : space := got s_none (make_space (Some ["x"; "y"]) None (IRect [0; -1]%Q [10; 1]%Q) None).
Definition ex_rows : list (list Q) := [[1; 0]; [11; 0]; [10; 1]]%Q.
Definition ex_w : list Q := [2; 3; 5]%Q.
Definition ex_d : data := got d_none (data_from_tensor (mkT 2 ex_rows) ex_sp (Some ex_w) false).
Lemma ex_sp_ok : data_space ex_sp.
Proof. left. split; [|reflexivity]. eapply (rs_make ["x"; "y"] None [0; -1]%Q [10; 1]%Q None); [nodup|reflexivity]. Qed.
Lemma ex_rect : rectangular (mkT 2 ex_rows).
Proof. intros r [<-|[<-|[<-|[]]]]; reflexivity. Qed.
Lemma ex_d_ok : data_ok ex_d.
Proof. apply (do_tensor (mkT 2 ex_rows) ex_sp (Some ex_w) false); [exact ex_sp_ok|exact ex_rect|discriminate|reflexivity]. Qed.
Lemma ex_d_shows : shows ex_d ["x"; "y"] [[1; 0]; [10; 1]]%Q.
Proof. split; [reflexivity|]. eexists. reflexivity. Qed.
Lemma ex_d_inside : inside_all ex_d ["x"; "y"] [[1; 0]; [10; 1]]%Q.
Proof.
  intros r Hr o v iv [k [Hk Hv]] [os [ivs [E1 [E2 [j [Hj Hi]]]]]].
  injection E1 as <-. injection E2 as <-.
  destruct Hr as [<-|[<-|[]]]; destruct k as [|[|k]]; try (destruct k; discriminate); injection Hk as <-;
    (destruct j as [|[|j]]; try (destruct j; discriminate); try discriminate Hj);
    injection Hv as <-; injection Hi as <-; split; cbv; discriminate.
Qed.

(* ---------------------------------------------------------------- C21 *)
(** An array: exactly the rows inside, in order, with their weights. *)
Theorem C21_array_cut : forall sp os t ws,
  data_space sp -> s_obs sp = Some os -> rectangular t -> t_width t = length os -> weights_fit (t_rows t) ws ->
  exists d out, data_from_tensor t sp ws false = Ok d /\ shows d os out
    /\ kept_weighted (fun r => in_box os r (limit_of sp)) (t_rows t) ws out (d_weights d).
Proof. exact C21_array_l. Qed.
Print Assumptions C21_array_cut.

(** A mapping of columns, possibly with more columns than needed and in any order. *)
Theorem C21_mapping_cut : forall sp os m rows ws,
  data_space sp -> s_obs sp = Some os -> NoDup (map fst m) -> table_of m os rows -> weights_fit rows ws ->
  exists d out, data_from_mapping m sp ws false = Ok d /\ shows d os out
    /\ kept_weighted (fun r => in_box os r (limit_of sp)) rows ws out (d_weights d).
Proof. exact C21_mapping_l. Qed.
Print Assumptions C21_mapping_cut.

Theorem C21_array_and_mapping_agree : forall sp os m rows ws,
  data_space sp -> s_obs sp = Some os -> NoDup (map fst m) -> table_of m os rows -> weights_fit rows ws ->
  exists d1 d2 out, data_from_tensor (mkT (length os) rows) sp ws false = Ok d1 /\ data_from_mapping m sp ws false = Ok d2
    /\ shows d1 os out /\ shows d2 os out /\ d_weights d1 = d_weights d2.
Proof. exact C21_same_l. Qed.
Print Assumptions C21_array_and_mapping_agree.

Theorem C21_cut_idempotent : forall sp os t ws d out,
  data_space sp -> s_obs sp = Some os -> rectangular t -> t_width t = length os -> weights_fit (t_rows t) ws ->
  data_from_tensor t sp ws false = Ok d -> shows d os out ->
  exists d', data_from_tensor (mkT (length os) out) sp (d_weights d) false = Ok d'
    /\ shows d' os out /\ d_weights d' = d_weights d.
Proof. exact C21_idempotent_l. Qed.
Print Assumptions C21_cut_idempotent.

(** With guarantee_limits nothing is cut. *)
Theorem C21_guaranteed_keeps_all : forall sp os t ws,
  data_space sp -> s_obs sp = Some os -> rectangular t -> t_width t = length os -> weights_fit (t_rows t) ws ->
  exists d, data_from_tensor t sp ws true = Ok d /\ shows d os (t_rows t) /\ d_weights d = ws.
Proof. exact C21_guaranteed_l. Qed.
Print Assumptions C21_guaranteed_keeps_all.

(** Input that does not fit raises. *)
Theorem C21_misfit_raises : forall sp os,
  s_obs sp = Some os ->
  (forall t ws g, data_space sp -> t_width t <> length os -> data_from_tensor t sp ws g = Err ShapeIncompatibleError)
  /\ (forall t w, data_space sp -> rectangular t -> t_width t = length os -> length w <> length (t_rows t) ->
        data_from_tensor t sp (Some w) false = Err ValueError)
  /\ (forall m ws g o, In o os -> ~ In o (map fst m) -> data_from_mapping m sp ws g = Err ValueError).
Proof.
  intros sp os Ho. split; [|split].
  - intros. apply (C21_width_l sp os); assumption.
  - intros. apply (C21_weights_l sp os); assumption.
  - intros. apply (C21_missing_l sp os m ws g o); assumption.
Qed.
Print Assumptions C21_misfit_raises.

Example C21_nonvacuous :
  data_space ex_sp /\ s_obs ex_sp = Some ["x"; "y"] /\ rectangular (mkT 2 ex_rows) /\ weights_fit ex_rows (Some ex_w)
  /\ table_of [("z", [9]); ("y", [0; 0; 1]); ("x", [1; 11; 10])]%Q ["x"; "y"] ex_rows
  /\ data_from_tensor (mkT 2 ex_rows) ex_sp (Some ex_w) false = Ok ex_d
  /\ shows ex_d ["x"; "y"] [[1; 0]; [10; 1]]%Q /\ d_weights ex_d = Some [2; 5]%Q.
Proof.
  split; [exact ex_sp_ok|]. split; [reflexivity|]. split; [exact ex_rect|]. split; [reflexivity|].
  split; [|split; [reflexivity|split; [exact ex_d_shows|reflexivity]]].
  split; [intros r [<-|[<-|[<-|[]]]]; reflexivity|].
  intros o [<-|[<-|[]]]; [exists [1; 11; 10]%Q|exists [0; 0; 1]%Q]; (split; [simpl; tauto|]); (split; [reflexivity|]);
    intros k v r Hv Hr; [exists 0|exists 1]; (split; [reflexivity|]);
    destruct k as [|[|[|k]]]; try (destruct k; discriminate);
    injection Hv as <-; injection Hr as <-; reflexivity.
Qed.

(** Limits that are a function of several variables: the array is cut, the mapping raises. *)
Definition circle (x : list Q) : bool := Qle_bool (fold_right (fun v a => v * v + a)%Q 0%Q x) 1.
Theorem C21_functional_limits_refuted : exists sp m d,
  make_space (Some ["x"; "y"]) None (IFun 7 circle [-1; -1]%Q [1; 1]%Q) None = Ok sp
  /\ table_of m ["x"; "y"] [[1 # 2; 1 # 2]; [9 # 10; 9 # 10]; [2; 2]]%Q
  /\ data_from_tensor (mkT 2 [[1 # 2; 1 # 2]; [9 # 10; 9 # 10]; [2; 2]]%Q) sp None false = Ok d
  /\ shows d ["x"; "y"] [[1 # 2; 1 # 2]]%Q
  /\ data_from_mapping m sp None false = Err ValueError.
Proof.
  eexists. exists [("x", [1 # 2; 9 # 10; 2]); ("y", [1 # 2; 9 # 10; 2])]%Q. eexists.
  split; [reflexivity|]. split.
  { split; [intros r [<-|[<-|[<-|[]]]]; reflexivity|].
    intros o [<-|[<-|[]]]; exists [1 # 2; 9 # 10; 2]%Q; (split; [simpl; tauto|]); (split; [reflexivity|]);
    intros k v r Hv Hr; [exists 0|exists 1]; (split; [reflexivity|]);
    destruct k as [|[|[|k]]]; try (destruct k; discriminate);
    injection Hv as <-; injection Hr as <-; reflexivity. }
  split; [reflexivity|]. split; [split; [reflexivity|eexists; reflexivity]|reflexivity].
Qed.
Print Assumptions C21_functional_limits_refuted.

(* ---------------------------------------------------------------- C22 *)
(** [value(obs)] picks the columns by name, in the order asked for; names that the data do not
    have are ignored as long as one of the names is there. *)
Theorem C22_value_by_name : forall d os rows req,
  data_ok d -> shows d os rows -> NoDup req -> (exists o, In o req /\ In o os) ->
  exists d' os' picked, d_value d (Some req) = Ok (d', mkT (length os') picked)
    /\ selects os req os' /\ columns_of os rows os' picked.
Proof. exact C22_value_l. Qed.
Print Assumptions C22_value_by_name.

Theorem C22_foreign_names_raise : forall d os rows req,
  data_ok d -> shows d os rows -> (forall o, In o req -> ~ In o os) ->
  d_value d (Some req) = Err ObsIncompatibleError /\ d_with_obs d (ByNames req) = Err ObsIncompatibleError.
Proof. exact C22_unknown_l. Qed.
Print Assumptions C22_foreign_names_raise.

(** [with_obs(names)] for any data set: the columns by name, with those rows that are inside the
    limits of the remaining names, and their weights. *)
Theorem C22_with_obs : forall d os rows req,
  data_ok d -> shows d os rows -> NoDup req -> (exists o, In o req /\ In o os) ->
  exists d' os' picked out, d_with_obs d (ByNames req) = Ok d' /\ selects os req os' /\ columns_of os rows os' picked
    /\ shows d' os' out
    /\ kept_weighted (fun r => in_box os' r (limit_of (d_space d))) picked (d_weights d) out (d_weights d')
    /\ (forall o iv, limit_of (d_space d') o iv <-> In o req /\ limit_of (d_space d) o iv).
Proof. exact C22_with_obs_l. Qed.
Print Assumptions C22_with_obs.

(** [with_obs(space)]: columns by name, cut to the limits of the given space. *)
Theorem C22_with_space : forall d os rows sp os',
  data_ok d -> shows d os rows -> data_space sp -> s_obs sp = Some os' -> incl os' os ->
  exists d' picked out, d_with_obs d (BySpace sp) = Ok d' /\ columns_of os rows os' picked /\ shows d' os' out
    /\ kept_weighted (fun r => in_box os' r (limit_of sp)) picked (d_weights d) out (d_weights d').
Proof. exact C22_with_space_l. Qed.
Print Assumptions C22_with_space.

(** If all rows are inside the limits of the data's space, every row and weight stays. *)
Theorem C22_with_obs_keeps_rows_partial : forall d os rows req,
  data_ok d -> shows d os rows -> inside_all d os rows -> NoDup req -> (exists o, In o req /\ In o os) ->
  exists d' os' out, d_with_obs d (ByNames req) = Ok d' /\ selects os req os' /\ shows d' os' out
    /\ columns_of os rows os' out /\ d_weights d' = d_weights d /\ inside_all d' os' out.
Proof. exact C22_keeps_l. Qed.
Print Assumptions C22_with_obs_keeps_rows_partial.

Theorem C22_reorderings_compose : forall d os rows p q d1,
  data_ok d -> shows d os rows -> inside_all d os rows -> NoDup p -> NoDup q ->
  d_with_obs d (ByNames p) = Ok d1 -> (forall o, In o q -> In o os -> In o p) -> (exists o, In o q /\ In o os) ->
  exists d2 d3 os' out, d_with_obs d1 (ByNames q) = Ok d2 /\ d_with_obs d (ByNames q) = Ok d3
    /\ shows d2 os' out /\ shows d3 os' out /\ d_weights d2 = d_weights d /\ d_weights d3 = d_weights d.
Proof. exact C22_compose_l. Qed.
Print Assumptions C22_reorderings_compose.

Theorem C22_reordering_undone : forall d os rows p d1,
  data_ok d -> shows d os rows -> inside_all d os rows -> NoDup p -> (forall o, In o p <-> In o os) ->
  d_with_obs d (ByNames p) = Ok d1 ->
  (exists moved, shows d1 p moved /\ columns_of os rows p moved)
  /\ exists d2, d_with_obs d1 (ByNames os) = Ok d2 /\ shows d2 os rows /\ d_weights d2 = d_weights d.
Proof. exact C22_undo_l. Qed.
Print Assumptions C22_reordering_undone.

(** Reading never changes what is read later: all reads of any sequence give what the first
    state gives, although a read may replace the array by a dictionary of columns. *)
Theorem C22_reads_do_not_interfere : forall d qs ts d',
  data_ok d -> reads d qs ts d' ->
  Forall (fun q => match q with Some req => NoDup req | None => True end) qs ->
  Forall2 (fun q t => exists x, d_value d q = Ok (x, t)) qs ts
  /\ (forall q t, match q with Some req => NoDup req | None => True end ->
        ((exists x, d_value d' q = Ok (x, t)) <-> (exists x, d_value d q = Ok (x, t))))
  /\ d_weights d' = d_weights d /\ s_obs (d_space d') = s_obs (d_space d).
Proof. exact C22_reads_l. Qed.
Print Assumptions C22_reads_do_not_interfere.

(** Columns by axes: [value(axes=l)] reads the columns at these positions, in this order, also
    repeatedly; an axis the data do not have raises. *)
Theorem C22_value_by_axes : forall d os rows l,
  data_ok d -> shows d os rows -> l <> [] -> axes_of os l ->
  exists d' picked, d_value_axes d l = Ok (d', mkT (length l) picked)
    /\ Forall2 (fun r r' => Forall2 (fun z v => nth_error r (Z.to_nat z) = Some v) l r') rows picked.
Proof. exact C22_value_axes_l. Qed.
Print Assumptions C22_value_by_axes.

Theorem C22_unknown_axes_raise : forall d os rows l,
  data_ok d -> shows d os rows ->
  (~ axes_of os l -> d_value_axes d l = Err ValueError)
  /\ ((forall z, In z l -> ~ (0 <= z < Z.of_nat (length os))%Z) -> d_with_obs d (ByAxes l) = Err AxesIncompatibleError).
Proof.
  intros d os rows l Hd Hs. split; [eapply C22_axes_raise_l|eapply C22_axes_foreign_l]; eassumption.
Qed.
Print Assumptions C22_unknown_axes_raise.

(** [with_obs(axes)] selects the observables at these axes; axes the data do not have are
    ignored as long as one of them exists. *)
Theorem C22_with_axes : forall d os rows l,
  data_ok d -> shows d os rows -> NoDup l -> (exists z, In z l /\ (0 <= z < Z.of_nat (length os))%Z) ->
  exists d' picked out, d_with_obs d (ByAxes l) = Ok d' /\ columns_of os rows (names_at os l) picked
    /\ shows d' (names_at os l) out
    /\ kept_weighted (fun r => in_box (names_at os l) r (limit_of (d_space d))) picked (d_weights d) out (d_weights d').
Proof. exact C22_with_axes_full_l. Qed.
Print Assumptions C22_with_axes.

Example C22_axes_nonvacuous :
  axes_of ["x"; "y"] [1; 0; 1]%Z
  /\ (exists d1, d_value_axes ex_d [1; 0; 1]%Z = Ok (d1, mkT 3 [[0; 1; 0]; [1; 10; 1]]%Q))
  /\ d_value_axes ex_d [0; 2]%Z = Err ValueError /\ d_value_axes ex_d [-1]%Z = Err ValueError
  /\ names_at ["x"; "y"] [5; 1; -1]%Z = ["y"]
  /\ exists d1, d_with_obs ex_d (ByAxes [5; 1; -1]%Z) = Ok d1 /\ shows d1 ["y"] [[0]; [1]]%Q.
Proof.
  split; [intros z [<-|[<-|[<-|[]]]]; cbn; lia|]. split; [eexists; reflexivity|]. split; [reflexivity|]. split; [reflexivity|].
  split; [reflexivity|]. eexists. split; [reflexivity|]. split; [reflexivity|eexists; reflexivity].
Qed.

Example C22_nonvacuous :
  data_ok ex_d /\ shows ex_d ["x"; "y"] [[1; 0]; [10; 1]]%Q /\ inside_all ex_d ["x"; "y"] [[1; 0]; [10; 1]]%Q
  /\ (exists d1, d_value ex_d (Some ["y"; "foreign"]) = Ok (d1, mkT 1 [[0]; [1]]%Q) /\ d_set d1 <> d_set ex_d
        /\ reads ex_d [Some ["y"; "foreign"]; None] [mkT 1 [[0]; [1]]; mkT 2 [[1; 0]; [10; 1]]]%Q d1)
  /\ exists d1 d2, d_with_obs ex_d (ByNames ["y"; "x"]) = Ok d1 /\ shows d1 ["y"; "x"] [[0; 1]; [1; 10]]%Q
        /\ d_with_obs d1 (ByNames ["x"]) = Ok d2 /\ shows d2 ["x"] [[1]; [10]]%Q /\ d_weights d2 = Some [2; 5]%Q.
Proof.
  split; [exact ex_d_ok|]. split; [exact ex_d_shows|]. split; [exact ex_d_inside|]. split.
  - eexists. split; [reflexivity|]. split; [discriminate|]. econstructor; [reflexivity|]. econstructor; [reflexivity|constructor].
  - eexists. eexists. split; [reflexivity|]. split; [split; [reflexivity|eexists; reflexivity]|].
    split; [reflexivity|]. split; [split; [reflexivity|eexists; reflexivity]|reflexivity].
Qed.

(** Data created with guarantee_limits=True: the first reordering cuts them nevertheless. *)
Theorem C22_guarantee_forgotten_refuted : exists d d',
  data_from_tensor (mkT 2 ex_rows) ex_sp (Some ex_w) true = Ok d /\ data_ok d /\ shows d ["x"; "y"] ex_rows
  /\ d_with_obs d (ByNames ["x"; "y"]) = Ok d' /\ shows d' ["x"; "y"] [[1; 0]; [10; 1]]%Q /\ d_weights d' = Some [2; 5]%Q.
Proof.
  eexists. eexists. split; [reflexivity|]. split.
  { apply (do_tensor (mkT 2 ex_rows) ex_sp (Some ex_w) true); [exact ex_sp_ok|exact ex_rect|reflexivity|reflexivity]. }
  split; [split; [reflexivity|eexists; reflexivity]|]. split; [reflexivity|].
  split; [split; [reflexivity|eexists; reflexivity]|reflexivity].
Qed.
Print Assumptions C22_guarantee_forgotten_refuted.

(* ---------------------------------------------------------------- C23 *)
(** Along the index: all rows of all inputs, one input after the other, columns by name. *)
Theorem C23_concat_index : forall ds o sp obs,
  (forall d, In d ds -> data_ok d) -> ds <> [] -> data_space sp -> s_obs sp = Some obs -> concat_space ds o = Ok sp ->
  (forall d os, In d ds -> s_obs (d_space d) = Some os -> forall o, In o obs <-> In o os) ->
  exists d' parts, concat_index ds o = Ok d'
    /\ Forall2 (fun d part => exists os rows, shows d os rows /\ columns_of os rows obs part) ds parts
    /\ shows d' obs (concat parts) /\ joined_weights ds parts (d_weights d').
Proof. exact concat_index_final. Qed.
Print Assumptions C23_concat_index.

Theorem C23_concat_index_raises : forall ds o sp d os,
  (forall d, In d ds -> data_ok d) -> concat_space ds o = Ok sp -> In d ds -> s_obs (d_space d) = Some os ->
  ~ (forall x, In x (obs_list sp) <-> In x os) -> concat_index ds o = Err ValueError.
Proof. exact concat_index_raises. Qed.
Print Assumptions C23_concat_index_raises.

(** Sample sizes (sums of weights, or number of rows) add up. *)
Theorem C23_samplesize_adds : forall ds o d',
  (forall d, In d ds -> data_ok d) ->
  match o with NoObs => True | Names l => NoDup l | InSpace s => data_space s end ->
  concat_index ds o = Ok d' -> (d_samplesize d' == qsum (map d_samplesize ds))%Q.
Proof. exact concat_index_size. Qed.
Print Assumptions C23_samplesize_adds.

(** Along the observables: the tables side by side, weights multiplied, limits of all. Proved if
    at least one of the data sets holds an array (see the refutation). *)
Theorem C23_concat_obs_partial : forall ds tables n,
  (forall d, In d ds -> data_ok d) -> ds <> [] -> compatible_limits ds ->
  NoDup (concat (map d_obs ds)) -> Forall2 (fun d t => exists os, shows d os t) ds tables ->
  (forall t, In t tables -> length t = n) -> (exists d, In d ds /\ is_map d = false) ->
  exists d' rows, concat_obs ds None = Ok d' /\ data_ok d' /\ shows d' (concat (map d_obs ds)) rows
    /\ side_by_side tables rows /\ length rows = n
    /\ match d_weights d' with
       | None => forall d, In d ds -> d_weights d = None
       | Some w => length w = n /\ (exists d, In d ds /\ d_weights d <> None)
           /\ forall k v, nth_error w k = Some v ->
                exists vs, Forall2 (fun d u => weight_at d k u) ds vs /\ (v == product vs)%Q
       end
    /\ (forall o iv, limit_of (d_space d') o iv <-> exists d, In d ds /\ limit_of (d_space d) o iv)
    /\ (forall sp, (forall o, In o (obs_list sp) <-> In o (concat (map d_obs ds))) ->
          concat_obs ds (Some sp) = d_with_obs d' (BySpace sp)).
Proof. exact concat_obs_final. Qed.
Print Assumptions C23_concat_obs_partial.

Definition ex_spz : space := got s_none (make_space (Some ["z"]) None (IRect [0]%Q [9]%Q) None).
Lemma ex_spz_ok : data_space ex_spz.
Proof. left. split; [|reflexivity]. eapply (rs_make ["z"] None [0]%Q [9]%Q None); [nodup|reflexivity]. Qed.
Definition ex_dz : data := got d_none (data_from_tensor (mkT 1 [[7]; [8]]%Q) ex_spz None false).
Lemma ex_dz_ok : data_ok ex_dz.
Proof.
  apply (do_tensor (mkT 1 [[7]; [8]]%Q) ex_spz None false); [exact ex_spz_ok| |discriminate|reflexivity].
  intros r [<-|[<-|[]]]; reflexivity.
Qed.
Definition ex_dyx : data := got d_none (d_with_obs (got d_none (d_with_weights ex_d None)) (ByNames ["y"; "x"])).
Lemma ex_dyx_ok : data_ok ex_dyx.
Proof.
  apply (do_with_obs (got d_none (d_with_weights ex_d None)) ["y"; "x"]); [|nodup|reflexivity].
  apply (do_with_weights ex_d None); [exact ex_d_ok|reflexivity].
Qed.
Example C23_nonvacuous :
  (forall d, In d [ex_d; ex_dyx] -> data_ok d) /\ concat_space [ex_d; ex_dyx] (Names ["y"; "x"]) = s_with_obs (d_space ex_d) (Some ["y"; "x"]) true true
  /\ (exists d', concat_index [ex_d; ex_dyx] NoObs = Ok d' /\ shows d' ["x"; "y"] [[1; 0]; [10; 1]; [1; 0]; [10; 1]]%Q
        /\ d_weights d' = Some [2; 5; 1; 1]%Q)
  /\ (forall d, In d [ex_d; ex_dz] -> data_ok d) /\ compatible_limits [ex_d; ex_dz] /\ is_map ex_d = false
  /\ exists d', concat_obs [ex_d; ex_dz] None = Ok d' /\ shows d' ["x"; "y"; "z"] [[1; 0; 7]; [10; 1; 8]]%Q
       /\ d_weights d' = Some [2; 5]%Q.
Proof.
  split; [intros d [<-|[<-|[]]]; [exact ex_d_ok|exact ex_dyx_ok]|]. split; [reflexivity|].
  split; [eexists; split; [reflexivity|split; [split; [reflexivity|eexists; reflexivity]|reflexivity]]|].
  split; [intros d [<-|[<-|[]]]; [exact ex_d_ok|exact ex_dz_ok]|].
  split; [left; intros d [<-|[<-|[]]]; reflexivity|]. split; [reflexivity|].
  eexists; split; [reflexivity|split; [split; [reflexivity|eexists; reflexivity]|reflexivity]].
Qed.

(** Data sets that hold columns instead of an array cannot be joined along the observables; and
    reading a single column of an array turns it into columns: the same call works before and
    fails after a read. *)
Theorem C23_concat_obs_columns_refuted : exists d1 d2 d1' d2' t1 t2 j,
  data_ok d1 /\ data_ok d2 /\ concat_obs [d1; d2] None = Ok j
  /\ d_value d1 (Some ["x"]) = Ok (d1', t1) /\ d_value d2 (Some ["u"]) = Ok (d2', t2)
  /\ concat_obs [d1'; d2'] None = Err AttributeError.
Proof.
  set (spu := got s_none (make_space (Some ["u"; "v"]) None (IRect [0; 0]%Q [9; 9]%Q) None)).
  exists ex_d. exists (got d_none (data_from_tensor (mkT 2 [[7; 1]; [8; 2]]%Q) spu None false)).
  do 5 eexists. split; [exact ex_d_ok|]. split.
  { apply (do_tensor (mkT 2 [[7; 1]; [8; 2]]%Q) spu None false); [| |discriminate|reflexivity].
    - left. split; [|reflexivity]. eapply (rs_make ["u"; "v"] None [0; 0]%Q [9; 9]%Q None); [nodup|reflexivity].
    - intros r [<-|[<-|[]]]; reflexivity. }
  split; [reflexivity|]. split; [reflexivity|]. split; reflexivity.
Qed.
Print Assumptions C23_concat_obs_columns_refuted.

(** Concatenation along the index does not cut: rows of later data sets outside the limits of the
    first one stay, and disappear when the result is reordered. *)
Theorem C23_concat_index_outside_refuted : exists d1 d2 d' d'',
  data_ok d1 /\ data_ok d2 /\ concat_index [d1; d2] NoObs = Ok d'
  /\ shows d' ["z"] [[7]; [8]; [20]]%Q /\ limit_of (d_space d') "z" (0, 9)%Q
  /\ d_with_obs d' (ByNames ["z"]) = Ok d'' /\ shows d'' ["z"] [[7]; [8]]%Q.
Proof.
  set (spw := got s_none (make_space (Some ["z"]) None (IRect [0]%Q [30]%Q) None)).
  exists ex_dz. exists (got d_none (data_from_tensor (mkT 1 [[20]]%Q) spw None false)).
  do 2 eexists. split; [exact ex_dz_ok|]. split.
  { apply (do_tensor (mkT 1 [[20]]%Q) spw None false); [| |discriminate|reflexivity].
    - left. split; [|reflexivity]. eapply (rs_make ["z"] None [0]%Q [30]%Q None); [nodup|reflexivity].
    - intros r [<-|[]]; reflexivity. }
  split; [reflexivity|]. split; [split; [reflexivity|eexists; reflexivity]|].
  split; [exists ["z"], [(0, 9)%Q]; split; [reflexivity|split; [reflexivity|exists 0; split; reflexivity]]|].
  split; [reflexivity|]. split; [reflexivity|eexists; reflexivity].
Qed.
Print Assumptions C23_concat_index_outside_refuted.

(* ---------------------------------------------------------------- C24 *)
(** A new array: exactly its rows inside the limits, with their weights; size and weights fit. *)
Theorem C24_update_array : forall s os t ws,
  sampler_ok s -> s_obs (sm_space s) = Some os -> rectangular t -> t_width t = length os ->
  weights_fit (t_rows t) ws -> agrees s ws ->
  exists s', sm_update s (NArray t ws) false = (s', Ok tt)
    /\ kept_weighted (fun r => in_box os r (limit_of (sm_space s))) (t_rows t) ws (sm_rows s') (sm_weights s')
    /\ consistent s' /\ shows (v_data s' (sampler_data s')) os (sm_rows s').
Proof. exact C24_array_l. Qed.
Print Assumptions C24_update_array.

(** A new data set: its columns by name. *)
Theorem C24_update_data : forall s os d osd rows,
  sampler_ok s -> s_obs (sm_space s) = Some os -> data_ok d -> shows d osd rows -> incl os osd -> agrees s (d_weights d) ->
  exists s' picked, sm_update s (NData d None) false = (s', Ok tt) /\ columns_of osd rows os picked
    /\ kept_weighted (fun r => in_box os r (limit_of (sm_space s))) picked (d_weights d) (sm_rows s') (sm_weights s')
    /\ consistent s' /\ shows (v_data s' (sampler_data s')) os (sm_rows s').
Proof. exact C24_data_l. Qed.
Print Assumptions C24_update_data.

(** A failed update changes nothing, provided the new sample has weights iff the sampler has. *)
Theorem C24_failed_update_partial : forall s x g s' e,
  sampler_ok s -> sample_ok x g -> agrees s (sample_weights x) -> sm_update s x g = (s', Err e) -> s' = s.
Proof. exact C24_failed_l. Qed.
Print Assumptions C24_failed_update_partial.

(** Through any history of such updates and resamplings, failing or not, rows, weights and size
    belong together. *)
Theorem C24_history_consistent_partial : forall s s',
  history s s' -> sampler_ok s -> consistent s -> consistent s' /\ sampler_ok s'.
Proof. exact C24_history_l. Qed.
Print Assumptions C24_history_consistent_partial.

Theorem C24_new_sampler_consistent : forall obs func params n s,
  data_space obs -> (forall m p, rectangular (fst (func m p)) /\ weights_fit (t_rows (fst (func m p))) (snd (func m p))) ->
  from_sampler obs func params n = Ok s -> consistent s.
Proof. exact new_consistent. Qed.
Print Assumptions C24_new_sampler_consistent.

(** A sampler: [n] rows with value mu, which can lie outside the limits. *)
Definition ex_func (m : nat) (p : list (string * Q)) : tensor * option (list Q) :=
  (mkT 1 (repeat [match lookup String.eqb "mu" p with Some v => v | None => 0 end]%Q m), None).
Definition sm_none : sampler := mkSampler s_none [] None 0 [] ex_func.
Definition ex_sm : sampler := got sm_none (from_sampler ex_spz ex_func [("mu", 4%Q); ("sigma", 1%Q)] 2).
Lemma ex_func_ok : forall m p, rectangular (fst (ex_func m p)) /\ weights_fit (t_rows (fst (ex_func m p))) (snd (ex_func m p)).
Proof. intros m p. split; [|exact Logic.I]. intros r H. apply repeat_spec in H. subst. reflexivity. Qed.
Lemma ex_sm_ok : sampler_ok ex_sm.
Proof. apply (so_new ex_spz ex_func [("mu", 4%Q); ("sigma", 1%Q)] 2); [exact ex_spz_ok|exact ex_func_ok|reflexivity]. Qed.
Example C24_nonvacuous :
  sampler_ok ex_sm /\ s_obs (sm_space ex_sm) = Some ["z"] /\ consistent ex_sm /\ sm_rows ex_sm = [[4]; [4]]%Q
  /\ agrees ex_sm None /\ agrees ex_sm (d_weights ex_dz)
  /\ (exists s', sm_update ex_sm (NArray (mkT 1 [[1]; [20]; [3]]%Q) None) false = (s', Ok tt)
        /\ sm_rows s' = [[1]; [3]]%Q /\ sm_n s' = 2 /\ history ex_sm s')
  /\ exists s' e, sm_update ex_sm (NArray (mkT 2 [[1; 2]]%Q) None) false = (s', Err e) /\ s' = ex_sm.
Proof.
  split; [exact ex_sm_ok|]. split; [reflexivity|]. split; [split; [exact Logic.I|reflexivity]|]. split; [reflexivity|].
  split; [split; reflexivity|]. split; [split; reflexivity|]. split.
  - eexists. split; [reflexivity|]. split; [reflexivity|]. split; [reflexivity|].
    eapply (h_update ex_sm (NArray (mkT 1 [[1]; [20]; [3]]%Q) None) false _ (Ok tt)); [split; reflexivity| |reflexivity|constructor].
    split; [intros r [<-|[<-|[<-|[]]]]; reflexivity|discriminate].
  - eexists. eexists. split; reflexivity.
Qed.

(** Weights given to a sampler without weights: the update raises, but the rows are already
    the new ones while the size is still the old one. *)
Theorem C24_failed_update_refuted : exists s t w s' e,
  sampler_ok s /\ rectangular t /\ weights_fit (t_rows t) (Some w)
  /\ sm_update s (NArray t (Some w)) false = (s', Err e)
  /\ sm_rows s' = t_rows t /\ sm_rows s' <> sm_rows s /\ sm_n s' = sm_n s /\ sm_n s' <> length (sm_rows s').
Proof.
  exists ex_sm. exists (mkT 1 [[1]; [2]; [3]]%Q). exists [1; 1; 1]%Q. eexists. eexists.
  split; [exact ex_sm_ok|]. split; [intros r [<-|[<-|[<-|[]]]]; reflexivity|]. split; [reflexivity|].
  split; [reflexivity|]. split; [reflexivity|]. split; [discriminate|]. split; [reflexivity|discriminate].
Qed.
Print Assumptions C24_failed_update_refuted.

(** The first sample is cut to the limits of the sampler, a resampled one is not. *)
Theorem C24_resample_outside_refuted : exists s s',
  sampler_ok s /\ sm_resample s [("mu", 100%Q)] 1 = (s', Ok tt)
  /\ sm_rows s' = [[100]]%Q /\ limit_of (sm_space s') "z" (0, 9)%Q.
Proof.
  exists ex_sm. eexists. split; [exact ex_sm_ok|]. split; [reflexivity|]. split; [reflexivity|].
  exists ["z"], [(0, 9)%Q]. split; [reflexivity|]. split; [reflexivity|]. exists 0. split; reflexivity.
Qed.
Print Assumptions C24_resample_outside_refuted.

(** [with_weights] of a sampler is a view: after an update its weights belong to other rows. *)
Theorem C24_weighted_view_refuted : exists s v s' t,
  sampler_ok s /\ v_with_weights s (sampler_data s) (Some [3; 5]%Q) = Ok v
  /\ sm_update s (NArray (mkT 1 [[1]; [2]; [3]]%Q) None) false = (s', Ok tt)
  /\ v_value s' v None = Ok t /\ t_rows t = [[1]; [2]; [3]]%Q /\ v_weights v = Some [3; 5]%Q.
Proof.
  exists ex_sm. do 3 eexists. split; [exact ex_sm_ok|]. split; [reflexivity|]. split; [reflexivity|].
  split; [reflexivity|]. split; reflexivity.
Qed.
Print Assumptions C24_weighted_view_refuted.

(* ---------------------------------------------------------------- C49 *)
(** To a data frame and back: same rows in the same order, same weights (the name for the
    weights and the empty name must not be names of observables). *)
Theorem C49_pandas_round_trip_partial : forall d os rows wname,
  data_ok d -> shows d os rows -> inside_all d os rows ->
  ~ In (match wname with Some n => n | None => "" end) os -> ~ In "" os ->
  exists d1 f d2, d_to_pandas d wname = Ok (d1, f)
    /\ data_from_pandas f (d_space d) (match d_weights d with Some _ => wname | None => None end) false = Ok d2
    /\ shows d2 os rows /\ d_weights d2 = d_weights d.
Proof. exact C49_l. Qed.
Print Assumptions C49_pandas_round_trip_partial.

Example C49_nonvacuous :
  data_ok ex_d /\ shows ex_d ["x"; "y"] [[1; 0]; [10; 1]]%Q /\ inside_all ex_d ["x"; "y"] [[1; 0]; [10; 1]]%Q
  /\ exists d1, d_to_pandas ex_d None = Ok (d1, [("x", [1; 10]); ("y", [0; 1]); ("", [2; 5])]%Q).
Proof.
  split; [exact ex_d_ok|]. split; [exact ex_d_shows|]. split; [exact ex_d_inside|]. eexists. reflexivity.
Qed.

(** A weights name that is an observable: its column is overwritten, and reading the frame back
    drops the observable. *)
Theorem C49_weightsname_refuted : exists d1 f d2,
  d_to_pandas ex_d (Some "y") = Ok (d1, f) /\ f = [("x", [1; 10]); ("y", [2; 5])]%Q
  /\ data_from_pandas f (d_space ex_d) (Some "y") false = Ok d2 /\ shows d2 ["x"] [[1]; [10]]%Q.
Proof.
  do 3 eexists. split; [reflexivity|]. split; [reflexivity|]. split; [reflexivity|]. split; [reflexivity|eexists; reflexivity].
Qed.
Print Assumptions C49_weightsname_refuted.

(* ---------------------------------------------------------------- C50 *)
(** [resample]: the function is called with the values of creation, replaced by the given
    values; the values of creation stay what they were for the next call. *)
Theorem C50_resample_values : forall s params n s',
  sm_resample s params n = (s', Ok tt) ->
  exists values, (NoDup (map fst params) -> forall p, lookup String.eqb p values =
       match lookup String.eqb p params with Some v => Some v | None => lookup String.eqb p (sm_params s) end)
    /\ sm_rows s' = t_rows (fst (sm_func s n values)) /\ sm_weights s' = snd (sm_func s n values) /\ sm_n s' = n
    /\ sm_params s' = sm_params s.
Proof. exact C50_resample_l. Qed.
Print Assumptions C50_resample_values.

Example C50_nonvacuous : exists s1 s2,
  sm_resample ex_sm [("mu", 6%Q)] 3 = (s1, Ok tt) /\ sm_rows s1 = [[6]; [6]; [6]]%Q
  /\ sm_resample s1 [] 2 = (s2, Ok tt) /\ sm_rows s2 = [[4]; [4]]%Q.
Proof. do 2 eexists. split; [reflexivity|]. split; [reflexivity|]. split; reflexivity. Qed.
