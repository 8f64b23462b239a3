(** C12 - C15: parameters, temporary settings and set_values. *)
From Coq Require Import Lqa.
From Verif Require Import Base BaseLemmas Param_Model Param_Spec Param_Proofs Param_Proofs2 Param_Proofs3.
Open Scope string_scope.
Open Scope list_scope.

(** The states used in the examples: x in [0, 1], y in [-5, 5], everything else unlimited. *)
Definition ex_x := mkParam "x" (Fin (1 # 2)) (Some 0%Q) (Some 1%Q) true.
Definition ex_y := mkParam "y" (Fin 2) (Some (-5)%Q) (Some 5%Q) true.
Definition ex_n (i : nat) := mkParam "n" (Fin 7) None None true.
Definition ex_par (i : nat) := match i with 0 => ex_x | 1 => ex_y | _ => ex_n i end.
Definition ex_run := mkRun GAuto default_jit false true false true.
Definition ex_st := mkState ex_par ex_run (fun _ => None).

(* ---------------------------------------------------------------- C12 *)
(** Any history without NaN writes: parameters with ordered limits read inside of them. *)
Theorem C12_value_in_limits_partial : forall p st st' e i,
  (forall j, p_raw (st_par st j) <> NaN) -> no_nan p -> exec p st = (st', e) ->
  ordered_limits (st_par st' i) ->
  p_value (st_par st' i) <> NaN /\ in_limits (st_par st' i) (p_value (st_par st' i)).
Proof. exact C12_in_limits. Qed.
Print Assumptions C12_value_in_limits_partial.

(** The value read is the last value written moved into the current limits, whatever else
    happened in between (changes of limits, other parameters, exceptions, temporary settings). *)
Theorem C12_last_value_written : forall w i v p st st1 st' e,
  w = Do (CSet i v) \/ w = Assign i v \/ w = Randomize i v ->
  exec w st = (st1, None) -> leaves i p -> exec p st1 = (st', e) ->
  v <> NaN -> ordered_limits (st_par st' i) ->
  clipped (st_par st' i) v (p_value (st_par st' i)).
Proof. exact C12_last_write. Qed.
Print Assumptions C12_last_value_written.

Example C12_nonvacuous :
  let p := Seq (Assign 0 (Fin 3)) (Seq (With (CSet 1 (Fin 4)) (Try (Do (CSet 0 (Fin 9))) (SetUpper 0 (Some 2)%Q)))
             (SetLower 0 (Some (-1)%Q))) in
  no_nan p
  /\ (let st' := fst (exec p ex_st) in
      p_value (st_par st' 0) = Fin 2 /\ p_value (st_par st' 1) = Fin 2 /\ snd (exec p ex_st) = None)
  /\ leaves 0 (Seq (With (CSet 1 (Fin 4)) (SetUpper 0 (Some (1 # 4)%Q))) (Raise KeyError))
  /\ p_value (st_par (fst (exec (Seq (With (CSet 1 (Fin 4)) (SetUpper 0 (Some (1 # 4)%Q))) (Raise KeyError)) ex_st)) 0)
     = Fin (1 # 4).
Proof. simpl. repeat split; try discriminate; reflexivity. Qed.

(** NaN is accepted by every parameter and then read back: not within any limits. *)
Theorem C12_nan_refuted : exists st st' i,
  ordered_limits (st_par st i) /\ exec (Do (CSet i NaN)) st = (st', None)
  /\ ~ in_limits (st_par st' i) (p_value (st_par st' i)).
Proof.
  exists ex_st. eexists. exists 0. split; [|split; [reflexivity|]].
  - intros l u H1 H2. inversion H1. inversion H2. discriminate.
  - intros [H _]. specialize (H 0%Q eq_refl). inversion H; congruence.
Qed.
Print Assumptions C12_nan_refuted.

(* ---------------------------------------------------------------- C13 *)
(** A finite value: rejected iff beyond a limit by at least the tolerance. *)
Theorem C13_set_value : forall st i q st' e,
  ordered_limits (st_par st i) -> exec (Do (CSet i (Fin q))) st = (st', e) ->
  (e = Some ValueError /\ st' = st /\ beyond (st_par st i) q)
  \/ (e = None /\ ~ beyond (st_par st i) q
      /\ clipped (st_par st i) (Fin q) (p_value (st_par st' i))
      /\ p_lower (st_par st' i) = p_lower (st_par st i) /\ p_upper (st_par st' i) = p_upper (st_par st i)
      /\ (forall j, j <> i -> st_par st' j = st_par st j)
      /\ st_run st' = st_run st /\ st_weights st' = st_weights st).
Proof. exact C13_iff. Qed.
Print Assumptions C13_set_value.

(** Infinite values are rejected iff the parameter has a limit; NaN never is. *)
Theorem C13_not_finite : forall st i v st' e,
  (forall q, v <> Fin q) -> exec (Do (CSet i v)) st = (st', e) ->
  (e = Some ValueError /\ st' = st /\ v <> NaN /\ (p_lower (st_par st i) <> None \/ p_upper (st_par st i) <> None))
  \/ (e = None /\ p_value (st_par st' i) = v
      /\ (v = NaN \/ (p_lower (st_par st i) = None /\ p_upper (st_par st i) = None))
      /\ (forall j, j <> i -> st_par st' j = st_par st j)).
Proof. exact C13_special. Qed.
Print Assumptions C13_not_finite.

Example C13_nonvacuous :
  let n := (1 # 100000000)%Q in
  snd (exec (Do (CSet 0 (Fin (1 + n)))) ex_st) = None
  /\ p_value (st_par (fst (exec (Do (CSet 0 (Fin (1 + n)))) ex_st)) 0) = Fin 1
  /\ snd (exec (Do (CSet 0 (Fin (1 + 100 * n)))) ex_st) = Some ValueError
  /\ snd (exec (Do (CSet 0 PInf)) ex_st) = Some ValueError
  /\ snd (exec (Do (CSet 7 PInf)) ex_st) = None
  /\ ordered_limits (st_par ex_st 0).
Proof.
  simpl. repeat split; try reflexivity. intros l u H1 H2. inversion H1. inversion H2. discriminate.
Qed.

(** With lower = upper the tolerance is zero and the only value in the limits is rejected. *)
Theorem C13_fixed_limits_refuted : exists st i q,
  in_limits (st_par st i) (Fin q) /\ exec (Do (CSet i (Fin q))) st = (st, Some ValueError).
Proof.
  exists (mkState (fun _ => mkParam "x" (Fin 1) (Some 1%Q) (Some 1%Q) true) ex_run (fun _ => None)), 0, 1%Q.
  split; [|reflexivity]. split; intros l H; inversion H; constructor; discriminate.
Qed.
Print Assumptions C13_fixed_limits_refuted.

(** Inside a graph the limits themselves are rejected; in eager mode they are not. *)
Theorem C13_graph_mode_differs_refuted : exists p q,
  has_room p /\ in_limits p (Fin q) /\ rejects p (Fin q) = false /\ rejects_graph p (Fin q) = true.
Proof.
  exists ex_x, 1%Q. split; [|split; [|split; reflexivity]].
  - split; [intros l u H1 H2; inversion H1; inversion H2; reflexivity|]. intros _. split; discriminate.
  - split; intros l H; inversion H; constructor; discriminate.
Qed.
Print Assumptions C13_graph_mode_differs_refuted.

(* ---------------------------------------------------------------- C14 *)
(** One with-block, whatever its body does, as long as the body does not change the limits of the
    parameters involved: the block raises what its body raises, what was readable before is
    readable again, and everything else is as the body left it. *)
Theorem C14_block_restores : forall c body st st1 st2 e,
  setter st c = (st1, None) -> exec body st1 = (st2, e) ->
  (forall i, match c with CSet j _ => i = j | CSetValues ps _ => In i ps | _ => False end ->
     p_lower (st_par st2 i) = p_lower (st_par st i) /\ p_upper (st_par st2 i) = p_upper (st_par st i)
     /\ has_room (st_par st i)) ->
  (forall g, c = CGraph g -> r_graph (st_run st) <> GBad) ->
  exists st3, exec (With c body) st = (st3, e) /\ getter st3 c = getter st c /\ same_but c st2 st3.
Proof. exact block_restores. Qed.
Print Assumptions C14_block_restores.

(** A block whose call is refused does not run its body; a refused set_value changes nothing. *)
Theorem C14_refused_entry : forall c body st st1 e,
  setter st c = (st1, Some e) -> exec (With c body) st = (st1, Some e).
Proof. intros c body st st1 e H. simpl. rewrite H. reflexivity. Qed.
Print Assumptions C14_refused_entry.

(** Any nesting of blocks on any mix of settings, left normally or by an exception anywhere,
    leaves everything as it was. *)
Theorem C14_nested_restored_partial : forall p st st' e,
  ordinary st -> temporary st p -> exec p st = (st', e) -> same_state st st'.
Proof. exact nested. Qed.
Print Assumptions C14_nested_restored_partial.

Lemma ex_st_ordinary : ordinary ex_st.
Proof.
  split.
  - intros [|[|i]]; split; simpl; try (intros l u H1 H2; inversion H1; inversion H2; reflexivity); intros [H|H]; try congruence; split; discriminate.
  - split; [|split; [reflexivity|]].
    + intros k Hk. apply lookup_some_key; [exact string_eqb_ok|exact Hk].
    + cbn [r_graph ex_run ex_st st_run]. split; [reflexivity|]. intros k b H. unfold default_of.
      cbn [r_jit ex_run] in H. rewrite H. reflexivity.
Qed.
Example C14_nonvacuous :
  let p := With (CSet 0 (Fin 1)) (With (CGraph GFalse) (Seq
             (Try (With (CSetValues [0; 1; 0] [Fin 0; Fin 5; Fin (1 # 3)]) (Raise KeyError)) Skip)
             (With (CAutograd false) (With (CSet 0 (Fin 77)) Skip)))) in
  ordinary ex_st /\ temporary ex_st p /\ snd (exec p ex_st) = Some ValueError.
Proof.
  split; [exact ex_st_ordinary|]. split; [|reflexivity].
  apply t_set, t_graph; [auto|]. apply t_seq.
  - apply t_try; [|apply t_skip]. apply t_sets; [reflexivity| |apply t_raise].
    intros i v Hin st1 E. simpl in Hin. repeat (destruct Hin as [Hin|Hin]; [inversion Hin; subst; vm_compute in E; discriminate|]). destruct Hin.
  - apply t_autograd, t_set, t_skip.
Qed.
Example C14_block_nonvacuous :
  let body := Seq (Assign 0 (Fin 9)) (Seq (SetFloating 1 false) (Raise KeyError)) in
  let r := exec (With (CSet 0 (Fin 1)) body) ex_st in
  setter ex_st (CSet 0 (Fin 1)) = (assign ex_st 0 (Fin 1), None)
  /\ snd r = Some KeyError /\ p_value (st_par (fst r) 0) = Fin (1 # 2) /\ p_floating (st_par (fst r) 1) = false.
Proof. repeat split; reflexivity. Qed.

(** A graph mode that is a dictionary does not restore the keys it does not mention. *)
Theorem C14_graph_dict_refuted : exists st body st' k,
  exec (With (CGraph GTrue) body) st = (st', None) /\ body = Skip
  /\ r_graph (st_run st') = r_graph (st_run st)
  /\ lookup String.eqb k (r_jit (st_run st')) <> lookup String.eqb k (r_jit (st_run st)).
Proof.
  exists (fst (exec (Do (CGraph (GDict [("loss", false)]))) ex_st)), Skip. eexists. exists "model".
  split; [reflexivity|]. split; [reflexivity|]. split; [reflexivity|]. vm_compute. discriminate.
Qed.
Print Assumptions C14_graph_dict_refuted.

(** When set_values is refused midway, the earlier parameters keep their temporary value. *)
Theorem C14_set_values_entry_refuted : exists st ps vs st',
  ordinary st /\ exec (With (CSetValues ps vs) Skip) st = (st', Some ValueError)
  /\ p_value (st_par st' 1) <> p_value (st_par st 1).
Proof.
  exists ex_st, [1; 0], [Fin 3; Fin 8]. eexists. split; [exact ex_st_ordinary|]. split; [reflexivity|]. vm_compute. discriminate.
Qed.
Print Assumptions C14_set_values_entry_refuted.

(** set_graph_mode with an invalid mode raises but has switched the backend. *)
Theorem C14_bad_graph_mode_refuted : exists st st',
  exec (With (CGraph GBad) Skip) st = (st', Some ValueError)
  /\ r_graph (st_run st') = r_graph (st_run st)
  /\ r_backend_eager (st_run st') <> r_backend_eager (st_run st).
Proof.
  exists (fst (exec (Do (CGraph GFalse)) ex_st)). eexists. split; [reflexivity|]. split; [reflexivity|]. vm_compute. discriminate.
Qed.
Print Assumptions C14_bad_graph_mode_refuted.

(** Limits changed in the body can make the restoration fail, or change what it restores. *)
Theorem C14_limits_changed_refuted : exists st body st',
  ordinary st /\ exec (With (CSet 0 (Fin 1)) body) st = (st', Some ValueError) /\ snd (exec body st) = None
  /\ p_value (st_par st' 0) <> p_value (st_par st 0).
Proof.
  exists ex_st, (SetLower 0 (Some (3 # 4)%Q)). eexists. split; [exact ex_st_ordinary|]. split; [reflexivity|]. split; [reflexivity|]. vm_compute. discriminate.
Qed.
Print Assumptions C14_limits_changed_refuted.

(* ---------------------------------------------------------------- C15 *)
(** Positional values: the parameters before the first refused value, and only they, are set. *)
Theorem C15_positional : forall st ids vs ap st' e,
  (forall i, ordered_limits (st_par st i)) -> length vs = length ids ->
  set_values st (map OIndep ids) (VSeq vs) ap = (st', e) ->
  exists k, k <= length ids /\ updated_up_to k ids vs st st'
    /\ (forall j i v, j < k -> nth_error ids j = Some i -> nth_error vs j = Some v -> ~ refused (st_par st i) v)
    /\ ((k = length ids /\ e = None)
        \/ (e = Some ValueError /\ exists i v, nth_error ids k = Some i /\ nth_error vs k = Some v
              /\ refused (st_par st i) v)).
Proof. exact set_values_positional. Qed.
Print Assumptions C15_positional.

(** A mapping is the same as the positional call for the parameters that it holds. *)
Theorem C15_mapping : forall st ids m ap found_ids vs,
  NoDup (map fst m) ->
  found (fun i v => holds m i (p_name (st_par st i)) v) (fun i => absent m i (p_name (st_par st i)))
        ids found_ids vs ->
  (ap = true \/ found_ids = ids ->
     set_values st (map OIndep ids) (VMap m) ap = set_values st (map OIndep found_ids) (VSeq vs) ap
     /\ length vs = length found_ids)
  /\ (found_ids <> ids -> set_values st (map OIndep ids) (VMap m) false = (st, Some ValueError)).
Proof. exact set_values_mapping. Qed.
Print Assumptions C15_mapping.

(** Every list of parameters splits into found and missing ones. *)
Theorem C15_mapping_total : forall (name : nat -> string) m ids,
  exists found_ids vs, found (fun i v => holds m i (name i) v) (fun i => absent m i (name i)) ids found_ids vs.
Proof. exact found_total_map. Qed.
Print Assumptions C15_mapping_total.

(** The same for a FitResult. *)
Theorem C15_result : forall st ids r ap found_ids vs,
  NoDup (map fst r) ->
  found (fun i v => In (i, v) r) (fun i => forall v, ~ In (i, v) r) ids found_ids vs ->
  (ap = true \/ found_ids = ids ->
     set_values st (map OIndep ids) (VResult r) ap = set_values st (map OIndep found_ids) (VSeq vs) ap
     /\ length vs = length found_ids)
  /\ (found_ids <> ids -> set_values st (map OIndep ids) (VResult r) false = (st, Some ValueError)).
Proof. exact set_values_result. Qed.
Print Assumptions C15_result.

(** Invalid calls change nothing. *)
Theorem C15_invalid : forall st ps vs ap,
  (ps <> [] -> length vs <> length ps -> set_values st ps (VSeq vs) ap = (st, Some ValueError))
  /\ (length vs = length ps -> In OOther ps -> set_values st ps (VSeq vs) ap = (st, Some TypeError))
  /\ (length vs = length ps -> ~ In OOther ps -> (exists s, In (ODep s) ps) ->
      set_values st ps (VSeq vs) ap = (st, Some ParameterNotIndependentError)).
Proof. exact set_values_invalid. Qed.
Print Assumptions C15_invalid.

(** assign_values never refuses and sets every parameter. *)
Theorem C15_assign_values : forall st ids vs ap,
  length vs = length ids ->
  exists st', assign_values st (map OIndep ids) (VSeq vs) ap = (st', None)
    /\ updated_up_to (length ids) ids vs st st'.
Proof. exact assign_values_positional. Qed.
Print Assumptions C15_assign_values.

Example C15_nonvacuous :
  let r := set_values ex_st [OIndep 1; OIndep 0; OIndep 5] (VMap [(KName "y", Fin 4); (KParam 0, Fin 2); (KName "x", Fin 1)]) true in
  let r' := set_values ex_st [OIndep 1; OIndep 5] (VMap [(KName "y", Fin 4); (KParam 1, Fin 3)]) true in
  snd r = Some ValueError /\ p_value (st_par (fst r) 1) = Fin 4 /\ p_value (st_par (fst r) 0) = Fin (1 # 2)
  /\ snd r' = None /\ p_value (st_par (fst r') 1) = Fin 3 /\ p_value (st_par (fst r') 5) = Fin 7
  /\ snd (set_values ex_st [OIndep 1; OIndep 5] (VMap [(KName "y", Fin 4)]) false) = Some ValueError
  /\ forall i, ordered_limits (st_par ex_st i).
Proof.
  simpl. repeat split. intros [|[|i]] l u H1 H2; inversion H1; inversion H2; discriminate.
Qed.

(** With an empty list of parameters, values are not checked at all. *)
Theorem C15_empty_unchecked_refuted : exists st vs,
  vs <> [] /\ set_values st [] (VSeq vs) false = (st, None).
Proof. exists ex_st, [Fin 1]. split; [discriminate|reflexivity]. Qed.
Print Assumptions C15_empty_unchecked_refuted.
