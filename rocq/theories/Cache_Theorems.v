(** Theorems about the run-time bookkeeping: C17, C18, C19, C48. *)
From Verif Require Import Base Cache_Model Cache_Spec Cache_Proofs Cache_Proofs2.

(** * C17: the CPU pool *)

(** After any nesting of acquire blocks that ends without an exception the pool is what
    it was. *)
Theorem C17_pool_restored : forall p pool pool' t,
  no_set p -> no_try p -> crun p [] pool = (pool', None, t) -> pool' = pool.
Proof. exact acquire_conserved. Qed.

Example C17_pool_restored_ex :
  let p := CWith 2 (CSeq (CWith (-1) CSkip) (CWith 1 (CWith 5 CSkip))) in
  crun p [] (set_n_cpu 4) =
    (set_n_cpu 4, None,
     [{| v_got := [2; 3]; v_held := []; v_left := [0; 1] |};
      {| v_got := [0; 1]; v_held := [2; 3]; v_left := [] |};
      {| v_got := [1]; v_held := [2; 3]; v_left := [0] |};
      {| v_got := [0]; v_held := [1; 2; 3]; v_left := [] |}]).
Proof. reflexivity. Qed.

(** In any program, also one that raises, what a block received, what the enclosing blocks
    hold and what is left are pairwise distinct registered CPUs. *)
Theorem C17_acquired_distinct : forall p pool pool' e t v,
  no_set p -> NoDup pool -> crun p [] pool = (pool', e, t) -> In v t ->
  NoDup (v_got v ++ v_held v ++ v_left v) /\ incl (v_got v ++ v_held v ++ v_left v) pool.
Proof. exact acquire_views. Qed.

(** A block gets exactly as many CPUs as it asks for, as far as they are free. *)
Theorem C17_acquired_number : forall m body pool pool' e t,
  crun (CWith m body) [] pool = (pool', e, t) ->
  exists v t', t = v :: t' /\ v_held v = [] /\
    Z.of_nat (length (v_got v)) = granted m (length pool) /\ v_left v ++ v_got v = pool.
Proof. exact with_grants. Qed.

Example C17_acquired_number_ex : granted (-2) 4 = 3%Z /\ granted 7 4 = 4%Z /\ granted (-9) 4 = 0%Z.
Proof. repeat split. Qed.

(** The property fails when a block ends with an exception, even one that is handled
    outside: exactly the CPUs of that block are lost. *)
Theorem C17_exception_loses_cpus_refuted : forall m e pool got rest,
  acquire m pool = (got, rest) ->
  exists t, crun (CWith m (CRaise e)) [] pool = (rest, Some e, t) /\ rest ++ got = pool.
Proof. exact raise_loses. Qed.

Example C17_exception_loses_cpus_ex :
  fst (crun (CTry (CWith (-1) (CRaise ValueError))) [] (set_n_cpu 4)) = ([], None).
Proof. reflexivity. Qed.

(** Re-registering the CPUs inside a block puts the same CPU into the pool twice. *)
Theorem C17_register_inside_refuted : exists p t pool',
  crun p [] (set_n_cpu 2) = (pool', None, t) /\ ~ NoDup pool'.
Proof.
  exists (CWith 1 (CSet 2)). eexists. eexists. split; [reflexivity|].
  cbn. intro N. inversion N as [|a l A B]; subst. inversion B as [|a' l' A' B']; subst. apply A'. left. reflexivity.
Qed.

(** * C18: invalidation *)

(** After a change of [o] (inside a TensorFlow graph), whatever happens later, an object
    that depended on [o] at the time holds nothing computed before the change. [length h1]
    is the time of the change. *)
Theorem C18_dependents_invalidated : forall limit h1 o h2 d,
  depends h1 o d ->
  snd (gstep limit (grun limit gempty h1) (GChange o)) = true ->
  match store (grun limit gempty (h1 ++ GChange o :: h2)) d with
  | None => True
  | Some t => length h1 < t
  end.
Proof. exact change_invalidates. Qed.

(** Every operation, in particular a change, completes when the declared dependencies are
    acyclic and no deeper than Python's recursion limit. *)
Theorem C18_change_completes : forall limit h op,
  (exists rank : nat -> nat,
     (forall d c, declared h d c -> rank d < rank c) /\ forall d, rank d < limit) ->
  snd (gstep limit (grun limit gempty h) op) = true.
Proof. exact ops_succeed. Qed.

(** The caches of objects that do not depend on [o] are left alone. *)
Theorem C18_others_untouched : forall limit h1 o d,
  ~ depends h1 o d ->
  store (grun limit gempty (h1 ++ [GChange o])) d = store (grun limit gempty h1) d.
Proof. exact change_spares. Qed.

(** The same change called eagerly empties the caches of all objects that exist. *)
Theorem C18_eager_invalidates_all : forall limit h1 o h2 d,
  alive h1 d ->
  snd (gstep limit (grun limit gempty h1) (GChangeEager o)) = true ->
  match store (grun limit gempty (h1 ++ GChangeEager o :: h2)) d with
  | None => True
  | Some t => length h1 < t
  end.
Proof. exact change_eager_invalidates. Qed.

(** data 0 <- pdf 1 <- loss 2; 3 is unrelated. *)
Definition c18_history : list gop :=
  [GNew 0; GNew 1; GNew 2; GNew 3; GDeps 1 [0]; GDeps 2 [1; 0];
   GCompute 1; GCompute 2; GCompute 3].

Example C18_ex_depends : depends c18_history 0 2.
Proof.
  apply dep_step with (m := 1); [apply dep_step with (m := 0); [constructor|]|].
  - exists [GNew 0; GNew 1; GNew 2; GNew 3], [0], [GDeps 2 [1; 0]; GCompute 1; GCompute 2; GCompute 3].
    split; [reflexivity|]. split; [left; reflexivity|].
    split; intro H; repeat (destruct H as [H|H]; [discriminate|]); destruct H.
  - exists [GNew 0; GNew 1; GNew 2; GNew 3; GDeps 1 [0]], [1; 0], [GCompute 1; GCompute 2; GCompute 3].
    split; [reflexivity|]. split; [left; reflexivity|].
    split; intro H; repeat (destruct H as [H|H]; [discriminate|]); destruct H.
Qed.

Example C18_ex_change :
  let g := grun 1000 gempty c18_history in
  let g' := grun 1000 gempty (c18_history ++ [GChange 0]) in
  map (store g) [0; 1; 2; 3] = [None; Some 6; Some 7; Some 8] /\
  snd (gstep 1000 g (GChange 0)) = true /\
  map (store g') [0; 1; 2; 3] = [None; None; None; Some 8] /\
  map (store (grun 1000 gempty (c18_history ++ [GChangeEager 0]))) [0; 1; 2; 3] = [None; None; None; None].
Proof. repeat split. Qed.

(** Eagerly, objects that have nothing to do with the change lose their caches too. *)
Theorem C18_eager_spares_unrelated_refuted : exists h o d t,
  ~ depends h o d /\ store (grun 1000 gempty h) d = Some t /\
  store (grun 1000 gempty (h ++ [GChangeEager o])) d = None.
Proof.
  exists [GNew 0; GNew 1; GCompute 1], 0, 1, 2. split; [|split; reflexivity].
  intro D. inversion D as [|m o Dm Dc]. destruct Dc as [h1 [deps [h2 [E _]]]].
  assert (I : In (GDeps 1 deps) [GNew 0; GNew 1; GCompute 1])
    by (rewrite E; apply in_or_app; right; left; reflexivity).
  repeat (destruct I as [I|I]; [discriminate|]). destruct I.
Qed.

(** If the declared dependencies form a cycle, a change of an object on it ends in a
    [RecursionError], whatever the recursion limit. *)
Theorem C18_cycle_refuted : forall limit h o c,
  declared h o c -> depends h c o ->
  snd (gstep limit (grun limit gempty h) (GChange o)) = false.
Proof. exact change_cycle. Qed.

Example C18_cycle_ex : let h := [GNew 0; GNew 1; GDeps 1 [0]; GDeps 0 [1]] in
  declared h 0 1 /\ depends h 1 0.
Proof.
  split.
  - exists [GNew 0; GNew 1], [0], [GDeps 0 [1]]. split; [reflexivity|]. split; [left; reflexivity|].
    split; intros [H|[]]; discriminate.
  - apply dep_step with (m := 1); [constructor|].
    exists [GNew 0; GNew 1; GDeps 1 [0]], [1], []. split; [reflexivity|]. split; [left; reflexivity|].
    split; intros [].
Qed.

(** * C19: the cache of compiled functions *)

Theorem C19_bounded : forall n h r os, (1 <= n)%Z ->
  rrun (new_registry (Some n)) h = (r, os) ->
  (Z.of_nat (length (r_cache r)) <= configured n h)%Z.
Proof. exact cache_bounded. Qed.

Theorem C19_calls_never_fail : forall h n r os i op o, (1 <= n)%Z ->
  rrun (new_registry (Some n)) h = (r, os) ->
  nth_error h i = Some op -> nth_error os i = Some o -> is_call op -> exists f, o = OFun f.
Proof. exact calls_never_fail. Qed.

(** A function [f] compiled for a call (after an arbitrary history) is run again by a later
    call with the same arguments exactly as long as fewer functions than the size of the
    cache were compiled in between. *)
Theorem C19_first_in_first_out : forall n h0 r0 os0 a kw r1 f h r2 os2, (1 <= n)%Z ->
  rrun (new_registry (Some n)) h0 = (r0, os0) ->
  call r0 a kw = (r1, Ok f) -> r_next r1 = S (r_next r0) ->
  Forall is_call h -> rrun r1 h = (r2, os2) ->
  (snd (call r2 a kw) = Ok f <-> (Z.of_nat (r_next r2 - r_next r1) < configured n h0)%Z).
Proof. exact fifo. Qed.

(** In every reachable state a call displaces only the oldest entry, and only when the
    cache is full. *)
Theorem C19_displaces_oldest : forall n h r os a kw r' o x, (1 <= n)%Z ->
  rrun (new_registry (Some n)) h = (r, os) -> call r a kw = (r', o) ->
  In x (r_cache r) -> ~ In x (r_cache r') ->
  (Z.of_nat (length (r_cache r)) = configured n h)%Z /\
  forall y, In y (r_cache r) -> y <> x -> h_fun x < h_fun y /\ In y (r_cache r').
Proof. exact displaced_oldest. Qed.

(** Changing the size keeps the newest entries, but one fewer than would fit if the old
    cache has at least as many. *)
Theorem C19_set_size : forall n h r os m r' o, (1 <= n)%Z -> (1 <= m)%Z ->
  rrun (new_registry (Some n)) h = (r, os) -> set_cache_size r (Some m) = (r', o) ->
  o = Ok tt /\ (exists dropped, r_cache r = dropped ++ r_cache r') /\
  ((Z.of_nat (length (r_cache r)) < m)%Z -> r_cache r' = r_cache r) /\
  ((m <= Z.of_nat (length (r_cache r)))%Z -> Z.of_nat (length (r_cache r')) = m - 1)%Z.
Proof. exact set_size_keeps. Qed.

Definition p1 := RCall [AParam 1] [].
Definition p2 := RCall [AParam 2] [].
Definition p3 := RCall [AParam 3] [].

Example C19_ex :
  snd (rrun (new_registry (Some 2%Z)) [p1; p2; p1; p3; p2; p1; p1; RSetSize (Some 2%Z); p1; p3]) =
  [OFun 0; OFun 1; OFun 0; OFun 2; OFun 1; OFun 3; OFun 3; OUnit; OFun 3; OFun 4].
Proof. reflexivity. Qed.

Example C19_fifo_ex :
  exists r0 os0 r1 r2 os2,
    rrun (new_registry (Some 2%Z)) [p2; RInvalidate [KParamId 2]] = (r0, os0) /\
    call r0 [AParam 1] [] = (r1, Ok 1) /\ r_next r1 = S (r_next r0) /\
    rrun r1 [p3; p1] = (r2, os2) /\ snd (call r2 [AParam 1] []) = Ok 1.
Proof. do 5 eexists. repeat split; reflexivity. Qed.

(** A function decorated with [cachesize=0] can never be called in graph mode. *)
Theorem C19_size_zero_refuted : forall a kw,
  snd (call (new_registry (Some 0%Z)) a kw) = Err IndexError.
Proof. reflexivity. Qed.

(** * C48: no compiled function is shared between different parameters *)

(** If two calls, at any times in any history, run the same compiled function, then they
    were given the same parameters in the same order. *)
Theorem C48_shared_function_same_parameters : forall n h r os i j a kw a' kw' f, (1 <= n)%Z ->
  rrun (new_registry (Some n)) h = (r, os) ->
  nth_error h i = Some (RCall a kw) -> nth_error os i = Some (OFun f) ->
  nth_error h j = Some (RCall a' kw') -> nth_error os j = Some (OFun f) ->
  flat_map arg_params a ++ flat_map (fun kv => arg_params (snd kv)) kw =
  flat_map arg_params a' ++ flat_map (fun kv => arg_params (snd kv)) kw'.
Proof. exact shared_function_same_params. Qed.

Example C48_ex :
  snd (rrun (new_registry (Some 5%Z))
        [RCall [AOther 7; AIter [AParam 1; AParam 2]] []; RCall [AOther 8; AIter [AParam 1; AParam 2]] [];
         RCall [AOther 7; AIter [AParam 2; AParam 1]] []; RCall [] [(0, AParam 1)]; RCall [AOther 7; AParam 1] []])
  = [OFun 0; OFun 0; OFun 1; OFun 2; OFun 2].
Proof. reflexivity. Qed.

(** Everything else about the arguments, also which keyword a parameter was passed by, is
    left to [tf.function]: two calls can share a compiled function although they differ in
    models, spaces, strings or keywords. *)
Theorem C48_other_arguments_ignored_refuted : exists a kw a' kw',
  (a, kw) <> (a', kw') /\ create_immutable a kw = create_immutable a' kw'.
Proof. exists [AOther 7; AParam 1], [], [], [(0, AParam 1)]. split; [discriminate|reflexivity]. Qed.

Print Assumptions C17_pool_restored.
Print Assumptions C17_acquired_distinct.
Print Assumptions C17_acquired_number.
Print Assumptions C17_exception_loses_cpus_refuted.
Print Assumptions C17_register_inside_refuted.
Print Assumptions C18_dependents_invalidated.
Print Assumptions C18_change_completes.
Print Assumptions C18_others_untouched.
Print Assumptions C18_eager_invalidates_all.
Print Assumptions C18_eager_spares_unrelated_refuted.
Print Assumptions C18_cycle_refuted.
Print Assumptions C19_bounded.
Print Assumptions C19_calls_never_fail.
Print Assumptions C19_first_in_first_out.
Print Assumptions C19_displaces_oldest.
Print Assumptions C19_set_size.
Print Assumptions C19_size_zero_refuted.
Print Assumptions C48_shared_function_same_parameters.
Print Assumptions C48_other_arguments_ignored_refuted.
