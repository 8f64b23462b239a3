(** Proofs about dumping and loading, continued: loading trees. *)
From Verif Require Import Base BaseLemmas PGraph_Proofs Param_Model Hs3_Model Hs3_Spec Hs3_Proofs.
#[local] Open Scope string_scope.
#[local] Open Scope list_scope.

Definition keys (st : table) : list string := map fst st.
Lemma lookup_key {A} k (d : list (string * A)) : In k (map fst d) <-> exists v, lookup String.eqb k d = Some v.
Proof.
  induction d as [|[a b] d IH]; cbn; [split; [tauto|intros (v&H); discriminate]|]. destruct (String.eqb k a) eqn:E.
  - apply String.eqb_eq in E. subst a. split; eauto.
  - rewrite IH. split; [intros [->|H]; [rewrite String.eqb_refl in E; discriminate|exact H]|auto].
Qed.
Lemma lookup_app {A} k (d e : list (string * A)) :
  lookup String.eqb k (d ++ e) = match lookup String.eqb k d with Some v => Some v | None => lookup String.eqb k e end.
Proof. induction d as [|[a b] d IH]; [reflexivity|]. cbn. destruct (String.eqb k a); [reflexivity|exact IH]. Qed.

(** ** What loading the tree of a parameter adds *)
Fixpoint added (st : table) (p : par) : table :=
  match p with
  | PComp n f u ps ints lab => construct (fold_left added ints st) n (LComp f u (map par_name ints) n)
  | _ => construct st (par_name p) (same_par p)
  end.

Lemma load_list_cons ld st t l : load_list ld st (t :: l) =
  let* a := ld st t in let* b := load_list ld (fst a) l in Ok (fst b, snd a :: snd b).
Proof. reflexivity. Qed.
Lemma load_fields_cons ld want st kv d : load_fields ld want st (kv :: d) =
  if want (fst kv) then let* a := ld st (snd kv) in let* b := load_fields ld want (fst a) d in Ok (fst b, (fst kv, snd a) :: snd b)
  else load_fields ld want st d.
Proof. reflexivity. Qed.

Lemma load_list_pars ints : Forall (fun p => forall st, load st (par_tree p) = Ok (added st p, LPar (par_name p))) ints ->
  forall st, load_list load st (map par_tree ints) = Ok (fold_left added ints st, map (fun p => LPar (par_name p)) ints).
Proof.
  induction 1 as [|p l E F IH]; intros st; [reflexivity|]. cbn [map]. rewrite load_list_cons, E. cbn [bind fst snd]. rewrite IH. reflexivity.
Qed.
Lemma refs_of l : mapM par_ref (map (fun p => LPar (par_name p)) l) = Ok (map par_name l).
Proof. induction l as [|p l IH]; cbn; [reflexivity|]. now rewrite IH. Qed.

(** The dictionary of a composed parameter, whatever is in "params" and wherever the type is. *)
Lemma load_comp n f u ints st d :
  Forall (fun p => forall st, load st (par_tree p) = Ok (added st p, LPar (par_name p))) ints ->
  get "type" d = Some (TStr "ComposedParameter") -> get "name" d = Some (TStr n) -> get "func" d = Some (TStr f) ->
  get "unpack_params" d = option_map TBool u -> get "label" d = None ->
  (exists a b, d = a ++ ("internal_params", TList (map par_tree ints)) :: b /\ get "internal_params" a = None /\ get "internal_params" b = None) ->
  load st (TDict d) = Ok (construct (fold_left added ints st) n (LComp f u (map par_name ints) n), LPar n).
Proof.
  intros F T N FU U L (a&b&E&A&B). cbn [load]. rewrite T. cbn [opt_str bind]. rewrite N. cbn [opt_str bind opt_result].
  change (String.eqb "ComposedParameter" "Parameter") with false. change (String.eqb "ComposedParameter" "ConstantParameter") with false.
  change (String.eqb "ComposedParameter" "ComposedParameter") with true. cbn [opt_result bind].
  rewrite FU. cbn [opt_str bind need opt_result]. rewrite U, L.
  assert (S : load_fields load (String.eqb "internal_params") st d = Ok (fold_left added ints st, [("internal_params", LList (map (fun p => LPar (par_name p)) ints))])).
  { subst d. clear T N FU U L. assert (SK : forall e s, get "internal_params" e = None -> load_fields load (String.eqb "internal_params") s e = Ok (s, [])).
    { induction e as [|[k v] e IH]; intros s G; [reflexivity|]. rewrite load_fields_cons. cbn [fst snd]. unfold get in G. cbn [lookup] in G.
      destruct (String.eqb "internal_params" k); [discriminate|]. apply IH. exact G. }
    induction a as [|[k v] a IH]; cbn [app].
    - rewrite load_fields_cons. cbn [fst snd]. rewrite String.eqb_refl. cbn [load]. rewrite (load_list_pars ints F). cbn [bind fst snd].
      rewrite SK by exact B. reflexivity.
    - rewrite load_fields_cons. cbn [fst snd]. unfold get in A. cbn [lookup] in A. destruct (String.eqb "internal_params" k); [discriminate|]. apply IH. exact A. }
  replace (opt_bool (option_map TBool u)) with (Ok u) by (destruct u; reflexivity). cbn [bind opt_str]. rewrite S. cbn [bind snd fst].
  rewrite refs_of. reflexivity.
Qed.

(** Labels of composed parameters are not in the tree. *)
Lemma load_par_tree p : forall st, load st (par_tree p) = Ok (added st p, LPar (par_name p)).
Proof.
  induction p as [n v lo up st0 fl lab|n v lab|n f u ps ints lab H] using par_ind'; intros st; try reflexivity.
  cbn [par_tree added par_name].
  destruct u as [b|]; (apply load_comp; [exact H|reflexivity|reflexivity|reflexivity|reflexivity|reflexivity|]).
  - exists [("type", TStr "ComposedParameter"); ("name", TStr n); ("func", TStr f); ("params", TDict (map (fun kp => (fst kp, par_tree (snd kp))) ps)); ("unpack_params", TBool b)], [].
    repeat split; reflexivity.
  - exists [("type", TStr "ComposedParameter"); ("name", TStr n); ("func", TStr f); ("params", TDict (map (fun kp => (fst kp, par_tree (snd kp))) ps))], [].
    repeat split; reflexivity.
Qed.

(** ** The entry of a parameter in the variables *)
Definition stored (p : par) : tree := shorten_var (var_tree (par_tree p)).
Definition typed_entry (t : tree) : list tree :=
  match t with
  | TDict d =>
      if has "value" d then
        [TDict (dict_set "type" (TStr (if tree_is (get "floating" d) (TBool false) then "ConstantParameter" else "Parameter")) d)]
      else if has "func" d then [TDict (dict_set "type" (TStr "ComposedParameter") d)]
      else []
  | _ => []
  end.
Lemma retype_entries vars : retype vars = flat_map (fun kv => map (pair (fst kv)) (typed_entry (snd kv))) vars.
Proof.
  unfold retype. apply flat_map_ext. intros [k t]. cbn [fst snd]. destruct t; try reflexivity. cbn [typed_entry]. destruct (has "value" d); [reflexivity|].
  destruct (has "func" d); reflexivity.
Qed.

Definition entry (p : par) : tree := match typed_entry (stored p) with t :: _ => t | [] => TStr "" end.
Lemma entry_typed p : typed_entry (stored p) = [entry p].
Proof. destruct p as [n v lo up st fl lab|n v lab|n f u ps ints lab]; try reflexivity. destruct u; reflexivity. Qed.

Lemma load_entry vars p st : survives p -> load st (lengthen_var vars (entry p)) = Ok (added st p, LPar (par_name p)).
Proof.
  intros SV. destruct p as [n v lo up sz fl lab|n v lab|n f u ps ints lab].
  - cbn in SV. subst fl. reflexivity.
  - reflexivity.
  - assert (F : Forall (fun p => forall st, load st (par_tree p) = Ok (added st p, LPar (par_name p))) ints) by (apply Forall_forall; intros; apply load_par_tree).
    cbn [added par_name].
    destruct u as [b|].
    + set (X := replace (to_name par_pattern) (replace (to_name const_pattern) (TDict (map (fun kp => (fst kp, par_tree (snd kp))) ps)))).
      change (entry (PComp n f (Some b) ps ints lab)) with
        (TDict [("name", TStr n); ("func", TStr f); ("params", X); ("unpack_params", TBool b); ("internal_params", TList (map par_tree ints)); ("type", TStr "ComposedParameter")]).
      clearbody X. unfold lengthen_var. cbn [get lookup String.eqb Ascii.eqb Bool.eqb tree_is dict_set].
      apply load_comp; try reflexivity; [exact F|].
      exists [("name", TStr n); ("func", TStr f); ("params", replace (from_name vars) X); ("unpack_params", TBool b)], [("type", TStr "ComposedParameter")].
      repeat split; reflexivity.
    + set (X := replace (to_name par_pattern) (replace (to_name const_pattern) (TDict (map (fun kp => (fst kp, par_tree (snd kp))) ps)))).
      change (entry (PComp n f None ps ints lab)) with
        (TDict [("name", TStr n); ("func", TStr f); ("params", X); ("internal_params", TList (map par_tree ints)); ("type", TStr "ComposedParameter")]).
      clearbody X. unfold lengthen_var. cbn [get lookup String.eqb Ascii.eqb Bool.eqb tree_is dict_set].
      apply load_comp; try reflexivity; [exact F|].
      exists [("name", TStr n); ("func", TStr f); ("params", replace (from_name vars) X)], [("type", TStr "ComposedParameter")].
      repeat split; reflexivity.
Qed.
