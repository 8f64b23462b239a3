(** Proofs about dumping and loading: the replacements. *)
From Verif Require Import Base BaseLemmas Param_Model Hs3_Model Hs3_Spec.
#[local] Open Scope string_scope.
#[local] Open Scope list_scope.

(** ** Induction *)
Section ObjInd.
Variable P : obj -> Prop.
Hypothesis HS : forall s, P (OStr s).
Hypothesis HN : forall n, P (ONum n).
Hypothesis HB : forall b, P (OBool b).
Hypothesis HA : forall k, P (OArr k).
Hypothesis HL : forall l, Forall P l -> P (OList l).
Hypothesis HD : forall d, Forall (fun ko => P (snd ko)) d -> P (ODict d).
Hypothesis HP : forall p, P (OPar p).
Fixpoint obj_ind' (o : obj) : P o :=
  match o with
  | OStr s => HS s | ONum n => HN n | OBool b => HB b | OArr k => HA k
  | OList l => HL l ((fix go l : Forall P l := match l with [] => Forall_nil _ | o :: r => Forall_cons _ (obj_ind' o) (go r) end) l)
  | ODict d => HD d ((fix go d : Forall (fun ko => P (snd ko)) d := match d with [] => Forall_nil _ | ko :: r => Forall_cons ko (obj_ind' (snd ko)) (go r) end) d)
  | OPar p => HP p
  end.
End ObjInd.
Section ParInd.
Variable P : par -> Prop.
Hypothesis HF : forall n v lo up st fl lab, P (PFree n v lo up st fl lab).
Hypothesis HC : forall n v lab, P (PConst n v lab).
Hypothesis HM : forall n f u ps ints lab, Forall P ints -> P (PComp n f u ps ints lab).
Fixpoint par_ind' (p : par) : P p :=
  match p with
  | PFree n v lo up st fl lab => HF n v lo up st fl lab
  | PConst n v lab => HC n v lab
  | PComp n f u ps ints lab => HM n f u ps ints lab ((fix go l : Forall P l := match l with [] => Forall_nil _ | o :: r => Forall_cons _ (par_ind' o) (go r) end) ints)
  end.
End ParInd.

Lemma plain_list l : plain (OList l) <-> Forall plain l.
Proof. cbn. induction l as [|o l IH]; [split; auto|]. rewrite IH. split; [intros [A B]; constructor; auto|intros H; inversion H; auto]. Qed.
Lemma plain_dict d : plain (ODict d) <->
  other_type (lookup String.eqb "type" d) /\ text_or_none (lookup String.eqb "name" d) /\ lookup String.eqb "stepsize" d = None /\ Forall (fun ko => plain (snd ko)) d.
Proof.
  cbn. assert (E : (fix all (d : list (string * obj)) := match d with [] => True | ko :: r => plain (snd ko) /\ all r end) d <-> Forall (fun ko => plain (snd ko)) d).
  { induction d as [|o l IH]; [split; auto|]. rewrite IH. split; [intros [A B]; constructor; auto|intros H; inversion H; auto]. }
  rewrite E. reflexivity.
Qed.

(** ** Dictionaries *)
Lemma lookup_map {A B} (g : A -> B) (d : list (string * A)) k :
  lookup String.eqb k (map (fun kv => (fst kv, g (snd kv))) d) = option_map g (lookup String.eqb k d).
Proof. induction d as [|[a b] d IH]; [reflexivity|]. cbn. destruct (String.eqb k a); [reflexivity|exact IH]. Qed.
Lemma get_map g d k : get k (map (fun kv => (fst kv, g (snd kv))) d) = option_map g (get k d).
Proof. apply lookup_map. Qed.

Lemma dict_set_same {A} k (v : A) d : lookup String.eqb k (dict_set k v d) = Some v.
Proof. induction d as [|[a b] d IH]; cbn; [now rewrite String.eqb_refl|]. destruct (String.eqb k a) eqn:E; cbn; now rewrite E. Qed.
Lemma dict_set_other {A} k k' (v : A) d : k <> k' -> lookup String.eqb k' (dict_set k v d) = lookup String.eqb k' d.
Proof.
  intros N. induction d as [|[a b] d IH]; cbn.
  - destruct (String.eqb k' k) eqn:E; [apply String.eqb_eq in E; congruence|reflexivity].
  - destruct (String.eqb k a) eqn:E; cbn; [|now rewrite IH]. apply String.eqb_eq in E. subst a.
    destruct (String.eqb k' k) eqn:E2; [apply String.eqb_eq in E2; congruence|reflexivity].
Qed.

(** ** Replacing by names *)
Lemma replace_dict hit d : hit (TDict d) = None -> replace hit (TDict d) = TDict (map (fun kv => (fst kv, replace hit (snd kv))) d).
Proof. intros H. cbn. now rewrite H. Qed.
Lemma replace_list hit l : hit (TList l) = None -> replace hit (TList l) = TList (map (replace hit) l).
Proof. intros H. cbn. now rewrite H. Qed.

(** The tree of an object with its parameters replaced. *)
Fixpoint tree_with (g : par -> tree) (o : obj) : tree :=
  match o with
  | OStr s => TStr s | ONum n => TNum n | OBool b => TBool b | OArr k => TArr k
  | OList l => TList (map (tree_with g) l)
  | ODict d => TDict (map (fun ko => (fst ko, tree_with g (snd ko))) d)
  | OPar p => g p
  end.
Lemma tree_with_par_tree o : tree_with par_tree o = obj_tree o.
Proof.
  induction o using obj_ind'; cbn; try reflexivity; f_equal.
  - apply map_ext_in. rewrite Forall_forall in H. exact H.
  - apply map_ext_in. rewrite Forall_forall in H. intros ko I. now rewrite (H ko I).
Qed.

Lemma tree_is_type (g : par -> tree) d s : other_type (lookup String.eqb "type" d) -> s = "ConstantParameter" \/ s = "ComposedParameter" ->
  tree_is (get "type" (map (fun ko => (fst ko, tree_with g (snd ko))) d)) (TStr s) = false.
Proof.
  intros OT S. unfold get. rewrite lookup_map. destruct (lookup String.eqb "type" d) as [o|]; cbn in *; [|reflexivity].
  destruct o; try contradiction. cbn. destruct OT as (A&B&C). apply String.eqb_neq. destruct S; congruence.
Qed.
Lemma no_stepsize (g : par -> tree) d : lookup String.eqb "stepsize" d = None -> par_pattern (map (fun ko => (fst ko, tree_with g (snd ko))) d) = false.
Proof. intros H. unfold par_pattern, has at 4, get. rewrite lookup_map, H. cbn. now rewrite andb_false_r. Qed.

Lemma step_obj pat g h o : plain o ->
  (forall p, replace (to_name pat) (g p) = h p) ->
  (forall d, plain (ODict d) -> pat (map (fun ko => (fst ko, tree_with g (snd ko))) d) = false) ->
  replace (to_name pat) (tree_with g o) = tree_with h o.
Proof.
  intros PL E N. induction o using obj_ind'; try reflexivity.
  - cbn [tree_with]. rewrite replace_list by reflexivity. f_equal. rewrite map_map. apply map_ext_in.
    apply plain_list in PL. rewrite Forall_forall in H, PL. auto.
  - cbn [tree_with]. rewrite replace_dict by (cbn; now rewrite N). f_equal. rewrite map_map. apply map_ext_in. intros ko I. cbn [fst snd]. f_equal.
    apply plain_dict in PL. destruct PL as (_&_&_&PL). rewrite Forall_forall in H, PL. auto.
  - apply E.
Qed.

(** After the first two passes a parameter is its name, unless it is a free one. *)
Definition after_const (p : par) : tree := replace (to_name const_pattern) (par_tree p).
Definition after_comp (p : par) : tree := match p with PFree _ _ _ _ _ _ _ => par_tree p | _ => TStr (par_name p) end.
Lemma comp_pass p : replace (to_name comp_pattern) (after_const p) = after_comp p.
Proof.
  destruct p; reflexivity.
Qed.
Lemma par_pass p : replace (to_name par_pattern) (after_comp p) = TStr (par_name p).
Proof. destruct p; reflexivity. Qed.

Definition named_tree (o : obj) : tree := tree_with (fun p => TStr (par_name p)) o.
Lemma shorten_obj o : plain o -> shorten (obj_tree o) = named_tree o.
Proof.
  intros PL. unfold shorten, named_tree. rewrite <- tree_with_par_tree.
  rewrite (step_obj const_pattern par_tree after_const o PL) by
    (try (intros d D; apply plain_dict in D; destruct D as (T&_); unfold const_pattern; rewrite tree_is_type by auto; now rewrite andb_false_r); reflexivity).
  rewrite (step_obj comp_pattern after_const after_comp o PL).
  - apply step_obj; [exact PL|exact par_pass|]. intros d D. apply plain_dict in D. destruct D as (_&_&S&_). now apply no_stepsize.
  - exact comp_pass.
  - intros d D. apply plain_dict in D. destruct D as (T&_). unfold comp_pattern. rewrite tree_is_type by auto. now rewrite andb_false_r.
Qed.

(** ** Replacing back *)
Lemma lengthen_obj vars o :
  (forall s, In s (texts_of o) -> get s vars = None) ->
  replace (from_name vars) (named_tree o) = tree_with (fun p => match get (par_name p) vars with Some t => t | None => TStr (par_name p) end) o.
Proof.
  unfold named_tree. intros N. induction o using obj_ind'; try reflexivity.
  - cbn. rewrite (N s) by (now left). reflexivity.
  - cbn [tree_with]. rewrite replace_list by reflexivity. f_equal. rewrite map_map. apply map_ext_in. rewrite Forall_forall in H.
    intros o I. apply H; [exact I|]. intros s S. apply N. cbn. apply in_flat_map. eauto.
  - cbn [tree_with]. rewrite replace_dict by reflexivity. f_equal. rewrite map_map. apply map_ext_in. rewrite Forall_forall in H.
    intros ko I. cbn [fst snd]. f_equal. apply H; [exact I|]. intros s S. apply N. cbn. apply in_flat_map. eauto.
Qed.
