(** Dumping models with hs3.dumps and loading them with hs3.loads: serialization/serializer.py
    ([to_hs3], [from_hs3], [post_serialize], [pre_deserialize], [elements_match], [replace_matching],
    [convert_to_orm], [initialize]), serialization/paramrepr.py and the representations of
    parameters (core/parameter.py).

    - What pydantic makes of an object is a tree of dictionaries, lists and values without None
      ([exclude_none]). For parameters this is modelled; for other objects (PDFs, data, constraints,
      losses) it is any tree in which parameters occur. What the constructors do with the loaded
      values, and fields with other names in the constructor than in the tree, are not modelled.
    - Wherever pydantic refuses something there is a ValueError here. All types are registered.
    - Functions of composed parameters are known by their pickled text. *)
From Verif Require Import Base Param_Model.
#[local] Open Scope string_scope.
#[local] Open Scope list_scope.

Inductive tree : Type :=
| TStr (s : string) | TNum (n : num) | TBool (b : bool) | TArr (k : nat)
| TList (l : list tree) | TDict (d : list (string * tree)).
Definition dict := list (string * tree).
Definition get (k : string) (d : dict) : option tree := lookup String.eqb k d.
Definition has (k : string) (d : dict) : bool := match get k d with Some _ => true | None => false end.
Fixpoint dict_set {A} (k : string) (v : A) (d : list (string * A)) : list (string * A) :=
  match d with
  | [] => [(k, v)]
  | (k', v') :: r => if String.eqb k k' then (k', v) :: r else (k', v') :: dict_set k v r
  end.

(** ** Parameters and objects to be dumped *)

Inductive par : Type :=
| PFree (name : string) (value lower upper stepsize : num) (floating : bool) (label : option string)
| PConst (name : string) (value : num) (label : option string)
| PComp (name func : string) (unpack : option bool) (params : list (string * par)) (internal : list par) (label : option string).
Definition par_name (p : par) : string :=
  match p with PFree n _ _ _ _ _ _ | PConst n _ _ | PComp n _ _ _ _ _ => n end.
(** parameter.py:294-297 *)
Definition shown_label (n : string) (l : option string) : string := match l with Some l => l | None => n end.

Inductive obj : Type :=
| OStr (s : string) | ONum (n : num) | OBool (b : bool) | OArr (k : nat)
| OList (l : list obj) | ODict (d : list (string * obj)) | OPar (p : par).

(** parameter.py:806-826 [ParameterRepr] (limits that are not set show as infinite, 436-456, and the
    step size is never None, 548-562), 967-985 [ConstantParamRepr], 1137-1164
    [ComposedParameterRepr], from [original_init] (1052, 1124), which has no label. The parameters of
    a composed parameter are given as a list. *)
Fixpoint par_tree (p : par) : tree :=
  match p with
  | PFree n v lo up st fl lab =>
      TDict [("type", TStr "Parameter"); ("name", TStr n); ("value", TNum v); ("min", TNum lo); ("max", TNum up);
             ("stepsize", TNum st); ("floating", TBool fl); ("label", TStr (shown_label n lab))]
  | PConst n v lab =>
      TDict [("type", TStr "ConstantParameter"); ("name", TStr n); ("value", TNum v); ("floating", TBool false);
             ("label", TStr (shown_label n lab))]
  | PComp n f u ps ints _ =>
      TDict ([("type", TStr "ComposedParameter"); ("name", TStr n); ("func", TStr f);
              ("params", TDict (map (fun kp => (fst kp, par_tree (snd kp))) ps))] ++
             match u with Some b => [("unpack_params", TBool b)] | None => [] end ++
             [("internal_params", TList (map par_tree ints))])
  end.
Fixpoint obj_tree (o : obj) : tree :=
  match o with
  | OStr s => TStr s | ONum n => TNum n | OBool b => TBool b | OArr k => TArr k
  | OList l => TList (map obj_tree l)
  | ODict d => TDict (map (fun ko => (fst ko, obj_tree (snd ko))) d)
  | OPar p => par_tree p
  end.

(** ** The replacements *)

(** serializer.py:500-529 [elements_match] for one pattern: all keys there, with the value if the
    pattern has one. *)
Definition tree_is (t : option tree) (v : tree) : bool :=
  match t, v with
  | Some (TStr a), TStr b => String.eqb a b
  | Some (TBool a), TBool b => Bool.eqb a b
  | _, _ => false
  end.
(** 449-475: the patterns. *)
Definition const_pattern (d : dict) : bool :=
  has "name" d && tree_is (get "type" d) (TStr "ConstantParameter") && tree_is (get "floating" d) (TBool false).
Definition comp_pattern (d : dict) : bool :=
  has "name" d && tree_is (get "type" d) (TStr "ComposedParameter") && has "func" d.
Definition par_pattern (d : dict) : bool := has "name" d && has "min" d && has "max" d && has "stepsize" d.

(** 532-547 [replace_matching] *)
Section Replace.
Variable hit : tree -> option tree.
Fixpoint replace (t : tree) : tree :=
  match hit t with
  | Some t' => t'
  | None =>
      match t with
      | TList l => TList (map replace l)
      | TDict d => TDict (map (fun kv => (fst kv, replace (snd kv))) d)
      | _ => t
      end
  end.
End Replace.
(** [lambda x: x["name"]] *)
Definition to_name (pattern : dict -> bool) (t : tree) : option tree :=
  match t with TDict d => if pattern d then get "name" d else None | _ => None end.
Definition from_name (vars : dict) (t : tree) : option tree :=
  match t with TStr s => get s vars | _ => None end.

(** ** The document *)

Record doc : Type := Doc { d_vars : dict; d_data : tree; d_constraints : tree; d_distributions : tree; d_loss : tree }.
Definition map_doc (f : tree -> tree) (D : doc) : doc :=
  Doc (d_vars D) (f (d_data D)) (f (d_constraints D)) (f (d_distributions D)) (f (d_loss D)).

Definition del (k : string) (d : dict) : dict := filter (fun kv => negb (String.eqb (fst kv) k)) d.

(** 442-487 [post_serialize] *)
Definition shorten (t : tree) : tree :=
  replace (to_name par_pattern) (replace (to_name comp_pattern) (replace (to_name const_pattern) t)).
Definition shorten_var (t : tree) : tree :=
  match t with
  | TDict d =>
      if has "func" d then
        match get "params" d with
        | Some ps => TDict (dict_set "params" (replace (to_name par_pattern) (replace (to_name const_pattern) ps)) d)
        | None => t
        end
      else t
  | _ => t
  end.
Definition post_serialize (D : doc) : doc :=
  let D := map_doc shorten D in
  Doc (map (fun kv => (fst kv, shorten_var (snd kv))) (d_vars D)) (d_data D) (d_constraints D) (d_distributions D) (d_loss D).

(** A PDF with its name, [get_params(floating=None, extract_independent=None)] and the space of
    each observable. *)
Record mpdf : Type := Mpdf { m_name : string; m_obj : obj; m_params : list par; m_spaces : list (string * obj) }.
Record source : Type := Source {
  s_pdfs : list mpdf; s_data : list (string * obj); s_constraints : list (string * obj); s_loss : list (string * obj) }.

Section Dump.
(** The text of a new [iter(range(n))] in [f"{name}_{iter(loss_number)}"], which has its address
    in memory; for each kind and object. *)
Variable address : string -> nat -> string.

(** 326-334: unique names; each kind by itself. Objects that are there twice ([OrderedSet]) are not
    modelled. *)
Fixpoint named {A} (kind : string) (i : nat) (l : list (string * A)) (acc : list (string * A)) : list (string * A) :=
  match l with
  | [] => acc
  | (n, o) :: r =>
      let n := match lookup String.eqb n acc with Some _ => (n ++ "_" ++ address kind i)%string | None => n end in
      named kind (S i) r (dict_set n o acc)
  end.

(** 336-356 *)
Definition var_tree (t : tree) : tree := match t with TDict d => TDict (del "type" d) | _ => t end.
Definition add_var (vars : dict) (n : string) (t : tree) : dict :=
  match get n vars with Some _ => vars | None => vars ++ [(n, var_tree t)] end.
Definition add_pdf (vars : dict) (m : mpdf) : dict :=
  let vars := fold_left (fun v p => add_var v (par_name p) (par_tree p)) (m_params m) vars in
  fold_left (fun v s => add_var v (fst s) (obj_tree (snd s))) (m_spaces m) vars.

(** 245-372 [to_hs3], metadata left out. *)
Definition dumps (src : source) : doc :=
  let pdfs := named "distributions" 0 (map (fun m => (m_name m, m)) (s_pdfs src)) [] in
  let named_trees k l := TDict (map (fun no => (fst no, obj_tree (snd no))) (named k 0 l [])) in
  post_serialize
    (Doc (fold_left (fun v m => add_pdf v (snd m)) pdfs [])
       (named_trees "data" (s_data src)) (named_trees "constraints" (s_constraints src))
       (TDict (map (fun m => (fst m, obj_tree (m_obj (snd m)))) pdfs)) (named_trees "loss" (s_loss src))).
End Dump.

(** ** Loading *)

(** 410-421: the type of a variable; observables are taken out. This changes the argument. *)
Definition retype (vars : dict) : dict :=
  flat_map (fun kv =>
    match snd kv with
    | TDict d =>
        if has "value" d then
          [(fst kv, TDict (dict_set "type" (TStr (if tree_is (get "floating" d) (TBool false) then "ConstantParameter" else "Parameter")) d))]
        else if has "func" d then [(fst kv, TDict (dict_set "type" (TStr "ComposedParameter") d))]
        else []
    | _ => []
    end) vars.

(** 489-498 [pre_deserialize]. The entries of the variables are shared, so that also names inside of
    inserted ones are replaced; these are in "params" of composed parameters, which is not read when
    they are loaded (parameter.py:1169-1171). *)
Definition lengthen_var (vars : dict) (t : tree) : tree :=
  match t with
  | TDict d =>
      if tree_is (get "type" d) (TStr "ComposedParameter") then
        match get "params" d with
        | Some ps => TDict (dict_set "params" (replace (from_name vars) ps) d)
        | None => t
        end
      else t
  | _ => t
  end.
Definition pre_deserialize (D : doc) : doc :=
  let vars := map (fun kv => (fst kv, lengthen_var (d_vars D) (snd kv))) (d_vars D) in
  let D := Doc vars (d_data D) (d_constraints D) (d_distributions D) (d_loss D) in
  map_doc (replace (from_name vars)) D.

(** Loaded objects; parameters are entries of the table of existing ones. *)
Inductive lpar : Type :=
| LFree (value : num) (lower upper stepsize : option num) (floating : bool) (label : string)
| LConst (value : num) (label : string)
| LComp (func : string) (unpack : option bool) (internal : list string) (label : string).
Inductive lobj : Type :=
| LStr (s : string) | LNum (n : num) | LBool (b : bool) | LArr (k : nat)
| LList (l : list lobj) | LDict (d : list (string * lobj)) | LPar (n : string).
Definition table := list (string * lpar).

Definition opt_num (t : option tree) : result (option num) :=
  match t with None => Ok None | Some (TNum n) => Ok (Some n) | Some _ => Err ValueError end.
Definition opt_bool (t : option tree) : result (option bool) :=
  match t with None => Ok None | Some (TBool b) => Ok (Some b) | Some _ => Err ValueError end.
Definition opt_str (t : option tree) : result (option string) :=
  match t with None => Ok None | Some (TStr s) => Ok (Some s) | Some _ => Err ValueError end.
Definition need {A} (r : result (option A)) : result A :=
  let* o := r in opt_result ValueError o.

(** paramrepr.py:17-26 [param_constructor] *)
Definition construct (st : table) (n : string) (p : lpar) : table :=
  match lookup String.eqb n st with Some _ => st | None => st ++ [(n, p)] end.

Definition par_ref (o : lobj) : result string := match o with LPar n => Ok n | _ => Err TypeError end.

Section LoadDict.
Variable load : table -> tree -> result (table * lobj).
Definition load_list (st : table) (l : list tree) : result (table * list lobj) :=
  (fix go st (l : list tree) :=
     match l with
     | [] => Ok (st, [])
     | t :: r => let* a := load st t in let* b := go (fst a) r in Ok (fst b, snd a :: snd b)
     end) st l.
(** Only the fields wanted. *)
Definition load_fields (want : string -> bool) (st : table) (d : dict) : result (table * list (string * lobj)) :=
  (fix go st (d : dict) :=
     match d with
     | [] => Ok (st, [])
     | kv :: r =>
         if want (fst kv) then
           let* a := load st (snd kv) in let* b := go (fst a) r in Ok (fst b, (fst kv, snd a) :: snd b)
         else go st r
     end) st d.
End LoadDict.

(** 564-607 [convert_to_orm], 651-668 [to_orm], with the representations of the parameters. *)
Fixpoint load (st : table) (t : tree) {struct t} : result (table * lobj) :=
  match t with
  | TStr s => Ok (st, LStr s) | TNum n => Ok (st, LNum n) | TBool b => Ok (st, LBool b) | TArr k => Ok (st, LArr k)
  | TList l => let* r := load_list load st l in Ok (fst r, LList (snd r))
  | TDict d =>
      let* type := opt_str (get "type" d) in
      let* name := match type with Some _ => opt_str (get "name" d) | None => Ok None end in
      let is s := match type with Some t => String.eqb t s | None => false end in
      if is "Parameter" then
          let* n := opt_result ValueError name in
          let* v := need (opt_num (get "value" d)) in
          let* lo := opt_num (get "min" d) in let* up := opt_num (get "max" d) in let* sz := opt_num (get "stepsize" d) in
          let* fl := opt_bool (get "floating" d) in let* lab := opt_str (get "label" d) in
          Ok (construct st n (LFree v lo up sz (match fl with Some b => b | None => true end) (shown_label n lab)), LPar n)
      else if is "ConstantParameter" then
          let* n := opt_result ValueError name in
          let* v := need (opt_num (get "value" d)) in
          let* lab := opt_str (get "label" d) in
          Ok (construct st n (LConst v (shown_label n lab)), LPar n)
      else if is "ComposedParameter" then
          let* n := opt_result ValueError name in
          let* f := need (opt_str (get "func" d)) in
          let* u := opt_bool (get "unpack_params" d) in
          let* lab := opt_str (get "label" d) in
          let* r := load_fields load (String.eqb "internal_params") st d in
          match snd r with
          | (_, LList ps) :: _ =>
              let* ns := mapM par_ref ps in
              Ok (construct (fst r) n (LComp f u ns (shown_label n lab)), LPar n)
          | _ => Err KeyError
          end
      else let* r := load_fields load (fun _ => true) st d in Ok (fst r, LDict (snd r))
  end.

(** 423-437: the objects of a kind, each with a type. *)
Fixpoint load_all (st : table) (d : dict) : result (table * list (string * lobj)) :=
  match d with
  | [] => Ok (st, [])
  | (n, t) :: r =>
      let* _ := match t with TDict x => opt_result KeyError (get "type" x) | _ => Err TypeError end in
      let* a := load st t in let* b := load_all (fst a) r in Ok (fst b, (n, snd a) :: snd b)
  end.
Definition load_kind (st : table) (t : tree) : result (table * list (string * lobj)) :=
  match t with TDict d => load_all st d | _ => Err AttributeError end.

Record loaded : Type := Loaded {
  r_table : table; r_vars : list (string * lobj);
  r_data : list (string * lobj); r_constraints : list (string * lobj);
  r_distributions : list (string * lobj); r_loss : list (string * lobj) }.

(** 374-439 [from_hs3] with [reuse_params]: the argument afterwards, and the result. *)
Definition loads (reuse : table) (D : doc) : doc * result loaded :=
  let D1 := Doc (retype (d_vars D)) (d_data D) (d_constraints D) (d_distributions D) (d_loss D) in
  let D2 := pre_deserialize D1 in
  (D1, let* v := load_all reuse (d_vars D2) in
       let* a := load_kind (fst v) (d_data D2) in
       let* b := load_kind (fst a) (d_constraints D2) in
       let* c := load_kind (fst b) (d_distributions D2) in
       let* e := load_kind (fst c) (d_loss D2) in
       Ok (Loaded (fst e) (snd v) (snd a) (snd b) (snd c) (snd e))).
