(** What dumping and loading is compared with. *)
From Verif Require Import Base Param_Model Hs3_Model.
#[local] Open Scope string_scope.
#[local] Open Scope list_scope.

(** The loaded parameter that is the same as a given one, and the same object. *)
Definition same_par (p : par) : lpar :=
  match p with
  | PFree n v lo up st fl lab => LFree v (Some lo) (Some up) (Some st) fl (shown_label n lab)
  | PConst n v lab => LConst v (shown_label n lab)
  | PComp n f u _ ints lab => LComp f u (map par_name ints) (shown_label n lab)
  end.
Fixpoint same_obj (o : obj) : lobj :=
  match o with
  | OStr s => LStr s | ONum n => LNum n | OBool b => LBool b | OArr k => LArr k
  | OList l => LList (map same_obj l)
  | ODict d => LDict (map (fun ko => (fst ko, same_obj (snd ko))) d)
  | OPar p => LPar (par_name p)
  end.

(** A parameter and those it is composed of. *)
Fixpoint parts (p : par) : list par :=
  p :: match p with PComp _ _ _ _ ints _ => flat_map parts ints | _ => [] end.
(** The parameters in an object, and the other texts in it. *)
Fixpoint pars_of (o : obj) : list par :=
  match o with
  | OPar p => [p]
  | OList l => flat_map pars_of l
  | ODict d => flat_map (fun ko => pars_of (snd ko)) d
  | _ => []
  end.
Fixpoint texts_of (o : obj) : list string :=
  match o with
  | OStr s => [s]
  | OList l => flat_map texts_of l
  | ODict d => flat_map (fun ko => texts_of (snd ko)) d
  | _ => []
  end.

(** An object that can not be taken for a parameter: its type, if it has one, is another one, it has
    no step size, and its name is a text. *)
Definition other_type (o : option obj) : Prop :=
  match o with
  | None => True
  | Some (OStr s) => s <> "Parameter" /\ s <> "ConstantParameter" /\ s <> "ComposedParameter"
  | Some _ => False
  end.
Definition text_or_none (o : option obj) : Prop := match o with None | Some (OStr _) => True | Some _ => False end.
Fixpoint plain (o : obj) : Prop :=
  match o with
  | OList l => (fix all (l : list obj) := match l with [] => True | o :: r => plain o /\ all r end) l
  | ODict d =>
      other_type (lookup String.eqb "type" d) /\ text_or_none (lookup String.eqb "name" d) /\ lookup String.eqb "stepsize" d = None /\
      (fix all (d : list (string * obj)) := match d with [] => True | ko :: r => plain (snd ko) /\ all r end) d
  | _ => True
  end.
Definition typed (o : obj) : Prop := match o with ODict d => exists s, lookup String.eqb "type" d = Some (OStr s) | _ => False end.

(** What does not survive: a fixed parameter, and the label of a composed one. *)
Definition survives (p : par) : Prop :=
  match p with PFree _ _ _ _ _ fl _ => fl = true | PConst _ _ _ => True | PComp _ _ _ _ _ lab => lab = None end.

(** A space: its tree is not that of a variable. *)
Definition space_like (o : obj) : Prop :=
  match o with ODict d => lookup String.eqb "value" d = None /\ lookup String.eqb "func" d = None | _ => False end.

Section Source.
Variable src : source.
(** All objects, and the parameters of the PDFs. *)
Definition objects : list (string * obj) :=
  s_data src ++ s_constraints src ++ map (fun m => (m_name m, m_obj m)) (s_pdfs src) ++ s_loss src.
Definition parameters : list par := flat_map m_params (s_pdfs src).

Definition distinct_names : Prop :=
  NoDup (map fst (s_data src)) /\ NoDup (map fst (s_constraints src)) /\ NoDup (map m_name (s_pdfs src)) /\ NoDup (map fst (s_loss src)).
(** The names of a kind are not those of the fields of a parameter. *)
Definition ordinary_names : Prop := forall n o, In (n, o) objects -> n <> "type" /\ n <> "name" /\ n <> "stepsize".
Definition ordinary_objects : Prop := forall n o, In (n, o) objects -> plain o /\ typed o.
(** Every parameter of an object belongs to a PDF. *)
Definition parameters_in_pdfs : Prop := forall n o p, In (n, o) objects -> In p (pars_of o) -> In p parameters.
(** One parameter for each name. *)
Definition one_per_name : Prop := forall p q, In p (flat_map parts parameters) -> In q (flat_map parts parameters) -> par_name p = par_name q -> p = q.
(** No other text, and no observable, is the name of a parameter. *)
Definition no_clash : Prop :=
  (forall n o s p, In (n, o) objects -> In s (texts_of o) -> In p parameters -> s <> par_name p) /\
  (forall m s p, In m (s_pdfs src) -> In s (m_spaces m) -> In p parameters -> fst s <> par_name p).
Definition spaces_fine : Prop := forall m s, In m (s_pdfs src) -> In s (m_spaces m) -> space_like (snd s).
Definition all_survive : Prop := forall p, In p (flat_map parts parameters) -> survives p.
End Source.
