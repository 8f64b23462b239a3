(** Model of the collection of parameters: zfit/core/baseobject.py ([get_params],
    [extract_filter_params], [_assert_params_unique]), core/parameter.py, core/basepdf.py,
    core/binnedpdf.py, models/basefunctor.py, models/conditional.py and core/loss.py.

    Simplification: the graph of objects is unfolded into trees. Every parameter carries a number,
    its identity ([OrderedSet] compares by identity); the same object has the same number. *)
From Verif Require Import Base.

(** An independent parameter, a constant, or a composed parameter with the parameters it is
    computed from (core/parameter.py:247-290, 348, 828, 904). *)
Inductive prm :=
| PIndep (id : nat)
| PConst (id : nat)
| PComp (id : nat) (deps : list prm).
Definition pid (p : prm) : nat := match p with PIndep i | PConst i | PComp i _ => i end.
(** The property [independent]. *)
Definition p_indep (p : prm) : bool := match p with PIndep _ => true | _ => false end.

(** OrderedSet(l): first appearances. *)
Fixpoint oset_from (seen : list nat) (l : list prm) : list prm :=
  match l with
  | [] => []
  | p :: r => if mem Nat.eqb (pid p) seen then oset_from seen r else p :: oset_from (pid p :: seen) r
  end.
Definition oset (l : list prm) : list prm := oset_from [] l.
(** OrderedSet difference *)
Definition ominus (l m : list prm) : list prm := filter (fun p => negb (mem Nat.eqb (pid p) (map pid m))) l.

Section Floating.
(** The attribute [floating] of the independent parameters. *)
Variable flt : nat -> bool.

(** [p.floating == floating]; only asked for independent parameters (composed ones raise), see
    [extract_filter]. Constants are not floating. *)
Definition floats (p : prm) : bool := match p with PIndep i => flt i | _ => false end.
Definition float_filter (floating : option bool) (l : list prm) : list prm :=
  match floating with
  | None => l
  | Some b => filter (fun p => Bool.eqb (floats p) b) l
  end.

(** [p.get_params(floating, is_yield=None, extract_independent=True)]: core/parameter.py:663-676
    for independent parameters; baseobject.py:176-198 with extract_filter_params (261-287) for the
    others. A constant has no params. Repeated dependencies are skipped (OrderedSet). *)
Fixpoint get_indep (floating : option bool) (p : prm) : list prm :=
  match p with
  | PIndep _ => float_filter floating [p]
  | PConst _ => []
  | PComp _ deps =>
      float_filter floating (oset
        ((fix go (seen : list nat) (l : list prm) : list prm :=
            match l with
            | [] => []
            | d :: r => if mem Nat.eqb (pid d) seen then go seen r
                        else get_indep floating d ++ go (pid d :: seen) r
            end) [] deps))
  end.

(** core/baseobject.py:261-287 [extract_filter_params] *)
Definition extract_filter (params : list prm) (floating extract : option bool) : result (list prm) :=
  let params := oset params in
  let indep := oset (concat (map (get_indep floating) params)) in
  let params := match extract with
                | Some true => indep
                | None => oset (params ++ indep)
                | Some false => params
                end in
  match floating with
  | None => Ok params
  | Some _ =>
      if negb (match extract with Some true => true | _ => false end) && negb (forallb p_indep params)
      then Err ValueError
      else Ok (float_filter floating params)
  end.

(** A model (also a constraint): its own parameters by name, the names that support automatic
    gradients, whether it is a PDF, its yield, the models it is made of, and the parameters that a
    ConditionalPDF replaces by data (empty otherwise). *)
Inductive model := Model (own : list (string * prm)) (autograd : list string) (is_pdf : bool)
                         (yld : option prm) (subs : list model) (cond : list prm).

Definition is_true (o : option bool) : bool := match o with Some true => true | _ => false end.
Definition is_false (o : option bool) : bool := match o with Some false => true | _ => false end.

(** core/baseobject.py:176-198 [BaseParametrized._get_params]. [nograd] stands for
    [autograd=False] (only parameters without automatic gradient), its absence for None. *)
Definition own_params (own : list (string * prm)) (autograd : list string) (nograd : bool)
    (floating is_yield extract : option bool) : result (list prm) :=
  if is_true is_yield then Ok []
  else extract_filter
         (map snd (filter (fun np => negb nograd || negb (mem String.eqb (fst np) autograd)) own))
         floating extract.

(** core/basepdf.py:808-842, core/binnedpdf.py:216-243 [_get_params]: the yield comes first. *)
Definition pdf_params (own : list (string * prm)) (autograd : list string) (is_pdf : bool) (yld : option prm)
    (nograd : bool) (floating is_yield extract : option bool) : result (list prm) :=
  let* params := own_params own autograd nograd floating is_yield extract in
  if negb is_pdf || is_false is_yield then Ok params
  else match yld with
       | Some y =>
           let* yp := extract_filter [y] floating extract in
           if nograd && mem String.eqb "yield"%string autograd then Ok params else Ok (oset (yp ++ params))
       | None => if is_true is_yield then Err NotExtendedPDFError else Ok params
       end.

(** models/basefunctor.py:77-95: then the parameters of the submodels, without their yields;
    models/conditional.py:132-142: without the conditional parameters. *)
Fixpoint model_params (nograd : bool) (floating is_yield extract : option bool) (m : model) : result (list prm) :=
  match m with
  | Model own autograd is_pdf yld subs cond =>
      let* params := pdf_params own autograd is_pdf yld nograd floating is_yield extract in
      let* all :=
        if is_true is_yield then Ok params
        else
          let* l := mapM (model_params nograd floating (Some false) extract) subs in
          Ok (oset (params ++ concat l)) in
      Ok (ominus all cond)
  end.

(** core/baseobject.py:135-174 [get_params] with autograd None, False or True, around a
    [_get_params]. *)
Definition with_autograd (get : bool -> option bool -> option bool -> option bool -> result (list prm))
    (autograd floating is_yield extract : option bool) : result (list prm) :=
  match autograd with
  | Some true =>
      let* all := get false floating is_yield extract in
      let* nograd := get true None None None in
      Ok (ominus all nograd)
  | Some false => get true floating is_yield extract
  | None => get false floating is_yield extract
  end.
Definition model_get_params (m : model) :=
  with_autograd (fun nograd floating is_yield extract => model_params nograd floating is_yield extract m).

(** core/loss.py:299-324 [BaseLoss._get_params]; 1113-1124, _loss/binnedloss.py:482-492, 693-703:
    a likelihood that is not extended asks for no yields. *)
Record loss := mkLoss { l_extended : bool; l_models : list model; l_constraints : list model }.
Definition loss_params (l : loss) (nograd : bool) (floating is_yield extract : option bool)
  : result (list prm) :=
  let is_yield := if l_extended l then is_yield else Some false in
  let* ms := mapM (model_params nograd floating is_yield extract) (l_models l) in
  let* cs := mapM (model_params nograd floating (Some false) extract) (l_constraints l) in
  Ok (oset (oset (concat ms) ++ concat cs)).
Definition loss_get_params (l : loss) := with_autograd (loss_params l).
End Floating.

(** core/baseobject.py:119-133 [_assert_params_unique], called at the end of the construction of
    PDFs (basepdf.py:168), losses (loss.py:247) and composed parameters (parameter.py:286). *)
Definition names_unique (name : nat -> string) (all : list prm) : bool :=
  forallb (fun p => Nat.eqb (count_occ string_dec (map (fun q => name (pid q)) all) (name (pid p))) 1) all.
Definition assert_unique (name : nat -> string) (r : result (list prm)) : result unit :=
  let* all := r in if names_unique name all then Ok tt else Err ParamNameNotUniqueError.
Definition assert_model_unique (name : nat -> string) (flt : nat -> bool) (m : model) : result unit :=
  assert_unique name (model_get_params flt m None None None None).
Definition assert_loss_unique (name : nat -> string) (flt : nat -> bool) (l : loss) : result unit :=
  assert_unique name (loss_get_params flt l None None None None).
