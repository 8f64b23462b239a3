(** * Arithmetic of functions, parameters, numbers and PDFs (C81)

    Models zfit/core/operations.py, with the operators of core/basemodel.py:1346-1364 and core/parameter.py:298-328,
    models/functions.py, core/basefunc.py and what they use of core/baseobject.py and models/basefunctor.py. Simplifications, throughout:
    - one event at a time, values are rational numbers; an event has one value for each of its observables;
    - functions have observables but no limits, and no integrals;
    - a parameter is a function of the values of the independent parameters, found by their names; a number or a tensor is the same;
    - the body of a function is any function of the values of the parameters and of the event. *)
From Verif Require Import Base.
From Coq Require Import QArith.
#[local] Open Scope string_scope.
#[local] Open Scope list_scope.

Definition BreakingAPIChangeError : error := UserError 1.
Definition FunctionNotImplemented : error := UserError 2.

(** The values of the independent parameters *)
Definition store : Type := string -> Q.
(** [p_deps]: the independent parameters that it depends on (itself, or those of a composed parameter; none for a constant). *)
Record param : Type := Param { p_name : string; p_deps : list string; p_val : store -> Q }.
Definition event : Type := list (string * Q).

(** models/functions.py: [SimpleFuncV1] with any body ([Simple]) or with a function made by operations.py ([Via], the function
    of another one, times a parameter or not), [SumFunc] and [ProdFunc]. *)
Inductive fn : Type :=
| Simple (obs : list string) (params : list (string * param)) (body : store -> list Q -> Q)
| Via (obs : list string) (params : list (string * param)) (p : option param) (f : fn)
| SumFunc (fs : list fn)
| ProdFunc (fs : list fn).

(** models/basefunctor.py:136-143 [_extract_common_obs], and the order of core/space.py:2326 [common_obs] *)
Fixpoint add_new (seen l : list string) : list string :=
  match l with
  | [] => seen
  | o :: l => add_new (if mem String.eqb o seen then seen else seen ++ [o]) l
  end.
Fixpoint fn_obs (f : fn) : list string :=
  match f with
  | Simple o _ _ => o
  | Via o _ _ _ => o
  | SumFunc fs | ProdFunc fs => add_new [] (concat (map fn_obs fs))
  end.
(** [func.params]: the parameters given to it; models/functions.py:48-51: a functor has none of its own. *)
Definition fn_params (f : fn) : list (string * param) :=
  match f with Simple _ ps _ => ps | Via _ ps _ _ => ps | SumFunc _ | ProdFunc _ => [] end.
(** core/baseobject.py:176-195, 263-271 and models/basefunctor.py:76-95 [get_params(floating=None)]: the names of the
    independent parameters. *)
Fixpoint get_params (f : fn) : list string :=
  match f with
  | Simple _ ps _ => concat (map (fun kp => p_deps (snd kp)) ps)
  | Via _ ps _ _ => concat (map (fun kp => p_deps (snd kp)) ps)
  | SumFunc fs | ProdFunc fs => concat (map get_params fs)
  end.

(** core/basemodel.py:221-245 [_convert_sort_x]: the values of the event in the order of the observables. An event without one of
    them is taken as an error here (see Cond_Model for what happens). *)
Definition sort_x (obs : list string) (x : event) : result event :=
  mapM (fun o => match lookup String.eqb o x with Some v => Ok (o, v) | None => Err ObsIncompatibleError end) obs.
(** models/functions.py:66-69, 88-90: accumulate_n and prod *)
Definition sumQ (l : list Q) : Q := fold_right Qplus 0 l.
Definition prodQ (l : list Q) : Q := fold_right Qmult 1 l.
(** core/basefunc.py:50-69 [func], with models/functions.py:38-42, 66-69 and 88-90 *)
Fixpoint value (f : fn) (s : store) (x : event) {struct f} : result Q :=
  match f with
  | Simple obs _ body => let* x := sort_x obs x in Ok (body s (map snd x))
  | Via obs _ p f =>
      let* x := sort_x obs x in
      let* v := value f s x in
      Ok (match p with Some p => p_val p s * v | None => v end)
  | SumFunc fs =>
      let* x := sort_x (add_new [] (concat (map fn_obs fs))) x in
      let* vs := mapM (fun f => value f s x) fs in Ok (sumQ vs)
  | ProdFunc fs =>
      let* x := sort_x (add_new [] (concat (map fn_obs fs))) x in
      let* vs := mapM (fun f => value f s x) fs in Ok (prodQ vs)
  end%Q.
(** core/baseobject.py:209-229: values given by name, [func(x, params=...)]; they hold during the call. *)
Definition set_given (s : store) (given : list (string * Q)) : store :=
  fun n => match lookup String.eqb n given with Some v => v | None => s n end.
Definition value_with (f : fn) (s : store) (x : event) (given : list (string * Q)) : result Q :=
  if forallb (fun nv => mem String.eqb (fst nv) (get_params f)) given then value f (set_given s given) x else Err ValueError.

(** PDFs: any ([Base]: the value of [pdf] for a norm, [None] for [norm=False]), made of a function (models/special.py [SimplePDF]),
    or the result of an operation. *)
Inductive pdf : Type :=
| BasePdf (obs : list string) (params : list (string * param)) (deps : list string) (extended : bool)
          (val : option (list (Q * Q)) -> store -> list Q -> Q)
| FuncPdf (obs : list string) (params : list (string * param)) (f : fn)
| ProductPdf (pdfs : list pdf)
| SumPdf (pdfs : list pdf).
(** [is_extended] of what can be an operand: models/functor.py: a product of PDFs is not extended here, a sum of extended ones is. *)
Definition pdf_extended (d : pdf) : bool :=
  match d with BasePdf _ _ _ e _ => e | FuncPdf _ _ _ => false | ProductPdf _ => false | SumPdf _ => true end.

(** Python: keyword arguments that are also arguments of the constructor; [name] is not modelled. *)
Definition check_kwargs (params : list (string * param)) : result unit :=
  if existsb (fun kp => mem String.eqb (fst kp) ["self"; "obs"; "func"]) params then Err TypeError else Ok tt.
(** [params.update(other)] *)
Fixpoint put (k : string) (v : param) (d : list (string * param)) : list (string * param) :=
  match d with [] => [(k, v)] | (k', v') :: r => if String.eqb k k' then (k', v) :: r else (k', v') :: put k v r end.
Definition update (d e : list (string * param)) : list (string * param) := fold_left (fun d kp => put (fst kp) (snd kp) d) e d.

(** operations.py:104-116 [multiply_param_func] *)
Definition multiply_param_func (p : param) (f : fn) : result fn :=
  let params := update [(p_name p, p)] (fn_params f) in
  let* _ := check_kwargs params in
  Ok (Via (fn_obs f) params (Some p) f).
(** 225-232 [convert_pdf_to_func], for PDFs that are not the result of an operation *)
Definition as_func (d : pdf) (norm : option (list (Q * Q))) : result fn :=
  match d with
  | BasePdf obs params _ _ val => let* _ := check_kwargs params in Ok (Simple obs params (val norm))
  | FuncPdf obs params f => let* _ := check_kwargs params in Ok (Via obs params None f)
  | _ => Err NotImplementedError
  end.
(** 235-247 [convert_func_to_pdf] *)
Definition as_pdf (f : fn) : result pdf :=
  let* _ := check_kwargs (fn_params f) in Ok (FuncPdf (fn_obs f) (fn_params f) f).
(** models/special.py:29-33: the value that is not normalised; and the parameters that the PDF depends on *)
Definition unnormalized_pdf (d : pdf) (s : store) (x : event) : result Q :=
  match d with
  | BasePdf obs _ _ _ val => let* x := sort_x obs x in Ok (val None s (map snd x))
  | FuncPdf obs _ f => let* x := sort_x obs x in value f s x
  | _ => Err NotImplementedError
  end.
Definition pdf_params (d : pdf) : list string :=
  match d with
  | BasePdf _ _ deps _ _ => deps
  | FuncPdf _ ps _ => concat (map (fun kp => p_deps (snd kp)) ps)
  | _ => []
  end.

(** ** Operators *)
Inductive obj : Type := OFn (f : fn) | OPar (p : param) | ONum (q : Q) | OPdf (d : pdf).

(** core/parameter.py:1425-1450 [convert_to_parameter] of a number; the name is always new, which is left out. *)
Definition const_param (q : Q) : param := Param "FIXED_autoparam" [] (fun _ => q).

(** [object1 * object2]: the operators and operations.py:25-75 [multiply]. [now] has the values at this moment: a product of two
    parameters (or with a number) is a tensor, 119-123 and core/parameter.py:314-320. *)
Definition op_mul (now : store) (object1 object2 : obj) : result obj :=
  match object1, object2 with
  | ONum a, ONum b => Ok (ONum (a * b))
  | OPar p, ONum b => Ok (ONum (p_val p now * b))
  | ONum a, OPar p => Ok (ONum (a * p_val p now))
  | OPar p, OPar q => Ok (ONum (p_val p now * p_val q now))
  | OPar p, OFn f => let* g := multiply_param_func p f in Ok (OFn g)
  | ONum a, OFn f => let* g := multiply_param_func (const_param a) f in Ok (OFn g)
  | OFn f, OPar p => let* g := multiply_param_func p f in Ok (OFn g)
  | OFn f, ONum a => let* g := multiply_param_func (const_param a) f in Ok (OFn g)
  | OFn f, OFn g => Ok (OFn (ProdFunc [f; g]))
  | OPar _, OPdf _ | ONum _, OPdf _ => Err BreakingAPIChangeError
  | OFn _, OPdf _ => Err ModelIncompatibleError
  | OPdf d, OPdf e =>
      if negb (pdf_extended d) && pdf_extended e then Err IntentionAmbiguousError else Ok (OPdf (ProductPdf [d; e]))
  | OPdf _, _ => Err ModelIncompatibleError
  end%Q.
(** [object1 + object2]: 127-171 [add]; 195-217 *)
Definition op_add (now : store) (object1 object2 : obj) : result obj :=
  match object1, object2 with
  | ONum a, ONum b => Ok (ONum (a + b))
  | OPar p, ONum b => Ok (ONum (p_val p now + b))
  | ONum a, OPar p => Ok (ONum (a + p_val p now))
  | OPar p, OPar q => Ok (ONum (p_val p now + p_val q now))
  | OPar _, OFn _ | ONum _, OFn _ | OFn _, OPar _ | OFn _, ONum _ => Err NotImplementedError
  | OFn f, OFn g => Ok (OFn (SumFunc [f; g]))
  | OPar _, OPdf _ | ONum _, OPdf _ => Err FunctionNotImplemented
  | OFn _, OPdf _ | OPdf _, OFn _ => Err TypeError
  | OPdf d, OPdf e => if pdf_extended d && pdf_extended e then Ok (OPdf (SumPdf [d; e])) else Err BreakingAPIChangeError
  | OPdf _, _ => Err FunctionNotImplemented
  end%Q.

(** An expression of Python *)
Inductive expr : Type :=
| EObj (o : obj)
| EAdd (a b : expr)
| EMul (a b : expr).
Fixpoint build (now : store) (e : expr) : result obj :=
  match e with
  | EObj o => Ok o
  | EAdd a b => let* x := build now a in let* y := build now b in op_add now x y
  | EMul a b => let* x := build now a in let* y := build now b in op_mul now x y
  end.
