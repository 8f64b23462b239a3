(** The evaluation of the loss during a minimisation: minimizers/evaluation.py [LossEval] and
    the strategies of minimizers/strategy.py.

    Numbers are those of Param_Model.v: rationals, infinities, NaN. What the loss does when it
    is evaluated is an argument of each request: any sequence of outcomes is covered. The
    [callback] of the strategy is the one of [BaseStrategy] (strategy.py:44-46), which changes
    nothing. The converter to numpy is not modelled. *)
From Verif Require Import Base Param_Model.

(** What an evaluation of the loss ends in: a result, tf's InvalidArgumentError (raised by the
    numerical checks), or another exception. *)
Inductive raw (A : Type) : Type :=
| Got (a : A)
| Invalid
| Raised (e : error).
Arguments Got {A} a.
Arguments Invalid {A}.
Arguments Raised {A} e.

(** The entries of a gradient or of a Hessian matrix; [None] for a derivative that does not
    exist. *)
Definition entries := list (option num).
Definition is_nan (v : num) : bool := match v with NaN => true | _ => false end.
Definition entry_nan (e : option num) : bool := match e with Some v => is_nan v | None => false end.
Definition entry_none (e : option num) : bool := match e with Some _ => false | None => true end.

(** evaluation.py:84-87, 103-106: the state. [e_at] are the values assigned to the parameters
    last; [e_old] the flags remembered by the blocks [ignore_maxiter] that are open. *)
Record ev : Type := Ev {
  e_nfunc : nat; e_ngrad : nat; e_nhess : nat;
  e_ignoring : bool; e_old : list bool;
  e_last_value : option num; e_last_grad : option entries;
  e_nan : nat;
  e_at : option (list num) }.

(** The settings: maxiter ([None] for none), [do_print], and the strategy: penalty and
    tolerance of [PushbackStrategy]. [BaseStrategy] and [ToyStrategyFail] (strategy.py:41-42,
    74-93), which raise at the first NaN, behave as tolerance 0. *)
Record settings : Type := Settings {
  s_maxiter : option nat; s_print : bool; s_penalty : Q; s_tol : nat }.

(** evaluation.py:51-111 [__init__]; strategy.py:96-100, 138: the defaults of the strategy. *)
Definition start : ev := Ev 0 0 0 false [] None None 0 None.
Definition default_settings (maxiter : option nat) : settings := Settings maxiter false 100 30.

Section Evaluator.
Variable S : settings.

(** evaluation.py:113-119 *)
Definition niter (st : ev) : nat := Nat.max (e_nfunc st) (Nat.max (e_ngrad st) (e_nhess st)).
Definition maxiter_reached (st : ev) : bool :=
  match s_maxiter S with
  | None => false
  | Some m => negb (e_ignoring st) && Nat.ltb m (niter st)
  end.

Inductive kind : Type := Func | Grad | Hess.
Definition bump (k : kind) (st : ev) : ev :=
  match k with
  | Func => Ev (e_nfunc st + 1) (e_ngrad st) (e_nhess st) (e_ignoring st) (e_old st) (e_last_value st) (e_last_grad st) (e_nan st) (e_at st)
  | Grad => Ev (e_nfunc st) (e_ngrad st + 1) (e_nhess st) (e_ignoring st) (e_old st) (e_last_value st) (e_last_grad st) (e_nan st) (e_at st)
  | Hess => Ev (e_nfunc st) (e_ngrad st) (e_nhess st + 1) (e_ignoring st) (e_old st) (e_last_value st) (e_last_grad st) (e_nan st) (e_at st)
  end.

(** evaluation.py:138-163, the setters, and 177-179, 240-241, 295-296, 354-355: count and
    check, unless the limit is being ignored. The flag tells if the limit was passed. *)
Fixpoint count (ks : list kind) (st : ev) : ev * bool :=
  match ks with
  | [] => (st, false)
  | k :: r =>
      if e_ignoring st then (st, false)
      else let st' := bump k st in
           if maxiter_reached st' then (st', true) else count r st'
  end.

Definition assign_at (values : list num) (st : ev) : ev :=
  Ev (e_nfunc st) (e_ngrad st) (e_nhess st) (e_ignoring st) (e_old st) (e_last_value st) (e_last_grad st) (e_nan st) (Some values).
Definition nan_seen (st : ev) : ev :=
  Ev (e_nfunc st) (e_ngrad st) (e_nhess st) (e_ignoring st) (e_old st) (e_last_value st) (e_last_grad st) (e_nan st + 1) (e_at st).
(** A good result: the streak ends and what is given is remembered. *)
Definition good_seen (v : option num) (g : option entries) (st : ev) : ev :=
  Ev (e_nfunc st) (e_ngrad st) (e_nhess st) (e_ignoring st) (e_old st)
     (match v with Some _ => v | None => e_last_value st end)
     (match g with Some _ => g | None => e_last_grad st end) 0 (e_at st).

Definition neg_num (v : num) : num :=
  match v with Fin q => Fin (- q)%Q | PInf => NInf | NInf => PInf | NaN => NaN end.

(** strategy.py:115-135 [PushbackStrategy.minimize_nan]. The current loss is a number, the
    text "invalid, error occured", or None. *)
Inductive shown : Type := SNum (v : num) | SText | SNone.
Definition minimize_nan (counter : nat) (old_loss : option num) (old_grad : option entries) (loss : shown)
  : result (option num * option entries) :=
  if Nat.ltb counter (s_tol S) then
    let last_grad := match old_grad with Some g => Some (map (option_map neg_num) g) | None => None end in
    match old_loss with
    | Some l => Ok (Some (num_add l (s_penalty S * inject_Z (Z.of_nat counter))%Q), last_grad)
    | None => match loss with
              | SNum v => Ok (Some v, last_grad)
              | SNone => Ok (None, last_grad)
              | SText => Err RuntimeError
              end
    end
  else Err FailMinimizeNaN.

(** evaluation.py:228-282 [value]. With [do_print] the text of a failed evaluation is converted
    with [float] while printing (250-267, 392-400), which raises ValueError in place of the
    original exception. *)
Definition value (st : ev) (values : list num) (o : raw num) : ev * result num :=
  let (st, over) := count [Func] st in
  if over then (st, Err MaximumIterationReached)
  else
    let st := assign_at values st in
    let failed loss :=
      let st := nan_seen st in
      (st, let* r := minimize_nan (e_nan st) (e_last_value st) None loss in
           opt_result TypeError (fst r)) in
    match o with
    | Raised e => (st, Err (if s_print S then ValueError else e))
    | Invalid => if s_print S then (st, Err ValueError) else failed SText
    | Got v => if is_nan v then failed (SNum v) else (good_seen (Some v) None st, Ok v)
    end.

(** evaluation.py:165-226 [value_gradient]. The gradient returned may be None. The
    DerivativeCalculationError raised for missing derivatives (28-43) is a ValueError. *)
Definition value_gradient (st : ev) (values : list num) (o : raw (num * entries))
  : ev * result (num * option entries) :=
  let (st, over) := count [Func; Grad] st in
  if over then (st, Err MaximumIterationReached)
  else
    let st := assign_at values st in
    let failed loss :=
      let st := nan_seen st in
      (st, let* r := minimize_nan (e_nan st) (e_last_value st) (e_last_grad st) loss in
           let* v := opt_result TypeError (fst r) in
           Ok (v, snd r)) in
    match o with
    | Raised e => (st, Err (if s_print S then ValueError else e))
    | Invalid => if s_print S then (st, Err ValueError) else failed SText
    | Got (v, g) =>
        if existsb entry_none g then (st, Err ValueError)
        else if existsb entry_nan g || is_nan v then failed (SNum v)
        else (good_seen (Some v) (Some g) st, Ok (v, Some g))
    end.

(** evaluation.py:284-340 [gradient] *)
Definition gradient (st : ev) (values : list num) (o : raw entries) : ev * result (option entries) :=
  let (st, over) := count [Grad] st in
  if over then (st, Err MaximumIterationReached)
  else
    let st := assign_at values st in
    let failed :=
      let st := nan_seen st in
      (st, let* r := minimize_nan (e_nan st) (e_last_value st) (e_last_grad st) SNone in
           Ok (snd r)) in
    match o with
    | Raised e => (st, Err e)
    | Invalid => failed
    | Got g =>
        if existsb entry_none g then (st, Err ValueError)
        else if existsb entry_nan g then failed
        else (good_seen None (Some g) st, Ok (Some g))
    end.

(** evaluation.py:342-398 [hessian]: after a NaN what was calculated is returned, the texts
    "invalid" ([None]) if the calculation failed. *)
Definition hessian (st : ev) (values : list num) (o : raw entries) : ev * result (option entries) :=
  let (st, over) := count [Hess] st in
  if over then (st, Err MaximumIterationReached)
  else
    let st := assign_at values st in
    let failed h :=
      let st := nan_seen st in
      (st, let* _ := minimize_nan (e_nan st) (e_last_value st) (e_last_grad st) SNone in
           Ok h) in
    match o with
    | Raised e => (st, Err e)
    | Invalid => failed None
    | Got h =>
        if existsb entry_none h then (st, Err ValueError)
        else if existsb entry_nan h then failed (Some h)
        else (good_seen None None st, Ok (Some h))
    end.

(** ** Histories *)
Inductive request : Type :=
| RValue (values : list num) (o : raw num)
| RValueGradient (values : list num) (o : raw (num * entries))
| RGradient (values : list num) (o : raw entries)
| RHessian (values : list num) (o : raw entries)
| REnter            (* with evaluator.ignore_maxiter(): *)
| RLeave            (* its end *)
| RAbandon.         (* an exception leaves the block *)

Inductive response : Type :=
| AValue (r : result num)
| AValueGradient (r : result (num * option entries))
| AGradient (r : result (option entries))
| AHessian (r : result (option entries))
| ANothing.

Definition set_ignoring (b : bool) (old : list bool) (st : ev) : ev :=
  Ev (e_nfunc st) (e_ngrad st) (e_nhess st) b old (e_last_value st) (e_last_grad st) (e_nan st) (e_at st).

(** evaluation.py:125-131 [ignore_maxiter]: the flag is restored after the block, but not by an
    exception. *)
Definition answer (st : ev) (r : request) : ev * response :=
  match r with
  | RValue vs o => let (st, a) := value st vs o in (st, AValue a)
  | RValueGradient vs o => let (st, a) := value_gradient st vs o in (st, AValueGradient a)
  | RGradient vs o => let (st, a) := gradient st vs o in (st, AGradient a)
  | RHessian vs o => let (st, a) := hessian st vs o in (st, AHessian a)
  | REnter => (set_ignoring true (e_ignoring st :: e_old st) st, ANothing)
  | RLeave => match e_old st with
              | b :: old => (set_ignoring b old st, ANothing)
              | [] => (st, ANothing)
              end
  | RAbandon => (set_ignoring (e_ignoring st) (tl (e_old st)) st, ANothing)
  end.

Definition after (rs : list request) (st : ev) : ev := fold_left (fun st r => fst (answer st r)) rs st.
End Evaluator.
