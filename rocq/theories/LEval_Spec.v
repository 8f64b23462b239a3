(** What the requests made so far mean: how often was asked, how long the last streak of NaNs
    is, and which were the last good results. A history is a list of requests, the latest
    first. *)
From Verif Require Import Base Param_Model LEval_Model.

(** Number of blocks [ignore_maxiter] that are open. *)
Fixpoint inside (hist : list request) : nat :=
  match hist with
  | [] => 0
  | REnter :: h => S (inside h)
  | RLeave :: h => pred (inside h)
  | _ :: h => inside h
  end.
Definition asks (k : kind) (r : request) : bool :=
  match k, r with
  | Func, RValue _ _ | Func, RValueGradient _ _ | Grad, RValueGradient _ _
  | Grad, RGradient _ _ | Hess, RHessian _ _ => true
  | _, _ => false
  end.
(** How often a kind was asked for outside of the blocks. *)
Fixpoint asked (k : kind) (hist : list request) : nat :=
  match hist with
  | [] => 0
  | r :: h => asked k h + (if asks k r && Nat.eqb (inside h) 0 then 1 else 0)
  end.
(** One kind was asked for more than [m] times. *)
Definition exceeded (m : option nat) (hist : list request) : bool :=
  match m with
  | None => false
  | Some n => existsb (fun k => Nat.ltb n (asked k hist)) [Func; Grad; Hess]
  end.
(** The request is beyond the limit. *)
Definition refused (m : option nat) (hist : list request) (r : request) : bool :=
  Nat.eqb (inside hist) 0 && exceeded m (r :: hist).
Definition evaluates (r : request) : bool := asks Func r || asks Grad r || asks Hess r.

(** What an evaluation tells: a NaN (or a failed numerical check), or good results. Other
    exceptions, among them the one for missing derivatives, tell nothing. *)
Inductive event : Type :=
| Bad
| Good (v : option num) (g : option entries).
Definition event_of (r : request) : list event :=
  match r with
  | RValue _ Invalid | RValueGradient _ Invalid | RGradient _ Invalid | RHessian _ Invalid => [Bad]
  | RValue _ (Got v) => if is_nan v then [Bad] else [Good (Some v) None]
  | RValueGradient _ (Got (v, g)) =>
      if existsb entry_none g then []
      else if existsb entry_nan g || is_nan v then [Bad] else [Good (Some v) (Some g)]
  | RGradient _ (Got g) =>
      if existsb entry_none g then []
      else if existsb entry_nan g then [Bad] else [Good None (Some g)]
  | RHessian _ (Got h) =>
      if existsb entry_none h then []
      else if existsb entry_nan h then [Bad] else [Good None None]
  | _ => []
  end.
(** The events of a history, the latest first. *)
Fixpoint events (m : option nat) (hist : list request) : list event :=
  match hist with
  | [] => []
  | r :: h => (if refused m h r then [] else event_of r) ++ events m h
  end.
Fixpoint streak (es : list event) : nat :=
  match es with Bad :: r => S (streak r) | _ => 0 end.
Fixpoint last_value (es : list event) : option num :=
  match es with
  | [] => None
  | Good (Some v) _ :: _ => Some v
  | _ :: r => last_value r
  end.
Fixpoint last_gradient (es : list event) : option entries :=
  match es with
  | [] => None
  | Good _ (Some g) :: _ => Some g
  | _ :: r => last_gradient r
  end.

(** Minus a number; a gradient pointing the opposite way. *)
Definition minus (v : num) : num :=
  match v with Fin q => Fin (- q)%Q | PInf => NInf | NInf => PInf | NaN => NaN end.
Definition opposite (g : entries) : entries := map (option_map minus) g.
Definition no_abandon (hist : list request) : Prop := ~ In RAbandon hist.

(** The state after a history. *)
Definition reached (S : settings) (hist : list request) : ev := after S (rev hist) start.
(** An answer that says that the limit is passed. *)
Definition says_maxiter (a : response) : bool :=
  match a with
  | AValue (Err MaximumIterationReached) | AValueGradient (Err MaximumIterationReached)
  | AGradient (Err MaximumIterationReached) | AHessian (Err MaximumIterationReached) => true
  | _ => false
  end.
(** The loss itself does not raise the exception of the limit. *)
Definition own_errors (r : request) : Prop :=
  match r with
  | RValue _ o => o <> Raised MaximumIterationReached
  | RValueGradient _ o => o <> Raised MaximumIterationReached
  | RGradient _ o => o <> Raised MaximumIterationReached
  | RHessian _ o => o <> Raised MaximumIterationReached
  | _ => True
  end.

(** ** The answers of the evaluator to a request within the limit, from what the loss does now
    and what it did before *)
Definition value_answer (S : settings) (hist : list request) (o : raw num) : result num :=
  let es := events (s_maxiter S) hist in
  let pushback loss :=
    if Nat.ltb (streak es + 1) (s_tol S) then
      match last_value es with
      | Some l => Ok (num_add l (s_penalty S * inject_Z (Z.of_nat (streak es + 1)))%Q)
      | None => loss
      end
    else Err FailMinimizeNaN in
  match o with
  | Raised e => Err e
  | Invalid => pushback (Err RuntimeError)
  | Got v => if is_nan v then pushback (Ok v) else Ok v
  end.

Definition value_gradient_answer (S : settings) (hist : list request) (o : raw (num * entries)) : result (num * option entries) :=
  let es := events (s_maxiter S) hist in
  let pushback loss :=
    if Nat.ltb (streak es + 1) (s_tol S) then
      let* v := match last_value es with
                | Some l => Ok (num_add l (s_penalty S * inject_Z (Z.of_nat (streak es + 1)))%Q)
                | None => loss
                end in
      Ok (v, option_map opposite (last_gradient es))
    else Err FailMinimizeNaN in
  match o with
  | Raised e => Err e
  | Invalid => pushback (Err RuntimeError)
  | Got (v, g) =>
      if existsb entry_none g then Err ValueError
      else if existsb entry_nan g || is_nan v then pushback (Ok v) else Ok (v, Some g)
  end.

Definition gradient_answer (S : settings) (hist : list request) (o : raw entries) : result (option entries) :=
  let es := events (s_maxiter S) hist in
  let pushback :=
    if Nat.ltb (streak es + 1) (s_tol S) then Ok (option_map opposite (last_gradient es)) else Err FailMinimizeNaN in
  match o with
  | Raised e => Err e
  | Invalid => pushback
  | Got g =>
      if existsb entry_none g then Err ValueError
      else if existsb entry_nan g then pushback else Ok (Some g)
  end.

Definition hessian_answer (S : settings) (hist : list request) (o : raw entries) : result (option entries) :=
  let es := events (s_maxiter S) hist in
  let passed h := if Nat.ltb (streak es + 1) (s_tol S) then Ok h else Err FailMinimizeNaN in
  match o with
  | Raised e => Err e
  | Invalid => passed None
  | Got h =>
      if existsb entry_none h then Err ValueError
      else if existsb entry_nan h then passed (Some h) else Ok (Some h)
  end.

(** A request at which a NaN (or a failed numerical check) was met, whatever was asked for. *)
Definition bad_request (r : request) : Prop := event_of r = [Bad].
