(** Minimisation step by step: minimizers/baseminimizer.py [BaseStepMinimizer], the criteria of
    minimizers/termination.py and the flags of minimizers/fitresult.py.

    Numbers are those of Param_Model.v (rationals, infinities, NaN). The loss, the parameters
    and the optimiser are one state [W] on which the functions of the section act in any way. *)
From Verif Require Import Base Param_Model.

Definition num_neg (a : num) : num := match a with Fin x => Fin (- x)%Q | PInf => NInf | NInf => PInf | NaN => NaN end.
Definition num_plus (a b : num) : num :=
  match a, b with
  | NaN, _ | _, NaN | PInf, NInf | NInf, PInf => NaN
  | PInf, _ | _, PInf => PInf
  | NInf, _ | _, NInf => NInf
  | Fin x, Fin y => Fin (x + y)%Q
  end.
Definition num_abs (a : num) : num :=
  match a with Fin x => Fin (if Qle_bool 0 x then x else - x)%Q | PInf | NInf => PInf | NaN => NaN end.
Definition num_sum (l : list num) : num := fold_left num_plus l (Fin 0).

(** baseminimizer.py:573-586 [get_maxiter] inside a minimisation; 196: 3000 per parameter. *)
Inductive maxiter_setting : Type := Number (n : nat) | Callable (f : nat -> nat) | Auto.
Definition get_maxiter (s : maxiter_setting) (n_params : nat) : nat :=
  match s with Number n => n | Callable f => f n_params | Auto => 3000 * n_params end.

(** termination.py:34-46 [converged]: [tol] is the tolerance times the errordef (28). *)
Definition criterion_converged (tol errordef : Q) (value : num) : bool := num_lt value (Fin (tol * errordef)).
(** termination.py:98-121 [EDM._calculate]: given the outcome of the algebra, [None] for a
    singular matrix. *)
Definition edm_calculate (algebra : option num) : num :=
  let edm := match algebra with Some e => e | None => Fin 999999 end in
  if num_lt edm (Fin 0) then Fin 999999 else edm.

(** fitresult.py:398-439: the fields of a result. *)
Record report : Type := Report {
  r_niter : nat; r_at : list num; r_edm : option num; r_fmin : num;
  r_converged : bool; r_valid : bool; r_status : Z; r_message : string }.

Section Steps.
Variable W : Type.
(** 710-711: the values of [init] are assigned. *)
Variable begin : W -> W * option error.
(** [_step], given the preliminary result. *)
Variable step : option report -> W -> W * result num.
(** 730-731: the Hessian and its inverse. *)
Variable hesse : W -> result unit.
(** [criterion.calculate] *)
Variable calculate : report -> W -> result num.
(** The values of the parameters, and whether one of them is at its limit. *)
Variable values : W -> list num.
Variable some_at_limit : W -> bool.
Variable tol errordef : Q.
Variable maxiter : nat.

(** fitresult.py:400-419 *)
Definition fit_result (w : W) (niter : nat) (edm : option num) (fmin : num) (converged valid : bool)
    (status : Z) (message : string) : report :=
  let at_limit := some_at_limit w in
  Report niter (values w) edm fmin converged (if at_limit then false else valid) status
    (if at_limit then
       ((if String.eqb message "" then message else message ++ " AND ") ++ "parameter(s) at their limit.")%string
     else message).

(** 722-767, the loop *)
Fixpoint loop (fuel : nat) (prelim : option report) (changes : list num) (last_val : num) (niter : nat)
    (edm : option num) (w : W) : W * result report :=
  match fuel with
  | 0 => (w, Err (UserError 0))
  | S fuel =>
      match step prelim w with
      | (w, Err e) => (w, Err e)
      | (w, Ok cur_val) =>
          let niter := niter + 1 in
          let changes := tl changes ++ [num_abs (num_plus cur_val (num_neg last_val))] in
          let maxiter_reached := Nat.ltb maxiter niter in
          if (num_lt (num_sum changes) (Fin tol) && negb (Nat.eqb (niter mod 3) 0)) || maxiter_reached then
            match hesse w with
            | Err e => (w, Err e)
            | Ok _ =>
                let prelim := fit_result w niter edm cur_val false false 10 "Unfinished, for criterion" in
                match calculate prelim w with
                | Err e => (w, Err e)
                | Ok value =>
                    let converged := criterion_converged tol errordef value in
                    if converged || maxiter_reached then
                      (* 769-792 *)
                      (w, Ok (fit_result w niter (Some value) cur_val converged converged
                                (if converged then 0 else 10)
                                (if maxiter_reached then "Maxiter reached" else "")))
                    else loop fuel (Some prelim) changes cur_val niter (Some value) w
                end
            end
          else loop fuel prelim changes cur_val niter edm w
      end
  end.

(** 709-792 [_minimize]. The loop is given any number of rounds. *)
Definition minimize_steps (rounds : nat) (w : W) : W * result report :=
  match begin w with
  | (w, Some e) => (w, Err e)
  | (w, None) => loop rounds None (repeat (Fin 1) 5) (Fin (-10)) 0 None w
  end.
End Steps.
