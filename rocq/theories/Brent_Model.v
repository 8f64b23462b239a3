(** Model of the root search of zfit/util/root_search.py, and of its use in
    zfit/util/improved_sheather_jones.py and zfit/util/convolution.py.

    Simplifications, everywhere in this file:
    - numbers are exact rationals, and the function has a finite value everywhere (so the checks
      with [is_finite] are left out);
    - [max_iterations] is one number. *)
From Coq Require Import Qabs.
From Verif Require Import Base.
Open Scope Q_scope.

Definition qlt (x y : Q) : bool := negb (Qle_bool y x).

(** util/root_search.py:73-86 [_BrentSearchState] *)
Record st := mkSt {
  best : Q; last : Q; contra : Q;
  v_best : Q; v_last : Q; v_contra : Q;
  step_best : Q; step_last : Q;
  iters : nat; finished : bool }.

(** 89-97 [_BrentSearchParams] *)
Record params := mkParams { max_iter : nat; atol : Q; rtol : Q; ftol : Q }.

(** 114-137 [_secant_step] *)
Definition secant_step (x1 x2 y1 y2 : Q) : Q := - y1 * (x1 - x2) / (y1 - y2).
(** 140-164 [_quadratic_interpolation_step]; a division by zero gives zero ([divide_no_nan]) *)
Definition quadratic_step (x1 x2 x3 y1 y2 y3 : Q) : Q :=
  let r2 := (x2 - x1) / (y2 - y1) in
  let r3 := (x3 - x1) / (y3 - y1) in
  - x1 * ((x3 * r3 - x2 * r2) / (r3 * r2 * (x3 - x2))).

Section Objective.
Variable f : Q -> Q.
Variable P : params.

(** 206-214: if the root is between the last two estimates, the last one is the contrapoint *)
Definition replace_contrapoint (s : st) : st :=
  if negb (finished s) && qlt (v_last s * v_best s) 0 then
    mkSt (best s) (last s) (last s) (v_best s) (v_last s) (v_last s)
      (best s - last s) (best s - last s) (iters s) (finished s)
  else s.

(** 216-230: if the contrapoint is better, it is exchanged with the estimate *)
Definition exchange (s : st) : st :=
  if negb (finished s) && qlt (Qabs (v_contra s)) (Qabs (v_best s)) then
    mkSt (contra s) (best s) (best s) (v_contra s) (v_best s) (v_best s)
      (step_best s) (step_last s) (iters s) (finished s)
  else s.

(** 232-237 *)
Definition root_tolerance (s : st) : Q := (1 # 2) * (atol P + rtol P * Qabs (best s)).
Definition bisection_step (s : st) : Q := (1 # 2) * (contra s - best s).

(** 239-250 *)
Definition is_finished (s : st) : bool :=
  finished s || Nat.leb (max_iter P) (iters s) || qlt (Qabs (bisection_step s)) (root_tolerance s)
  || Qle_bool (Qabs (v_best s)) (ftol P).

(** 252-289: the step by interpolation, if it is worth it *)
Definition short_step (s : st) : Q :=
  if Qeq_bool (last s) (contra s) then secant_step (best s) (last s) (v_best s) (v_last s)
  else quadratic_step (v_best s) (v_last s) (v_contra s) (best s) (last s) (contra s).
Definition compute_short_step (s : st) : bool :=
  qlt (root_tolerance s) (Qabs (step_last s)) && qlt (Qabs (v_best s)) (Qabs (v_last s)).
Definition qmin (x y : Q) : Q := if Qle_bool x y then x else y.
(** 291-304 *)
Definition use_short_step (s : st) : bool :=
  compute_short_step s
  && qlt (2 * Qabs (short_step s))
       (qmin (3 * Qabs (bisection_step s) - root_tolerance s) (Qabs (step_last s))).

(** 306-325: the step, at least of the size of the tolerance *)
Definition advance (s : st) : st :=
  if is_finished s then
    mkSt (best s) (last s) (contra s) (v_best s) (v_last s) (v_contra s)
      0 (bisection_step s) (iters s) true
  else
    let step_l := if use_short_step s then step_best s else bisection_step s in
    let step_b := if use_short_step s then short_step s else bisection_step s in
    let move := if qlt (root_tolerance s) (Qabs step_b) then step_b
                else if qlt 0 (bisection_step s) then root_tolerance s else - root_tolerance s in
    let b := best s + move in
    mkSt b (best s) (contra s) (f b) (v_best s) (v_contra s) step_b step_l (S (iters s)) false.

(** 183-340 [_brent_loop_body] *)
Definition body (s : st) : st := advance (exchange (replace_contrapoint s)).

(** 343-521 [_prepare_brent_args] *)
Definition prepare (left right : Q) (v_left v_right : option Q) : st :=
  let vl := match v_left with Some v => v | None => f left end in
  let vr := match v_right with Some v => v | None => f right end in
  let swap := qlt (Qabs vl) (Qabs vr) in
  let '(b, l) := if swap then (left, right) else (right, left) in
  let '(vb, vl) := if swap then (vl, vr) else (vr, vl) in
  mkSt b l 0 vb vl 0 0 0 0
    (Nat.leb (max_iter P) 0 || Qle_bool (Qabs vb) (ftol P)).

(** 673-681: at most [max_iter] times *)
Fixpoint loop (n : nat) (s : st) : st :=
  match n with
  | O => s
  | S n => if finished s then s else loop n (body s)
  end.

(** 42-61 and 683-691 [BrentResults] *)
Record found := mkFound { root : Q; objective : Q; iterations : nat; converged : bool }.
Definition results (s : st) : found :=
  mkFound (best s) (v_best s) (iters s) (Qle_bool (Qabs (v_best s)) (ftol P)).

(** 647-670: the assertions, if asked for *)
Definition InvalidArgument := UserError 5.
Definition valid_args (s : st) : bool :=
  Qle_bool (v_last s * v_best s) 0 && qlt 0 (atol P) && qlt 0 (rtol P) && Qle_bool 0 (ftol P).

(** 524-691 [_brent] *)
Definition brentq (validate : bool) (left right : Q) (v_left v_right : option Q) : result found :=
  let s := prepare left right v_left v_right in
  if validate && negb (valid_args s) then Err InvalidArgument
  else Ok (results (loop (max_iter P) s)).

(** Several pairs of points at once; the policy is [reduce_all] *)
Fixpoint loop_all (n : nat) (ss : list st) : list st :=
  match n with
  | O => ss
  | S n => if forallb finished ss then ss else loop_all n (map body ss)
  end.
Definition brentq_all (brackets : list (Q * Q)) : list found :=
  map results (loop_all (max_iter P) (map (fun lr => prepare (fst lr) (snd lr) None None) brackets)).
End Objective.

(** 32-36 and 694-707: the defaults: 2e-7, 4 eps of double precision, 2e-7 and 100 *)
Definition default_rtol : Q := 1 # 1125899906842624.
Definition tol_2e7 : Q := 1 # 5000000.

(** improved_sheather_jones.py:110-157 [_find_root], with the function [f] (the difference of t and
    the value that is optimal according to it) and [n] distinct events; [None]: not finished after
    [fuel] turns. *)
Definition first_right (n : nat) : Q :=
  (1 # 100000000000) + (1 # 100) * (inject_Z (Z.max (Z.min 1050 (Z.of_nat n)) 50) - 50) / 1000.
Definition isj_params : params := mkParams 100 (1 # 500000000000) default_rtol tol_2e7.
Fixpoint find_root_from (f : Q -> Q) (right : Q) (fuel : nat) : option Q :=
  match fuel with
  | O => None
  | S fuel =>
      match brentq f isj_params false 0 right None None with
      | Ok r => if converged r then Some (root r - objective r) else find_root_from f (right * 2) fuel
      | Err _ => None
      end
  end.
Definition find_root (f : Q -> Q) (n fuel : nat) : option Q := find_root_from f (first_right n) fuel.

(** util/convolution.py:12-36 [find_practical_support_bandwidth] for a kernel with density [prob] *)
Definition practical_support (prob : Q -> Q) (bandwidth : Q) : result Q :=
  let* r := brentq (fun x => prob x - (1 # 10000)) (mkParams 100 (1 # 1000) default_rtol 0) false
              0 (8 * bandwidth) None None in
  Ok (root r + (1 # 1000)).
