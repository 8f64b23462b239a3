(** What is said about the minimisers that wrap another library (Drv_Model.v). *)
From Verif Require Import Base Param_Model Drv_Model.

(** The criterion is met: its value is a number below the tolerance times the errordef. *)
Definition below (tol errordef : Q) (v : num) : Prop :=
  match v with Fin q => (q < tol * errordef)%Q | NInf => True | PInf | NaN => False end.

(** ** SciPy *)

(** One run of the wrapped minimiser, and that these are the runs from the first on. *)
Record round : Type := Round { d_options : options; d_start : vec; d_result : opt_result; d_niter : nat }.
Definition rounds_of (run : nat -> options -> vec -> run_end * nat) (h : list round) : Prop :=
  forall i d, nth_error h i = Some d -> run i (d_options d) (d_start d) = (Returns (d_result d), d_niter d).
Definition entry (d : round) : options * vec := (d_options d, d_start d).
Definition end_of (d : round) : vec := o_x (d_result d).
Definition evaluations (h : list round) : nat := fold_right Nat.add 0 (map (fun d => o_nfev (d_result d)) h).

(** The value of the criterion after the [i]-th run of [h]; -1 before the first. *)
Definition crit_before (crit : nat -> vec -> num) (h : list round) (i : nat) : num :=
  match i with
  | 0 => Fin (-1)
  | S j => match nth_error h j with Some d => crit j (end_of d) | None => Fin (-1) end
  end.

(** The run number [i + 1] starts where the one before ended, or beside it if the criterion has
    hardly changed in that run. *)
Definition next_start (crit : nat -> vec -> num) (shift : nat -> vec) (h : list round) (i : nat) (d : round) : vec :=
  if isclose (crit_before crit h i) (crit i (end_of d)) then vadd (end_of d) (shift i) else end_of d.
Definition starts (crit : nat -> vec -> num) (shift : nat -> vec) (x0 : vec) (h : list round) : Prop :=
  (forall d, nth_error h 0 = Some d -> d_start d = x0) /\
  (forall i d e, nth_error h i = Some d -> nth_error h (S i) = Some e -> d_start e = next_start crit shift h i d).

(** ** NLopt, Ipopt: where a run ends *)

Definition nl_ends (r : nl_run) (start : vec) : vec := match n_end r with NReturns x => x | _ => start end.
Definition ip_ends (e : ip_end) (start : vec) : vec := match e with IReturns x _ _ => x | IExceeds => start end.

(** The evaluator counts: it raises exactly if the limit is exceeded. *)
Definition ip_counts (run : nat -> vec -> ip_end * nat) (maxiter : nat) : Prop :=
  forall i s, match run i s with (IReturns _ _ _, n) => n <= maxiter | (IExceeds, n) => maxiter < n end.
Definition nl_counts (run : nat -> vec -> nl_run) (maxiter : nat) : Prop :=
  forall i s, match n_end (run i s) with NExceeds => maxiter < n_niter (run i s) | _ => n_niter (run i s) <= maxiter end.
