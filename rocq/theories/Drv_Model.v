(** The minimisers that wrap another library: minimizers/minimizers_scipy.py, minimizer_nlopt.py,
    ipopt.py and minimizer_minuit.py, from the wrapped runs to the fit result
    (minimizers/fitresult.py [__init__], [valid], [from_scipy], [from_nlopt], [from_ipopt],
    [from_minuit]).

    - What the wrapped library does, the value of the criterion and the random numbers are
      functions of the number of the run and of what is handed over; the theorems are for all of
      them. A run tells how often the loss has been evaluated so far ([evaluator.niter]).
    - The internal tolerances, that are set before every run, are in DrvTol_Model.v; the limits, the
      gradient and the Hessian that are handed over are not modelled.
    - Values of the parameters are rationals, the criterion is a number of Param_Model.v. *)
From Verif Require Import Base Param_Model.

Definition vec := list Q.
Definition vadd (a b : vec) : vec := map (fun p => fst p + snd p)%Q (combine a b).

(** ** The fit result *)

Record fitres : Type := Fitres {
  f_values : vec; f_edm : option num; f_fmin : option Q; f_converged : option bool; f_flag : bool;
  f_status : Z; f_message : string; f_at_limit : bool; f_niter : nat; f_neval : nat }.

(** fitresult.py:400-439 [__init__]. [at_limit] tells whether a parameter is at its limit with the
    value that it has now, whatever the values of the result are. [approx], the full loss and what
    is stored as given are left out. *)
Definition fit_result (at_limit : bool) (values : vec) (edm : option num) (fmin : option Q) (valid : bool)
    (converged : option bool) (status : option Z) (message : option string) (niter neval : nat) : fitres :=
  let status := match status with Some s => s | None => if valid then 0%Z else (-999)%Z end in
  let converged := match converged with Some c => Some c | None => if valid then Some true else None end in
  let message := match message with
                 | Some m => m
                 | None => if valid then "" else "Invalid, unknown reason (not specified)"
                 end%string in
  Fitres values edm fmin converged (if at_limit then false else valid) status
    (if at_limit then
       ((if String.eqb message "" then message else message ++ " AND ") ++ "parameter(s) at their limit.")%string
     else message)
    at_limit niter neval.

(** 1130-1131 [valid] *)
Definition valid (r : fitres) : bool :=
  f_flag r && negb (f_at_limit r) && match f_converged r with Some true => true | _ => false end.

(** minimizers_scipy.py:342: math.isclose(a, b, rel_tol=1e-4, abs_tol=1e-12). *)
Definition isclose (a b : num) : bool :=
  match a, b with
  | Fin x, Fin y =>
      let absq q := if Qle_bool 0 q then q else (- q)%Q in
      let d := absq (x - y)%Q in
      Qle_bool d ((1 # 10000) * absq x) || Qle_bool d ((1 # 10000) * absq y) || Qle_bool d (1 # 1000000000000)
  | PInf, PInf | NInf, NInf => true
  | _, _ => false
  end.

(** termination.py:34-46 [converged], 28: the tolerance times the errordef. *)
Definition met (tol errordef : Q) (v : num) : bool := num_lt v (Fin (tol * errordef)).

(** ** SciPy *)

(** [scipy.optimize.OptimizeResult], with what an initialiser takes from it ([final_simplex],
    [direc]), and the end of a run: [Exceeds] if the evaluator raises [MaximumIterationReached];
    the parameters are then where the last evaluation left them. *)
Record opt_result : Type := OptResult {
  o_x : vec; o_fun : Q; o_success : option bool; o_status : Z; o_message : option string;
  o_nfev : nat; o_nit : option nat; o_extra : option vec }.
Inductive run_end : Type := Returns (r : opt_result) | Exceeds (at_ : vec).

(** The dictionary [options] for the wrapped minimiser. *)
Definition options := list (string * vec).
Definition opt_get (o : options) (k : string) : option vec := lookup String.eqb k o.
Definition opt_set (o : options) (k : string) (v : vec) : options :=
  (k, v) :: filter (fun p => negb (String.eqb (fst p) k)) o.

(** The initialisers: none (minimizers_scipy.py:101-105; that of BFGS, 641-649, does nothing
    either); Powell 1639-1644 and Nelder-Mead 1917-1922 ([Carry]: an entry of the result of the run
    before is put under the key); trust-ncg 941-949 and trust-constr 1119-1127 ([Radius]); TNC
    1457-1460 ([Scale]). For [Radius], [init.info] never has the key "tr_radius": see 899-907 of
    fitresult.py. *)
Inductive initializer : Type := Plain | Carry (key : string) | Radius (key : string) | Scale (key : string).
Definition mean (l : vec) : Q := (fold_right Qplus 0 l / inject_Z (Z.of_nat (length l)))%Q.
Definition initialize (kind : initializer) (o : options) (before : option (option vec)) (stepsize : vec) : options :=
  match kind with
  | Plain => o
  | Carry key => match before with Some (Some e) => opt_set o key e | _ => o end
  | Radius key => match before with None => opt_set o key [mean stepsize] | Some _ => o end
  | Scale key => opt_set o key stepsize
  end.

(** minimizers_scipy.py:252-254 *)
Definition scipy_maxiter (maxiter : nat) : nat := if Nat.ltb 10 maxiter then maxiter - 3 else maxiter.

(** 1943-1950 [combine_optimize_results]: the last result, with the counts added up ("njev" and
    "nhev", treated in the same way, are left out). "nit" is added up if the last one has it; it is
    then in all of them, as all come from the same method. *)
Definition combine_results (acc : option opt_result) (r : opt_result) : opt_result :=
  match acc with
  | None => r
  | Some a =>
      OptResult (o_x r) (o_fun r) (o_success r) (o_status r) (o_message r) (o_nfev a + o_nfev r)
        (match o_nit r, o_nit a with Some n, Some m => Some (m + n) | n, _ => n end) (o_extra r)
  end.
Definition with_x (r : opt_result) (x : vec) : opt_result :=
  OptResult x (o_fun r) (o_success r) (o_status r) (o_message r) (o_nfev r) (o_nit r) (o_extra r).

(** A fit: its result, the values of the parameters afterwards, the options that the minimiser keeps
    (the dictionary is shared: 217 copies only the outer one) and for every run the options and the
    starting point. *)
Record scipy_fit : Type := ScipyFit {
  s_result : result fitres; s_params : vec; s_options : options; s_log : list (options * vec) }.

Section Scipy.
Variable run : nat -> options -> vec -> run_end * nat.
Variable crit : nat -> vec -> num.
(** The random shift after a run, numpy.random.uniform(...) / 5, and the step sizes for a run. *)
Variable shift : nat -> vec.
Variable stepsize : nat -> vec.
Variable at_limit : vec -> bool.
Variables tol errordef : Q.
Variable maxiter : nat.
Variable kind : initializer.

(** 371-382 with fitresult.py:886-950 [from_scipy]: [r] are the results combined, [x] the values
    that the parameters have, [n] the evaluations of the evaluator. *)
Definition from_scipy (r : opt_result) (x : vec) (edm : num) (message : option string) (valid : bool) (n : nat) : fitres :=
  let converged := match o_success r with Some s => s | None => valid end in
  let message := match message with
                 | None => if negb converged || negb valid then o_message r else None
                 | m => m
                 end in
  fit_result (at_limit x) (o_x r) (Some edm) (Some (o_fun r)) (valid && negb (Nat.ltb maxiter n))
    (Some converged) (Some (o_status r)) message n (o_nfev r).

(** 275-369, the loop; [more] runs may follow this one, the [i]-th. [before] is the extra entry of
    the preliminary result, if there is one. The shift (346) changes the array of the result in
    place, so also what [from_scipy] will report: [with_x]. The numbers in the messages are left
    out. *)
Fixpoint scipy_loop (more i : nat) (start : vec) (acc : option opt_result) (nrandom : nat) (old_edm : num)
    (n_atlim : nat) (before : option (option vec)) (opts : options) (log : list (options * vec)) : scipy_fit :=
  let opts := initialize kind opts before (stepsize i) in
  let log := log ++ [(opts, start)] in
  match run i opts start with
  | (Exceeds at_, _) => ScipyFit (Err MaximumIterationReached) at_ opts log
  | (Returns r, n) =>
      let maxiter_reached := Nat.ltb maxiter n in
      let x := o_x r in
      let acc := combine_results acc r in
      let n_atlim := if at_limit x then S n_atlim else n_atlim in
      let edm := crit i x in
      let converged := met tol errordef edm in
      let close := isclose old_edm edm in
      if close && negb (Nat.ltb nrandom 5) then
        ScipyFit (Ok (from_scipy acc x edm (Some "Stuck (no change in a few iterations)"%string) false n)) x opts log
      else
        let x' := if close then vadd x (shift i) else x in
        let nrandom := if close then S nrandom else nrandom in
        let acc := with_x acc x' in
        if Nat.ltb 4 n_atlim then
          ScipyFit (Ok (from_scipy acc x edm (Some "Parameters too often at limit during minimization."%string)
                          converged n)) x opts log
        else if converged || maxiter_reached then
          ScipyFit (Ok (from_scipy acc x edm None converged n)) x opts log
        else
          match more with
          | 0 => ScipyFit (Ok (from_scipy acc x edm (Some "Invalid, criterion, target not reached."%string) false n))
                   x opts log
          | S more => scipy_loop more (S i) x' (Some acc) nrandom edm n_atlim (Some (o_extra r)) opts log
          end
  end.

(** 207-382 [_minimize]; 174: [_internal_maxiter]. [x0] are the values of the parameters at the
    start, [init] the extra entry of the given result, if there is one. *)
Definition scipy_minimize (opts : options) (init : option (option vec)) (x0 : vec) : scipy_fit :=
  let opts := opt_set opts "maxiter" [inject_Z (Z.of_nat (scipy_maxiter maxiter))] in
  scipy_loop 19 0 x0 None 0 (Fin (-1)) 0 init opts [].
End Scipy.

(** ** NLopt *)

(** The end of [optimize], with the code of the result and the value that NLopt then reports, and
    the evaluations of the evaluator. [NOther] is any other exception (e.g. nlopt.RoundoffLimited). *)
Inductive nl_end : Type := NReturns (x : vec) | NExceeds | NRuntime | NOther (e : error).
Record nl_run : Type := NlRun { n_end : nl_end; n_status : Z; n_value : Q; n_niter : nat }.

(** fitresult.py:1001-1013 *)
Definition nl_message (status : Z) : option string :=
  match status with
  | 1%Z => Some "NLOPT_SUCCESS" | 2%Z => Some "NLOPT_STOPVAL_REACHED" | 3%Z => Some "NLOPT_FTOL_REACHED"
  | 4%Z => Some "NLOPT_XTOL_REACHED" | 5%Z => Some "NLOPT_MAXEVAL_REACHED" | 6%Z => Some "NLOPT_MAXTIME_REACHED"
  | (-1)%Z => Some "NLOPT_FAILURE" | (-2)%Z => Some "NLOPT_INVALID_ARGS" | (-3)%Z => Some "NLOPT_OUT_OF_MEMORY"
  | (-4)%Z => Some "NLOPT_ROUNDOFF_LIMITED" | (-5)%Z => Some "NLOPT_FORCED_STOP"
  | _ => None
  end%string.

Record nl_fit : Type := NlFit { nf_result : result fitres; nf_params : vec; nf_log : list vec }.

Section Nlopt.
Variable run : nat -> vec -> nl_run.
Variable crit : nat -> vec -> num.
(** 301: numpy.random.uniform around the values given. *)
Variable restart : nat -> vec -> vec.
Variable at_limit : vec -> bool.
Variables tol errordef : Q.
Variable is_edm : bool.
Variable maxiter : nat.

(** 348-360 with fitresult.py:990-1045 [from_nlopt]; the approximations are left out. *)
Definition from_nlopt (r : nl_run) (x : vec) (edm : num) (valid : bool) (message : string) : result fitres :=
  match nl_message (n_status r) with
  | None => Err KeyError
  | Some _ =>
      let converged := Z.leb 1 (n_status r) && Z.leb (n_status r) 4 in
      Ok (fit_result (at_limit x) x (if is_edm then Some edm else None) (Some (n_value r))
            (valid && converged && negb (Nat.ltb maxiter (n_niter r))) (Some converged) (Some (n_status r))
            (Some message) (n_niter r) (n_niter r))
  end.

(** minimizer_nlopt.py:250-346. [initial] is [initial_xvalues], which only 299-301 reads. *)
Fixpoint nlopt_loop (more i : nat) (x initial : vec) (nrandom : nat) (maxiter_reached : bool) (message : string)
    (log : list vec) : nl_fit :=
  let log := log ++ [x] in
  let r := run i x in
  let go (x initial : vec) (nrandom : nat) (maxiter_reached : bool) (message : string) : nl_fit :=
    match nl_message (n_status r) with
    | None => NlFit (Err KeyError) x log
    | Some _ =>
        let edm := crit i x in
        let converged := met tol errordef edm in
        if converged || maxiter_reached then NlFit (from_nlopt r x edm converged message) x log
        else
          match more with
          | 0 => NlFit (from_nlopt r x edm false "Invalid, criterion, target not reached."%string) x log
          | S more => nlopt_loop more (S i) x initial nrandom maxiter_reached message log
          end
    end in
  match n_end r with
  | NReturns x => go x initial nrandom (Nat.ltb maxiter (n_niter r)) message
  | NExceeds => go x initial nrandom true "Maxiter reached, terminated without convergence"%string
  | NRuntime =>
      if Nat.ltb nrandom 5 then go x (restart i initial) (S nrandom) maxiter_reached message
      else go x initial nrandom maxiter_reached message
  | NOther e => NlFit (Err e) x log
  end.

(** 180-360 [_minimize] *)
Definition nlopt_minimize (x0 : vec) : nl_fit := nlopt_loop 19 0 x0 x0 0 false "" [].
End Nlopt.

(** ** Ipopt *)

Inductive ip_end : Type := IReturns (x : vec) (fmin : Q) (status : Z) | IExceeds.
Record ip_fit : Type := IpFit { if_result : fitres; if_params : vec; if_log : list vec }.

Section Ipopt.
(** [solve], with the evaluations of the evaluator. *)
Variable run : nat -> vec -> ip_end * nat.
Variable crit : nat -> vec -> num.
Variable at_limit : vec -> bool.
Variables tol errordef : Q.
Variable is_edm : bool.
Variable maxiter : nat.

(** ipopt.py:394-409 with fitresult.py:629-649 [from_ipopt] *)
Definition from_ipopt (x : vec) (fmin : option Q) (status : option Z) (edm : num) (valid converged : bool)
    (message : string) (n : nat) : fitres :=
  fit_result (at_limit x) x (if is_edm then Some edm else None) fmin (valid && converged && negb (Nat.ltb maxiter n))
    (Some converged) status (Some message) n n.

(** ipopt.py:325-388 *)
Fixpoint ipopt_loop (more i : nat) (x : vec) (fmin : option Q) (status : option Z) (log : list vec) : ip_fit :=
  let log := log ++ [x] in
  let '(x, fmin, status, valid, message, maxiter_reached, n) :=
    match run i x with
    | (IReturns x f s, n) => (x, Some f, Some s, true, ""%string, Nat.ltb maxiter n, n)
    | (IExceeds, n) => (x, fmin, status, false, "Maxiter reached, terminated without convergence"%string, true, n)
    end in
  let edm := crit i x in
  let converged := met tol errordef edm in
  if converged || maxiter_reached then IpFit (from_ipopt x fmin status edm valid converged message n) x log
  else
    match more with
    | 0 => IpFit (from_ipopt x fmin status edm false converged "Invalid, criterion, target not reached."%string n) x log
    | S more => ipopt_loop more (S i) x fmin status log
    end.

(** ipopt.py:233-409 [_minimize] *)
Definition ipopt_minimize (x0 : vec) : ip_fit := ipopt_loop 19 0 x0 None None [].
End Ipopt.

(** ** Minuit *)

(** [iminuit.Minuit] after a [migrad]: values, edm, flags, value of the loss, calls so far and where
    the last evaluation left the parameters. *)
Record mi_run : Type := MiRun {
  m_x : vec; m_edm : num; m_above : bool; m_valid : bool; m_fval : Q; m_nfcn : nat; m_left : vec }.
Record mi_fit : Type := MiFit { mf_result : fitres; mf_params : vec; mf_migrads : nat; mf_calls : nat }.

Section Minuit.
(** The [i]-th migrad; [ncall] is handed over (0 for no limit). minimizer_minuit.py:139, 152: the
    [maxiter] of the user becomes [ncall], the evaluator never stops (its limit is 1e20). *)
Variable run : nat -> nat -> mi_run.
Variable calls : nat -> nat -> nat.
(** The criterion, if it is not the EDM. *)
Variable crit : option (nat -> vec -> num).
Variable at_limit : vec -> bool.
Variables tol errordef : Q.
Variable maxiter : option nat.

Definition ncall : nat := match maxiter with Some n => n | None => 0 end.

(** 232-240 with fitresult.py:735-787 [from_minuit]; [params] are the values of the parameters. *)
Definition from_minuit (r : mi_run) (params : vec) (valid : bool) : fitres :=
  fit_result (at_limit params) (m_x r) (Some (m_edm r)) (Some (m_fval r)) (m_valid r && valid)
    (Some (negb (m_above r))) None (Some ""%string) (m_nfcn r) (m_nfcn r).

(** minimizer_minuit.py:182-230 *)
Fixpoint minuit_loop (more i called : nat) : mi_fit :=
  let r := run i ncall in
  let called := called + calls i ncall in
  let converged := match crit with None => negb (m_above r) | Some c => met tol errordef (c i (m_x r)) end in
  if converged then MiFit (from_minuit r (m_x r) true) (m_x r) (S i) called
  else
    match more with
    | 0 => MiFit (from_minuit r (m_left r) false) (m_left r) (S i) called
    | S more => minuit_loop more (S i) called
    end.

(** 170-240 [_minimize]; 136: [_internal_maxiter] *)
Definition minuit_minimize : mi_fit := minuit_loop 19 0 0.
End Minuit.
