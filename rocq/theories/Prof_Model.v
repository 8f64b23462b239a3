(** Model of [compute_errors] (minimizers/errors.py:50-279): asymmetric errors by profiling the loss. *)
From Verif Require Import Base.
From Coq Require Import QArith Qabs.
#[local] Open Scope nat_scope.

(** The limits of a parameter; core/parameter.py:508-514 [Parameter.value] clips the stored value to them. *)
Definition bounds := (option Q * option Q)%type.
Definition clip (b : bounds) (v : Q) : Q :=
  let v := match fst b with Some l => if Qle_bool l v then v else l | None => v end in
  match snd b with Some u => if Qle_bool v u then v else u | None => v end.
(** minimizers/errors.py:147: [ap_value_init < ap.lower or ap_value_init > ap.upper] *)
Definition outside (b : bounds) (v : Q) : bool :=
  match fst b with Some l => negb (Qle_bool l v) | None => false end || match snd b with Some u => negb (Qle_bool v u) | None => false end.

(** A root finder of SciPy: it evaluates the function at points of its choice, depending on what it got so far, and ends with a point
    or with an exception. *)
Inductive solver :=
| SDone (x : list Q)
| SEval (x : list Q) (k : list Q -> solver)
| SFail (e : error).

(** A fit result as far as it is used: the values of all parameters, the minimum, and what [covariance] gives for a method (None: the
    computation failed). *)
Record fitres := mkFit { f_vals : list Q; f_min : Q; f_cov : option string -> option (nat -> nat -> Q) }.
(** The surroundings: limits, loss with gradient at the values the parameters have (an error for e.g. NaN), errordef, the minimiser with
    its tolerance, the solvers, random numbers, the square root and the quantile of the chi2 distribution. *)
Record setting := mkSetting {
  s_bounds : list bounds;
  s_loss : list Q -> result (Q * list Q);
  s_errordef : Q;
  s_tol : Q;
  s_minimize : list Q -> result fitres;
  s_solver : nat -> bool -> list Q -> solver;
  s_random : nat -> list Q;
  s_sqrt : Q -> Q;
  s_quantile : Q -> Q }.
(** The stored values of the parameters and the variables [ncalls], [ntol] and [root]. *)
Record pstate := mkP { p_vals : list Q; p_ncalls : nat; p_ntol : nat; p_root : option Q }.

Definition read_all (S : setting) (vals : list Q) : list Q := map (fun p => clip (fst p) (snd p)) (combine (s_bounds S) vals).
(** core/parameter.py:1484-1509 [assign_values]: the values are stored as they are *)
Definition assign (st : pstate) (vals : list Q) : pstate := mkP vals (p_ncalls st) (p_ntol st) (p_root st).

(** minimizers/errors.py:140-160: a start value in the limits; the step shrinks to 0.8 at most 50 times. *)
Fixpoint shrink (n : nat) (b : bounds) (v step : Q) : result Q :=
  match n with
  | O => Err RuntimeError
  | S n => if outside b (v + step)%Q then shrink n b v (step * (4 # 5))%Q else Ok (v + step)%Q
  end.
Definition start_value (S : setting) (b : bounds) (v cov var sigma : Q) (upper : bool) : result Q :=
  let error_factor := (cov * s_sqrt S (2 * s_errordef S / (s_sqrt S var * s_sqrt S var)))%Q in
  shrink 50 b v ((if upper then 1 else -(1)) * error_factor * sigma)%Q.
Definition start_values (S : setting) (r : fitres) (cov : nat -> nat -> Q) (sigma : Q) (poi : nat) (upper : bool) : result (list Q) :=
  mapM (fun i => start_value S (nth i (s_bounds S) (None, None)) (nth i (f_vals r) 0%Q) (cov poi i) (cov poi poi) sigma upper)
       (seq 0 (length (f_vals r))).

Definition remove_nth {A} (k : nat) (l : list A) : list A := firstn k l ++ skipn (k + 1) l.

(** minimizers/errors.py:188-228: the function given to the solver *)
Inductive answer := Value (out : list Q) | RootFound | NewMinimum | Failed (e : error).
Definition func (S : setting) (r : fitres) (sigma rtol : Q) (poi : nat) (upper : bool) (st : pstate) (values : list Q) : pstate * answer :=
  if negb (Nat.eqb (length values) (length (f_vals r))) then (st, Failed ValueError)
  else
  let st := mkP values (Datatypes.S (p_ncalls st)) (p_ntol st) (p_root st) in
  let now := read_all S values in
  let ev := match s_loss S now with
            | Ok (l, g) => Ok (l, remove_nth poi g)
            | Err InvalidArgumentError => Ok (9999999999%Q, s_random S (p_ncalls st))
            | Err e => Err e
            end in
  match ev with
  | Err e => (st, Failed e)
  | Ok (l, g) =>
      let zeroed := (l - f_min r)%Q in
      let p := nth poi now 0%Q in
      let pval := nth poi (f_vals r) 0%Q in
      let swap := if upper then negb (Qle_bool pval p) else negb (Qle_bool p pval) in
      if negb swap && negb (Qle_bool (- (s_tol S * s_errordef S * 2)) zeroed) then (st, NewMinimum)
      else
        let zeroed := if swap then (- zeroed)%Q else zeroed in
        let g := if swap then map Qopp g else g in
        let shifted := (zeroed - s_errordef S * (sigma * sigma))%Q in
        if negb (Qle_bool rtol (Qabs shifted)) then
          if Nat.ltb 3 (p_ntol st) then (mkP values (p_ncalls st) (p_ntol st) (Some (nth poi values 0%Q)), RootFound)
          else (mkP values (p_ncalls st) (Datatypes.S (p_ntol st)) (p_root st), Value (shifted :: g))
        else (mkP values (p_ncalls st) 0 (p_root st), Value (shifted :: g))
  end.

(** [optimize.root] *)
Inductive ending := Solved (x : list Q) | Found | Lower | Broke (e : error).
Fixpoint run (S : setting) (r : fitres) (sigma rtol : Q) (poi : nat) (upper : bool) (t : solver) (st : pstate) : pstate * ending :=
  match t with
  | SDone x => (st, Solved x)
  | SFail e => (st, Broke e)
  | SEval x k => match func S r sigma rtol poi upper st x with
                 | (st, Value out) => run S r sigma rtol poi upper (k out) st
                 | (st, RootFound) => (st, Found)
                 | (st, NewMinimum) => (st, Lower)
                 | (st, Failed e) => (st, Broke e)
                 end
  end.

(** minimizers/errors.py:238-262: one direction; the flag tells whether the warning is given that the solver stopped by its own
    criteria. *)
Inductive outcome (A : Type) := Done (a : A) | Restart | Stop (e : error).
Arguments Done {A}. Arguments Restart {A}. Arguments Stop {A}.
Definition one_side (S : setting) (r : fitres) (sigma rtol : Q) (poi : nat) (upper : bool) (x0 : list Q) (st : pstate)
  : pstate * outcome (Q * bool) :=
  match run S r sigma rtol poi upper (s_solver S poi upper x0) st with
  | (st, Found) => match p_root st with
                   | Some x => (st, Done ((x - nth poi (f_vals r) 0)%Q, false))
                   | None => (st, Stop AssertionError)
                   end
  | (st, Solved x) => let x := nth poi x 0%Q in
                      (mkP (p_vals st) (p_ncalls st) (p_ntol st) (Some x), Done ((x - nth poi (f_vals r) 0)%Q, true))
  | (st, Lower) => (st, Restart)
  | (st, Broke e) => (st, Stop e)
  end.

(** The two errors of a parameter, each with its warning. *)
Record perror := mkPErr { e_param : nat; e_lower : Q; e_lower_warned : bool; e_upper : Q; e_upper_warned : bool }.

(** minimizers/errors.py:131-262: one parameter; one that is not among those of the result is a KeyError at 134. *)
Definition one_param (S : setting) (r : fitres) (cov : nat -> nat -> Q) (sigma rtol : Q) (poi : nat) (st : pstate)
  : pstate * outcome perror :=
  let st := assign st (f_vals r) in
  if negb (Nat.ltb poi (length (f_vals r))) then (st, Stop KeyError) else
  match start_values S r cov sigma poi false, start_values S r cov sigma poi true with
  | Ok lo, Ok up =>
      match s_loss S (read_all S (p_vals st)) with
      | Err e => (st, Stop e)
      | Ok _ =>
          let st := mkP (p_vals st) (p_ncalls st) 999 None in
          match one_side S r sigma rtol poi false lo st with
          | (st, Done (l, wl)) =>
              match one_side S r sigma rtol poi true up st with
              | (st, Done (u, wu)) => (st, Done (mkPErr poi l wl u wu))
              | (st, Restart) => (st, Restart)
              | (st, Stop e) => (st, Stop e)
              end
          | (st, Restart) => (st, Restart)
          | (st, Stop e) => (st, Stop e)
          end
      end
  | Err e, _ => (st, Stop e)
  | _, Err e => (st, Stop e)
  end.
(** The loop 130-262 and the final assignment 264. *)
Fixpoint all_of_them (S : setting) (r : fitres) (cov : nat -> nat -> Q) (sigma rtol : Q) (ps : list nat) (st : pstate)
  : pstate * outcome (list perror) :=
  match ps with
  | [] => (assign st (f_vals r), Done [])
  | p :: ps => match one_param S r cov sigma rtol p st with
               | (st, Done e) => match all_of_them S r cov sigma rtol ps st with
                                 | (st, Done es) => (st, Done (e :: es))
                                 | x => x
                                 end
               | (st, Restart) => (st, Restart)
               | (st, Stop e) => (st, Stop e)
               end
  end.

(** minimizers/errors.py:90-101: the number of standard deviations *)
Definition level (S : setting) (cl sigma : option Q) : result Q :=
  match cl, sigma with
  | None, None => Ok 1%Q
  | None, Some s => Ok s
  | Some c, None => Ok (s_sqrt S (s_quantile S c))
  | Some _, Some _ => Err ValueError
  end.

(** minimizers/errors.py:50-279 [compute_errors]; [depth] is what is left of Python's recursion limit. Of the messages, only the warnings
    of [one_side] are modelled; the minimiser leaves the parameters at the values of its result. *)
Fixpoint compute_errors (depth : nat) (S : setting) (r : fitres) (ps : list nat) (cl sigma rtol : option Q) (covm : option string)
  (st : pstate) : pstate * result (list perror * option fitres) :=
  match depth with
  | O => (st, Err RuntimeError)
  | Datatypes.S depth =>
      match level S cl sigma with
      | Err e => (st, Err e)
      | Ok sg =>
          let rt := ((match rtol with Some t => t | None => 3 # 1000 end) * s_errordef S)%Q in
          match match f_cov r covm with Some c => Some c | None => f_cov r (Some "hesse_np"%string) end with
          | None => (st, Err RuntimeError)
          | Some cov =>
              match all_of_them S r cov sg rt ps st with
              | (st, Done es) => (st, Ok (es, None))
              | (st, Stop e) => (st, Err e)
              | (st, Restart) =>
                  match s_loss S (read_all S (p_vals st)) with
                  | Err e => (st, Err e)
                  | Ok (newmin, _) =>
                      match s_minimize S (p_vals st) with
                      | Err e => (st, Err e)
                      | Ok r' =>
                          let st := assign st (f_vals r') in
                          if Qle_bool (newmin + s_tol S * s_errordef S * 2) (f_min r') then (st, Err RuntimeError)
                          else match compute_errors depth S r' ps cl None (Some rt) None st with
                               | (st, Ok (es, Some r'')) => (st, Ok (es, Some r''))
                               | (st, Ok (es, None)) => (st, Ok (es, Some r'))
                               | (st, Err e) => (st, Err e)
                               end
                      end
                  end
              end
          end
      end
  end.
