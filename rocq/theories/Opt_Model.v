(** Model of the options for numerical integration: zfit/core/basemodel.py [DEFAULTS_integration], [update_integration_options],
    [_auto_numeric_integrate], and [Integration] of zfit/core/integration.py.

    Simplifications, everywhere in this file:
    - the logarithms of the tolerance are any functions: [log10_ a] is [int(abs(math.log10(a)))], [logexp a] is
      [int(abs(math.log(a)))], [power06 n] is [int(n ** 0.6)], [simpson_points a] is
      [int(10 + 100 * (l + 1) + 1.8**l)] with [l = abs(math.log10(a))];
      they raise a ValueError for zero;
    - the sampler is any value. *)
From Verif Require Import Base.
Open Scope list_scope.

(** A number of draws, or 'auto' *)
Inductive setting := Auto | Num (n : nat).
Definition UnboundLocalError := UserError 14.

Section Options.
Context {Sampler : Type}.
Variables (log10_ logexp simpson_points : Q -> nat) (power06 : nat -> nat).

(** core/integration.py:764-770 *)
Record options := mkO {
  o_sampler : Sampler; o_draws : setting; o_simpson : option setting; o_max : nat; o_tol : Q }.

(** core/basemodel.py:275-281: the table (279) ends at 4, everything else is without a limit *)
Definition table (l : nat) : option nat :=
  match l with 0 => Some 10 | 1 => Some 15 | 2 => Some 150 | 3 => Some 300 | 4 => Some 600 | _ => None end%nat.
Definition auto_draws (tol : Q) (max_draws : nat) : result nat :=
  if Qeq_bool tol 0 then Err ValueError
  else
    let high := Nat.pow 20 (power06 (Nat.max (logexp tol) 2)) in
    let draws := match table (log10_ tol) with Some t => Nat.min t high | None => high end in
    Ok (Nat.min draws max_draws).
(** 285-288 *)
Definition auto_simpson (tol : Q) : result nat :=
  if Qeq_bool tol 0 then Err ValueError else Ok (simpson_points (tol * (5 # 1000))).

Definition set_draws (o : options) (d : setting) := mkO (o_sampler o) d (o_simpson o) (o_max o) (o_tol o).
Definition set_sampler (o : options) (s : Sampler) := mkO s (o_draws o) (o_simpson o) (o_max o) (o_tol o).
Definition set_max (o : options) (m : nat) := mkO (o_sampler o) (o_draws o) (o_simpson o) m (o_tol o).
Definition set_tol (o : options) (t : Q) := mkO (o_sampler o) (o_draws o) (o_simpson o) (o_max o) t.
Definition set_simpson (o : options) (d : setting) := mkO (o_sampler o) (o_draws o) (Some d) (o_max o) (o_tol o).
Definition given {A} (f : options -> A -> options) (o : options) (x : option A) : options :=
  match x with Some x => f o x | None => o end.

(** 285-290 *)
Definition update_simpson (o : options) (simpson : option setting) : options * result unit :=
  match simpson with
  | None => (o, Ok tt)
  | Some (Num n) => (set_simpson o (Num n), Ok tt)
  | Some Auto => match auto_simpson (o_tol o) with
                 | Ok n => (set_simpson o (Num n), Ok tt)
                 | Err e => (o, Err e)
                 end
  end.
(** 246-290 [update_integration_options]; the local variable [draws] has a value for 'auto' only (275-283) *)
Definition update (o : options) (draws : option setting) (sampler : option Sampler) (tol : option Q)
  (max_draws : option nat) (simpson : option setting) : options * result unit :=
  let o := given set_max (given set_sampler (given set_draws o draws) sampler) max_draws in
  let bad := match tol with Some t => negb (Qle_bool t 1) || negb (Qle_bool 0 t) | None => false end in
  if bad then (o, Err ValueError)
  else
    let o := given set_tol o tol in
    match draws with
    | None => update_simpson o simpson
    | Some (Num _) => (o, Err UnboundLocalError)
    | Some Auto => match auto_draws (o_tol o) (o_max o) with
                   | Ok n => update_simpson (set_draws o (Num n)) simpson
                   | Err e => (o, Err e)
                   end
    end.

(** 95-103 and 128-141: the defaults, which belong to the class, and the options of a new model *)
Definition create (sampler : Sampler) (draws simpson : setting) (max_draws : nat) (tol : Q) : result options :=
  match update (mkO sampler draws None max_draws tol) (Some draws) None None None (Some simpson) with
  | (o, Ok _) => Ok o
  | (_, Err e) => Err e
  end.

(** 1003-1040 [_auto_numeric_integrate]: what it gives to the integration; for integrals of many bins, fewer draws (1016-1020) *)
Record used := mkU { u_sampler : Sampler; u_draws : nat; u_simpson : nat; u_max : nat; u_tol : Q }.
Definition fewer (binned : bool) (n : nat) : nat := if binned then Nat.max (Nat.div n 30) 10 else n.
Definition use (o : options) (binned : bool) : result used :=
  match o_draws o, o_simpson o with
  | Num d, Some (Num s) => Ok (mkU (o_sampler o) (fewer binned d) (fewer binned s) (o_max o) (o_tol o))
  | _, _ => Err TypeError
  end.

(** 1001 [z.function]: a model with the function that was compiled, if any, for each of the two kinds of integrals; it is compiled with the options of
    the first call. The arguments are the same in each call. By default models are compiled as a part of something else only (z/zextension.py:166-176),
    such as the value of a loss; alone with [zfit.run.set_graph_mode(True)]. *)
Record model := mkM { m_options : options; m_compiled : bool -> option (result used) }.
Definition m_update (m : model) (draws : option setting) (sampler : option Sampler) (tol : option Q)
  (max_draws : option nat) (simpson : option setting) : model * result unit :=
  let (o, r) := update (m_options m) draws sampler tol max_draws simpson in (mkM o (m_compiled m), r).
Definition integrate (graph : bool) (m : model) (binned : bool) : model * result used :=
  if graph then
    match m_compiled m binned with
    | Some u => (m, u)
    | None =>
        let u := use (m_options m) binned in
        (match u with
         | Ok _ => mkM (m_options m) (fun b => if Bool.eqb b binned then Some u else m_compiled m b)
         | Err _ => m
         end, u)
    end
  else (m, use (m_options m) binned).
End Options.
Arguments options : clear implicits.
Arguments used : clear implicits.
Arguments model : clear implicits.
