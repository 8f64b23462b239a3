(** Model of the derivatives of a loss: the methods [gradient], [value_gradient], [hessian] and
    [value_gradient_hessian] of zfit/core/loss.py, and the functions of zfit/z/math.py they call.

    Simplifications, everywhere in this file:
    - numbers are exact rationals;
    - numdifftools and the automatic differentiation of TensorFlow are not part of zfit. The first
      is any procedure that asks for values of a function at points it chooses, one after the
      other, and finally returns something ([strategy]); the second is any function of the
      function, the parameters and the values ([ad_gradient], [ad_hessian]);
    - a Hessian is the list of its entries, or of its diagonal entries;
    - the loss has been evaluated before, so that [check_precompile] (loss.py:385-413) does
      nothing, and its value is a function of the values of all parameters;
    - eager mode: an exception of the function is passed on as it is. *)
From Verif Require Import Base.

(** A [Parameter]: the value that is stored and the limits (core/parameter.py:347-421). *)
Record cell := mkCell { c_raw : Q; c_low : option Q; c_up : option Q }.

(** core/parameter.py:508-514 [value]: maximum(minimum(v, upper), lower) *)
Definition c_value (c : cell) : Q :=
  let v := match c_up c with
           | Some u => if Qle_bool (c_raw c) u then c_raw c else u
           | None => c_raw c
           end in
  match c_low c with
  | Some l => if Qle_bool l v then v else l
  | None => v
  end.

(** All parameters that exist. *)
Definition store := list cell.
Definition view (st : store) : list Q := map c_value st.

(** What can be given as a parameter: an independent one (its place in the store) or a composed
    one. *)
Inductive par := Indep (i : nat) | Composed (k : nat).
Definition par_eqb (a b : par) : bool :=
  match a, b with
  | Indep i, Indep j => Nat.eqb i j
  | Composed i, Composed j => Nat.eqb i j
  | _, _ => false
  end.

Fixpoint update {A} (l : list A) (i : nat) (a : A) : list A :=
  match l, i with
  | [], _ => []
  | _ :: r, 0 => a :: r
  | x :: r, S i => x :: update r i a
  end.

(** core/parameter.py:623-632 [assign]: no checks *)
Definition assign (st : store) (i : nat) (v : Q) : store :=
  match nth_error st i with
  | Some c => update st i (mkCell v (c_low c) (c_up c))
  | None => st
  end.

(** Exceptions of zfit that are not in Base: LogicalUndefinedOperationError,
    AutogradNotSupported, WorkInProgressError (zfit/util/exception.py). *)
Definition LogicalUndefinedOperationError := UserError 1.
Definition AutogradNotSupported := UserError 2.
Definition WorkInProgressError := UserError 3.

(** core/parameter.py:1476-1480 [assign_values_jit] and, for a composed parameter, 894-900 *)
Fixpoint assign_loop (ps : list par) (xs : list Q) (st : store) : result unit * store :=
  match ps, xs with
  | Indep i :: ps', x :: xs' => assign_loop ps' xs' (assign st i x)
  | Composed _ :: _, _ :: _ => (Err LogicalUndefinedOperationError, st)
  | _, _ => (Ok tt, st)
  end.

(** core/parameter.py:1483-1509 [assign_values] with 1575-1577 and 1612-1625 of
    [check_convert_param_values_assign] *)
Definition assign_values (ps : list par) (xs : list Q) (st : store) : result unit * store :=
  match ps with
  | [] => (Ok tt, st)
  | _ => if Nat.eqb (length ps) (length xs) then assign_loop ps xs st else (Err ValueError, st)
  end.

(** A procedure that looks at a function only through its values. *)
Inductive strategy (R : Type) :=
| Return (r : R)
| Ask (x : list Q) (k : Q -> strategy R).
Arguments Return {R} r.
Arguments Ask {R} x k.

(** z/math.py:58-60 and 121-124 [wrapped_func], called by numdifftools at the points it chooses *)
Fixpoint run_strategy {R} (func : list Q -> result Q) (ps : list par) (s : strategy R) (st : store)
  : result R * store :=
  match s with
  | Return r => (Ok r, st)
  | Ask x k =>
      match assign_values ps x st with
      | (Err e, st1) => (Err e, st1)
      | (Ok _, st1) =>
          match func (view st1) with
          | Err e => (Err e, st1)
          | Ok y => run_strategy func ps (k y) st1
          end
      end
  end.

(** core/parameter.py:595-619 [set_value] of an independent parameter. The tolerance of the test
    of the limits (492-501) is left out. *)
Definition outside (c : cell) (v : Q) : bool :=
  match c_low c with Some l => negb (Qle_bool l v) | None => false end
  || match c_up c with Some u => negb (Qle_bool v u) | None => false end.
Fixpoint set_loop (pv : list (nat * Q)) (st : store) : result unit * store :=
  match pv with
  | [] => (Ok tt, st)
  | (i, v) :: r =>
      match nth_error st i with
      | Some c => if outside c v then (Err ValueError, st) else set_loop r (assign st i v)
      | None => set_loop r st
      end
  end.

(** util/temporary.py [TemporarilySet] as used by core/baseobject.py:201-207: the old values are
    read, the new ones are set, the body is run and the old values are set again, also after an
    exception. *)
Definition with_values {R} (pv : list (nat * Q)) (body : store -> result R * store) (st : store)
  : result R * store :=
  let old := map (fun iv => (fst iv, nth (fst iv) (view st) 0%Q)) pv in
  match set_loop pv st with
  | (Err e, st1) => (Err e, st1)
  | (Ok _, st1) =>
      let (r, st2) := body st1 in
      match set_loop old st2 with
      | (Err e, st3) => (Err e, st3)
      | (Ok _, st3) => (r, st3)
      end
  end.

(** A loss.
    [l_value full]: the value as a function of the values of all parameters;
    [l_params]: [get_params(floating=None, is_yield=None, extract_independent=None)];
    [l_default]: [get_params()];
    [l_autograd]: [get_params(autograd=True, floating=None, ...)], for a [SimpleLoss] an
    exception (loss.py:1432-1446 and core/baseobject.py:162-169);
    [l_numgrad], [l_numhess]: the options (loss.py:274-278);
    [l_grad], [l_hess]: the functions given to a [SimpleLoss] (loss.py:1448-1460). *)
Record loss := mkLoss {
  l_value : bool -> list Q -> result Q;
  l_params : list par;
  l_default : list par;
  l_autograd : result (list par);
  l_numgrad : bool;
  l_numhess : bool;
  l_grad : option (list par -> list Q -> result (list Q));
  l_hess : option (list par -> list Q -> result (list Q)) }.

(** loss.py:267-293 [_check_init_options]: the options numgrad and numhess;
    [settings.options.numerical_grad] is the third argument *)
Definition init_numgrad (given : option bool) (global : bool) : bool :=
  match given with Some b => b | None => global end.
Definition init_numhess (given : option bool) : bool :=
  match given with Some b => b | None => true end.

Inductive hess := Full | Diag.

Section Derivatives.
(** the values of the composed parameters, given the values of the independent ones *)
Variable comp : nat -> list Q -> Q.
(** numdifftools.Gradient (z/math.py:73) and numdifftools.Hessian or Hessdiag (z/math.py:128-143),
    started at a point *)
Variable nd_gradient : list Q -> strategy (list Q).
Variable nd_hessian : hess -> list Q -> strategy (list Q).
(** tf.GradientTape: z/math.py:251-262, 317-348 *)
Variable ad_gradient : (list Q -> result Q) -> list par -> list Q -> result (list Q).
Variable ad_hessian : hess -> (list Q -> result Q) -> list par -> list Q -> result (list Q).

Definition par_value (st : store) (p : par) : Q :=
  match p with Indep i => nth i (view st) 0%Q | Composed k => comp k (view st) end.

(** z/math.py:61-80 and 121-158: run, then assign the values of before *)
Definition numerical {R} (nd : list Q -> strategy R) (func : list Q -> result Q) (ps : list par)
    (st : store) : result R * store :=
  let x0 := map (par_value st) ps in
  match run_strategy func ps (nd x0) st with
  | (Err e, st1) => (Err e, st1)
  | (Ok g, st1) =>
      match assign_values ps x0 st1 with
      | (Err e, st2) => (Err e, st2)
      | (Ok _, st2) => (Ok g, st2)
      end
  end.
(** z/math.py:44-80 *)
Definition numerical_gradient func ps st := numerical nd_gradient func ps st.
(** z/math.py:104-158 *)
Definition numerical_hessian h func ps st := numerical (nd_hessian h) func ps st.
(** z/math.py:83-96 *)
Definition numerical_value_gradient (func : list Q -> result Q) (ps : list par) (st : store)
  : result (Q * list Q) * store :=
  match func (view st) with
  | Err e => (Err e, st)
  | Ok v =>
      match numerical_gradient func ps st with
      | (Err e, st1) => (Err e, st1)
      | (Ok g, st1) => (Ok (v, g), st1)
      end
  end.
(** z/math.py:161-187; the argument [gradient] is not used *)
Definition numerical_value_gradient_hessian h (func : list Q -> result Q) (ps : list par)
    (st : store) : result (Q * list Q * list Q) * store :=
  match numerical_value_gradient func ps st with
  | (Err e, st1) => (Err e, st1)
  | (Ok vg, st1) =>
      match numerical_hessian h func ps st1 with
      | (Err e, st2) => (Err e, st2)
      | (Ok m, st2) => (Ok (vg, m), st2)
      end
  end.

(** loss.py:439-449 [_input_check_params] *)
Definition is_indep (p : par) : bool := match p with Indep _ => true | Composed _ => false end.
Definition input_check_params (L : loss) (params : option (list par)) (only_independent : bool)
  : result (list par) :=
  let ps := match params with None => l_default L | Some l => l end in
  if only_independent && negb (forallb is_indep ps) then Err ValueError
  else if negb (subsetb par_eqb ps (l_params L)) then Err ValueError
  else Ok ps.

(** loss.py:857-869 [_check_assert_autograd] *)
Definition check_assert_autograd (L : loss) (ps : list par) : result unit :=
  let* ok := l_autograd L in
  if subsetb par_eqb ps ok then Ok tt else Err AutogradNotSupported.

(** A function of the values, as a computation that does not change the parameters. *)
Definition pure {R} (r : list Q -> result R) (st : store) : result R * store := (r (view st), st).

(** core/baseobject.py:209-236: the parameters of [paramvals] have to be independent parameters of
    the loss; then [_check_set_input_params] *)
Definition with_paramvals {R} (L : loss) (pv : list (nat * Q)) (body : store -> result R * store)
    (st : store) : result R * store :=
  if subsetb par_eqb (map (fun iv => Indep (fst iv)) pv) (l_params L)
  then with_values pv body st
  else (Err ValueError, st).

(** loss.py:645-652 [_fallback_gradient] *)
Definition fallback_gradient (L : loss) (ps : list par) (numgrad : bool) (st : store)
  : result (list Q) * store :=
  if numgrad then numerical_gradient (l_value L false) ps st
  else pure (fun v => let* _ := check_assert_autograd L ps in ad_gradient (l_value L false) ps v) st.
(** loss.py:629-636 [_call_gradient] and 1448-1453 *)
Definition call_gradient (L : loss) (ps : list par) (numgrad : bool) (st : store)
  : result (list Q) * store :=
  match l_grad L with
  | Some g => pure (g ps) st
  | None => fallback_gradient L ps numgrad st
  end.
(** loss.py:599-627 [gradient] *)
Definition gradient (L : loss) (params : option (list par)) (numgrad : option bool)
    (paramvals : list (nat * Q)) (st : store) : result (list Q) * store :=
  match input_check_params L params true with
  | Err e => (Err e, st)
  | Ok ps =>
      let n := match numgrad with None => l_numgrad L | Some b => b end in
      with_paramvals L paramvals (call_gradient L ps n) st
  end.

(** loss.py:711-720 [_fallback_value_gradient] *)
Definition fallback_value_gradient (L : loss) (ps : list par) (numgrad full : bool) (st : store)
  : result (Q * list Q) * store :=
  if numgrad then numerical_value_gradient (l_value L full) ps st
  else pure (fun v => let* _ := check_assert_autograd L ps in
                      let* y := l_value L full v in
                      let* g := ad_gradient (l_value L full) ps v in Ok (y, g)) st.
(** loss.py:695-702 [_call_value_gradient] *)
Definition call_value_gradient (L : loss) (ps : list par) (numgrad full : bool) (st : store)
  : result (Q * list Q) * store :=
  match l_grad L with
  | Some g => pure (fun v => let* gr := g ps v in let* y := l_value L full v in Ok (y, gr)) st
  | None => fallback_value_gradient L ps numgrad full st
  end.
(** loss.py:654-693 [value_gradient]: the argument [numgrad] is overwritten (687). The default of
    [full] is True (DEFAULT_FULL_ARG, loss.py:70). *)
Definition value_gradient (L : loss) (params : option (list par)) (full : option bool)
    (numgrad : option bool) (paramvals : list (nat * Q)) (st : store)
  : result (Q * list Q) * store :=
  match input_check_params L params false with
  | Err e => (Err e, st)
  | Ok ps =>
      let n := l_numgrad L in
      let f := match full with None => true | Some b => b end in
      with_paramvals L paramvals (call_value_gradient L ps n f) st
  end.

(** loss.py:760-767 [_fallback_hessian] *)
Definition fallback_hessian (L : loss) (ps : list par) (h : hess) (numgrad : bool) (st : store)
  : result (list Q) * store :=
  if numgrad then numerical_hessian h (l_value L false) ps st
  else pure (fun v => let* _ := check_assert_autograd L ps in ad_hessian h (l_value L false) ps v) st.
(** loss.py:749-755 [_call_hessian] and 1455-1460 *)
Definition call_hessian (L : loss) (ps : list par) (h : hess) (numgrad : bool) (st : store)
  : result (list Q) * store :=
  match l_hess L with
  | Some m => pure (m ps) st
  | None => fallback_hessian L ps h numgrad st
  end.
(** loss.py:722-747 [hessian]: the default of [numgrad] is the option "numgrad" *)
Definition hessian (L : loss) (params : option (list par)) (h : hess) (numgrad : option bool)
    (paramvals : list (nat * Q)) (st : store) : result (list Q) * store :=
  match input_check_params L params false with
  | Err e => (Err e, st)
  | Ok ps =>
      let n := match numgrad with None => l_numgrad L | Some b => b end in
      with_paramvals L paramvals (call_hessian L ps h n) st
  end.

(** loss.py:827-836 [_fallback_value_gradient_hessian] *)
Definition fallback_value_gradient_hessian (L : loss) (ps : list par) (h : hess)
    (numgrad full : bool) (st : store) : result (Q * list Q * list Q) * store :=
  if numgrad then numerical_value_gradient_hessian h (l_value L full) ps st
  else pure (fun v => let* _ := check_assert_autograd L ps in
                      let* y := l_value L full v in
                      let* g := ad_gradient (l_value L full) ps v in
                      let* m := ad_hessian h (l_value L full) ps v in Ok (y, g, m)) st.
(** loss.py:811-818 [_call_value_gradient_hessian] *)
Definition call_value_gradient_hessian (L : loss) (ps : list par) (h : hess) (numgrad full : bool)
    (st : store) : result (Q * list Q * list Q) * store :=
  match l_hess L with
  | Some m =>
      match m ps (view st) with
      | Err e => (Err e, st)
      | Ok hm =>
          match value_gradient L (Some ps) (Some full) (Some numgrad) [] st with
          | (Err e, st1) => (Err e, st1)
          | (Ok vg, st1) => (Ok (vg, hm), st1)
          end
      end
  | None => fallback_value_gradient_hessian L ps h numgrad full st
  end.
(** loss.py:769-809 [value_gradient_hessian]: the default of [numgrad] is the option "numhess" *)
Definition value_gradient_hessian (L : loss) (params : option (list par)) (h : hess)
    (full : option bool) (numgrad : option bool) (paramvals : list (nat * Q)) (st : store)
  : result (Q * list Q * list Q) * store :=
  match input_check_params L params false with
  | Err e => (Err e, st)
  | Ok ps =>
      let n := match numgrad with None => l_numhess L | Some b => b end in
      let f := match full with None => true | Some b => b end in
      with_paramvals L paramvals (call_value_gradient_hessian L ps h n f) st
  end.
End Derivatives.

(** loss.py:1368-1390, the arguments [gradient] and [hessian] of a [SimpleLoss]: a string or a
    function; the result is the option and the function. *)
Inductive deriv_arg := Default | Str (s : string) | Fun (f : list par -> list Q -> result (list Q)).
Definition deriv_options (a : deriv_arg)
  : result (bool * option (list par -> list Q -> result (list Q))) :=
  match a with
  | Default => Ok (true, None)
  | Str s => if String.eqb s "num" then Ok (true, None)
             else if String.eqb s "zfit" then Ok (false, None)
             else Err ValueError
  | Fun f => Ok (true, Some f)
  end.
(** loss.py:1290-1424 [SimpleLoss.__init__], as far as the derivatives are concerned *)
Definition simple_loss (value : list Q -> result Q) (params floating : list par)
    (gradient hessian : deriv_arg) : result loss :=
  let* g := deriv_options gradient in
  let* h := deriv_options hessian in
  Ok (mkLoss (fun _ => value) params floating (Err WorkInProgressError)
        (fst g) (fst h) (snd g) (snd h)).
