(** * The exponential PDF and its numerical shift (C72)

    Models zfit/models/basic.py:32-241 Exponential. Simplifications, throughout:
    - values are real numbers, not floats; what overflows is given by a function that says which values are finite;
    - graphs are not cached: a call evaluates the code (eager mode);
    - the space of the limits is one dimensional, with any number of limits (the class has one observable). *)
From Coq Require Import Reals.
From Verif Require Import Base.
Import ListNotations.
#[local] Open Scope R_scope.

(** Limits of a space: (lower, upper) of each of its parts *)
Definition limits := list (R * R).
(** A norm: False, or a space with limits. core/space.py:1213-1214: bool of a space is whether it has limits *)
Definition norm := option limits.
(** A value of a tensor: None is NaN *)
Definition value := option R.
Definition vdiv (a b : value) : value :=
  match a, b with Some a, Some b => if Req_EM_T b 0 then None else Some (a / b) | _, _ => None end.
Definition vadd (a b : value) : value := match a, b with Some a, Some b => Some (a + b) | _, _ => None end.

(** znp.min, znp.max over the parts. (of an empty list: the code raises an error, the model gives the default) *)
Fixpoint list_min (d : R) (l : list R) : R := match l with [] => d | [x] => x | x :: r => Rmin x (list_min d r) end.
Fixpoint list_max (d : R) (l : list R) : R := match l with [] => d | [x] => x | x :: r => Rmax x (list_max d r) end.

(** basic.py:133-145 calc_numerics_data_shift *)
Definition calc_shift (l : limits) : R :=
  let lower_val := list_min 0 (map fst l) in
  let upper_val := list_max 0 (map snd l) in
  (upper_val + lower_val) / 2.

(** basic.py:96, 107: the shift after __init__. The last line of __init__ calls a context manager but does not enter it: nothing happens *)
Definition init : R := 0.

(** basic.py:129-153 _set_numerics_data_shift around a body, which gets the shift. There is no try/finally: after an error the new shift stays *)
Definition with_shift {T} (n : norm) (body : R -> result T) (shift : R) : result T * R :=
  match n with
  | Some l => match body (calc_shift l) with
              | Ok v => (Ok v, shift)
              | Err e => (Err e, calc_shift l)
              end
  | None => (body shift, shift)
  end.

Section Calls.
  (** Which values are finite floats *)
  Variable finite : R -> bool.

  (** basic.py:126-127 *)
  Definition shift_x (shift x : R) : R := x - shift.
  (** basic.py:109-124 _unnormalized_pdf, with tf.debugging.assert_all_finite *)
  Definition unnormalized_pdf (lam shift : R) (xs : list R) : result (list R) :=
    let probs := map (fun x => exp (lam * shift_x shift x)) xs in
    if forallb finite probs then Ok probs else Err InvalidArgumentError.

  (** basic.py:219-227 _exp_integral_func_shifting. lambda = 0: inf - inf or 1/0 - 1/0, which is NaN *)
  Definition exp_integral (lam shift lower upper : R) : value :=
    if Req_EM_T lam 0 then None
    else Some (exp (lam * shift_x shift upper) / lam - exp (lam * shift_x shift lower) / lam).
  (** core/basemodel.py:414-422: the sum over the limits *)
  Fixpoint integrals (lam shift : R) (l : limits) : value :=
    match l with
    | [] => Some 0
    | (lo, up) :: r => vadd (exp_integral lam shift lo up) (integrals lam shift r)
    end.

  (** core/basepdf.py:498-502 _fallback_pdf *)
  Definition fallback_pdf (lam : R) (n : norm) (xs : list R) (shift : R) : result (list value) :=
    bind (unnormalized_pdf lam shift xs) (fun probs =>
    Ok (match n with
        | Some l => map (fun p => vdiv (Some p) (integrals lam shift l)) probs
        | None => map Some probs
        end)).
  (** pdf: basic.py:196-198 _single_hook_pdf; core/basepdf.py:439-496 *)
  Definition pdf (lam : R) (n : norm) (xs : list R) (shift : R) : result (list value) * R :=
    with_shift n (fallback_pdf lam n xs) shift.
  (** log_pdf: basic.py:200-202; core/basepdf.py:555-563 *)
  Definition log_pdf (lam : R) (n : norm) (xs : list R) (shift : R) : result (list value) * R :=
    with_shift n (fun s => bind (fallback_pdf lam n xs s) (fun vs => Ok (map (option_map ln) vs))) shift.
  (** ext_pdf: core/basepdf.py:349-362, the fallback calls pdf *)
  Definition ext_pdf (yield_ : R) (lam : R) (n : norm) (xs : list R) (shift : R) : result (list value) * R :=
    match pdf lam n xs shift with
    | (Ok vs, s) => (Ok (map (option_map (fun v => v * yield_)) vs), s)
    | (Err e, s) => (Err e, s)
    end.
  (** integrate: basic.py:157-159 _single_hook_integrate; core/basemodel.py:405-412 _norm_integrate *)
  Definition integrate (lam : R) (l : limits) (n : norm) (shift : R) : result (list value) * R :=
    with_shift n (fun s => Ok [match n with
                               | Some m => vdiv (integrals lam s l) (integrals lam s m)
                               | None => integrals lam s l
                               end]) shift.
  (** normalization: core/basepdf.py:244-292; its hook is not overridden (basic.py:181-183 is commented out) *)
  Definition normalization (lam : R) (l : limits) (shift : R) : result (list value) * R := (Ok [integrals lam shift l], shift).

  (** A call, with the value lambda has then *)
  Inductive call : Type :=
  | CPdf (n : norm) (xs : list R)
  | CLogPdf (n : norm) (xs : list R)
  | CExtPdf (yield_ : R) (n : norm) (xs : list R)
  | CIntegrate (l : limits) (n : norm)
  | CNormalization (l : limits).
  Definition do_call (lam : R) (c : call) (shift : R) : result (list value) * R :=
    match c with
    | CPdf n xs => pdf lam n xs shift
    | CLogPdf n xs => log_pdf lam n xs shift
    | CExtPdf y n xs => ext_pdf y lam n xs shift
    | CIntegrate l n => integrate lam l n shift
    | CNormalization l => normalization lam l shift
    end.
  (** The shift after a history of calls. Errors are caught by the caller *)
  Fixpoint after (history : list (R * call)) (shift : R) : R :=
    match history with
    | [] => shift
    | (lam, c) :: r => after r (snd (do_call lam c shift))
    end.
  Definition is_ok {T} (r : result T) : bool := match r with Ok _ => true | Err _ => false end.
  (** No call of the history raised an error *)
  Fixpoint no_error (history : list (R * call)) (shift : R) : bool :=
    match history with
    | [] => true
    | (lam, c) :: r => is_ok (fst (do_call lam c shift)) && no_error r (snd (do_call lam c shift))
    end.
End Calls.
