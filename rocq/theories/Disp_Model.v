(** Model of the dispatch of [integrate], [normalization], [pdf], [log_pdf], [ext_pdf], ... of the
    models: which of the methods a model implements is used, and how the normalisation and
    multiple limits are added to methods that do not support them
    (core/basemodel.py, core/basepdf.py, core/space.py [supports]). *)
From Verif Require Import Base.
From Coq Require Export Reals.
#[local] Open Scope R_scope.

(** Result of a method: a value, or one of the exceptions that steer the dispatch
    (util/exception.py:188-239): FunctionNotImplemented, AnalyticIntegralNotImplemented,
    NormNotImplemented, MultipleLimitsNotImplemented; any other exception ends the call. *)
Inductive outcome := Val (v : R) | ENotImpl | EAnalytic | ENorm | EMulti | EOther.

Section Dispatch.
(** [L]: a single limit (a box); [X]: a point. A space with limits is a list of boxes. *)
Context {L X : Type}.

(** The argument [norm]: the value [False], a space with limits False, or a space with limits.
    A space without limits (None) is not modelled. *)
Inductive norm := NoNorm | NormFalse | Norm (ls : list L).

(** Arguments of the decorator [supports] (core/space.py:3358-3400): [norm] True, or containing
    "space" or "norm"; [multiple_limits]. *)
Record supp := mkSupp { s_true : bool; s_space : bool; s_norm : bool; s_multi : bool }.

(** A method that takes limits and a norm, and one that takes data and a norm (for one point). *)
Record hook := mkHook { h_supp : supp; h_fun : list L -> norm -> outcome }.
Record phook := mkPhook { p_supp : supp; p_fun : X -> norm -> outcome }.

(** A model: the methods that its class overrides ([None]: not overridden, the method of the base
    class raises SpecificFunctionNotImplemented), the registered analytic integral that is found
    for given limits (core/integration.py:628-748, see Reg_Model), the numeric integration of
    [_func_to_integrate], the unnormalised pdf, the yield, and whether a norm equals the space or the norm of the model. *)
Record model := mkModel {
  m_eq_space : list L -> bool;
  m_eq_norm : list L -> bool;
  m_integrate : option hook;
  m_analytic : option hook;
  m_reg : list L -> option hook;
  m_numeric : option hook;
  m_auto : list L -> outcome;
  m_normalization : option (supp * (norm -> outcome));
  m_pdf : option phook;
  m_log_pdf : option phook;
  m_ext_pdf : option phook;
  m_ext_log_pdf : option phook;
  m_unnorm : X -> outcome;
  m_yield : option R }.

Variable m : model.

(** core/space.py:3226-3291 [check_norm]: [None] if NormNotImplemented is raised, otherwise the norm
    that is handed to the function. *)
Definition check_norm (s : supp) (n : norm) : option norm :=
  match n with
  | NoNorm => Some NoNorm
  | NormFalse => if s_true s then Some NormFalse else Some NoNorm
  | Norm ls =>
      if s_true s || (s_space s && m_eq_space m ls) || (s_norm s && m_eq_norm m ls)
      then Some (Norm ls) else None
  end.

(** A decorated method: first [no_multiple_limits] (3313-3334), then [check_norm]. *)
Definition call (h : option hook) (ls : list L) (n : norm) : outcome :=
  match h with
  | None => ENotImpl
  | Some h =>
      if negb (s_multi (h_supp h)) && Nat.ltb 1 (length ls) then EMulti
      else match check_norm (h_supp h) n with
           | None => ENorm
           | Some n' => h_fun h ls n'
           end
  end.
Definition pcall (h : option phook) (x : X) (n : norm) : outcome :=
  match h with
  | None => ENotImpl
  | Some h => match check_norm (p_supp h) n with
              | None => ENorm
              | Some n' => p_fun h x n'
              end
  end.

(** [z.reduce_sum(znp.stack(integrals), axis=0)]; the first exception ends the loop. *)
Fixpoint sum_all (os : list outcome) : outcome :=
  match os with
  | [] => Val 0
  | Val v :: r => match sum_all r with Val w => Val (v + w) | e => e end
  | e :: _ => e
  end.
Definition quotient (u d : outcome) : outcome :=
  match u with
  | Val u => match d with Val d => Val (u / d) | e => e end
  | e => e
  end.
Definition map_val (f : R -> R) (o : outcome) : outcome := match o with Val v => Val (f v) | e => e end.

(** core/basemodel.py:415-423, 569-577, 683-692: [_limits_*] around a [_call_*]. *)
Definition limits_with (c : list L -> norm -> outcome) (ls : list L) (n : norm) : outcome :=
  match c ls n with
  | EMulti => sum_all (map (fun l => c [l] n) ls)
  | o => o
  end.

(** core/basemodel.py:579-595 [_call_analytic_integrate] and [_fallback_analytic_integrate] *)
Definition call_analytic (ls : list L) (n : norm) : outcome :=
  match call (m_analytic m) ls n with
  | ENotImpl | EAnalytic =>
      match m_reg m ls with
      | None => EAnalytic
      | Some h => match call (Some h) ls n with
                  | ENotImpl | EAnalytic => EAnalytic
                  | o => o
                  end
      end
  | o => o
  end.
(** core/basemodel.py:546-567 [_norm_analytic_integrate] *)
Definition norm_analytic (ls : list L) (n : norm) : outcome :=
  match limits_with call_analytic ls n with
  | ENorm =>
      match limits_with call_analytic ls NoNorm with
      | Val u =>
          match n with
          | Norm nls =>
              match limits_with call_analytic nls NoNorm with
              | EAnalytic => ENorm
              | Val d => Val (u / d)
              | e => e
              end
          | _ => EOther
          end
      | e => e
      end
  | o => o
  end.

(** core/basemodel.py:694-708, 1001-1011: [_call_numeric_integrate]; [_auto_numeric_integrate]
    supports multiple limits and no norm. *)
Definition call_numeric (ls : list L) (n : norm) : outcome :=
  match call (m_numeric m) ls n with
  | ENotImpl => match n with Norm _ => ENorm | _ => m_auto m ls end
  | o => o
  end.
(** core/basemodel.py:403-413 [_norm_integrate] and 672-681 [_norm_numeric_integrate] *)
Definition norm_with (c : list L -> norm -> outcome) (ls : list L) (n : norm) : outcome :=
  match limits_with c ls n with
  | ENorm => match n with
             | Norm nls => quotient (limits_with c ls NoNorm) (limits_with c nls NoNorm)
             | _ => EOther
             end
  | o => o
  end.
(** core/basemodel.py:425-445 [_call_integrate]. In [_fallback_integrate] the attempt with a partial
    analytic integral is left out: it asks for an integral over the same limits that was just
    found missing, and falls back to the numeric integral. *)
Definition call_integrate (ls : list L) (n : norm) : outcome :=
  match call (m_integrate m) ls n with
  | ENotImpl => match norm_analytic ls n with
                | EAnalytic => norm_with call_numeric ls n
                | o => o
                end
  | o => o
  end.
(** core/basemodel.py:355-413 [integrate] *)
Definition integrate (ls : list L) (n : norm) : outcome := norm_with call_integrate ls n.
(** core/basemodel.py:515-544 [analytic_integrate], 606-670 [numeric_integrate] *)
Definition analytic_integrate := norm_analytic.
Definition numeric_integrate (ls : list L) (n : norm) : outcome := norm_with call_numeric ls n.
(** core/basepdf.py:617-654 [ext_integrate]; not extended: NotExtendedPDFError *)
Definition ext_integrate (ls : list L) (n : norm) : outcome :=
  match m_yield m with
  | None => EOther
  | Some y => map_val (fun v => v * y) (integrate ls n)
  end.

(** core/basepdf.py:244-293 [normalization]: only called with a norm that has limits *)
Definition normalization (nls : list L) : outcome :=
  match m_normalization m with
  | None => integrate nls NoNorm
  | Some (s, f) => match check_norm s (Norm nls) with
                   | None => ENorm
                   | Some n => match f n with ENotImpl => integrate nls NoNorm | o => o end
                   end
  end.

(** core/basepdf.py:481-502 [_call_pdf], [_fallback_pdf] *)
Definition fallback_pdf (x : X) (n : norm) : outcome :=
  match n with
  | Norm nls => quotient (m_unnorm m x) (normalization nls)
  | NormFalse => m_unnorm m x
  | NoNorm => EOther  (* [False.has_limits] *)
  end.
Definition call_pdf (x : X) (n : norm) : outcome :=
  match pcall (m_pdf m) x n with
  | ENotImpl =>
      match pcall (m_log_pdf m) x n with
      | ENotImpl =>
          match m_yield m with
          | Some y => match pcall (m_ext_pdf m) x n with
                      | ENotImpl => fallback_pdf x n
                      | o => map_val (fun v => v / y) o
                      end
          | None => fallback_pdf x n
          end
      | o => map_val exp o
      end
  | o => o
  end.
(** core/basepdf.py:438-479 [pdf]. The public method converts False to a space with limits False. *)
Definition pdf (x : X) (n : norm) : outcome :=
  match call_pdf x n with
  | ENorm => match n with
             | Norm nls => quotient (call_pdf x NormFalse) (normalization nls)
             | _ => EOther
             end
  | o => o
  end.

(** core/basepdf.py:570-614 [log_normalization]: [_single_hook_log_normalization] calls
    [_hook_normalization]; the logarithm is not taken. *)
Definition log_normalization (nls : list L) : outcome := normalization nls.
Definition difference (u d : outcome) : outcome :=
  match u with
  | Val u => match d with Val d => Val (u - d) | e => e end
  | e => e
  end.
(** core/basepdf.py:553-563 [_call_log_pdf] *)
Definition call_log_pdf (x : X) (n : norm) : outcome :=
  match pcall (m_log_pdf m) x n with
  | ENotImpl =>
      match pcall (m_pdf m) x n with
      | ENotImpl => map_val ln (pdf x n)
      | o => map_val ln o
      end
  | o => o
  end.
(** core/basepdf.py:509-551 [log_pdf] *)
Definition log_pdf (x : X) (n : norm) : outcome :=
  match call_log_pdf x n with
  | ENorm => match n with
             | Norm nls => difference (call_log_pdf x NoNorm) (log_normalization nls)
             | _ => EOther
             end
  | o => o
  end.

(** core/basepdf.py:320-371 [ext_pdf] *)
Definition ext_pdf (x : X) (n : norm) : outcome :=
  match m_yield m with
  | None => EOther
  | Some y =>
      match (match pcall (m_ext_pdf m) x n with
             | ENorm => match n with
                        | Norm nls => quotient (pcall (m_ext_pdf m) x NoNorm) (normalization nls)
                        | _ => EOther
                        end
             | o => o
             end) with
      | ENotImpl => map_val (fun v => v * y) (pdf x n)
      | o => o
      end
  end.
(** core/basepdf.py:373-429 [ext_log_pdf] *)
Definition ext_log_pdf (x : X) (n : norm) : outcome :=
  match m_yield m with
  | None => EOther
  | Some y =>
      match (match pcall (m_ext_log_pdf m) x n with
             | ENorm => match n with
                        | Norm nls => difference (pcall (m_ext_log_pdf m) x NoNorm) (log_normalization nls)
                        | _ => EOther
                        end
             | o => o
             end) with
      | ENotImpl => map_val (fun v => v + ln y) (log_pdf x n)
      | o => o
      end
  end.
End Dispatch.
Arguments norm : clear implicits.
Arguments model : clear implicits.
Arguments hook : clear implicits.
Arguments phook : clear implicits.
