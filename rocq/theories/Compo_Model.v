(** Composed and complex parameters, constants, and the conversion of numbers to parameters
    (core/parameter.py:828-1460). The check that no two parameters of one object share a name is in
    PGraph_Model.v, functions with [*args] or [**kwargs] are not modelled. Values are complex numbers (pairs); a real value has the
    imaginary part 0. *)
From Coq Require Import Reals DecimalString.
From Verif Require Import Base.
#[local] Open Scope R_scope.

Definition C : Type := R * R.
Definition real_value (x : R) : C := (x, 0).
Definition c_conj (z : C) : C := (fst z, - snd z).
Definition c_abs (z : C) : R := sqrt (fst z ^ 2 + snd z ^ 2).

(** What a function gets for one of its arguments: a value, a tuple, a dict. *)
Inductive arg : Type := AVal (v : C) | ATuple (l : list C) | ADict (d : list (string * C)).

(** A Python function with plain arguments: their names, how many of them (the first ones) have
    no default, and the result for given arguments ([None]: the default is used). *)
Record func : Type := Func { f_names : list string; f_required : nat; f_body : list (option arg) -> C }.

(** [func( *args )] *)
Definition call_positional (f : func) (args : list arg) : result C :=
  let n := length (f_names f) in
  if Nat.leb (f_required f) (length args) && Nat.leb (length args) n
  then Ok (f_body f (map Some args ++ repeat None (n - length args)))
  else Err TypeError.
(** [func( **d )] *)
Definition call_keywords (f : func) (d : list (string * C)) : result C :=
  if negb (subsetb String.eqb (map fst d) (f_names f)) then Err TypeError
  else if negb (subsetb String.eqb (firstn (f_required f) (f_names f)) (map fst d)) then Err TypeError
  else Ok (f_body f (map (fun n => option_map AVal (lookup String.eqb n d)) (f_names f))).

(** The argument [params] after [convert_to_container]: a list or a dict *)
Inductive params_arg (P : Type) : Type := PList (l : list P) | PDict (d : list (string * P)).
Arguments PList {P}. Arguments PDict {P}.
Definition params_len {P} (p : params_arg P) : nat := match p with PList l => length l | PDict d => length d end.

(** How the function is called: without arguments, one argument per parameter, or one argument
    with all of them. *)
Inductive style : Type := NoArgs | Unpack | Whole.

(** core/parameter.py:1069-1085: what is done if [unpack_params] is not given *)
Definition choose_style (unpack : option bool) (f : func) (n : nat) : result style :=
  match unpack with
  | Some true => Ok Unpack
  | Some false => Ok Whole
  | None =>
      let k := length (f_names f) in
      if (Nat.eqb k 1 && Nat.ltb 1 n) || mem String.eqb "params"%string (f_names f) then Ok Whole
      else if Nat.leb n k then Ok Unpack
      else if Nat.eqb k 0 then Ok NoArgs
      else Err ValueError
  end.

(** A parameter: independent (a variable), constant, composed (the function, how it is called
    and the stored parameters), or the conjugate of a complex parameter with the parameters
    stored for it. *)
Inductive param : Type :=
| Indep (id : nat)
| Const (v : C)
| Composed (f : func) (s : style) (ps : params_arg param)
| Conj (p : param) (ps : list param).

(** core/parameter.py:1087-1127 [ComposedParameter.__init__]: with a function without arguments a
    list of parameters is not stored, a dict is. *)
Definition composed (f : func) (unpack : option bool) (ps : params_arg param) : result param :=
  let* s := choose_style unpack f (params_len ps) in
  Ok (Composed f s (match s, ps with NoArgs, PList _ => PList [] | _, _ => ps end)).

Definition env := nat -> R.
(** core/parameter.py:856-858, 931, 508-515 [value] *)
Fixpoint value (e : env) (p : param) : result C :=
  match p with
  | Indep i => Ok (real_value (e i))
  | Const v => Ok v
  | Conj q _ => let* v := value e q in Ok (c_conj v)
  | Composed f s ps =>
      match ps with
      | PList l =>
          let* vs := (fix go l := match l with [] => Ok [] | q :: l' => let* v := value e q in let* r := go l' in Ok (v :: r) end) l in
          match s with
          | NoArgs => call_positional f []
          | Unpack => call_positional f (map AVal vs)
          | Whole => call_positional f [ATuple vs]
          end
      | PDict d =>
          let* vs := (fix go l := match l with [] => Ok [] | q :: l' => let* v := value e (snd q) in let* r := go l' in Ok ((fst q, v) :: r) end) d in
          match s with
          | NoArgs => call_positional f []
          | Unpack => call_keywords f vs
          | Whole => call_positional f [ADict vs]
          end
      end
  end.

(** [get_params(floating=None)] (core/baseobject.py:97-175, see PGraph_Model.v): the independent
    parameters that are reached through the stored ones, without repetition *)
Fixpoint dependencies (p : param) : list nat :=
  match p with
  | Indep i => [i]
  | Const _ => []
  | Conj _ ps => (fix go l := match l with [] => [] | q :: l' => dependencies q ++ go l' end) ps
  | Composed _ _ (PList l) => (fix go l := match l with [] => [] | q :: l' => dependencies q ++ go l' end) l
  | Composed _ _ (PDict d) => (fix go l := match l with [] => [] | q :: l' => dependencies (snd q) ++ go l' end) d
  end.
Definition get_params (p : param) : list nat := nodup Nat.eq_dec (dependencies p).

(** ** Complex parameters *)

(** core/parameter.py:1219-1250 [from_cartesian], 1252-1283 [from_polar], of parameters with real
    values *)
Definition two (first second : string) (body : R -> R -> C) : func :=
  Func [first; second] 2
    (fun l => match l with [Some (AVal x); Some (AVal y)] => body (fst x) (fst y) | _ => real_value 0 end).
Definition from_cartesian (re im : param) : result param := 
  composed (two "_real" "_imag" (fun x y => (x, y))) None (PList [re; im]).
Definition from_polar (md ar : param) : result param :=
  composed (two "_mod" "_arg" (fun m a => (m * cos a, m * sin a))) None (PList [md; ar]).
(** core/parameter.py:1285-1299 [conj]: a complex parameter made of a function without arguments
    and of the list of all independent parameters *)
Definition conj_of (p : param) : result param :=
  let* s := choose_style None (Func [] 0 (fun _ => real_value 0)) (length (get_params p)) in
  Ok (Conj p (match s with NoArgs => [] | _ => map Indep (get_params p) end)).
(** core/parameter.py:1301-1319 [real], [imag], [mod], [arg]; [angle] is the angle of a number *)
Definition c_real (e : env) (p : param) : result R := let* v := value e p in Ok (fst v).
Definition c_imag (e : env) (p : param) : result R := let* v := value e p in Ok (snd v).
Definition c_mod (e : env) (p : param) : result R := let* v := value e p in Ok (c_abs v).
Definition c_arg (angle : C -> R) (e : env) (p : param) : result R := let* v := value e p in Ok (angle v).

(** ** Conversion of numbers *)

(** What is given as a value: a number (real or complex), a parameter, a function. *)
Inductive raw : Type := RReal (x : R) | RComplex (z : C) | RParam (name : string) (p : param) | RFunc (f : func).
(** What comes out: an existing parameter, or a new one with its name; a new variable has a start
    value and limits. [NNumber]: the number itself, if the conversion is switched off. *)
Inductive new_param : Type :=
| NExisting (name : string) (p : param)
| NConstant (name : string) (v : R)
| NVariable (name : string) (v : R) (lower upper step : option R)
| NComplex (name : string) (re im : new_param)
| NComposed (name : string) (p : param)
| NNumber (v : C).

(** [str(k)] of a number *)
Definition digits (k : nat) : string := DecimalString.NilZero.string_of_uint (Nat.to_uint k).
Definition auto_name (given : option string) (prefix : string) (k : nat) : string * nat :=
  match given with Some s => (s, k) | None => (prefix ++ digits k, S k)%string end.

(** core/parameter.py:1382-1457 [convert_to_parameter], with the counter of
    [get_auto_number] (1323-1331). *)
Definition convert_to_parameter (autoconversion : bool) (k : nat) (v : raw) (name : option string) (prefer_constant : bool)
  (params : option (params_arg param)) (lower upper step : option R) : result (new_param * nat) :=
  match v with
  | RFunc f =>
      match params with
      | None => Err ValueError
      | Some ps => let* p := composed f None ps in Ok (NComposed ("Composed_autoparam_" ++ digits k)%string p, S k)
      end
  | RParam n p => Ok (NExisting n p, k)
  | RReal x =>
      if negb autoconversion then Ok (NNumber (real_value x), k)
      else if prefer_constant then
        let (n, k) := auto_name name "FIXED_autoparam_" k in Ok (NConstant n x, k)
      else let (n, k) := auto_name name "autoparam_" k in Ok (NVariable n x lower upper step, k)
  | RComplex z =>
      if negb autoconversion then Ok (NNumber z, k)
      else
        let (n, k) := auto_name name "FIXED_complex_autoparam_" k in
        let part suffix x := if prefer_constant then NConstant (n ++ suffix)%string x
                             else NVariable (n ++ suffix)%string x None None None in
        Ok (NComplex n (part "_REALPART"%string (fst z)) (part "_IMAGPART"%string (snd z)), k)
  end.

(** core/parameter.py:1339-1378 [convert_to_parameters] for a list of values; names, limits and
    step sizes are lists or not given. *)
Definition is_param (v : raw) : bool := match v with RParam _ _ => true | _ => false end.
Definition opt_len {A} (o : option (list A)) (n : nat) : bool := match o with None => true | Some l => Nat.eqb (length l) n end.
Definition opt_nth {A} (o : option (list A)) (i : nat) : option A := match o with None => None | Some l => nth_error l i end.
Fixpoint convert_each (autoconversion : bool) (k : nat) (i : nat) (vs : list raw) (names : option (list string)) (prefer_constant : bool)
  (lower upper step : option (list R)) : result (list new_param * nat) :=
  match vs with
  | [] => Ok ([], k)
  | v :: vs =>
      let* r := convert_to_parameter autoconversion k v (opt_nth names i) prefer_constant None
                  (opt_nth lower i) (opt_nth upper i) (opt_nth step i) in
      let* rs := convert_each autoconversion (snd r) (S i) vs names prefer_constant lower upper step in
      Ok (fst r :: fst rs, snd rs)
  end.
Definition convert_to_parameters (autoconversion : bool) (k : nat) (vs : list raw) (names : option (list string)) (prefer_constant : bool)
  (lower upper step : option (list R)) : result (list new_param * nat) :=
  if forallb is_param vs then
    Ok (map (fun v => match v with RParam n p => NExisting n p | _ => NNumber (real_value 0) end) vs, k)
  else if existsb is_param vs then Err ValueError
  else if opt_len names (length vs) && opt_len lower (length vs) && opt_len upper (length vs) && opt_len step (length vs)
  then convert_each autoconversion k 0 vs names prefer_constant lower upper step
  else Err ValueError.
