(** Model of zfit/core/parameter.py (class [Parameter], [set_values], [assign_values]),
    zfit/util/temporary.py, and the settings of zfit/util/execution.py and zfit/core/data.py
    that are changed through [TemporarilySet].

    Simplifications, everywhere in this file:
    - eager mode only, except for [rejects_graph];
    - numbers are exact rationals, the two infinities and NaN;
    - limits are finite or absent ([None]); passing an infinite or NaN limit explicitly is
      not modelled;
    - parameters are identified by a number; Python's [==] and [hash] on parameters are
      identity (331-335). *)
From Verif Require Import Base.

(** float64 numbers *)
Inductive num := Fin (q : Q) | PInf | NInf | NaN.
Definition num_le (a b : num) : bool :=
  match a, b with
  | NaN, _ | _, NaN => false
  | NInf, _ | _, PInf => true
  | Fin x, Fin y => Qle_bool x y
  | _, _ => false
  end.
Definition num_lt (a b : num) : bool :=
  match a, b with
  | NaN, _ | _, NaN => false
  | _, _ => negb (num_le b a)
  end.
(** tf.minimum and tf.maximum propagate NaN; for equal numbers (which may be different fractions
    here) the first is returned. *)
Definition num_min (a b : num) : num :=
  match a, b with NaN, _ | _, NaN => NaN | _, _ => if num_le a b then a else b end.
Definition num_max (a b : num) : num :=
  match a, b with NaN, _ | _, NaN => NaN | _, _ => if num_le b a then a else b end.
Definition num_add (a : num) (q : Q) : num := match a with Fin x => Fin (x + q)%Q | _ => a end.

(** core/parameter.py:347-421. [_lower] and [_upper] are [None] when not given. *)
Record param := mkParam {
  p_name : string;
  p_raw : num;
  p_lower : option Q;
  p_upper : option Q;
  p_floating : bool }.

(** core/parameter.py:434-465: the properties [lower] and [upper]. *)
Definition lower_of (p : param) : num := match p_lower p with Some q => Fin q | None => NInf end.
Definition upper_of (p : param) : num := match p_upper p with Some q => Fin q | None => PInf end.

(** core/parameter.py:467-471 *)
Definition has_limits (p : param) : bool :=
  match p_lower p, p_upper p with None, None => false | _, _ => true end.

(** core/parameter.py:492-501, the tolerance: [min(|upper - lower| * reltol, abstol)], where the
    width is infinite if a limit is absent. *)
Definition limit_tol (p : param) (reltol abstol : Q) : Q :=
  match p_lower p, p_upper p with
  | Some l, Some u =>
      let d := (if Qle_bool 0 (u - l) then u - l else - (u - l))%Q in
      if Qle_bool (d * reltol) abstol then (d * reltol)%Q else abstol
  | _, _ => abstol
  end.

(** core/parameter.py:482-506 [_check_at_limit] *)
Definition check_at_limit (p : param) (v : num) (exact : bool) : bool :=
  if negb (has_limits p) then false
  else
    let tol := if exact then limit_tol p (1 # 100000) (1 # 10000000)
               else (- limit_tol p (5 # 1000) (1 # 100000))%Q in
    num_le v (num_add (lower_of p) (- tol)%Q) || num_le (num_add (upper_of p) tol) v.

(** core/parameter.py:508-514 [value]; tf.clip_by_value is maximum(minimum(v, max), min). *)
Definition p_value (p : param) : num :=
  if has_limits p then num_max (num_min (p_raw p) (upper_of p)) (lower_of p) else p_raw p.

(** core/parameter.py:473-480 [at_limit] *)
Definition at_limit (p : param) : bool := check_at_limit p (p_value p) false.

(** core/parameter.py:599-617: the test of the setter of [set_value], eager and inside a graph. *)
Definition rejects (p : param) (v : num) : bool := has_limits p && check_at_limit p v true.
Definition rejects_graph (p : param) (v : num) : bool :=
  has_limits p && negb (num_lt (lower_of p) v && num_lt v (upper_of p)).

Definition with_raw (p : param) (v : num) : param :=
  mkParam (p_name p) v (p_lower p) (p_upper p) (p_floating p).

(** core/parameter.py:398-421 [__init__]: the value is stored, the limits are set and
    [set_value] is called with the value. *)
Definition make_param (name : string) (value : num) (lower upper : option Q) (floating : bool)
  : result param :=
  let p := mkParam name value lower upper floating in
  if rejects p value then Err ValueError else Ok p.

(** util/execution.py:32, 318-323, 347-370 and util/graph.py: the run mode. [do_jit_types] is a
    dictionary from kinds of functions to booleans. The argument [set_backend] is always its
    default True; a value that is none of the accepted ones is [GBad]. *)
Inductive gmode := GTrue | GFalse | GAuto | GDict (d : list (string * bool)) | GBad.
Record runstate := mkRun {
  r_graph : gmode;
  r_jit : list (string * bool);
  r_backend_eager : bool;
  r_autograd : bool;
  r_numgrad : bool;
  r_auto_update : bool }.

(** z/zextension.py:165-178 [_DEFAULT_DO_JIT_TYPES]; the key None is written "None"; other keys
    default to True. *)
Definition default_jit : list (string * bool) :=
  [("None", true); ("model", false); ("loss", true); ("sample", true);
   ("model_sampling", true); ("zfit_tensor", true); ("tensor", true)]%string.
Definition default_of (k : string) : bool :=
  match lookup String.eqb k default_jit with Some b => b | None => true end.

(** util/graph.py:38-41 [_update_allowed]: dict.update *)
Fixpoint jit_set (d : list (string * bool)) (k : string) (b : bool) : list (string * bool) :=
  match d with
  | [] => [(k, b)]
  | (k', b') :: r => if String.eqb k k' then (k', b) :: r else (k', b') :: jit_set r k b
  end.
Definition jit_update (d e : list (string * bool)) : list (string * bool) :=
  fold_left (fun acc kb => jit_set acc (fst kb) (snd kb)) e d.
(** util/graph.py:9-18 [_set_all] *)
Definition jit_all (d : list (string * bool)) (b : bool) := jit_update d (map (fun kb => (fst kb, b)) d).
(** util/graph.py:20-36 [_set_default] *)
Definition jit_default (d : list (string * bool)) :=
  jit_update d (default_jit
    ++ map (fun kb => (fst kb, default_of (fst kb)))
         (filter (fun kb => negb (mem String.eqb (fst kb) (map fst default_jit))) d)).

(** The state that the operations below act on: all parameters, the run mode, and the weights
    of all data sets (core/data.py:403-416). *)
Record state := mkState {
  st_par : nat -> param;
  st_run : runstate;
  st_weights : nat -> option (list num) }.

Definition upd {A} (f : nat -> A) (i : nat) (a : A) : nat -> A :=
  fun j => if Nat.eqb j i then a else f j.
Definition set_par (st : state) (i : nat) (p : param) : state :=
  mkState (upd (st_par st) i p) (st_run st) (st_weights st).
Definition set_run (st : state) (r : runstate) : state := mkState (st_par st) r (st_weights st).

Definition outcome := (state * option error)%type.

(** core/parameter.py:623-632 [assign] *)
Definition assign (st : state) (i : nat) (v : num) : state := set_par st i (with_raw (st_par st i) v).

(** core/parameter.py:580-621: the [setter] inside [set_value] *)
Definition set_value (st : state) (i : nat) (v : num) : outcome :=
  if rejects (st_par st i) v then (st, Some ValueError) else (assign st i v, None).

(** core/parameter.py:1543-1545: the [setter] inside [set_values]. An index beyond the values is
    an InvalidArgumentError of TensorFlow; the conversion (below) excludes it. *)
Fixpoint set_each (st : state) (ps : list nat) (vs : list num) : outcome :=
  match ps, vs with
  | [], _ => (st, None)
  | _ :: _, [] => (st, Some InvalidArgumentError)
  | i :: ps', v :: vs' =>
      match set_value st i v with
      | (st', None) => set_each st' ps' vs'
      | (st', Some e) => (st', Some e)
      end
  end.

(** util/execution.py:347-370 [_set_graph_mode]: the backend is switched before the value is
    validated. *)
Definition set_graph (r : runstate) (g : gmode) : runstate * option error :=
  let be := match g with GFalse => true | _ => false end in
  match g with
  | GTrue => (mkRun g (jit_all (r_jit r) true) be (r_autograd r) (r_numgrad r) (r_auto_update r), None)
  | GFalse => (mkRun g (jit_all (r_jit r) false) be (r_autograd r) (r_numgrad r) (r_auto_update r), None)
  | GAuto => (mkRun g (jit_default (r_jit r)) be (r_autograd r) (r_numgrad r) (r_auto_update r), None)
  | GDict d => (mkRun g (jit_update (r_jit r) d) be (r_autograd r) (r_numgrad r) (r_auto_update r), None)
  | GBad => (mkRun (r_graph r) (r_jit r) be (r_autograd r) (r_numgrad r) (r_auto_update r), Some ValueError)
  end.

(** The calls that return a [TemporarilySet]: Parameter.set_value (core/parameter.py:580),
    set_values (1512), run.set_graph_mode (util/execution.py:180), run.set_autograd_mode (292),
    run.experimental_disable_param_update (160) and Data.set_weights (core/data.py:386). *)
Inductive call :=
| CSet (i : nat) (v : num)
| CSetValues (ps : list nat) (vs : list num)
| CGraph (g : gmode)
| CAutograd (b : bool)
| CDisableUpdate (b : bool)
| CWeights (d : nat) (w : option (list num)).

(** The [setter] of the call, applied to its value. *)
Definition setter (st : state) (c : call) : outcome :=
  match c with
  | CSet i v => set_value st i v
  | CSetValues ps vs => set_each st ps vs
  | CGraph g => let (r, e) := set_graph (st_run st) g in (set_run st r, e)
  | CAutograd b =>
      let r := st_run st in
      (set_run st (mkRun (r_graph r) (r_jit r) (r_backend_eager r) b (negb b) (r_auto_update r)), None)
  | CDisableUpdate b =>
      let r := st_run st in
      (set_run st (mkRun (r_graph r) (r_jit r) (r_backend_eager r) (r_autograd r) (r_numgrad r) (negb b)), None)
  | CWeights d w => (mkState (st_par st) (st_run st) (upd (st_weights st) d w), None)
  end.

(** The [getter] of the call: the same kind of call that would set what is readable now. *)
Definition getter (st : state) (c : call) : call :=
  match c with
  | CSet i _ => CSet i (p_value (st_par st i))
  | CSetValues ps _ => CSetValues ps (map (fun i => p_value (st_par st i)) ps)
  | CGraph _ => CGraph (r_graph (st_run st))
  | CAutograd _ => CAutograd (r_autograd (st_run st))
  | CDisableUpdate _ => CDisableUpdate (negb (r_auto_update (st_run st)))
  | CWeights d _ => CWeights d (st_weights st d)
  end.

(** Programs that use these calls, permanently ([Do]) or as context managers ([With]). Other
    statements change limits, the floating flag, or a value by [assign] or [randomize]; the value
    drawn by the sampler is given. *)
Inductive prog :=
| Skip
| Seq (a b : prog)
| Raise (e : error)
| Try (a handler : prog)
| Do (c : call)
| With (c : call) (body : prog)
| Assign (i : nat) (v : num)
| Randomize (i : nat) (drawn : num)
| SetLower (i : nat) (l : option Q)
| SetUpper (i : nat) (u : option Q)
| SetFloating (i : nat) (b : bool).

(** util/temporary.py:49-60: the value is read and set on construction; [__exit__] calls the
    setter with the old value, also when the block raised; an exception of [__exit__] replaces
    that of the block.
    core/parameter.py:634-661 [randomize] sets the drawn value with [set_value]. *)
Fixpoint exec (p : prog) (st : state) : outcome :=
  match p with
  | Skip => (st, None)
  | Seq a b =>
      match exec a st with
      | (st', None) => exec b st'
      | (st', Some e) => (st', Some e)
      end
  | Raise e => (st, Some e)
  | Try a h =>
      match exec a st with
      | (st', None) => (st', None)
      | (st', Some _) => exec h st'
      end
  | Do c => setter st c
  | With c body =>
      let old := getter st c in
      match setter st c with
      | (st1, Some e) => (st1, Some e)
      | (st1, None) =>
          let (st2, e2) := exec body st1 in
          match setter st2 old with
          | (st3, None) => (st3, e2)
          | (st3, Some e) => (st3, Some e)
          end
      end
  | Assign i v => (assign st i v, None)
  | Randomize i v => set_value st i v
  | SetLower i l =>
      let p := st_par st i in
      (set_par st i (mkParam (p_name p) (p_raw p) l (p_upper p) (p_floating p)), None)
  | SetUpper i u =>
      let p := st_par st i in
      (set_par st i (mkParam (p_name p) (p_raw p) (p_lower p) u (p_floating p)), None)
  | SetFloating i b =>
      let p := st_par st i in
      (set_par st i (mkParam (p_name p) (p_raw p) (p_lower p) (p_upper p) b), None)
  end.

(** What can be passed as [params] and [values] to set_values: objects that are independent
    parameters, other parameters (composed or constant) or no parameters; values are a sequence,
    a mapping with parameters or names as keys, or a FitResult (its parameters with values). *)
Inductive obj := OIndep (i : nat) | ODep (name : string) | OOther.
Inductive key := KParam (i : nat) | KName (s : string).
Inductive values_in := VSeq (vs : list num) | VMap (m : list (key * num)) | VResult (r : list (nat * num)).

Definition key_eqb (a b : key) : bool :=
  match a, b with
  | KParam i, KParam j => Nat.eqb i j
  | KName s, KName t => String.eqb s t
  | _, _ => false
  end.

(** core/parameter.py:1585-1598: [param in result.params] *)
Fixpoint pick_result (r : list (nat * num)) (ps : list obj) (allow_partial : bool)
  : result (list obj * list num) :=
  match ps with
  | [] => Ok ([], [])
  | p :: rest =>
      let found := match p with OIndep i => lookup Nat.eqb i r | _ => None end in
      match found with
      | Some v => let* q := pick_result r rest allow_partial in Ok (p :: fst q, v :: snd q)
      | None => if allow_partial then pick_result r rest allow_partial else Err ValueError
      end
  end.

(** core/parameter.py:1599-1616: [param in values], then [param.name in values]; an object that
    is no parameter has no [name]. *)
Fixpoint pick_map (name_of : nat -> string) (m : list (key * num)) (ps : list obj) (allow_partial : bool)
  : result (list obj * list num) :=
  match ps with
  | [] => Ok ([], [])
  | p :: rest =>
      let* found := match p with
                    | OIndep i =>
                        match lookup key_eqb (KParam i) m with
                        | Some v => Ok (Some v)
                        | None => Ok (lookup key_eqb (KName (name_of i)) m)
                        end
                    | ODep s => Ok (lookup key_eqb (KName s) m)
                    | OOther => Err AttributeError
                    end in
      match found with
      | Some v => let* q := pick_map name_of m rest allow_partial in Ok (p :: fst q, v :: snd q)
      | None => if allow_partial then pick_map name_of m rest allow_partial else Err ValueError
      end
  end.

Definition is_param (o : obj) : bool := match o with OOther => false | _ => true end.
Definition is_indep (o : obj) : bool := match o with OIndep _ => true | _ => false end.
Definition indep_ids (l : list obj) : list nat :=
  concat (map (fun o => match o with OIndep i => [i] | _ => [] end) l).

(** core/parameter.py:1553-1637 [check_convert_param_values_assign]; params is always given as a
    container here. For an empty container nothing is checked (1578-1580). *)
Definition convert_values (name_of : nat -> string) (ps : list obj) (vin : values_in) (allow_partial : bool)
  : result (list nat * list num) :=
  match ps, vin with
  | [], VSeq _ | [], VMap _ => Ok ([], [])
  | _, _ =>
      let* q := match vin with
                | VResult r => pick_result r ps allow_partial
                | VMap m => pick_map name_of m ps allow_partial
                | VSeq vs => if Nat.eqb (length vs) (length ps) then Ok (ps, vs) else Err ValueError
                end in
      let (ps', vs') := q in
      if negb (forallb is_param ps') then Err TypeError
      else if negb (forallb is_indep ps') then Err ParameterNotIndependentError
      else Ok (indep_ids ps', vs')
  end.

(** core/parameter.py:1512-1550 [set_values] *)
Definition set_values (st : state) (ps : list obj) (vin : values_in) (allow_partial : bool) : outcome :=
  match convert_values (fun i => p_name (st_par st i)) ps vin allow_partial with
  | Err e => (st, Some e)
  | Ok (ids, vs) => set_each st ids vs
  end.

(** core/parameter.py:1483-1509 [assign_values], 1459-1480 [assign_values_jit] *)
Fixpoint assign_each (st : state) (ps : list nat) (vs : list num) : state :=
  match ps, vs with
  | i :: ps', v :: vs' => assign_each (assign st i v) ps' vs'
  | _, _ => st
  end.
Definition assign_values (st : state) (ps : list obj) (vin : values_in) (allow_partial : bool) : outcome :=
  match convert_values (fun i => p_name (st_par st i)) ps vin allow_partial with
  | Err e => (st, Some e)
  | Ok (ids, vs) => (assign_each st ids vs, None)
  end.
