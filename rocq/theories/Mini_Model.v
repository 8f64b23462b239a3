(** [minimize]: minimizers/baseminimizer.py [_check_convert_input], [_make_stateful],
    [_call_minimize]; and a result as context manager: minimizers/fitresult.py.

    The state is that of Param_Model.v. The minimiser itself is an arbitrary function on it.
    Not modelled: losses and parameters that are created from callables and arrays, and
    objects that are no parameters. *)
From Verif Require Import Base Param_Model.

(** A result: its parameters with their values. *)
Record fitres : Type := FitRes { fr_params : list (nat * num) }.

(** The argument [params]: nothing, parameters, a mapping from parameters to start values, or
    start values alone; a start value may be None. Objects are independent or composed
    parameters. *)
Inductive params_arg : Type :=
| PNone
| PParams (l : list obj)
| PMap (m : list (obj * option num))
| PVals (vs : list (option num)).

(** How the minimiser ends: with a result or an exception. *)
Inductive ended : Type := Done (r : fitres) | Fails (e : error).

Definition order_set (l : list nat) : list nat :=
  fold_left (fun acc x => if mem Nat.eqb x acc then acc else acc ++ [x]) l [].
Definition floating_ids (st : state) (ids : list nat) : list nat := filter (fun i => p_floating (st_par st i)) ids.
(** The pairs whose value is not None. *)
Fixpoint given {A} (m : list (A * option num)) : list (A * num) :=
  match m with
  | [] => []
  | (a, Some v) :: r => (a, v) :: given r
  | (_, None) :: r => given r
  end.

Section Minimize.
(** The independent parameters of a composed parameter, and of the loss. *)
Variable deps : string -> list nat.
Variable loss_params : list nat.
(** The decorator minimize_supports (46-97): whether the minimiser takes this init. *)
Variable supports : fitres -> bool.
(** The minimiser after it has set the values of init. *)
Variable core : list nat -> option fitres -> state -> state * ended.
(** strategy.fit_result, if there is a strategy that has one (506-512). *)
Variable kept : state -> option fitres.

(** core/parameter.py [get_params(floating=True)] of a parameter *)
Definition params_of (st : state) (o : obj) : list nat :=
  match o with
  | OIndep i => floating_ids st [i]
  | ODep s => floating_ids st (deps s)
  | OOther => []
  end.
(** 345: the parameters; no parameters at all are a TypeError of OrderedSet.union. *)
Definition extract (st : state) (os : list obj) : result (list nat) :=
  match os with
  | [] => Err TypeError
  | _ => Ok (order_set (concat (map (params_of st) os)))
  end.

(** 323-347: the start values are assigned, then the parameters extracted. *)
Definition set_start (st : state) (to_set : list (obj * num)) (os : list obj) : state * result (list nat) :=
  match to_set with
  | [] => (st, extract st os)
  | _ => match assign_values st (map fst to_set) (VSeq (map snd to_set)) false with
         | (st', Some e) => (st', Err e)
         | (st', None) => (st', extract st' os)
         end
  end.

(** 267-361 [_check_convert_input] with floating=True; [loss_init] if the loss is a result. *)
Definition check_convert_input (st : state) (loss_init : option fitres) (params : params_arg) (init : option fitres)
  : state * result (list nat * option fitres) :=
  let init := match loss_init with Some r => Some r | None => init end in
  let params := match loss_init, params with
                | Some r, PNone => PParams (map OIndep (map fst (fr_params r)))
                | _, PParams [] => PVals []
                | _, p => p
                end in
  let free := floating_ids st loss_params in
  (* 299-347 *)
  let '(st, ids, to_set) :=
    match params with
    | PNone => (st, Ok free, [])
    | PParams l => let (st, r) := set_start st [] l in (st, r, [])
    | PMap m => let to_set := given m in
                let (st, r) := set_start st to_set (map fst m) in (st, r, map fst to_set)
    | PVals vs =>
        if negb (Nat.eqb (length vs) (length free)) then (st, Err ValueError, [])
        else let to_set := given (combine (map OIndep free) vs) in
             let (st, r) := set_start st to_set (map OIndep free) in (st, r, map fst to_set)
    end in
  match ids with
  | Err e => (st, Err e)
  | Ok ids =>
      (* 349-353 *)
      let '(st, e) :=
        match init with
        | None => (st, None)
        | Some r =>
            let set_now := filter (fun i => mem Nat.eqb i (map fst (fr_params r)) && negb (mem Nat.eqb i (indep_ids to_set))) ids in
            assign_values st (map OIndep set_now) (VResult (fr_params r)) false
        end in
      match e with
      | Some e => (st, Err e)
      | None =>
          (* 354-359 *)
          match floating_ids st ids with
          | [] => (st, Err RuntimeError)
          | ids => (st, Ok (ids, init))
          end
      end
  end.

(** 490-522: what happens to the end of [_minimize]. *)
Definition handle (e : state * ended) : state * result (option fitres) :=
  match e with
  | (st, Done r) => (st, Ok (Some r))
  | (st, Fails e) =>
      match e with
      | FailMinimizeNaN | RuntimeError =>
          match kept st with Some r => (st, Ok (Some r)) | None => (st, Err e) end
      | MaximumIterationReached => (st, Ok None)
      | _ => (st, Err e)
      end
  end.

(** 479-522 [_call_minimize]. A minimiser that takes init assigns its values first
    (e.g. minimizer_minuit.py:171-172, minimizers_scipy.py:209-210); otherwise they are assigned
    in 501-503 and the minimiser is called without init. *)
Definition call_minimize (st : state) (ids : list nat) (init : option fitres) : state * result (option fitres) :=
  match init with
  | None => handle (core ids None st)
  | Some r =>
      let (st, e) := assign_values st (map OIndep ids) (VResult (fr_params r)) false in
      match e with
      | Some e => (st, Err e)
      | None => handle (core ids (if supports r then Some r else None) st)
      end
  end.

(** 381-477 [minimize], 538-565 [_make_stateful]. The flag tells whether the minimiser still has
    the state of this minimisation afterwards ([_state]). *)
Definition minimize (st : state) (loss_init : option fitres) (params : params_arg) (init : option fitres)
  : state * bool * result (option fitres) :=
  match check_convert_input st loss_init params init with
  | (st, Err e) => (st, false, Err e)
  | (st, Ok (ids, init)) =>
      let no_update := negb (r_auto_update (st_run st)) in
      let old_params := floating_ids st loss_params in
      let old_values := map (fun i => p_value (st_par st i)) old_params in
      match call_minimize st ids init with
      | (st, Err e) => (st, true, Err e)
      | (st, Ok r) =>
          if no_update then
            match set_values st (map OIndep old_params) (VSeq old_values) false with
            | (st, Some e) => (st, true, Err e)
            | (st, None) => (st, false, Ok r)
            end
          else (st, false, Ok r)
      end
  end.
End Minimize.

(** ** A result as context manager *)

(** fitresult.py:1574-1581 [__enter__], [__exit__], 1583-1596 [update_params]. A program uses
    results as context managers and changes parameters in between; every result has its own
    stack of remembered values. *)
Inductive rprog : Type :=
| RSkip
| RSeq (a b : rprog)
| RRaise (e : error)
| RTry (a handler : rprog)
| RWith (k : nat) (body : rprog)          (* with results[k]: body *)
| RUpdate (k : nat)                       (* results[k].update_params() *)
| RSet (i : nat) (v : num)                (* set_value *)
| RAssign (i : nat) (v : num)             (* assign *)
| RLimits (i : nat) (l u : option Q).     (* new limits *)

Definition stacks := nat -> list (list num).
Section Context.
Variable results : nat -> fitres.

Definition update_params (st : state) (k : nat) : outcome :=
  set_values st (map OIndep (map fst (fr_params (results k)))) (VResult (fr_params (results k))) false.

Definition enter (w : state * stacks) (k : nat) : (state * stacks) * option error :=
  let (st, ss) := w in
  let ids := map fst (fr_params (results k)) in
  let ss := upd ss k (map (fun i => p_value (st_par st i)) ids :: ss k) in
  let (st, e) := update_params st k in ((st, ss), e).
Definition leave (w : state * stacks) (k : nat) : (state * stacks) * option error :=
  let (st, ss) := w in
  match ss k with
  | [] => (w, Some IndexError)
  | old :: rest =>
      let ss := upd ss k rest in
      let (st, e) := set_values st (map OIndep (map fst (fr_params (results k)))) (VSeq old) false in ((st, ss), e)
  end.

Fixpoint rexec (p : rprog) (w : state * stacks) : (state * stacks) * option error :=
  match p with
  | RSkip => (w, None)
  | RSeq a b => match rexec a w with (w, None) => rexec b w | (w, Some e) => (w, Some e) end
  | RRaise e => (w, Some e)
  | RTry a h => match rexec a w with (w, None) => (w, None) | (w, Some _) => rexec h w end
  | RWith k body =>
      match enter w k with
      | (w, Some e) => (w, Some e)
      | (w, None) =>
          let (w, e) := rexec body w in
          match leave w k with
          | (w, None) => (w, e)
          | (w, Some e') => (w, Some e')
          end
      end
  | RUpdate k => let (st, e) := update_params (fst w) k in ((st, snd w), e)
  | RSet i v => let (st, e) := set_value (fst w) i v in ((st, snd w), e)
  | RAssign i v => ((assign (fst w) i v, snd w), None)
  | RLimits i l u =>
      let p := st_par (fst w) i in
      ((set_par (fst w) i (mkParam (p_name p) (p_raw p) l u (p_floating p)), snd w), None)
  end.
End Context.
