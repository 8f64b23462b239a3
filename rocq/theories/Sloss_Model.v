(** Model of [SimpleLoss] of zfit/core/loss.py: construction, value, sum with other losses,
    [create_new] and [from_any].

    Simplifications, everywhere in this file:
    - numbers are exact rationals, and parameters have no limits;
    - within a loss a parameter is identified by its name;
    - the argument [full] is left out, and so is compilation;
    - a function without arguments (the handler in 1489-1498) is the same as one that does not
      look at its argument. *)
From Verif Require Import Base.
From Coq Require Import ZArith.

(** The values of the independent parameters. *)
Definition env := string -> Q.
Definition set_env (e : env) (n : string) (v : Q) : env :=
  fun m => if String.eqb m n then v else e m.
Definition set_all (e : env) (pv : list (string * Q)) : env :=
  fold_left (fun e nv => set_env e (fst nv) (snd nv)) pv e.

(** A parameter: an independent one, or a composed one with the names of the independent ones it
    depends on and its function. *)
Inductive par :=
| Indep (name : string)
| Composed (name : string) (deps : list string) (f : env -> Q).
Definition p_name (p : par) : string := match p with Indep n => n | Composed n _ _ => n end.
Definition p_indep (p : par) : bool := match p with Indep _ => true | Composed _ _ _ => false end.
Definition p_value (p : par) (e : env) : Q :=
  match p with Indep n => e n | Composed _ _ f => f e end.
Definition p_deps (p : par) : list string := match p with Indep n => [n] | Composed _ d _ => d end.

(** ordered sets: an element is added at the end if it is not yet there *)
Definition add_par (l : list par) (p : par) : list par :=
  if mem String.eqb (p_name p) (map p_name l) then l else l ++ [p].
Definition union (a b : list par) : list par := fold_left add_par b a.

(** core/baseobject.py:262-287 [extract_filter_params] with floating=None *)
Definition independents (ps : list par) : list par :=
  union [] (map Indep (flat_map p_deps ps)).
Definition everything (ps : list par) : list par := union (union [] ps) (independents ps).

(** A loss: a [SimpleLoss] with a function of the values of its parameters; a loss of another kind
    ([kind] is its class) with its parameters (as from [get_params] with extract_independent=None)
    and its value; the sum of a [SimpleLoss] and a loss (1505-1559), which is a [SimpleLoss]. *)
Inductive loss :=
| Simple (func : list Q -> result Q) (params : list par) (errordef : Q)
| Other (kind : nat) (value : env -> result Q) (params : list par) (errordef : Q)
| Sum (a b : loss).

(** 1479-1484; 1559: the errordef of the sum is that of the first *)
Fixpoint errordef (l : loss) : Q :=
  match l with
  | Simple _ _ ed | Other _ _ _ ed => ed
  | Sum a _ => errordef a
  end.

(** 1432-1446 [_get_params] with floating=None, is_yield=None and extract_independent=None, and
    1554-1557: the parameters of a sum *)
Fixpoint all_params (l : loss) : list par :=
  match l with
  | Simple _ ps _ | Other _ _ ps _ => everything ps
  | Sum a b => everything (union (all_params a) (all_params b))
  end.
(** [self._params] of a [SimpleLoss] *)
Definition own_params (l : loss) : list par :=
  match l with
  | Simple _ ps _ | Other _ _ ps _ => ps
  | Sum a b => union (all_params a) (all_params b)
  end.
(** ... and with extract_independent=True: the names *)
Definition indep_names (l : loss) : list string := map p_name (independents (own_params l)).

(** 1508 *)
Definition scale (a b : loss) : Q :=
  if Qeq_bool (errordef a) (errordef b) then 1%Q else (errordef a / errordef b)%Q.

(** 1528: [{name: p for name, p in params if name in selfnames}] runs over the names; each name is
    taken apart into two. A single character as a value cannot be set. *)
Definition first_char (s : string) : string := substring 0 1 s.
Definition take_apart (names selfnames : list string) : result (list (string * Q)) :=
  if negb (forallb (fun n => Nat.eqb (String.length n) 2) names) then Err ValueError
  else if existsb (fun n => mem String.eqb (first_char n) selfnames) names then Err ValueError
  else Ok [].

(** core/baseobject.py:209-231: the names have to be names of parameters of the loss *)
Definition check_names (l : loss) (pv : list (string * Q)) : bool :=
  subsetb String.eqb (map fst pv) (indep_names l).

(** 527-556 [value] with given values [pv], 1485-1500 [_loss_func], 1510-1537 the function of a
    sum *)
Fixpoint value (l : loss) (pv : list (string * Q)) (e0 : env) : result Q :=
  if negb (check_names l pv) then Err ValueError
  else
    let e := set_all e0 pv in
    match l with
    | Simple f ps _ => f (map (fun p => p_value p e) ps)
    | Other _ g _ _ => g e
    | Sum a b =>
        let ps := union (all_params a) (all_params b) in
        let* pvs :=
          if forallb p_indep ps then
            let* pa := take_apart (map p_name ps) (indep_names a) in
            let pb := map (fun p => (p_name p, p_value p e))
                        (filter (fun p => mem String.eqb (p_name p) (indep_names b)) ps) in
            Ok (pa, pb)
          else if Nat.eqb (length ps) (length (indep_names a) + length (indep_names b)) then
            let vals := map (fun p => p_value p e) ps in
            Ok (combine (indep_names a) (firstn (length (indep_names a)) vals),
                combine (indep_names b) (skipn (length (indep_names a)) vals))
          else Err ValueError in
        let* va := value a (fst pvs) e in
        let* vb := value b (snd pvs) e in
        Ok (va + scale a b * vb)%Q
    end.

(** The class of a loss; sums are [SimpleLoss]es. *)
Definition kind_of (l : loss) : option nat := match l with Other k _ _ _ => Some k | _ => None end.
(** 583-597 [BaseLoss.__add__] (the sum of two losses of the same other kind is the subject of
    another model: [plus_same]) and 1505-1507 [SimpleLoss.__add__] *)
Definition add (plus_same : loss -> loss -> loss) (a b : loss) : result loss :=
  match kind_of a with
  | None => Ok (Sum a b)
  | Some k =>
      match kind_of b with
      | Some k' => if Nat.eqb k k' then Ok (plus_same a b) else Err ValueError
      | None => Err ValueError
      end
  end.

(** What is given for a [SimpleLoss]: the function, which may have an attribute errordef, the
    parameters, the errordef, and whether a gradient and a Hessian are given as functions. *)
Record simple := mkSimple {
  s_func : list Q -> result Q;
  s_attr : option Q;
  s_params : list par;
  s_errordef : Q;
  s_grad : bool;
  s_hess : bool }.

(** 1290-1424 [__init__]; [None] for the parameters is the BreakingAPIChangeError of 1398-1403 *)
Definition BreakingAPIChangeError := UserError 4.
Definition make_simple (func : list Q -> result Q) (attr : option Q) (params : option (list par))
    (errordef : option Q) (grad hess : bool) : result simple :=
  match params with
  | None => Err BreakingAPIChangeError
  | Some ps =>
      match attr, errordef with
      | Some _, Some _ => Err ValueError
      | Some ed, None => Ok (mkSimple func attr ps ed grad hess)
      | None, Some ed => Ok (mkSimple func attr ps ed grad hess)
      | None, None => Err ValueError
      end
  end.
Definition to_loss (s : simple) : loss := Simple (s_func s) (s_params s) (s_errordef s).

(** 1561-1574 [create_new]; a new function comes with its own attribute errordef *)
Definition create_new (s : simple) (func : option ((list Q -> result Q) * option Q))
    (params : option (list par)) (errordef : option Q) : result simple :=
  let (f, attr) := match func with Some fa => fa | None => (s_func s, s_attr s) end in
  let ps := match params with Some ps => ps | None => s_params s end in
  let ed := match errordef with Some ed => ed | None => s_errordef s end in
  make_simple f attr (Some ps) (Some ed) false false.

(** 1462-1466 [register_convertable_loss]: the list is sorted by descending priority after each
    registration; Python's sorting is stable. A converter returns a loss or False ([None]). *)
Section Convert.
Context {A B : Type}.
Record converter := mkConv { priority : Z; conv : A -> option B }.
Fixpoint insert_desc (c : converter) (l : list converter) : list converter :=
  match l with
  | [] => [c]
  | d :: r => if (priority d <? priority c)%Z then c :: l else d :: insert_desc c r
  end.
Definition sort_desc (l : list converter) : list converter :=
  fold_left (fun acc c => insert_desc c acc) l [].
Definition register (l : list converter) (c : converter) : list converter := sort_desc (l ++ [c]).
(** 1468-1481 [from_any] *)
Fixpoint from_any (l : list converter) (x : A) : result B :=
  match l with
  | [] => Err RuntimeError
  | c :: r => match conv c x with Some b => Ok b | None => from_any r x end
  end.
End Convert.
Arguments converter : clear implicits.
