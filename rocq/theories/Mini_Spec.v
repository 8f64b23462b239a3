(** What the arguments of [minimize] mean: which parameters are minimised and from where. *)
From Verif Require Import Base Param_Model Param_Spec Mini_Model.

(** Everything but the values is the same. *)
Definition same_but_values (st st' : state) : Prop :=
  (forall i, p_name (st_par st' i) = p_name (st_par st i) /\ p_lower (st_par st' i) = p_lower (st_par st i) /\
             p_upper (st_par st' i) = p_upper (st_par st i) /\ p_floating (st_par st' i) = p_floating (st_par st i)) /\
  st_run st' = st_run st.
(** A minimiser that changes nothing but the values of the parameters it is given. *)
Definition moves_only_its_own (core : list nat -> option fitres -> state -> state * ended) : Prop :=
  forall ids init st, same_but_values st (fst (core ids init st)) /\
    (forall i, ~ In i ids -> st_par (fst (core ids init st)) i = st_par st i).

Section Meaning.
Variable deps : string -> list nat.
Variable loss_params : list nat.

(** The parameter [i] is, or is used by, the given object. *)
Definition used_by (i : nat) (o : obj) : Prop :=
  match o with OIndep j => j = i | ODep s => In i (deps s) | OOther => False end.
(** The parameters that are minimised: the floating ones of those given, else of the loss. *)
Definition minimised (st : state) (loss_init : option fitres) (params : params_arg) (i : nat) : Prop :=
  p_floating (st_par st i) = true /\
  match params, loss_init with
  | PNone, Some r => In i (map fst (fr_params r))
  | PNone, None | PVals _, _ => In i loss_params
  | PParams l, _ => exists o, In o l /\ used_by i o
  | PMap m, _ => exists o, In o (map fst m) /\ used_by i o
  end.
(** The start value given for a parameter. *)
Definition start_given (st : state) (params : params_arg) (i : nat) (v : num) : Prop :=
  match params with
  | PMap m => In (OIndep i, Some v) m
  | PVals vs => In (i, Some v) (combine (filter (fun i => p_floating (st_par st i)) loss_params) vs)
  | _ => False
  end.
(** The result that is used as init. *)
Definition init_used (loss_init init : option fitres) : option fitres :=
  match loss_init with Some _ => loss_init | None => init end.
(** The value a parameter has when the minimisation begins: the one given, else that of init if
    the parameter is minimised, else the current one. *)
Inductive start_value (st : state) (loss_init : option fitres) (params : params_arg) (init : option fitres) (i : nat) : num -> Prop :=
| start_is_given v : start_given st params i v -> start_value st loss_init params init i v
| start_is_init v r : (forall v, ~ start_given st params i v) -> init_used loss_init init = Some r ->
    minimised st loss_init params i -> In (i, v) (fr_params r) -> start_value st loss_init params init i v
| start_is_current : (forall v, ~ start_given st params i v) ->
    (forall r v, init_used loss_init init = Some r -> minimised st loss_init params i -> ~ In (i, v) (fr_params r)) ->
    start_value st loss_init params init i (p_raw (st_par st i)).
End Meaning.

(** Every parameter occurs once in a result, in the parameters of the loss, and as key of a
    mapping, as in Python. *)
Definition proper_result (r : option fitres) : Prop :=
  match r with Some r => NoDup (map fst (fr_params r)) | None => True end.
Definition proper_params (p : params_arg) : Prop :=
  match p with
  | PMap m => NoDup (map fst m) /\ ~ In OOther (map fst m)
  | PParams l => ~ In OOther l
  | _ => True
  end.

(** ** Results as context managers *)
(** The parameters accept the values of the result. *)
Definition accepts (st : state) (r : fitres) : Prop :=
  forall i v, In (i, v) (fr_params r) -> rejects (st_par st i) v = false.
Fixpoint keeps_limits (p : rprog) : Prop :=
  match p with
  | RSeq a b | RTry a b => keeps_limits a /\ keeps_limits b
  | RWith _ b => keeps_limits b
  | RLimits _ _ _ => False
  | _ => True
  end.
(** The results used for the blocks of the program have values that the parameters accept. *)
Fixpoint blocks_accepted (results : nat -> fitres) (st : state) (p : rprog) : Prop :=
  match p with
  | RSeq a b | RTry a b => blocks_accepted results st a /\ blocks_accepted results st b
  | RWith k b => accepts st (results k) /\ blocks_accepted results st b
  | _ => True
  end.
(** A program that changes values within blocks only, and only those of the parameters of the
    result of an enclosing block. *)
Fixpoint scoped (results : nat -> fitres) (inside : list nat) (p : rprog) : Prop :=
  match p with
  | RSeq a b | RTry a b => scoped results inside a /\ scoped results inside b
  | RWith k b => scoped results (map fst (fr_params (results k)) ++ inside) b
  | RUpdate k => incl (map fst (fr_params (results k))) inside
  | RSet i _ => In i inside
  | RAssign i v => In i inside /\ v <> PInf /\ v <> NInf
  | RLimits _ _ _ => False
  | RSkip | RRaise _ => True
  end.
