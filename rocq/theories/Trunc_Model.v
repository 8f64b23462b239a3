(** Model of the truncated PDF (models/truncated.py), row by row and as a model in the sense of the dispatch
    (Disp_Model). One observable: the limits are ordered by [v1.lower] (56), which exists for one observable only. *)
From Verif Require Import Base Disp_Model Sum_Model.
#[local] Open Scope R_scope.

Definition Rleb (a b : R) : bool := if Rle_dec a b then true else false.
Definition interval : Type := R * R.

(** 56: [sorted(limits, key=lambda limit: limit.v1.lower)], a stable sort *)
Fixpoint insert (l : interval) (ls : list interval) : list interval :=
  match ls with
  | [] => [l]
  | m :: r => if Rleb (fst l) (fst m) then l :: ls else m :: insert l r
  end.
Fixpoint sorted_limits (ls : list interval) : list interval :=
  match ls with [] => [] | l :: r => insert l (sorted_limits r) end.
(** 60-68 [check_overlap] *)
Fixpoint overlap (ls : list interval) : bool :=
  match ls with
  | [] => false
  | l :: r => existsb (fun m => negb (Rleb (snd l) (fst m))) r || overlap r
  end.
(** 26-57 [check_limits], for limits given as a sequence of spaces; the conversion of numbers to spaces is not modelled *)
Definition check_limits (ls : list interval) : result (list interval) :=
  let ls' := sorted_limits ls in
  if Nat.eqb (length ls') 1 then Ok ls'
  else if overlap ls' then Err ValueError else Ok ls'.

(** core/space.py:223-235 [inside_rect_limits], for one row of one observable *)
Definition inside (l : interval) (x : R) : bool := Rleb (fst l) x && Rleb x (snd l).

(** [znp.any(arrays, axis=0)]: entry by entry; [n] is the number of rows. With no limits at all the call
    is not modelled (the array then has no entries). *)
Fixpoint any_rows (n : nat) (arrays : list (list bool)) : list bool :=
  match arrays with
  | [] => repeat false n
  | a :: r => map (fun p => fst p || snd p) (combine a (any_rows n r))
  end.
(** [znp.transpose(znp.where(mask))]: the positions, and [xarray[mask]]: the rows, where the mask is true *)
Fixpoint positions (i : nat) (mask : list bool) : list nat :=
  match mask with
  | [] => []
  | b :: r => if b then i :: positions (S i) r else positions (S i) r
  end.
Fixpoint masked {A : Type} (mask : list bool) (xs : list A) : list A :=
  match mask, xs with
  | b :: mask, x :: xs => if b then x :: masked mask xs else masked mask xs
  | _, _ => []
  end.
(** [tf.scatter_nd(indices, updates, shape)]: zeros, to which each update is added at its index; the numbers of indices and
    updates have to agree, and every index has to be within the shape. *)
Fixpoint add_at (i : nat) (v : R) (l : list R) : option (list R) :=
  match i, l with
  | _, [] => None
  | O, x :: r => Some (x + v :: r)
  | S i, x :: r => match add_at i v r with Some r' => Some (x :: r') | None => None end
  end.
Fixpoint scatter (ps : list (nat * R)) (acc : list R) : result (list R) :=
  match ps with
  | [] => Ok acc
  | (i, v) :: ps => match add_at i v acc with Some acc' => scatter ps acc' | None => Err InvalidArgumentError end
  end.
Definition scatter_nd (idx : list nat) (vs : list R) (n : nat) : result (list R) :=
  if Nat.eqb (length idx) (length vs) then scatter (combine idx vs) (repeat 0 n) else Err InvalidArgumentError.

(** 204-216 [_unnormalized_pdf]. [wrapped]: the unnormalised pdf of the wrapped PDF, for a data set. *)
Definition trunc_unnorm (limits : list interval) (wrapped : list R -> result (list R)) (xs : list R) : result (list R) :=
  let mask := any_rows (length xs) (map (fun l => map (inside l) xs) limits) in
  let* prob := wrapped (masked mask xs) in
  scatter_nd (positions 0 mask) prob (length xs).

(** The wrapped PDF as a function of data sets: row by row. An exception ends the call. *)
Definition rows_of (w : model interval R) (xs : list R) : result (list R) :=
  mapM (fun x => match pdf w x NormFalse with Val v => Ok v | _ => Err (UserError 0) end) xs.

Section Trunc.
(** [eager]: [run.executing_eagerly()]; [eq_space], [eq_norm]: [limits == self.space], and for the norm; [numeric]: the numeric
    integration of the truncated function. *)
Variable eager : bool.
Variable eq_space eq_norm : list interval -> bool.
Variable numeric : list interval -> outcome.

(** 218-234 [_integrate] *)
Definition trunc_integrate_hook (w : model interval R) (limits : list interval) : hook interval :=
  mkHook (mkSupp false false false false)
    (fun ls _ => if negb eager || negb (eq_space ls) then ENotImpl
                 else sum_all (map (fun l => integrate w [l] NormFalse) limits)).
(** 236-252 [_analytic_integrate] *)
Definition trunc_analytic_hook (w : model interval R) (limits : list interval) : hook interval :=
  mkHook (mkSupp false false false false)
    (fun ls _ => if negb eager || negb (eq_space ls) then EAnalytic
                 else sum_all (map (fun l => analytic_integrate w [l] NormFalse) limits)).

(** 163-192 [__init__]: the yield. [scaled_yield] (168-172) is the yield of the wrapped PDF times the fraction of the integral
    over the space that is within the limits; that its value has the shape (1,) is not modelled. [extended=True] for a PDF that
    is not extended makes True the yield (core/basepdf.py:757). The renaming of parameters (176-187) is not modelled. *)
Definition scaled_yield (w : model interval R) (sp : interval) (limits : list interval) (y : R) : outcome :=
  match integrate w [sp] NormFalse with
  | Val base => map_val (fun s => y * s)
                  (sum_all (map (fun l => map_val (fun v => v / base) (integrate w [l] NormFalse)) limits))
  | e => e
  end.
Definition trunc_yield (w : model interval R) (sp : interval) (limits : list interval) (ext : ext_arg) : option outcome :=
  let ext := match ext with
             | ExtNone => match m_yield w with Some _ => ExtTrue | None => ExtFalse end
             | e => e
             end in
  match ext, m_yield w with
  | ExtTrue, Some y => Some (scaled_yield w sp limits y)
  | ExtTrue, None => Some (Val 1)
  | ExtYield y, _ => Some (Val y)
  | _, _ => None
  end.

(** The truncated PDF. [yield]: the value of its yield, if it is extended *)
Definition trunc_model (w : model interval R) (limits : list interval) (yield : option R) : model interval R :=
  mkModel eq_space eq_norm (Some (trunc_integrate_hook w limits)) (Some (trunc_analytic_hook w limits)) (fun _ => None) None numeric
    None None None None None
    (fun x => match trunc_unnorm limits (rows_of w) [x] with Ok [v] => Val v | _ => EOther end) yield.
(** 163, 193-196 [__init__]: the limits are checked; the observables have to be those of the wrapped PDF. The yield has to be a number. *)
Definition trunc_init (w_obs obs : list string) (w : model interval R) (sp : interval) (ls : list interval) (ext : ext_arg) : result (model interval R) :=
  let* limits := check_limits ls in
  match trunc_yield w sp limits ext with
  | None => if list_eq_dec string_dec obs w_obs then Ok (trunc_model w limits None) else Err ValueError
  | Some (Val y) => if list_eq_dec string_dec obs w_obs then Ok (trunc_model w limits (Some y)) else Err ValueError
  | Some _ => Err (UserError 0)
  end.
End Trunc.
