(** Model of zfit/core/coordinates.py (class [Coordinates]).

    Observables are strings, axes are integers. Conversion of single values to
    tuples (convert_to_container) and the type checks of convert_to_obs_str /
    convert_to_axes (lines 414-455) happen before and are not modelled: the model
    starts from tuples of the right types. *)
From Verif Require Import Base.

Notation obs_t := string (only parsing).
Notation axis_t := Z (only parsing).

(** core/coordinates.py:23-81, the three attributes of a Coordinates object
    ([n_obs] is derived, lines 51 and 56). *)
Record coords := mkCoords { c_obs : option (list obs_t); c_axes : option (list axis_t) }.

(** core/coordinates.py:51,56 *)
Definition n_obs (c : coords) : nat :=
  match c_obs c with
  | Some o => length o
  | None => match c_axes c with Some a => length a | None => 0 end
  end.

Definition nonempty {A} (l : option (list A)) : bool :=
  match l with Some (_ :: _) => true | _ => false end.

(** core/coordinates.py:30-63 [_check_convert_obs_axes] followed by the assignments
    of [__init__] (24-28). The branch for a Coordinates object given as obs (32-41)
    just copies and is omitted. *)
Definition make_coords (obs : option (list obs_t)) (axes : option (list axis_t)) : result coords :=
  match obs, axes with
  | None, None => Err CoordinatesUnderdefinedError
  | Some o, Some a =>
      if negb (Nat.eqb (length o) (length a)) then Err CoordinatesIncompatibleError
      else if negb (nonempty obs || nonempty axes) then Err CoordinatesUnderdefinedError
      else Ok (mkCoords obs axes)
  | _, _ =>
      if negb (nonempty obs || nonempty axes) then Err CoordinatesUnderdefinedError
      else Ok (mkCoords obs axes)
  end.

(** core/coordinates.py:410-411 [_reorder_indices]: [tuple(old.index(o) for o in new)],
    ValueError if an element is missing. *)
Definition reorder_indices {A} (eqb : A -> A -> bool) (old new : list A) : result (list nat) :=
  opt_result ValueError (all_some (map (fun o => index_of eqb o old) new)).

(** core/coordinates.py:256-260 and 262-266 [_reorder_obs] / [_reorder_axes]. *)
Definition reorder_tuple {A} (t : option (list A)) (indices : list nat) : result (option (list A)) :=
  match t with
  | None => Ok None
  | Some l => let* l' := opt_result IndexError (gather l indices) in Ok (Some l')
  end.

(** core/coordinates.py:268-297 [get_reorder_indices]. *)
Definition get_reorder_indices (c : coords) (obs : option (list obs_t)) (axes : option (list axis_t))
  : result (list nat) :=
  match c_obs c, obs with
  | Some own, Some o => reorder_indices String.eqb own (filter (fun x => mem String.eqb x own) o)
  | _, _ =>
      match c_axes c, axes with
      | Some own, Some a => reorder_indices Z.eqb own (filter (fun x => mem Z.eqb x own) a)
      | _, _ => Err CoordinatesUnderdefinedError
      end
  end.

(** core/coordinates.py:83-151 [with_obs]. *)
Definition with_obs (c : coords) (obs : option (list obs_t)) (allow_superset allow_subset : bool)
  : result coords :=
  match obs with
  | None =>
      match c_axes c with
      | None => Err AxesIncompatibleError
      | Some _ => make_coords None (c_axes c)
      end
  | Some o =>
      match c_obs c with
      | None => make_coords (Some o) (c_axes c)
      | Some own =>
          if negb (intersectsb String.eqb o own) then Err ObsIncompatibleError
          else if negb (set_eqb String.eqb o own)
                  && negb allow_superset && negb (subsetb String.eqb o own)
          then Err ObsIncompatibleError
          else if negb (set_eqb String.eqb o own)
                  && negb allow_subset && negb (subsetb String.eqb own o)
          then Err ObsIncompatibleError
          else
            let* idx := get_reorder_indices c (Some o) None in
            let* new_obs := reorder_tuple (c_obs c) idx in
            let* new_axes := reorder_tuple (c_axes c) idx in
            make_coords new_obs new_axes
      end
  end.

(** core/coordinates.py:153-222 [with_axes]. *)
Definition with_axes (c : coords) (axes : option (list axis_t)) (allow_superset allow_subset : bool)
  : result coords :=
  match axes with
  | None =>
      match c_obs c with
      | None => Err CoordinatesUnderdefinedError
      | Some _ => make_coords (c_obs c) None
      end
  | Some a =>
      if negb (nonempty (c_axes c))
         && match c_obs c with Some o => negb (Nat.eqb (length a) (length o)) | None => false end
      then Err AxesIncompatibleError
      else
      match c_axes c with
      | None => make_coords (c_obs c) (Some a)
      | Some own =>
          if negb (intersectsb Z.eqb a own) then Err AxesIncompatibleError
          else if negb (set_eqb Z.eqb a own)
                  && negb allow_superset && negb (subsetb Z.eqb a own)
          then Err AxesIncompatibleError
          else if negb (set_eqb Z.eqb a own)
                  && negb allow_subset && negb (subsetb Z.eqb own a)
          then Err AxesIncompatibleError
          else
            let* idx := get_reorder_indices c None (Some a) in
            let* new_obs := reorder_tuple (c_obs c) idx in
            let* new_axes := reorder_tuple (c_axes c) idx in
            make_coords new_obs new_axes
      end
  end.

(** core/coordinates.py:224-254 [with_autofill_axes]; [range(n)] *)
Definition range_axes (n : nat) : list axis_t := map Z.of_nat (seq 0 n).
Definition with_autofill_axes (c : coords) (overwrite : bool) : result coords :=
  if nonempty (c_axes c) && negb overwrite then Err AxesIncompatibleError
  else make_coords (c_obs c) (Some (range_axes (n_obs c))).

(** core/coordinates.py:299-381 [reorder_x] for one data row [x] (the last dimension of
    the tensor; the gather acts on every row alike). Line 369, a consistency check
    for [ZfitData] arguments, is not modelled: [x] is a plain tensor. The gather of
    line 381 raises if an index is out of range of the row. *)
Definition reorder_x {V} (c : coords) (x : list V)
  (x_obs : option (list obs_t)) (x_axes : option (list axis_t))
  (func_obs : option (list obs_t)) (func_axes : option (list axis_t)) : result (list V) :=
  let isS {B} (o : option B) := match o with Some _ => true | None => false end in
  let x_reorder := isS x_obs || isS x_axes in
  let func_reorder := isS func_obs || isS func_axes in
  if negb (xorb x_reorder func_reorder) then Err ValueError
  else
    let obs_given := if x_reorder then x_obs else func_obs in
    let axes_given := if x_reorder then x_axes else func_axes in
    let* idx :=
      match obs_given, c_obs c with
      | Some o, Some ((_ :: _) as own) =>
          if x_reorder then reorder_indices String.eqb o own else reorder_indices String.eqb own o
      | _, _ =>
          match axes_given, c_axes c with
          | Some a, Some ((_ :: _) as own) =>
              if x_reorder then reorder_indices Z.eqb a own else reorder_indices Z.eqb own a
          | _, _ => Err ValueError
          end
      end in
    opt_result IndexError (gather x idx).

(** core/coordinates.py:383-393 [__eq__] and 395-396 [__hash__]. *)
Definition coords_eqb (a b : coords) : bool :=
  (match c_obs a, c_obs b with Some x, Some y => set_eqb String.eqb x y | _, _ => false end)
  || (match c_axes a, c_axes b with Some x, Some y => set_eqb Z.eqb x y | _, _ => false end).
Definition coords_hash (_ : coords) : Z := 42%Z.
