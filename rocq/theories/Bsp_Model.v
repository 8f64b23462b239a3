(** Binned spaces: the binning in zfit/core/space.py [Space.__init__], [with_obs], [with_axes], [with_limits],
    [combine_spaces], [equal_space] and zfit/_variables/axis.py. Simplified: spaces with observables, one rectangular
    limit for each of them, no labels; numbers are exact. *)
From Coq Require Import List String Arith Bool ZArith QArith.Qcanon.
From Verif Require Import Base.
Import ListNotations.
Open Scope string_scope.
Open Scope list_scope.

(** Axes: those of hist, with or without a transformation, and those of zfit, which are
    subclasses of the same. [Other] are the other axes of hist (integer, category, ...). *)
Inductive axis : Type :=
| Regular (name : string) (bins : nat) (start stop : Qc) (transform : bool)
| Varied (name : string) (edges : list Qc)
| Other (name : string).
Definition name (a : axis) : string := match a with Regular n _ _ _ _ => n | Varied n _ => n | Other n => n end.

(** The edges of a regular axis of hist, [start + i * (stop - start) / bins]. With a
    transformation only the first and the last one are known here. *)
Definition nat_Qc (i : nat) : Qc := Q2Qc (QArith_base.inject_Z (Z.of_nat i)).
Definition regular_edges (n : nat) (a b : Qc) : list Qc := map (fun i => a + nat_Qc i * ((b - a) / nat_Qc n))%Qc (seq 0 (S n)).
Definition edges (a : axis) : list Qc :=
  match a with Regular _ n s t _ => regular_edges n s t | Varied _ e => e | Other _ => [] end.
Definition first_edge (a : axis) : Qc := hd 0%Qc (edges a).
Definition last_edge (a : axis) : Qc := last (edges a) 0%Qc.

(** _variables/axis.py:64-79 [HashableAxisMixin], [RegularBinning], [VariableBinning]; the
    checks of hist: at least one bin, not an empty range (both ValueError here). *)
Definition regular_binning (n : string) (bins : nat) (a b : Qc) : result axis :=
  if Nat.eqb bins 0 then Err ValueError
  else if Qc_eq_bool a b then Err ValueError
  else if String.eqb n "" then Err ValueError
  else Ok (Regular n bins a b false).
Definition variable_binning (n : string) (e : list Qc) : result axis :=
  if String.eqb n "" then Err ValueError else Ok (Varied n e).

(** axis.py:98-114 [new_from_axis]; 117-121 [histaxes_to_binning] *)
Definition new_from_axis (a : axis) : result axis :=
  match a with
  | Regular n bins _ _ transform =>
      if transform then Err ValueError else regular_binning n bins (first_edge a) (last_edge a)
  | Varied n e => variable_binning n e
  | Other _ => Err ValueError
  end.
Fixpoint histaxes_to_binning (l : list axis) : result (list axis) :=
  match l with
  | [] => Ok []
  | a :: r => let* a' := new_from_axis a in let* r' := histaxes_to_binning r in Ok (a' :: r')
  end.

(** [Binnings[name]], hist's NamedAxesTuple: the first axis of the name, KeyError without one. *)
Fixpoint axis_named (n : string) (l : list axis) : result axis :=
  match l with
  | [] => Err KeyError
  | a :: r => if String.eqb n (name a) then Ok a else axis_named n r
  end.
Fixpoint axes_named (ns : list string) (l : list axis) : result (list axis) :=
  match ns with
  | [] => Ok []
  | n :: r => let* a := axis_named n l in let* r' := axes_named r l in Ok (a :: r')
  end.

(** A space: its observables, its limits by observable, its axes in the order of the observables. *)
Definition range : Type := (Qc * Qc)%type.
Record space : Type := Space { s_obs : list string; s_limits : option (list (string * range)); s_binning : option (list axis) }.

(** What is given as binning: nothing, one number, several numbers, axes, or a [Binnings]. What is
    given as limits: by position, or the limits of another space by name. *)
Inductive binning_arg : Type := NoBinning | Bins (n : nat) | BinsEach (l : list nat) | Axes (l : list axis) | OfSpace (l : list axis).
Inductive limits_arg : Type := NoLimits | Ranges (l : list range) | ByName (l : list (string * range)).

(** space.py:1313-1326 *)
Definition convert_binning (b : binning_arg) : result binning_arg :=
  match b with
  | Axes [] => Ok (BinsEach []) (* all() of nothing is True *)
  | Axes l => let* l' := histaxes_to_binning l in Ok (OfSpace l')
  | OfSpace l => if existsb (fun a => String.eqb (name a) "") l then Err TypeError else Ok b
  | _ => Ok b
  end.

(** space.py:1325-1327; coordinates without observables (1327, [Coordinates.__init__]). *)
Definition choose_obs (obs : option (list string)) (b : binning_arg) : result (list string) :=
  match obs, b with
  | Some (o :: r), _ => Ok (o :: r)
  | None, OfSpace l => match l with [] => Err CoordinatesUnderdefinedError | _ => Ok (map name l) end
  | _, _ => Err CoordinatesUnderdefinedError
  end.

(** space.py:1343-1347: limits from the axes, in the order of the axes. Numbers of bins have no
    edges (AttributeError). *)
Definition limits_from (b : binning_arg) (lims : limits_arg) : result limits_arg :=
  match lims, b with
  | NoLimits, OfSpace l => Ok (Ranges (map (fun a => (first_edge a, last_edge a)) l))
  | NoLimits, BinsEach (_ :: _) => Err AttributeError
  | _, _ => Ok lims
  end.

(** space.py:1349-1356 [_check_convert_input_limits] for rectangular limits: attached to the
    observables in order; of a dictionary those of the observables are taken. *)
Definition convert_limits (obs : list string) (lims : limits_arg) : result (option (list (string * range))) :=
  match lims with
  | NoLimits => Ok None
  | Ranges l => if Nat.eqb (length l) (length obs) then Ok (Some (combine obs l)) else Err ShapeIncompatibleError
  | ByName d => let* rs := match all_some (map (fun o => lookup String.eqb o d) obs) with Some rs => Ok rs | None => Err KeyError end in
                Ok (Some (combine obs rs))
  end.

(** space.py:1360-1378: regular axes from numbers of bins and the limits. *)
Fixpoint autobinning (l : list nat) (lims : list (string * range)) : result (list axis) :=
  match l, lims with
  | n :: l', (o, (lo, up)) :: lims' =>
      if Nat.ltb n 1 then Err ValueError
      else let* a := regular_binning o n lo up in let* r := autobinning l' lims' in Ok (a :: r)
  | _, _ => Ok []
  end.
Definition from_numbers (obs : list string) (lims : option (list (string * range))) (l : list nat) : result (list axis) :=
  if negb (Nat.eqb (length l) (length obs)) then Err ShapeIncompatibleError
  else match lims with None => Err TypeError | Some d => autobinning l d end.

(** space.py:1379-1390 *)
Definition by_name (obs : list string) (l : list axis) : result (list axis) :=
  if negb (subsetb String.eqb (map name l) obs) then Err ObsIncompatibleError
  else if negb (subsetb String.eqb obs (map name l)) then Err ObsIncompatibleError
  else axes_named obs l.

(** space.py:1251-1391 [Space.__init__] *)
Definition make_space (obs : option (list string)) (lims : limits_arg) (b : binning_arg) : result space :=
  let* b := convert_binning b in
  let* obs := choose_obs obs b in
  let* lims := limits_from b lims in
  let* d := convert_limits obs lims in
  let* l := match b with
            | NoBinning => Ok None
            | Bins n => let* l := from_numbers obs d [n] in Ok (Some l)
            | BinsEach k => let* l := from_numbers obs d k in Ok (Some l)
            | OfSpace l | Axes l => Ok (Some l)
            end in
  match l with
  | None => Ok (Space obs d None)
  | Some l => let* l' := by_name obs l in Ok (Space obs d (Some l'))
  end.

(** space.py:1400-1408: the binning as an argument; limits as an argument. *)
Definition own_binning (s : space) : binning_arg := match s_binning s with None => NoBinning | Some l => OfSpace l end.
Definition own_limits (s : space) : limits_arg := match s_limits s with None => NoLimits | Some d => ByName d end.

(** space.py:1918-1938 [with_obs] with observables (supersets and subsets allowed; Coord_Model.v has
    the rest): ObsIncompatibleError if none is its own. *)
Definition with_obs (s : space) (obs : list string) : result space :=
  let new := filter (fun o => mem String.eqb o (s_obs s)) obs in
  match new with
  | [] => Err ObsIncompatibleError
  | _ => 
    let* b := match s_binning s with None => Ok NoBinning | Some l => let* l' := axes_named new l in Ok (Axes l') end in
    make_space (Some new) (own_limits s) b
  end.

(** space.py:1998-2003 [with_axes] where the space has axes, given beside it in the order of its
    observables: the coordinates are sorted and cut, the binning is given as it is. *)
Definition with_axes (s : space) (own : list nat) (axes : list nat) : result space :=
  let keep := filter (fun i => mem Nat.eqb i own) axes in
  match all_some (map (fun i => lookup Nat.eqb i (combine own (s_obs s))) keep) with
  | None => Err ValueError
  | Some [] => Err AxesIncompatibleError
  | Some new => make_space (Some new) (own_limits s) (own_binning s)
  end.

(** space.py:2098-2133 [get_subspace] by observables: the limits and the labels are given to the new space. *)
Definition get_subspace (s : space) (obs : list string) : result space :=
  let new := filter (fun o => mem String.eqb o (s_obs s)) obs in
  match new with
  | [] => Err ObsIncompatibleError
  | _ => make_space (Some new) (own_limits s) NoBinning
  end.

(** space.py:1823-1842 [with_limits]; 2143-2144 [with_binning] through [copy] *)
Definition with_limits (s : space) (lims : limits_arg) : result space := make_space (Some (s_obs s)) lims (own_binning s).
Definition with_binning (s : space) (b : binning_arg) : result space := make_space (Some (s_obs s)) (own_limits s) b.

(** Equality of axes of hist: same kind, name and edges. *)
Definition axis_eq_dec (a b : axis) : {a = b} + {a <> b}.
Proof. decide equality; try apply Qc_eq_dec; try apply String.string_dec; try apply Nat.eq_dec; try apply Bool.bool_dec.
  apply list_eq_dec, Qc_eq_dec. Defined.
Definition axis_eqb (a b : axis) : bool := if axis_eq_dec a b then true else false.

(** core/dimension.py:99-123 [common_obs] *)
Definition add_new (l : list string) (o : string) : list string := if mem String.eqb o l then l else l ++ [o].
Definition common_obs (ss : list space) : list string := fold_left add_new (concat (map s_obs ss)) [].

(** space.py:2340-2350: the axes for each observable of all spaces that have it, equal ones once. *)
Definition add_axis (o : string) (acc : list axis) (s : space) : list axis :=
  match s_binning s with
  | None => acc
  | Some l => if mem String.eqb o (s_obs s)
              then match axis_named o l with Ok a => if mem axis_eqb a acc then acc else acc ++ [a] | Err _ => acc end
              else acc
  end.
Definition collect_axes (ss : list space) (obs : list string) : list axis :=
  fold_left (fun acc o => fold_left (add_axis o) ss acc) obs [].

(** space.py:2275-2530 [combine_spaces], simplified: where several spaces have limits for an observable they have to
    be the same ones (Comb_Model.v has the rest). *)
Definition limit_of (o : string) (s : space) : option range := match s_limits s with None => None | Some d => lookup String.eqb o d end.
Definition range_eqb (a b : range) : bool := Qc_eq_bool (fst a) (fst b) && Qc_eq_bool (snd a) (snd b).
Fixpoint common_limit (o : string) (ss : list space) : result (option range) :=
  match ss with
  | [] => Ok None
  | s :: r =>
      let* x := common_limit o r in
      match limit_of o s, x with
      | None, _ => Ok x
      | Some y, None => Ok (Some y)
      | Some y, Some z => if range_eqb y z then Ok (Some y) else Err LimitsIncompatibleError
      end
  end.
Fixpoint common_limits (obs : list string) (ss : list space) : result (list (string * range)) :=
  match obs with
  | [] => Ok []
  | o :: r => 
      let* x := common_limit o ss in
      let* d := common_limits r ss in
      match x with None => Err LimitsNotSpecifiedError | Some y => Ok ((o, y) :: d) end
  end.
Definition is_binned (s : space) : bool := match s_binning s with None => false | Some _ => true end.
Definition combine_spaces (ss : list space) : result space :=
  let obs := common_obs ss in
  if negb (forallb is_binned ss || forallb (fun s => negb (is_binned s)) ss) then Err ValueError
  else
    let* d := common_limits obs ss in
    make_space (Some obs) (ByName d) (if forallb is_binned ss then OfSpace (collect_axes ss obs) else NoBinning).

(** space.py:2597-2612 [equal_space] for rectangular limits: the observables as a set, the axes in their order, the
    limits by observable. *)
Definition axes_eqb (a b : option (list axis)) : bool :=
  match a, b with
  | None, None => true
  | Some l, Some k => if list_eq_dec axis_eq_dec l k then true else false
  | _, _ => false
  end.
Definition same_limits (s t : space) : bool :=
  match s_limits s, s_limits t with
  | None, None => true
  | Some d, Some e => forallb (fun o => match lookup String.eqb o d, lookup String.eqb o e with Some x, Some y => range_eqb x y | _, _ => false end) (s_obs s)
  | _, _ => false
  end.
Definition equal_space (s t : space) : bool :=
  set_eqb String.eqb (s_obs s) (s_obs t) && axes_eqb (s_binning s) (s_binning t) && same_limits s t.
