(** Model of zfit/core/space.py: [Limit], [Space], [MultiSpace] and the functions on
    them, and of zfit/core/dimension.py.

    Simplifications, everywhere in this file:
    - limit values are exact rationals (the code has float64 numbers or tensors),
      limits have n_events = 1 (line 376 rejects others unless an experimental flag is
      set), and the ANY range definitions (77-124) are not modelled;
    - a functional limit is a function together with an identity [fid] that stands
      for Python's [==] on functions;
    - eager mode: no symbolic tensors, so IllegalInGraphModeError never occurs;
    - names and labels of spaces are not modelled;
    - data is one row at a time (all functions act on each row alike). *)
From Verif Require Import Base Coord_Model.

Notation interval := (Q * Q)%type (only parsing).

(** core/space.py:290-423, the attributes of a [Limit]: the constructors are the four
    shapes that [_check_convert_input_limits] can leave behind: rect_limits None (352),
    False (346), rectangular (419) and functional. *)
Inductive limit :=
| LNone (n : nat)
| LFalse (n : nat)
| LRect (ivs : list interval)
| LFun (fid : nat) (fn : list Q -> bool) (ivs : list interval).

(** core/space.py:645-651 *)
Definition lim_n_obs (l : limit) : nat :=
  match l with
  | LNone n | LFalse n => n
  | LRect ivs | LFun _ _ ivs => length ivs
  end.

(** core/space.py:621-627, 629-635, 637-643, 443-445 *)
Definition lim_is_set (l : limit) : bool := match l with LNone _ => false | _ => true end.
Definition lim_is_false (l : limit) : bool := match l with LFalse _ => true | _ => false end.
Definition lim_has_rect (l : limit) : bool := match l with LRect _ => true | _ => false end.

(** What a user can pass as [limits]: nothing, False, (lower, upper), or a function with
    rect_limits. *)
Inductive limit_input :=
| INone
| IFalse
| IRect (lower upper : list Q)
| IFun (fid : nat) (fn : list Q -> bool) (lower upper : list Q).

Definition all_less (lower upper : list Q) : bool :=
  forallb (fun p => Qlt_bool (fst p) (snd p)) (combine lower upper).

(** core/space.py:321-423 [_check_convert_input_limits]. *)
Definition check_rect (lower upper : list Q) (n : nat) : result (list interval) :=
  if negb (Nat.eqb (length lower) (length upper)) then Err ShapeIncompatibleError
  else if negb (Nat.eqb (length lower) n) then Err ShapeIncompatibleError
  else if negb (all_less lower upper) then Err InvalidArgumentError
  else Ok (combine lower upper).
Definition make_limit (i : limit_input) (n : nat) : result limit :=
  match i with
  | INone => Ok (LNone n)
  | IFalse => Ok (LFalse n)
  | IRect lo up => let* ivs := check_rect lo up n in Ok (LRect ivs)
  | IFun fid fn lo up => let* ivs := check_rect lo up n in Ok (LFun fid fn ivs)
  end.

(** core/space.py:355, 410-419 and 731-739 [get_sublimits]. *)
Definition sublimits (l : limit) : list limit :=
  match l with
  | LNone n => if Nat.ltb 1 n then repeat (LNone 1) n else [l]
  | LFalse n => if Nat.ltb 1 n then repeat (LFalse 1) n else [l]
  | LRect ivs => if Nat.ltb 1 (length ivs) then map (fun iv => LRect [iv]) ivs else [l]
  | LFun _ _ _ => [l]
  end.

(** core/space.py:223-235 [inside_rect_limits]. *)
Definition inside_rect_limits (x : list Q) (ivs : list interval) : bool :=
  forallb (fun p => Qle_bool (fst p) (snd (snd p))) (combine x ivs)
  && forallb (fun p => Qle_bool (fst (snd p)) (fst p)) (combine x ivs).

(** core/space.py:252-269 [_sanitize_x_input]: the last dimension has to match. *)
Definition sanitize_x (x : list Q) (n : nat) : result (list Q) :=
  if Nat.eqb (length x) n then Ok x else Err ShapeIncompatibleError.

(** core/space.py:534-563 [Limit.inside] without guarantee_limits. *)
Definition lim_inside (l : limit) (x : list Q) : result bool :=
  let* x := sanitize_x x (lim_n_obs l) in
  match l with
  | LNone _ | LFalse _ => Err LimitsNotSpecifiedError
  | LRect ivs => Ok (inside_rect_limits x ivs)
  | LFun _ fn _ => Ok (fn x)
  end.

(** core/space.py:457-476 [Limit.rect_limits] *)
Definition lim_rect_limits (l : limit) : result (list interval) :=
  match l with
  | LNone _ | LFalse _ => Err LimitsNotSpecifiedError
  | LRect ivs | LFun _ _ ivs => Ok ivs
  end.

(** core/space.py:868-1214, 1253-1391: a [Space]. [_limits_dict] has an entry "obs"
    (present iff the space has observables) and an entry "axes"; each maps tuples of
    coordinates to limits, in insertion order. A binning is a list of named axes with
    their edges. *)
Notation dict K := (list (list K * limit)) (only parsing).
Definition binning := list (string * list Q).
Record space := mkSpace {
  s_coords : coords;
  s_dobs : option (dict string);
  s_daxes : option (dict Z);
  s_binning : option binning }.

Definition s_obs (s : space) := c_obs (s_coords s).
Definition s_axes (s : space) := c_axes (s_coords s).
Definition s_n_obs (s : space) : nat := n_obs (s_coords s).

(** core/space.py:1449-1457: the sublimits are attached to consecutive coordinates. *)
Fixpoint slice_dict {K} (names : list K) (lims : list limit) : dict K :=
  match lims with
  | [] => []
  | l :: r => (firstn (lim_n_obs l) names, l) :: slice_dict (skipn (lim_n_obs l) names) r
  end.

(** core/space.py:1475 and 1489: [ob[0] in obs] *)
Definition head_in {K} (eqb : K -> K -> bool) (own : list K) (e : list K * limit) : bool :=
  match fst e with k :: _ => mem eqb k own | [] => false end.

(** core/space.py:1479 and 1494: [tuple(to[from.index(c)] for c in key)] *)
Definition relabel_key {A B} (eqb : A -> A -> bool) (from : list A) (to : list B) (key : list A)
  : result (list B) :=
  mapM (fun a => match index_of eqb a from with
                 | Some i => opt_result IndexError (nth_error to i)
                 | None => Err ValueError
                 end) key.
Definition relabel_dict {A B} (eqb : A -> A -> bool) (from : option (list A)) (to : list B)
  (d : dict A) : result (dict B) :=
  match from with
  | None => Err AttributeError
  | Some from =>
      mapM (fun e => let* k := relabel_key eqb from to (fst e) in Ok (k, snd e)) d
  end.

(** core/space.py:1464-1509, the part of [_check_convert_input_limits] that starts from a
    limits dictionary. *)
Definition convert_limits_dict (c : coords) (dobs : option (dict string)) (daxes : option (dict Z))
  : result (option (dict string) * option (dict Z)) :=
  match dobs, daxes with
  | None, None => Err ValueError
  | _, _ =>
      let* no :=
        match c_obs c with
        | Some ((_ :: _) as obs) =>
            match dobs, daxes with
            | Some d, _ => Ok (Some (filter (head_in String.eqb obs) d))
            | None, Some d => let* r := relabel_dict Z.eqb (c_axes c) obs d in Ok (Some r)
            | None, None => Err ValueError
            end
        | _ => Ok None
        end in
      let* na :=
        match c_axes c with
        | Some ((_ :: _) as axes) =>
            match daxes, dobs with
            | Some d, _ => Ok (Some (filter (head_in Z.eqb axes) d))
            | None, Some d => let* r := relabel_dict String.eqb (c_obs c) axes d in Ok (Some r)
            | None, None => Err ValueError
            end
        | _ => Ok None
        end in
      Ok (no, na)
  end.

(** core/space.py:1378-1391: the names of the binning have to be the observables, and the
    binning is sorted by them. *)
Definition sort_binning (c : coords) (b : option binning) : result (option binning) :=
  match b with
  | None => Ok None
  | Some b =>
      match c_obs c with
      | None => Err TypeError
      | Some obs =>
          if negb (subsetb String.eqb (map fst b) obs) then Err ObsIncompatibleError
          else if negb (subsetb String.eqb obs (map fst b)) then Err ObsIncompatibleError
          else let* es := mapM (fun o => let* e := opt_result KeyError (lookup String.eqb o b) in
                                         Ok (o, e)) obs in
               Ok (Some es)
      end
  end.

(** core/space.py:1253-1391 [Space.__init__] with a limits dictionary (as all methods that
    derive a space from another one call it). *)
Definition space_of_dict (c : coords) (dobs : option (dict string)) (daxes : option (dict Z))
  (b : option binning) : result space :=
  let* (no, na) := convert_limits_dict c dobs daxes in
  let* b := sort_binning c b in
  Ok (mkSpace c no na b).

(** core/space.py:1342-1346: without limits, a binning defines them by its outer edges,
    in the order in which the binning lists its axes. *)
Definition edges_limits (b : binning) : limit_input :=
  IRect (map (fun e => hd 0%Q (snd e)) b) (map (fun e => last (snd e) 0%Q) b).

(** core/space.py:1253-1391 [Space.__init__] as called by a user; integer binnings (1356-1376)
    are not modelled. *)
Definition make_space (obs : option (list string)) (axes : option (list Z)) (i : limit_input)
  (b : option binning) : result space :=
  let obs := match obs, axes, b with
             | None, None, Some b => Some (map fst b)
             | _, _, _ => obs
             end in
  let* c := make_coords obs axes in
  let i := match i, b with INone, Some b => edges_limits b | _, _ => i end in
  let* l := make_limit i (n_obs c) in
  let subs := sublimits l in
  space_of_dict c (option_map (fun o => slice_dict o subs) (c_obs c))
                  (option_map (fun a => slice_dict a subs) (c_axes c)) b.

(** core/space.py:1711-1738. [self._limits_dict["obs" if self.obs else "axes"]] *)
Definition own_limits (s : space) : list limit :=
  if nonempty (s_obs s)
  then match s_dobs s with Some d => map snd d | None => [] end
  else match s_daxes s with Some d => map snd d | None => [] end.
Definition s_limits_are_set (s : space) : bool := forallb lim_is_set (own_limits s).
Definition s_limits_are_false (s : space) : bool := forallb lim_is_false (own_limits s).
Definition s_has_limits (s : space) : bool := s_limits_are_set s && negb (s_limits_are_false s).
(** core/space.py:1701-1709 *)
Definition s_has_rect (s : space) : bool :=
  match own_limits s with [] => false | l => forallb lim_has_rect l end.

(** core/space.py:1649-1671 [_rect_limits_z]: stack the limits in dictionary order and bring
    them into the order of the own coordinates. *)
Definition rect_limits_z (s : space) : result (list interval) :=
  match s_obs s with
  | Some _ =>
      let d := match s_dobs s with Some d => d | None => [] end in
      let* ivs := mapM (fun e => lim_rect_limits (snd e)) d in
      reorder_x (s_coords s) (concat ivs) (Some (concat (map fst d))) None None None
  | None =>
      let d := match s_daxes s with Some d => d | None => [] end in
      let* ivs := mapM (fun e => lim_rect_limits (snd e)) d in
      reorder_x (s_coords s) (concat ivs) None (Some (concat (map fst d))) None None
  end.

(** core/space.py:198-213 [fail_not_rect] *)
Definition fail_not_rect {A} (s : space) (r : result A) : result A :=
  if s_has_limits s && negb (s_has_rect s) then Err RuntimeError else r.

(** core/space.py:1538-1647 ([limits], [lower], [upper]; v1.limits 131-142) and 2135-2141 with
    216-219: [volume]. *)
Definition s_limits (s : space) : result (list interval) := fail_not_rect s (rect_limits_z s).
Definition rect_area (ivs : list interval) : Q :=
  fold_right Qmult 1%Q (map (fun iv => snd iv - fst iv)%Q ivs).
Definition s_volume (s : space) : result Q :=
  fail_not_rect s (let* ivs := rect_limits_z s in Ok (rect_area ivs)).

(** core/space.py:2175-2185 [Space._inside] *)
Definition s_inside' (s : space) (x : list Q) : result bool :=
  match s_obs s with
  | Some _ =>
      let d := match s_dobs s with Some d => d | None => [] end in
      let* bs := mapM (fun e => let* x' := reorder_x (s_coords s) x None None (Some (fst e)) None in
                                lim_inside (snd e) x') d in
      Ok (forallb (fun b => b) bs)
  | None =>
      let d := match s_daxes s with Some d => d | None => [] end in
      let* bs := mapM (fun e => let* x' := reorder_x (s_coords s) x None None None (Some (fst e)) in
                                lim_inside (snd e) x') d in
      Ok (forallb (fun b => b) bs)
  end.

(** core/space.py:877-896 [BaseSpace.inside] *)
Definition s_inside (s : space) (x : list Q) (guarantee_limits : bool) : result bool :=
  let* x := sanitize_x x (s_n_obs s) in
  if s_has_rect s && guarantee_limits then Ok true else s_inside' s x.

(** core/space.py:912-957 [filter] (tensor input): tf.boolean_mask keeps the rows whose mask
    is True. *)
Fixpoint boolean_mask {A} (rows : list A) (mask : list bool) : list A :=
  match rows, mask with
  | r :: rs, b :: bs => if b then r :: boolean_mask rs bs else boolean_mask rs bs
  | _, _ => []
  end.
Definition s_filter (s : space) (rows : list (list Q)) (guarantee_limits : bool) : result (list (list Q)) :=
  if s_has_rect s && guarantee_limits then Ok rows
  else let* mask := mapM (fun x => s_inside s x guarantee_limits) rows in
       Ok (boolean_mask rows mask).

(** core/space.py:940-952 [filter] for a dataframe: a row is a list of named cells; the query
    is the conjunction of [lower <= ob <= upper]; columns may be in any order and there
    may be more of them. *)
Definition df_row := list (string * Q).
Definition s_filter_df (s : space) (columns : list string) (rows : list df_row) (guarantee_limits : bool)
  : result (list df_row) :=
  if s_has_rect s && guarantee_limits then Ok rows
  else match s_obs s with
  | None => Err TypeError
  | Some obs =>
    if negb (subsetb String.eqb obs columns) then Err ValueError
    else let* ivs := s_limits s in
         let ok (r : df_row) :=
           forallb (fun p => match lookup String.eqb (fst p) r with
                             | Some v => Qle_bool (fst (snd p)) v && Qle_bool v (snd (snd p))
                             | None => false
                             end) (combine obs ivs) in
         Ok (filter ok rows)
  end.

(** core/space.py:1881-1938 [with_obs] *)
Definition s_with_obs (s : space) (obs : option (list string)) (allow_superset allow_subset : bool)
  : result space :=
  match obs with
  | None =>
      match s_obs s with
      | None => Ok s
      | Some _ =>
          match s_axes s with
          | None => Err AxesIncompatibleError
          | Some _ => let* c := make_coords None (s_axes s) in
                      space_of_dict c (s_dobs s) (s_daxes s) (s_binning s)
          end
      end
  | Some o =>
      let* c := with_obs (s_coords s) (Some o) allow_superset allow_subset in
      let* b := match s_binning s with
                | None => Ok None
                | Some b => let* es := mapM (fun ob => let* e := opt_result KeyError (lookup String.eqb ob b) in
                                                       Ok (ob, e))
                                            (filter (fun ob => match s_obs s with
                                                               | Some own => mem String.eqb ob own
                                                               | None => false end) o) in
                            Ok (Some es)
                end in
      space_of_dict c (s_dobs s) (s_daxes s) b
  end.

(** core/space.py:1940-2005 [with_axes] *)
Definition s_with_axes (s : space) (axes : option (list Z)) (allow_superset allow_subset : bool)
  : result space :=
  match axes with
  | None =>
      match s_axes s with
      | None => Ok s
      | Some _ =>
          match s_obs s with
          | None => Err ObsIncompatibleError
          | Some _ => let* c := make_coords (s_obs s) None in
                      space_of_dict c (s_dobs s) (s_daxes s) (s_binning s)
          end
      end
  | Some a =>
      match s_axes s with
      | None =>
          if negb (match s_obs s with Some o => Nat.eqb (length a) (length o) | None => false end)
          then Err AxesIncompatibleError
          else let* c := make_coords (s_obs s) (Some a) in
               space_of_dict c (s_dobs s) (s_daxes s) (s_binning s)
      | Some _ =>
          let* c := with_axes (s_coords s) (Some a) allow_superset allow_subset in
          space_of_dict c (s_dobs s) (s_daxes s) (s_binning s)
      end
  end.

(** core/space.py:2007-2065 [with_coords]; the argument is given by its coordinates. *)
Definition s_with_coords (s : space) (c : coords) (allow_superset allow_subset : bool) : result space :=
  match s_obs s, c_obs c with
  | Some _, Some o =>
      let* s1 := s_with_obs s (Some o) allow_superset allow_subset in
      match c_axes c with
      | None => Ok s1
      | Some _ =>
          let* s2 := match s_axes s1 with None => Ok s1 | Some _ => s_with_axes s1 None true true end in
          let* ca := with_obs c (s_obs s2) allow_superset allow_subset in
          s_with_axes s2 (c_axes ca) true true
      end
  | _, _ =>
      match s_axes s, c_axes c with
      | Some _, Some a =>
          let* s1 := s_with_axes s (Some a) allow_superset allow_subset in
          match c_obs c with
          | None => Ok s1
          | Some _ =>
              let* co := with_axes c (s_axes s1) allow_superset allow_subset in
              s_with_obs s1 (c_obs co) true true
          end
      | _, _ => Err CoordinatesUnderdefinedError
      end
  end.

(** core/space.py:2067-2096 [with_autofill_axes]; [copy] 2146-2172 *)
Definition s_with_autofill_axes (s : space) (overwrite : bool) : result space :=
  let* nc := with_autofill_axes (s_coords s) overwrite in
  match s_axes s with
  | Some _ => if overwrite
              then let* c := make_coords (s_obs s) (c_axes nc) in
                   space_of_dict c (s_dobs s) (s_daxes s) (s_binning s)
              else Ok s
  | None => let* c := make_coords (s_obs s) (c_axes nc) in
            space_of_dict c (s_dobs s) (s_daxes s) (s_binning s)
  end.

(** core/space.py:2235-2274 [extract_limits_from_dict]: longest keys first (a stable sort), the
    requested coordinates are a set. A [Limit] object has no [get_subspace], so a key that is
    only partially requested raises AttributeError. *)
Fixpoint insert_by_len {K} (e : list K * limit) (d : dict K) : dict K :=
  match d with
  | [] => [e]
  | e' :: r => if Nat.ltb (length (fst e')) (length (fst e)) then e :: d else e' :: insert_by_len e r
  end.
Definition sort_by_len {K} (d : dict K) : dict K := fold_left (fun acc e => insert_by_len e acc) d [].
Definition extract_limits {K} (eqb : K -> K -> bool) (d : dict K) (req : list K) : result (dict K) :=
  let* es := mapM (fun e : list K * limit =>
                     if negb (intersectsb eqb (fst e) req) then Ok []
                     else if subsetb eqb (fst e) req then Ok [e]
                     else Err AttributeError) (sort_by_len d) in
  Ok (concat es).

(** core/space.py:2098-2133 [get_subspace] by observables and by axes. The new space has no
    binning (2133). *)
Definition s_get_subspace (s : space) (obs : list string) : result space :=
  let* d := extract_limits String.eqb (match s_dobs s with Some d => d | None => [] end) obs in
  let* c := with_obs (s_coords s) (Some obs) true true in
  space_of_dict c (Some d) None None.
Definition s_get_subspace_axes (s : space) (axes : list Z) : result space :=
  let* d := extract_limits Z.eqb (match s_daxes s with Some d => d | None => [] end) axes in
  let* c := with_axes (s_coords s) (Some axes) true true in
  space_of_dict c None (Some d) None.

(** core/space.py:802-831 [equal_limits] with z/unstable.py:20-35 [allclose_anyaware]. *)
Definition lim_fid (l : limit) : option nat := match l with LFun f _ _ => Some f | _ => None end.
Definition fid_eqb (a b : limit) : bool :=
  match a, b with
  | LFun f _ _, LFun g _ _ => Nat.eqb f g
  | LFun _ _ _, _ | _, LFun _ _ _ => false
  | LFalse _, LFalse _ => true
  | LFalse _, _ | _, LFalse _ => false
  | _, _ => true
  end.
Definition Qabs' (q : Q) : Q := if Qle_bool 0 q then q else (- q)%Q.
Definition rtol : Q := 1 # 100000.
Definition atol : Q := 1 # 100000000.
Definition close (x y : Q) : bool := Qle_bool (Qabs' (x - y)) (Qabs' y * rtol + atol)%Q.
Definition all2 {A B} (p : A -> B -> bool) (a : list A) (b : list B) : bool :=
  Nat.eqb (length a) (length b) && forallb (fun q => p (fst q) (snd q)) (combine a b).
Definition lim_equal (l1 l2 : limit) : result bool :=
  if negb (lim_has_rect l1 || lim_has_rect l2) then Ok (fid_eqb l1 l2)
  else if xorb (lim_has_rect l1) (lim_has_rect l2) then Ok false
  else let* i1 := lim_rect_limits l1 in
       let* i2 := lim_rect_limits l2 in
       Ok (all2 (fun a b => close (fst a) (fst b)) i1 i2
           && all2 (fun a b => close (snd a) (snd b)) i1 i2 && fid_eqb l1 l2).

(** core/space.py:769-799 [less_equal_limits]. *)
Definition lim_less_equal (l1 l2 : limit) : result bool :=
  let* i1 := lim_rect_limits l1 in
  let* i2 := lim_rect_limits l2 in
  let rect_le := all2 (fun a b => Qle_bool (fst a) (fst b)) i1 i2
                 && all2 (fun a b => Qle_bool (snd a) (snd b)) i1 i2 in
  let funcs := if negb (lim_has_rect l1) && lim_has_rect l2 then true else fid_eqb l1 l2 in
  Ok (rect_le && funcs).

(** core/space.py:2657-2670 [compare_limits_dict] *)
Fixpoint pop_match {K} (eqb : K -> K -> bool) (key : list K) (d : dict K) : option (limit * dict K) :=
  match d with
  | [] => None
  | (k, l) :: r => if set_eqb eqb k key then Some (l, r)
                   else match pop_match eqb key r with
                        | Some (l', r') => Some (l', (k, l) :: r')
                        | None => None
                        end
  end.
Fixpoint compare_limits_dict {K} (eqb : K -> K -> bool) (comparator : limit -> limit -> result bool)
  (d1 d2 : dict K) : result bool :=
  match d1 with
  | [] => Ok true
  | (k, l1) :: r =>
      match pop_match eqb k d2 with
      | None => Ok false
      | Some (l2, d2') =>
          let* b := comparator l1 l2 in
          let* bs := compare_limits_dict eqb comparator r d2' in
          Ok (b && bs)
      end
  end.

(** core/space.py:2640-2654 [compare_limits_coords_dict]: the limits of both coordinate types
    are compared if both have them. *)
Definition compare_limits_coords_dict (comparator : limit -> limit -> result bool) (s1 s2 : space)
  : result bool :=
  let* bo := match s_dobs s1, s_dobs s2 with
             | Some d1, Some d2 => compare_limits_dict String.eqb comparator d1 d2
             | _, _ => Ok true end in
  let* ba := match s_daxes s1, s_daxes s2 with
             | Some d1, Some d2 => compare_limits_dict Z.eqb comparator d1 d2
             | _, _ => Ok true end in
  Ok (bo && ba).

(** [==] of binnings: same axes in the same order with the same edges. *)
Fixpoint list_eqb {A} (eqb : A -> A -> bool) (a b : list A) : bool :=
  match a, b with
  | [], [] => true
  | x :: r, y :: t => eqb x y && list_eqb eqb r t
  | _, _ => false
  end.
Definition binning_eqb (a b : option binning) : bool :=
  match a, b with
  | None, None => true
  | Some x, Some y => list_eqb (fun p q => String.eqb (fst p) (fst q) && list_eqb Qeq_bool (snd p) (snd q)) x y
  | _, _ => false
  end.

(** core/space.py:2581-2637 [compare_multispace] and [compare_limits_multispace] for two simple
    spaces (each iterates over just itself, 1003-1004). *)
Definition compare_spaces (comparator : limit -> limit -> result bool) (s1 s2 : space) : result bool :=
  let same_coords :=
    match s_obs s1, s_obs s2 with
    | Some o1, Some o2 => set_eqb String.eqb o1 o2
    | _, _ => match s_axes s1, s_axes s2 with
              | Some a1, Some a2 => set_eqb Z.eqb a1 a2
              | _, _ => false
              end
    end in
  if negb same_coords then Ok false
  else if negb (binning_eqb (s_binning s1) (s_binning s2)) then Ok false
  else if negb (s_limits_are_set s1) then Ok (negb (s_limits_are_set s2))
  else if s_limits_are_false s1 then Ok (s_limits_are_false s2)
  else if negb (s_has_limits s1 && s_has_limits s2) then Ok false
  else let* s2' := s_with_coords s2 (s_coords s1) true true in
       compare_limits_coords_dict comparator s1 s2'.

(** core/space.py:2554-2578 [compare_spaces_equal_static]: only coordinate incompatibility is
    caught from [with_coords] (exception.py:114-122). *)
Definition is_coord_incompatible (e : error) : bool :=
  match e with
  | CoordinatesIncompatibleError | ObsIncompatibleError | AxesIncompatibleError => true
  | _ => false
  end.
Definition static_tol : Q := 1 # 100000000.
Definition compare_static (s1 s2 : space) : result bool :=
  match s_with_coords s2 (s_coords s1) false false with
  | Err e => if is_coord_incompatible e then Ok false else Err e
  | Ok s2' =>
      match s_limits s1, s_limits s2' with
      | Ok i1, Ok i2 =>
          Ok (all2 (fun a b => Qlt_bool (Qabs' (fst a - fst b)) static_tol
                               && Qlt_bool (Qabs' (snd a - snd b)) static_tol) i1 i2)
      | _, _ => Ok false
      end
  end.

(** core/space.py:2539-2551 [equal_space] with allow_graph=False (the [==] operator, 1149-1159):
    the static comparison is taken if the limits of both can be read, otherwise the
    [suppress] leaves [has_any] at True. *)
Definition s_eq (s1 s2 : space) : result bool :=
  match s_limits s1, s_limits s2 with
  | Ok _, Ok _ => compare_static s1 s2
  | _, _ => compare_spaces lim_equal s1 s2
  end.
(** core/space.py:1161-1194 and 2531-2536 [<=] *)
Definition s_le (s1 s2 : space) : result bool := compare_spaces lim_less_equal s1 s2.

(** core/space.py:741-746 and 1196-1198, [__hash__]: the key that is hashed, in dictionary
    order; the limits contribute only function and dimension. *)
Definition lim_hash_key (l : limit) : option nat * nat := (lim_fid l, lim_n_obs l).
Definition s_hash_key (s : space) :=
  (option_map (map (fun e => (fst e, lim_hash_key (snd e)))) (s_dobs s),
   option_map (map (fun e => (fst e, lim_hash_key (snd e)))) (s_daxes s),
   coords_hash (s_coords s), s_binning s).

(** core/dimension.py:99-123 [common_obs] (126-150 [common_axes] alike): ordered union. *)
Definition add_new {K} (eqb : K -> K -> bool) (acc : list K) (o : K) : list K :=
  if mem eqb o acc then acc else acc ++ [o].
Definition ordered_union {K} (eqb : K -> K -> bool) (ls : list (list K)) : list K :=
  fold_left (fun acc l => fold_left (add_new eqb) l acc) ls [].
Definition common_obs (spaces : list space) : option (list string) :=
  option_map (ordered_union String.eqb) (all_some (map s_obs spaces)).

(** dict.update *)
Fixpoint dict_set {K} (eqb : K -> K -> bool) (d : dict K) (k : list K) (l : limit) : dict K :=
  match d with
  | [] => [(k, l)]
  | (k', l') :: r => if list_eqb eqb k k' then (k', l) :: r else (k', l') :: dict_set eqb r k l
  end.
Definition dict_update {K} (eqb : K -> K -> bool) (d e : dict K) : dict K :=
  fold_left (fun acc p => dict_set eqb acc (fst p) (snd p)) e d.

(** [set.remove] for each element: KeyError if one is not there. *)
Fixpoint set_remove_all (s : list string) (l : list string) : result (list string) :=
  match l with
  | [] => Ok s
  | o :: r => if mem String.eqb o s then set_remove_all (filter (fun x => negb (String.eqb x o)) s) r
              else Err KeyError
  end.

Definition has_coord (o : string) (s : space) : bool :=
  match s_obs s with Some os => mem String.eqb o os | None => false end.

(** core/space.py:2303-2528 [combine_spaces] for simple spaces that all have observables (the
    branch [using_obs]); MultiSpaces (2380-2396) are not modelled here. Python sets are lists;
    nothing depends on their order. [combine_step] is the body of the loop 2409-2447;
    the state is (limits_dict, unique_coords, non_unique_coords). *)
Definition s_ne (s1 s2 : space) : result bool := let* b := s_eq s1 s2 in Ok (negb b).
Fixpoint any_ne (s : space) (l : list space) : result bool :=
  match l with
  | [] => Ok false
  | s' :: r => let* b := s_ne s s' in if b then Ok true else any_ne s r
  end.
Definition combine_state := (dict string * list string * list string)%type.
Definition obs_list (s : space) : list string := match s_obs s with Some o => o | None => [] end.
Definition combine_step (spaces : list space) (st : combine_state) (coord : string) : result combine_state :=
  let '(d, uniq, nonuniq) := st in
  if mem String.eqb coord uniq then
    match filter (has_coord coord) spaces with
    | [] => Err RuntimeError
    | sp :: _ =>
        let* sub := s_get_subspace sp uniq in
        let* uniq' := set_remove_all uniq (obs_list sub) in
        Ok (dict_update String.eqb d (match s_dobs sub with Some e => e | None => [] end), uniq', nonuniq)
    end
  else if mem String.eqb coord nonuniq then
    match filter (has_coord coord) spaces with
    | [] => Err RuntimeError
    | (sp :: rest) as sps =>
        let common := filter (fun o => forallb (has_coord o) rest) (obs_list sp) in
        let* subs := mapM (fun s => s_get_subspace s common) sps in
        match subs with
        | [] => Err RuntimeError
        | sub0 :: subs' =>
            let* ne := any_ne sub0 subs' in
            if ne then Err LimitsIncompatibleError
            else let* nonuniq' := set_remove_all nonuniq (obs_list sub0) in
                 Ok (dict_update String.eqb d (match s_dobs sub0 with Some e => e | None => [] end), uniq, nonuniq')
        end
    end
  else Ok st.
Fixpoint foldM {A B} (f : A -> B -> result A) (a : A) (l : list B) : result A :=
  match l with [] => Ok a | b :: r => let* a' := f a b in foldM f a' r end.

Definition count_with (o : string) (spaces : list space) : nat := length (filter (has_coord o) spaces).
Definition is_binned (s : space) : bool := match s_binning s with Some _ => true | None => false end.
(** core/space.py:2344-2354: one binning per observable, collected without repetition *)
Definition combine_binning (all_obs : list string) (spaces : list space) : result binning :=
  let* bs := mapM (fun o => mapM (fun s => match s_binning s with
                                           | Some b => let* e := opt_result KeyError (lookup String.eqb o b) in Ok (o, e)
                                           | None => Err TypeError end)
                                 (filter (has_coord o) spaces)) all_obs in
  let ax_eqb (p q : string * list Q) := String.eqb (fst p) (fst q) && list_eqb Qeq_bool (snd p) (snd q) in
  Ok (fold_left (fun acc b => if mem ax_eqb b acc then acc else acc ++ [b]) (concat bs) []).
Definition combine_spaces (spaces : list space) : result space :=
  match common_obs spaces with
  | None => Err CoordinatesUnderdefinedError
  | Some all_obs =>
      let all_binned := forallb is_binned spaces in
      let all_unbinned := negb (existsb is_binned spaces) in
      if negb (all_binned || all_unbinned) then Err ValueError
      else
      let* b := if all_binned then let* b := combine_binning all_obs spaces in Ok (Some b) else Ok None in
      let* spaces := mapM (fun s => s_with_obs s (Some all_obs) true true) spaces in
      if forallb s_limits_are_false spaces then make_space (Some all_obs) None IFalse b
      else if forallb (fun s => negb (s_limits_are_set s)) spaces then make_space (Some all_obs) None INone b
      else if negb (forallb s_has_limits spaces) then Err LimitsNotSpecifiedError
      else
        let uniq := filter (fun o => Nat.leb (count_with o spaces) 1) all_obs in
        let nonuniq := filter (fun o => Nat.ltb 1 (count_with o spaces)) all_obs in
        let* (d, _, _) := foldM (combine_step spaces) (([], uniq), nonuniq) all_obs in
        let* c := make_coords (Some all_obs) None in
        space_of_dict c (Some d) None b
  end.

(** core/space.py:2677-2790 [MultiSpace]: simple spaces with common coordinates. *)
Record multispace := mkMulti { m_coords : coords; m_spaces : list space }.
Inductive zspace := ZSimple (s : space) | ZMulti (m : multispace).
(** core/space.py:2673-2674 [flatten_spaces] *)
Definition flatten1 (z : zspace) : list space :=
  match z with ZSimple s => [s] | ZMulti m => m_spaces m end.

Definition list_Z_eqb := list_eqb Z.eqb.
Definition opt_axes_eqb (a b : option (list Z)) : bool :=
  match a, b with Some x, Some y => list_Z_eqb x y | None, None => true | _, _ => false end.

(** core/space.py:2739-2790 [_check_convert_input_spaces_obs_axes] and [__new__] (2678-2703).
    Line 2744 compares binnings through a set. *)
Definition make_multi (zs : list zspace) (obs : option (list string)) (axes : option (list Z))
  : result zspace :=
  let spaces := concat (map flatten1 zs) in
  match spaces with
  | [] => Err IndexError
  | s0 :: _ =>
    let all_obs := forallb (fun s => match s_obs s with Some _ => true | None => false end) spaces in
    let all_axes := forallb (fun s => match s_axes s with Some _ => true | None => false end) spaces in
    if negb (forallb (fun s => binning_eqb (s_binning s) (s_binning s0)) spaces) then Err ValueError
    else
    let axes := if all_axes then match axes with None => s_axes s0 | Some _ => axes end else axes in
    let* (spaces, obs) :=
      if all_obs then
        let obs := match obs with None => s_obs s0 | Some _ => obs end in
        let* sp := mapM (fun s => s_with_obs s obs false false) spaces in
        if all_axes && forallb (fun s => opt_axes_eqb (s_axes s) axes) sp then Ok (sp, obs)
        else let* sp := mapM (fun s => s_with_axes s None true true) sp in Ok (sp, obs)
      else if all_axes then
        let* sp := if forallb (fun s => match s_obs s with None => true | Some _ => false end) spaces
                   then mapM (fun s => s_with_axes s axes false false) spaces else Ok spaces in
        let* sp := mapM (fun s => s_with_obs s None true true) sp in Ok (sp, obs)
      else Err SpaceIncompatibleError in
    let* spaces :=
      if forallb s_has_limits spaces then Ok spaces
      else if negb (existsb s_has_limits spaces)
           then match spaces with s :: _ => Ok [s] | [] => Err IndexError end
           else Err LimitsIncompatibleError in
    match spaces with
    | [s] => Ok (ZSimple s)
    | _ => let* c := make_coords obs axes in Ok (ZMulti (mkMulti c spaces))
    end
  end.

(** core/space.py:2277-2293 [add_spaces] ([space1 + space2]) *)
Definition add_spaces (zs : list zspace) : result zspace := make_multi zs None None.

(** core/space.py:877-896 with 3115-3117 [MultiSpace._inside] *)
Definition m_has_rect (m : multispace) : bool := forallb s_has_rect (m_spaces m).
Definition z_inside (z : zspace) (x : list Q) (guarantee_limits : bool) : result bool :=
  match z with
  | ZSimple s => s_inside s x guarantee_limits
  | ZMulti m =>
      let* x := sanitize_x x (n_obs (m_coords m)) in
      if m_has_rect m && guarantee_limits then Ok true
      else let* bs := mapM (fun s => s_inside s x guarantee_limits) (m_spaces m) in
           Ok (existsb (fun b => b) bs)
  end.
(** core/space.py:2829-2834, 2919-2921 *)
Definition z_volume (z : zspace) : result Q :=
  match z with
  | ZSimple s => s_volume s
  | ZMulti m => let* vs := mapM s_volume (m_spaces m) in Ok (fold_right Qplus 0%Q vs)
  end.
(** core/space.py:2961-2965 *)
Definition z_with_obs (z : zspace) (obs : option (list string)) (allow_superset allow_subset : bool)
  : result zspace :=
  match z with
  | ZSimple s => let* s' := s_with_obs s obs allow_superset allow_subset in Ok (ZSimple s')
  | ZMulti m =>
      let* sp := mapM (fun s => s_with_obs s obs allow_superset allow_subset) (m_spaces m) in
      let* c := with_obs (m_coords m) obs allow_superset allow_subset in
      make_multi (map ZSimple sp) (c_obs c) (c_axes c)
  end.
(** core/space.py:3080-3082 *)
Definition z_get_subspace (z : zspace) (obs : list string) : result zspace :=
  match z with
  | ZSimple s => let* s' := s_get_subspace s obs in Ok (ZSimple s')
  | ZMulti m =>
      let* sp := mapM (fun s => s_get_subspace s obs) (m_spaces m) in
      make_multi (map ZSimple sp) (c_obs (m_coords m)) (c_axes (m_coords m))
  end.

(** core/dimension.py:52-96 [limits_overlap], after the limits along one observable were
    collected: every interval is compared with the earlier ones. *)
Definition eps : Q := 1 # 100000000.
Definition overlaps_earlier (allow_exact : bool) (other cur : interval) : bool :=
  let '(ol, ou) := other in
  let '(l, u) := cur in
  if allow_exact && close ol l && close ou u then false
  else (Qlt_bool (ol - eps) l && Qlt_bool l (ou - eps))
       || (Qlt_bool (ol + eps) u && Qlt_bool u (ou + eps)).
Fixpoint overlap_1d (allow_exact : bool) (seen rest : list interval) : bool :=
  match rest with
  | [] => false
  | iv :: r => existsb (fun o => overlaps_earlier allow_exact o iv) seen
               || overlap_1d allow_exact (seen ++ [iv]) r
  end.
(** core/dimension.py:68-79 *)
Definition intervals_along (o : string) (zs : list zspace) : result (list interval) :=
  let* ivs :=
    mapM (fun z => mapM (fun s =>
            match s_obs s with
            | Some os => match index_of String.eqb o os with
                         | Some i => let* l := s_limits s in
                                     let* iv := opt_result IndexError (nth_error l i) in Ok [iv]
                         | None => Ok []
                         end
            | None => Ok []
            end) (filter s_has_limits (flatten1 z))) zs in
  Ok (concat (concat ivs)).
Definition z_obs (z : zspace) : option (list string) :=
  match z with ZSimple s => s_obs s | ZMulti m => c_obs (m_coords m) end.
Definition limits_overlap (zs : list zspace) (allow_exact : bool) : result bool :=
  match all_some (map z_obs zs) with
  | None => Err TypeError
  | Some oss =>
      let* per := mapM (fun o => let* ivs := intervals_along o zs in Ok (overlap_1d allow_exact [] ivs))
                       (ordered_union String.eqb oss) in
      Ok (existsb (fun b => b) per)
  end.

(** models/truncated.py:56-70: sort by the lower limit, then compare every pair
    ([check_limits], [check_overlap]) for 1-dimensional limits. *)
Fixpoint insert_lower (iv : interval) (l : list interval) : list interval :=
  match l with
  | [] => [iv]
  | iv' :: r => if Qlt_bool (fst iv) (fst iv') then iv :: l else iv' :: insert_lower iv r
  end.
Definition sort_lower (l : list interval) : list interval :=
  fold_left (fun acc iv => insert_lower iv acc) l [].
Fixpoint check_overlap_pairs (l : list interval) : bool :=
  match l with
  | [] => false
  | iv :: r => existsb (fun iv2 => Qlt_bool (fst iv2) (snd iv)) r || check_overlap_pairs r
  end.
Definition check_limits (l : list interval) : result (list interval) :=
  let s := sort_lower l in
  if check_overlap_pairs s then Err ValueError else Ok s.

(** core/dimension.py:153-175 [obs_subsets]: an object is merged into the first group that
    shares an observable; a group is popped and re-inserted at the end under the union
    key; inserting under an existing key replaces that entry. Objects are their
    observables. *)
Definition group := (list string * list (list string))%type.
Definition key_union (a b : list string) : list string := a ++ filter (fun o => negb (mem String.eqb o a)) b.
Fixpoint set_group (gs : list group) (g : group) : list group :=
  match gs with
  | [] => [g]
  | g' :: r => if set_eqb String.eqb (fst g') (fst g) then (fst g', snd g) :: r else g' :: set_group r g
  end.
Fixpoint pop_first (dim : list string) (gs : list group) : option (group * list group) :=
  match gs with
  | [] => None
  | g :: r => if intersectsb String.eqb (fst g) dim then Some (g, r)
              else match pop_first dim r with
                   | Some (g', r') => Some (g', g :: r')
                   | None => None
                   end
  end.
Definition subsets_step (gs : list group) (dim : list string) : list group :=
  match pop_first dim gs with
  | Some (g, rest) => set_group rest (key_union (fst g) dim, snd g ++ [dim])
  | None => set_group gs (dim, [dim])
  end.
Definition obs_subsets (dims : list (list string)) : list group := fold_left subsets_step dims [].
