(** Model of combining spaces when some of them have several limits (core/space.py:2304-2397 with [MultiSpace]). *)
From Verif Require Import Base Coord_Model Space_Model.

Definition z_axes (z : zspace) : option (list Z) := match z with ZSimple s => s_axes s | ZMulti m => c_axes (m_coords m) end.
(** core/space.py:992 and 3119 [__iter__] *)
Definition z_iter (z : zspace) : list space := match z with ZSimple s => [s] | ZMulti m => m_spaces m end.
(** core/space.py:2792 and 875: the binning of a MultiSpace is that of its first space *)
Definition z_is_binned (z : zspace) : bool :=
  match z with ZSimple s => is_binned s | ZMulti m => match m_spaces m with s :: _ => is_binned s | [] => false end end.
(** core/space.py:2866-2904 [limits_are_false], [limits_are_set], [has_limits] *)
Definition z_limits_are_set (z : zspace) : bool := forallb s_limits_are_set (z_iter z).
Definition z_limits_are_false (z : zspace) : bool := forallb s_limits_are_false (z_iter z).
Definition z_has_limits (z : zspace) : bool := z_limits_are_set z && negb (z_limits_are_false z).

(** itertools.product *)
Fixpoint cart {A} (ls : list (list A)) : list (list A) :=
  match ls with [] => [[]] | l :: r => concat (map (fun a => map (cons a) (cart r)) l) end.

(** core/space.py:2381-2387: the combinations one after the other; a combination whose limits do not match is skipped, and after each
    one it is tested whether any was found so far. *)
Fixpoint combine_all (acc : list space) (combos : list (list space)) : result (list space) :=
  match combos with
  | [] => Ok acc
  | ss :: r => match combine_spaces ss with
               | Ok s => combine_all (acc ++ [s]) r
               | Err LimitsIncompatibleError => match acc with [] => Err LimitsIncompatibleError | _ => combine_all acc r end
               | Err e => Err e
               end
  end.

(** core/space.py:2304-2397 [combine_spaces]. For simple spaces this is [combine_spaces] of Space_Model.v; simplified: observables are
    used (not axes), and the binning is left to the combinations. *)
Definition combine_zspaces (zs : list zspace) : result zspace :=
  match all_some (map (fun z => match z with ZSimple s => Some s | ZMulti _ => None end) zs) with
  | Some ss => let* s := combine_spaces ss in Ok (ZSimple s)
  | None =>
      match all_some (map z_obs zs) with
      | None => Err CoordinatesUnderdefinedError
      | Some oss =>
          let all_obs := ordered_union String.eqb oss in
          let all_axes := match all_some (map z_axes zs) with Some l => Some (ordered_union Z.eqb l) | None => None end in
          if negb (forallb z_is_binned zs || negb (existsb z_is_binned zs)) then Err ValueError
          else
          let* zs := mapM (fun z => z_with_obs z (Some all_obs) true true) zs in
          if forallb z_limits_are_false zs then let* s := make_space (Some all_obs) None IFalse None in Ok (ZSimple s)
          else if forallb (fun z => negb (z_limits_are_set z)) zs then let* s := make_space (Some all_obs) None INone None in Ok (ZSimple s)
          else if negb (forallb z_has_limits zs) then Err LimitsNotSpecifiedError
          else let* all := combine_all [] (cart (map z_iter zs)) in
               make_multi (map ZSimple all) (Some all_obs) all_axes
      end
  end.
