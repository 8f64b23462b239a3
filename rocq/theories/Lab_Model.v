(** Labels of the observables of spaces: zfit/core/space.py, class [Space] and [combine_spaces]. Coordinates are those of
    Coord_Model.v; limits, binning and names are left out. *)
From Verif Require Import Base Coord_Model.

(** space.py:1334-1341: a dictionary from observables, or for a space with axes only what was given. *)
Inductive stored : Type := Unset | ByObs (d : list (string * string)) | Loose (l : list string).
Record lspace : Type := LSpace { ls_coords : coords; ls_stored : stored }.

(** space.py:1329-1341, the part of [__init__] for labels *)
Definition make_lspace (c : coords) (label : option (list string)) : result lspace :=
  if match label with Some l => negb (Nat.eqb (length l) (n_obs c)) | None => false end then Err ValueError
  else Ok (LSpace c match c_obs c with
                    | Some o => ByObs (combine o match label with Some l => l | None => o end)
                    | None => match label with Some l => Loose l | None => Unset end
                    end).

(** [self._labels[ob]] for all of some observables; only a dictionary can be asked for strings. *)
Definition label_of (s : stored) (ob : string) : result string :=
  match s with
  | ByObs d => match lookup String.eqb ob d with Some l => Ok l | None => Err KeyError end
  | _ => Err TypeError
  end.
Definition labels_for (s : stored) (o : list string) : result (list string) := mapM (label_of s) o.

(** space.py:1393-1404 [labels], [label] *)
Definition labels (s : lspace) : result (option (list string)) :=
  match c_obs (ls_coords s) with
  | Some o => let* l := labels_for (ls_stored s) o in Ok (Some l)
  | None => Ok None
  end.
Definition label (s : lspace) : result string :=
  if Nat.ltb 1 (n_obs (ls_coords s)) then Err ValueError
  else let* l := labels s in
       match l with None => Err TypeError | Some [] => Err IndexError | Some (x :: _) => Ok x end.

(** The repeated lines [if (newlabels := self.labels) is not None and (obs := coords.obs) is not None: newlabels = ...] *)
Definition new_labels (s : lspace) (c : coords) : result (option (list string)) :=
  let* l := labels s in
  match l, c_obs c with
  | Some _, Some o => let* l' := labels_for (ls_stored s) o in Ok (Some l')
  | _, _ => Ok l
  end.

(** space.py:1840-1842 [with_limits]; 2160-2174 [copy] with the coordinates given, as in [with_binning] *)
Definition with_limits (s : lspace) : result lspace := let* l := labels s in make_lspace (ls_coords s) l.
Definition copy (s : lspace) (obs : option (list string)) (axes : option (list Z)) (l : option (list string)) : result lspace :=
  let* c := make_coords obs axes in make_lspace c l.

(** space.py:1920-1938 [with_obs] *)
Definition space_with_obs (s : lspace) (obs : option (list string)) (sup sub : bool) : result lspace :=
  let c := ls_coords s in
  match obs with
  | None => match c_obs c, c_axes c with
            | None, _ => Ok s
            | _, None => Err AxesIncompatibleError
            | _, Some a => let* l := labels s in copy s None (Some a) l
            end
  | Some o => let* c' := with_obs c (Some o) sup sub in
              let* l := new_labels s c' in make_lspace c' l
  end.

(** space.py:1979-2005 [with_axes] *)
Definition space_with_axes (s : lspace) (axes : option (list Z)) (sup sub : bool) : result lspace :=
  let c := ls_coords s in
  match axes with
  | None => match c_axes c, c_obs c with
            | None, _ => Ok s
            | _, None => Err ObsIncompatibleError
            | _, Some o => let* l := new_labels s c in copy s (Some o) None l
            end
  | Some a =>
      match c_axes c with
      | None => if match c_obs c with Some o => negb (Nat.eqb (length a) (length o)) | None => false end then Err AxesIncompatibleError
                else let* l := new_labels s c in copy s (c_obs c) (Some a) l
      | Some _ => let* c' := with_axes c (Some a) sup sub in
                  let* l := new_labels s c' in make_lspace c' l
      end
  end.

(** space.py:2114-2133 [get_subspace] *)
Definition get_subspace (s : lspace) (obs : option (list string)) (axes : option (list Z)) : result lspace :=
  match obs, axes with
  | Some _, Some _ | None, None => Err ValueError
  | Some o, None => let* c' := with_obs (ls_coords s) (Some o) true true in
                    let* l := new_labels s c' in make_lspace c' l
  | None, Some a => let* c' := with_axes (ls_coords s) (Some a) true true in
                    let* l := new_labels s c' in make_lspace c' l
  end.

(** dimension.py:99-160 [common_obs], [common_axes]: None for False *)
Fixpoint add_new {A} (eqb : A -> A -> bool) (have new : list A) : list A :=
  match new with
  | [] => have
  | x :: r => add_new eqb (if mem eqb x have then have else have ++ [x]) r
  end.
Fixpoint common {A} (eqb : A -> A -> bool) (have : list A) (l : list (option (list A))) : option (list A) :=
  match l with
  | [] => Some have
  | None :: _ => None
  | Some o :: r => common eqb (add_new eqb have o) r
  end.

(** [all_labels_map.update(lab)], space.py:2337-2340; the latest entry comes first. A tuple of strings is read as a
    sequence of pairs, which works only for strings of two characters. *)
Definition as_pair (x : string) : result (string * string) :=
  match x with
  | String a (String b EmptyString) => Ok (String a EmptyString, String b EmptyString)
  | _ => Err ValueError
  end.
Fixpoint all_labels (m : list (string * string)) (l : list lspace) : result (list (string * string)) :=
  match l with
  | [] => Ok m
  | s :: r => match ls_stored s with
              | Unset => all_labels m r
              | ByObs d => all_labels (d ++ m) r
              | Loose t => let* d := mapM as_pair t in all_labels (rev d ++ m) r
              end
  end.

(** space.py:2302-2360, 2522-2528 [combine_spaces], the part for labels: the limits are taken to be compatible. *)
Definition combine_spaces (l : list lspace) : result lspace :=
  let* m := all_labels [] l in
  match common String.eqb [] (map (fun s => c_obs (ls_coords s)) l) with
  | Some (ob :: o) =>
      let* lab := labels_for (ByObs m) (ob :: o) in
      let* c := make_coords (Some (ob :: o)) None in make_lspace c (Some lab)
  | _ => match common Z.eqb [] (map (fun s => c_axes (ls_coords s)) l) with
         | Some (a :: r) => let* c := make_coords None (Some (a :: r)) in make_lspace c None
         | _ => Err CoordinatesUnderdefinedError
         end
  end.
