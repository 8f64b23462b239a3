(** Model of partial integrals and projections: [partial_integrate] of zfit/core/basemodel.py, of
    the sum and the product of zfit/models/functor.py, and [create_projection_pdf] of
    zfit/core/basepdf.py.

    Simplifications, everywhere in this file:
    - one event at a time: a point gives a value for every observable, and [have] lists the
      observables that the data has;
    - the integral over one observable is any function [I] of an interval and a function;
      numerical and registered analytic integrals are both the iterated integral;
    - integrals over all observables are those of the unnormalised function (C33, C34, C36), and
      the space of the PDFs with common observables of a product is an argument (C06);
    - the fractions of a sum are numbers; parameters and compilation are left out. *)
From Verif Require Import Base.
Open Scope string_scope.
Open Scope list_scope.

Definition point := string -> Q.
Definition interval := (Q * Q)%type.
Definition box := list (string * interval).
(** a point with another value for one observable *)
Definition upd (x : point) (o : string) (t : Q) : point := fun o' => if String.eqb o' o then t else x o'.
Definition box_obs (b : box) : list string := map fst b.
(** core/basemodel.py:320-345 [_convert_sort_space]: the limits in the observables [obs], in their
    order *)
Definition sub (obs : list string) (b : box) : box :=
  flat_map (fun o => match lookup String.eqb o b with Some l => [(o, l)] | None => [] end) obs.

Inductive nrm := NFalse | N (bs : list box).   (* several boxes: a MultiSpace *)

(** A PDF with its default normalisation range. [ana b] is true if an analytic integral is
    registered that applies to the limits [b]. *)
Inductive pdf :=
| Leaf (obs : list string) (f : point -> Q) (nm : list box) (ana : box -> bool)
| Sum (obs : list string) (fr : list Q) (ds : list pdf) (nm : list box)
| Prod (obs : list string) (ds : list pdf) (nm same_nm : list box).
Definition p_obs (p : pdf) : list string :=
  match p with Leaf o _ _ _ | Sum o _ _ _ | Prod o _ _ _ => o end.
Definition p_nm (p : pdf) : list box :=
  match p with Leaf _ _ n _ | Sum _ _ _ n | Prod _ _ n _ => n end.

Definition sumQ (l : list Q) : Q := fold_right Qplus 0%Q l.
Definition prodQ (l : list Q) : Q := fold_right Qmult 1%Q l.

(** models/functor.py:368-396: a factor that shares an observable with another one *)
Definition count (o : string) (ds : list pdf) : nat :=
  length (filter (fun d => mem String.eqb o (p_obs d)) ds).
Definition overlaps (ds : list pdf) (d : pdf) : bool :=
  existsb (fun o => Nat.ltb 1 (count o ds)) (p_obs d).
(** models/basefunctor.py: the observables of several PDFs *)
Definition all_obs (ds : list pdf) : list string := nodup string_dec (flat_map p_obs ds).

Section Integral.
Context (I : interval -> (Q -> Q) -> Q).

(** The iterated integral over a box, at the point [x]. *)
Fixpoint Int (b : box) (f : point -> Q) (x : point) : Q :=
  match b with
  | [] => f x
  | (o, l) :: b => I l (fun t => Int b f (upd x o t))
  end.
Definition Ints (bs : list box) (f : point -> Q) (x : point) : Q := sumQ (map (fun b => Int b f x) bs).

(** core/integration.py:196-243, 284-290: the numerical integral at the data. The values of the data
    replace the random numbers: an observable of the data is not integrated. *)
Fixpoint IntAt (have : list string) (b : box) (f : point -> Q) (x : point) : Q :=
  match b with
  | [] => f x
  | (o, l) :: b => I l (fun t => IntAt have b f (if mem String.eqb o have then x else upd x o t))
  end.

(** [pdf(x, norm=False)]: models/functor.py:178-183 with the default normalisation of the
    daughters, 398-401 *)
Fixpoint unnorm (p : pdf) (x : point) : Q :=
  match p with
  | Leaf _ f _ _ => f x
  | Sum _ fr ds _ =>
      sumQ (map (fun rd => (fst rd * snd rd)%Q)
        (combine fr (map (fun d => (unnorm d x / Ints (p_nm d) (unnorm d) x)%Q) ds)))
  | Prod _ ds _ _ => prodQ (map (fun d => unnorm d x) ds)
  end.

(** A value normalised. *)
Definition normed (u : point -> Q) (n : nrm) (x : point) (v : Q) : Q :=
  match n with NFalse => v | N bs => (v / Ints bs u x)%Q end.

(** A function without a special integral: core/basemodel.py:768-812. Several limits are a
    ValueError (core/integration.py:215-218); an observable neither in the limits nor in the data is
    missing in the call of the function. *)
Definition generic (obs : list string) (u : point -> Q) (ana : box -> bool)
    (have : list string) (x : point) (ls : list box) (n : nrm) : result Q :=
  match ls with
  | [b] =>
      if forallb (fun o => mem String.eqb o have || mem String.eqb o (box_obs b)) obs
      then Ok (normed u n x (if ana b then Int b u x else IntAt have b u x))
      else Err ObsIncompatibleError
  | _ => Err ValueError
  end.

(** the normalisation range in the observables of a factor *)
Definition sub_nrm (obs : list string) (n : nrm) : nrm :=
  match n with NFalse => NFalse | N bs => N (map (sub obs) bs) end.

(** models/functor.py:443-463: what a factor, or the PDFs with common observables, contributes.
    [part] is its partial integral with its default normalisation. *)
Definition factor (obs : list string) (u : point -> Q) (part : result Q)
    (have : list string) (x : point) (ls : list box) (n : nrm) : result Q :=
  let in_limits := existsb (fun b => intersectsb String.eqb obs (box_obs b)) ls in
  let in_data := intersectsb String.eqb obs have in
  if in_limits && negb in_data then
    Ok (normed u (sub_nrm obs n) x (Ints (map (sub obs) ls) u x))
  else if in_limits then part
  else if in_data then Ok (normed u (sub_nrm obs n) x (u x))
  else Err AssertionError.

(** core/basemodel.py:715-798 [partial_integrate] with models/functor.py:256-267 and 443-463 *)
Fixpoint partial (p : pdf) (have : list string) (x : point) (ls : list box) (n : nrm) {struct p} : result Q :=
  let ls := map (sub (p_obs p)) ls in
  let have := filter (fun o => mem String.eqb o (p_obs p)) have in
  match p with
  | Leaf obs f _ ana => generic obs f ana have x ls n
  | Sum obs fr ds _ =>
      let* vs := mapM (fun r => r) (map (fun d => partial d have x ls (N (p_nm d))) ds) in
      Ok (normed (unnorm p) n x (sumQ (map (fun rd => (fst rd * snd rd)%Q) (combine fr vs))))
  | Prod obs ds _ snm =>
      if forallb (overlaps ds) ds then generic obs (unnorm p) (fun _ => false) have x ls n
      else
        let* vs := mapM (fun r => r)
          (map (fun d => if overlaps ds d then Ok 1%Q
                         else factor (p_obs d) (unnorm d) (partial d have x ls (N (p_nm d))) have x ls n) ds) in
        let same := filter (overlaps ds) ds in
        let os := all_obs same in
        let u := fun y => prodQ (map (fun d => unnorm d y) same) in
        let* v := match same with
                  | [] => Ok 1%Q
                  | _ => factor os u
                           (generic os u (fun _ => false) (filter (fun o => mem String.eqb o os) have) x
                              (map (sub os) ls) (N snm))
                           have x ls n
                  end in
        Ok (prodQ vs * v)%Q
  end.

(** core/basepdf.py:850-933 [create_projection_pdf]: the observables that remain, with the limits
    that are integrated. A space without limits is a list of observables. *)
Inductive spc := SObs (os : list string) | SBox (b : box).
Definition spc_obs (s : spc) : list string := match s with SObs os => os | SBox b => box_obs b end.
Definition with_limits (space : box) (s : spc) : box :=
  match s with SObs os => sub os space | SBox b => b end.
Definition projection (space : box) (limits obs : option spc) : result (box * box) :=
  match limits, obs with
  | None, None => Err ValueError
  | None, Some o =>
      let rest := filter (fun a => negb (mem String.eqb a (spc_obs o))) (box_obs space) in
      match rest with
      | [] => Err ValueError
      | _ => Ok (sub rest space, with_limits space o)
      end
  | Some l, None =>
      let l := with_limits space l in
      Ok (l, sub (filter (fun a => negb (mem String.eqb a (box_obs l))) (box_obs space)) space)
  | Some l, Some o =>
      let l := with_limits space l in
      let o := with_limits space o in
      if intersectsb String.eqb (box_obs o) (box_obs l) then Err ValueError else Ok (l, o)
  end.
(** The function of the projection, and its density (normalised over [o]): the data is reduced to
    the observables of the projection. *)
Definition projected (p : pdf) (l o : box) (x : point) : result Q :=
  partial p (box_obs o) x [l] NFalse.
End Integral.
