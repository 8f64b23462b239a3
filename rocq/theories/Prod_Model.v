(** Model of the product of PDFs (models/functor.py:321-441, models/basefunctor.py:34-65), as a model in the sense of
    the dispatch (Disp_Model). A point is the list of its coordinates, a box the list of its intervals, both in the
    order of the observables of the model they are given to. *)
From Verif Require Import Base Disp_Model.
#[local] Open Scope R_scope.

Definition point : Type := list R.
Definition box : Type := list (R * R).

(** Selection by name, in the order asked for: [Data.with_obs] (core/data.py:869-897) for one row, [Space.with_obs]
    (core/space.py:1880-1935) for one box; both are modelled in full in Data_Model and Space_Model.
    [None]: an observable is missing (an error for data; a space without the observable is not modelled). *)
Definition pick {V : Type} (names : list string) (vals : list V) (want : list string) : option (list V) :=
  all_some (map (fun o => lookup String.eqb o (combine names vals)) want).

(** A factor: observables, default norm, and the model itself *)
Record factor := mkFactor { a_obs : list string; a_norm : list box; a_model : model box point }.

(** [functools.reduce(operator.mul, values)]; the first exception ends the list comprehension. A product of no PDFs
    cannot be created (combine_spaces of nothing). *)
Fixpoint prod_all (os : list outcome) : outcome :=
  match os with
  | [] => Val 1
  | Val v :: r => match prod_all r with Val w => Val (v * w) | e => e end
  | e :: _ => e
  end.

(** models/functor.py:399: [pdf.pdf(x, norm=False)] of one factor, [x] in the observables [obs];
    418-419: [pdf.integrate(limits=limits.with_obs(pdf.obs), norm=False)]; 432-434: the same analytically *)
Definition factor_pdf (obs : list string) (x : point) (f : factor) : outcome :=
  match pick obs x (a_obs f) with Some y => pdf (a_model f) y NormFalse | None => EOther end.
Definition factor_integrate (obs : list string) (l : box) (f : factor) : outcome :=
  match pick obs l (a_obs f) with Some l' => integrate (a_model f) [l'] NormFalse | None => EOther end.
Definition factor_analytic (obs : list string) (l : box) (f : factor) : outcome :=
  match pick obs l (a_obs f) with Some l' => analytic_integrate (a_model f) [l'] NormFalse | None => EOther end.

(** 375-383: observables that occur in more than one of the PDFs, and the PDFs with and without such *)
Definition shared (pdfs : list factor) (o : string) : bool :=
  Nat.ltb 1 (length (filter (String.eqb o) (flat_map a_obs pdfs))).
Definition overlaps (pdfs : list factor) (f : factor) : bool := existsb (shared pdfs) (a_obs f).
Definition same_obs (pdfs : list factor) : list factor := filter (overlaps pdfs) pdfs.
Definition disjoint_obs (pdfs : list factor) : list factor := filter (fun f => negb (overlaps pdfs f)) pdfs.

(** models/basefunctor.py:144-151 [_extract_common_obs], and the order of [combine_spaces] (core/space.py:2326, 2351): in the order of
    first appearance *)
Definition common_obs (pdfs : list factor) : list string :=
  fold_left (fun acc o => if mem String.eqb o acc then acc else acc ++ [o]) (flat_map a_obs pdfs) [].

Section Prod.
(** Equality of two norms, as decided by [len(set(...)) == 1], on their observables and limits *)
Variable eqn : list string * list box -> list string * list box -> bool.
(** The numeric integration of the product of the given PDFs, in the given observables *)
Variable numeric : list string -> list factor -> list box -> outcome.

(** Whether a norm equals the space, or the norm, of the product in the given observables *)
Variable eq_space eq_norm : list string -> list box -> bool.

(** 405: [equal_norm_ranges]. A norm with limits False differs from a norm with limits. *)
Definition equal_norms (obs : list string) (pdfs : list factor) (n : norm box) : bool :=
  match n with Norm nls => forallb (fun f => eqn (a_obs f, a_norm f) (obs, nls)) pdfs | _ => false end.

(** 403-411 [_pdf]: where the norms are equal, it calls [pdf.pdf(var=x, ...)]; there is no such argument (TypeError). *)
Definition prod_pdf_hook (obs : list string) (pdfs : list factor) (groups : option (list factor)) : phook box point :=
  mkPhook (mkSupp true false false true)
    (fun x n => match groups with
                | Some _ => if equal_norms obs pdfs n then EOther else ENotImpl
                | None => ENotImpl
                end).
(** 413-423 [_integrate] *)
Definition prod_integrate_hook (obs : list string) (groups : option (list factor)) : hook box :=
  mkHook (mkSupp false false false false)
    (fun ls _ => match groups, ls with
                 | Some gs, [l] => prod_all (map (factor_integrate obs l) gs)
                 | Some _, _ => EOther
                 | None, _ => ENotImpl
                 end).
(** 425-441 [_analytic_integrate] *)
Definition prod_analytic_hook (obs : list string) (groups : option (list factor)) : hook box :=
  mkHook (mkSupp false false false false)
    (fun ls _ => match groups, ls with
                 | Some gs, [l] => prod_all (map (factor_analytic obs l) gs)
                 | Some _, _ => EOther
                 | None, _ => EAnalytic
                 end).

(** The product of [pdfs] in the observables [obs]; [groups]: what can be integrated separately (None: nothing) *)
Definition prod_model (obs : list string) (pdfs : list factor) (groups : option (list factor)) (yield : option R) : model box point :=
  mkModel (eq_space obs) (eq_norm obs) (Some (prod_integrate_hook obs groups)) (Some (prod_analytic_hook obs groups))
    (fun _ => None) None (numeric obs pdfs) None (Some (prod_pdf_hook obs pdfs groups)) None None None
    (fun x => prod_all (map (factor_pdf obs x) pdfs)) yield.

(** 384-386: the PDFs that overlap, as a product of their own: none of them can be split off again (see the theorem
    C34_nested_not_split), so that this is [ProductPDF(same_obs_pdfs)]. Its norm is not used. *)
Definition nested (pdfs : list factor) : factor :=
  let obs := common_obs (same_obs pdfs) in
  mkFactor obs [] (prod_model obs (same_obs pdfs) None None).

(** 375-396 [__init__]: the groups *)
Definition groups (pdfs : list factor) : option (list factor) :=
  match same_obs pdfs, disjoint_obs pdfs with
  | _ :: _, _ :: _ => Some (disjoint_obs pdfs ++ [nested pdfs])
  | [], _ :: _ => Some (disjoint_obs pdfs)
  | _, [] => None
  end.
Definition product (obs : list string) (pdfs : list factor) (yield : option R) : model box point :=
  prod_model obs pdfs (groups pdfs) yield.

(** core/basemodel.py:221-244, core/basepdf.py:438-479: [pdf] of a row of data with the columns [names] *)
Definition product_pdf (obs : list string) (pdfs : list factor) (yield : option R) (names : list string) (row : point) (n : norm box) : outcome :=
  match pick names row obs with Some x => pdf (product obs pdfs yield) x n | None => EOther end.
(** core/basemodel.py:355-413: [integrate] over a space with the observables [names]; the norm is converted likewise (292-311) *)
Definition product_integrate (obs : list string) (pdfs : list factor) (yield : option R) (names : list string) (l : box) (n : norm box) : outcome :=
  match pick names l obs with Some l' => integrate (product obs pdfs yield) [l'] n | None => EOther end.
End Prod.
