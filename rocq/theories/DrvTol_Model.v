(** The tolerances for the wrapped minimisers: minimizers/baseminimizer.py [_update_tol_inplace] and
    the first ones in minimizers/minimizers_scipy.py, minimizer_nlopt.py and ipopt.py.

    Numbers are real numbers and NaN ([None]). The criterion is not 0: it is used only if it is not
    below the tolerance. *)
From Verif Require Import Base.
From Coq Require Import Reals.
#[local] Open Scope R_scope.

(** minimizers_scipy.py:265, minimizer_nlopt.py:234 ([k] = 1000), ipopt.py:305 ([k] = 100). *)
Definition init_tol (k errordef tol : R) : R := Rmin (sqrt (errordef * tol)) (errordef * tol * k).
(** minimizers_scipy.py:266-267 and ipopt.py:307-308: what the user has not given. *)
Definition init_tols (k errordef tol : R) (given : list (string * option R)) : list (string * option R) :=
  map (fun p => (fst p, match snd p with Some t => Some t | None => Some (init_tol k errordef tol) end)) given.
(** minimizer_nlopt.py:236-241 *)
Definition init_tols_nlopt (errordef tol : R) (given : list (string * option R)) : list (string * option R) :=
  map (fun p => (fst p, if String.eqb (fst p) "xtol" || String.eqb (fst p) "ftol" then option_map sqrt (snd p) else snd p))
    (init_tols 1000 errordef tol given).

(** baseminimizer.py:652: Python's min and max give the first argument unless the other one is
    smaller (larger), so that NaN stays. *)
Definition tol_factor (tol : R) (criterion : option R) : option R :=
  match criterion with
  | None => None
  | Some c => Some (Rmin (sqrt (Rmin (Rmax (tol / c * (3 / 10)) (1 / 10000)) (4 / 100))) (21 / 100))
  end.
(** 653-657 *)
Definition times (a b : option R) : option R := match a, b with Some x, Some y => Some (x * y) | _, _ => None end.
Definition update_tols (tol : R) (criterion : option R) (tols : list (string * option R)) : list (string * option R) :=
  let f := tol_factor tol criterion in
  map (fun p => (fst p, times (snd p)
         (if String.eqb (fst p) "gtol" || String.eqb (fst p) "xtol" then option_map sqrt f else f))) tols.
(** The tolerances after runs with these criteria. *)
Definition updates (tol : R) (criteria : list (option R)) (tols : list (string * option R)) : list (string * option R) :=
  fold_left (fun t c => update_tols tol c t) criteria tols.
