(** Model of the polyharmonic splines of zfit/z/interpolate_spline.py, and of their use in
    zfit/models/morphing.py and zfit/models/interpolation.py.

    Simplifications, everywhere in this file:
    - real numbers instead of floating point numbers;
    - one batch; the columns of the values are solved one by one;
    - [solve] (tf.linalg.solve) is an argument: it gives a solution or fails;
    - histograms are lists of contents (reshaped), and have the views of C68. *)
From Coq Require Import Reals.
From Verif Require Import Base.
Open Scope R_scope.
Open Scope list_scope.

Notation vec := (list R).
Definition sumR (l : vec) : R := fold_right Rplus 0 l.
Fixpoint dot (a b : vec) : R :=
  match a, b with x :: a, y :: b => x * y + dot a b | _, _ => 0 end.
Definition mulmv (A : list vec) (x : vec) : vec := map (fun row => dot row x) A.

(** z/interpolate_spline.py:56-79 [_cross_squared_distance_matrix] *)
Definition cross_dist2 (x y : vec) : R := dot x x - 2 * dot x y + dot y y.
(** 82-104 [_pairwise_squared_distance_matrix] *)
Definition pairwise_dist2 (pts : list vec) : list vec :=
  map (fun x => map (fun y => dot x x - 2 * dot x y + dot y y) pts) pts.

(** 54 *)
Definition EPSILON : R := / 10 ^ 10.
(** 228-258 [_phi] *)
Definition phi (order : nat) (r : R) : R :=
  match order with
  | 1%nat => sqrt (Rmax r EPSILON)
  | 2%nat => / 2 * r * ln (Rmax r EPSILON)
  | 4%nat => / 2 * (r * r) * ln (Rmax r EPSILON)
  | _ => if Nat.even order then / 2 * Rpower (Rmax r EPSILON) (/ 2 * INR order) * ln (Rmax r EPSILON)
         else Rpower (Rmax r EPSILON) (/ 2 * INR order)
  end.

Definition zeros (n : nat) : vec := repeat 0 n.
(** 150-153: the regularisation on the diagonal *)
Definition add_diag (reg : R) (A : list vec) : list vec :=
  if Rlt_dec 0 reg then
    map (fun i => map (fun j => nth j (nth i A []) 0 + if Nat.eqb i j then reg else 0) (seq 0 (length A)))
      (seq 0 (length A))
  else A.
(** 146-172: the linear system *)
Definition lhs (order : nat) (reg : R) (d : nat) (pts : list vec) : list vec :=
  let a := add_diag reg (map (map (phi order)) (pairwise_dist2 pts)) in
  let b := map (fun c => c ++ [1]) pts in
  map (fun ab => fst ab ++ snd ab) (combine a b)
  ++ map (fun k => map (fun row => nth k row 0) b ++ zeros (d + 1)) (seq 0 (d + 1)).
Definition rhs (d : nat) (f : vec) : vec := f ++ zeros (d + 1).

Section Solver.
Variable solve : list vec -> vec -> result vec.

(** 107-180 [_solve_interpolation] *)
Definition solve_interpolation (order : nat) (reg : R) (d : nat) (pts : list vec) (f : vec)
  : result (vec * vec) :=
  let* wv := solve (lhs order reg d pts) (rhs d f) in
  Ok (firstn (length pts) wv, skipn (length pts) wv).
(** 183-225 [_apply_interpolation] *)
Definition apply_interpolation (order : nat) (pts : list vec) (w v q : vec) : R :=
  dot (map (fun c => phi order (cross_dist2 q c)) pts) w + dot (q ++ [1]) v.
(** 261-328 [interpolate_spline] at one point *)
Definition interpolate_spline (order : nat) (reg : R) (d : nat) (pts : list vec) (f q : vec) : result R :=
  let* wv := solve_interpolation order reg d pts f in
  Ok (apply_interpolation order pts (fst wv) (snd wv) q).

(** models/morphing.py:21-36 [spline_interpolator]; histograms of different size cannot be
    stacked *)
Definition column (j : nat) (ds : list vec) : vec := map (fun row => nth j row 0) ds.
Definition spline_interpolator (alpha : R) (alphas : vec) (densities : list vec) : result vec :=
  match densities with
  | [] => Err IndexError
  | d0 :: _ =>
      if forallb (fun d => Nat.eqb (length d) (length d0)) densities then
        mapM (fun j => interpolate_spline 2 0 1 (map (fun a => [a]) alphas) (column j densities) [alpha])
          (seq 0 (length d0))
      else Err ValueError
  end.
(** models/morphing.py:76-83: the alphas of a list, of which there have to be three, or those of
    the mapping *)
Inductive hists := HList (l : list vec) | HMap (l : list (R * vec)).
Definition alphas_of (h : hists) : result (list (R * vec)) :=
  match h with
  | HList l => if Nat.eqb (length l) 3 then Ok (combine [-1; 0; 1] l) else Err ValueError
  | HMap l => Ok l
  end.
(** 131-154: any view of the morphed histogram from the same view of the histograms *)
Definition morph (h : hists) (alpha : R) : result vec :=
  let* l := alphas_of h in
  spline_interpolator alpha (map fst l) (map snd l).

(** models/interpolation.py:62-98 [SplinePDF._ext_pdf] and [_pdf] (one observable): a density at the
    centers of the bins *)
Definition spline_ext_pdf (order : option nat) (centers density : vec) (x : R) : result R :=
  interpolate_spline (match order with Some o => o | None => 3%nat end) 0 1
    (map (fun c => [c]) centers) density [x].
Definition spline_pdf (order : option nat) (centers density : vec) (x : R) : result R :=
  interpolate_spline 3 0 1 (map (fun c => [c]) centers) density [x].
End Solver.
