(** * Polynomial PDFs (C40, C61)

    Models zfit/models/polynomials.py. Simplifications, throughout:
    - values are real numbers, not floats, and there is one event at a time (the code works element by element);
    - tensors of shape () and (1,) are not told apart: the reshapes at the ends of the integrals are not modelled;
    - the keys "c_0", "c_1", ... of a dictionary of coefficients are their numbers 0, 1, ...;
    - the space has one limit (lo, hi). *)
From Coq Require Import Reals.
From Verif Require Import Base.
Import ListNotations.
#[local] Open Scope R_scope.
#[local] Open Scope nat_scope.

(** A dictionary of coefficients, in the order of insertion *)
Definition dict := list (nat * R).
Fixpoint get (d : dict) (i : nat) : result R :=
  match d with [] => Err KeyError | (j, v) :: r => if Nat.eqb i j then Ok v else get r i end.

(** d[i] = v of a Python dictionary: a key that exists keeps its place *)
Fixpoint put (d : dict) (i : nat) (v : R) : dict :=
  match d with [] => [(i, v)] | (j, w) :: r => if Nat.eqb i j then (i, v) :: r else (j, w) :: put r i v end.

(** polynomials.py:1033-1042 convert_coeffs_dict_to_list: c_0, c_1, ... until one is missing; at most len(coeffs) *)
Fixpoint take_from (d : dict) (i k : nat) : list R :=
  match k with
  | 0 => []
  | S k => match get d i with Ok v => v :: take_from d (S i) k | Err _ => [] end
  end.
Definition convert_coeffs_dict_to_list (d : dict) : list R := take_from d 0 (length d).

(** polynomials.py:107-110 and 946-949: params = {f"c_{i}": coeff for i, coeff in enumerate(coeffs)} *)
Definition enumerate (cs : list R) : dict := combine (seq 0 (length cs)) cs.

Record model := { m_params : dict; m_degree : nat; m_scale : bool; m_lo : R; m_hi : R }.

(** polynomials.py:107-112 RecursivePolynomial.__init__: the zeroth coefficient is one by default and put in front. The check that a scaled PDF is given a Space with
    exactly one limit is not modelled, see above. *)
Definition recursive_init (coeff0 : option R) (coeffs : list R) (apply_scaling : bool) (lo hi : R) : model :=
  let c0 := match coeff0 with None => 1%R | Some c => c end in
  let cs := c0 :: coeffs in
  {| m_params := enumerate cs; m_degree := length cs - 1; m_scale := apply_scaling; m_lo := lo; m_hi := hi |}.
(** polynomials.py:945-951 Bernstein.__init__ *)
Definition bernstein_init (coeffs : list R) (apply_scaling : bool) (lo hi : R) : model :=
  {| m_params := enumerate coeffs; m_degree := length coeffs - 1; m_scale := apply_scaling; m_lo := lo; m_hi := hi |}.

(** polynomials.py:34-45 rescale_minus_plus_one *)
Definition rescale_minus_plus_one (x lo hi : R) : R := ((2 * x - lo - hi) / (hi - lo))%R.
(** polynomials.py:874-886 rescale_zero_one *)
Definition rescale_zero_one (x lo hi : R) : R := ((x - lo) / (hi - lo))%R.
(** polynomials.py:118-121 RecursivePolynomial._polynomials_rescale *)
Definition rescale (m : model) (x : R) : R := if m_scale m then rescale_minus_plus_one x (m_lo m) (m_hi m) else x.
(** polynomials.py:953-956 Bernstein._polynomials_rescale *)
Definition rescale01 (m : model) (x : R) : R := if m_scale m then rescale_zero_one x (m_lo m) (m_hi m) else x.
(** core/space.py:905 Space.volume, one limit *)
Definition volume (m : model) : R := (m_hi m - m_lo m)%R.

Definition total (l : list R) : R := fold_right Rplus 0%R l.

(** A pair of first polynomials and a recurrence (p1, p2, n, x) *)
Record family := { poly0 : R -> R; poly1 : R -> R; recurrence : R -> R -> nat -> R -> R }.

(** polynomials.py:172-176 do_recurrence: polys[-1] and polys[-2] are the last and the one before *)
Definition do_recurrence (F : family) (x : R) (degree : nat) : list R :=
  fold_left (fun ps i => ps ++ [recurrence F (nth (length ps - 1) ps 0%R) (nth (length ps - 2) ps 0%R) i x])
    (seq 1 (degree - 1)) [poly0 F x; poly1 F x].
(** polynomials.py:166-169 create_poly *)
Definition create_poly (F : family) (x : R) (coeffs : list R) : R :=
  total (map (fun cp => fst cp * snd cp)%R (combine coeffs (do_recurrence F x (length coeffs - 1)))).

(** polynomials.py:179-189 legendre_polys, legendre_recurrence *)
Definition legendre : family := {| poly0 := fun _ => 1%R; poly1 := fun x => x;
  recurrence := fun p1 p2 n x => (((2 * INR n + 1) * (x * p1) - INR n * p2) / (INR n + 1))%R |}.
(** polynomials.py:336-345 chebyshev_polys, chebyshev_recurrence *)
Definition chebyshev : family := {| poly0 := fun _ => 1%R; poly1 := fun x => x; recurrence := fun p1 p2 _ x => (2 * (x * p1) - p2)%R |}.
(** polynomials.py:486-491 chebyshev2_polys *)
Definition chebyshev2 : family := {| poly0 := fun _ => 1%R; poly1 := fun x => (x * 2)%R; recurrence := fun p1 p2 _ x => (2 * (x * p1) - p2)%R |}.
(** polynomials.py:602-622 generalized_laguerre_polys_factory, generalized_laguerre_recurrence_factory *)
Definition laguerre (alpha : R) : family := {| poly0 := fun _ => 1%R; poly1 := fun x => (1 + alpha - x)%R;
  recurrence := fun p1 p2 n x => (((2 * INR n + 1 + alpha - x) * p1 - (INR n + alpha) * p2) / (INR n + 1))%R |}.
(** polynomials.py:754-763 hermite_polys, hermite_recurrence *)
Definition hermite : family := {| poly0 := fun _ => 1%R; poly1 := fun x => (2 * x)%R;
  recurrence := fun p1 p2 n x => (2 * (x * p1 - INR n * p2))%R |}.

(** polynomials.py:131-136 RecursivePolynomial._pdf with the _poly_func of each class (e.g. 322-325): the unnormalised density *)
Definition recursive_pdf (F : family) (m : model) (x : R) : R := create_poly F (rescale m x) (convert_coeffs_dict_to_list (m_params m)).

(** polynomials.py:196-238 legendre_integral *)
Definition legendre_indefinite (m : model) (x : R) : result R :=
  let max_degree := m_degree m + 1 in
  let polys := do_recurrence legendre x max_degree in
  let* terms := mapM (fun degree => let* c := get (m_params m) degree in
                        Ok (c * (nth (degree + 1) polys 0 - nth (degree - 1) polys 0) / (2 * INR degree + 1))%R) (seq 1 (max_degree - 1)) in
  Ok (total terms).
Definition legendre_integral (m : model) (a b : R) : result R :=
  let lower := rescale m a in let upper := rescale m b in
  let* c0 := get (m_params m) 0 in
  let integral_0 := (c0 * (upper - lower))%R in
  let* integral :=
    if Nat.eqb (m_degree m) 0 then Ok integral_0
    else let* u := legendre_indefinite m upper in let* l := legendre_indefinite m lower in Ok (u - l + integral_0)%R in
  Ok (integral * (/ 2 * volume m))%R.

(** polynomials.py:445-480 func_integral_chebyshev1 *)
Definition chebyshev_indefinite (m : model) (x : R) : result R :=
  let max_degree := m_degree m + 1 in
  let polys := do_recurrence chebyshev x max_degree in
  let* terms := mapM (fun degree => let* c := get (m_params m) degree in
                        let n := INR degree in
                        Ok (c * (n * nth (degree + 1) polys 0 / (n * n - 1) - x * nth degree polys 0 / (n - 1)))%R) (seq 2 (max_degree - 2)) in
  Ok (total terms).
Definition chebyshev_integral (m : model) (a b : R) : result R :=
  let lower := rescale m a in let upper := rescale m b in
  let* c0 := get (m_params m) 0 in
  let i0 := (c0 * (upper - lower))%R in
  let* i1 := if Nat.leb 1 (m_degree m) then let* c1 := get (m_params m) 1 in Ok (i0 + c1 * / 2 * (upper * upper - lower * lower))%R else Ok i0 in
  let* i2 := if Nat.leb 2 (m_degree m) then let* u := chebyshev_indefinite m upper in let* l := chebyshev_indefinite m lower in Ok (i1 + (u - l))%R else Ok i1 in
  Ok (i2 * (/ 2 * volume m))%R.

(** polynomials.py:570-597 func_integral_chebyshev2 *)
Definition chebyshev2_integral (m : model) (a b : R) : result R :=
  let lower := rescale m a in let upper := rescale m b in
  let coeffs := fold_left (fun d ic => put d (fst ic + 1) (snd ic / INR (fst ic + 1))%R) (m_params m) [(0, 0%R)] in
  let cs := convert_coeffs_dict_to_list coeffs in
  Ok ((create_poly chebyshev upper cs - create_poly chebyshev lower cs) * (/ 2 * volume m))%R.

(** polynomials.py:713-750 func_integral_laguerre *)
Definition laguerre_integral (m : model) (a b : R) : result R :=
  let lower := rescale m a in let upper := rescale m b in
  let coeffs := put (fold_left (fun d ic => put d (fst ic + 1) (snd ic)) (m_params m) []) 0 0%R in
  let cs := convert_coeffs_dict_to_list coeffs in
  let indefinite x := (- 1 * create_poly (laguerre (-1)) x cs)%R in
  Ok ((indefinite upper - indefinite lower) * (/ 2 * volume m))%R.

(** polynomials.py:843-870 func_integral_hermite *)
Definition hermite_integral (m : model) (a b : R) : result R :=
  let lower := rescale m a in let upper := rescale m b in
  let coeffs := fold_left (fun d ic => put d (fst ic + 1) (snd ic / (INR (fst ic + 1) * 2))%R) (m_params m) [(0, 0%R)] in
  let cs := convert_coeffs_dict_to_list coeffs in
  Ok ((create_poly hermite upper cs - create_poly hermite lower cs) * (/ 2 * volume m))%R.

(** polynomials.py:890-902 de_casteljau: one pass of the inner loop; the entry k is replaced by a mix of the entries k and k + 1, which at that point still has its old
    value. The entries beyond the last pass are never read again and dropped here. *)
Fixpoint casteljau_pass (x : R) (beta : list R) : list R :=
  match beta with
  | b :: ((c :: _) as r) => (b * (1 - x) + c * x)%R :: casteljau_pass x r
  | _ => []
  end.
Fixpoint casteljau_loop (x : R) (j : nat) (beta : list R) : list R :=
  match j with 0 => beta | S j => casteljau_loop x j (casteljau_pass x beta) end.
Definition de_casteljau (x : R) (coeffs : list R) : result R :=
  let n := length coeffs in
  if Nat.ltb n 1 then Err ValueError
  else match casteljau_loop x (n - 1) coeffs with [] => Err IndexError | b :: _ => Ok b end.
(** polynomials.py:967-977 Bernstein._pdf, _poly_func *)
Definition bernstein_pdf (m : model) (x : R) : result R := de_casteljau (rescale01 m x) (convert_coeffs_dict_to_list (m_params m)).

(** polynomials.py:1002-1009 _coeffs_int: r[j] is the sum of the first j coefficients *)
Definition coeffs_int (coeffs : list R) : list R :=
  let n := length coeffs in
  map (fun j => total (map (fun k => nth k coeffs 0%R) (seq 0 j)) / INR n)%R (seq 0 (n + 1)).
(** polynomials.py:1012-1016 bernstein_integral_from_xmin_to_x: always rescaled *)
Definition bernstein_integral_to (m : model) (x : R) (coeffs : list R) : result R :=
  let* v := de_casteljau (rescale_zero_one x (m_lo m) (m_hi m)) (coeffs_int coeffs) in Ok (v * volume m)%R.
(** polynomials.py:1019-1027 func_integral_bernstein *)
Definition bernstein_integral (m : model) (a b : R) : result R :=
  let coeffs := convert_coeffs_dict_to_list (m_params m) in
  let* u := bernstein_integral_to m b coeffs in
  let* l := bernstein_integral_to m a coeffs in
  Ok (u - l)%R.
