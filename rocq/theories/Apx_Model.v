(** Model of the approximations that belong to a fit result and of the criterion EDM: zfit/minimizers/fitresult.py [Approximations],
    zfit/minimizers/termination.py [ConvergenceCriterion], [EDM].

    Simplifications, everywhere in this file:
    - numbers are rational numbers in lowest terms; vectors and matrices are of any types, with their shapes, the product of a matrix with a vector
      and of two vectors, and an inverse that is missing for singular matrices;
    - [numpy.linalg.solve] is the product with the inverse;
    - a value of a criterion is always a number. *)
From Coq Require Import QArith.Qcanon.
From Verif Require Import Base.
Open Scope list_scope.

Definition LinAlgError := UserError 15.

Section Approximations.
Context {V M : Type}.
Variables (v_shape : V -> list nat) (m_shape : M -> list nat) (apply : M -> V -> V) (dot : V -> V -> Qc) (inverse : M -> option M).

(** fitresult.py:107-110 *)
Record approx := mkA { a_params : list string; a_gradient : option V; a_hessian : option M; a_inv_hessian : option M }.

(** 83-89: [shape[0]] of an array without dimensions *)
Definition check_gradient (n : nat) (g : option V) : result unit :=
  match g with
  | None => Ok tt
  | Some g =>
      match v_shape g with
      | [k] => if Nat.eqb k n then Ok tt else Err ValueError
      | [] => Err IndexError
      | _ => Err ValueError
      end
  end.
(** 91-105 *)
Definition check_matrix (n : nat) (h : option M) : result unit :=
  match h with
  | None => Ok tt
  | Some h =>
      match m_shape h with
      | [k; l] => if Nat.eqb k n && Nat.eqb l n then Ok tt else Err ValueError
      | _ => Err ValueError
      end
  end.
(** 63-111 [__init__] *)
Definition create (params : list string) (g : option V) (h i : option M) : result approx :=
  let* _ := check_gradient (length params) g in
  let* _ := check_matrix (length params) h in
  let* _ := check_matrix (length params) i in
  Ok (mkA params g h i).

(** 137-153 [hessian] *)
Definition hessian (invert : bool) (a : approx) : approx * result (option M) :=
  match a_hessian a, a_inv_hessian a with
  | Some h, _ => (a, Ok (Some h))
  | None, Some i =>
      if invert then
        match inverse i with
        | Some h => (mkA (a_params a) (a_gradient a) (Some h) (Some i), Ok (Some h))
        | None => (a, Err LinAlgError)
        end
      else (a, Ok None)
  | None, None => (a, Ok None)
  end.
(** 155-171 [inv_hessian] *)
Definition inv_hessian (invert : bool) (a : approx) : approx * result (option M) :=
  match a_inv_hessian a, a_hessian a with
  | Some i, _ => (a, Ok (Some i))
  | None, Some h =>
      if invert then
        match inverse h with
        | Some i => (mkA (a_params a) (a_gradient a) (Some h) (Some i), Ok (Some i))
        | None => (a, Err LinAlgError)
        end
      else (a, Ok None)
  | None, None => (a, Ok None)
  end.

(** termination.py:68-77 *)
Definition calculate_edm (g : V) (i : M) : Qc := (dot g (apply i g) / Q2Qc 2)%Qc.
Definition calculate_edm_hesse (g : V) (h : M) : option Qc :=
  match inverse h with Some i => Some (dot g (apply i g) / Q2Qc 2)%Qc | None => None end.
Definition far : Qc := Q2Qc 999999.
(** 103-121 [EDM._calculate]; [loss_gradient] and [loss_hessian] are the derivatives of the loss. The inverse is asked for outside of the [try] (109-113). *)
Definition edm (loss_gradient : V) (loss_hessian : M) (a : approx) : approx * result Qc :=
  let g := match a_gradient a with Some g => g | None => loss_gradient end in
  match inv_hessian true a with
  | (a', Err e) => (a', Err e)
  | (a', Ok i) =>
      let e := match i with
               | Some i => calculate_edm g i
               | None => match calculate_edm_hesse g loss_hessian with Some e => e | None => far end
               end in
      (a', Ok (if Qclt_le_dec e 0 then far else e))
  end.
(** 28, 34-56 [converged], [calculate]: the tolerance is multiplied by the errordef; the last value is stored *)
Record criterion := mkC { c_tol : Qc; c_last : option Qc }.
Definition new_criterion (tol errordef : Qc) : criterion := mkC (tol * errordef)%Qc None.
Definition converged (loss_gradient : V) (loss_hessian : M) (c : criterion) (a : approx) : criterion * approx * result bool :=
  match edm loss_gradient loss_hessian a with
  | (a', Err e) => (c, a', Err e)
  | (a', Ok e) => (mkC (c_tol c) (Some e), a', Ok (if Qclt_le_dec e (c_tol c) then true else false))
  end.
End Approximations.
Arguments approx : clear implicits.
