(** The Levenberg-Marquardt minimiser: minimizers/minimizer_lm.py.

    Numbers are rationals: rounding is not modelled. The algebra ([znp.linalg.solve]) and the
    evaluation of the loss are arguments; the evaluator of LEval_Model.v is one instance, at the
    end. Printing is not modelled. *)
From Verif Require Import Base Param_Model LEval_Model.

Definition vec := list Q.
Definition mat := list (list Q).

Fixpoint dot (a b : vec) : Q :=
  match a, b with x :: a, y :: b => (x * y + dot a b)%Q | _, _ => 0%Q end.
Definition mat_vec (m : mat) (v : vec) : vec := map (fun row => dot row v) m.
Fixpoint vec_add (a b : vec) : vec :=
  match a, b with x :: a, y :: b => (x + y)%Q :: vec_add a b | _, _ => [] end.
Definition vec_opp (a : vec) : vec := map Qopp a.
Fixpoint mapi_from {A B} (i : nat) (f : nat -> A -> B) (l : list A) : list B :=
  match l with [] => [] | a :: r => f i a :: mapi_from (S i) f r end.
Definition mapi {A B} (f : nat -> A -> B) (l : list A) : list B := mapi_from 0 f l.

(** minimizer_lm.py:105-122: the settings, with their defaults; [Lup] and [Ldn] are fixed. *)
Record lm : Type := Lm { rho_min : Q; rho_max : Q }.
Definition default_to {A} (d : A) (o : option A) : A := match o with Some a => a | None => d end.
Definition lm_init (mode : option Z) (rmin rmax : option Q) : result lm :=
  if negb (Z.eqb (default_to 0%Z mode) 0) then Err NotImplementedError
  else
    let rmin := default_to (1 # 10)%Q rmin in
    if Qle_bool rmin 0 then Err ValueError
    else
      let rmax := default_to 2%Q rmax in
      if Qle_bool rmax 1 then Err ValueError else Ok (Lm rmin rmax).
Definition Lup : Q := 11.
Definition Ldn : Q := 9.

(** 133-137 [_damped_hess0] *)
Definition eye (i j : nat) : Q := if Nat.eqb i j then 1%Q else 0%Q.
Definition diag (m : mat) : vec := mapi (fun i row => nth i row 0%Q) m.
Definition damped_hess (hess : mat) (L : Q) : mat :=
  mapi (fun i row => mapi (fun j x =>
    (x * (eye i j + (1 - eye i j) / (1 + L)) + L * eye i j * (1 + nth j (diag hess) 0))%Q) row) hess.

(** 139-205: what a step ends in. [Stopped] stands for the exception OptimizeStop. *)
Inductive moved : Type :=
| Stepped (h : vec) (chi2 : Q) (L : Q) (dhess : mat) (grad : vec)
| Stopped.
Inductive direction : Type := DNone | DBetter | DWorse.
Definition is_better (d : direction) : bool := match d with DBetter => true | _ => false end.
Definition is_worse (d : direction) : bool := match d with DWorse => true | _ => false end.

(** The comparison of a finite value with one that may be infinite ([None]). *)
Definition le_inf (a : Q) (b : option Q) : bool := match b with Some b => Qle_bool a b | None => true end.
Definition lt_inf (a : Q) (b : option Q) : bool := match b with Some b => Qlt_bool a b | None => true end.

(** 171-173: the ratio of the improvements is outside of [rho_min, rho_max]. A quotient by zero
    is infinite, and outside, unless the numerator is zero too: NaN is not outside. For a start
    value that is infinite the quotient is infinite. *)
Definition rejected (S : lm) (init : option Q) (chi2 expected : Q) : bool :=
  match init with
  | None => true
  | Some i =>
      if Qeq_bool expected 0 then negb (Qeq_bool (i - chi2) 0)
      else let rho := ((i - chi2) / expected)%Q in Qlt_bool rho (rho_min S) || Qlt_bool (rho_max S) rho
  end.
(** 195-196: more than 10% better. Reached only with an improvement: the quotient by zero is
    infinite; with an infinite start value it is NaN. *)
Definition very_successful (init : option Q) (best : Q) : bool :=
  match init with
  | None => false
  | Some i => if Qeq_bool i 0 then true else Qlt_bool (1 # 10) ((i - best) / i)
  end.

(** The state of the loop 147-197. [t_best] and [t_scary] are [None] as long as they are the ones
    of 143-144, which have no step ([nostep] is that [t_best] is [None]). *)
Record trying : Type := Trying {
  t_L : Q; t_best : option (vec * Q * Q); t_scary : option (vec * Q * Q);
  t_dir : direction; t_dhess : mat }.
Definition value_of (init : option Q) (b : option (vec * Q * Q)) : option Q :=
  match b with Some (_, c, _) => Some c | None => init end.

Section LM.
Variable S : lm.
Variable EV : Type.
(** The evaluator: a value that is infinite or NaN is [None]. *)
Variable ev_value : EV -> vec -> result (EV * option Q).
Variable ev_value_gradient : EV -> vec -> result (EV * (option Q * vec)).
Variable ev_hessian : EV -> vec -> result (EV * mat).
(** The solution of a system of linear equations; it raises if the matrix is singular. *)
Variable solve : mat -> vec -> result vec.

(** 147-197, one round; the flag tells if the loop is left. *)
Definition try_one (init : option Q) (grad : vec) (hess : mat) (params : vec) (e : EV) (t : trying)
  : result (EV * (trying * bool)) :=
  let L := t_L t in
  let D := damped_hess hess L in
  let* h := solve D (vec_opp grad) in
  let expected := (- dot h (mat_vec D h) - 2 * dot h grad)%Q in
  let* (e, v) := ev_value e (vec_add params h) in
  match v with
  | None =>
      if is_better (t_dir t) then Ok (e, (Trying (L * Lup) (t_best t) (t_scary t) (t_dir t) D, true))
      else Ok (e, (Trying (L * Lup) (t_best t) (t_scary t) DWorse D, false))
  | Some chi2 =>
      let scary := if le_inf chi2 (value_of init (t_scary t)) then Some (h, chi2, L) else t_scary t in
      if rejected S init chi2 expected then
        if Qlt_bool 1000000000 (L * Lup) || is_better (t_dir t)
        then Ok (e, (Trying (L * Lup) (t_best t) scary (t_dir t) D, true))
        else Ok (e, (Trying (L * Lup) (t_best t) scary DWorse D, false))
      else if lt_inf chi2 (value_of init (t_best t)) then
        let L' := (L / Ldn)%Q in
        if Qlt_bool L' (1 # 1000000000) || is_worse (t_dir t)
        then Ok (e, (Trying L' (Some (h, chi2, L)) scary (t_dir t) D, true))
        else Ok (e, (Trying L' (Some (h, chi2, L)) scary DBetter D, very_successful init chi2))
      else if negb (is_better (t_dir t)) && Qlt_bool L 1000000000
      then Ok (e, (Trying (L * Lup) (t_best t) scary DWorse D, false))
      else Ok (e, (Trying L (t_best t) scary (t_dir t) D, true))
  end.

Fixpoint tries (n : nat) (init : option Q) (grad : vec) (hess : mat) (params : vec) (e : EV) (t : trying)
  : result (EV * trying) :=
  match n with
  | 0 => Ok (e, t)
  | Datatypes.S n =>
      let* (e, (t, quit)) := try_one init grad hess params e t in
      if quit then Ok (e, t) else tries n init grad hess params e t
  end.

(** 139-205 [_mode0_step] *)
Definition mode0_step (e : EV) (params : vec) (L : Q) : result (EV * moved) :=
  let* (e, (init, grad)) := ev_value_gradient e params in
  let* (e, hess) := ev_hessian e params in
  let* (e, t) := tries 10 init grad hess params e (Trying L None None DNone []) in
  match (match t_best t with Some b => Some b | None => t_scary t end) with
  | Some (h, chi2, L) => Ok (e, Stepped h chi2 L (t_dhess t) grad)
  | None => Ok (e, Stopped)
  end.

(** 233-244: the criterion, given what the preliminary result holds: the values, the value of the
    loss, the gradient and the Hessian. [tol] is multiplied by the errordef in termination.py:28;
    it is the product. *)
Variable criterion : vec -> Q -> vec -> mat -> result Q.
Variable tol : Q.
(** The values the parameters show once they are assigned (limits clip), and whether one of them
    is at its limit. *)
Variable clip : vec -> vec.
Variable some_at_limit : vec -> bool.

(** 257-271, with fitresult.py:400-419 for the flag: a parameter at a limit makes it invalid. The
    history holds the values after the first one. *)
Record lm_result : Type := LmResult {
  m_values : vec; m_fmin : Q; m_edm : Q; m_valid : bool; m_first : option Q; m_history : list Q }.
Definition finish (first : option Q) (params : vec) (history : list Q) (last : option (Q * Q)) (success : bool)
  : result lm_result :=
  match last with
  | None => Err AssertionError
  | Some (fmin, edm) =>
      let values := clip params in
      Ok (LmResult values fmin edm (if some_at_limit values then false else success) first history)
  end.

(** 221-255, the loop *)
Fixpoint iterate (n : nat) (first : option Q) (history : list Q) (last : option (Q * Q)) (L : Q) (params : vec) (e : EV)
  : result (EV * lm_result) :=
  match n with
  | 0 => Err MaximumIterationReached
  | Datatypes.S n =>
      let* (e, m) := mode0_step e params L in
      match m with
      | Stopped => let* r := finish first params history last false in Ok (e, r)
      | Stepped h chi2 L D grad =>
          let params := vec_add params h in
          let history := history ++ [chi2] in
          let* c := criterion params chi2 grad D in
          if Qlt_bool c tol
          then let* r := finish first params history (Some (chi2, c)) true in Ok (e, r)
          else iterate n first history (Some (chi2, c)) L params e
      end
  end.

(** 207-271 [_minimize], from the values [start] (those of [init] or the current ones). *)
Definition minimize (maxiter : nat) (e : EV) (start : vec) : result (EV * lm_result) :=
  let* (e, first) := ev_value e start in
  iterate maxiter first [] None 1 start e.
End LM.

(** termination.py:68-69, 98-121 and fitresult.py:155-171: the criterion EDM, with the inverse of
    the matrix applied to the gradient given by [solve]. *)
Definition edm_criterion (solve : mat -> vec -> result vec) (_ : vec) (_ : Q) (grad : vec) (D : mat) : result Q :=
  let* x := solve D grad in
  let edm := (dot grad x / 2)%Q in
  Ok (if Qlt_bool edm 0 then 999999%Q else edm).

(** ** The evaluator of LEval_Model.v as the evaluator of this file

    [loss], [grad], [hess]: what the loss gives at values of the parameters. Gradients and Hessians
    that are infinite or missing are not modelled here (an exception stands for them). *)
Section Instance.
Variable S : settings.
Variable clip : vec -> vec.
Variable loss : vec -> num.
Variable grad : vec -> vec.
Variable hess : vec -> mat.

Definition finite (v : num) : option Q := match v with Fin q => Some q | _ => None end.
Definition entry_finite (v : option num) : option Q := match v with Some v => finite v | None => None end.
Definition not_modelled : error := UserError 1.

Definition lv_value (e : ev) (p : vec) : result (ev * option Q) :=
  let (e, r) := value S e (map Fin p) (Got (loss (clip p))) in
  let* v := r in Ok (e, finite v).
Definition lv_value_gradient (e : ev) (p : vec) : result (ev * (option Q * vec)) :=
  let (e, r) := value_gradient S e (map Fin p) (Got (loss (clip p), map (fun q => Some (Fin q)) (grad (clip p)))) in
  let* (v, g) := r in
  match g with
  | None => Err not_modelled
  | Some g => let* g := opt_result not_modelled (all_some (map entry_finite g)) in Ok (e, (finite v, g))
  end.
Definition lv_hessian (e : ev) (p : vec) : result (ev * mat) :=
  let m := hess (clip p) in
  let (e, r) := hessian S e (map Fin p) (Got (map (fun q => Some (Fin q)) (concat m))) in
  let* _ := r in Ok (e, m).
End Instance.
