(** Constraints (core/constraint.py): Gaussian, Poisson and log-normal penalties on parameters.
    Numbers are reals. An environment gives the current values of the parameters; everything
    that is given as a number can be a parameter too, where the code allows it. *)
From Coq Require Import Reals.
From Verif Require Import Base.
#[local] Open Scope R_scope.

Definition env := nat -> R.
Inductive num : Type := NConst (x : R) | NParam (p : nat).
Definition num_value (e : env) (v : num) : R := match v with NConst x => x | NParam p => e p end.
Definition rsum (l : list R) : R := fold_right Rplus 0 l.

(** A matrix: numbers of rows and columns, entries. *)
Record mat : Type := Mat { m_rows : nat; m_cols : nat; m_get : nat -> nat -> R }.
(** [znp.diag] of a vector, of a matrix *)
Definition diag_mat (l : list R) : mat :=
  Mat (length l) (length l) (fun i j => if Nat.eqb i j then nth i l 0 else 0).

(** Observations as given: a single number, a list or tuple, a numpy array, a tensor. *)
Inductive obs_arg : Type :=
| OOne (v : num) | OSeq (l : list num) | OArray (l : list R) | OTensor (l : list R).
(** As stored: numbers, or a tuple with an array as its only element. *)
Inductive stored : Type := SNums (l : list num) | SArr (l : list R).
Definition stored_len (s : stored) : nat := match s with SNums l => length l | SArr _ => 1 end.
(** util/container.py:17-79 [convert_to_container(observation, tuple, ignore)]; with
    [ignore=np.ndarray] an array is left as it is. *)
Definition to_container (ignore_array : bool) (o : obs_arg) : stored :=
  match o with
  | OOne v => SNums [v]
  | OSeq l => SNums l
  | OArray l => if ignore_array then SNums (map NConst l) else SArr l
  | OTensor l => SArr l
  end.

(** core/constraint.py:97-139 [ProbabilityConstraint.__init__] *)
Definition check_lengths (o : stored) (params : list nat) : result unit :=
  if Nat.eqb (stored_len o) (length params) then Ok tt else Err ShapeIncompatibleError.

(** ** Gaussian *)

(** [sigma] and [cov]: a single number, a vector, a matrix, more dimensions, or anything with a
    parameter in it. *)
Inductive arr : Type := A0 (x : R) | A1 (l : list R) | A2 (m : mat) | A3 | AParam.
(** The deprecated [uncertainty] after core/constraint.py:299-302: numbers or parameters, or the
    rows of a matrix. *)
Inductive unc_arg : Type := U1 (l : list num) | U2 (m : mat).

(** core/constraint.py:209-250 [_preprocess_gaussian_constr_sigma_var], of which only [cov] is
    used later. [None] for the covariance: -999, if nothing is given. [znp.diag] refuses more
    than two dimensions. *)
Definition preprocess (cov sigma : option arr) (legacy : bool) : result (option mat) :=
  match sigma with
  | Some s =>
      if legacy then Err ValueError
      else match cov with
           | Some _ => Err ValueError
           | None =>
               match s with
               | AParam => Err ValueError
               | A0 x => Ok (Some (diag_mat [x * x]))
               | A1 l => Ok (Some (diag_mat (map (fun x => x * x) l)))
               | A2 _ | A3 => Err ValueError
               end
           end
  | None =>
      match cov with
      | Some AParam => Err ValueError
      | Some c =>
          if legacy then Err ValueError
          else match c with
               | A0 x => Ok (Some (diag_mat [x]))
               | A1 l => Ok (Some (diag_mat l))
               | A2 m => Ok (Some m)
               | _ => Err ValueError
               end
      | None => Ok None
      end
  end.

Record gauss : Type := Gauss {
  g_params : list nat; g_obs : stored; g_cov : option mat; g_legacy : option unc_arg }.

(** core/constraint.py:254-359 [GaussianConstraint.__init__] *)
Definition gauss_init (params : list nat) (observation : obs_arg) (uncertainty : option unc_arg)
  (sigma cov : option arr) : result gauss :=
  let o := to_container true observation in
  let* c := preprocess cov sigma (match uncertainty with Some _ => true | None => false end) in
  let* _ := check_lengths o params in
  Ok (Gauss params o c uncertainty).

(** core/constraint.py:304-330, 361-368 [create_covariance_legacy], [covariance]. Without any
    uncertainty it is the number -999, and no matrix. *)
Definition covariance (e : env) (g : gauss) : result mat :=
  match g_legacy g with
  | Some u =>
      let c := match u with
               | U2 m => m
               | U1 l => diag_mat (map (fun v => num_value e v ^ 2) l)
               end in
      let n := stored_len (g_obs g) in
      if Nat.eqb (length (g_params g)) n && Nat.eqb n (m_rows c) && Nat.eqb (m_rows c) (m_cols c)
      then Ok c else Err ShapeIncompatibleError
  | None => opt_result ValueError (g_cov g)
  end.

(** [tf.linalg.cholesky]: the lower triangular root, of which the lower triangle of the matrix
    is read only. A pivot that is not positive is an error. *)
Fixpoint cholesky (n : nat) (c : nat -> nat -> R) : option (nat -> nat -> R) :=
  match n with
  | O => Some (fun _ _ => 0)
  | S m =>
      if Rlt_dec 0 (c O O) then
        let d := sqrt (c O O) in
        let col i := c (S i) O / d in
        match cholesky m (fun i j => c (S i) (S j) - col i * col j) with
        | None => None
        | Some l => Some (fun i j => match i, j with
                                     | O, O => d
                                     | S i, O => col i
                                     | O, S _ => 0
                                     | S i, S j => l i j
                                     end)
        end
      else None
  end.
(** The solution of [l y = r], [l] lower triangular, from the top *)
Fixpoint forward_solve (n : nat) (l : nat -> nat -> R) (r : nat -> R) : list R :=
  match n with
  | O => []
  | S m => let y := r O / l O O in
           y :: forward_solve m (fun i j => l (S i) (S j)) (fun i => r (S i) - l (S i) O * y)
  end.

(** [tfd.MultivariateNormalTriL(loc, scale_tril).log_prob(x)] for the root [l] of dimension [n] *)
Definition mvn_log_prob (n : nat) (l : nat -> nat -> R) (loc x : list R) : R :=
  let y := forward_solve n l (fun i => nth i x 0 - nth i loc 0) in
  - rsum (map (fun v => v ^ 2) y) / 2 - rsum (map (fun i => ln (l i i)) (seq 0 n)) - INR n / 2 * ln (2 * PI).

(** core/constraint.py:192-203, 338-341 [distribution], [_value]: the location is the
    observation, the point is the parameters. A location or a point that does not fit to the
    matrix is refused by TensorFlow (an array as the only observation fits if it is one
    number). *)
Definition gauss_value (e : env) (g : gauss) : result R :=
  let x := map e (g_params g) in
  let loc := match g_obs g with SNums l => map (num_value e) l | SArr l => l end in
  let* c := covariance e g in
  if negb (Nat.eqb (m_rows c) (m_cols c)) then Err ValueError
  else
    let* l := opt_result InvalidArgumentError (cholesky (m_rows c) (m_get c)) in
    if Nat.eqb (length loc) (m_rows c) && Nat.eqb (length x) (m_rows c)
    then Ok (- mvn_log_prob (m_rows c) l loc x)
    else Err ValueError.

(** ** Poisson and log-normal *)

(** Elementwise functions of arrays with broadcasting of a single element *)
Definition bcast (n : nat) (l : list R) : result (list R) :=
  if Nat.eqb (length l) n then Ok l
  else match l with [x] => Ok (repeat x n) | _ => Err ValueError end.
Definition bcast_len (a b : nat) : nat := if Nat.eqb a 1 then b else a.

Record other : Type := Other { o_params : list nat; o_obs : stored; o_unc : list num }.
Definition obs_values (e : env) (s : stored) : list R :=
  match s with SNums l => map (num_value e) l | SArr l => l end.

(** core/constraint.py:397-437 [PoissonConstraint], 474-514 [LogNormalConstraint];
    [uncertainty] is a number or a sequence *)
Definition poisson_init (params : list nat) (observation : obs_arg) : result other :=
  let o := to_container false observation in
  let* _ := check_lengths o params in Ok (Other params o []).
Definition lognormal_init (params : list nat) (observation : obs_arg) (uncertainty : list num) : result other :=
  let o := to_container false observation in
  let* _ := check_lengths o params in Ok (Other params o uncertainty).

Section Values.
(** The logarithm of the gamma function *)
Variable lgamma : R -> R.

(** [tfd.Poisson(rate).log_prob(x)] *)
Definition poisson_log_prob (rate x : R) : R := x * ln rate - rate - lgamma (1 + x).
(** core/constraint.py:415-419, 192-203: the rate is the observation, the point the parameter;
    an array as the only observation is broadcast against the parameter *)
Definition poisson_value (e : env) (c : other) : result R :=
  let o := obs_values e (o_obs c) in
  let x := map e (o_params c) in
  let n := bcast_len (length o) (length x) in
  let* o := bcast n o in let* x := bcast n x in
  Ok (rsum (map (fun p => - poisson_log_prob (fst p) (snd p)) (combine o x))).

(** [tfd.LogNormal(loc, scale).log_prob(x)] *)
Definition lognormal_log_prob (loc scale x : R) : R :=
  - ((ln x - loc) / scale) ^ 2 / 2 - ln scale - ln (2 * PI) / 2 - ln x.
(** core/constraint.py:495-501, 192-203 *)
Definition lognormal_value (e : env) (c : other) : result R :=
  let o := obs_values e (o_obs c) in
  let s := map (num_value e) (o_unc c) in
  let x := map e (o_params c) in
  let n := bcast_len (bcast_len (length o) (length s)) (length x) in
  let* o := bcast n o in let* s := bcast n s in let* x := bcast n x in
  Ok (rsum (map (fun p => - lognormal_log_prob (fst (fst p)) (snd (fst p)) (snd p)) (combine (combine o s) x))).
End Values.

(** core/constraint.py:154-162 [sample]: the points, one column per parameter, as a dict; a
    parameter listed twice has its last column *)
Definition sample (params : list nat) (points : list (list R)) : list (nat * list R) :=
  fold_left (fun d p => (fst p, map (fun row => nth (snd p) row 0) points)
                        :: filter (fun q => negb (Nat.eqb (fst q) (fst p))) d)
            (combine params (seq 0 (length params))) [].
