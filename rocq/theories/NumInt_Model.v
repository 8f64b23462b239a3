(** Model of the numeric integration (core/integration.py:25-473). Real numbers stand for floats. *)
From Verif Require Import Base.
From Coq Require Export Reals.
#[local] Open Scope R_scope.

(** ** Simpson's rule *)

(** core/integration.py:134-137: first, middle and last weights for [num_points] points *)
Fixpoint tile (k : nat) (l : list R) : list R := match k with O => [] | S k => l ++ tile k l end.
Definition simpson_weights (num_points : nat) : list R :=
  [1] ++ tile ((num_points - 3) / 2) [4; 2] ++ [4; 1].
(** 130-133: the grid *)
Definition simpson_dx (lower upper : R) (num_points : nat) : R := (upper - lower) / (INR num_points - 1).
Definition simpson_grid (lower upper : R) (num_points : nat) : list R :=
  map (fun i => lower + simpson_dx lower upper num_points * INR i) (seq 0 num_points).
Fixpoint rsum (l : list R) : R := match l with [] => 0 | x :: r => x + rsum r end.
Definition products (a b : list R) : list R := map (fun p => fst p * snd p) (combine a b).
(** core/integration.py:82-139 [simpson]: InvalidArgumentError of the two assertions; the product of the
    values and the weights needs the same length, which [combine] does not check (proved). *)
Definition simpson (f : R -> R) (lower upper : R) (num_points : nat) : result R :=
  if Nat.leb 3 num_points && Nat.eqb (num_points mod 2) 1
  then Ok (rsum (products (map f (simpson_grid lower upper num_points)) (simpson_weights num_points))
           * simpson_dx lower upper num_points / 3)
  else Err InvalidArgumentError.
(** core/integration.py:142-168 [simpson_integrate]: the number of points is made odd; the integrals over several
    limits are added. Limits are finite and not vectorised. *)
Definition sanitize_points (num_points : nat) : nat := (num_points + (num_points mod 2 + 1))%nat.
Fixpoint simpson_all (f : R -> R) (limits : list (R * R)) (num_points : nat) : result R :=
  match limits with
  | [] => Ok 0
  | (lower, upper) :: r =>
      let* v := simpson f lower upper num_points in
      let* w := simpson_all f r num_points in Ok (v + w)
  end.
Definition simpson_integrate (f : R -> R) (limits : list (R * R)) (num_points : nat) : result R :=
  simpson_all f limits (sanitize_points num_points).

(** ** Monte Carlo *)
Section MC.
(** The Halton sequence: point number [i] in the unit cube (tfp.mcmc.sample_halton_sequence, not randomised) *)
Variable halton : nat -> list R.
(** The integrand *)
Variable f : list R -> R.

(** core/integration.py:329: [samples_normed * (upper - lower) + lower], by coordinate *)
Definition stretch (lower upper u : list R) : list R :=
  map (fun p => snd p * (snd (fst p) - fst (fst p)) + fst (fst p)) (combine (combine lower upper) u).
(** The values at the points number [from], ..., [from + n - 1] (318-341) *)
Definition batch (lower upper : list R) (from n : nat) : list R :=
  map (fun i => f (stretch lower upper (halton i))) (seq from n).
Definition mean (l : list R) : R := rsum l / INR (length l).
(** [znp.std]: the square root of the mean squared deviation *)
Definition std (l : list R) : R := sqrt (mean (map (fun y => (y - mean l) * (y - mean l)) l)).

Record mcstate := mkMc { mc_avg : R; mc_error : R; mc_std : R; mc_ntot : nat; mc_i : nat }.
(** core/integration.py:359-365 *)
Definition mc_init : mcstate := mkMc 0 9999 0 0 0.
(** core/integration.py:305-356 [body_integrate] *)
Definition mc_body (lower upper : list R) (n_samples n_axes : nat) (s : mcstate) : mcstate :=
  let y := batch lower upper (mc_ntot s) n_samples in
  let ntot := (mc_ntot s + n_samples)%nat in
  let i := INR (mc_i s) in
  let avg := mc_avg s / (i + 1) * i + mean y / (i + 1) in
  let sd := mc_std s / (i + 1) * i + std y / (i + 1) in
  let error_sobol := sd * (ln (INR ntot)) ^ n_axes / INR ntot in
  let error_random := sd / sqrt (INR ntot) in
  mkMc avg (Rmin error_sobol error_random * (1 / 10)) sd ntot (S (mc_i s)).
(** core/integration.py:299-302 [cond] *)
Definition mc_cond (tol : R) (max_draws : nat) (s : mcstate) : bool :=
  (if Rlt_dec tol (mc_error s) then true else false) && Nat.ltb (mc_ntot s) max_draws.
(** [tf.while_loop]; [None]: the fuel is used up *)
Fixpoint while (fuel : nat) (cond : mcstate -> bool) (body : mcstate -> mcstate) (s : mcstate) : option mcstate :=
  if cond s then match fuel with O => None | S fuel => while fuel cond body (body s) end
  else Some s.
Definition area (lower upper : list R) : R := fold_right Rmult 1 (map (fun p => snd p - fst p) (combine lower upper)).

(** core/integration.py:389-425, 446-473 [normalization_nograd]: running mean over the batches. The two limits are read in the
    wrong order (391), so the points are mirrored. *)
Fixpoint chunk_loop (lower upper : list R) (batch_size k : nat) (b : nat) (m : R) : R :=
  match k with
  | O => m
  | S k => chunk_loop lower upper batch_size k (S b)
             (m + 1 / INR (b + 1) * (mean (batch upper lower (b * batch_size) batch_size) - m))
  end.
(** [int(np.ceil(a / b))] *)
Definition ceil_div (a b : nat) : nat := ((a + b - 1) / b)%nat.

(** core/integration.py:272-386 [mc_integrate] over one box, not partial: *)
Definition mc_box (chunksize draws_per_dim max_draws : nat) (tol : R) (vectorizable : bool) (n_axes : nat)
    (lower upper : list R) : option R :=
  let n_samples := (draws_per_dim * n_axes)%nat in
  let avg :=
    if Nat.ltb chunksize n_samples then
      let n_chunks := ceil_div n_samples chunksize in
      Some (chunk_loop lower upper (ceil_div n_samples n_chunks) n_chunks 0 0)
    else if vectorizable then Some (mc_avg (mc_body lower upper n_samples n_axes mc_init))
    else option_map mc_avg (while max_draws (mc_cond tol max_draws) (mc_body lower upper n_samples n_axes) mc_init) in
  option_map (fun a => a * area lower upper) avg.
Fixpoint mc_integrate (chunksize draws_per_dim max_draws : nat) (tol : R) (vectorizable : bool) (n_axes : nat)
    (boxes : list (list R * list R)) : option R :=
  match boxes with
  | [] => Some 0
  | (lower, upper) :: r =>
      match mc_box chunksize draws_per_dim max_draws tol vectorizable n_axes lower upper,
            mc_integrate chunksize draws_per_dim max_draws tol vectorizable n_axes r with
      | Some v, Some w => Some (v + w)
      | _, _ => None
      end
  end.
End MC.

(** core/integration.py:25-70 [auto_integrate]: Simpson for one axis without data, Monte Carlo otherwise *)
Definition auto_method (n_axes : nat) (x_given : bool) : string :=
  if Nat.eqb n_axes 1 && negb x_given then "simpson"%string else "mc"%string.
