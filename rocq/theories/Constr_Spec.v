(** What constraints have to be: negative logarithms of densities. *)
From Coq Require Import Reals.
From Verif Require Import Base Constr_Model.
#[local] Open Scope R_scope.

(** [f 0 + ... + f (n-1)] *)
Definition sum_below (n : nat) (f : nat -> R) : R := rsum (map f (seq 0 n)).

(** Minus the logarithm of the normal density with mean [o] and standard deviation [s] at [p]. *)
Definition normal_nll (s o p : R) : R := ((p - o) / s) ^ 2 / 2 + ln s + ln (2 * PI) / 2.

(** Matrix times vector; symmetric and positive definite matrices. *)
Definition times (n : nat) (c : nat -> nat -> R) (z : nat -> R) (i : nat) : R :=
  sum_below n (fun j => c i j * z j).
Definition symmetric (n : nat) (c : nat -> nat -> R) : Prop :=
  forall i j, (i < n)%nat -> (j < n)%nat -> c i j = c j i.
Definition positive_definite (n : nat) (c : nat -> nat -> R) : Prop :=
  forall z, (exists i, (i < n)%nat /\ z i <> 0) -> 0 < sum_below n (fun i => z i * times n c z i).

(** Difference of parameter [i] and its observation. *)
Definition residual (e : env) (params : list nat) (obs : list num) (i : nat) : R :=
  nth i (map e params) 0 - nth i (map (num_value e) obs) 0.

(** Minus the logarithm of the Poisson probability of [k] for the mean [mu]. *)
Definition poisson_nll (mu : R) (k : nat) : R := mu - INR k * ln mu + ln (INR (fact k)).
(** The logarithm of the gamma function at the whole numbers. *)
Definition is_lgamma (g : R -> R) : Prop := forall k, g (1 + INR k) = ln (INR (fact k)).
(** Minus the logarithm of the log-normal density of [x]: [ln x] is normal with mean [m] and
    standard deviation [s]. *)
Definition lognormal_nll (s m x : R) : R := normal_nll s m (ln x) + ln x.

(** Independent standard deviations [s], in all the ways they can be given. *)
Inductive independent (s : list R) : option unc_arg -> option arr -> option arr -> Prop :=
| by_sigma : independent s None (Some (A1 s)) None
| by_one_sigma : forall x, s = [x] -> independent s None (Some (A0 x)) None
| by_variances : independent s None None (Some (A1 (map (fun x => x ^ 2) s)))
| by_one_variance : forall x, s = [x] -> independent s None None (Some (A0 (x ^ 2)))
| by_matrix : forall m, m_rows m = length s -> m_cols m = length s ->
    (forall i j, (i < length s)%nat -> (j < length s)%nat -> m_get m i j = if Nat.eqb i j then nth i s 0 ^ 2 else 0) ->
    independent s None None (Some (A2 m))
| by_uncertainty : independent s (Some (U1 (map NConst s))) None None
| by_uncertainty_matrix : forall m, m_rows m = length s -> m_cols m = length s ->
    (forall i j, (i < length s)%nat -> (j < length s)%nat -> m_get m i j = if Nat.eqb i j then nth i s 0 ^ 2 else 0) ->
    independent s (Some (U2 m)) None None.
