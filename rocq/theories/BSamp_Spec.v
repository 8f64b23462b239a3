(** What the properties about binned samples say. *)
From Verif Require Import Base Hist_Model BSamp_Model.
Open Scope list_scope.

(** The sum of all contents. *)
Definition total (t : tensor) : Q := qsum (flatten t).

(** One number of contents for each bin. *)
Definition fits_space (s : bspace) (t : tensor) : Prop :=
  t_shape t = map (fun e => (length e - 1)%nat) (b_edges s).

(** What can happen to a sampler: updates and resamplings, with the values that parameters have then. *)
Inductive op :=
| Update (x : new_hist)
| Resample (now : list (string * Q)) (seed : nat) (n : option nat) (params param_values : option (list (string * Q))).
Definition apply (digest : tensor -> option tensor -> Z) (hashing : bool) (s : bsampler) (o : op) : bsampler * result unit :=
  match o with
  | Update x => b_update digest hashing s x
  | Resample now seed n ps pv => b_resample digest hashing now seed s n ps pv
  end.
(** The sampler after all of them, whether they have raised or not. *)
Fixpoint after (digest : tensor -> option tensor -> Z) (hashing : bool) (s : bsampler) (l : list op) : bsampler :=
  match l with
  | [] => s
  | o :: l => after digest hashing (fst (apply digest hashing s o)) l
  end.

(** A multinomial distribution: contents for the same bins, that sum to the number of events if there is any bin. *)
Definition is_multinomial (m : nat -> nat -> tensor -> tensor) : Prop :=
  forall seed n t, t_shape (m seed n t) = t_shape t
                   /\ (Forall (fun k => (0 < k)%nat) (t_shape t) -> (total (m seed n t) == inject_Z (Z.of_nat n))%Q).

(** Spaces that are asked for: all observables have at least one bin. *)
Definition spaces_ok (p : bpdf) (limits : option bspace) : Prop :=
  let lim := match limits with Some l => l | None => p_space p end in
  NoDup (b_obs lim) /\ length (b_edges lim) = length (b_obs lim) /\ b_obs lim <> []
  /\ Forall (fun e => (2 <= length e)%nat) (b_edges lim).

(** The hash of contents and variances. *)
Definition hash_of (digest : tensor -> option tensor -> Z) (v : tensor) (w : option tensor) : Z := (digest v w mod 4096)%Z.
