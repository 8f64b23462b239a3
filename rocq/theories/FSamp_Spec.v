(** Specification of samples of combined PDFs. *)
From Verif Require Import Base FSamp_Model.
From Coq Require Import Permutation.
#[local] Open Scope nat_scope.

(** The columns of the row are the observables in this order. *)
Definition columns (obs : list string) (r : row) : Prop := map fst r = obs.
(** Each value lies within the limits of the observable it belongs to. *)
Definition within (b : box) (r : row) : Prop :=
  forall o v lo hi, In (o, v) r -> lookup String.eqb o b = Some (lo, hi) -> (lo <= v <= hi)%Q.

(** The value of the observable lies within one of the limits. *)
Definition in_limits (o : string) (limits : list (Q * Q)) (r : row) : Prop :=
  exists v l, r = [(o, v)] /\ In l limits /\ (fst l <= v <= snd l)%Q.

Definition sum_nat (l : list nat) : nat := fold_right Nat.add 0 l.

(** What is assumed of the random numbers: multinomial counts add up to the number asked for, a shuffle is a permutation, and a PDF that is
    sampled directly gives, if it succeeds, the number of rows asked for, with its observables as columns, within the limits. *)
Record good_random (multinomial : list nat -> nat -> list Q -> list nat) (shuffle : list nat -> list row -> list row)
  (draw : list nat -> tree -> nat -> box -> result (list row)) : Prop := {
  g_length : forall s n fs, length (multinomial s n fs) = length fs;
  g_sum : forall s n fs, fs <> [] -> sum_nat (multinomial s n fs) = n;
  g_shuffle : forall s rows, Permutation rows (shuffle s rows);
  g_draw : forall s t n b rows, draw s t n b = Ok rows -> length rows = n /\ Forall (columns (t_obs t)) rows /\ Forall (within b) rows;
  (** a row is accepted only where the density is positive, so inside the limits of a truncated PDF (C35, C45) *)
  g_positive : forall s o y sp limits p n b rows, draw s (TruncT o y sp limits p) n b = Ok rows -> Forall (in_limits o limits) rows }.
(** An error of the direct sampling of a PDF *)
Definition draw_fails (draw : list nat -> tree -> nat -> box -> result (list row)) (e : error) : Prop :=
  exists s t n b, draw s t n b = Err e.

(** The observables of a functor are in the order in which its parts produce them: those of the components of a sum in the same order
    as those of the sum, those of a product in the order of its groups; the limits of a truncated PDF lie within its space. *)
Fixpoint ordered (t : tree) : Prop :=
  match t with
  | Leaf _ _ _ => True
  | SumT obs _ fracs pdfs =>
      length fracs = length pdfs /\ pdfs <> [] /\
      (fix all (ps : list tree) : Prop := match ps with [] => True | p :: ps => t_obs p = obs /\ ordered p /\ all ps end) pdfs
  | ProdT obs _ pdfs =>
      forallb (overlaps pdfs) pdfs = true \/
      obs = flat_map t_obs (filter (fun p => negb (overlaps pdfs p)) pdfs) ++ (if existsb (overlaps pdfs) pdfs then t_obs (nested pdfs) else []) /\
      (fix all (ps : list tree) : Prop := match ps with [] => True | p :: ps => (overlaps pdfs p = false -> ordered p) /\ all ps end) pdfs
  | TruncT o _ sp limits p =>
      t_obs p = [o] /\ ordered p /\ limits <> [] /\ Forall (fun l => fst sp <= fst l /\ snd l <= snd sp)%Q limits
  end.

(** The sum of the yields; an extended PDF whose yield is the sum of the yields of its parts (a sum of extended PDFs without fractions), or none of
    whose parts has a yield. *)
Definition yield_of (t : tree) : Q := match t_yield t with Some y => y | None => 0 end.
Definition no_yields (pdfs : list tree) : Prop := pdfs <> [] /\ forall p, In p pdfs -> t_yield p = None.
Fixpoint additive (t : tree) : Prop :=
  t_yield t <> None /\
  match t with
  | Leaf _ _ _ => True
  | SumT _ _ _ pdfs =>
      no_yields pdfs \/
      (yield_of t == fold_right (fun p a => yield_of p + a) 0 pdfs)%Q /\
      (fix all (ps : list tree) : Prop := match ps with [] => True | p :: ps => additive p /\ all ps end) pdfs
  | ProdT _ _ pdfs => no_yields pdfs
  | TruncT _ _ _ _ p => t_yield p = None
  end.

(** The part of a row that belongs to some observables *)
Definition project (obs : list string) (r : row) : row := filter (fun c => mem String.eqb (fst c) obs) r.
(** The numbers that the Poisson distributions of the yields give, one for each PDF *)
Definition poisson_numbers (poisson : list nat -> Q -> nat) (s : list nat) (ps : list tree) : list nat :=
  map (fun i => poisson (i :: s) (yield_of (nth i ps (Leaf 0 [] None)))) (seq 0 (length ps)).
