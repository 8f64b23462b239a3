(** Specification of accept-reject sampling. *)
From Verif Require Import Base AccRej_Model.
From Coq Require Import Permutation.
#[local] Open Scope nat_scope.

Section Spec.
Variables (prob : point -> Q) (inside : point -> bool) (n : nat) (numeric_checks : bool) (prob_max weights_max : option Q)
  (propose : nat -> Z -> list proposal) (binomial : nat -> nat -> Q -> nat).
Notation iterate := (iterate prob inside n numeric_checks prob_max weights_max propose binomial).
Notation asked := (n_to_produce n prob_max).

(** The proposals of iteration [k] *)
Definition proposed (k : nat) (p : proposal) : Prop := exists s, iterate k = Ok s /\ In p (propose k (asked s)).
(** The point was proposed in some iteration and its density exceeded the threshold u * scale * weight, with the scale in force then. *)
Definition was_accepted (x : point) : Prop :=
  exists k p s', proposed k p /\ iterate (S k) = Ok s' /\ pr_row p = x /\ (pr_u p * (st_scaling s' * pr_w p) < prob x)%Q.
(** The chance that a proposal accepted in iteration [k] is still there after [d] more iterations: accepted with probability p/(scale*w), then
    kept by each thinning. *)
Fixpoint survival (k d : nat) (p : proposal) : Q :=
  match d with
  | 0 => match iterate (S k) with Ok s' => prob (pr_row p) / (st_scaling s' * pr_w p) | Err _ => 0 end
  | S d' =>
      match iterate (S k + d') with
      | Ok s => let batch := propose (S k + d') (asked s) in
                survival k d' p * (if rescaled prob prob_max weights_max s batch then keep_prob prob prob_max weights_max s batch else 1)
      | Err _ => 0
      end
  end.
(** In iteration [k], no new maximum is found and at least one proposal is accepted. *)
Definition progresses (k : nat) : Prop :=
  forall s, iterate k = Ok s -> exists s', iterate (S k) = Ok s' /\ st_np s < st_np s'.
End Spec.

(** Inside one of the limits *)
Definition in_limit (l : limit) (x : point) : Prop := Forall2 (fun i v => fst i <= v <= snd i)%Q l x.
Definition in_limitb (l : limit) (x : point) : bool :=
  Nat.eqb (length l) (length x) && forallb (fun p => Qle_bool (fst (fst p)) (snd p) && Qle_bool (snd p) (snd (fst p))) (combine l x).
Definition proper (l : limit) : Prop := Forall (fun i => fst i <= snd i)%Q l.
(** Uniform numbers in [0, 1): as many events as asked for, a number for each dimension and one for the threshold *)
Definition uniform_draws (dim : nat) (draws : nat -> Z -> list (list Q * Q)) : Prop :=
  forall i m, Z.of_nat (length (draws i m)) = Z.max m 0 /\
    forall d, In d (draws i m) -> length (fst d) = dim /\ Forall (fun u => 0 <= u < 1)%Q (fst d) /\ (0 <= snd d < 1)%Q.

(** The size of a limit: the product of the lengths of its intervals *)
Fixpoint size (l : limit) : Q := match l with [] => 1 | (lo, hi) :: r => (hi - lo) * size r end.
Definition total_size (ls : list limit) : Q := fold_right (fun l a => size l + a)%Q 0%Q ls.
(** The point lies at these fractions of the intervals *)
Definition at_fractions (l : limit) (us : list Q) (x : point) : Prop :=
  Forall2 (fun iu v => v == fst (fst iu) + snd iu * (snd (fst iu) - fst (fst iu)))%Q (combine l us) x.
