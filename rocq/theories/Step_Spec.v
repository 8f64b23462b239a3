(** What counts as a step, and when the loss has settled. *)
From Verif Require Import Base Param_Model.

(** Every step adds one to the clock and its value to the record of values (latest first);
    nothing before does. *)
Definition counts_steps {W R} (begin : W -> W * option error) (step : R -> W -> W * result num)
    (clock : W -> nat) (record : W -> list num) : Prop :=
  (forall w, clock (fst (begin w)) = 0 /\ record (fst (begin w)) = []) /\
  (forall p w, clock (fst (step p w)) = clock w + 1) /\
  (forall p w v, snd (step p w) = Ok v -> record (fst (step p w)) = v :: record w).

(** The difference of two finite values *)
Inductive change : num -> num -> Q -> Prop :=
| change_up a b : (a <= b)%Q -> change (Fin a) (Fin b) (b - a)
| change_down a b : (b <= a)%Q -> change (Fin a) (Fin b) (a - b).
(** [settled n total vs]: the last [n] changes of the values [vs] (latest first), the first of
    them counted from -10, add up to [total]. *)
Inductive settled : nat -> Q -> list num -> Prop :=
| settled_none vs : settled 0 0 vs
| settled_more n t v u vs d : change u v d -> settled n t (u :: vs) -> settled (S n) (d + t) (v :: u :: vs)
| settled_first n v d t : change (Fin (-10)) v d -> settled_pad n t -> settled (S n) (d + t) [v]
(** before the first step a change of one is assumed *)
with settled_pad : nat -> Q -> Prop :=
| pad n : settled_pad n (inject_Z (Z.of_nat n)).
