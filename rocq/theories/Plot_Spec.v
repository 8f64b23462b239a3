(** What the properties about plots say. *)
From Verif Require Import Base Plot_Model.
Open Scope Q_scope.

(** [f] is drawn from [lower] to [upper] with [num] points at equal distances. *)
Definition draws (points : list (Q * Q)) (lower upper : Q) (num : nat) (f : Q -> Q) : Prop :=
  length points = num
  /\ (forall i x y, nth_error points i = Some (x, y) -> y == f x)
  /\ (forall x y, nth_error points 0 = Some (x, y) -> x == lower)
  /\ (forall x y, (2 <= num)%nat -> nth_error points (num - 1) = Some (x, y) -> x == upper)
  /\ (forall i x y x' y', nth_error points i = Some (x, y) -> nth_error points (S i) = Some (x', y') ->
        (x' - x) * inject_Z (Z.of_nat (num - 1)) == upper - lower).

(** At each point of [whole] the values of the [curves] sum up to [factor] times its value. *)
Definition add_up (curves : list curve) (whole : curve) (factor : Q) : Prop :=
  forall i x y, nth_error (c_points whole) i = Some (x, y) ->
    exists ys, Forall2 (fun c v => nth_error (c_points c) i = Some (x, v)) curves ys /\ total ys == y * factor.

(** Whether the density is drawn with its yield: as asked for, by default if there is one. *)
Definition extended_drawn (a : args) (m : pdf) : bool :=
  match a_extended a with Some e => e | None => match p_yield m with Some _ => true | None => false end end.
(** The density, with the yield or without. *)
Definition height (extended : bool) (m : pdf) (ob : string) (x : Q) : Q :=
  if extended then p_density m ob x * match p_yield m with Some y => y | None => 1 end else p_density m ob x.

(** The sum is drawn over the same range of the same observable as its parts. *)
Definition same_range (a : args) (s : sum_pdf) (ob : string) (lower upper : Q) : Prop :=
  range (s_pdf s) (a_obs a) = Ok (ob, (lower, upper))
  /\ Forall (fun p => range (fst p) (a_obs a) = Ok (ob, (lower, upper))) (s_parts s).
(** The density of the sum is the one of its parts. *)
Definition is_sum (s : sum_pdf) : Prop :=
  forall ob x, p_density (s_pdf s) ob x = total (map (fun p => p_density (fst p) ob x * snd p) (s_parts s)).
