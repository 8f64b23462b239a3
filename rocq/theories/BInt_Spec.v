(** What the integral of a histogram over a range means: each bin counts with the fraction of
    it that lies in the range. *)
From Verif Require Import Base Hist_Model Hist_Spec.
From Coq Require Import Qminmax.
#[local] Open Scope nat_scope.

(** Length of the part of bin [k] that lies in the range. *)
Definition covered (edges : list Q) (k : nat) (range : Q * Q) : Q :=
  Qmax 0 (Qmin (nth (S k) edges 0) (snd range) - Qmax (nth k edges 0) (fst range))%Q.
Definition width (edges : list Q) (k : nat) : Q := (nth (S k) edges 0 - nth k edges 0)%Q.
Definition fraction (edges : list Q) (k : nat) (range : Q * Q) : Q := (covered edges k range / width edges k)%Q.

Definition edges_ok (edges : list Q) : Prop := increasing edges /\ 2 <= length edges.
(** The range is one and meets the range of the binning. *)
Definition meets (edges : list Q) (range : Q * Q) : Prop :=
  (fst range <= snd range /\ fst range <= last edges 0 /\ hd 0 edges <= snd range)%Q.

(** An axis: its edges and, if it is integrated, the range. *)
Definition spec_axis : Type := (list Q * option (Q * Q))%type.
Definition axis_ok (a : spec_axis) : Prop :=
  edges_ok (fst a) /\ forall r, snd a = Some r -> meets (fst a) r.
Definition integrated (a : spec_axis) : bool := match snd a with Some _ => true | None => false end.

(** The call that asks for this: all edges, the numbers of the axes that are integrated, and
    their ranges. *)
Definition edges_arg (axes : list spec_axis) : list (list Q) := map fst axes.
Definition axis_arg (axes : list spec_axis) : list nat :=
  map fst (filter (fun p => integrated (snd p)) (combine (seq 0 (length axes)) axes)).
Definition limits_arg (axes : list spec_axis) : list (Q * Q) :=
  flat_map (fun a => match snd a with Some r => [r] | None => [] end) axes.
Definition bins_of (axes : list spec_axis) : list nat := map (fun a => length (fst a) - 1) axes.

(** The weight of a bin. Contents: the product of the fractions. Densities: the volume, the
    axes that are not integrated with their full width. *)
Fixpoint product (l : list Q) : Q := match l with [] => 1%Q | x :: r => (x * product r)%Q end.
Definition fraction_of (a : spec_axis) (k : nat) : Q :=
  match snd a with Some r => fraction (fst a) k r | None => 1%Q end.
Definition length_of (a : spec_axis) (k : nat) : Q :=
  match snd a with Some r => covered (fst a) k r | None => width (fst a) k end.
Definition bin_weight (w : spec_axis -> nat -> Q) (axes : list spec_axis) (idx : list nat) : Q :=
  product (map (fun p => w (fst p) (snd p)) (combine axes idx)).

(** The part of an index that belongs to the axes not integrated. *)
Definition kept (axes : list spec_axis) (idx : list nat) : list nat :=
  map snd (filter (fun p => negb (integrated (fst p))) (combine axes idx)).

(** Sum over all bins whose other indices are [rest] of content times weight. *)
Definition integral (w : spec_axis -> nat -> Q) (axes : list spec_axis) (values : tensor) (rest : list nat) : Q :=
  qsum (map (fun idx => t_get values idx * bin_weight w axes idx)%Q
            (filter (fun idx => if list_eq_dec Nat.eq_dec (kept axes idx) rest then true else false)
                    (indices (bins_of axes)))).

Definition total (values : tensor) : Q := qsum (map (t_get values) (indices (t_shape values))).
Definition non_negative (values : tensor) : Prop :=
  forall idx, in_shape idx (t_shape values) -> (0 <= t_get values idx)%Q.

(** Same edges, each range within the other one. *)
Definition within_axis (a b : spec_axis) : Prop :=
  fst a = fst b /\
  match snd a, snd b with
  | None, None => True
  | Some r, Some r' => (fst r' <= fst r)%Q /\ (snd r <= snd r')%Q
  | _, _ => False
  end.
(** The range of an integrated axis contains all edges. *)
Definition full_axis (a : spec_axis) : Prop :=
  edges_ok (fst a) /\
  forall r, snd a = Some r -> (fst r <= hd 0 (fst a) /\ last (fst a) 0 <= snd r)%Q.
