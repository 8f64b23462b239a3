(** What users expect of binned data from histograms. *)
From Coq Require Import List String QArith.Qcanon.
From Verif Require Import Base Bsp_Model Bsp_Spec Hh_Model.
Import ListNotations.

(** Axes that can be used: named differently, of the two kinds of bins, without a transformation. *)
Definition plain (a : axis) : Prop :=
  match a with Regular _ _ _ _ t => t = false | Varied _ _ => True | Other _ => False end.
Definition usable_axes (l : list axis) : Prop :=
  l <> [] /\ Forall proper l /\ Forall plain l /\ Forall (fun a => name a <> EmptyString) l /\ NoDup (map name l).

(** One number for each bin. *)
Definition fits (l : list axis) (v : array) : Prop := Forall2 (fun a n => length (edges a) = S n) l (shape v).

(** For counts from a Poisson distribution the estimated variances are the counts. *)
Definition poisson (v w : array) : Prop := shape w = shape v /\ numbers w = numbers v.
