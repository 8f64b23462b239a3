(** Specification of PDFs as seen from outside, and of their sums. *)
From Verif Require Import Base Disp_Model Disp_Spec.
#[local] Open Scope R_scope.

Section Spec.
Context {L X : Type}.
(** Limits and points that fit the model (e.g. have as many coordinates as the model observables) *)
Variable okL : L -> Prop.
Variable okX : X -> Prop.
Definition limits (ls : list L) : Prop := ls <> [] /\ Forall okL ls.
Definition proper (n : norm L) : Prop := forall nls, n = Norm nls -> limits nls.
(** A PDF behaves like the function [f] with integrals [I] if [integrate] returns the (normalised) integral over all
    limits, and [pdf] the (normalised) value at every point, for every norm. *)
Record behaves (I : L -> R) (f : X -> R) (m : model L X) : Prop := {
  b_integrate : forall ls n, limits ls -> proper n -> integrate m ls n = Val (integral_of I ls n);
  b_pdf : forall x n, okX x -> proper n -> n <> NoNorm -> pdf m x n = Val (density_of I f x n) }.
(** An extended PDF gives the density times the yield. *)
Record behaves_ext (I : L -> R) (f : X -> R) (y : R) (m : model L X) : Prop := {
  be_yield : m_yield m = Some y;
  be_pdf : forall x n, okX x -> proper n -> n <> NoNorm -> ext_pdf m x n = Val (y * density_of I f x n) }.

(** Weighted sums of numbers: the i-th weight times the i-th number *)
Fixpoint wsum (ws vs : list R) : R :=
  match ws, vs with w :: ws, v :: vs => w * v + wsum ws vs | _, _ => 0 end.
Fixpoint sum_list (vs : list R) : R := match vs with [] => 0 | v :: vs => v + sum_list vs end.
End Spec.
