(** Specification of integrals and densities: what the methods have to return, and what a
    method that a class implements may return. *)
From Verif Require Import Base Disp_Model.
#[local] Open Scope R_scope.

Section Spec.
Context {L X : Type}.
(** The integral of the unnormalised function over a box, its value at a point, and the yield. *)
Variable I : L -> R.
Variable f : X -> R.

(** The integral over several limits is the sum. *)
Fixpoint total (ls : list L) : R := match ls with [] => 0 | l :: r => I l + total r end.

(** Integral and density normalised over [n]. *)
Definition integral_of (ls : list L) (n : norm L) : R :=
  match n with Norm nls => total ls / total nls | _ => total ls end.
Definition density_of (x : X) (n : norm L) : R :=
  match n with Norm nls => f x / total nls | _ => f x end.

Definition is_norm (n : norm L) : Prop := exists nls, n = Norm nls.

(** What a method with given support can be called with: a norm only if it supports one, several limits only if it
    supports them. *)
Definition handed_norm (s : supp) (n : norm L) : Prop := is_norm n -> s_true s || s_space s || s_norm s = true.
Definition handed_limits (s : supp) (ls : list L) : Prop := s_multi s = false -> (length ls <= 1)%nat.

(** A method that integrates is honest if every value it returns is the integral asked for. It
    may decline at any time, decline the norm if there is one, and decline several limits;
    only analytic ones may say that no analytic integral exists. *)
Definition honest (analytic : bool) (h : hook L) : Prop :=
  forall ls n, ls <> [] -> handed_limits (h_supp h) ls -> handed_norm (h_supp h) n -> match h_fun h ls n with
  | Val v => v = integral_of ls n
  | ENotImpl => True
  | EAnalytic => analytic = true
  | ENorm => is_norm n
  | EMulti => (1 < length ls)%nat
  | EOther => False
  end.
(** A method that evaluates: [value x n v] says that [v] is what it should return. *)
Definition honest_at (value : X -> norm L -> R -> Prop) (h : phook L X) : Prop :=
  forall x n, handed_norm (p_supp h) n -> match p_fun h x n with
  | Val v => value x n v
  | ENotImpl => True
  | ENorm => is_norm n
  | _ => False
  end.

Definition opt {A} (P : A -> Prop) (o : option A) : Prop := match o with Some a => P a | None => True end.

Record honest_model (m : model L X) : Prop := {
  hm_integrate : opt (honest false) (m_integrate m);
  hm_analytic : opt (honest true) (m_analytic m);
  hm_reg : forall ls h, m_reg m ls = Some h -> honest true h;
  hm_numeric : opt (honest false) (m_numeric m);
  hm_auto : forall ls, m_auto m ls = Val (total ls) }.

Record honest_pdf (m : model L X) : Prop := {
  hp_model : honest_model m;
  hp_normalization : opt (fun sf => s_true (fst sf) = true /\ forall nls, snd sf (Norm nls) = Val (total nls) \/ snd sf (Norm nls) = ENotImpl)
                         (m_normalization m);
  hp_pdf : opt (honest_at (fun x n v => v = density_of x n)) (m_pdf m);
  hp_log : opt (honest_at (fun x n v => exp v = density_of x n)) (m_log_pdf m);
  hp_ext : forall y, m_yield m = Some y -> opt (honest_at (fun x n v => v = y * density_of x n)) (m_ext_pdf m);
  hp_ext_log : forall y, m_yield m = Some y -> opt (honest_at (fun x n v => exp v = y * density_of x n)) (m_ext_log_pdf m);
  hp_unnorm : forall x, m_unnorm m x = Val (f x);
  hp_yield : forall y, m_yield m = Some y -> 0 < y }.
End Spec.
