(** C75, continued: what the arguments of the unbinned version mean. *)
From Verif Require Import Base BaseLemmas BInt_Model Bpdf_Model Bpdf_Theorems Disp_Model Ufb_Model Ufb_Theorems.
From Coq Require Import Qreals.
#[local] Open Scope string_scope.
#[local] Open Scope list_scope.

(** Extended integrals have the yield asked for; by default that of the binned PDF; [True] means one. *)
Theorem C75_yield_argument : forall b bobs obs ext n m ls nm,
  let u := unbinned_pdf b bobs obs ext n in
  let extended_by y := forall r, ufb_integrate u m ls nm = Val r -> ufb_ext_integrate u m ls nm = Val (r * Q2R y)%R in
  let refused := forall r, ufb_ext_integrate u m ls nm <> Val r in
  match ext with
  | ExtFalse => refused
  | ExtTrue => extended_by 1%Q
  | ExtYield y => extended_by y
  | ExtNone => match p_yield b with Some y => extended_by y | None => refused end
  end.
Proof.
  intros b bobs obs ext n m ls nm u extended_by refused.
  assert (E : forall y, f_yield u = Some y -> extended_by y) by (intros y Y r R; apply C75_ext_integral; assumption).
  assert (N : f_yield u = None -> refused).
  { intros Y r. unfold ufb_ext_integrate, ext_integrate. cbn [m_yield ufb_model]. rewrite Y. discriminate. }
  destruct ext; [| apply N; reflexivity | apply E; reflexivity | apply E; reflexivity].
  destruct (p_yield b) eqn:P; [apply E|apply N]; exact P.
Qed.

(** The norm asked for is the one used where no norm is given; by default it is the space. *)
Theorem C75_norm_argument : forall b bobs obs ext n m row ls,
  let u := unbinned_pdf b bobs obs ext n in
  let box := match n, obs with Some n, _ => n | None, Some (_, s) => s | None, None => l_ranges (p_space b) end in
  ufb_pdf u m row UOwn = ufb_pdf u m row (UBox box) /\
  ufb_integrate u m ls UOwn = ufb_integrate u m ls (UBox box).
Proof.
  intros b bobs obs ext n m row ls u box. unfold ufb_pdf, ufb_integrate, norm_arg.
  assert (E : f_norm u = box) by (unfold u, box; destruct n, obs as [[? ?]|]; reflexivity). rewrite E. split; reflexivity.
Qed.
Example ex_arguments : exists r, ufb_integrate (unbinned_pdf ex_hist ["x"] None ExtTrue (Some [(0, 2)%Q])) 5 [[(0, 1)%Q]] UOwn = Val r.
Proof. eexists. vm_compute. reflexivity. Qed.
