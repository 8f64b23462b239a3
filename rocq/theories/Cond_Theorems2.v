(** C78, continued: the ranges that a conditional PDF hands to the PDF it wraps. *)
From Verif Require Import Base BaseLemmas Cond_Model.
#[local] Open Scope string_scope.
#[local] Open Scope list_scope.

(** Of the ranges given, the wrapped PDF gets those of its own observables, each as it was given,
    and no others. *)
Theorem C78_ranges obs r o : lookup String.eqb o (part obs r) = if in_dec string_dec o obs then lookup String.eqb o r else None.
Proof.
  unfold part. induction r as [|[a b] r IH]; cbn; [destruct (in_dec string_dec o obs); reflexivity|].
  destruct (mem String.eqb a obs) eqn:M; cbn; [|]; destruct (String.eqb o a) eqn:E.
  - apply String.eqb_eq in E. subst a. apply (mem_In _ string_eqb_ok) in M. destruct (in_dec string_dec o obs); [reflexivity|contradiction].
  - exact IH.
  - rewrite IH. apply String.eqb_eq in E. subst a. destruct (in_dec string_dec o obs) as [I|I]; [|reflexivity]. apply (mem_In _ string_eqb_ok) in I. congruence.
  - exact IH.
Qed.
Example C78_ranges_example : part ["x"; "y"] [("x", (0%Q, 1%Q)); ("mu", (2%Q, 3%Q)); ("y", (4%Q, 5%Q))] = [("x", (0%Q, 1%Q)); ("y", (4%Q, 5%Q))].
Proof. reflexivity. Qed.
