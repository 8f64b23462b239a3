(** Theorems about the caching PDF: C20. *)
From Verif Require Import Base CPdf_Model CPdf_Spec CPdf_Proofs.

(** As long as only floating parameters are changed, and all densities are asked for with
    the same norm and number of events, every density returned is the one the wrapped PDF
    gives for parameters and data within the tolerance of the current ones. *)
Theorem C20_pdf_fresh_partial : forall w tol norm m p0 h,
  (0 < tol)%Q -> (tol <= 19)%Q -> (1 <= m)%nat ->
  (forall p x n, exists v, w_pdf w p x n = Ok v) ->
  only_floating_change p0 h -> pdf_calls_alike norm m h ->
  forall p x n v, In (EvPdf p x n (Ok v)) (crun w tol (cinit p0) h) ->
  fresh (w_pdf w) tol p x n v.
Proof. exact pdf_fresh. Qed.

(** If moreover all parameters float, every evaluation returns a density. *)
Theorem C20_pdf_returns_partial : forall w tol norm m p0 h,
  (forall p x n, exists v, w_pdf w p x n = Ok v) ->
  Forall (fun vf => snd vf = true) p0 ->
  only_floating_change p0 h -> pdf_calls_alike norm m h ->
  forall p x n r, In (EvPdf p x n r) (crun w tol (cinit p0) h) -> exists v, r = Ok v.
Proof. exact pdf_total. Qed.

(** Integrals over one kind of limits and with one norm are never stale, whatever happens
    to the parameters and their [floating] flags, and always returned. *)
Theorem C20_integral_fresh_partial : forall w tol norm m p0 h,
  (0 < tol)%Q -> (tol <= 19)%Q -> (1 <= m)%nat ->
  (forall p x n, exists v, w_int w p x n = Ok v) ->
  int_calls_alike norm m h ->
  forall p l n v, In (EvInt p l n (Ok v)) (crun w tol (cinit p0) h) ->
  fresh (w_int w) tol p l n v.
Proof. exact int_fresh. Qed.

Theorem C20_integral_returns_partial : forall w tol norm m p0 h,
  (forall p x n, exists v, w_int w p x n = Ok v) ->
  int_calls_alike norm m h ->
  forall p x n r, In (EvInt p x n r) (crun w tol (cinit p0) h) -> exists v, r = Ok v.
Proof. exact int_total. Qed.

(** A wrapped PDF to try: the sum of the parameters plus the event, halved when
    normalised. *)
Definition demo : wrapped :=
  let f p x (n : bool) :=
    Ok (map (fun e => let v := fold_right Qplus e p in Qred (if n then v / 2 else v)%Q) x) in
  {| w_pdf := f; w_int := f |}.

Definition c20_history : list cop :=
  [HPdf [1; 2] false; HSet 0 3; HPdf [1; 2] false; HPdf [1; 2] false; HPdf [4; 2] false;
   HInt [0; 1] true; HFloat 0 false; HSet 0 4; HInt [0; 1] true]%Q.

Example C20_ex : crun demo (1#100) (cinit [(1, true); (2, true)]%Q) c20_history =
  [EvPdf [(1, true); (2, true)] [1; 2] false (Ok [4; 5]);
   EvPdf [(3, true); (2, true)] [1; 2] false (Ok [6; 7]);
   EvPdf [(3, true); (2, true)] [1; 2] false (Ok [6; 7]);
   EvPdf [(3, true); (2, true)] [4; 2] false (Ok [9; 7]);
   EvInt [(3, true); (2, true)] [0; 1] true (Ok [5#2; 3]);
   EvInt [(4, false); (2, true)] [0; 1] true (Ok [3; 7#2])]%Q.
Proof. reflexivity. Qed.

Example C20_ex_hyps :
  only_floating_change [(1, true); (2, true)]%Q (firstn 5 c20_history) /\
  pdf_calls_alike false 2 c20_history /\ int_calls_alike true 2 c20_history.
Proof.
  repeat split.
  - intros op H. cbn in H. repeat (destruct H as [<-|H]; [cbn; eauto|]). destruct H.
  - cbn in H. repeat (destruct H as [H|H]; [inversion H; reflexivity|]). destruct H.
  - cbn in H. repeat (destruct H as [H|H]; [inversion H; reflexivity|]). destruct H.
  - cbn in H. repeat (destruct H as [H|H]; [inversion H; reflexivity|]). destruct H.
  - cbn in H. repeat (destruct H as [H|H]; [inversion H; reflexivity|]). destruct H.
Qed.

(** Two numbers of a returned density that are far from every density within tolerance. *)
Definition stale_at (tol : Q) (p0 : params) (h : list cop) : Prop :=
  exists p x n v, In (EvPdf p x n (Ok v)) (crun demo tol (cinit p0) h) /\
  match w_pdf demo (values p) x n with
  | Ok v' => exists a b, nth_error v 0 = Some a /\ nth_error v' 0 = Some b /\ (b - a >= 1)%Q
  | Err _ => False
  end.

(** A parameter that does not float is changed: the old density is returned. *)
Theorem C20_fixed_parameter_refuted :
  stale_at (1#100000000) [(1, true); (2, false)]%Q [HPdf [1]%Q false; HSet 1 5%Q; HPdf [1]%Q false].
Proof.
  exists [(1, true); (5, false)]%Q, [1]%Q, false, [4]%Q. split; [right; left; reflexivity|].
  cbn. do 2 eexists. repeat split. unfold Qle. cbn. lia.
Qed.

(** The norm is not part of the key: a normalised density is returned when the
    unnormalised one is asked for. *)
Theorem C20_norm_refuted :
  stale_at (1#100000000) [(5, true)]%Q [HPdf [1]%Q true; HPdf [1]%Q false].
Proof.
  exists [(5, true)]%Q, [1]%Q, false, [3]%Q. split; [right; left; reflexivity|].
  cbn. do 2 eexists. repeat split. unfold Qle. cbn. lia.
Qed.

(** The key is stored before the value is computed: after an evaluation that raised, the
    same evaluation returns the value of an older one. *)
Theorem C20_after_exception_refuted : exists w p0 h p x n v e,
  In (EvPdf p x n (Ok v)) (crun w (1#100) (cinit p0) h) /\ w_pdf w (values p) x n = Err e.
Proof.
  exists {| w_pdf := fun p x n => if Qle_bool 3 (nth 0 p 0%Q) then Err ValueError else Ok x;
            w_int := fun p x n => Ok x |}.
  exists [(1, true)]%Q, [HPdf [1]%Q false; HSet 0 4%Q; HPdf [1]%Q false; HPdf [1]%Q false].
  exists [(4, true)]%Q, [1]%Q, false, [1]%Q, ValueError. split; [|reflexivity].
  cbn. right. right. left. reflexivity.
Qed.

(** Evaluating on another number of events fails. *)
Theorem C20_number_of_events_refuted : forall w v1, w_pdf w [1%Q] [1; 2]%Q false = Ok v1 ->
  crun w (1#100) (cinit [(1, true)]%Q) [HPdf [1; 2]%Q false; HPdf [1; 2; 3]%Q false] =
  [EvPdf [(1, true)]%Q [1; 2]%Q false (Ok v1); EvPdf [(1, true)]%Q [1; 2; 3]%Q false (Err InvalidArgumentError)].
Proof. intros w v1 E. cbn. rewrite E. reflexivity. Qed.

(** With two of three parameters floating not even the first evaluation succeeds. *)
Theorem C20_some_fixed_refuted : forall w tol x n, x <> [] ->
  exists e, crun w tol (cinit [(1, true); (2, true); (3, false)]%Q) [HPdf x n] =
  [EvPdf [(1, true); (2, true); (3, false)]%Q x n (Err e)].
Proof.
  intros w tol x n N. exists InvalidArgumentError. cbn. unfold memo_eval. cbn [m_arg m_val m_params cinit c_pdf].
  destruct (all_within_close tol x (map (fun y => y + 19)%Q x)) as [b [E _]]; [rewrite map_length; reflexivity|].
  rewrite E. reflexivity.
Qed.

Print Assumptions C20_pdf_fresh_partial.
Print Assumptions C20_pdf_returns_partial.
Print Assumptions C20_integral_fresh_partial.
Print Assumptions C20_integral_returns_partial.
Print Assumptions C20_fixed_parameter_refuted.
Print Assumptions C20_norm_refuted.
Print Assumptions C20_after_exception_refuted.
Print Assumptions C20_number_of_events_refuted.
Print Assumptions C20_some_fixed_refuted.
