(** C77: what a fit result holds if not everything is given. *)
From Coq Require Import Qabs.
From Verif Require Import Base BaseLemmas Param_Model Drv_Model Drv_Spec Drv_Proofs.
#[local] Open Scope nat_scope.

(** A result made as valid is converged, with status 0, if nothing else is said; one made as not valid has no word on the convergence.
    The flag is off at a limit. *)
Theorem C77_result_defaults al x e f v c s m n k :
  let r := fit_result al x e f v c s m n k in
  f_converged r = match c with Some b => Some b | None => if v then Some true else None end /\
  f_status r = match s with Some z => z | None => if v then 0%Z else (-999)%Z end /\
  f_flag r = (v && negb al)%bool /\ f_at_limit r = al.
Proof. cbn. destruct c, v, s, al; auto. Qed.
Example C77_result_defaults_example : let r := fit_result false [1%Q] None None false None None None 5 5 in
  f_converged r = None /\ f_status r = (-999)%Z.
Proof. vm_compute. auto. Qed.

(** Validity looks at the limits itself: also a result with the flag on is not valid at a limit. *)
Theorem C77_valid_at_limit r : f_at_limit r = true -> valid r = false.
Proof. intros H. unfold valid. rewrite H, Bool.andb_false_r. reflexivity. Qed.

(** What counts as no change of the criterion between two runs: a relative difference of at most 1e-4, or an absolute one of 1e-12. An
    infinite criterion is the same as an infinite one; NaN is never. *)
Theorem C77_close a b : isclose a b = true <->
  (exists x y, a = Fin x /\ b = Fin y /\
    (Qabs (x - y) <= (1 # 10000) * Qabs x \/ Qabs (x - y) <= (1 # 10000) * Qabs y \/ Qabs (x - y) <= 1 # 1000000000000)%Q) \/
  (a = PInf /\ b = PInf) \/ (a = NInf /\ b = NInf).
Proof.
  assert (AQ : forall q, ((if Qle_bool 0 q then q else (- q)%Q) == Qabs q)%Q).
  { intros q. destruct (Qle_bool 0 q) eqn:E; [apply Qle_bool_iff in E; rewrite Qabs_pos by exact E; reflexivity|].
    assert (q <= 0)%Q by (apply Qnot_lt_le; intros L; apply Qlt_le_weak, Qle_bool_iff in L; congruence). rewrite Qabs_neg by assumption. reflexivity. }
  split.
  - intros H. destruct a as [x| | |], b as [y| | |]; try discriminate; auto. left. exists x, y. split; [reflexivity|]. split; [reflexivity|].
    unfold isclose in H. rewrite !Bool.orb_true_iff, !Qle_bool_iff, !AQ in H. tauto.
  - intros [(x&y&->&->&H)|[[-> ->]|[-> ->]]]; [|reflexivity|reflexivity]. unfold isclose. rewrite !Bool.orb_true_iff, !Qle_bool_iff, !AQ. tauto.
Qed.
Example C77_close_example : isclose (Fin (10001 # 10000)) (Fin 1) = true /\ isclose (Fin (10002 # 10000)) (Fin 1) = false /\ isclose NaN NaN = false.
Proof. vm_compute. auto. Qed.
