(** C93: approximations of a fit result and the criterion EDM. *)
From Coq Require Import Lia QArith.Qcanon Field.
From Verif Require Import Base BaseLemmas Apx_Model Apx_Spec.
Open Scope list_scope.

Section Any.
Context {V M : Type} (v_shape : V -> list nat) (m_shape : M -> list nat) (apply : M -> V -> V) (dot : V -> V -> Qc) (inverse : M -> option M) (zero : V).
Notation ask := (@ask V M apply dot inverse).
Notation hessian := (@hessian V M inverse).
Notation inv_hessian := (@inv_hessian V M inverse).
Notation edm := (@edm V M apply dot inverse).

(** C93: approximations are accepted exactly with one number, row and column for each parameter. *)
Theorem C93_created params g h i : 
  (exists a, create v_shape m_shape params g h i = Ok a) <->
  (forall v, g = Some v -> v_shape v = [length params])
  /\ (forall m, h = Some m \/ i = Some m -> m_shape m = [length params; length params]).
Proof.
  assert (G : check_gradient v_shape (length params) g = Ok tt <-> forall v, g = Some v -> v_shape v = [length params]).
  { destruct g as [v|]; cbn; [|split; [discriminate|reflexivity]]. split.
    - intros H w E. injection E as <-. destruct (v_shape v) as [|k [|]]; try discriminate. destruct (Nat.eqb_spec k (length params)); [now subst|discriminate].
    - intros H. rewrite (H v eq_refl), Nat.eqb_refl. reflexivity. }
  assert (MM : forall x : option M, check_matrix m_shape (length params) x = Ok tt <-> forall m, x = Some m -> m_shape m = [length params; length params]).
  { intros [m|]; cbn; [|split; [discriminate|reflexivity]]. split.
    - intros H w E. injection E as <-. destruct (m_shape m) as [|k [|l [|]]]; try discriminate.
      destruct (Nat.eqb_spec k (length params)), (Nat.eqb_spec l (length params)); cbn in H; try discriminate. now subst.
    - intros H. rewrite (H m eq_refl), Nat.eqb_refl. reflexivity. }
  unfold create. split.
  - intros [a H]. destruct (check_gradient v_shape (length params) g) as [[]|] eqn:A; [|discriminate]. cbn in H.
    destruct (check_matrix m_shape (length params) h) as [[]|] eqn:B; [|discriminate]. cbn in H.
    destruct (check_matrix m_shape (length params) i) as [[]|] eqn:C; [|discriminate].
    split; [now apply G|]. intros m [E|E]; [now apply (proj1 (MM h) B)|now apply (proj1 (MM i) C)].
  - intros [A B]. rewrite (proj2 G A). cbn. rewrite (proj2 (MM h) (fun m E => B m (or_introl E))). cbn. rewrite (proj2 (MM i) (fun m E => B m (or_intror E))). cbn. eauto.
Qed.

(** What stays the same: a matrix is the one that was given, or was found as the inverse of the other. *)
Definition from (h0 i0 : option M) (g0 : option V) (a : approx V M) : Prop :=
  a_gradient a = g0
  /\ (a_hessian a = h0 \/ (h0 = None /\ exists i h, i0 = Some i /\ inverse i = Some h /\ a_hessian a = Some h))
  /\ (a_inv_hessian a = i0 \/ (i0 = None /\ exists h i, h0 = Some h /\ inverse h = Some i /\ a_inv_hessian a = Some i)).
Lemma from_hessian h0 i0 g0 b a : from h0 i0 g0 a -> from h0 i0 g0 (fst (hessian b a)).
Proof.
  intros F. pose proof F as (G & H & I). unfold Apx_Model.hessian. destruct (a_hessian a) as [h|] eqn:EH; [exact F|].
  destruct (a_inv_hessian a) as [i|] eqn:EI; [|exact F].
  destruct b; [|exact F]. destruct (inverse i) as [h|] eqn:V1; [|exact F].
  cbn. split; [exact G|]. cbn. destruct H as [H|(_ & ? & ? & _ & _ & X)]; [|congruence]. subst h0.
  destruct I as [I|(_ & ? & ? & X & _)]; [|congruence]. subst i0. split; [right; split; [reflexivity|]; eauto 6|now left].
Qed.
Lemma from_inv h0 i0 g0 b a : from h0 i0 g0 a -> from h0 i0 g0 (fst (inv_hessian b a)).
Proof.
  intros F. pose proof F as (G & H & I). unfold Apx_Model.inv_hessian. destruct (a_inv_hessian a) as [i|] eqn:EI; [exact F|].
  destruct (a_hessian a) as [h|] eqn:EH; [|exact F].
  destruct b; [|exact F]. destruct (inverse h) as [i|] eqn:V1; [|exact F].
  cbn. split; [exact G|]. cbn. destruct I as [I|(_ & ? & ? & _ & _ & X)]; [|congruence]. subst i0.
  destruct H as [H|(_ & ? & ? & X & _)]; [|congruence]. subst h0. split; [now left|right; split; [reflexivity|]; eauto 6].
Qed.
Lemma from_edm h0 i0 g0 g h a : from h0 i0 g0 a -> from h0 i0 g0 (fst (edm g h a)).
Proof.
  intros F. apply (from_inv _ _ _ true) in F. unfold Apx_Model.edm. destruct (inv_hessian true a) as [a' [[i|]|e]]; exact F.
Qed.
Lemma from_history h0 i0 g0 rs : forall a, from h0 i0 g0 a -> from h0 i0 g0 (fold_left ask rs a).
Proof.
  induction rs as [|r rs IH]; intros a F; cbn [fold_left]; [exact F|]. apply IH.
  destruct r; cbn [Apx_Spec.ask]; [now apply from_hessian|now apply from_inv|now apply from_edm].
Qed.

(** C93: whatever has been asked before, the Hessian and its inverse are the ones that were given, or the inverse of the other one. *)
Theorem C93_history a0 rs : let a := fold_left ask rs a0 in
  snd (hessian true a) = answer inverse (a_hessian a0) (a_inv_hessian a0)
  /\ snd (inv_hessian true a) = answer inverse (a_inv_hessian a0) (a_hessian a0)
  /\ a_gradient a = a_gradient a0.
Proof.
  cbv zeta. assert (F : from (a_hessian a0) (a_inv_hessian a0) (a_gradient a0) a0) by (split; [reflexivity|split; now left]).
  apply (from_history _ _ _ rs) in F. set (a := fold_left ask rs a0) in *. clearbody a. destruct F as (G & H & I).
  unfold Apx_Model.hessian, Apx_Model.inv_hessian, answer.
  destruct H as [H|(H0 & i & h & EI & V1 & H)], I as [I|(I0 & h' & i' & EH & V2 & I)]; try congruence; rewrite H, I.
  - split; [|split; [|exact G]].
    + destruct (a_hessian a0); [reflexivity|]. destruct (a_inv_hessian a0) as [x|]; [|reflexivity]. now destruct (inverse x).
    + destruct (a_inv_hessian a0); [reflexivity|]. destruct (a_hessian a0) as [x|]; [|reflexivity]. now destruct (inverse x).
  - rewrite EH, I0, V2. repeat split. exact G.
  - rewrite H0, EI, V1. repeat split. exact G.
Qed.

(** C93: the same from the creation on: what is given as the Hessian is the Hessian, what is given as its inverse the inverse. *)
Theorem C93_given params g h i a rs : create v_shape m_shape params g h i = Ok a -> let b := fold_left ask rs a in
  snd (hessian true b) = answer inverse h i /\ snd (inv_hessian true b) = answer inverse i h /\ a_gradient b = g.
Proof.
  intros C. assert (E : a = mkA params g h i).
  { unfold create in C. destruct (check_gradient v_shape (length params) g); [|discriminate C]. cbn in C.
    destruct (check_matrix m_shape (length params) h); [|discriminate C]. cbn in C.
    destruct (check_matrix m_shape (length params) i); [|discriminate C]. cbn in C. now injection C as <-. }
  subst a. exact (C93_history (mkA params g h i) rs).
Qed.

(** C93: if one of them was given, the two are inverse to each other. *)
Theorem C93_inverse a0 rs h i : algebra apply dot inverse zero -> (a_hessian a0 = None \/ a_inv_hessian a0 = None) ->
  snd (hessian true (fold_left ask rs a0)) = Ok (Some h) -> snd (inv_hessian true (fold_left ask rs a0)) = Ok (Some i) -> inverses apply h i.
Proof.
  intros (A & _ & _) O H I. destruct (C93_history a0 rs) as (EH & EI & _). rewrite EH in H. rewrite EI in I. clear EH EI. unfold answer in *.
  destruct (a_hessian a0) as [h0|], (a_inv_hessian a0) as [i0|].
  - destruct O; discriminate.
  - injection H as <-. destruct (inverse h0) as [x|] eqn:E; [|discriminate]. injection I as <-. now apply A.
  - injection I as <-. destruct (inverse i0) as [x|] eqn:E; [|discriminate]. injection H as <-. intros v. destruct (A _ _ E v). now split.
  - discriminate.
Qed.

(** C93: "without inverting the answer is what the minimiser has given": false, after a request with inverting it is the matrix found then. *)
Theorem C93_invert_refuted params g i h : inverse i = Some h ->
  let a := mkA params g None (Some i) in
  snd (hessian false a) = Ok None /\ snd (hessian false (ask a (Hessian true))) = Ok (Some h).
Proof. intros E. cbv zeta. split; [reflexivity|]. cbn. now rewrite E. Qed.

(** C93: "the two are always inverse to each other": false if both are given, they are not compared. *)
Theorem C93_inconsistent_refuted params g h i rs : let a := fold_left ask rs (mkA params g (Some h) (Some i)) in
  snd (hessian true a) = Ok (Some h) /\ snd (inv_hessian true a) = Ok (Some i).
Proof. cbv zeta. destruct (C93_history (mkA params g (Some h) (Some i)) rs) as (A & B & _). rewrite A, B. split; reflexivity. Qed.

(** *** The estimated distance *)
(** The gradient that is used. *)
Definition the_gradient (g : V) (a : approx V M) : V := match a_gradient a with Some x => x | None => g end.

(** C93: the distance is never negative. *)
Theorem C93_edm_positive g h a a' e : edm g h a = (a', Ok e) -> (0 <= e)%Qc.
Proof.
  unfold Apx_Model.edm. destruct (inv_hessian true a) as [a1 [i|]]; [|discriminate]. intros H. injection H as _ <-.
  destruct (Qclt_le_dec _ 0) as [L|L]; [discriminate|exact L].
Qed.

(** C93: with the Hessian [h] of the loss and nothing given, with [h] given, and with its inverse given, the distance is the same: half of the product of the gradient, the inverse
    and the gradient, or 999999 where that is negative. *)
Theorem C93_edm_same g h i params any_g any_h : inverse h = Some i ->
  exists e, (e = dot g (apply i g) / Q2Qc 2 \/ (dot g (apply i g) / Q2Qc 2 < 0 /\ e = Q2Qc 999999))%Qc
  /\ snd (edm g h (mkA params None None None)) = Ok e
  /\ snd (edm any_g h (mkA params (Some g) None None)) = Ok e
  /\ snd (edm g any_h (mkA params None (Some h) None)) = Ok e
  /\ snd (edm g any_h (mkA params None None (Some i))) = Ok e
  /\ snd (edm any_g any_h (mkA params (Some g) (Some h) None)) = Ok e.
Proof.
  intros E. exists (if Qclt_le_dec (dot g (apply i g) / Q2Qc 2) 0 then far else (dot g (apply i g) / Q2Qc 2))%Qc. split.
  { destruct (Qclt_le_dec _ 0) as [L|L]; [right; split; [exact L|reflexivity]|now left]. }
  unfold Apx_Model.edm, Apx_Model.inv_hessian, calculate_edm, calculate_edm_hesse. cbn [a_gradient a_hessian a_inv_hessian]. rewrite E. repeat split.
Qed.

(** C93: for a Hessian that is positive definite it is positive, and zero only for the gradient zero. *)
Theorem C93_edm_definite g h i params : algebra apply dot inverse zero -> symmetric_dot dot -> positive_definite apply dot zero h -> inverse h = Some i ->
  (forall v : V, {v = zero} + {v <> zero}) ->
  exists e, snd (edm g h (mkA params None None None)) = Ok e /\ e = (dot g (apply i g) / Q2Qc 2)%Qc /\ (g <> zero -> 0 < e)%Qc /\ (g = zero -> e = 0)%Qc.
Proof.
  intros (A & Z & AZ) S PD E D.
  assert (P : (g <> zero -> 0 < dot g (apply i g))%Qc).
  { intros N. destruct (A _ _ E g) as [AB _]. destruct (D (apply i g)) as [Y|Y].
    - exfalso. apply N. rewrite Y, AZ in AB. now symmetry.
    - assert (H := PD _ Y). rewrite AB in H. now rewrite S. }
  assert (H2 : (0 < / Q2Qc 2)%Qc) by (vm_compute; reflexivity).
  assert (P2 : (g <> zero -> 0 < dot g (apply i g) / Q2Qc 2)%Qc).
  { intros N. unfold Qcdiv. replace 0%Qc with (0 * / Q2Qc 2)%Qc by ring. apply Qcmult_lt_compat_r; [exact H2|now apply P]. }
  assert (P0 : (g = zero -> dot g (apply i g) / Q2Qc 2 = 0)%Qc).
  { intros ->. rewrite Z. unfold Qcdiv. ring. }
  unfold Apx_Model.edm, Apx_Model.inv_hessian, calculate_edm_hesse. cbn [a_gradient a_hessian a_inv_hessian snd]. rewrite E.
  eexists. split; [reflexivity|]. destruct (Qclt_le_dec (dot g (apply i g) / Q2Qc 2) 0) as [L|L].
  - exfalso. destruct (D g) as [G|G].
    + rewrite (P0 G) in L. discriminate.
    + apply (Qclt_not_le _ _ L). apply Qclt_le_weak. now apply P2.
  - split; [reflexivity|]. split; assumption.
Qed.

(** C93: where the Hessian of the loss is singular the distance is 999999. *)
Theorem C93_edm_singular g h params grad : inverse h = None -> snd (edm g h (mkA params grad None None)) = Ok (Q2Qc 999999).
Proof. intros E. unfold Apx_Model.edm, Apx_Model.inv_hessian, calculate_edm_hesse. cbn [a_gradient a_hessian a_inv_hessian]. rewrite E. reflexivity. Qed.

(** C93: "a singular Hessian leads to the distance 999999": false if it is an approximation of the minimiser, the criterion raises LinAlgError then, each time. *)
Theorem C93_edm_singular_refuted g h params grad h0 rs : inverse h0 = None ->
  snd (edm g h (fold_left ask rs (mkA params grad (Some h0) None))) = Err LinAlgError.
Proof.
  intros E. destruct (C93_history (mkA params grad (Some h0) None) rs) as (_ & B & _). unfold Apx_Model.edm.
  destruct (inv_hessian true _) as [a' r]. cbn [snd] in B. subst r. unfold answer. cbn. rewrite E. reflexivity.
Qed.

(** C93: a criterion is fulfilled exactly if the distance is below the tolerance times the errordef, and remembers the distance; if it raises it remembers the one before. *)
Theorem C93_converged g h tol errordef last a :
  let c := mkC (c_tol (new_criterion tol errordef)) last in
  match edm g h a with
  | (a', Ok e) => exists b, converged apply dot inverse g h c a = (mkC (c_tol c) (Some e), a', Ok b) /\ (b = true <-> e < tol * errordef)%Qc
  | (a', Err x) => converged apply dot inverse g h c a = (c, a', Err x)
  end.
Proof.
  cbv zeta. unfold converged. destruct (edm g h a) as [a' [e|x]]; [|reflexivity]. eexists. split; [reflexivity|]. cbn.
  destruct (Qclt_le_dec e (tol * errordef)) as [L|L]; split; try trivial; try discriminate. intros L'. exfalso. exact (Qcle_not_lt _ _ L L').
Qed.

(** C93: so a distance that is negative or can not be found is not good enough, for tolerances up to 999999. *)
Theorem C93_not_converged g h a a' c : edm g h a = (a', Ok (Q2Qc 999999)) -> (c_tol c <= Q2Qc 999999)%Qc ->
  snd (converged apply dot inverse g h c a) = Ok false.
Proof.
  intros E T. unfold converged. rewrite E. cbn. destruct (Qclt_le_dec (Q2Qc 999999) (c_tol c)) as [L|L]; [|reflexivity]. exfalso. exact (Qcle_not_lt _ _ T L).
Qed.
End Any.

(** ** Example: one parameter; matrices and vectors are numbers *)
Definition ex_inverse (m : Qc) : option Qc := if Qc_eq_dec m 0 then None else Some (/ m)%Qc.
Example ex_algebra : algebra Qcmult Qcmult ex_inverse 0%Qc /\ symmetric_dot Qcmult /\ positive_definite Qcmult Qcmult 0%Qc (Q2Qc 3).
Proof.
  split; [split; [|split]|split].
  - intros a b H v. unfold ex_inverse in H. destruct (Qc_eq_dec a 0) as [|N]; [discriminate|]. injection H as <-. split; field; exact N.
  - intros v. ring.
  - intros a. ring.
  - intros v w. ring.
  - intros v N. assert (SQ : (0 < v * v)%Qc).
    { destruct (Qclt_le_dec 0 v) as [L|L].
      - replace 0%Qc with (0 * v)%Qc by ring. now apply Qcmult_lt_compat_r.
      - apply Qcle_lt_or_eq in L as [L|L]; [|contradiction]. assert (L' : (0 < - v)%Qc). { apply Qclt_minus_iff in L. now rewrite Qcplus_0_l in L. }
        replace (v * v)%Qc with ((- v) * (- v))%Qc by ring. replace 0%Qc with (0 * - v)%Qc by ring. now apply Qcmult_lt_compat_r. }
    replace (v * (Q2Qc 3 * v))%Qc with ((v * v) * Q2Qc 3)%Qc by ring. replace 0%Qc with (0 * Q2Qc 3)%Qc by ring. apply Qcmult_lt_compat_r; [reflexivity|exact SQ].
Qed.
Definition shown (r : result Qc) : result Q := match r with Ok e => Ok (this e) | Err e => Err e end.
Example ex_edm : shown (snd (edm Qcmult Qcmult ex_inverse (Q2Qc 6) (Q2Qc 3) (mkA ["a"%string] None None None))) = Ok 6%Q
  /\ shown (snd (edm Qcmult Qcmult ex_inverse (Q2Qc 6) (Q2Qc (-3)) (mkA ["a"%string] None None None))) = Ok 999999%Q
  /\ shown (snd (edm Qcmult Qcmult ex_inverse (Q2Qc 6) (Q2Qc 3) (mkA ["a"%string] None (Some (Q2Qc 0)) None))) = Err LinAlgError.
Proof. repeat split; vm_compute; reflexivity. Qed.
(** Approximations that are created: the shapes of one parameter. *)
Example ex_created : exists a, create (fun _ : Qc => [1]) (fun _ : Qc => [1; 1]) ["a"%string] (Some (Q2Qc 6)) (Some (Q2Qc 3)) None = Ok a.
Proof. eexists. reflexivity. Qed.
