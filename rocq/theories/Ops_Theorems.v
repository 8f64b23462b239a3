(** C81: arithmetic of functions, parameters, numbers and PDFs. *)
From Verif Require Import Base BaseLemmas Ops_Model Ops_Spec Ops_Proofs Ops_Proofs2.
From Coq Require Import QArith Lia.
#[local] Open Scope string_scope.
#[local] Open Scope list_scope.

(** ** Values *)

(** A function made by any expression has, for every event and for all values of the parameters, the value of the expression,
    if no parameter is combined with parameters and numbers only. *)
Theorem C81_value_partial now e f s x : Forall well_made (operands e) -> lively e = true -> build now e = Ok (OFn f) -> incl (fn_obs f) (map fst x) ->
  exists v, value f s x = Ok v /\ (v == meaning s x e)%Q.
Proof.
  intros W L B C. destruct (build_inv now e (OFn f) W B) as [i1 i2 i3 i4]. exists (fmean f s x). split; [apply value_ok; assumption|]. apply i4. auto.
Qed.
(** Any expression: with the values that the parameters have when it is built. *)
Theorem C81_value_now now e f x : Forall well_made (operands e) -> build now e = Ok (OFn f) -> incl (fn_obs f) (map fst x) ->
  exists v, value f now x = Ok v /\ (v == meaning now x e)%Q.
Proof.
  intros W B C. destruct (build_inv now e (OFn f) W B) as [i1 i2 i3 i4]. exists (fmean f now x). split; [apply value_ok; assumption|]. apply i4. auto.
Qed.
(** Its observables are those of the functions, in the order of their first appearance. *)
Theorem C81_observables now e f : Forall well_made (operands e) -> build now e = Ok (OFn f) -> firsts (fn_obs f) (concat (map obs_of (operands e))).
Proof. intros W B. destruct (build_inv now e (OFn f) W B) as [i1 i2 i3 i4]. rewrite i3. apply add_new_firsts. Qed.
(** The order of the columns, and further columns, do not matter. *)
Theorem C81_columns now e f s x y : Forall well_made (operands e) -> build now e = Ok (OFn f) -> incl (fn_obs f) (map fst x) -> incl (fn_obs f) (map fst y) ->
  (forall o, In o (fn_obs f) -> column x o = column y o) -> value f s x = value f s y.
Proof.
  intros W B X Y E. destruct (build_inv now e (OFn f) W B) as [i1 _ _ _]. rewrite !value_ok by assumption. f_equal. apply fmean_ext; assumption.
Qed.
(** Sums and products of any number of functions *)
Theorem C81_sum_many fs s x : Forall (fun f => match f with Simple _ _ _ => True | _ => False end) fs -> incl (fn_obs (SumFunc fs)) (map fst x) ->
  value (SumFunc fs) s x = Ok (sumQ (map (fun f => meaning s x (EObj (OFn f))) fs)) /\ value (ProdFunc fs) s x = Ok (prodQ (map (fun f => meaning s x (EObj (OFn f))) fs)).
Proof.
  intros F C. assert (W : fold_right and True (map wf fs)). { induction F as [|f fs H F IH]; [exact I|]. split; [destruct f; try contradiction; exact I|]. apply IH. intros o O. apply C. cbn in *. apply add_new_In. right. apply add_new_In in O. destruct O as [[]|O]. apply in_app_iff. auto. }
  assert (M : map (fun f => fmean f s x) fs = map (fun f => meaning s x (EObj (OFn f))) fs).
  { apply map_ext_in. intros f I. rewrite Forall_forall in F. specialize (F f I). destruct f; try contradiction. reflexivity. }
  rewrite !value_ok by assumption. cbn [fmean]. rewrite M. auto.
Qed.

(** ** Which expressions are allowed *)
Theorem C81_defined now e : Forall well_made (operands e) -> addable e = true -> free_names e -> exists o, build now e = Ok o /\
  (has_function e = true <-> exists f, o = OFn f).
Proof.
  intros W A F. destruct (build_total now e W A F) as (o&B&T). exists o. split; [exact B|]. destruct o as [f|p|q|d]; cbn in T; try contradiction.
  - split; [eauto|]. intros _. apply T.
  - subst. cbn. split; [discriminate|]. intros (f&E). discriminate.
  - rewrite T. split; [discriminate|]. intros (f&E). discriminate.
Qed.
(** Functions and PDFs, or PDFs and parameters, are never mixed. *)
Theorem C81_refused now d f p q : (exists e1, op_mul now (OFn f) (OPdf d) = Err e1) /\ (exists e2, op_mul now (OPdf d) (OFn f) = Err e2) /\
  (exists e3, op_mul now (OPdf d) (OPar p) = Err e3) /\ (exists e4, op_mul now (OPar p) (OPdf d) = Err e4) /\ (exists e5, op_mul now (ONum q) (OPdf d) = Err e5) /\
  (exists e6, op_mul now (OPdf d) (ONum q) = Err e6) /\
  (exists e1, op_add now (OFn f) (OPdf d) = Err e1) /\ (exists e2, op_add now (OPdf d) (OFn f) = Err e2) /\
  (exists e3, op_add now (OPdf d) (OPar p) = Err e3) /\ (exists e4, op_add now (OPar p) (OPdf d) = Err e4) /\ (exists e5, op_add now (ONum q) (OPdf d) = Err e5) /\
  (exists e6, op_add now (OPdf d) (ONum q) = Err e6).
Proof. repeat split; eexists; reflexivity. Qed.
(** PDFs can be added if both are extended; the product of an extended PDF with another one has to have the extended one first. *)
Theorem C81_pdfs now d e :
  (pdf_extended d = true /\ pdf_extended e = true -> op_add now (OPdf d) (OPdf e) = Ok (OPdf (SumPdf [d; e]))) /\
  (pdf_extended d = false \/ pdf_extended e = false -> op_add now (OPdf d) (OPdf e) = Err BreakingAPIChangeError) /\
  (pdf_extended d = false /\ pdf_extended e = true -> op_mul now (OPdf d) (OPdf e) = Err IntentionAmbiguousError) /\
  (pdf_extended d = true \/ pdf_extended e = false -> op_mul now (OPdf d) (OPdf e) = Ok (OPdf (ProductPdf [d; e]))).
Proof.
  cbn. destruct (pdf_extended d), (pdf_extended e); cbn; repeat split; intuition congruence.
Qed.

(** ** Parameters *)

(** The parameters are those of the functions and parameters in the expression, if products with parameters and numbers are of
    functions that are not sums or products, with one parameter per name. *)
Theorem C81_params_partial now e f : Forall well_made (operands e) -> lively e = true -> faithful e -> build now e = Ok (OFn f) ->
  forall n, In n (get_params f) <-> In n (deps e).
Proof. intros W L F B. apply (d_deps _ _ (build_dinv now e (OFn f) W F L B)). Qed.
(** So the value depends on nothing else. *)
Theorem C81_depends_partial now e f s s' x : Forall well_made (operands e) -> Forall honest (operands e) -> lively e = true -> faithful e -> build now e = Ok (OFn f) ->
  incl (fn_obs f) (map fst x) -> same_on (get_params f) s s' ->
  exists v v', value f s x = Ok v /\ value f s' x = Ok v' /\ (v == v')%Q.
Proof.
  intros W H L F B C E. destruct (C81_value_partial now e f s x W L B C) as (v&V&M), (C81_value_partial now e f s' x W L B C) as (v'&V'&M').
  exists v, v'. split; [exact V|]. split; [exact V'|]. rewrite M, M'. rewrite (meaning_deps e H W s s' x); [reflexivity|]. intros n I. apply E. apply (C81_params_partial now e f W L F B). exact I.
Qed.
(** Values given by name are used for this call. *)
Theorem C81_params_argument_partial now e f s x given : Forall well_made (operands e) -> Forall honest (operands e) -> lively e = true -> faithful e -> build now e = Ok (OFn f) ->
  incl (fn_obs f) (map fst x) -> incl (map fst given) (deps e) ->
  exists v, value_with f s x given = Ok v /\
    forall s', (forall n q, lookup String.eqb n given = Some q -> s' n = q) -> (forall n, lookup String.eqb n given = None -> s' n = s n) ->
      (v == meaning s' x e)%Q.
Proof.
  intros W H L F B C G. destruct (C81_value_partial now e f (set_given s given) x W L B C) as (v&V&M). exists v. split.
  2:{ intros s' S1 S2. rewrite M. rewrite (meaning_deps e H W (set_given s given) s' x); [reflexivity|]. intros n _. unfold set_given.
      destruct (lookup String.eqb n given) as [q|] eqn:K; [symmetry; now apply S1|symmetry; now apply S2]. }
  unfold value_with.
  assert (A : forallb (fun nv => mem String.eqb (fst nv) (get_params f)) given = true).
  { apply forallb_forall. intros [n q] I. apply mem_ok. apply (C81_params_partial now e f W L F B). apply G. apply in_map_iff. exists (n, q). auto. }
  rewrite A. exact V.
Qed.
(** Other names are refused. *)
Theorem C81_params_argument_refused f s x given n v : In (n, v) given -> ~ In n (get_params f) -> value_with f s x given = Err ValueError.
Proof.
  intros I N. unfold value_with. destruct (forallb _ given) eqn:A; [|reflexivity]. rewrite forallb_forall in A. specialize (A (n, v) I). apply mem_ok in A. contradiction.
Qed.

(** ** Conversions *)

(** A function as a PDF has the values of the function, not normalised, and as a function again, too. *)
Theorem C81_as_pdf now e f d s x : Forall well_made (operands e) -> build now e = Ok (OFn f) -> as_pdf f = Ok d -> incl (fn_obs f) (map fst x) ->
  unnormalized_pdf d s x = value f s x /\ exists g, as_func d None = Ok g /\ value g s x = value f s x /\ fn_obs g = fn_obs f /\ fn_params g = fn_params f.
Proof.
  intros W B A C. destruct (build_inv now e (OFn f) W B) as [i1 _ _ _]. unfold as_pdf in A. destruct (check_kwargs (fn_params f)) as [u|] eqn:K; [|discriminate]. cbn in A. injection A as <-.
  assert (V : (let* x := sort_x (fn_obs f) x in value f s x) = value f s x).
  { rewrite sort_ok by exact C. cbn [bind]. rewrite !value_ok; try assumption; [|apply covers_sorted, incl_refl]. f_equal. apply fmean_ext; [exact i1|]. intros o O. apply column_sorted, O. }
  split; [exact V|]. cbn. rewrite K. cbn. eexists. split; [reflexivity|]. split; [|auto]. cbn [value]. revert V. destruct (sort_x (fn_obs f) x); cbn; [|auto]. intros ->. destruct (value f s x); reflexivity.
Qed.
(** A PDF as a function has the values for the norm given. *)
Theorem C81_as_func obs ps deps ext val norm g s x : as_func (BasePdf obs ps deps ext val) norm = Ok g -> incl obs (map fst x) ->
  value g s x = Ok (val norm s (map (column x) obs)) /\ fn_obs g = obs /\ fn_params g = ps.
Proof.
  intros A C. cbn in A. destruct (check_kwargs ps); [|discriminate]. cbn in A. injection A as <-. split; [|auto]. cbn. rewrite sort_ok by exact C. cbn. rewrite map_map. reflexivity.
Qed.
(** The parameters are kept for functions that are not sums or products. *)
Theorem C81_as_pdf_params_partial f d : (match f with Simple _ _ _ | Via _ _ _ _ => True | _ => False end) -> as_pdf f = Ok d -> pdf_params d = get_params f.
Proof.
  intros S A. unfold as_pdf in A. destruct (check_kwargs (fn_params f)); [|discriminate]. cbn in A. injection A as <-. destruct f; try contradiction; reflexivity.
Qed.

(** ** Examples and findings *)
Definition par (n : string) : param := Param n [n] (fun s => s n).
(** a x + b *)
Definition ex_line : fn := Simple ["x"] [("slope", par "a"); ("offset", par "b")] (fun s v => s "a" * nth 0 v 0 + s "b")%Q.
(** c y^2 *)
Definition ex_square : fn := Simple ["y"] [("scale", par "c")] (fun s v => s "c" * nth 0 v 0 * nth 0 v 0)%Q.
Definition ex_store : store := fun n => if String.eqb n "a" then 2%Q else if String.eqb n "b" then 1%Q else if String.eqb n "c" then 3%Q else 5%Q.
Definition ex_event : event := [("y", 2%Q); ("z", 7%Q); ("x", 10%Q)].
(** (k * line) * 2 + square * line *)
Definition ex_expr : expr :=
  EAdd (EMul (EMul (EObj (OPar (par "k"))) (EObj (OFn ex_line))) (EObj (ONum 2))) (EMul (EObj (OFn ex_square)) (EObj (OFn ex_line))).
Lemma ex_well : Forall well_made (operands ex_expr) /\ Forall honest (operands ex_expr) /\ lively ex_expr = true /\ addable ex_expr = true.
Proof.
  split; [|split; [|split; reflexivity]].
  - repeat constructor; cbn; try (intuition discriminate); repeat constructor; cbn; intuition discriminate.
  - repeat constructor; cbn; intros s s' *; unfold same_on, deps_of; cbn; intros E; rewrite ?(E "a"), ?(E "b"), ?(E "c"), ?(E "k") by tauto; reflexivity.
Qed.
Example ex_faithful : faithful ex_expr.
Proof.
  cbn. split; [|split; [exact I|split; [exact I|discriminate]]]. split; [|split; [exact I|]]; [split; [exact I|split; [exact I|]]|]; intros _; (split; [reflexivity|]); intros k p q P Q; cbn in P, Q;
  repeat (match goal with H : _ \/ _ |- _ => destruct H as [H|H] | H : False |- _ => destruct H | H : (_, _) = (_, _) |- _ => injection H as ? ? end); subst; try discriminate; reflexivity.
Qed.
Example C81_example : match build ex_store ex_expr with
  | Ok (OFn f) => value f ex_store ex_event = Ok 462%Q /\ fn_obs f = ["x"; "y"] /\ get_params f = ["k"; "a"; "b"; "c"; "a"; "b"] /\
                  (match value_with f ex_store ex_event [("k", 0%Q)] with Ok v => (v == 252)%Q | _ => False end)
  | _ => False
  end.
Proof. vm_compute. auto. Qed.

(** Finding: the product of two parameters is a number, so a function multiplied by it does not follow the parameters. *)
Theorem C81_frozen_refuted : exists now e f s x v, Forall well_made (operands e) /\ build now e = Ok (OFn f) /\ incl (fn_obs f) (map fst x) /\
  value f s x = Ok v /\ ~ (v == meaning s x e)%Q.
Proof.
  exists ex_store, (EMul (EMul (EObj (OPar (par "k"))) (EObj (OPar (par "c")))) (EObj (OFn ex_line))). eexists. exists (fun _ => 1%Q), ex_event. eexists.
  split; [repeat constructor; cbn; intuition discriminate|]. split; [reflexivity|]. split; [intros o [<-|[]]; cbn; auto|]. split; [reflexivity|]. vm_compute. discriminate.
Qed.
(** Finding: a parameter times a sum of functions does not have the parameters of these functions, although its value depends on
    them; they can not be given by name. *)
Theorem C81_params_refuted : exists now e f x, Forall well_made (operands e) /\ lively e = true /\ build now e = Ok (OFn f) /\ incl (fn_obs f) (map fst x) /\
  In "a" (deps e) /\ ~ In "a" (get_params f) /\ value_with f now x [("a", 1%Q)] = Err ValueError /\
  exists s v v', value f now x = Ok v /\ value f s x = Ok v' /\ same_on (get_params f) now s /\ ~ (v == v')%Q.
Proof.
  exists ex_store, (EMul (EObj (OPar (par "k"))) (EAdd (EObj (OFn ex_line)) (EObj (OFn ex_square)))). eexists. exists ex_event.
  split; [repeat constructor; cbn; intuition discriminate|]. split; [reflexivity|]. split; [reflexivity|]. split; [intros o [<-|[<-|[]]]; cbn; auto|].
  split; [cbn; auto|]. split; [cbn; intuition discriminate|]. split; [reflexivity|].
  exists (fun n => if String.eqb n "a" then 0%Q else ex_store n). eexists. eexists. split; [reflexivity|]. split; [reflexivity|]. split; [|vm_compute; discriminate].
  intros n [<-|[]]. reflexivity.
Qed.
(** Finding: a parameter with the name of an argument of the function is forgotten. *)
Theorem C81_name_clash_refuted : exists now e f, Forall well_made (operands e) /\ lively e = true /\ direct e = true /\ build now e = Ok (OFn f) /\
  In "slope" (deps e) /\ ~ In "slope" (get_params f).
Proof.
  exists ex_store, (EMul (EObj (OPar (par "slope"))) (EObj (OFn ex_line))). eexists. split; [repeat constructor; cbn; intuition discriminate|]. split; [reflexivity|]. split; [reflexivity|]. split; [reflexivity|].
  split; [cbn; auto|]. cbn. intuition discriminate.
Qed.
(** Finding: a parameter called like an argument of the constructor can not be multiplied with a function. *)
Theorem C81_reserved_name_refuted now : op_mul now (OPar (par "func")) (OFn ex_line) = Err TypeError.
Proof. reflexivity. Qed.
(** Finding: a function and a parameter or a number can not be added. *)
Theorem C81_add_number_refuted now f p q : op_add now (OFn f) (OPar p) = Err NotImplementedError /\ op_add now (OPar p) (OFn f) = Err NotImplementedError /\
  op_add now (OFn f) (ONum q) = Err NotImplementedError /\ op_add now (ONum q) (OFn f) = Err NotImplementedError.
Proof. repeat split. Qed.
(** Finding: the PDF of a sum of functions has no parameters. *)
Theorem C81_as_pdf_params_refuted : exists f d, as_pdf f = Ok d /\ get_params f <> [] /\ pdf_params d = [].
Proof. exists (SumFunc [ex_line; ex_square]). eexists. split; [reflexivity|]. split; [discriminate|reflexivity]. Qed.
