(** C16, C32 and C47: the parameters of models and losses. *)
From Verif Require Import Base BaseLemmas PGraph_Model PGraph_Spec PGraph_Proofs PGraph_Proofs2.
Open Scope string_scope.
Open Scope list_scope.

(** Every model and filter: if get_params returns, it returns exactly the parameters asked for, once each. *)
Theorem C16_get_params_exact : forall flt m floating is_yield extract l,
  same_objects (occurs m) -> model_get_params flt m None floating is_yield extract = Ok l ->
  NoDup (map pid l)
  /\ forall q, In q l <-> gives (collected flt floating extract) false is_yield m q.
Proof. intros flt m fl yl ex l HO E. exact (model_ok flt m (occurs m) false fl yl ex l HO (fun q H => H) E). Qed.
Print Assumptions C16_get_params_exact.

(** It raises exactly when yields are asked of a PDF without one, or when the floating attribute is
    asked while dependent parameters are not to be replaced. *)
Theorem C16_raises_exactly : forall flt m floating is_yield extract,
  same_objects (occurs m) ->
  ((exists e, model_get_params flt m None floating is_yield extract = Err e) <->
   (is_yield = Some true /\ a_pdf m /\ ~ extended m)
   \/ (floating <> None /\ extract <> Some true /\ exists d, uses false is_yield m d /\ ~ independent d)).
Proof. exact error_iff. Qed.
Print Assumptions C16_raises_exactly.

Theorem C16_default_never_raises : forall flt m is_yield, is_yield <> Some true ->
  forall floating, exists l, model_get_params flt m None floating is_yield (Some true) = Ok l.
Proof. exact no_error. Qed.
Print Assumptions C16_default_never_raises.

(** With autograd=True, parameters that come from a use declared without automatic gradients are
    left out. *)
Theorem C16_autograd_exact : forall flt m floating is_yield extract l,
  same_objects (occurs m) -> model_get_params flt m (Some true) floating is_yield extract = Ok l ->
  NoDup (map pid l)
  /\ forall q, In q l <->
       gives (collected flt floating extract) false is_yield m q
       /\ ~ gives (collected flt None None) true None m q.
Proof. exact autograd_ok. Qed.
Print Assumptions C16_autograd_exact.

(** With autograd=False exactly the parameters that come from a use declared without automatic
    gradients are returned. *)
Theorem C16_autograd_false_exact : forall flt m floating is_yield extract l,
  same_objects (occurs m) -> model_get_params flt m (Some false) floating is_yield extract = Ok l ->
  NoDup (map pid l)
  /\ forall q, In q l <-> gives (collected flt floating extract) true is_yield m q.
Proof. intros flt m fl yl ex l HO E. exact (model_ok flt m (occurs m) true fl yl ex l HO (fun q H => H) E). Qed.
Print Assumptions C16_autograd_false_exact.

(** An extended sum of two PDFs that share [mu]; the width of the second is composed of a composed
    parameter; parameter 2 is fixed. *)
Definition mu := PIndep 0.
Definition sg := PIndep 1.
Definition fx := PIndep 2.
Definition c_in := PComp 10 [sg; fx; PConst 7].
Definition c_out := PComp 11 [c_in; mu; c_in].
Definition yy := PIndep 3.
Definition y2 := PIndep 4.
Definition ex_flt (i : nat) := negb (Nat.eqb i 2).
Definition gauss1 := Model [("mu", mu); ("sigma", sg)] ["mu"; "sigma"; "yield"] true (Some y2) [] [].
Definition gauss2 := Model [("mu", mu); ("sigma", c_out)] ["mu"; "yield"] true None [] [].
Definition ex_sum := Model [("frac", PComp 12 [yy; PIndep 5])] ["frac"; "yield"] true (Some yy) [gauss1; gauss2] [].

Lemma depends_inv p q : depends p q -> q = p \/ exists i deps d, p = PComp i deps /\ In d deps /\ depends d q.
Proof. intros H. inversion H; subst; [auto|]. right. eauto 6. Qed.
Ltac deps H := apply depends_inv in H; destruct H as [H|[? [? [? [H [? ?]]]]]].
Definition ex_all := [mu; sg; fx; c_in; c_out; yy; y2; PConst 7; PIndep 5; PComp 12 [yy; PIndep 5]].
Lemma ex_closed p q : In p ex_all -> depends p q -> In q ex_all.
Proof.
  intros Hp H. induction H; [exact Hp|]. apply IHdepends. clear IHdepends H0. unfold ex_all in Hp. simpl in Hp.
  repeat (destruct Hp as [Hp|Hp]; [try discriminate Hp; inversion Hp; subst; simpl in H; unfold ex_all; simpl; intuition (subst; auto 12)|]).
  destruct Hp.
Qed.
Lemma ex_all_same : same_objects (fun q => In q ex_all).
Proof.
  intros p q Hp Hq E. unfold ex_all in *. simpl in Hp, Hq.
  repeat (destruct Hp as [<-|Hp]; [repeat (destruct Hq as [<-|Hq]; [simpl in E; first [reflexivity | discriminate E]|]); destruct Hq|]).
  destruct Hp.
Qed.
Ltac occ := repeat match goal with
  | H : _ \/ _ |- _ => destruct H
  | H : False |- _ => destruct H
  | H : (_, _) = (_, _) |- _ => inversion H; subst; clear H
  end.
Lemma gauss_occ q : occurs gauss1 q \/ occurs gauss2 q -> In q ex_all.
Proof.
  intros [H|H]; inversion H; subst; simpl in *; occ; (eapply ex_closed; [|eassumption]); unfold ex_all; simpl; tauto.
Qed.
Lemma ex_sum_occ q : occurs ex_sum q -> In q ex_all.
Proof.
  intros H. inversion H; subst; simpl in *; occ; subst;
    solve [apply gauss_occ; auto | eapply ex_closed; [|eassumption]; unfold ex_all; simpl; tauto].
Qed.
Lemma ex_sum_same : same_objects (occurs ex_sum).
Proof. intros p q Hp Hq. apply ex_all_same; apply ex_sum_occ; assumption. Qed.

Example C16_nonvacuous :
  same_objects (occurs ex_sum)
  /\ model_get_params ex_flt ex_sum None (Some true) None (Some true) = Ok [yy; PIndep 5; mu; sg]
  /\ model_get_params ex_flt ex_sum None (Some false) None (Some true) = Ok [fx]
  /\ model_get_params ex_flt ex_sum None None (Some true) (Some true) = Ok [yy]
  /\ model_get_params ex_flt ex_sum None None None (Some false) = Ok [yy; PComp 12 [yy; PIndep 5]; mu; sg; c_out]
  /\ model_get_params ex_flt ex_sum None (Some true) None (Some false) = Err ValueError
  /\ model_get_params ex_flt gauss2 None None (Some true) (Some true) = Err NotExtendedPDFError
  /\ model_get_params ex_flt ex_sum (Some true) (Some true) None (Some true) = Ok [yy; PIndep 5]
  /\ extended ex_sum /\ uses false None ex_sum c_out.
Proof.
  split; [exact ex_sum_same|]. repeat (split; [reflexivity|]). split; [split; [reflexivity|discriminate]|].
  eapply u_sub; [discriminate|right; left; reflexivity|]. eapply u_own; [discriminate|right; left; reflexivity|discriminate].
Qed.

(** Asking a likelihood that is not extended for its yields returns the parameters that are no yields. *)
Theorem C16_loss_yields_refuted : exists flt l r,
  loss_get_params flt l None None (Some true) (Some true) = Ok r /\ In mu r
  /\ (forall m, In m (l_models l) -> ~ gives (collected flt None (Some true)) false (Some true) m mu).
Proof.
  exists ex_flt, (mkLoss false [gauss1] []), [mu; sg]. split; [reflexivity|]. split; [left; reflexivity|].
  intros m [<-|[]] H. inversion H; subst; try congruence.
  match goal with X : collected _ _ _ _ _ |- _ => destruct X as [_ [H1 _]] end. deps H1; discriminate.
Qed.
Print Assumptions C16_loss_yields_refuted.

(** extract_independent=None does not reach a composed parameter inside another one. *)
Theorem C16_nested_composed_refuted : exists flt m d q l,
  uses false None m d /\ depends d q /\ model_get_params flt m None None None None = Ok l /\ ~ In q l.
Proof.
  exists ex_flt, gauss2, c_out, c_in. eexists. split; [eapply u_own; [discriminate|right; left; reflexivity|discriminate]|].
  split; [eapply d_dep; [left; reflexivity|constructor]|]. split; [reflexivity|].
  intros H. repeat (destruct H as [H|H]; [discriminate H|]). destruct H.
Qed.
Print Assumptions C16_nested_composed_refuted.

(* ---------------------------------------------------------------- C32 *)
Theorem C32_loss_params_in_order : forall flt l floating is_yield extract r,
  same_objects (loss_occurs l) -> loss_get_params flt l None floating is_yield extract = Ok r ->
  exists ms cs,
    Forall2 (fun m p => model_get_params flt m None floating (if l_extended l then is_yield else Some false) extract = Ok p)
            (l_models l) ms
    /\ Forall2 (fun c p => model_get_params flt c None floating (Some false) extract = Ok p) (l_constraints l) cs
    /\ first_appearances (concat ms ++ concat cs) r.
Proof. exact loss_order. Qed.
Print Assumptions C32_loss_params_in_order.

Theorem C32_loss_params_exact : forall flt l floating is_yield extract r,
  same_objects (loss_occurs l) -> loss_get_params flt l None floating is_yield extract = Ok r ->
  NoDup (map pid r) /\
  forall q, In q r <->
    (exists m, In m (l_models l)
       /\ gives (collected flt floating extract) false (if l_extended l then is_yield else Some false) m q)
    \/ (exists c, In c (l_constraints l) /\ gives (collected flt floating extract) false (Some false) c q).
Proof. intros flt l fl yl ex r HO E. exact (loss_ok flt l false fl yl ex r HO E). Qed.
Print Assumptions C32_loss_params_exact.

Definition ex_constr := Model [("param_0", y2); ("param_1", mu)] ["param_0"; "param_1"] false None [] [].
Example C32_nonvacuous :
  loss_get_params ex_flt (mkLoss true [gauss2; gauss1; ex_sum] [ex_constr]) None (Some true) None (Some true)
    = Ok [mu; sg; y2; yy; PIndep 5]
  /\ loss_get_params ex_flt (mkLoss false [gauss2; gauss1] [ex_constr]) None (Some true) None (Some true)
    = Ok [mu; sg; y2]
  /\ loss_get_params ex_flt (mkLoss false [gauss2; gauss1] []) None (Some true) None (Some true) = Ok [mu; sg]
  /\ same_objects (loss_occurs (mkLoss false [gauss2; gauss1] [ex_constr])).
Proof.
  repeat (split; [reflexivity|]). 
  assert (H : forall q, loss_occurs (mkLoss false [gauss2; gauss1] [ex_constr]) q -> In q ex_all).
  { intros q [m [[<-|[<-|[<-|[]]]] Ho]]; [apply gauss_occ; auto|apply gauss_occ; auto|].
    inversion Ho; subst; simpl in *; occ; (eapply ex_closed; [|eassumption]); unfold ex_all; simpl; tauto. }
  intros p q Hp Hq. apply ex_all_same; auto.
Qed.

(* ---------------------------------------------------------------- C47 *)
(** A PDF that could be constructed does not depend on two different independent parameters of the
    same name. *)
Theorem C47_model_names_unique : forall flt name m,
  same_objects (occurs m) -> assert_model_unique name flt m = Ok tt ->
  forall p q, gives (collected flt None (Some true)) false None m p ->
    gives (collected flt None (Some true)) false None m q -> name (pid p) = name (pid q) -> p = q.
Proof. exact model_names. Qed.
Print Assumptions C47_model_names_unique.

Theorem C47_loss_names_unique : forall flt name l,
  same_objects (loss_occurs l) -> assert_loss_unique name flt l = Ok tt ->
  forall r, loss_get_params flt l None None None (Some true) = Ok r ->
  forall p q, In p r -> In q r -> name (pid p) = name (pid q) -> p = q.
Proof. exact loss_names. Qed.
Print Assumptions C47_loss_names_unique.

Definition ex_name (i : nat) : string :=
  match i with 0 => "mu" | 1 => "sigma" | 2 => "fx" | 3 => "y" | 4 => "y2" | 5 => "z" | 10 => "in" | 11 => "out" | _ => "c" end.
Example C47_nonvacuous :
  assert_model_unique ex_name ex_flt ex_sum = Ok tt
  /\ assert_model_unique (fun _ => "a") ex_flt ex_sum = Err ParamNameNotUniqueError
  /\ assert_loss_unique ex_name ex_flt (mkLoss true [gauss1; ex_sum] [ex_constr]) = Ok tt.
Proof. repeat split; reflexivity. Qed.

(** Composed parameters inside composed parameters are not checked. *)
Theorem C47_nested_composed_refuted : exists flt name m d p q,
  assert_model_unique name flt m = Ok tt /\ uses false None m d /\ depends d p /\ depends d q
  /\ p <> q /\ name (pid p) = name (pid q).
Proof.
  exists ex_flt, (fun i => match i with 10 => "out" | _ => ex_name i end), gauss2, c_out, c_out, c_in.
  split; [reflexivity|]. split; [eapply u_own; [discriminate|right; left; reflexivity|discriminate]|].
  split; [constructor|]. split; [eapply d_dep; [left; reflexivity|constructor]|]. split; [discriminate|reflexivity].
Qed.
Print Assumptions C47_nested_composed_refuted.
