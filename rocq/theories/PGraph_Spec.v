(** Specification vocabulary for the collection of parameters. *)
From Verif Require Import Base PGraph_Model.

(** [q] is [p], or a parameter that [p] is computed from, directly or not. *)
Inductive depends : prm -> prm -> Prop :=
| d_self p : depends p p
| d_dep i deps d q : In d deps -> depends d q -> depends (PComp i deps) q.

Definition independent (p : prm) : Prop := exists i, p = PIndep i.

(** The floating filter: nothing asked, or an independent parameter of that kind. *)
Definition floating_is (flt : nat -> bool) (floating : option bool) (p : prm) : Prop :=
  match floating with None => True | Some b => exists i, p = PIndep i /\ flt i = b end.

(** What is collected for a parameter [d] that a model uses: [extract_independent] True replaces
    it by the independent parameters it depends on, False keeps it, None does both. *)
Definition collected (flt : nat -> bool) (floating extract : option bool) (d q : prm) : Prop :=
  floating_is flt floating q /\
  match extract with
  | Some true => depends d q /\ independent q
  | Some false => q = d
  | None => q = d \/ (depends d q /\ independent q)
  end.

(** The parameters a model uses itself: as its yield, as its own parameters, or through the models
    it is made of (whose yields it does not use). With [nograd], only those declared as without
    automatic gradients. *)
Inductive uses (nograd : bool) (is_yield : option bool) : model -> prm -> Prop :=
| u_yield own ag d subs cond : is_yield <> Some false -> (nograd = true -> ~ In "yield"%string ag) ->
    uses nograd is_yield (Model own ag true (Some d) subs cond) d
| u_own n d own ag k y subs cond : is_yield <> Some true -> In (n, d) own -> (nograd = true -> ~ In n ag) ->
    uses nograd is_yield (Model own ag k y subs cond) d
| u_sub s d own ag k y subs cond : is_yield <> Some true -> In s subs -> uses nograd (Some false) s d ->
    uses nograd is_yield (Model own ag k y subs cond) d.

(** [q] comes from a use of the model and no ConditionalPDF on the way replaces it. *)
Inductive gives (P : prm -> prm -> Prop) (nograd : bool) (is_yield : option bool) : model -> prm -> Prop :=
| g_yield own ag d q subs cond : is_yield <> Some false -> (nograd = true -> ~ In "yield"%string ag) ->
    P d q -> ~ In q cond ->
    gives P nograd is_yield (Model own ag true (Some d) subs cond) q
| g_own n d q own ag k y subs cond : is_yield <> Some true -> In (n, d) own -> (nograd = true -> ~ In n ag) ->
    P d q -> ~ In q cond ->
    gives P nograd is_yield (Model own ag k y subs cond) q
| g_sub s q own ag k y subs cond : is_yield <> Some true -> In s subs -> gives P nograd (Some false) s q ->
    ~ In q cond ->
    gives P nograd is_yield (Model own ag k y subs cond) q.

Definition extended (m : model) : Prop :=
  match m with Model _ _ is_pdf y _ _ => is_pdf = true /\ y <> None end.
Definition a_pdf (m : model) : Prop := match m with Model _ _ is_pdf _ _ _ => is_pdf = true end.

(** All parameters that occur anywhere in a model, and the requirement that two occurrences of
    the same identity are the same object. *)
Inductive occurs : model -> prm -> Prop :=
| o_own n d q own ag k y subs cond : In (n, d) own -> depends d q -> occurs (Model own ag k y subs cond) q
| o_yield d q own ag k subs cond : depends d q -> occurs (Model own ag k (Some d) subs cond) q
| o_cond q own ag k y subs cond : In q cond -> occurs (Model own ag k y subs cond) q
| o_sub s q own ag k y subs cond : In s subs -> occurs s q -> occurs (Model own ag k y subs cond) q.
Definition same_objects (O : prm -> Prop) : Prop := forall p q, O p -> O q -> pid p = pid q -> p = q.

(** [r] lists the distinct elements of [l] in the order of their first appearance. *)
Inductive first_appearances : list prm -> list prm -> Prop :=
| fa_nil : first_appearances [] []
| fa_new l r p : first_appearances l r -> ~ In p l -> first_appearances (l ++ [p]) (r ++ [p])
| fa_old l r p : first_appearances l r -> In p l -> first_appearances (l ++ [p]) r.

(** What can occur anywhere in a loss. *)
Definition loss_occurs (l : loss) (q : prm) : Prop := exists m, In m (l_models l ++ l_constraints l) /\ occurs m q.
