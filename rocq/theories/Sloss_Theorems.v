(** C83: simple losses. *)
From Verif Require Import Base BaseLemmas Sloss_Model Sloss_Spec Sloss_Proofs.
From Coq Require Import ZArith.
Open Scope string_scope.
Open Scope list_scope.

(** * Concrete losses for the examples *)
Definition sum_all (l : list Q) : result Q := Ok (fold_right Qplus 0%Q l).
Definition ex_env : env := fun n => if String.eqb n "pa" then 3%Q else if String.eqb n "x" then 2%Q else 5%Q.
Definition ex_a : loss := Simple sum_all [Indep "pa"; Indep "pb"] (1 # 2).
Definition ex_b : loss := Other 0 (fun e => Ok (e "pb" * e "pb")%Q) [Indep "pb"] 1.
Definition ex_c : loss := Simple sum_all [Indep "pa"] 2.
Definition ex_sum : loss := Sum (Sum ex_a ex_b) (Sum ex_c ex_b).

Lemma ex_indep : only_independent ex_sum.
Proof.
  intros x p I J. cbn in I. destruct I as [<-|[<-|[<-|[<-|[]]]]]; cbn in J; intuition; subst; reflexivity.
Qed.
Lemma ex_ext : ext_all ex_sum.
Proof.
  intros x I. cbn in I. destruct I as [<-|[<-|[<-|[<-|[]]]]]; cbn; auto; intros e e' H; now rewrite !H.
Qed.
Lemma ex_names n : In n (names_of ex_sum) -> String.length n = 2.
Proof. cbn. intuition; subst; reflexivity. Qed.
Lemma ex_ed x : In x (leaves ex_sum) -> ~ (errordef x == 0)%Q.
Proof. cbn. intros [<-|[<-|[<-|[<-|[]]]]]; cbn; discriminate. Qed.

(** What is missing: names of any other length, and composed parameters (the two theorems that
    follow). *)
Theorem C83_sum_partial : forall l e,
  only_independent l -> ext_all l ->
  (forall n, In n (names_of l) -> String.length n = 2) ->
  (forall x, In x (leaves l) -> ~ (errordef x == 0)%Q) ->
  (forall v, value l [] e = Ok v ->
     exists ts, Forall2 (share e) (leaves l) ts /\ (v / errordef l == sumQ ts)%Q)
  /\ (forall ts, Forall2 (share e) (leaves l) ts ->
        exists v, value l [] e = Ok v /\ (v / errordef l == sumQ ts)%Q).
Proof.
  intros l e I X N D. split.
  - intros v. now apply value_leaves.
  - intros ts F. destruct (leaves_value l e ts I X N F) as (v & V). exists v. split; [exact V|].
    destruct (value_leaves l e v I X N D V) as (ts' & F' & E). rewrite E.
    assert (ts' = ts) as ->; [|reflexivity].
    clear - F F'. revert ts' F'. induction F as [|x t ls ts (w & W & T) F IH]; intros ts' F'.
    + now inversion F'.
    + inversion F' as [|? t' ? ts'' (w' & W' & T') F'']; subst. f_equal; [|now apply IH].
      rewrite W in W'. injection W' as <-. reflexivity.
Qed.
Example C83_sum_ex :
  value ex_a [] ex_env = Ok 8%Q /\ value ex_b [] ex_env = Ok 25%Q /\ value ex_c [] ex_env = Ok 3%Q
  /\ exists v, value ex_sum [] ex_env = Ok v /\ (v == 8 + (1#2) * 25 + (1#4) * (3 + 2 * 25))%Q.
Proof. vm_compute. repeat split. eexists. split; reflexivity. Qed.
Example C83_sum_met :
  only_independent ex_sum /\ ext_all ex_sum
  /\ (forall n, In n (names_of ex_sum) -> String.length n = 2)
  /\ (forall x, In x (leaves ex_sum) -> ~ (errordef x == 0)%Q).
Proof. auto using ex_indep, ex_ext, ex_names, ex_ed. Qed.

(** The errordef of a sum is that of its first loss. *)
Theorem C83_sum_errordef : forall plus a b s,
  kind_of a = None -> add plus a b = Ok s -> errordef s = errordef a.
Proof. intros plus a b s K H. unfold add in H. rewrite K in H. injection H as <-. reflexivity. Qed.

(** The sum of losses can be built for any names, but its value is an error as soon as one name
    does not have exactly two characters: the names are taken apart as if they were pairs
    (loss.py:1528, [in params] instead of [in params.items()]). *)
Theorem C83_sum_names_refuted :
  (forall plus a b e n, kind_of a = None -> only_independent (Sum a b) ->
     In n (names_of (Sum a b)) -> String.length n <> 2 ->
     exists s, add plus a b = Ok s /\ value s [] e = Err ValueError)
  /\ exists a b e va vb, value a [] e = Ok va /\ value b [] e = Ok vb
     /\ only_independent (Sum a b) /\ kind_of a = None /\ names_of (Sum a b) = ["mu"; "sigma"].
Proof.
  split.
  - intros plus a b e n K I J N. exists (Sum a b). split.
    + unfold add. now rewrite K.
    + now apply (value_sum_err a b e n).
  - exists (Simple sum_all [Indep "mu"] 1), (Simple sum_all [Indep "sigma"] 1), (fun _ => 1%Q), 1%Q, 1%Q.
    repeat split. intros x p I J. cbn in I. destruct I as [<-|[<-|[]]]; cbn in J; intuition; subst; reflexivity.
Qed.

(** With a composed parameter the value of a sum is an error, or wrong without an error: here
    x = 2 and the second loss is y = x + 10, so 2 + 12 is expected, but the second loss is
    evaluated with x = 12. *)
Definition ex_y : par := Composed "y" ["x"] (fun e => e "x" + 10)%Q.
Definition ex_y2 : par := Composed "y2" ["x"] (fun e => e "x" + 20)%Q.
Theorem C83_sum_composed_refuted :
  (let a := Simple sum_all [Indep "x"] 1 in
   let b := Simple sum_all [ex_y] 1 in
   value a [] ex_env = Ok 2%Q /\ value b [] ex_env = Ok 12%Q
   /\ value (Sum a b) [] ex_env = Ok 24%Q)
  /\ (let a := Simple sum_all [Indep "x"; ex_y2] 1 in
      let b := Simple sum_all [ex_y] 1 in
      value a [] ex_env = Ok 24%Q /\ value b [] ex_env = Ok 12%Q
      /\ value (Sum a b) [] ex_env = Err ValueError).
Proof. vm_compute. repeat split. Qed.

(** The order matters: a loss of another kind plus a simple loss is refused, the other way round
    is accepted. *)
Theorem C83_sum_commutes_refuted : forall plus a b k,
  kind_of a = None -> kind_of b = Some k ->
  add plus a b = Ok (Sum a b) /\ add plus b a = Err ValueError.
Proof. intros plus a b k A B. unfold add. now rewrite A, B. Qed.
Example C83_sum_commutes_ex : kind_of ex_a = None /\ kind_of ex_b = Some 0.
Proof. split; reflexivity. Qed.

(** Values given for a call are those of the parameters during the call; a name that is not one of
    an independent parameter of the loss is refused. *)
Theorem C83_given_values : forall l pv e,
  (forall n, In n (map fst pv) -> In n (indep_names l)) ->
  value l pv e = value l [] (set_all e pv).
Proof.
  intros l pv e H. pose proof (check_names_ok l pv H) as C.
  destruct l as [f ps ed|k g ps ed|a b]; cbn [value]; rewrite C, check_names_nil; reflexivity.
Qed.
Theorem C83_given_unknown : forall l pv e n,
  In n (map fst pv) -> ~ In n (indep_names l) -> value l pv e = Err ValueError.
Proof.
  intros l pv e n I N. assert (check_names l pv = false) as C.
  { destruct (check_names l pv) eqn:E; [|reflexivity]. exfalso. apply N.
    unfold check_names, subsetb in E. rewrite forallb_forall in E. apply str_mem. auto. }
  destruct l as [f ps ed|k g ps ed|a b]; cbn [value]; rewrite C; reflexivity.
Qed.
Example C83_given_ex :
  value ex_a [("pa", 7%Q)] ex_env = Ok 12%Q /\ value ex_c [("pb", 7%Q)] ex_env = Err ValueError
  /\ value ex_a [] ex_env = Ok 8%Q.
Proof. vm_compute. repeat split. Qed.

(** A function of the values in the order of the given parameters: composed ones with their own
    value. *)
Theorem C83_value : forall f ps ed e,
  value (Simple f ps ed) [] e = f (map (fun p => p_value p e) ps).
Proof. reflexivity. Qed.
Example C83_value_ex :
  value (Simple (fun l => match l with [u; v] => Ok (u - v)%Q | _ => Err ValueError end) [ex_y; Indep "x"] 1)
    [] ex_env = Ok 10%Q.
Proof. vm_compute. reflexivity. Qed.

(** The errordef has to be given exactly once: as an attribute of the function or as an
    argument. *)
Theorem C83_errordef : forall f attr ps ed g h,
  (forall s, make_simple f attr (Some ps) ed g h = Ok s ->
     (attr = Some (s_errordef s) /\ ed = None) \/ (attr = None /\ ed = Some (s_errordef s)))
  /\ ((attr = None <-> ed = None) -> make_simple f attr (Some ps) ed g h = Err ValueError)
  /\ (forall q, (attr = Some q /\ ed = None) \/ (attr = None /\ ed = Some q) ->
        exists s, make_simple f attr (Some ps) ed g h = Ok s /\ s_errordef s = q
          /\ s_func s = f /\ s_params s = ps /\ s_grad s = g /\ s_hess s = h)
  /\ make_simple f attr None ed g h = Err BreakingAPIChangeError.
Proof.
  intros f attr ps ed g h. destruct attr as [x|], ed as [y|]; cbn; repeat split.
  - discriminate.
  - intros q [[_ H]|[H _]]; discriminate.
  - intros s H. injection H as <-. auto.
  - intros [_ H]. specialize (H eq_refl). discriminate.
  - intros q [[H _]|[H _]]; [|discriminate]. injection H as ->. eexists. now repeat split.
  - intros s H. injection H as <-. auto.
  - intros [H _]. specialize (H eq_refl). discriminate.
  - intros q [[H _]|[_ H]]; [discriminate|]. injection H as ->. eexists. now repeat split.
  - discriminate.
  - intros q [[H _]|[_ H]]; discriminate.
Qed.

(** [create_new] without arguments gives the same loss, if the errordef was given as an argument
    and no derivative was given; arguments replace what they name. *)
Theorem C83_create_new_partial : forall f ps ed s,
  make_simple f None (Some ps) (Some ed) false false = Ok s ->
  create_new s None None None = Ok s
  /\ (forall ps' ed' f', exists s', create_new s (Some (f', None)) (Some ps') (Some ed') = Ok s'
        /\ s_func s' = f' /\ s_params s' = ps' /\ s_errordef s' = ed')
  /\ (forall ps', exists s', create_new s None (Some ps') None = Ok s'
        /\ s_func s' = f /\ s_params s' = ps' /\ s_errordef s' = ed).
Proof.
  intros f ps ed s H. injection H as <-. split; [reflexivity|]. split.
  - intros ps' ed' f'. eexists. now repeat split.
  - intros ps'. eexists. now repeat split.
Qed.
(** [create_new] fails for every loss whose errordef is an attribute of its function, and it drops
    the given gradient and Hessian of any other. *)
Theorem C83_create_new_refuted :
  (forall f ed ps g h s, make_simple f (Some ed) (Some ps) None g h = Ok s ->
     forall ps' ed', create_new s None ps' ed' = Err ValueError)
  /\ (forall f ed ps s, make_simple f None (Some ps) (Some ed) true true = Ok s ->
        exists s', create_new s None None None = Ok s' /\ s_grad s' = false /\ s_hess s' = false)
  /\ (exists s, make_simple sum_all (Some 1%Q) (Some [Indep "x"]) None false false = Ok s)
  /\ (exists s, make_simple sum_all None (Some [Indep "x"]) (Some 1%Q) true true = Ok s).
Proof.
  repeat split.
  - intros f ed ps g h s H ps' ed'. injection H as <-. reflexivity.
  - intros f ed ps s H. injection H as <-. eexists. now repeat split.
  - eexists. reflexivity.
  - eexists. reflexivity.
Qed.

(** [from_any] takes the converter with the highest priority among those that accept the object,
    and among these the one registered first; without one it is an error. *)
Theorem C83_from_any : forall (A B : Type) (cs : list (converter A B)) x,
  (forall b, from_any (fold_left register cs []) x = Ok b ->
     exists pre c post, cs = pre ++ c :: post /\ conv c x = Some b
       /\ (forall d, In d cs -> conv d x <> None -> (priority d <= priority c)%Z)
       /\ (forall d, In d pre -> priority d = priority c -> conv d x = None))
  /\ (from_any (fold_left register cs []) x = Err RuntimeError
      <-> forall d, In d cs -> conv d x = None).
Proof.
  intros A B cs x. split.
  - intros b. apply from_any_first.
  - apply from_any_none.
Qed.
Example C83_from_any_ex :
  let k (z : Z) (n m : nat) := mkConv z (fun x : nat => if Nat.leb x n then Some m else None) in
  let cs := [k 0%Z 9 1; k 5%Z 3 2; k 5%Z 4 3; k 7%Z 1 4] in
  map (from_any (fold_left register cs [])) [0; 2; 4; 6; 10]
  = [Ok 4; Ok 2; Ok 3; Ok 1; Err RuntimeError].
Proof. vm_compute. reflexivity. Qed.
