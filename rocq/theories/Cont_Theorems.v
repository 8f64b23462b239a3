(** One thing or several: what a call makes of such an argument. *)
From Coq Require Import List String Arith Bool Lia.
From Verif Require Import Base BaseLemmas Cont_Model Cont_Spec.
Import ListNotations.
Open Scope string_scope.
Open Scope list_scope.

Lemma same_refl v : same v v = true.
Proof. destruct v; cbn; [reflexivity|apply Nat.eqb_refl]. Qed.
Lemma same_sym v w : same v w = same w v.
Proof. destruct v, w; cbn; try reflexivity. apply Nat.eqb_sym. Qed.
Lemma same_trans u v w : same u v = true -> same v w = true -> same u w = true.
Proof.
  destruct u, v, w; cbn; try discriminate; try reflexivity.
  rewrite !Nat.eqb_eq. congruence.
Qed.

Lemma mem_same v l : mem same v l = true <-> is_in v l.
Proof.
  induction l as [|w l IH]; cbn.
  - split; [discriminate|intros (? & [] & _)].
  - unfold is_in in *. rewrite orb_true_iff, IH. split.
    + intros [H|(u & Hu & E)]; [exists w; split; [left; reflexivity|exact H]|exists u; split; [right; exact Hu|exact E]].
    + intros (u & [<-|Hu] & E); [left; exact E|right; exists u; split; assumption].
Qed.

Lemma first_ones_app seen l v :
  first_ones seen (l ++ [v]) = first_ones seen l ++ (if mem same v (l ++ seen) then [] else [v]).
Proof.
  revert seen. induction l as [|w l IH]; intros seen.
  - cbn [app first_ones]. destruct (mem same v seen); reflexivity.
  - cbn [app first_ones]. change (mem same v (w :: l ++ seen)) with (same v w || mem same v (l ++ seen)).
    destruct (mem same w seen) eqn:E.
    + rewrite IH. f_equal. destruct (same v w) eqn:S; [|reflexivity].
      assert (I : mem same v (l ++ seen) = true).
      { apply mem_same in E. destruct E as (u & Hu & Hs). apply mem_same. exists u.
        split; [apply in_or_app; right; exact Hu|exact (same_trans v w u S Hs)]. }
      rewrite I. reflexivity.
    + rewrite IH. cbn [app]. do 2 f_equal.
      assert (I : mem same v (l ++ w :: seen) = (same v w || mem same v (l ++ seen))).
      { clear. induction l as [|u l IH]; [reflexivity|].
        change (same v u || mem same v (l ++ w :: seen) = same v w || (same v u || mem same v (l ++ seen))).
        rewrite IH. destruct (same v u), (same v w); reflexivity. }
      rewrite I. reflexivity.
Qed.

Lemma first_ones_once l : once_each l (first_ones [] l).
Proof.
  induction l as [|v l IH] using rev_ind; [constructor|].
  rewrite first_ones_app, app_nil_r. destruct (mem same v l) eqn:E.
  - rewrite app_nil_r. apply OnceOld; [exact IH|]. apply mem_same. exact E.
  - apply OnceNew; [exact IH|]. intros I. apply mem_same in I. congruence.
Qed.

Lemma build_held c l : held c l (build c l).
Proof. destruct c; cbn; try reflexivity. apply first_ones_once. Qed.

Lemma isinstance_iff isa v types : isinstance isa v types = true <-> exists t, In t types /\ isa (type_of v) t = true.
Proof. unfold isinstance. rewrite existsb_exists. reflexivity. Qed.

Lemma isinstance_false isa v types : isinstance isa v types = false -> forall t, In t types -> isa (type_of v) t = false.
Proof.
  intros H t I. destruct (isa (type_of v) t) eqn:E; [|reflexivity].
  assert (X : isinstance isa v types = true) by (apply isinstance_iff; exists t; split; assumption). congruence.
Qed.

(** The types given as [non_containers], none if it is not given. *)
Definition extra_types (nc : non_containers) : list string := match nc with Given l => l | _ => [] end.

Definition example_isa (a b : string) : bool :=
  String.eqb a b || (String.eqb a "Gauss" && String.eqb b "ZfitModel") || (String.eqb a "Parameter" && String.eqb b "ZfitParameter").
Definition mu : obj := Obj 1 "Parameter" None.
Definition sigma : obj := Obj 2 "Parameter" None.
Definition text : obj := Obj 3 "str" (Some [Obj 4 "str" None; Obj 5 "str" None]).

(** A value other than None, not already of the container's type and not to be ignored, becomes a
    new container that holds exactly what the value means. *)
Theorem C94_converted : forall isa c nc ignore convert_none v,
  nc <> Wrong -> v <> Nothing \/ convert_none = true -> type_of v <> container_type c ->
  (forall t, ignore = Some t -> isa (type_of v) t = false) ->
  exists l k, means isa (extra_types nc) v l /\ held c l k
    /\ fst (convert_to_container isa c nc ignore convert_none v) = Ok (ANew (container_type c) k).
Proof.
  intros isa c nc ignore cn v Hw Hn Ht Hi.
  assert (T : String.eqb (type_of v) (container_type c) = false) by (apply String.eqb_neq; exact Ht).
  assert (G : match ignore with None => false | Some t => isa (type_of v) t end = false).
  { destruct ignore as [t|]; [apply Hi; reflexivity|reflexivity]. }
  assert (M : exists l k, means isa (extra_types nc) v l /\ held c l k
      /\ into isa c (extra_types nc ++ never_apart) ignore v = ANew (container_type c) k).
  { unfold into. rewrite G. destruct (isinstance isa v (extra_types nc ++ never_apart)) eqn:E.
    - exists [v], (build c [v]). split; [|split; [apply build_held|reflexivity]].
      apply isinstance_iff in E. destruct E as (t & I & H). exact (MeansKind isa _ v t I H).
    - destruct (iterate v) as [l|] eqn:L.
      + exists l, (build c l). split; [|split; [apply build_held|reflexivity]].
        apply MeansMany; [exact L|]. exact (isinstance_false isa v _ E).
      + exists [v], (build c [v]). split; [apply MeansAtom; exact L|split; [apply build_held|reflexivity]]. }
  destruct M as (l & k & M & H & I). exists l, k. split; [exact M|]. split; [exact H|].
  unfold convert_to_container. destruct nc as [| l0|]; [| |contradiction].
  - destruct v as [|i t it]; [destruct cn; [|destruct Hn as [Hn|Hn]; [contradiction|discriminate]]|];
      rewrite T; cbn [fst]; f_equal; exact I.
  - destruct v as [|i t it]; [destruct cn; [|destruct Hn as [Hn|Hn]; [contradiction|discriminate]]|];
      rewrite T; cbn [fst]; f_equal; exact I.
Qed.

(** A text is one thing, a tuple of parameters are several, with their order. *)
Example C94_converted_applies :
  fst (convert_to_container example_isa List_ NotGiven None false text) = Ok (ANew "list" [text])
  /\ fst (convert_to_container example_isa List_ NotGiven None false (Obj 9 "tuple" (Some [sigma; mu]))) = Ok (ANew "list" [sigma; mu])
  /\ fst (convert_to_container example_isa OrderedSet_ NotGiven None false (Obj 9 "list" (Some [sigma; mu; sigma]))) = Ok (ANew "OrderedSet" [sigma; mu])
  /\ type_of text <> container_type List_.
Proof. repeat split; vm_compute; congruence. Qed.

(** What a value means is unambiguous: a theorem about the specification. *)
Theorem C94_meaning : forall isa extra v l l', means isa extra v l -> means isa extra v l' -> l = l'.
Proof.
  intros isa extra v l l' H H'.
  destruct H as [v t I E|v E|v l E N]; destruct H' as [v t' I' E'|v E'|v l' E' N']; try reflexivity; try congruence.
  - rewrite (N' t I) in E. discriminate.
  - rewrite (N t' I') in E'. discriminate.
Qed.

(** None stays None unless asked to be converted. A value of the container's type is returned
    itself, not a copy of it. A value to be ignored that is of another type is returned itself. *)
Theorem C94_kept : forall isa c nc ignore convert_none v, nc <> Wrong ->
  (v = Nothing -> convert_none = false -> convert_to_container isa c nc ignore convert_none v = (Ok ANone, nc))
  /\ (type_of v = container_type c -> convert_to_container isa c nc ignore convert_none v = (Ok (ASame v), nc))
  /\ (forall t, v <> Nothing -> type_of v <> container_type c -> ignore = Some t -> isa (type_of v) t = true ->
        fst (convert_to_container isa c nc ignore convert_none v) = Ok (ASame v)).
Proof.
  intros isa c nc ignore cn v Hw. split; [|split].
  - intros -> ->. destruct nc; [reflexivity|reflexivity|contradiction].
  - intros T. unfold convert_to_container. destruct v as [|i t it].
    + destruct c; discriminate T.
    + assert (E : String.eqb (type_of (Obj i t it)) (container_type c) = true) by (apply String.eqb_eq; exact T).
      rewrite E. destruct nc; [reflexivity|reflexivity|contradiction].
  - intros t N T -> I. unfold convert_to_container. destruct v as [|i t' it]; [contradiction|].
    assert (E : String.eqb (type_of (Obj i t' it)) (container_type c) = false) by (apply String.eqb_neq; exact T).
    rewrite E. unfold into. rewrite I. destruct nc; [reflexivity|reflexivity|contradiction].
Qed.

Example C94_kept_applies :
  fst (convert_to_container example_isa Tuple_ NotGiven (Some "ndarray") false (Obj 6 "ndarray" None)) = Ok (ASame (Obj 6 "ndarray" None))
  /\ fst (convert_to_container example_isa Tuple_ NotGiven (Some "ndarray") false (Obj 6 "tuple" (Some [mu]))) = Ok (ASame (Obj 6 "tuple" (Some [mu]))).
Proof. split; vm_compute; reflexivity. Qed.

(** Converting what was converted changes nothing, whichever object the new container is. *)
Theorem C94_again : forall isa c nc nc' ignore convert_none v a id,
  nc' <> Wrong ->
  fst (convert_to_container isa c nc ignore convert_none v) = Ok a ->
  (forall t, ignore = Some t -> isa (type_of v) t = false) ->
  things a <> None ->
  fst (convert_to_container isa c nc' ignore convert_none (as_object id a)) = Ok (ASame (as_object id a)).
Proof.
  intros isa c nc nc' ignore cn v a id Hw H Hi Ha.
  assert (T : type_of (as_object id a) = container_type c).
  { unfold convert_to_container in H.
    assert (G : match ignore with None => false | Some t => isa (type_of v) t end = false).
    { destruct ignore as [t|]; [apply Hi; reflexivity|reflexivity]. }
    assert (I : forall types, exists k, into isa c types ignore v = ANew (container_type c) k).
    { intros types. unfold into. rewrite G. destruct (isinstance isa v types); [eexists; reflexivity|].
      destruct (iterate v); eexists; reflexivity. }
    assert (J : forall types (b : bool), b = String.eqb (type_of v) (container_type c) ->
        fst (if b then (Ok (ASame v), nc) else (Ok (into isa c types ignore v), nc)) = Ok a ->
        type_of (as_object id a) = container_type c).
    { intros types b Hb Hf. destruct b; cbn in Hf; injection Hf as <-.
      - cbn. apply String.eqb_eq. symmetry. exact Hb.
      - destruct (I types) as (k & ->). reflexivity. }
    destruct nc as [|l0|]; [| |discriminate H].
    - destruct v as [|i t it]; [destruct cn; [|injection H as <-; cbn in Ha; contradiction]|];
        apply (J ([] ++ never_apart) _ eq_refl);
        destruct (String.eqb _ (container_type c)); exact H.
    - destruct v as [|i t it]; [destruct cn; [|injection H as <-; cbn in Ha; contradiction]|];
        apply (J (l0 ++ never_apart) _ eq_refl);
        destruct (String.eqb _ (container_type c)); exact H. }
  assert (W := proj1 (proj2 (C94_kept isa c nc' ignore cn (as_object id a) Hw)) T).
  rewrite W. reflexivity.
Qed.

Example C94_again_applies :
  fst (convert_to_container example_isa List_ NotGiven None false (as_object 7 (ANew "list" [text])))
    = Ok (ASame (Obj 7 "list" (Some [text]))).
Proof. vm_compute; reflexivity. Qed.

(** One thing and a container with this one thing are the same argument: the things in what is
    returned are the same. *)
Theorem C94_single : forall isa c v id a b,
  means isa [] v [v] -> v <> Nothing -> type_of v <> container_type c ->
  fst (convert_to_container isa c NotGiven None false v) = Ok a ->
  fst (convert_to_container isa c NotGiven None false (Obj id (container_type c) (Some [v]))) = Ok b ->
  things a = Some [v] /\ things b = Some [v].
Proof.
  intros isa c v id a b M N T A B. split.
  - destruct (C94_converted isa c NotGiven None false v) as (l & k & M' & H & E); try discriminate.
    + left; exact N.
    + exact T.
    + cbn in M'. rewrite (C94_meaning isa [] v l [v] M' M) in H. rewrite E in A. injection A as <-. cbn.
      destruct c; cbn in H; [subst; reflexivity|subst; reflexivity|].
      f_equal. inversion H as [H0 H1|l0 k0 v0 H0 H1 H2 H3|l0 k0 v0 H0 H1 H2 H3].
      * destruct l0 as [|? [|]]; try discriminate H2. cbn in H2. injection H2 as ->.
        inversion H0 as [|l1 k1 v1 ? ? X|l1 k1 v1 ? ? X]; [reflexivity| |]; destruct l1; discriminate X.
      * destruct l0 as [|? [|]]; try discriminate H2. destruct H1 as (? & [] & _).
  - assert (W := proj1 (proj2 (C94_kept isa c NotGiven None false (Obj id (container_type c) (Some [v])) ltac:(discriminate))) eq_refl).
    rewrite W in B. injection B as <-. reflexivity.
Qed.

Example C94_single_applies : means example_isa [] mu [mu] /\ type_of mu <> container_type List_.
Proof. split; [apply MeansAtom; reflexivity|discriminate]. Qed.

(** REFUTED: a list of types given as [non_containers] is not left alone. It is extended in the
    caller's hands, more with every call. *)
Theorem C94_left_alone_refuted : exists isa c types v,
  let once := snd (convert_to_container isa c (Given types) None false v) in
  once = Given (types ++ one_thing)
  /\ snd (convert_to_container isa c once None false v) = Given ((types ++ one_thing) ++ one_thing).
Proof. exists example_isa, List_, ["tuple"], mu. split; reflexivity. Qed.

(** REFUTED: the types given as [non_containers] are always kept as one thing. A value of the
    container's own type is taken apart anyway: asked for a list and told that lists are no
    containers, a list of two is two things, asked for a tuple it is one. (And anything but a list, such as the
    False that the code looks for later on, is refused.) *)
Theorem C94_non_containers_refuted : exists isa v,
  fst (convert_to_container isa List_ (Given ["list"]) None false v) = Ok (ASame v)
  /\ things (ASame v) = Some [mu; sigma]
  /\ fst (convert_to_container isa Tuple_ (Given ["list"]) None false v) = Ok (ANew "tuple" [v])
  /\ fst (convert_to_container isa List_ Wrong None false v) = Err TypeError.
Proof. exists example_isa, (Obj 8 "list" (Some [mu; sigma])). repeat split. Qed.

(** REFUTED: what is converted is independent of the caller's container. A container of the right
    type is returned itself (the same object), so that a later change of it is seen on both sides;
    of another type it is a new one. *)
Theorem C94_independent_refuted : exists isa v w,
  iterate v = iterate w
  /\ fst (convert_to_container isa List_ NotGiven None false v) = Ok (ASame v)
  /\ fst (convert_to_container isa List_ NotGiven None false w) = Ok (ANew "list" [mu; sigma]).
Proof. exists example_isa, (Obj 8 "list" (Some [mu; sigma])), (Obj 9 "tuple" (Some [mu; sigma])). repeat split. Qed.
