(** Proofs about dumping and loading, continued: the table of parameters, the variables. *)
From Verif Require Import Base BaseLemmas PGraph_Proofs Param_Model Hs3_Model Hs3_Spec Hs3_Proofs Hs3_Proofs2.
#[local] Open Scope string_scope.
#[local] Open Scope list_scope.

Lemma lookup_construct st n c k : lookup String.eqb k (construct st n c) =
  match lookup String.eqb k st with Some v => Some v | None => if String.eqb k n then Some c else None end.
Proof.
  unfold construct. destruct (lookup String.eqb n st) as [v|] eqn:E.
  - destruct (lookup String.eqb k st) eqn:K; [reflexivity|]. destruct (String.eqb k n) eqn:Q; [|reflexivity]. apply String.eqb_eq in Q. congruence.
  - rewrite lookup_app. destruct (lookup String.eqb k st); [reflexivity|]. cbn. destruct (String.eqb k n); reflexivity.
Qed.

Definition more (a b : table) : Prop := forall n v, lookup String.eqb n a = Some v -> lookup String.eqb n b = Some v.
Definition held (st : table) (n : string) : Prop := exists v, lookup String.eqb n st = Some v.
Definition holds (st : table) (p : par) : Prop := forall q, In q (parts p) -> held st (par_name q).
Lemma more_refl a : more a a. Proof. intros n v H. exact H. Qed.
Lemma more_trans a b c : more a b -> more b c -> more a c. Proof. intros A B n v H. apply B, A, H. Qed.
Lemma more_held a b n : more a b -> held a n -> held b n. Proof. intros M (v&V). exists v. apply M. exact V. Qed.
Lemma more_holds a b p : more a b -> holds a p -> holds b p. Proof. intros M H q Q. eapply more_held; eauto. Qed.
Lemma more_construct st n c : more st (construct st n c).
Proof. intros k v H. rewrite lookup_construct, H. reflexivity. Qed.
Lemma held_construct st n c : held (construct st n c) n.
Proof. unfold held. rewrite lookup_construct. destruct (lookup String.eqb n st); [eauto|]. rewrite String.eqb_refl. eauto. Qed.

Section Table.
Variable reuse : table.
Variable A : list par.
Definition fine (st : table) : Prop := more reuse st /\
  forall n c, lookup String.eqb n st = Some c ->
    lookup String.eqb n reuse = Some c \/ lookup String.eqb n reuse = None /\ exists p, In p A /\ par_name p = n /\ c = same_par p.
Lemma fine_start : fine reuse. Proof. split; [apply more_refl|auto]. Qed.
Lemma fine_construct st p : fine st -> In p A -> fine (construct st (par_name p) (same_par p)).
Proof.
  intros [M F] I. split; [eapply more_trans; [exact M|apply more_construct]|]. intros n c. rewrite lookup_construct.
  destruct (lookup String.eqb n st) eqn:E; [intros K; injection K as <-; auto|]. destruct (String.eqb n (par_name p)) eqn:Q; [|discriminate].
  intros K. injection K as <-. apply String.eqb_eq in Q. subst n. right. split; [|exists p; auto].
  destruct (lookup String.eqb (par_name p) reuse) eqn:R; [|reflexivity]. rewrite (M _ _ R) in E. discriminate.
Qed.

Lemma parts_self p : In p (parts p). Proof. destruct p; now left. Qed.
Lemma added_spec p : (forall q, In q (parts p) -> In q A /\ survives q) -> forall st, fine st ->
  fine (added st p) /\ more st (added st p) /\ holds (added st p) p.
Proof.
  induction p as [n v lo up sz fl lab|n v lab|n f u ps ints lab H] using par_ind'; intros HA st F.
  - cbn [added par_name]. split; [|split].
    + apply (fine_construct st (PFree n v lo up sz fl lab) F). apply HA. now left.
    + apply more_construct.
    + intros q [<-|[]]. apply held_construct.
  - cbn [added par_name]. split; [|split].
    + apply (fine_construct st (PConst n v lab) F). apply HA. now left.
    + apply more_construct.
    + intros q [<-|[]]. apply held_construct.
  - cbn [added].
    assert (G : forall l st, incl l ints -> fine st -> fine (fold_left added l st) /\ more st (fold_left added l st) /\ (forall p, In p l -> holds (fold_left added l st) p)).
    { rewrite Forall_forall in H. induction l as [|p l IH]; intros s I Fs; [split; [exact Fs|split; [apply more_refl|intros p []]]|]. cbn [fold_left].
      destruct (H p (I p (or_introl eq_refl))) with (st := s) as (F1&M1&H1); [|exact Fs|].
      { intros q Q. apply HA. cbn. right. apply in_flat_map. exists p. split; [apply I; now left|exact Q]. }
      destruct (IH (added s p)) as (F2&M2&H2); [intros x X; apply I; now right|exact F1|]. split; [exact F2|]. split; [eapply more_trans; eauto|].
      intros q [<-|Q]; [eapply more_holds; eauto|apply H2; exact Q]. }
    destruct (G ints st (fun x X => X) F) as (F2&M2&H2). set (st' := fold_left added ints st) in *.
    destruct (HA (PComp n f u ps ints lab)) as [IA SV]; [now left|]. cbn in SV. subst lab.
    split; [|split].
    + apply (fine_construct st' (PComp n f u ps ints None) F2 IA).
    + eapply more_trans; [exact M2|apply more_construct].
    + intros q [<-|Q]; [apply held_construct|]. apply in_flat_map in Q. destruct Q as (p&Ip&Q). apply (more_held st'); [apply more_construct|].
      apply (H2 p Ip q Q).
Qed.
End Table.

Lemma added_idem p : forall st, holds st p -> added st p = st.
Proof.
  assert (CI : forall st n c, held st n -> construct st n c = st) by (intros st n c (v&V); unfold construct; now rewrite V).
  induction p as [n v lo up sz fl lab|n v lab|n f u ps ints lab H] using par_ind'; intros st HO.
  - apply CI. apply (HO (PFree n v lo up sz fl lab)). now left.
  - apply CI. apply (HO (PConst n v lab)). now left.
  - cbn [added]. assert (E : forall l, incl l ints -> fold_left added l st = st).
    { rewrite Forall_forall in H. induction l as [|p l IH]; intros I; [reflexivity|]. cbn. rewrite (H p (I p (or_introl eq_refl))).
      - apply IH. intros x X. apply I. now right.
      - intros q Q. apply HO. right. apply in_flat_map. exists p. split; [apply I; now left|exact Q]. }
    rewrite (E ints (fun x X => X)). apply CI. apply (HO (PComp n f u ps ints lab)). now left.
Qed.

(** ** Objects *)
Lemma load_obj g st o : plain o -> (forall p, In p (pars_of o) -> load st (g p) = Ok (st, LPar (par_name p))) ->
  load st (tree_with g o) = Ok (st, same_obj o).
Proof.
  induction o using obj_ind'; intros PL LP; try reflexivity.
  - cbn [tree_with load same_obj]. assert (E : load_list load st (map (tree_with g) l) = Ok (st, map same_obj l)).
    { apply plain_list in PL. cbn [pars_of] in LP. induction H as [|o l Ho Hl IH]; [reflexivity|]. inversion PL; subst. cbn [map]. rewrite load_list_cons, Ho; [|assumption|].
      - cbn [bind fst snd]. rewrite IH; [reflexivity|..]; try assumption. intros p Ip. apply LP. cbn. apply in_or_app. now right.
      - intros p Ip. apply LP. cbn. apply in_or_app. now left. }
    rewrite E. reflexivity.
  - apply plain_dict in PL. destruct PL as (T&NM&_&PL).
    assert (E : load_fields load (fun _ => true) st (map (fun ko => (fst ko, tree_with g (snd ko))) d) = Ok (st, map (fun ko => (fst ko, same_obj (snd ko))) d)).
    { clear T NM. cbn [pars_of] in LP. induction H as [|o l Ho Hl IH]; [reflexivity|]. inversion PL; subst. cbn [map]. rewrite load_fields_cons. cbn [fst snd]. rewrite Ho; [|assumption|].
      - cbn [bind fst snd]. rewrite IH; [reflexivity|..]; try assumption. intros p Ip. apply LP. cbn. apply in_or_app. now right.
      - intros p Ip. apply LP. cbn. apply in_or_app. now left. }
    cbn [tree_with load same_obj]. unfold get. rewrite !lookup_map. destruct (lookup String.eqb "type" d) as [o|]; cbn [option_map].
    + destruct o; try contradiction. cbn [tree_with opt_str bind]. destruct T as (T1&T2&T3).
      destruct (lookup String.eqb "name" d) as [m|]; cbn [option_map]; [destruct m; try contradiction|]; cbn [tree_with opt_str bind];
        rewrite (proj2 (String.eqb_neq _ _) T1), (proj2 (String.eqb_neq _ _) T2), (proj2 (String.eqb_neq _ _) T3); rewrite E; reflexivity.
    + cbn [opt_str bind]. rewrite E. reflexivity.
  - apply LP. now left.
Qed.

Lemma load_all_objs g st (l : list (string * obj)) : (forall n o, In (n, o) l -> plain o /\ typed o) ->
  (forall n o p, In (n, o) l -> In p (pars_of o) -> load st (g p) = Ok (st, LPar (par_name p))) ->
  load_all st (map (fun ko => (fst ko, tree_with g (snd ko))) l) = Ok (st, map (fun ko => (fst ko, same_obj (snd ko))) l).
Proof.
  induction l as [|[n o] l IH]; intros PT LP; [reflexivity|]. cbn [map fst snd load_all]. destruct (PT n o (or_introl eq_refl)) as [PL TY].
  destruct o; try contradiction. destruct TY as (s&S). cbn [tree_with]. unfold get at 1. rewrite lookup_map, S. cbn [option_map opt_result bind].
  change (TDict (map (fun ko => (fst ko, tree_with g (snd ko))) d)) with (tree_with g (ODict d)).
  rewrite (load_obj g st (ODict d) PL) by (intros p Ip; eapply LP; [now left|exact Ip]). cbn [bind fst snd].
  rewrite IH; [reflexivity| |]; intros; [eapply PT; right; eauto|eapply LP; [right; eauto|assumption]].
Qed.

(** ** Names *)
Lemma dict_set_new {A} n (o : A) acc : ~ In n (map fst acc) -> dict_set n o acc = acc ++ [(n, o)].
Proof.
  induction acc as [|[a b] acc IH]; cbn; intros N; [reflexivity|]. destruct (String.eqb n a) eqn:E; [apply String.eqb_eq in E; subst; tauto|].
  rewrite IH by tauto. reflexivity.
Qed.
Lemma named_distinct {A} address k (l : list (string * A)) : forall i acc, NoDup (map fst (acc ++ l)) -> named address k i l acc = acc ++ l.
Proof.
  induction l as [|[n o] l IH]; intros i acc N; cbn [named]; [now rewrite app_nil_r|].
  assert (NI : ~ In n (map fst acc)). { rewrite map_app in N. apply NoDup_remove_2 in N. intros H. apply N. apply in_or_app. now left. }
  assert (L : lookup String.eqb n acc = None). { destruct (lookup String.eqb n acc) eqn:E; [|reflexivity]. exfalso. apply NI. apply lookup_key. eauto. }
  rewrite L, dict_set_new by exact NI. rewrite IH by (rewrite <- app_assoc; exact N). now rewrite <- app_assoc.
Qed.
