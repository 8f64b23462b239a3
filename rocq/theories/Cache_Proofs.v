(** Proofs about the CPU pool and the graph of cachable objects. *)
From Verif Require Import Base BaseLemmas Cache_Model Cache_Spec.
From Coq Require Import Permutation.

(** * CPU pool *)

Lemma py_split : forall {A} n (l : list A), n <= length l -> l <> [] -> n <> 0 ->
  py_butlast n l ++ py_last n l = l /\ length (py_last n l) = n.
Proof.
  intros A n l Hn Hl H0. destruct n as [|n]; [congruence|].
  unfold py_butlast, py_last. split; [apply firstn_skipn|].
  rewrite skipn_length. lia.
Qed.

Lemma acquire_split : forall m pool got rest, acquire m pool = (got, rest) ->
  rest ++ got = pool /\ Z.of_nat (length got) = granted m (length pool).
Proof.
  intros m pool got rest E. unfold acquire in E. unfold granted.
  remember (if (m <? 0)%Z then Z.max (Z.of_nat (length pool) + 1 + m) 0 else m) as m'.
  assert (Hm' : (0 <= m')%Z).
  { subst m'. destruct (m <? 0)%Z eqn:L; [lia|apply Z.ltb_ge in L; lia]. }
  assert (Hg : (if (m <? 0)%Z then Z.max (Z.of_nat (length pool) + 1 + m) 0
                else Z.min m (Z.of_nat (length pool))) = Z.min m' (Z.of_nat (length pool))).
  { subst m'. destruct (m <? 0)%Z eqn:L; [apply Z.ltb_lt in L; lia|reflexivity]. }
  rewrite Hg. destruct (m' =? 0)%Z eqn:Z0.
  - apply Z.eqb_eq in Z0. inversion E; subst got rest. rewrite app_nil_r. cbn. split; [reflexivity|lia].
  - apply Z.eqb_neq in Z0. inversion E; subst got rest. destruct pool as [|c pool].
    + cbn. replace (Z.min m' 0) with 0%Z by lia. cbn. split; [reflexivity|lia].
    + set (n := Z.to_nat (Z.min m' (Z.of_nat (length (c :: pool))))).
      assert (Hn : n <= length (c :: pool)) by (unfold n; lia).
      assert (Hn0 : n <> 0) by (unfold n; cbn [length]; lia).
      destruct (py_split n (c :: pool) Hn ltac:(discriminate) Hn0) as [E1 E2].
      split; [exact E1|]. rewrite E2. unfold n. lia.
Qed.

(** Every CPU is in the pool, held, or lost. *)
Lemma crun_inv : forall p held pool pool' e t, no_set p ->
  crun p held pool = (pool', e, t) ->
  (exists lost, Permutation (pool' ++ lost) pool /\ (e = None -> no_try p -> lost = [] /\ pool' = pool)) /\
  (forall v, In v t ->
     exists lost inner, Permutation (v_got v ++ inner ++ v_left v ++ lost) pool /\ v_held v = inner ++ held).
Proof.
  induction p as [|er|n|a IHa b IHb|a IHa|m body IH]; intros held pool pool' e t NS E.
  - cbn in E. inversion E; subst. split; [|intros v []].
    exists []. rewrite app_nil_r. split; [reflexivity|auto].
  - cbn in E. inversion E; subst. split; [|intros v []].
    exists []. rewrite app_nil_r. split; [reflexivity|discriminate].
  - destruct NS.
  - destruct NS as [NSa NSb]. cbn in E. destruct (crun a held pool) as [[p1 e1] t1] eqn:Ea.
    destruct (IHa _ _ _ _ _ NSa Ea) as [[l1 [P1 N1]] V1]. destruct e1 as [e1|].
    + inversion E; subst. split; [|exact V1]. exists l1. split; [exact P1|discriminate].
    + destruct (crun b held p1) as [[p2 e2] t2] eqn:Eb. inversion E; subst.
      destruct (IHb _ _ _ _ _ NSb Eb) as [[l2 [P2 N2]] V2]. split.
      * exists (l2 ++ l1). split.
        -- rewrite app_assoc, P2. exact P1.
        -- intros -> [T1 T2]. destruct (N1 eq_refl T1) as [-> ->].
           destruct (N2 eq_refl T2) as [-> ->]. auto.
      * intros v Hv. apply in_app_or in Hv. destruct Hv as [Hv|Hv]; [exact (V1 v Hv)|].
        destruct (V2 v Hv) as [lost [inner [Pv Hh]]].
        exists (lost ++ l1), inner. split; [|exact Hh].
        rewrite <- P1, <- Pv. rewrite <- !app_assoc. reflexivity.
  - cbn in E. destruct (crun a held pool) as [[p1 e1] t1] eqn:Ea. inversion E; subst.
    destruct (IHa _ _ _ _ _ NS Ea) as [[l1 [P1 N1]] V1]. split; [|exact V1].
    exists l1. split; [exact P1|]. intros _ [].
  - cbn in E. destruct (acquire m pool) as [got rest] eqn:Ac.
    destruct (acquire_split _ _ _ _ Ac) as [Sp Len].
    destruct (crun body (got ++ held) rest) as [[p1 e1] t1] eqn:Eb.
    destruct (IH _ _ _ _ _ NS Eb) as [[l1 [P1 N1]] V1]. split.
    + destruct e1 as [e1|]; inversion E; subst.
      * exists (l1 ++ got). split; [|discriminate].
        rewrite app_assoc, P1. reflexivity.
      * exists l1. split.
        -- rewrite <- app_assoc, (Permutation_app_comm got l1), app_assoc, P1. reflexivity.
        -- intros _ NT. destruct (N1 eq_refl NT) as [-> ->]. auto.
    + assert (Ht : t = {| v_got := got; v_held := held; v_left := rest |} :: t1)
        by (destruct e1; inversion E; reflexivity).
      subst t. intros v [Hv|Hv].
      * subst v. cbn. exists [], []. split; [|reflexivity].
        rewrite app_nil_r. cbn. rewrite <- Sp. apply Permutation_app_comm.
      * destruct (V1 v Hv) as [lost [inner [Pv Hh]]].
        exists lost, (inner ++ got). split.
        -- rewrite <- Sp, <- Pv. rewrite <- !app_assoc. do 2 apply Permutation_app_head.
           rewrite (app_assoc (v_left v)). apply Permutation_app_comm.
        -- rewrite Hh, <- app_assoc. reflexivity.
Qed.

Lemma acquire_conserved : forall p pool pool' t, no_set p -> no_try p ->
  crun p [] pool = (pool', None, t) -> pool' = pool.
Proof.
  intros p pool pool' t NS NT E. destruct (crun_inv p [] pool pool' None t NS E) as [[l [_ H]] _].
  exact (proj2 (H eq_refl NT)).
Qed.


Lemma NoDup_app_l : forall {A} (l l' : list A), NoDup (l ++ l') -> NoDup l.
Proof.
  induction l as [|a l IH]; intros l' N; [constructor|].
  inversion N; subst. constructor; [|exact (IH _ H2)].
  intro H. apply H1. apply in_or_app. auto.
Qed.

Lemma acquire_views : forall p pool pool' e t v, no_set p -> NoDup pool ->
  crun p [] pool = (pool', e, t) -> In v t ->
  NoDup (v_got v ++ v_held v ++ v_left v) /\
  incl (v_got v ++ v_held v ++ v_left v) pool.
Proof.
  intros p pool pool' e t v NS ND E Hv.
  destruct (crun_inv _ _ _ _ _ _ NS E) as [_ V].
  destruct (V v Hv) as [lost [inner [Pv Hh]]]. rewrite app_nil_r in Hh. subst inner.
  assert (Pv' : Permutation ((v_got v ++ v_held v ++ v_left v) ++ lost) pool)
    by (rewrite <- Pv, <- !app_assoc; reflexivity).
  split.
  - apply (Permutation_NoDup (Permutation_sym Pv')) in ND. exact (NoDup_app_l _ _ ND).
  - intros c Hc. apply (Permutation_in c Pv'). apply in_or_app. auto.
Qed.

(** The number of CPUs a block receives. *)
Lemma acquire_count : forall p held pool pool' e t v,
  crun p held pool = (pool', e, t) -> In v t ->
  exists m, Z.of_nat (length (v_got v)) = granted m (length (v_got v) + length (v_left v)).
Proof.
  induction p as [|er|n|a IHa b IHb|a IHa|m body IH]; intros held pool pool' e t v E Hv;
    cbn in E; try (inversion E; subst; destruct Hv; fail).
  - destruct (crun a held pool) as [[p1 e1] t1] eqn:Ea. destruct e1 as [e1|].
    + inversion E; subst. exact (IHa _ _ _ _ _ _ Ea Hv).
    + destruct (crun b held p1) as [[p2 e2] t2] eqn:Eb. inversion E; subst.
      apply in_app_or in Hv. destruct Hv as [Hv|Hv];
        [exact (IHa _ _ _ _ _ _ Ea Hv)|exact (IHb _ _ _ _ _ _ Eb Hv)].
  - destruct (crun a held pool) as [[p1 e1] t1] eqn:Ea. inversion E; subst.
    exact (IHa _ _ _ _ _ _ Ea Hv).
  - destruct (acquire m pool) as [got rest] eqn:Ac.
    destruct (acquire_split _ _ _ _ Ac) as [Sp Len].
    destruct (crun body (got ++ held) rest) as [[p1 e1] t1] eqn:Eb.
    assert (Ht : t = {| v_got := got; v_held := held; v_left := rest |} :: t1)
      by (destruct e1; inversion E; reflexivity).
    subst t. destruct Hv as [Hv|Hv]; [|exact (IH _ _ _ _ _ _ Eb Hv)].
    subst v. cbn. exists m. rewrite Len. f_equal. rewrite <- Sp, app_length. lia.
Qed.

Lemma with_grants : forall m body pool pool' e t,
  crun (CWith m body) [] pool = (pool', e, t) ->
  exists v t', t = v :: t' /\ v_held v = [] /\
    Z.of_nat (length (v_got v)) = granted m (length pool) /\ v_left v ++ v_got v = pool.
Proof.
  intros m body pool pool' e t E. cbn in E.
  destruct (acquire m pool) as [got rest] eqn:Ac.
  destruct (acquire_split _ _ _ _ Ac) as [Sp Len].
  destruct (crun body (got ++ []) rest) as [[p1 e1] t1] eqn:Eb.
  exists {| v_got := got; v_held := []; v_left := rest |}, t1.
  destruct e1; inversion E; subst; cbn; auto.
Qed.

(** A block whose body raises loses exactly the CPUs it received. *)
Lemma raise_loses : forall m e pool got rest, acquire m pool = (got, rest) ->
  exists t, crun (CWith m (CRaise e)) [] pool = (rest, Some e, t) /\ rest ++ got = pool.
Proof.
  intros m e pool got rest Ac. cbn. rewrite Ac. eexists. split; [reflexivity|].
  exact (proj1 (acquire_split _ _ _ _ Ac)).
Qed.

(** * Cachable objects *)

(** Objects reachable from [o] along registered cachers. *)
Inductive reach (cs : nat -> list nat) (o : nat) : nat -> Prop :=
| reach_self : reach cs o o
| reach_step m d : reach cs o m -> In d (cs m) -> reach cs o d.

Inductive reach1 (cs : nat -> list nat) : nat -> nat -> Prop :=
| reach1_self o : reach1 cs o o
| reach1_step o c d : In c (cs o) -> reach1 cs c d -> reach1 cs o d.

Lemma reach_reach1 : forall cs o d, reach cs o d <-> reach1 cs o d.
Proof.
  intros cs o d. split.
  - intro R. induction R as [|m d R IH Hd]; [constructor|].
    clear R. induction IH as [o|o c m' Hc R1 IH1].
    + econstructor; [exact Hd|constructor].
    + econstructor; [exact Hc|exact (IH1 Hd)].
  - intro R. induction R as [o|o c d Hc R1 IH]; [constructor|].
    clear R1. induction IH as [|m d R IHR Hd].
    + econstructor; [constructor|exact Hc].
    + econstructor; [exact IHR|exact Hd].
Qed.

Definition inform limit cs :=
  fix inform (l : list nat) (s : nat -> option nat) : (nat -> option nat) * bool :=
     match l with
     | [] => (s, true)
     | c :: l' =>
         let '(s1, ok) := reset limit cs c s in
         if ok then inform l' s1 else (s1, false)
     end.

Lemma reset_S : forall limit cs o s,
  reset (S limit) cs o s = inform limit cs (cs o) (set_store s o None).
Proof. reflexivity. Qed.

Lemma set_store_same : forall s o v, set_store s o v o = v.
Proof. intros. unfold set_store. rewrite Nat.eqb_refl. reflexivity. Qed.
Lemma set_store_other : forall s o v o', o <> o' -> set_store s o v o' = s o'.
Proof. intros. unfold set_store. destruct (Nat.eqb_spec o o'); [contradiction|reflexivity]. Qed.

(** A reset only ever empties caches, and only those of dependents. *)
Lemma reset_sound : forall limit cs o s s' ok, reset limit cs o s = (s', ok) ->
  forall d, s' d = s d \/ (s' d = None /\ reach1 cs o d).
Proof.
  induction limit as [|limit IH]; intros cs o s s' ok E d.
  - cbn in E. inversion E. auto.
  - rewrite reset_S in E.
    assert (G : forall l s s' ok, inform limit cs l s = (s', ok) -> (forall c, In c l -> In c (cs o)) ->
                forall d, s' d = s d \/ (s' d = None /\ reach1 cs o d)).
    { induction l as [|c l IHl]; intros s1 s2 ok1 E1 Hl d1; cbn in E1.
      - inversion E1. auto.
      - destruct (reset limit cs c s1) as [s3 ok3] eqn:R.
        assert (R3 := IH cs c s1 s3 ok3 R d1).
        assert (R3' : s3 d1 = s1 d1 \/ s3 d1 = None /\ reach1 cs o d1).
        { destruct R3 as [R3|[R3 R4]]; [auto|]. right. split; [exact R3|].
          econstructor; [apply Hl; left; reflexivity|exact R4]. }
        destruct ok3; [|inversion E1; subst; exact R3'].
        assert (H2 := IHl s3 s2 ok1 E1 (fun x Hx => Hl x (or_intror Hx)) d1).
        destruct H2 as [H2|H2]; [|right; exact H2]. rewrite H2. exact R3'. }
    destruct (G _ _ _ _ E (fun c Hc => Hc) d) as [G1|G1]; [|right; exact G1].
    destruct (Nat.eq_dec o d) as [<-|N].
    + right. rewrite G1, set_store_same. split; [reflexivity|constructor].
    + left. rewrite G1, set_store_other; auto.
Qed.

Lemma reset_none_stays : forall limit cs o s s' ok d, reset limit cs o s = (s', ok) ->
  s d = None -> s' d = None.
Proof.
  intros limit cs o s s' ok d E N. destruct (reset_sound _ _ _ _ _ _ E d) as [H|[H _]]; congruence.
Qed.

Lemma inform_none_stays : forall limit cs l s s' ok d, inform limit cs l s = (s', ok) ->
  s d = None -> s' d = None.
Proof.
  intros limit cs. induction l as [|c l IH]; intros s s' ok d E N; cbn in E.
  - inversion E; subst; exact N.
  - destruct (reset limit cs c s) as [s1 ok1] eqn:R. pose proof (reset_none_stays _ _ _ _ _ _ d R N) as N1.
    destruct ok1; [exact (IH _ _ _ _ E N1)|inversion E; subst; exact N1].
Qed.

(** A completed reset empties the caches of all dependents. *)
Lemma reset_complete : forall limit cs o s s', reset limit cs o s = (s', true) ->
  forall d, reach1 cs o d -> s' d = None.
Proof.
  induction limit as [|limit IH]; intros cs o s s' E d R; [discriminate|].
  rewrite reset_S in E. inversion R as [o1|o1 c d1 Hc R1]; subst.
  - apply (inform_none_stays _ _ _ _ _ _ _ E). apply set_store_same.
  - clear R. remember (cs o) as l eqn:El. clear El. revert E.
    generalize (set_store s o None). clear s.
    induction l as [|c' l IHl]; intros s0 E; [destruct Hc|].
    cbn in E. destruct (reset limit cs c' s0) as [s1 ok1] eqn:Rs. destruct ok1; [|discriminate].
    destruct Hc as [<-|Hc].
    + apply (inform_none_stays _ _ _ _ _ _ _ E). exact (IH _ _ _ _ Rs d R1).
    + exact (IHl Hc _ E).
Qed.

(** With a rank below the recursion limit every reset completes. *)
Lemma reset_terminates : forall limit cs (rank : nat -> nat),
  (forall o c, In c (cs o) -> rank o < rank c) ->
  forall o s bound, (forall d, reach1 cs o d -> rank d < bound) -> bound - rank o <= limit ->
  snd (reset limit cs o s) = true.
Proof.
  induction limit as [|limit IH]; intros cs rank Rk o s bound B L.
  - pose proof (B o (reach1_self cs o)). lia.
  - rewrite reset_S.
    assert (G : forall l s, (forall c, In c l -> In c (cs o)) -> snd (inform limit cs l s) = true).
    { induction l as [|c l IHl]; intros s1 Hl; [reflexivity|]. cbn.
      pose proof (Rk o c (Hl c (or_introl eq_refl))) as Rc.
      assert (Hc : snd (reset limit cs c s1) = true).
      { apply (IH cs rank Rk c s1 bound).
        - intros d Rd. apply B. econstructor; [apply Hl; left; reflexivity|exact Rd].
        - pose proof (B o (reach1_self cs o)). lia. }
      destruct (reset limit cs c s1) as [s2 ok]. cbn in Hc. subst ok.
      apply IHl. intros x Hx. apply Hl. right. exact Hx. }
    apply G. auto.
Qed.

(** On a cycle no reset ever completes. *)
Lemma reset_cycle : forall limit cs o c s, In c (cs o) -> reach1 cs c o ->
  snd (reset limit cs o s) = false.
Proof.
  assert (P : forall limit cs o s, (exists c, In c (cs o) /\ (exists z, reach1 cs c z /\ exists y, In y (cs z) /\ reach1 cs y z)) \/
              (exists y, In y (cs o) /\ reach1 cs y o) -> snd (reset limit cs o s) = false).
  { induction limit as [|limit IH]; intros cs o s H; [reflexivity|].
    rewrite reset_S.
    assert (K : exists c, In c (cs o) /\ forall s, snd (reset limit cs c s) = false).
    { destruct H as [[c [Hc [z [Rz [y [Hy Ry]]]]]]|[y [Hy Ry]]].
      - exists c. split; [exact Hc|]. intro s1. apply IH. inversion Rz; subst.
        + right. exists y. auto.
        + left. eexists. split; [eassumption|]. exists z. split; [assumption|]. eauto.
      - exists y. split; [exact Hy|]. intro s1. apply IH. inversion Ry; subst.
        + right. exists o. auto.
        + left. eexists. split; [eassumption|]. exists o. split; [assumption|]. eauto. }
    destruct K as [c [Hc K]]. generalize (set_store s o None).
    revert Hc. generalize (cs o) as l. induction l as [|c' l IHl]; intros Hc s0; [destruct Hc|].
    cbn. destruct (reset limit cs c' s0) as [s1 ok] eqn:R. destruct ok; [|reflexivity].
    destruct Hc as [<-|Hc]; [|exact (IHl Hc s1)].
    specialize (K s0). rewrite R in K. discriminate. }
  intros limit cs o c s Hc R. apply P. right. exists c. auto.
Qed.

(** Registered cachers are the declared dependencies. *)
Lemma register_In : forall cs dep cacher d o,
  In o (register cs dep cacher d) <-> In o (cs d) \/ (d = dep /\ o = cacher).
Proof.
  intros cs dep cacher d o. unfold register. destruct (Nat.eqb_spec dep d) as [->|N].
  - destruct (existsb (Nat.eqb cacher) (cs d)) eqn:X.
    + split; [auto|]. intros [H|[_ ->]]; [exact H|].
      apply existsb_exists in X. destruct X as [x [Hx Ex]]. apply Nat.eqb_eq in Ex. subst x. exact Hx.
    + rewrite in_app_iff. cbn. split; [intros [H|[H|[]]]; auto|intros [H|[_ ->]]; auto].
  - split; [auto|]. intros [H|[-> _]]; [exact H|contradiction].
Qed.

Lemma register_fold_In : forall deps cs cacher d o,
  In o (fold_left (fun cs d => register cs d cacher) deps cs d) <->
  In o (cs d) \/ (In d deps /\ o = cacher).
Proof.
  induction deps as [|x deps IH]; intros cs cacher d o; cbn.
  - split; [auto|]. intros [H|[[] _]]; exact H.
  - rewrite IH, register_In. split.
    + intros [[H|[-> ->]]|[H ->]]; auto.
    + intros [H|[[->|H] ->]]; auto.
Qed.

Lemma grun_app : forall limit h1 h2 g, grun limit g (h1 ++ h2) = grun limit (grun limit g h1) h2.
Proof. induction h1 as [|op h1 IH]; intros h2 g; [reflexivity|]. cbn. apply IH. Qed.

Lemma grun_snoc : forall limit h op g, grun limit g (h ++ [op]) = fst (gstep limit (grun limit g h) op).
Proof. intros. rewrite grun_app. reflexivity. Qed.

Lemma gstep_clock : forall limit g op, clock (fst (gstep limit g op)) = S (clock g).
Proof.
  intros limit g op. destruct op; cbn; try reflexivity.
  - destruct (reset limit (cachers g) o (store g)). reflexivity.
  - destruct (reset_all limit (cachers g) (objs g) (store g)). reflexivity.
Qed.

Lemma grun_clock : forall limit h g, clock (grun limit g h) = clock g + length h.
Proof.
  induction h as [|op h IH]; intro g; cbn [grun length]; [lia|].
  rewrite IH, gstep_clock. lia.
Qed.

Lemma gstep_cachers : forall limit g op d o,
  In o (cachers (fst (gstep limit g op)) d) <->
  match op with
  | GNew d' => d <> d' /\ In o (cachers g d)
  | GDeps o' deps => In o (cachers g d) \/ (In d deps /\ o = o')
  | GCollect o' => o <> o' /\ In o (cachers g d)
  | _ => In o (cachers g d)
  end.
Proof.
  intros limit g op d o. destruct op as [x|x deps|x|x|x|x]; cbn.
  - destruct (Nat.eqb_spec x d) as [->|N]; cbn; [split; [intros []|intros [H _]; congruence]|].
    split; [intro H; split; [congruence|exact H]|intros [_ H]; exact H].
  - apply register_fold_In.
  - reflexivity.
  - destruct (reset limit (cachers g) x (store g)). reflexivity.
  - destruct (reset_all limit (cachers g) (objs g) (store g)). reflexivity.
  - rewrite filter_In. destruct (Nat.eqb_spec o x) as [->|N]; cbn;
      [split; [intros [_ H]; discriminate|intros [H _]; congruence]|tauto].
Qed.

Lemma declared_snoc : forall h op d o,
  declared (h ++ [op]) d o <->
  match op with
  | GNew d' => d <> d' /\ declared h d o
  | GDeps o' deps => declared h d o \/ (In d deps /\ o = o')
  | GCollect o' => o <> o' /\ declared h d o
  | _ => declared h d o
  end.
Proof.
  intros h op d o.
  assert (Old : declared (h ++ [op]) d o <->
     (declared h d o /\ op <> GCollect o /\ op <> GNew d) \/ (exists deps, op = GDeps o deps /\ In d deps)).
  { split.
    - intros [h1 [deps [h2 [E [I [N1 N2]]]]]].
      destruct h2 as [|x h2] using rev_ind.
      + apply app_inj_tail in E. destruct E as [_ E]. right. exists deps. auto.
      + clear IHh2. rewrite app_comm_cons, app_assoc in E. apply app_inj_tail in E.
        destruct E as [E1 E2]. subst x. left. split.
        * exists h1, deps, h2. split; [exact E1|]. split; [exact I|].
          split; intro H; [apply N1|apply N2]; apply in_or_app; auto.
        * split; intros ->; [apply N1|apply N2]; apply in_or_app; right; left; reflexivity.
    - intros [[[h1 [deps [h2 [E [I [N1 N2]]]]]] [M1 M2]]|[deps [-> I]]].
      + exists h1, deps, (h2 ++ [op]). split; [rewrite E, <- app_assoc; reflexivity|].
        split; [exact I|]. split; intro H; apply in_app_or in H; destruct H as [H|[H|[]]]; auto.
      + exists h, deps, []. split; [reflexivity|]. split; [exact I|]. auto. }
  rewrite Old. clear Old. destruct op as [x|x deps|x|x|x|x].
  - split.
    + intros [[D [_ N]]|[deps [E _]]]; [|discriminate]. split; [congruence|exact D].
    + intros [N D]. left. repeat split; [exact D|discriminate|congruence].
  - split.
    + intros [[D _]|[deps' [E I]]]; [auto|]. inversion E; subst. auto.
    + intros [D|[I ->]]; [left; repeat split; [exact D|discriminate|discriminate]|].
      right. exists deps. auto.
  - split; [intros [[D _]|[deps [E _]]]; [exact D|discriminate]|].
    intro D. left. repeat split; [exact D|discriminate|discriminate].
  - split; [intros [[D _]|[deps [E _]]]; [exact D|discriminate]|].
    intro D. left. repeat split; [exact D|discriminate|discriminate].
  - split; [intros [[D _]|[deps [E _]]]; [exact D|discriminate]|].
    intro D. left. repeat split; [exact D|discriminate|discriminate].
  - split.
    + intros [[D [N _]]|[deps [E _]]]; [|discriminate]. split; [congruence|exact D].
    + intros [N D]. left. repeat split; [exact D|congruence|discriminate].
Qed.

Lemma cachers_declared : forall limit h d o,
  In o (cachers (grun limit gempty h) d) <-> declared h d o.
Proof.
  intros limit h. induction h as [|op h IH] using rev_ind; intros d o.
  - cbn. split; [intros []|]. intros [h1 [deps [h2 [E _]]]]. destruct h1; discriminate.
  - rewrite grun_snoc, gstep_cachers, declared_snoc.
    destruct op; rewrite ?IH; reflexivity.
Qed.

Lemma reach_depends : forall limit h d o,
  reach1 (cachers (grun limit gempty h)) d o <-> depends h d o.
Proof.
  intros limit h d o. rewrite <- reach_reach1. split.
  - intro R. induction R as [|m x R IH Hx]; [constructor|].
    econstructor; [exact IH|]. apply cachers_declared in Hx. exact Hx.
  - intro R. induction R as [|m x R IH Hx]; [constructor|].
    econstructor; [exact IH|]. apply cachers_declared. exact Hx.
Qed.

(** Stamps are never in the future, and a cache that is empty at some time only gets
    stamps from then on. *)
Lemma gstep_store_after : forall limit g op d t0,
  t0 <= clock g ->
  (match store g d with None => True | Some t => t0 <= t end) ->
  match store (fst (gstep limit g op)) d with None => True | Some t => t0 <= t end.
Proof.
  intros limit g op d t0 L H. destruct op as [x|x deps|x|x|x|x]; cbn.
  - destruct (Nat.eq_dec x d) as [->|N]; [rewrite set_store_same; auto|rewrite set_store_other; auto].
  - exact H.
  - destruct (store g x) eqn:E; [exact H|].
    destruct (Nat.eq_dec x d) as [->|N]; [rewrite set_store_same; exact L|rewrite set_store_other; auto].
  - destruct (reset limit (cachers g) x (store g)) as [s ok] eqn:R. cbn.
    destruct (reset_sound _ _ _ _ _ _ R d) as [E|[E _]]; rewrite E; [exact H|auto].
  - destruct (reset_all limit (cachers g) (objs g) (store g)) as [s ok] eqn:R. cbn.
    assert (E : s d = store g d \/ s d = None).
    { clear -R. revert R. generalize (store g). induction (objs g) as [|o l IH]; intros s0 R; cbn in R.
      - inversion R. auto.
      - destruct (reset limit (cachers g) o s0) as [s1 ok1] eqn:R1.
        assert (E1 : s1 d = s0 d \/ s1 d = None)
          by (destruct (reset_sound _ _ _ _ _ _ R1 d) as [E|[E _]]; auto).
        destruct ok1; [|inversion R; subst; exact E1].
        destruct (IH _ R) as [E|E]; [rewrite E; exact E1|auto]. }
    destruct E as [E|E]; rewrite E; [exact H|auto].
  - destruct (Nat.eq_dec x d) as [->|N]; [rewrite set_store_same; auto|rewrite set_store_other; auto].
Qed.

Lemma grun_store_after : forall limit h g d t0,
  t0 <= clock g ->
  (match store g d with None => True | Some t => t0 <= t end) ->
  match store (grun limit g h) d with None => True | Some t => t0 <= t end.
Proof.
  induction h as [|op h IH]; intros g d t0 L H; [exact H|]. cbn [grun].
  apply IH; [rewrite gstep_clock; lia|]. apply gstep_store_after; assumption.
Qed.

Lemma change_invalidates : forall limit h1 o h2 d,
  depends h1 o d ->
  snd (gstep limit (grun limit gempty h1) (GChange o)) = true ->
  match store (grun limit gempty (h1 ++ GChange o :: h2)) d with
  | None => True
  | Some t => length h1 < t
  end.
Proof.
  intros limit h1 o h2 d D S. rewrite grun_app. cbn [grun].
  apply (grun_store_after limit h2 _ d (Datatypes.S (length h1))).
  - rewrite gstep_clock, grun_clock. cbn. lia.
  - cbn in S |- *.
    destruct (reset limit (cachers (grun limit gempty h1)) o (store (grun limit gempty h1))) as [s ok] eqn:R.
    cbn in S |- *. subst ok.
    rewrite (reset_complete _ _ _ _ _ R d (proj2 (reach_depends limit h1 o d) D)). exact Logic.I.
Qed.

Lemma change_spares : forall limit h1 o d,
  ~ depends h1 o d ->
  store (grun limit gempty (h1 ++ [GChange o])) d = store (grun limit gempty h1) d.
Proof.
  intros limit h1 o d D. rewrite grun_snoc. cbn.
  destruct (reset limit (cachers (grun limit gempty h1)) o (store (grun limit gempty h1))) as [s ok] eqn:R.
  cbn. destruct (reset_sound _ _ _ _ _ _ R d) as [E|[_ E]]; [exact E|].
  exfalso. apply D. apply (reach_depends limit). exact E.
Qed.

(** Objects alive. *)
Lemma objs_alive : forall limit h o, alive h o -> In o (objs (grun limit gempty h)).
Proof.
  intros limit h. induction h as [|op h IH] using rev_ind; intros o [h1 [h2 [E N]]].
  - destruct h1; discriminate.
  - rewrite grun_snoc.
    assert (K : (alive h o /\ op <> GCollect o) \/ op = GNew o).
    { destruct h2 as [|x h2] using rev_ind.
      - apply app_inj_tail in E. right. exact (proj2 E).
      - clear IHh2. rewrite app_comm_cons, app_assoc in E. apply app_inj_tail in E.
        destruct E as [E1 E2]. subst x. left. split.
        + exists h1, h2. split; [exact E1|]. intro H. apply N. apply in_or_app. auto.
        + intros ->. apply N. apply in_or_app. right. left. reflexivity. }
    destruct K as [[A NC]| ->].
    + specialize (IH o A). destruct op as [x|x deps|x|x|x|x]; cbn.
      * right. exact IH.
      * exact IH.
      * exact IH.
      * destruct (reset _ _ x _). exact IH.
      * destruct (reset_all _ _ _ _). exact IH.
      * apply filter_In. split; [exact IH|]. destruct (Nat.eqb_spec o x); [subst; congruence|reflexivity].
    + cbn. auto.
Qed.

Lemma reset_all_complete : forall limit cs l s s', reset_all limit cs l s = (s', true) ->
  forall o, In o l -> s' o = None.
Proof.
  intros limit cs. induction l as [|x l IH]; intros s s' E o Ho; [destruct Ho|].
  cbn in E. destruct (reset limit cs x s) as [s1 ok] eqn:R. destruct ok; [|discriminate].
  destruct Ho as [<-|Ho]; [|exact (IH _ _ E o Ho)].
  pose proof (reset_complete _ _ _ _ _ R x (reach1_self cs x)) as N.
  clear -E N. revert s1 E N. induction l as [|y l IH]; intros s1 E N; cbn in E.
  - inversion E; subst; exact N.
  - destruct (reset limit cs y s1) as [s2 ok] eqn:R. destruct ok; [|discriminate].
    exact (IH _ E (reset_none_stays _ _ _ _ _ _ x R N)).
Qed.

Lemma change_eager_invalidates : forall limit h1 o h2 d,
  alive h1 d ->
  snd (gstep limit (grun limit gempty h1) (GChangeEager o)) = true ->
  match store (grun limit gempty (h1 ++ GChangeEager o :: h2)) d with
  | None => True
  | Some t => length h1 < t
  end.
Proof.
  intros limit h1 o h2 d A S. rewrite grun_app. cbn [grun].
  apply (grun_store_after limit h2 _ d (Datatypes.S (length h1))).
  - rewrite gstep_clock, grun_clock. cbn. lia.
  - cbn in S |- *. destruct (reset_all limit _ _ _) as [s ok] eqn:R. cbn in S |- *. subst ok.
    rewrite (reset_all_complete _ _ _ _ _ R d (objs_alive limit h1 d A)). exact Logic.I.
Qed.

(** With dependencies that were created before their dependents, and fewer objects than
    the recursion limit, no change fails. *)
Lemma change_succeeds : forall limit h o,
  (exists rank : nat -> nat, (forall d c, declared h d c -> rank d < rank c) /\ forall d, rank d < limit) ->
  snd (gstep limit (grun limit gempty h) (GChange o)) = true.
Proof.
  intros limit h o [rank [Rk B]]. cbn.
  destruct (reset limit (cachers (grun limit gempty h)) o (store (grun limit gempty h))) as [s ok] eqn:R.
  cbn. change ok with (snd (s, ok)). rewrite <- R.
  apply (reset_terminates limit _ rank) with (bound := limit); [|intros; apply B|lia].
  intros d c Hc. apply Rk. apply (cachers_declared limit). exact Hc.
Qed.

Lemma reset_all_terminates limit cs (rank : nat -> nat) :
  (forall d c, In c (cs d) -> rank d < rank c) -> (forall d, rank d < limit) ->
  forall l s, snd (reset_all limit cs l s) = true.
Proof.
  intros Rk B. induction l as [|o l IH]; intros s; [reflexivity|]. cbn.
  assert (K : snd (reset limit cs o s) = true).
  { apply (reset_terminates limit _ rank) with (bound := limit); [exact Rk|intros; apply B|lia]. }
  destruct (reset limit cs o s) as [s1 ok]. cbn in K. subst ok. apply IH.
Qed.
Lemma ops_succeed : forall limit h op,
  (exists rank : nat -> nat, (forall d c, declared h d c -> rank d < rank c) /\ forall d, rank d < limit) ->
  snd (gstep limit (grun limit gempty h) op) = true.
Proof.
  intros limit h op H. destruct op as [o|o deps|o|o|o|o]; try reflexivity.
  - apply change_succeeds, H.
  - destruct H as [rank [Rk B]]. cbn.
    assert (K : snd (reset_all limit (cachers (grun limit gempty h)) (objs (grun limit gempty h)) (store (grun limit gempty h))) = true).
    { apply (reset_all_terminates limit _ rank); [|exact B].
      intros d c Hc. apply Rk. apply (cachers_declared limit). exact Hc. }
    destruct (reset_all _ _ _ _) as [s ok]. exact K.
Qed.

Lemma change_cycle : forall limit h o c, declared h o c -> depends h c o ->
  snd (gstep limit (grun limit gempty h) (GChange o)) = false.
Proof.
  intros limit h o c D P. cbn.
  destruct (reset limit (cachers (grun limit gempty h)) o (store (grun limit gempty h))) as [s ok] eqn:R.
  cbn. change ok with (snd (s, ok)). rewrite <- R. apply (reset_cycle limit _ o c).
  - apply cachers_declared. exact D.
  - apply reach_depends. exact P.
Qed.
