(** Proofs about the cache of compiled functions. *)
From Verif Require Import Base BaseLemmas Cache_Model Cache_Spec.
From Coq Require Import Sorted.

(** * Keys *)

Lemma kent_eqb_ok : forall a b, kent_eqb a b = true <-> a = b.
Proof.
  intros [i|] [j|]; cbn; try (split; [discriminate|discriminate]); try (split; reflexivity).
  rewrite Nat.eqb_eq. split; [intros ->; reflexivity|intro H; inversion H; reflexivity].
Qed.

Lemma key_eqb_ok : forall a b, key_eqb a b = true <-> a = b.
Proof.
  induction a as [|x a IH]; intros [|y b]; cbn; try (split; [discriminate|discriminate]);
    try (split; reflexivity).
  rewrite andb_true_iff, kent_eqb_ok, IH. split; [intros [-> ->]; reflexivity|].
  intro H; inversion H; auto.
Qed.

Definition kparams (k : list kent) : list nat :=
  flat_map (fun e => match e with KParamId i => [i] | KTensor => [] end) k.

Lemma kparams_app : forall a b, kparams (a ++ b) = kparams a ++ kparams b.
Proof. intros. apply flat_map_app. Qed.

Lemma repr_params : forall a, kparams (repr a) = arg_params a.
Proof.
  fix IH 1. intros [i|w|l]; [reflexivity|reflexivity|]. cbn [repr arg_params].
  induction l as [|x l IHl]; [reflexivity|]. rewrite kparams_app. f_equal; [apply IH|exact IHl].
Qed.

Lemma flat_repr_params : forall l, kparams (flat_map repr l) = flat_map arg_params l.
Proof.
  induction l as [|a l IH]; [reflexivity|]. cbn. rewrite kparams_app, IH, repr_params. reflexivity.
Qed.

Lemma key_params : forall args kwargs,
  kparams (create_immutable args kwargs) =
  flat_map arg_params args ++ flat_map (fun kv => arg_params (snd kv)) kwargs.
Proof.
  intros args kwargs. unfold create_immutable. rewrite !kparams_app, flat_repr_params. f_equal.
  assert (E : kparams (map (fun _ : nat * arg => KTensor) kwargs) = [])
    by (induction kwargs; [reflexivity|assumption]).
  rewrite E. cbn. clear E.
  induction kwargs as [|[n a] l IH]; [reflexivity|]. cbn. rewrite kparams_app, IH, repr_params. reflexivity.
Qed.

(** * Invariant of the registry *)

Definition keys (c : list holder) := map h_key c.
Definition funs (c : list holder) := map h_fun c.

Record wf (r : registry) : Prop := {
  wf_size : (1 <= r_size r)%Z;
  wf_len : (Z.of_nat (length (r_cache r)) <= r_size r)%Z;
  wf_keys : NoDup (keys (r_cache r));
  wf_sorted : StronglySorted lt (funs (r_cache r));
  wf_next : Forall (fun f => f < r_next r) (funs (r_cache r))
}.

Lemma find_holder_some : forall k c h, find_holder k c = Some h -> In h c /\ h_key h = k.
Proof.
  intros k c h E. apply find_some in E. destruct E as [I E]. apply key_eqb_ok in E. auto.
Qed.

Lemma find_holder_none : forall k c, find_holder k c = None -> ~ In k (keys c).
Proof.
  intros k c E I. apply in_map_iff in I. destruct I as [h [Eh I]].
  pose proof (find_none _ _ E h I) as F. cbn in F.
  assert (T : key_eqb (h_key h) k = true) by (apply key_eqb_ok; exact Eh). congruence.
Qed.

Lemma keys_unique : forall c h h', NoDup (keys c) -> In h c -> In h' c -> h_key h = h_key h' -> h = h'.
Proof.
  induction c as [|x c IH]; intros h h' N I I' E; [destruct I|].
  cbn in N. inversion N; subst. destruct I as [->|I]; destruct I' as [->|I'].
  - reflexivity.
  - exfalso. apply H1. rewrite E. apply in_map. exact I'.
  - exfalso. apply H1. rewrite <- E. apply in_map. exact I.
  - exact (IH _ _ H2 I I' E).
Qed.

Lemma sorted_snoc : forall l x, StronglySorted lt l -> Forall (fun y => y < x) l ->
  StronglySorted lt (l ++ [x]).
Proof.
  induction l as [|a l IH]; intros x S F; cbn.
  - repeat constructor.
  - inversion S; subst. inversion F; subst. constructor; [apply IH; assumption|].
    apply Forall_app. split; [assumption|repeat constructor; assumption].
Qed.

Lemma nodup_snoc : forall {A} (l : list A) x, NoDup l -> ~ In x l -> NoDup (l ++ [x]).
Proof.
  induction l as [|a l IH]; intros x N H; cbn.
  - constructor; [intros []|constructor].
  - inversion N; subst. constructor.
    + intro I. apply in_app_or in I. destruct I as [I|[I|[]]]; [contradiction|].
      apply H. left. congruence.
    + apply IH; [assumption|]. intro I. apply H. right. exact I.
Qed.

Lemma wf_tail : forall h c n nx, wf {| r_cache := h :: c; r_size := n; r_next := nx |} ->
  wf {| r_cache := c; r_size := n; r_next := nx |}.
Proof.
  intros h c n nx [A B C D E]. cbn in *.
  inversion C; inversion D; inversion E; subst. constructor; cbn; auto. lia.
Qed.

Lemma wf_push : forall c n nx k, wf {| r_cache := c; r_size := n; r_next := nx |} ->
  ~ In k (keys c) -> (Z.of_nat (length c) < n)%Z ->
  wf {| r_cache := c ++ [{| h_key := k; h_fun := nx |}]; r_size := n; r_next := S nx |}.
Proof.
  intros c n nx k [A B C D E] Hk L. cbn in *. constructor; cbn.
  - exact A.
  - rewrite app_length. cbn. lia.
  - unfold keys. rewrite map_app. apply nodup_snoc; assumption.
  - unfold funs. rewrite map_app. apply sorted_snoc; assumption.
  - unfold funs. rewrite map_app. apply Forall_app. split; [|repeat constructor].
    eapply Forall_impl; [|exact E]. intros; cbn in *; lia.
Qed.

(** The three ways a call can go. *)
Lemma call_cases : forall r a kw, wf r ->
  let k := create_immutable a kw in
  (exists h, In h (r_cache r) /\ h_key h = k /\ call r a kw = (r, Ok (h_fun h))) \/
  (~ In k (keys (r_cache r)) /\ (Z.of_nat (length (r_cache r)) < r_size r)%Z /\
   call r a kw = ({| r_cache := r_cache r ++ [{| h_key := k; h_fun := r_next r |}];
                     r_size := r_size r; r_next := S (r_next r) |}, Ok (r_next r))) \/
  (exists h c, r_cache r = h :: c /\ ~ In k (keys (r_cache r)) /\
   (Z.of_nat (length (r_cache r)) = r_size r)%Z /\
   call r a kw = ({| r_cache := c ++ [{| h_key := k; h_fun := r_next r |}];
                     r_size := r_size r; r_next := S (r_next r) |}, Ok (r_next r))).
Proof.
  intros r a kw W k. unfold call. fold k.
  destruct (find_holder k (r_cache r)) as [h|] eqn:F.
  - apply find_holder_some in F. destruct F as [I E]. left. exists h. auto.
  - apply find_holder_none in F. right. destruct (r_size r <=? Z.of_nat (length (r_cache r)))%Z eqn:L.
    + right. apply Z.leb_le in L. pose proof (wf_len r W) as B. pose proof (wf_size r W) as S.
      destruct (r_cache r) as [|h c] eqn:C; [cbn in L; lia|].
      exists h, c. repeat split; auto. lia.
    + left. apply Z.leb_gt in L. auto.
Qed.

Lemma call_wf : forall r a kw r' o, wf r -> call r a kw = (r', o) ->
  wf r' /\ r_size r' = r_size r /\ exists f, o = Ok f.
Proof.
  intros r a kw r' o W E.
  destruct (call_cases r a kw W) as [[h [I [K C]]]|[[K [L C]]|[h [c [Ec [K [L C]]]]]]];
    rewrite C in E; inversion E; subst; clear E.
  - eauto.
  - split; [|cbn; eauto]. apply wf_push; [destruct r; exact W|exact K|exact L].
  - split; [|cbn; eauto]. destruct r as [rc rs rn]. cbn in *. subst rc.
    apply wf_push; [exact (wf_tail _ _ _ _ W)| |cbn in L; lia].
    intro I. apply K. cbn. right. exact I.
Qed.

Lemma shrink_ok : forall c size nx (s0 : Z), (1 <= size)%Z ->
  NoDup (keys c) -> StronglySorted lt (funs c) -> Forall (fun f => f < nx) (funs c) ->
  exists c', shrink size c = Ok c' /\
    wf {| r_cache := c'; r_size := size; r_next := nx |} /\
    (exists dropped, c = dropped ++ c') /\
    ((Z.of_nat (length c) < size)%Z -> c' = c) /\
    ((size <= Z.of_nat (length c))%Z -> Z.of_nat (length c') = size - 1)%Z.
Proof.
  intros c size nx _ Hs. induction c as [|h c IH]; intros N S F.
  - cbn. assert (E : (size <=? 0)%Z = false) by (apply Z.leb_gt; lia). rewrite E.
    exists []. split; [reflexivity|]. split; [constructor; cbn; auto; lia|].
    split; [exists []; reflexivity|]. split; [reflexivity|]. intro; cbn in *; lia.
  - cbn [shrink]. destruct (size <=? Z.of_nat (length (h :: c)))%Z eqn:L.
    + apply Z.leb_le in L. cbn in N, S, F. inversion N; inversion S; inversion F; subst.
      destruct IH as [c' [E [W [[d D] [A B]]]]]; try assumption.
      exists c'. split; [exact E|]. split; [exact W|]. split; [exists (h :: d); rewrite D; reflexivity|].
      cbn [length] in *. split; [lia|]. intros _.
      destruct (Z_lt_le_dec (Z.of_nat (length c)) size) as [Lt|Ge]; [rewrite (A Lt); lia|exact (B Ge)].
    + apply Z.leb_gt in L. exists (h :: c). split; [reflexivity|].
      split; [constructor; cbn in *; auto; lia|]. split; [exists []; reflexivity|].
      split; [reflexivity|]. lia.
Qed.

Lemma remove_sub : forall k c, exists pre post mid, c = pre ++ mid ++ post /\ remove_holder k c = pre ++ post.
Proof.
  intros k. induction c as [|h c IH]; cbn.
  - exists [], [], []. auto.
  - destruct (key_eqb (h_key h) k).
    + exists [], c, [h]. auto.
    + destruct IH as [p [q [m [E R]]]]. exists (h :: p), q, m. split; [cbn; rewrite E; reflexivity|].
      cbn. rewrite R. reflexivity.
Qed.

Lemma sorted_app_drop : forall (p m q : list nat), StronglySorted lt (p ++ m ++ q) -> StronglySorted lt (p ++ q).
Proof.
  induction p as [|x p IH]; intros m q S; cbn in *.
  - induction m as [|y m IHm]; [exact S|]. inversion S; subst. auto.
  - inversion S; subst. constructor; [exact (IH _ _ H1)|].
    apply Forall_app in H2. destruct H2 as [A B]. apply Forall_app in B. destruct B as [_ B].
    apply Forall_app. auto.
Qed.

Lemma nodup_app_drop : forall {A} (p m q : list A), NoDup (p ++ m ++ q) -> NoDup (p ++ q).
Proof.
  induction p as [|x p IH]; intros m q N; cbn in *.
  - induction m as [|y m IHm]; [exact N|]. inversion N; subst. auto.
  - inversion N; subst. constructor; [|exact (IH _ _ H2)].
    intro I. apply H1. apply in_app_or in I. apply in_or_app.
    destruct I as [I|I]; [auto|right; apply in_or_app; auto].
Qed.

Lemma rstep_wf : forall r op r' o, wf r -> rstep r op = (r', o) ->
  wf r' /\ r_size r' = configured (r_size r) [op] /\
  (is_call op -> exists f, o = OFun f).
Proof.
  intros r op r' o W E. destruct op as [a kw|size|k|]; cbn in E.
  - destruct (call r a kw) as [r1 o1] eqn:C. inversion E; subst.
    destruct (call_wf _ _ _ _ _ W C) as [W1 [S1 [f ->]]]. cbn. split; [exact W1|]. split; [exact S1|eauto].
  - destruct (set_cache_size r size) as [r1 o1] eqn:C. inversion E; subst. clear E.
    unfold set_cache_size in C. destruct W as [W1 W2 W3 W4 W5]. destruct size as [n|]; cbn.
    + destruct (n <? 1)%Z eqn:L.
      * inversion C; subst. split; [constructor; assumption|]. split; [reflexivity|intros []].
      * apply Z.ltb_ge in L.
        destruct (shrink_ok (r_cache r) n (r_next r) 0%Z ltac:(lia) W3 W4 W5) as [c' [Es [Wc _]]].
        rewrite Es in C. inversion C; subst. split; [exact Wc|]. split; [reflexivity|intros []].
    + destruct (shrink_ok (r_cache r) DEFAULT_CACHE_SIZE (r_next r) 0%Z ltac:(unfold DEFAULT_CACHE_SIZE; lia) W3 W4 W5) as [c' [Es [Wc _]]].
      rewrite Es in C. inversion C; subst. split; [exact Wc|]. split; [reflexivity|intros []].
  - inversion E; subst. destruct W as [W1 W2 W3 W4 W5].
    split; [|cbn; split; [reflexivity|intros []]].
    destruct (remove_sub k (r_cache r)) as [p [q [m [Ec Er]]]]. constructor; cbn; rewrite ?Er.
    + exact W1.
    + rewrite Ec, !app_length in W2. rewrite app_length. lia.
    + unfold keys in *. rewrite Ec, !map_app in W3. rewrite map_app. exact (nodup_app_drop _ _ _ W3).
    + unfold funs in *. rewrite Ec, !map_app in W4. rewrite map_app. exact (sorted_app_drop _ _ _ W4).
    + unfold funs in *. rewrite Ec, !map_app in W5. rewrite map_app.
      apply Forall_app in W5. destruct W5 as [A B]. apply Forall_app in B. destruct B as [_ B].
      apply Forall_app. auto.
  - inversion E; subst. destruct W as [W1 W2 W3 W4 W5].
    split; [|cbn; split; [reflexivity|intros []]].
    constructor; cbn; try constructor; auto. lia.
Qed.

Lemma configured_cons : forall n op h, configured n (op :: h) = configured (configured n [op]) h.
Proof. intros n [a k|[m|]|k|] h; reflexivity. Qed.

Lemma rrun_wf : forall h r r' os, wf r -> rrun r h = (r', os) ->
  wf r' /\ r_size r' = configured (r_size r) h.
Proof.
  induction h as [|op h IH]; intros r r' os W E.
  - cbn in E. inversion E; subst. auto.
  - cbn in E. destruct (rstep r op) as [r1 o] eqn:S. destruct (rrun r1 h) as [r2 os2] eqn:R.
    inversion E; subst. destruct (rstep_wf _ _ _ _ W S) as [W1 [S1 _]].
    destruct (IH _ _ _ W1 R) as [W2 S2]. split; [exact W2|].
    rewrite configured_cons, S2, S1. reflexivity.
Qed.

Lemma new_wf : forall n, (1 <= n)%Z -> wf (new_registry (Some n)).
Proof. intros n H. constructor; cbn; try constructor; lia. Qed.

Lemma cache_bounded : forall n h r os, (1 <= n)%Z -> rrun (new_registry (Some n)) h = (r, os) ->
  (Z.of_nat (length (r_cache r)) <= configured n h)%Z.
Proof.
  intros n h r os H E. destruct (rrun_wf _ _ _ _ (new_wf n H) E) as [W S].
  pose proof (wf_len r W). cbn in S. lia.
Qed.

Lemma calls_never_fail : forall h n r os i op o, (1 <= n)%Z ->
  rrun (new_registry (Some n)) h = (r, os) ->
  nth_error h i = Some op -> nth_error os i = Some o -> is_call op -> exists f, o = OFun f.
Proof.
  intros h n r os i op o H. generalize (new_wf n H). generalize (new_registry (Some n)). clear H n.
  revert i r os. induction h as [|x h IH]; intros i r os r0 W E Hi Ho C.
  - destruct i; discriminate.
  - cbn in E. destruct (rstep r0 x) as [r1 o1] eqn:S. destruct (rrun r1 h) as [r2 os2] eqn:R.
    inversion E; subst. destruct (rstep_wf _ _ _ _ W S) as [W1 [_ F]]. destruct i as [|i].
    + cbn in Hi, Ho. inversion Hi; inversion Ho; subst. exact (F C).
    + exact (IH i _ _ _ W1 R Hi Ho C).
Qed.

(** * Every compiled function belongs to one key *)

Definition owns (own : nat -> list kent) (r : registry) : Prop :=
  forall h, In h (r_cache r) -> own (h_fun h) = h_key h.

Lemma remove_incl : forall k c h, In h (remove_holder k c) -> In h c.
Proof.
  intros k c h I. destruct (remove_sub k c) as [p [q [m [E R]]]]. rewrite R in I. rewrite E.
  apply in_app_or in I. apply in_or_app. destruct I; [auto|right; apply in_or_app; auto].
Qed.

Lemma shrink_incl : forall size c c' h, shrink size c = Ok c' -> In h c' -> In h c.
Proof.
  intros size. induction c as [|x c IH]; intros c' h E I; cbn in E.
  - destruct (size <=? 0)%Z; inversion E; subst; exact I.
  - destruct (size <=? Z.pos (Pos.of_succ_nat (length c)))%Z.
    + right. exact (IH _ _ E I).
    + inversion E; subst. exact I.
Qed.

Lemma rstep_owns : forall r op r' o own, wf r -> owns own r -> rstep r op = (r', o) ->
  exists own', owns own' r' /\ (forall f, f < r_next r -> own' f = own f) /\ r_next r <= r_next r' /\
    forall a kw f, op = RCall a kw -> o = OFun f -> own' f = create_immutable a kw /\ f < r_next r'.
Proof.
  intros r op r' o own W O E. destruct op as [a kw|size|k|]; cbn in E.
  - destruct (call r a kw) as [r1 o1] eqn:C. inversion E; subst. clear E.
    destruct (call_cases r a kw W) as [[h [I [K C']]]|[[K [L C']]|[h [c [Ec [K [L C']]]]]]];
      rewrite C' in C; inversion C; subst; clear C.
    + exists own. repeat split; auto; intros; inversion H; inversion H0; subst.
      * rewrite (O h I). exact K.
      * pose proof (wf_next _ W) as F. rewrite Forall_forall in F. apply F. apply in_map. exact I.
    + exists (fun f => if Nat.eqb f (r_next r) then create_immutable a kw else own f).
      repeat split.
      * intros h I. cbn in I. apply in_app_or in I. destruct I as [I|[I|[]]].
        -- pose proof (wf_next _ W) as F. rewrite Forall_forall in F.
           specialize (F (h_fun h) (in_map _ _ _ I)). destruct (Nat.eqb_spec (h_fun h) (r_next r)); [lia|].
           exact (O h I).
        -- subst h. cbn. rewrite Nat.eqb_refl. reflexivity.
      * intros f L'. destruct (Nat.eqb_spec f (r_next r)); [lia|reflexivity].
      * cbn. lia.
      * inversion H; inversion H0; subst. rewrite Nat.eqb_refl. reflexivity.
      * inversion H; inversion H0; subst. cbn. lia.
    + exists (fun f => if Nat.eqb f (r_next r) then create_immutable a kw else own f).
      repeat split.
      * intros h0 I. cbn in I. apply in_app_or in I. destruct I as [I|[I|[]]].
        -- assert (I' : In h0 (r_cache r)) by (rewrite Ec; right; exact I).
           pose proof (wf_next _ W) as F. rewrite Forall_forall in F.
           specialize (F (h_fun h0) (in_map _ _ _ I')). destruct (Nat.eqb_spec (h_fun h0) (r_next r)); [lia|].
           exact (O h0 I').
        -- subst h0. cbn. rewrite Nat.eqb_refl. reflexivity.
      * intros f L'. destruct (Nat.eqb_spec f (r_next r)); [lia|reflexivity].
      * cbn. lia.
      * inversion H; inversion H0; subst. rewrite Nat.eqb_refl. reflexivity.
      * inversion H; inversion H0; subst. cbn. lia.
  - destruct (set_cache_size r size) as [r1 o1] eqn:C. inversion E; subst. clear E.
    exists own. unfold set_cache_size in C.
    assert (G : owns own r' /\ r_next r' = r_next r).
    { destruct size as [n|].
      - destruct (n <? 1)%Z; [inversion C; subst; auto|].
        destruct (shrink n (r_cache r)) as [c|e] eqn:Es; inversion C; subst; cbn; split; auto.
        + intros h I. apply O. exact (shrink_incl _ _ _ _ Es I).
        + intros h [].
      - destruct (shrink DEFAULT_CACHE_SIZE (r_cache r)) as [c|e] eqn:Es; inversion C; subst; cbn; split; auto.
        + intros h I. apply O. exact (shrink_incl _ _ _ _ Es I).
        + intros h []. }
    destruct G as [G1 G2]. split; [exact G1|]. split; [auto|]. split; [lia|]. intros; discriminate.
  - inversion E; subst. exists own. split; [|split; [auto|split; [cbn; lia|intros; discriminate]]].
    intros h I. apply O. exact (remove_incl _ _ _ I).
  - inversion E; subst. exists own. split; [|split; [auto|split; [cbn; lia|intros; discriminate]]].
    intros h [].
Qed.

Lemma rrun_owns : forall h r r' os own, wf r -> owns own r -> rrun r h = (r', os) ->
  exists own', owns own' r' /\ (forall f, f < r_next r -> own' f = own f) /\ r_next r <= r_next r' /\
    forall i a kw f, nth_error h i = Some (RCall a kw) -> nth_error os i = Some (OFun f) ->
      own' f = create_immutable a kw.
Proof.
  induction h as [|op h IH]; intros r r' os own W O E; cbn in E.
  - inversion E; subst. exists own. repeat split; auto. intros i a kw f Hi. destruct i; discriminate.
  - destruct (rstep r op) as [r1 o] eqn:S. destruct (rrun r1 h) as [r2 os2] eqn:R. inversion E; subst.
    destruct (rstep_wf _ _ _ _ W S) as [W1 _].
    destruct (rstep_owns _ _ _ _ _ W O S) as [own1 [O1 [A1 [N1 C1]]]].
    destruct (IH _ _ _ _ W1 O1 R) as [own2 [O2 [A2 [N2 C2]]]].
    exists own2. split; [exact O2|]. split; [intros f L; rewrite A2, A1; auto; lia|].
    split; [lia|]. intros i a kw f Hi Ho. destruct i as [|i].
    + cbn in Hi, Ho. inversion Hi; inversion Ho; subst.
      destruct (C1 a kw f eq_refl eq_refl) as [C3 C4]. rewrite A2; auto.
    + exact (C2 i a kw f Hi Ho).
Qed.

Lemma shared_function_same_key : forall n h r os i j a kw a' kw' f, (1 <= n)%Z ->
  rrun (new_registry (Some n)) h = (r, os) ->
  nth_error h i = Some (RCall a kw) -> nth_error os i = Some (OFun f) ->
  nth_error h j = Some (RCall a' kw') -> nth_error os j = Some (OFun f) ->
  create_immutable a kw = create_immutable a' kw'.
Proof.
  intros n h r os i j a kw a' kw' f H E Hi Oi Hj Oj.
  destruct (rrun_owns h _ _ _ (fun _ => []) (new_wf n H) ltac:(intros x []) E) as [own [_ [_ [_ C]]]].
  rewrite <- (C i a kw f Hi Oi). exact (C j a' kw' f Hj Oj).
Qed.

Lemma shared_function_same_params : forall n h r os i j a kw a' kw' f, (1 <= n)%Z ->
  rrun (new_registry (Some n)) h = (r, os) ->
  nth_error h i = Some (RCall a kw) -> nth_error os i = Some (OFun f) ->
  nth_error h j = Some (RCall a' kw') -> nth_error os j = Some (OFun f) ->
  flat_map arg_params a ++ flat_map (fun kv => arg_params (snd kv)) kw =
  flat_map arg_params a' ++ flat_map (fun kv => arg_params (snd kv)) kw'.
Proof.
  intros. rewrite <- !key_params. f_equal. eapply shared_function_same_key; eauto.
Qed.

(** * First in, first out *)

(** The newest [min n (next - f)] functions are cached, in order of creation, and [h0] is
    the entry of [f]. *)
Definition tail_inv (r : registry) (h0 : holder) : Prop :=
  exists pre post,
    r_cache r = pre ++ post /\ h_fun h0 < r_next r /\
    (if (Z.of_nat (r_next r - h_fun h0) <=? r_size r)%Z
     then funs post = seq (h_fun h0) (r_next r - h_fun h0) /\ nth_error post 0 = Some h0
     else pre = [] /\ funs post = seq (r_next r - Z.to_nat (r_size r)) (Z.to_nat (r_size r))).

Lemma call_tail : forall r a kw r' o h0, wf r -> tail_inv r h0 -> call r a kw = (r', o) -> tail_inv r' h0.
Proof.
  intros r a kw r' o h0 W [pre [post [Ec [Lf T]]]] E.
  destruct (call_cases r a kw W) as [[h [I [K C]]]|[[K [L C]]|[h [c [Eh [K [L C]]]]]]];
    rewrite C in E; inversion E; subst; clear E.
  - exists pre, post. auto.
  - unfold tail_inv. cbn [r_cache r_size r_next]. destruct (Z.of_nat (r_next r - h_fun h0) <=? r_size r)%Z eqn:B.
    + destruct T as [T1 T2]. apply Z.leb_le in B.
      assert (Lp : length post = r_next r - h_fun h0).
      { pose proof (f_equal (@length nat) T1) as X. unfold funs in X. rewrite map_length, seq_length in X. exact X. }
      exists pre, (post ++ [{| h_key := create_immutable a kw; h_fun := r_next r |}]).
      split; [rewrite Ec, app_assoc; reflexivity|]. split; [lia|].
      rewrite Ec, app_length in L.
      assert (B' : (Z.of_nat (S (r_next r) - h_fun h0) <=? r_size r)%Z = true) by (apply Z.leb_le; lia).
      rewrite B'. split.
      * unfold funs in *. rewrite map_app, T1.
        replace (S (r_next r) - h_fun h0) with (S (r_next r - h_fun h0)) by lia.
        rewrite seq_S. cbn. do 2 f_equal. lia.
      * destruct post; [discriminate|exact T2].
    + destruct T as [-> T]. apply Z.leb_gt in B. exfalso.
      pose proof (f_equal (@length nat) T) as X. unfold funs in X. rewrite map_length, seq_length in X.
      rewrite Ec in L. cbn in L. pose proof (wf_size _ W). lia.
  - unfold tail_inv. cbn [r_cache r_size r_next]. destruct (Z.of_nat (r_next r - h_fun h0) <=? r_size r)%Z eqn:B.
    + destruct T as [T1 T2]. apply Z.leb_le in B.
      assert (Lp : length post = r_next r - h_fun h0).
      { pose proof (f_equal (@length nat) T1) as X. unfold funs in X. rewrite map_length, seq_length in X. exact X. }
      destruct pre as [|p pre].
      * cbn in Ec. rewrite Eh in Ec. subst post.
        exists [], (c ++ [{| h_key := create_immutable a kw; h_fun := r_next r |}]).
        split; [reflexivity|]. split; [lia|].
        rewrite Eh in L.
        assert (B' : (Z.of_nat (S (r_next r) - h_fun h0) <=? r_size r)%Z = false) by (apply Z.leb_gt; lia).
        rewrite B'. split; [reflexivity|].
        unfold funs in *. rewrite map_app. cbn in T1. cbn in Lp.
        assert (Es : exists m, r_next r - h_fun h0 = S m) by (exists (r_next r - h_fun h0 - 1); lia).
        destruct Es as [m Em]. rewrite Em in T1. cbn in T1. inversion T1 as [[X1 X2]].
        rewrite X2. replace (Z.to_nat (r_size r)) with (S m) by (cbn [length] in L; lia).
        rewrite seq_S. cbn [map h_fun]. f_equal; [f_equal; lia|f_equal; lia].
      * exists pre, (post ++ [{| h_key := create_immutable a kw; h_fun := r_next r |}]).
        rewrite Eh in Ec. inversion Ec; subst.
        split; [rewrite app_assoc; reflexivity|]. split; [lia|].
        rewrite Eh in L. cbn [length] in L. rewrite app_length in L.
        assert (B' : (Z.of_nat (S (r_next r) - h_fun h0) <=? r_size r)%Z = true) by (apply Z.leb_le; lia).
        rewrite B'. split.
        -- unfold funs in *. rewrite map_app, T1.
           replace (S (r_next r) - h_fun h0) with (S (r_next r - h_fun h0)) by lia.
           rewrite seq_S. cbn. do 2 f_equal. lia.
        -- destruct post; [discriminate|exact T2].
    + destruct T as [-> T]. apply Z.leb_gt in B. cbn in Ec. rewrite Eh in Ec. subst post.
      exists [], (c ++ [{| h_key := create_immutable a kw; h_fun := r_next r |}]).
      split; [reflexivity|]. split; [lia|].
      assert (B' : (Z.of_nat (S (r_next r) - h_fun h0) <=? r_size r)%Z = false) by (apply Z.leb_gt; lia).
      rewrite B'. split; [reflexivity|].
      unfold funs in *. rewrite map_app. cbn in T.
      pose proof (wf_size _ W) as Sz.
      assert (Es : exists m, Z.to_nat (r_size r) = S m) by (exists (Z.to_nat (r_size r) - 1); lia).
      destruct Es as [m Em]. rewrite Em in T. cbn in T. inversion T as [[X1 X2]].
      rewrite X2, Em. rewrite seq_S. cbn [map h_fun].
      assert (Hn : S m <= r_next r) by lia.
      f_equal; [f_equal; lia|f_equal; lia].
Qed.

Lemma calls_tail : forall h r r' os h0, wf r -> tail_inv r h0 -> Forall is_call h ->
  rrun r h = (r', os) -> wf r' /\ tail_inv r' h0 /\ r_size r' = r_size r.
Proof.
  induction h as [|op h IH]; intros r r' os h0 W T F E; cbn in E.
  - inversion E; subst. auto.
  - inversion F; subst. destruct op as [a kw| | |]; try (destruct H1; fail). cbn in E.
    destruct (call r a kw) as [r1 o1] eqn:C. destruct (rrun r1 h) as [r2 os2] eqn:R. inversion E; subst.
    destruct (call_wf _ _ _ _ _ W C) as [W1 [S1 _]].
    destruct (IH _ _ _ _ W1 (call_tail _ _ _ _ _ _ W T C) H2 R) as [W2 [T2 S2]].
    split; [exact W2|]. split; [exact T2|congruence].
Qed.

(** After a function [f] was compiled for a call, and then only calls were made, a further
    call with the same arguments runs [f] again exactly when fewer functions than the size
    of the cache were compiled in between. *)
Lemma fifo : forall n h0 r0 os0 a kw r1 f h r2 os2, (1 <= n)%Z ->
  rrun (new_registry (Some n)) h0 = (r0, os0) ->
  call r0 a kw = (r1, Ok f) -> r_next r1 = S (r_next r0) ->
  Forall is_call h -> rrun r1 h = (r2, os2) ->
  (snd (call r2 a kw) = Ok f <-> (Z.of_nat (r_next r2 - r_next r1) < configured n h0)%Z).
Proof.
  intros n h0 r0 os0 a kw r1 f h r2 os2 H E0 C N F E.
  destruct (rrun_wf _ _ _ _ (new_wf n H) E0) as [W0 S0]. cbn in S0.
  destruct (call_wf _ _ _ _ _ W0 C) as [W1 [S1 _]].
  assert (Hf : f = r_next r0 /\ exists pre, r_cache r1 = pre ++ [{| h_key := create_immutable a kw; h_fun := f |}]).
  { destruct (call_cases r0 a kw W0) as [[x [I [K C']]]|[[K [L C']]|[x [c [Eh [K [L C']]]]]]];
      rewrite C' in C; inversion C; subst; clear C.
    - exfalso. lia.
    - split; [reflexivity|]. eexists. reflexivity.
    - split; [reflexivity|]. eexists. reflexivity. }
  destruct Hf as [Ef [pre Ec]].
  set (e := {| h_key := create_immutable a kw; h_fun := f |}) in *.
  assert (T1 : tail_inv r1 e).
  { exists pre, [e]. split; [exact Ec|].
    assert (D : r_next r1 - h_fun e = 1) by (unfold e; cbn; lia). rewrite D.
    split; [unfold e; cbn; lia|]. pose proof (wf_size _ W1) as Sz.
    destruct (Z.of_nat 1 <=? r_size r1)%Z eqn:B; [split; reflexivity|].
    apply Z.leb_gt in B. lia. }
  destruct (calls_tail _ _ _ _ _ W1 T1 F E) as [W2 [[p [q [Ec2 [Lf T]]]] S2]].
  cbn in Lf, T. rewrite <- S0, <- S1, <- S2.
  destruct (Z.of_nat (r_next r2 - f) <=? r_size r2)%Z eqn:B.
  - apply Z.leb_le in B. split; [intros _; lia|]. intros _. destruct T as [_ T].
    assert (I : In e (r_cache r2)).
    { rewrite Ec2. apply in_or_app. right. destruct q; [discriminate|]. cbn in T. inversion T. left. reflexivity. }
    destruct (call_cases r2 a kw W2) as [[x [Ix [K C']]]|[[K [L C']]|[x [c [Eh [K [L C']]]]]]].
    + rewrite C'. cbn. f_equal.
      assert (X : x = e) by (apply (keys_unique (r_cache r2)); [exact (wf_keys _ W2)|exact Ix|exact I|exact K]).
      rewrite X. reflexivity.
    + exfalso. apply K. change (create_immutable a kw) with (h_key e). apply in_map. exact I.
    + exfalso. apply K. change (create_immutable a kw) with (h_key e). apply in_map. exact I.
  - apply Z.leb_gt in B. split; [|intro; lia]. intro X. exfalso.
    destruct T as [-> T]. cbn in Ec2.
    destruct (call_cases r2 a kw W2) as [[x [Ix [K C']]]|[[K [L C']]|[x [c [Eh [K [L C']]]]]]];
      rewrite C' in X; cbn in X; inversion X; [|lia|lia].
    assert (Ifx : In (h_fun x) (funs q)) by (rewrite <- Ec2; apply in_map; exact Ix).
    rewrite T in Ifx. apply in_seq in Ifx. lia.
Qed.

(** In every reachable state, the only entry a call can displace is the oldest one, and
    only when the cache is full. *)
Lemma displaced_oldest : forall n h r os a kw r' o x, (1 <= n)%Z ->
  rrun (new_registry (Some n)) h = (r, os) -> call r a kw = (r', o) ->
  In x (r_cache r) -> ~ In x (r_cache r') ->
  (Z.of_nat (length (r_cache r)) = configured n h)%Z /\
  forall y, In y (r_cache r) -> y <> x -> h_fun x < h_fun y /\ In y (r_cache r').
Proof.
  intros n h r os a kw r' o x H E C I NI.
  destruct (rrun_wf _ _ _ _ (new_wf n H) E) as [W S]. cbn in S.
  destruct (call_cases r a kw W) as [[z [Iz [K C']]]|[[K [L C']]|[z [c [Ez [K [L C']]]]]]];
    rewrite C' in C; inversion C; subst; clear C.
  - contradiction.
  - exfalso. apply NI. cbn. apply in_or_app. auto.
  - split; [lia|]. intros y Iy Ny. rewrite Ez in I, Iy.
    assert (x = z).
    { destruct I as [->|I]; [reflexivity|]. exfalso. apply NI. cbn. apply in_or_app. auto. }
    subst z. destruct Iy as [->|Iy]; [congruence|]. split.
    + pose proof (wf_sorted _ W) as Sr. rewrite Ez in Sr. cbn in Sr. inversion Sr; subst.
      rewrite Forall_forall in H3. apply H3. apply in_map. exact Iy.
    + cbn. apply in_or_app. auto.
Qed.

Lemma set_size_keeps : forall n h r os m r' o, (1 <= n)%Z -> (1 <= m)%Z ->
  rrun (new_registry (Some n)) h = (r, os) -> set_cache_size r (Some m) = (r', o) ->
  o = Ok tt /\ (exists dropped, r_cache r = dropped ++ r_cache r') /\
  ((Z.of_nat (length (r_cache r)) < m)%Z -> r_cache r' = r_cache r) /\
  ((m <= Z.of_nat (length (r_cache r)))%Z -> Z.of_nat (length (r_cache r')) = m - 1)%Z.
Proof.
  intros n h r os m r' o H Hm E S.
  destruct (rrun_wf _ _ _ _ (new_wf n H) E) as [[W1 W2 W3 W4 W5] _].
  unfold set_cache_size in S. assert (L : (m <? 1)%Z = false) by (apply Z.ltb_ge; lia). rewrite L in S.
  destruct (shrink_ok (r_cache r) m (r_next r) 0%Z Hm W3 W4 W5) as [c' [Es [Wc [D [A B]]]]].
  rewrite Es in S. inversion S; subst. cbn. auto.
Qed.
