(** Proofs about the parameters of functions made by operators (C81). *)
From Verif Require Import Base BaseLemmas Ops_Model Ops_Spec Ops_Proofs.
From Coq Require Import QArith Lia.
#[local] Open Scope string_scope.
#[local] Open Scope list_scope.

Lemma put_In k v d kp : NoDup (map fst d) -> (In kp (put k v d) <-> kp = (k, v) \/ (In kp d /\ fst kp <> k)).
Proof.
  induction d as [|[k' v'] d IH]; intros N; cbn.
  - intuition congruence.
  - inversion N as [|? ? N1 N2]; subst. destruct (String.eqb k k') eqn:E.
    + apply String.eqb_eq in E. subst k'. cbn. split.
      * intros [<-|H]; [auto|]. right. split; [auto|]. intros E0. apply N1. rewrite <- E0. apply in_map. exact H.
      * intros [->|[[<-|H] F]]; auto. cbn in F. congruence.
    + apply String.eqb_neq in E. cbn. rewrite (IH N2). split.
      * intros [<-|[->|[H F]]]; auto.
      * intros [->|[[<-|H] F]]; auto.
Qed.
Lemma put_keys k v d n : In n (map fst (put k v d)) <-> n = k \/ In n (map fst d).
Proof.
  induction d as [|[k' v'] d IH]; cbn; [intuition|]. destruct (String.eqb k k') eqn:E; cbn; [|rewrite IH; tauto]. apply String.eqb_eq in E. subst. intuition.
Qed.
Lemma put_NoDup k v d : NoDup (map fst d) -> NoDup (map fst (put k v d)).
Proof.
  induction d as [|[k' v'] d IH]; intros N; cbn; [constructor; [intros []|constructor]|]. inversion N as [|? ? N1 N2]; subst. destruct (String.eqb k k') eqn:E; cbn; [constructor; assumption|].
  constructor; [|auto]. rewrite put_keys. intros [->|H]; [rewrite String.eqb_refl in E; discriminate|contradiction].
Qed.
Lemma update_NoDup e : forall d, NoDup (map fst d) -> NoDup (map fst (update d e)).
Proof. unfold update. induction e as [|[k v] e IH]; intros d N; [exact N|]. cbn. apply IH, put_NoDup, N. Qed.
Lemma update_In e : forall d kp, NoDup (map fst d) -> NoDup (map fst e) ->
  (In kp (update d e) <-> In kp e \/ (In kp d /\ ~ In (fst kp) (map fst e))).
Proof.
  unfold update. induction e as [|[k v] e IH]; intros d kp ND NE; [cbn; tauto|]. inversion NE as [|? ? N1 N2]; subst. cbn [fold_left fst snd]. rewrite IH by (auto using put_NoDup).
  rewrite (put_In k v d kp ND). cbn [map In fst]. split.
  - intros [H|[[->|[H F]] G]]; [auto|auto|]. right. split; [exact H|]. intros [E|E]; [congruence|contradiction].
  - intros [[<-|H]|[H G]]; [|auto|]; right; (split; [|intros X; try (apply G; auto); try contradiction]); [auto|right; split; [exact H|]; intros X; apply G; auto].
Qed.

Definition deps_in (ps : list (string * param)) : list string := concat (map (fun kp => p_deps (snd kp)) ps).
Lemma deps_in_In ps n : In n (deps_in ps) <-> exists k p, In (k, p) ps /\ In n (p_deps p).
Proof.
  unfold deps_in. rewrite in_concat. split.
  - intros (l&L&I). apply in_map_iff in L. destruct L as ([k p]&<-&L). exists k, p. auto.
  - intros (k&p&L&I). exists (p_deps p). split; [|exact I]. apply in_map_iff. exists (k, p). auto.
Qed.
Lemma deps_update p ps n : NoDup (map fst ps) -> (forall q, In (p_name p, q) ps -> p_deps p = [] \/ q = p) ->
  (In n (deps_in (update [(p_name p, p)] ps)) <-> In n (p_deps p) \/ In n (deps_in ps)).
Proof.
  intros N C. rewrite !deps_in_In. assert (U : forall kp, In kp (update [(p_name p, p)] ps) <-> In kp ps \/ (kp = (p_name p, p) /\ ~ In (p_name p) (map fst ps))).
  { intros kp. rewrite update_In by (try exact N; repeat constructor; intros []). cbn. split; [intros [H|[[<-|[]] F]]; auto|intros [H|[-> F]]; auto]. }
  split.
  - intros (k&q&I&D). apply U in I. destruct I as [I|[I _]]; [right; eauto|]. injection I as -> ->. auto.
  - intros [D|(k&q&I&D)].
    + destruct (in_dec string_dec (p_name p) (map fst ps)) as [I|I].
      * apply in_map_iff in I. destruct I as ([k q]&E&I). cbn in E. subst k. destruct (C q I) as [Z|Z]; [rewrite Z in D; destruct D|]. subst q. exists (p_name p), p. split; [apply U; auto|exact D].
      * exists (p_name p), p. split; [apply U; auto|exact D].
    + exists k, q. split; [apply U; auto|exact D].
Qed.

Lemma deps_mul a b : deps (EMul a b) = deps a ++ deps b.
Proof. unfold deps. cbn [operands]. rewrite map_app, concat_app. reflexivity. Qed.
Lemma deps_add a b : deps (EAdd a b) = deps a ++ deps b.
Proof. apply deps_mul. Qed.
Lemma keyed_mul a b : keyed (EMul a b) = keyed a ++ keyed b.
Proof. unfold keyed. cbn [operands]. rewrite map_app, concat_app. reflexivity. Qed.

Definition is_simple (f : fn) : Prop := match f with Simple _ _ _ | Via _ _ _ _ => True | _ => False end.
Lemma simple_params f : is_simple f -> get_params f = deps_in (fn_params f).
Proof. destruct f; try contradiction; reflexivity. Qed.
Record dinv (e : expr) (f : fn) : Prop := {
  d_fun : has_function e = true;
  d_deps : forall n, In n (get_params f) <-> In n (deps e);
  d_nodup : NoDup (map fst (fn_params f));
  d_direct : direct e = true -> is_simple f /\
    forall k p, In (k, p) (fn_params f) -> In (k, p) (keyed e) \/ (k = "FIXED_autoparam" /\ p_deps p = []) }.
Definition dinv_obj (e : expr) (o : obj) : Prop :=
  match o with
  | OFn f => dinv e f
  | OPar p => e = EObj (OPar p)
  | ONum q => has_function e = false /\ has_param e = false /\ deps e = []
  | OPdf _ => False
  end.
Lemma scaled_inv e p f a : dinv a f -> direct a = true -> has_function e = true ->
  (forall n, In n (deps e) <-> In n (p_deps p) \/ In n (deps a)) ->
  (forall kp, In kp (keyed a) -> In kp (keyed e)) -> (p_deps p = [] /\ p_name p = "FIXED_autoparam" \/ In (p_name p, p) (keyed e) /\ p_name p <> "FIXED_autoparam") ->
  one_per_name e ->
  dinv e (Via (fn_obs f) (update [(p_name p, p)] (fn_params f)) (Some p) f).
Proof.
  intros [F D N DI] DA FE DE KE KP ONE. destruct (DI DA) as [SI KS]. constructor; [exact FE| |apply update_NoDup; repeat constructor; intros []|].
  - intros n. cbn [get_params]. change (concat (map (fun kp => p_deps (snd kp)) (update [(p_name p, p)] (fn_params f)))) with (deps_in (update [(p_name p, p)] (fn_params f))).
    rewrite deps_update; [|exact N|].
    + rewrite <- (simple_params f SI), D, DE. reflexivity.
    + intros q I. destruct KP as [[Z _]|[KP NF]]; [auto|]. right. destruct (KS _ _ I) as [K|[K _]]; [|congruence]. apply (ONE (p_name p)); auto.
  - intros _. split; [exact I|]. intros k q I. cbn [fn_params] in I. apply update_In in I; [|repeat constructor; intros []|exact N]. destruct I as [I|[[I|[]] _]].
    + destruct (KS _ _ I); auto.
    + injection I as <- <-. destruct KP as [[Z E]|[KP _]]; auto.
Qed.

Lemma build_dinv now e : forall o, Forall well_made (operands e) -> faithful e -> lively e = true -> build now e = Ok o -> dinv_obj e o.
Proof.
  induction e as [o0|a IHa b IHb|a IHa b IHb]; intros o W FA L B.
  - cbn in B. injection B as <-. inversion W as [|? ? W1 _]; subst. destruct o0 as [[obs ps body| | |]|p|q|d]; cbn in W1; try contradiction.
    + constructor; [reflexivity| |tauto|].
      * intros n. cbn. unfold deps. cbn. rewrite app_nil_r. reflexivity.
      * intros _. split; [exact I|]. intros k p I'. left. unfold keyed. cbn. rewrite app_nil_r. exact I'.
    + reflexivity.
    + repeat split.
  - cbn [operands] in W. apply Forall_app in W. destruct W as [Wa Wb]. cbn [build] in B. destruct (build now a) as [x|] eqn:Ba; [|discriminate]. destruct (build now b) as [y|] eqn:Bb; [|discriminate].
    cbn [bind] in B. destruct FA as [Fa Fb]. cbn in L. rewrite !Bool.andb_true_iff in L. destruct L as [[La Lb] LL]. specialize (IHa x Wa Fa La eq_refl). specialize (IHb y Wb Fb Lb eq_refl).
    destruct x as [f|p|q|d], y as [g|p'|q'|d']; cbn in B; try discriminate; cbn in IHa, IHb; try contradiction; injection B as <-; cbn [dinv_obj].
    + destruct IHa as [a1 a2 a3 a4], IHb as [b1 b2 b3 b4]. constructor; [cbn; rewrite a1; reflexivity| |constructor|].
      * intros n. rewrite deps_add. cbn [get_params map concat]. rewrite app_nil_r, !in_app_iff, a2, b2. reflexivity.
      * cbn. rewrite a1. discriminate.
    + subst. cbn in LL. discriminate.
    + subst. destruct IHb as (b1&b2&b3). rewrite b1 in LL. cbn in LL. discriminate.
    + subst. destruct IHa as (b1&b2&b3). rewrite b1 in LL. cbn in LL. rewrite Bool.orb_true_r in LL. discriminate.
    + destruct IHa as (a1&a2&a3), IHb as (b1&b2&b3). cbn [dinv_obj]. rewrite deps_add, a3, b3. cbn. rewrite a1, b1, a2, b2. auto.
  - cbn [operands] in W. apply Forall_app in W. destruct W as [Wa Wb]. cbn [build] in B. destruct (build now a) as [x|] eqn:Ba; [|discriminate]. destruct (build now b) as [y|] eqn:Bb; [|discriminate].
    cbn [bind] in B. destruct FA as (Fa&Fb&FX). cbn in L. rewrite !Bool.andb_true_iff in L. destruct L as [[La Lb] LL]. specialize (IHa x Wa Fa La eq_refl). specialize (IHb y Wb Fb Lb eq_refl).
    destruct x as [f|p|q|d], y as [g|p'|q'|d']; cbn [op_mul] in B; try discriminate; cbn in IHa, IHb; try contradiction.
    + injection B as <-. destruct IHa as [a1 a2 a3 a4], IHb as [b1 b2 b3 b4]. constructor; [cbn; rewrite a1; reflexivity| |constructor|].
      * intros n. rewrite deps_mul. cbn [get_params map concat]. rewrite app_nil_r, !in_app_iff, a2, b2. reflexivity.
      * cbn. rewrite a1, b1. discriminate.
    + destruct (multiply_param_func p' f) eqn:M; [|discriminate]. cbn [bind] in B. injection B as <-. apply mult_inv in M. subst. assert (a1 := d_fun _ _ IHa). rewrite a1 in FX. destruct (FX eq_refl) as [DD ONE].
      apply andb_prop in DD. destruct DD as [Da Db]. apply scaled_inv with (a := a); try assumption; [cbn; rewrite a1; reflexivity| | |].
      * intros n. rewrite deps_mul, in_app_iff. unfold deps at 2. cbn. rewrite app_nil_r. tauto.
      * intros kp I. rewrite keyed_mul. apply in_app_iff. auto.
      * right. split; [rewrite keyed_mul; apply in_app_iff; right; left; reflexivity|]. inversion Wb as [|? ? W1 _]; subst. exact W1.
    + destruct (multiply_param_func (const_param q') f) eqn:M; [|discriminate]. cbn [bind] in B. injection B as <-. apply mult_inv in M. subst. assert (a1 := d_fun _ _ IHa). destruct IHb as (b1&b2&b3). rewrite a1, b1 in FX. destruct (FX eq_refl) as [DD ONE].
      apply andb_prop in DD. destruct DD as [Da Db]. apply scaled_inv with (a := a); try assumption; [cbn; rewrite a1; reflexivity| | |].
      * intros n. rewrite deps_mul, b3, app_nil_r. cbn. tauto.
      * intros kp I. rewrite keyed_mul. apply in_app_iff. auto.
      * left. split; reflexivity.
    + destruct (multiply_param_func p g) eqn:M; [|discriminate]. cbn [bind] in B. injection B as <-. apply mult_inv in M. subst. assert (a1 := d_fun _ _ IHb). rewrite a1 in FX. destruct (FX eq_refl) as [DD ONE].
      apply andb_prop in DD. destruct DD as [Da Db]. apply scaled_inv with (a := b); try assumption; [| |].
      * intros n. rewrite deps_mul, in_app_iff. unfold deps at 1. cbn. rewrite app_nil_r. tauto.
      * intros kp I. rewrite keyed_mul. apply in_app_iff. auto.
      * right. split; [rewrite keyed_mul; left; reflexivity|]. inversion Wa as [|? ? W1 _]; subst. exact W1.
    + subst. cbn in LL. discriminate.
    + subst. destruct IHb as (b1&b2&b3). rewrite b1 in LL. cbn in LL. discriminate.
    + destruct (multiply_param_func (const_param q) g) eqn:M; [|discriminate]. cbn [bind] in B. injection B as <-. apply mult_inv in M. subst. assert (a1 := d_fun _ _ IHb). destruct IHa as (b1&b2&b3). rewrite a1, b1 in FX. destruct (FX eq_refl) as [DD ONE].
      apply andb_prop in DD. destruct DD as [Da Db]. apply scaled_inv with (a := b); try assumption; [cbn; rewrite a1, b1; reflexivity| | |].
      * intros n. rewrite deps_mul, b3. cbn. tauto.
      * intros kp I. rewrite keyed_mul. apply in_app_iff. auto.
      * left. split; reflexivity.
    + subst. destruct IHa as (b1&b2&b3). rewrite b1 in LL. cbn in LL. rewrite Bool.orb_true_r in LL. discriminate.
    + injection B as <-. destruct IHa as (a1&a2&a3), IHb as (b1&b2&b3). cbn [dinv_obj]. rewrite deps_mul, a3, b3. cbn. rewrite a1, b1, a2, b2. auto.
Qed.

(** The meaning depends on the parameters of the expression only. *)
Lemma meaning_deps e : Forall honest (operands e) -> Forall well_made (operands e) -> forall s s' x, same_on (deps e) s s' -> meaning s x e = meaning s' x e.
Proof.
  induction e as [o|a IHa b IHb|a IHa b IHb]; intros H W s s' x E.
  - inversion H as [|? ? H1 _]; subst. unfold deps in E. cbn [operands map concat] in E. rewrite app_nil_r in E. destruct o as [[obs ps body| | |]|p|q|d]; cbn in *; try reflexivity.
    + apply H1. exact E.
    + apply H1. exact E.
  - cbn [operands] in H, W. apply Forall_app in H, W. destruct H, W. rewrite deps_add in E. cbn. rewrite (IHa H H1 s s' x), (IHb H0 H2 s s' x); [reflexivity| |]; intros n I; apply E, in_app_iff; auto.
  - cbn [operands] in H, W. apply Forall_app in H, W. destruct H, W. rewrite deps_mul in E. cbn. rewrite (IHa H H1 s s' x), (IHb H0 H2 s s' x); [reflexivity| |]; intros n I; apply E, in_app_iff; auto.
Qed.

(** What can be built *)
Definition tinv (e : expr) (o : obj) : Prop :=
  match o with
  | OFn f => has_function e = true /\ forall k p, In (k, p) (fn_params f) -> In (k, p) (keyed e) \/ k = "FIXED_autoparam"
  | OPar p => e = EObj (OPar p)
  | ONum _ => has_function e = false
  | OPdf _ => False
  end.
Lemma free_sub a b : free_names (EMul a b) -> free_names a /\ free_names b.
Proof. intros F. split; intros k p I; apply (F k p); rewrite keyed_mul; apply in_app_iff; auto. Qed.
Lemma kwargs_ok ps : (forall k p, In (k, p) ps -> ~ In k ["self"; "obs"; "func"]) -> check_kwargs ps = Ok tt.
Proof.
  intros H. unfold check_kwargs. destruct (existsb _ ps) eqn:E; [|reflexivity]. apply existsb_exists in E. destruct E as ([k p]&I&E). cbn [fst] in E. apply mem_ok in E. exfalso. apply (H k p I E).
Qed.
Lemma update_from d e kp : In kp (update d e) -> In kp d \/ In kp e.
Proof.
  unfold update. revert d. induction e as [|[k v] e IH]; intros d I; [auto|]. cbn in I. apply IH in I. destruct I as [I|I]; [|cbn; auto].
  assert (P : forall d, In kp (put k v d) -> kp = (k, v) \/ In kp d).
  { clear. induction d as [|[k' v'] d IH]; cbn; [intuition|]. destruct (String.eqb k k') eqn:E; cbn.
    - apply String.eqb_eq in E. subst. intuition.
    - intuition. }
  apply P in I. cbn. intuition.
Qed.
Lemma scaled_total e p f a : tinv a (OFn f) -> has_function e = true -> (forall kp, In kp (keyed a) -> In kp (keyed e)) -> free_names e ->
  (p_name p = "FIXED_autoparam" \/ In (p_name p, p) (keyed e)) -> exists g, multiply_param_func p f = Ok g /\ tinv e (OFn g).
Proof.
  intros [F K] FE KE FR KP. unfold multiply_param_func.
  assert (A : forall k q, In (k, q) (update [(p_name p, p)] (fn_params f)) -> In (k, q) (keyed e) \/ k = "FIXED_autoparam").
  { intros k q I. apply update_from in I. destruct I as [[I|[]]|I]; [injection I as <- <-; tauto|]. apply K in I. destruct I; auto. }
  rewrite kwargs_ok.
  - eexists. split; [reflexivity|]. split; [exact FE|]. exact A.
  - intros k q I. apply A in I. destruct I as [I|I]; [apply (FR k q I)|]. subst k. cbn. intuition discriminate.
Qed.
Lemma build_total now e : Forall well_made (operands e) -> addable e = true -> free_names e -> exists o, build now e = Ok o /\ tinv e o.
Proof.
  induction e as [o0|a IHa b IHb|a IHa b IHb]; intros W A F.
  - exists o0. split; [reflexivity|]. inversion W as [|? ? W1 _]; subst. destruct o0 as [[obs ps body| | |]|p|q|d]; cbn in W1; try contradiction; cbn; auto.
    split; [reflexivity|]. intros k p I. left. unfold keyed. cbn. rewrite app_nil_r. exact I.
  - cbn [operands] in W. apply Forall_app in W. destruct W as [Wa Wb]. cbn in A. rewrite !Bool.andb_true_iff in A. destruct A as [[Aa Ab] AE]. apply Bool.eqb_prop in AE.
    destruct (free_sub a b F) as [Fa Fb]. destruct (IHa Wa Aa Fa) as (x&Bx&Tx), (IHb Wb Ab Fb) as (y&By&Ty). cbn [build]. rewrite Bx, By. cbn [bind].
    destruct x as [f|p|q|d], y as [g|p'|q'|d']; cbn in Tx, Ty; try contradiction; subst; cbn in AE; try (destruct Tx; congruence); try (destruct Ty; congruence).
    all: try (eexists; split; [reflexivity|]; cbn; try (rewrite Tx); try (rewrite Ty); reflexivity).
    + eexists. split; [reflexivity|]. cbn. split; [rewrite (proj1 Tx); reflexivity|]. intros k r [].
  - cbn [operands] in W. apply Forall_app in W. destruct W as [Wa Wb]. cbn in A. rewrite !Bool.andb_true_iff in A. destruct A as [Aa Ab].
    destruct (free_sub a b F) as [Fa Fb]. destruct (IHa Wa Aa Fa) as (x&Bx&Tx), (IHb Wb Ab Fb) as (y&By&Ty). cbn [build]. rewrite Bx, By. cbn [bind].
    assert (KA : forall kp, In kp (keyed a) -> In kp (keyed (EMul a b))) by (intros kp I; rewrite keyed_mul; apply in_app_iff; auto).
    assert (KB : forall kp, In kp (keyed b) -> In kp (keyed (EMul a b))) by (intros kp I; rewrite keyed_mul; apply in_app_iff; auto).
    destruct x as [f|p|q|d], y as [g|p'|q'|d']; cbn in Tx, Ty; try contradiction; cbn [op_mul].
    + eexists. split; [reflexivity|]. cbn. split; [rewrite (proj1 Tx); reflexivity|]. intros k r [].
    + subst b. destruct (scaled_total (EMul a (EObj (OPar p'))) p' f a Tx) as (h&H1&H2); auto; [cbn; rewrite (proj1 Tx); reflexivity|right; apply KB; left; reflexivity|].
      rewrite H1. eexists. split; [reflexivity|exact H2].
    + destruct (scaled_total (EMul a b) (const_param q') f a Tx) as (h&H1&H2); auto; [cbn; rewrite (proj1 Tx); reflexivity|]. rewrite H1. eexists. split; [reflexivity|exact H2].
    + subst a. destruct (scaled_total (EMul (EObj (OPar p)) b) p g b Ty) as (h&H1&H2); auto; [cbn; rewrite (proj1 Ty); reflexivity|right; apply KA; left; reflexivity|].
      rewrite H1. eexists. split; [reflexivity|exact H2].
    + subst. eexists. split; reflexivity.
    + subst. eexists. split; [reflexivity|]. cbn. exact Ty.
    + destruct (scaled_total (EMul a b) (const_param q) g b Ty) as (h&H1&H2); auto; [cbn; rewrite Tx, (proj1 Ty); reflexivity|]. rewrite H1. eexists. split; [reflexivity|exact H2].
    + subst. eexists. split; [reflexivity|]. cbn. rewrite Tx. reflexivity.
    + eexists. split; [reflexivity|]. cbn. rewrite Tx, Ty. reflexivity.
Qed.
