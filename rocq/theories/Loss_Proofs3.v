(** Proofs for losses: values, sums, histories, the extended term. *)
From Coq Require Import Reals Lra Permutation.
From Verif Require Import Base BaseLemmas Space_Model Space_Proofs PGraph_Proofs Loss_Model Loss_Spec Loss_Proofs Loss_Proofs2.
#[local] Open Scope R_scope.

Lemma mask_filter {A} (f : A -> bool) (l : list A) : boolean_mask l (map f l) = filter f l.
Proof. induction l as [|a l IH]; [reflexivity|]. cbn. destruct (f a); rewrite IH; reflexivity. Qed.
Lemma mask_filter_fst {A B} (f : A -> bool) (a : list A) (b : list B) :
  boolean_mask (combine a b) (map f a) = filter (fun e => f (fst e)) (combine a b).
Proof.
  revert b. induction a as [|x a IH]; intros b; [reflexivity|]. destruct b as [|y b]; [cbn; destruct (f x); reflexivity|].
  cbn. destruct (f x); rewrite IH; reflexivity.
Qed.
Lemma events_used d r : events (used d r) = seen r d.
Proof.
  destruct r as [f|]; [|reflexivity]. cbn [used seen]. unfold events, u_cut. cbn [u_weights u_rows].
  destruct (u_weights d) as [w|]; cbn [option_map].
  - rewrite mask_combine. apply mask_filter_fst.
  - rewrite mask_filter. induction (u_rows d) as [|a l IH]; [reflexivity|]. cbn. destruct (r_in f a); cbn; rewrite IH; reflexivity.
Qed.

Section Values.
Context {V : Type}.
Implicit Types (v : V).

(** the parts of a channel do not depend on how sums are compensated *)
Lemma single_err err err' k k' v c off : same_type k k' = true -> uses_expected k = uses_expected k' ->
  loss_func err k v [c] [] off = loss_func err' k' v [c] [] off.
Proof.
  intros S N. destruct c as [[m [d|b]] r], k as [kahan| | | |e|e], k' as [kahan'| | | |e'|e']; try discriminate S; try reflexivity;
    try (cbn in N; subst e'; reflexivity).
  - cbn [loss_func]. unfold nll_func, unbinned_nll. cbn [unbinned_parts bind map]. f_equal. unfold constraints_value. cbn [map]. rewrite !rsum_cons.
    pose proof (nll_1_value err kahan v off m d r) as A. pose proof (nll_1_value err' kahan' v off m d r) as B. cbn [rsum fold_right]. lra.
Qed.
Lemma single_err_same err err' k v c off : loss_func err k v [c] [] off = loss_func err' k v [c] [] off.
Proof.
  destruct k as [kahan| | | |e|e]; try (apply single_err; reflexivity); reflexivity.
Qed.
Lemma F2_imp {A B} (P Q : A -> B -> Prop) (l : list A) (m : list B) : (forall a b, In a l -> P a b -> Q a b) -> Forall2 P l m -> Forall2 Q l m.
Proof. intros H F. rewrite <- (map_id m). eapply F2_map; [|exact F]. exact H. Qed.
Lemma err_indep err err' k v cs ks off x : loss_func err k v cs ks off = Ok x -> loss_func err' k v cs ks off = Ok x.
Proof.
  rewrite !dec. intros [ps [F E]]. exists ps. split; [|exact E]. eapply F2_imp; [|exact F].
  intros c p _ H. cbn beta in *. rewrite (single_err_same err' err). exact H.
Qed.

Lemma pre_frame err hash eager (l : loss V) v : let l' := fst (check_precompile err hash eager l v) in
  l_kind l' = l_kind l /\ l_chan l' = l_chan l /\ l_constr l' = l_constr l /\ l_subtr l' = l_subtr l.
Proof.
  unfold check_precompile. destruct eager; cbn [negb]; [|auto].
  assert (R : l_kind (refresh_pre hash l) = l_kind l /\ l_chan (refresh_pre hash l) = l_chan l /\ l_constr (refresh_pre hash l) = l_constr l
     /\ l_subtr (refresh_pre hash l) = l_subtr l) by (unfold refresh_pre; destruct (forallb _ _); auto).
  set (q := refresh_pre hash l) in *. destruct (l_pre q); [exact R|]. destruct (l_subtr q) as [| |y] eqn:Es.
  - destruct (l_offset q); [cbn [fst set_pre l_kind l_chan l_constr l_subtr]; rewrite Es; exact R|].
    destruct (loss_func _ _ _ _ _ _); cbn [fst set_pre set_offset l_kind l_chan l_constr l_subtr]; rewrite Es; exact R.
  - cbn. rewrite Es. exact R.
  - cbn. rewrite Es. exact R.
Qed.
Lemma value_frame err hash eager (l : loss V) v full : let l' := fst (loss_value err hash eager l v full) in
  l_kind l' = l_kind l /\ l_chan l' = l_chan l /\ l_constr l' = l_constr l /\ l_subtr l' = l_subtr l.
Proof.
  pose proof (pre_frame err hash eager l v) as P. unfold loss_value. destruct (check_precompile err hash eager l v) as [l' [u|e]]; exact P.
Qed.
Lemma pre_ok err hash eager (l : loss V) v x : (forall c, In c (l_chan l) -> fits c) ->
  loss_func err (l_kind l) v (l_chan l) (l_constr l) None = Ok x -> exists u, snd (check_precompile err hash eager l v) = Ok u.
Proof.
  intros F H. unfold check_precompile. destruct eager; cbn [negb]; [|exists tt; reflexivity].
  assert (R : l_kind (refresh_pre hash l) = l_kind l /\ l_chan (refresh_pre hash l) = l_chan l /\ l_constr (refresh_pre hash l) = l_constr l)
    by (unfold refresh_pre; destruct (forallb _ _); auto).
  set (q := refresh_pre hash l) in *. destruct R as [R1 [R2 R3]]. destruct (l_pre q); [exists tt; reflexivity|].
  destruct (l_subtr q); try (exists tt; reflexivity). destruct (l_offset q); [exists tt; reflexivity|].
  rewrite R1, R2, R3. rewrite (proj1 (shift_ok err _ v 0 _ _ x F) H). exists tt. reflexivity.
Qed.
Lemma value_full_iff err hash eager (l : loss V) v x : (forall c, In c (l_chan l) -> fits c) ->
  (snd (loss_value err hash eager l v true) = Ok x <-> loss_func err (l_kind l) v (l_chan l) (l_constr l) None = Ok x).
Proof.
  intros F. pose proof (pre_frame err hash eager l v) as P. cbv zeta in P. unfold loss_value. split.
  - destruct (check_precompile err hash eager l v) as [l' [u|e]]; cbn [fst snd] in *; [|discriminate].
    destruct P as [-> [-> [-> _]]]. auto.
  - intros H. destruct (pre_ok err hash eager l v x F H) as [u Hu]. 
    destruct (check_precompile err hash eager l v) as [l' [u'|e]]; cbn [fst snd] in *; [|discriminate].
    destruct P as [-> [-> [-> _]]]. exact H.
Qed.
Definition err0 : list R -> R := fun _ => 0.
Definition hash0 : dat -> Z := fun _ => 0%Z.
Lemma full_iff (l : loss V) v x : (forall c, In c (l_chan l) -> fits c) ->
  (full_value l v x <-> loss_func err0 (l_kind l) v (l_chan l) (l_constr l) None = Ok x).
Proof.
  intros F. unfold full_value. split.
  - intros H. specialize (H err0 hash0 true). apply value_full_iff in H; assumption.
  - intros H err hash eager. apply value_full_iff; [exact F|]. eapply err_indep, H.
Qed.
Lemma alone_iff (l : loss V) c v x : fits c -> (full_value (alone l c) v x <-> loss_func err0 (l_kind l) v [c] [] None = Ok x).
Proof. intros F. apply (full_iff (alone l c) v x). intros c' [<-|[]]. exact F. Qed.

Lemma C28_sum_l (l : loss V) v x : (forall c, In c (l_chan l) -> fits c) ->
  (full_value l v x <-> exists parts, Forall2 (fun c p => full_value (alone l c) v p) (l_chan l) parts
     /\ x = total parts + total (map (fun k => c_value k v) (l_constr l))).
Proof.
  intros F. rewrite (full_iff l v x F), dec.
  assert (K : map (kterm (l_kind l) None v) (l_constr l) = map (fun k => c_value k v) (l_constr l)).
  { apply map_ext. intros k. unfold kterm, offset_value. destruct (l_kind l); lra. }
  rewrite K. split; intros [ps [H E]]; exists ps; (split; [|rewrite !total_rsum in *; exact E]).
  - eapply F2_imp; [|exact H]. intros c p Hc Hp. apply alone_iff; [apply F, Hc|exact Hp].
  - eapply F2_imp; [|exact H]. intros c p Hc Hp. apply alone_iff in Hp; [exact Hp|apply F, Hc].
Qed.
Lemma C28_single_l (l : loss V) m d r v x kahan : l_kind l = KNLL kahan -> one_weight_each d ->
  (full_value (alone l (m, DU d, r)) v x <-> x = minus_log_likelihood m r d v).
Proof.
  intros K F. rewrite alone_iff by exact F. rewrite K. cbn [loss_func]. unfold nll_func, unbinned_nll. cbn [unbinned_parts bind map].
  unfold constraints_value. cbn [map]. rewrite !rsum_cons. pose proof (nll_1_value err0 kahan v None m d r) as A. cbn [minus_offset] in A. rewrite events_used in A.
  unfold minus_log_likelihood. rewrite (total_rsum (map _ (seen r d))). set (M := - rsum _) in *.
  match goal with |- Ok ?a = _ <-> _ => assert (Y : a = M) by (cbn [rsum fold_right]; lra); rewrite Y end.
  split; [intros H; apply Ok_inj in H; auto|intros ->; reflexivity].
Qed.

(** adding losses *)
Lemma combine_map3 {A B C D} (f : A -> B) (g : A -> C) (h : A -> D) l :
  combine (combine (map f l) (map g l)) (map h l) = map (fun a => (f a, g a, h a)) l.
Proof. induction l as [|a l IH]; [reflexivity|]. cbn. rewrite IH. reflexivity. Qed.
Lemma combine_map2 {A B C} (f : A -> B) (g : A -> C) l : combine (map f l) (map g l) = map (fun a => (f a, g a)) l.
Proof. induction l as [|a l IH]; [reflexivity|]. cbn. rewrite IH. reflexivity. Qed.
Lemma chan_map (cs : list (channel V)) : map (fun a => (fst (fst a), snd (fst a), snd a)) cs = cs.
Proof. rewrite <- (map_id cs) at 2. apply map_ext. intros [[a b] c]. reflexivity. Qed.
Lemma input_self (cs : list (channel V)) rs :
  match rs with Some rs => rs = map snd cs | None => forall r, In r (map snd cs) -> r = None end ->
  input_check (map (fun c => fst (fst c)) cs) (map (fun c => snd (fst c)) cs) rs = Ok cs.
Proof.
  intros H. unfold input_check. rewrite combine_map2, !map_map. cbn [fst snd].
  assert (E : match rs with Some rs => rs | None => map (fun _ : model V * dat * option range => None) cs end = map snd cs).
  { destruct rs as [rs|]; [exact H|]. apply map_ext_in. intros a Ha. symmetry. apply H, in_map, Ha. }
  rewrite E. rewrite !map_length, !Nat.eqb_refl. cbn [andb]. rewrite combine_map3, chan_map. reflexivity.
Qed.
Lemma add_ok big (a b : loss V) : same_type (l_kind a) (l_kind b) = true ->
  loss_add big a b = Ok (mkLoss (default_kind (l_kind a) big) (l_chan a ++ l_chan b) (l_constr a ++ l_constr b) SubTrue None false []).
Proof.
  intros S. unfold loss_add. rewrite S. cbn [negb]. unfold new_loss. rewrite input_self; [reflexivity|].
  destruct (existsb is_some (map snd (l_chan a ++ l_chan b))) eqn:E; [reflexivity|].
  intros r Hr. destruct r as [r|]; [|reflexivity]. exfalso.
  assert (X : existsb is_some (map snd (l_chan a ++ l_chan b)) = true) by (apply existsb_exists; exists (Some r); auto). congruence.
Qed.
Lemma C28_add_l big (a b : loss V) : (forall c, In c (l_chan a ++ l_chan b) -> fits c) ->
  uses_expected (l_kind a) = false -> uses_expected (l_kind b) = false -> same_type (l_kind a) (l_kind b) = true ->
  exists l, loss_add big a b = Ok l /\ l_chan l = l_chan a ++ l_chan b /\ l_constr l = l_constr a ++ l_constr b
    /\ forall v x y, full_value a v x -> full_value b v y -> full_value l v (x + y).
Proof.
  intros F N1 N2 S. eexists. split; [apply add_ok, S|]. split; [reflexivity|]. split; [reflexivity|]. intros v x y Hx Hy.
  assert (Fa : forall c, In c (l_chan a) -> fits c) by (intros c Hc; apply F, in_app_iff; auto).
  assert (Fb : forall c, In c (l_chan b) -> fits c) by (intros c Hc; apply F, in_app_iff; auto).
  apply full_iff in Hx; [|exact Fa]. apply full_iff in Hy; [|exact Fb]. apply full_iff; [exact F|]. cbn [l_kind l_chan l_constr].
  apply dec in Hx. apply dec in Hy. apply dec. destruct Hx as [ps [P ->]]. destruct Hy as [qs [Q ->]].
  exists (ps ++ qs). split.
  - apply Forall2_app.
    + eapply F2_imp; [|exact P]. intros c p _ H. rewrite <- H. symmetry. apply single_err; [destruct (l_kind a); reflexivity|].
      rewrite N1. destruct (l_kind a); reflexivity.
    + eapply F2_imp; [|exact Q]. intros c p _ H. rewrite <- H. symmetry. apply single_err.
      * destruct (l_kind a), (l_kind b); try discriminate S; reflexivity.
      * rewrite N2. destruct (l_kind a); reflexivity.
  - rewrite map_app, !rsum_app.
    assert (K' : forall k ks, rsum (map (kterm k None v) ks) = constraints_value v ks).
    { intros k ks. apply rsum_ext. intros c _. unfold kterm, offset_value. destruct k; lra. }
    rewrite !K'. lra.
Qed.
Lemma C28_add_raises_l big (a b : loss V) : same_type (l_kind a) (l_kind b) = false -> loss_add big a b = Err ValueError.
Proof. intros S. unfold loss_add. rewrite S. reflexivity. Qed.

(** pairing *)
Lemma combine_nth_error {A B} (a : list A) (b : list B) i :
  nth_error (combine a b) i = match nth_error a i, nth_error b i with Some x, Some y => Some (x, y) | _, _ => None end.
Proof.
  revert b i. induction a as [|x a IH]; intros b i; [destruct i; reflexivity|]. destruct b as [|y b].
  - cbn. destruct i; cbn; [reflexivity|]. destruct (nth_error a i); reflexivity.
  - destruct i; cbn; [reflexivity|]. apply IH.
Qed.
Lemma pairs_l k (ms : list (model V)) ds rs ks o l : new_loss k ms ds rs ks o = Ok l ->
  length (l_chan l) = Nat.min (length ms) (length ds)
  /\ (forall rl, rs = Some rl -> length rl = Nat.min (length ms) (length ds))
  /\ forall i m d r, nth_error (l_chan l) i = Some (m, d, r) ->
       nth_error ms i = Some m /\ nth_error ds i = Some d /\ match rs with Some rl => nth_error rl i = Some r | None => r = None end.
Proof.
  intros H. unfold new_loss in H. apply bind_ok in H. destruct H as [cs [E H]]. apply Ok_inj in H. subst l. cbn [l_chan].
  unfold input_check in E. destruct (_ && _)%bool eqn:Eb; [|discriminate]. apply Ok_inj in E. apply andb_true_iff in Eb. destruct Eb as [_ Eb].
  apply Nat.eqb_eq in Eb. rewrite map_length, combine_length in Eb.
  assert (X : combine (map fst (combine ms ds)) (map snd (combine ms ds)) = combine ms ds).
  { rewrite combine_map2. rewrite <- map_id. apply map_ext. intros [? ?]. reflexivity. }
  rewrite X in E. subst cs. split; [|split].
  - etransitivity; [apply combine_length|]. rewrite combine_length, <- Eb. apply Nat.min_id.
  - intros rl ->. congruence.
  - intros i m d r Hi. unfold channel in Hi. rewrite !combine_nth_error in Hi. destruct (nth_error ms i) as [m'|]; [|discriminate].
    destruct (nth_error ds i) as [d'|]; [|discriminate].
    match type of Hi with match ?q with _ => _ end = _ => destruct q as [r'|] eqn:Er; [|discriminate] end.
    inversion Hi; subst. split; [reflexivity|]. split; [reflexivity|]. destruct rs as [rl|]; [exact Er|].
    apply nth_error_In in Er. apply in_map_iff in Er. destruct Er as [? [Er _]]. auto.
Qed.
Lemma C29_l k (ms : list (model V)) ds rs ks o : length ms = length ds ->
  match rs with Some rl => length rl = length ms | None => True end ->
  exists l, new_loss k ms ds rs ks o = Ok l /\ length (l_chan l) = length ms
    /\ forall i m d r, nth_error (l_chan l) i = Some (m, d, r) <->
         nth_error ms i = Some m /\ nth_error ds i = Some d /\ match rs with Some rl => nth_error rl i = Some r | None => r = None /\ (i < length ms)%nat end.
Proof.
  intros L Lr. assert (E : exists l, new_loss k ms ds rs ks o = Ok l).
  { unfold new_loss, input_check. rewrite !map_length, !combine_length. rewrite <- L, Nat.min_id.
    assert (Y : length (match rs with Some rs0 => rs0 | None => map (fun _ => None) (combine ms ds) end) = length ms).
    { destruct rs as [rl|]; [exact Lr|]. rewrite map_length, combine_length, <- L. apply Nat.min_id. }
    rewrite Y, !Nat.eqb_refl. cbn [andb bind]. eexists. reflexivity. }
  destruct E as [l E]. exists l. split; [exact E|]. destruct (pairs_l _ _ _ _ _ _ _ E) as [P1 [_ P2]]. rewrite <- L, Nat.min_id in P1.
  split; [exact P1|]. intros i m d r. split.
  - intros H. assert (Hi : (i < length ms)%nat) by (rewrite <- P1; apply nth_error_Some; congruence).
    destruct (P2 _ _ _ _ H) as [A [B C]]. split; [exact A|]. split; [exact B|]. destruct rs; auto.
  - intros [A [B C]]. assert (Hi : (i < length (l_chan l))%nat) by (rewrite P1; apply nth_error_Some; congruence).
    destruct (nth_error (l_chan l) i) as [[[m' d'] r']|] eqn:En; [|apply nth_error_None in En; lia].
    destruct (P2 _ _ _ _ En) as [A' [B' C']]. assert (m' = m) by congruence. assert (d' = d) by congruence.
    assert (r' = r) by (destruct rs as [rl|]; [congruence|destruct C; congruence]). subst. reflexivity.
Qed.
End Values.
