(** Lemmas about copies of PDFs. *)
From Verif Require Import Base BaseLemmas Copy_Model Copy_Spec.
Open Scope string_scope.
Open Scope list_scope.

Lemma str_mem n l : mem String.eqb n l = true <-> In n l.
Proof. apply (mem_In _ string_eqb_ok). Qed.
Lemma str_mem_false n l : ~ In n l -> mem String.eqb n l = false.
Proof. intros H. destruct (mem _ _ _) eqn:E; [|reflexivity]. apply str_mem in E. contradiction. Qed.
Lemma str_subset a b : subsetb String.eqb a b = true <-> incl a b.
Proof.
  unfold subsetb. rewrite forallb_forall. unfold incl. split; intros H n I; specialize (H n I);
    now apply str_mem.
Qed.

(** * Dictionaries *)
Definition keys (kw : kwargs) : list string := map fst kw.
Lemma get_none k kw : get k kw = None <-> ~ In k (keys kw).
Proof.
  unfold get, keys. induction kw as [|[m a] kw IH]; cbn; [tauto|].
  destruct (String.eqb k m) eqn:E.
  - apply String.eqb_eq in E. subst. split; [discriminate|]. intros H. exfalso. auto.
  - apply String.eqb_neq in E. rewrite IH. split; [intros H [->|I]; auto|intros H I; apply H; auto].
Qed.
Lemma get_app k a b : get k (a ++ b) = match get k a with Some x => Some x | None => get k b end.
Proof.
  unfold get. induction a as [|[m x] a IH]; cbn; [reflexivity|]. destruct (String.eqb k m); auto.
Qed.
Lemma get_pop k m kw : get k (pop m kw) = if String.eqb k m then None else get k kw.
Proof.
  unfold get, pop. induction kw as [|[n x] kw IH]; cbn; [now destruct (String.eqb k m)|].
  destruct (String.eqb m n) eqn:E; cbn.
  - rewrite IH. apply String.eqb_eq in E. subst. now destruct (String.eqb k n).
  - rewrite IH. destruct (String.eqb k n) eqn:F; [|reflexivity].
    apply String.eqb_eq in F. subst. apply String.eqb_neq in E.
    assert (String.eqb n m = false) as -> by (apply String.eqb_neq; congruence). reflexivity.
Qed.
Lemma get_put k m a kw : get k (put m a kw) = if String.eqb k m then Some a else get k kw.
Proof.
  unfold put. rewrite get_app, get_pop. destruct (String.eqb k m) eqn:E.
  - cbn. now rewrite E.
  - destruct (get k kw) eqn:G; [reflexivity|]. cbn. now rewrite E.
Qed.
Lemma keys_get k kw : In k (keys kw) <-> get k kw <> None.
Proof.
  pose proof (get_none k kw) as G. split.
  - intros I E. now apply G in E.
  - intros N. destruct (in_dec string_dec k (keys kw)); [auto|]. apply G in n. contradiction.
Qed.
Lemma get_update k kw new :
  NoDup (keys new) ->
  get k (update kw new) = match get k new with Some a => Some a | None => get k kw end.
Proof.
  unfold update. revert kw. induction new as [|[m a] new IH]; intros kw N; [reflexivity|].
  cbn [fold_left fst snd]. inversion N as [|? ? N1 N2]; subst. rewrite IH by auto. rewrite get_put.
  cbn. destruct (String.eqb k m) eqn:E; [|reflexivity].
  apply String.eqb_eq in E. subst. apply get_none in N1. now rewrite N1.
Qed.

(** The filter that finds the parameters of a simple PDF. *)
Lemma pop_none k kw : get k kw = None -> pop k kw = kw.
Proof.
  unfold get, pop. induction kw as [|[m a] kw IH]; cbn; [reflexivity|].
  destruct (String.eqb k m); [discriminate|]. intros H. cbn. now rewrite IH.
Qed.
Lemma filter_pop (f : string * arg -> bool) k kw :
  (forall a, f (k, a) = false) -> filter f (pop k kw) = filter f kw.
Proof.
  intros H. unfold pop. induction kw as [|[m a] kw IH]; cbn; [reflexivity|].
  destruct (String.eqb k m) eqn:E; cbn.
  - apply String.eqb_eq in E. subst. now rewrite H.
  - now rewrite IH.
Qed.
Lemma filter_put (f : string * arg -> bool) k a kw :
  (forall a, f (k, a) = false) -> filter f (put k a kw) = filter f kw.
Proof.
  intros H. unfold put. rewrite filter_app, filter_pop by auto. cbn. rewrite H. apply app_nil_r.
Qed.

(** * The call of a class *)
Lemma check_call_ok c kw :
  (any_other c = true \/ forall k, In k (keys kw) -> In k (required c ++ optional c)) ->
  (forall k, In k (required c) -> In k (keys kw)) ->
  check_call c kw = Ok tt.
Proof.
  intros A R. unfold check_call.
  assert (negb (any_other c) && negb (subsetb String.eqb (map fst kw) (required c ++ optional c)) = false) as ->.
  { destruct A as [->|A]; [reflexivity|]. apply str_subset in A. unfold keys in A. rewrite A. apply andb_false_r. }
  apply str_subset in R. unfold keys in R. now rewrite R.
Qed.
Lemma check_call_missing c kw k : In k (required c) -> ~ In k (keys kw) -> check_call c kw = Err TypeError.
Proof.
  intros I N. unfold check_call. destruct (_ && _); [reflexivity|].
  destruct (subsetb _ (required c) _) eqn:E; [|reflexivity]. apply str_subset in E. now apply E in I.
Qed.
Lemma check_call_unexpected c kw k : any_other c = false ->
  In k (keys kw) -> ~ In k (required c ++ optional c) -> check_call c kw = Err TypeError.
Proof.
  intros A I N. unfold check_call. rewrite A. cbn [negb andb].
  destruct (subsetb _ _ (required c ++ optional c)) eqn:E; [|reflexivity].
  apply str_subset in E. now apply E in I.
Qed.

(** * Enumerated names *)
Lemma tally_length n : String.length (tally n) = n.
Proof. induction n; cbn; auto. Qed.
Lemma append_length a b : String.length (a ++ b)%string = String.length a + String.length b.
Proof. induction a; cbn; auto. Qed.
Lemma numbered_inj pre n m : numbered pre n = numbered pre m -> n = m.
Proof.
  intros H. apply (f_equal String.length) in H. unfold numbered in H.
  rewrite !append_length, !tally_length in H. lia.
Qed.
Lemma enumerate_snd pre l : map snd (enumerate pre l) = l.
Proof.
  unfold enumerate. generalize 0. induction l as [|p l IH]; intros n; cbn; [reflexivity|]. now rewrite IH.
Qed.
Definition enum_from pre i (l : list par) : list (string * par) :=
  combine (map (numbered pre) (seq i (length l))) l.
Lemma enum_from_lookup pre l i k :
  lookup String.eqb (numbered pre k) (enum_from pre i l) =
  (if Nat.ltb k i then None else nth_error l (k - i)).
Proof.
  unfold enum_from. revert i. induction l as [|p l IH]; intros i; cbn [length seq map combine lookup].
  - destruct (Nat.ltb k i); [reflexivity|]. now destruct (k - i).
  - destruct (String.eqb (numbered pre k) (numbered pre i)) eqn:E.
    + apply String.eqb_eq in E. apply numbered_inj in E. subst.
      rewrite Nat.ltb_irrefl, Nat.sub_diag. reflexivity.
    + apply String.eqb_neq in E. assert (k <> i) by congruence.
      rewrite IH. destruct (Nat.ltb k i) eqn:L.
      * apply Nat.ltb_lt in L. assert (Nat.ltb k (S i) = true) as -> by (apply Nat.ltb_lt; lia). reflexivity.
      * apply Nat.ltb_ge in L. assert (Nat.ltb k (S i) = false) as -> by (apply Nat.ltb_ge; lia).
        replace (k - i) with (S (k - S i)) by lia. reflexivity.
Qed.
Lemma enumerate_lookup pre l k : lookup String.eqb (numbered pre k) (enumerate pre l) = nth_error l k.
Proof. change (enumerate pre l) with (enum_from pre 0 l). rewrite enum_from_lookup. cbn. now rewrite Nat.sub_0_r. Qed.
Lemma coefficients_enumerate l fuel i :
  length l <= fuel + i -> coefficients fuel i (enumerate "c_" l) = skipn i l.
Proof.
  revert i. induction fuel as [|f IH]; intros i H; cbn [coefficients].
  - rewrite skipn_all2 by lia. reflexivity.
  - rewrite enumerate_lookup. destruct (nth_error l i) as [p|] eqn:E.
    + rewrite IH by lia. assert (i < length l) by (apply nth_error_Some; congruence).
      clear - E. revert l E. induction i as [|i IHi]; intros [|q l] E; cbn in *; try discriminate.
      * injection E as ->. reflexivity.
      * now apply IHi.
    + apply nth_error_None in E. now rewrite skipn_all2.
Qed.

(** * Equal densities *)
Lemma density_eq sh fsh int e p q normed x :
  p_cls q = p_cls p -> p_params q = p_params p -> p_ext q = p_ext p ->
  p_daughters q = p_daughters p -> p_norm q = p_norm p -> used_space q = used_space p ->
  density sh fsh int e q normed x = density sh fsh int e p normed x.
Proof.
  destruct p as [c ps ex ds sp nm na la y], q as [c' ps' ex' ds' sp' nm' na' la' y'].
  cbn [p_cls p_params p_ext p_daughters p_norm]. intros -> -> -> -> -> U.
  cbn [density]. now rewrite U.
Qed.
Lemma same_density_eq p q :
  p_cls q = p_cls p -> p_params q = p_params p -> p_ext q = p_ext p ->
  p_daughters q = p_daughters p -> p_norm q = p_norm p -> used_space q = used_space p ->
  same_density p q.
Proof. intros * ? ? ? ? ? ? sh fsh int _ e n x. now rewrite (density_eq sh fsh int e p q). Qed.

Lemma sum_combine_ext ds vs ws (x : Q) :
  Forall2 Qeq vs ws ->
  (sumQ (map (fun df => (snd df * fst df x)%Q) (combine ds vs))
   == sumQ (map (fun df => (snd df * fst df x)%Q) (combine (ds : list (Q -> Q)) ws)))%Q.
Proof.
  intros F. revert ds. induction F as [|v w vs ws E F IH]; intros [|d ds]; cbn; try reflexivity.
  rewrite E. now rewrite IH.
Qed.
Lemma same_density_sum ps ps' ex ex' ds sp sp' nm na na' la la' y y' :
  (forall e, Forall2 Qeq (map (fun np => val e (snd np)) ps') (map (fun np => val e (snd np)) ps)) ->
  same_density (mkPdf SumPDF ps ex ds sp nm na la y) (mkPdf SumPDF ps' ex' ds sp' nm na' la' y').
Proof.
  intros F sh fsh int I e normed x. cbn [density].
  assert (G : forall z,
    (sumQ (map (fun df => snd df * fst df z)
       (combine (map (fun d => density sh fsh int e d true) ds)
          (map snd (map (fun np => (fst np, val e (snd np))) ps'))))
     == sumQ (map (fun df => snd df * fst df z)
       (combine (map (fun d => density sh fsh int e d true) ds)
          (map snd (map (fun np => (fst np, val e (snd np))) ps)))))%Q).
  { intros z. apply sum_combine_ext. rewrite !map_map. cbn [snd]. apply F. }
  destruct (normed && _).
  - rewrite (G x). apply Qdiv_comp; [reflexivity|]. apply I. exact G.
  - apply G.
Qed.
