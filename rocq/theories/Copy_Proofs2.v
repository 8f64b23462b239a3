(** More lemmas about copies of PDFs: each class. *)
From Verif Require Import Base BaseLemmas PGraph_Proofs Copy_Model Copy_Spec Copy_Proofs.
Open Scope string_scope.
Open Scope list_scope.

Lemma filter_update (f : string * arg -> bool) new kw :
  (forall k a, In k (keys new) -> f (k, a) = false) -> filter f (update kw new) = filter f kw.
Proof.
  unfold update. revert kw. induction new as [|[m a] new IH]; intros kw H; [reflexivity|].
  cbn [fold_left fst snd]. rewrite IH.
  - apply filter_put. intros b. apply H. now left.
  - intros k b I. apply H. now right.
Qed.

(** The override of [create_extended]. *)
Definition ov (n : option string) : kwargs := match n with Some s => [("name", AStr s)] | None => [] end.
Definition new_name (p : pdf) (n : option string) : string :=
  match n with Some s => s | None => p_name p end.
Definition func_arg (p : pdf) : option arg :=
  match p_cls p, p_ext p with
  | SimplePDF, Func f | SimpleFunctorPDF, Func f => Some (AFunc f)
  | _, _ => None
  end.
(** What the arguments of the copy are. *)
Definition arg_of (p : pdf) (n : option string) (k : string) : option arg :=
  if String.eqb k "name" then Some (AStr (new_name p n))
  else if String.eqb k "obs" then Some (ASpace (p_norm p))
  else if String.eqb k "yield" then None
  else if String.eqb k "func" then
         match func_arg p with Some a => Some a | None => get k (copy_args p) end
  else get k (copy_args p).

Definition special (c : cls) : bool :=
  match c with ConditionalPDF | Kde GaussianKDE1Dim => true | _ => false end.

Lemma copy_construct e p n :
  special (p_cls p) = false -> get "yield" (copy_args p) = None ->
  exists kw, copy e p (ov n) = construct e (p_cls p) kw
    /\ (forall k, get k kw = arg_of p n k)
    /\ (forall f : string * arg -> bool,
          (forall a, f ("obs", a) = false) -> (forall a, f ("name", a) = false) ->
          (forall a, f ("func", a) = false) ->
          filter f kw = filter f (copy_args p)).
Proof.
  intros S Y.
  set (o := match func_arg p with Some a => put "func" a (ov n) | None => ov n end).
  set (kw0 := update (update (copy_args p) [("obs", ASpace (p_norm p)); ("name", AStr (p_name p))]) o).
  assert (G : forall k, get k kw0 =
    if String.eqb k "name" then Some (AStr (new_name p n))
    else if String.eqb k "obs" then Some (ASpace (p_norm p))
    else if String.eqb k "func" then
         match func_arg p with Some a => Some a | None => get k (copy_args p) end
    else get k (copy_args p)).
  { intros k. unfold kw0. rewrite get_update.
    - rewrite get_update by (cbn; repeat constructor; cbn; intuition discriminate).
      unfold o, new_name. destruct (func_arg p), n; cbn [ov put pop filter app get lookup fst negb];
        cbn; destruct (String.eqb k "name") eqn:E1; destruct (String.eqb k "obs") eqn:E2;
        destruct (String.eqb k "func") eqn:E3; try reflexivity;
        repeat match goal with H : String.eqb _ _ = true |- _ => apply String.eqb_eq in H; subst end;
        try discriminate; reflexivity.
    - unfold o. destruct (func_arg p), n; cbn; repeat constructor; cbn; intuition discriminate. }
  exists (pop "yield" kw0). split; [|split].
  - unfold copy.
    assert (N : get_par "yield" kw0 = None) by (unfold get_par; rewrite G; cbn; now rewrite Y).
    assert (B : forall r : result pdf,
      (let* q := r in match get_par "yield" kw0 with Some y => set_yield q y | None => Ok q end) = r).
    { intros [q|er]; cbn; [now rewrite N|reflexivity]. }
    unfold kw0, o, func_arg in *.
    destruct (p_cls p) as [| | |[]| | | | | | |]; try discriminate S;
      destruct (p_ext p); apply B.
  - intros k. rewrite get_pop. unfold arg_of. destruct (String.eqb k "yield") eqn:E.
    + apply String.eqb_eq in E. subst. reflexivity.
    + apply G.
  - intros f F1 F2 F3.
    assert (PO : pop "yield" kw0 = kw0).
    { apply pop_none. rewrite G. cbn. exact Y. }
    rewrite PO. unfold kw0, o.
    rewrite !filter_update; [reflexivity| |].
    + intros k a [<-|[<-|[]]]; auto.
    + intros k a. destruct (func_arg p), n; cbn; intros H;
        repeat destruct H as [<-|H]; try destruct H; auto.
Qed.

(** The PDF that is built has the new name, no label of its own and no yield. *)
Definition copied (p : pdf) (n : option string) (ps : list (string * par)) (q : pdf) : Prop :=
  q = mkPdf (p_cls p) ps (p_ext p) (p_daughters p) (p_norm p) (p_norm p) (new_name p n) (new_name p n) None.

Lemma base_init_copied p n c ps x ds kw :
  (forall k, get k kw = arg_of p n k) ->
  get "norm" (copy_args p) = None -> get "label" (copy_args p) = None ->
  base_init c ps x ds (p_norm p) None kw
  = mkPdf c ps x ds (p_norm p) (p_norm p) (new_name p n) (new_name p n) None.
Proof.
  intros G A B. unfold base_init, get_str, get_space. rewrite !G. unfold arg_of. cbn. now rewrite A, B.
Qed.

(** ** Classes with an argument for each parameter *)
Definition pars_of (ps : list (string * par)) : kwargs := map (fun np => (fst np, APar (snd np))) ps.
Lemma get_pars_of k ps : get k (pars_of ps) = option_map APar (lookup String.eqb k ps).
Proof.
  unfold get, pars_of. induction ps as [|[m p] ps IH]; cbn; [reflexivity|]. destruct (String.eqb k m); auto.
Qed.
Lemma keys_pars_of ps : keys (pars_of ps) = map fst ps.
Proof. unfold keys, pars_of. rewrite map_map. reflexivity. Qed.
Lemma lookup_none k (ps : list (string * par)) : ~ In k (map fst ps) -> lookup String.eqb k ps = None.
Proof.
  intros H. pose proof (get_pars_of k ps) as G. assert (get k (pars_of ps) = None) as E.
  { apply get_none. now rewrite keys_pars_of. }
  rewrite E in G. destruct (lookup _ _ _); [discriminate|reflexivity].
Qed.

Lemma plain_args p k ps ex ds sp nm na la y :
  p = mkPdf (Plain k) ps ex ds sp nm na la y -> lookup String.eqb "lambda" ps = None ->
  copy_args p = pars_of ps.
Proof.
  intros -> L. unfold copy_args. cbn [p_cls p_ext p_params is_functor].
  fold (pars_of ps). rewrite get_pars_of, L. reflexivity.
Qed.

Lemma mapM_pairs (ps : list (string * par)) (g : string -> option par) :
  (forall n v, In (n, v) ps -> g n = Some v) ->
  mapM (fun na => match g (snd na) with Some p => Ok (fst na, p) | None => Err ValueError end)
    (map (fun np => (fst np, fst np)) ps) = Ok ps.
Proof.
  intros H. induction ps as [|[n v] ps IH]; cbn; [reflexivity|].
  rewrite (H n v) by now left. cbn. rewrite IH; [reflexivity|]. intros m w I. apply H. now right.
Qed.
Lemma lookup_nodup (ps : list (string * par)) n v :
  NoDup (map fst ps) -> In (n, v) ps -> lookup String.eqb n ps = Some v.
Proof.
  intros N I. induction ps as [|[m w] ps IH]; [destruct I|]. cbn in *. inversion N as [|? ? N1 N2]; subst.
  destruct I as [E|I].
  - injection E as -> ->. now rewrite String.eqb_refl.
  - destruct (String.eqb n m) eqn:E; [|auto]. apply String.eqb_eq in E. subst. exfalso. apply N1.
    apply in_map_iff. exists (m, v). auto.
Qed.

Lemma copy_plain e k ps ex ds sp nm na la y n :
  let p := mkPdf (Plain k) ps ex ds sp nm na la y in
  par_map k = map (fun np => (fst np, fst np)) ps -> plain_names (map fst ps) ->
  copy e p (ov n) = Ok (mkPdf (Plain k) ps NoExtra [] nm nm (new_name p n) (new_name p n) None).
Proof.
  intros p PM [ND R].
  assert (X : forall s, In s reserved -> lookup String.eqb s ps = None).
  { intros s I. apply lookup_none. intros J. exact (R s J I). }
  assert (A : copy_args p = pars_of ps).
  { eapply plain_args; [reflexivity|]. apply X. cbn; tauto. }
  assert (Z : forall s, In s reserved -> get s (copy_args p) = None).
  { intros s I. rewrite A, get_pars_of, X by auto. reflexivity. }
  destruct (copy_construct e p n eq_refl) as (kw & -> & G & _); [apply Z; cbn; tauto|].
  cbn [p_cls p]. unfold construct. rewrite check_call_ok.
  - cbn [bind]. unfold get_space at 1. rewrite (G "obs"). cbn [arg_of String.eqb].
    change (arg_of p n "obs") with (Some (ASpace nm)). cbv iota beta.
    assert (M : mapM (fun na0 => match get_par (snd na0) kw with
              | Some p0 => Ok (fst na0, p0) | None => Err ValueError end) (par_map k) = Ok ps).
    { rewrite PM. apply (mapM_pairs ps (fun s => get_par s kw)). intros m v I.
      unfold get_par. rewrite G. unfold arg_of.
      assert (Im : In m (map fst ps)) by (apply in_map_iff; exists (m, v); auto).
      assert (D : forall s, In s reserved -> String.eqb m s = false).
      { intros s J. apply String.eqb_neq. intros ->. exact (R s Im J). }
      rewrite !D by (cbn; tauto). rewrite A, get_pars_of, (lookup_nodup ps m v ND I). reflexivity. }
    rewrite M. cbn [bind].
    unfold given_yield, get_par. rewrite (G "extended").
    change (arg_of p n "extended") with (get "extended" (copy_args p)). rewrite (Z "extended") by (cbn; tauto).
    f_equal. apply (base_init_copied p n); [exact G|apply Z; cbn; tauto|apply Z; cbn; tauto].
  - right. intros m I. apply keys_get in I. rewrite G in I. unfold arg_of in I.
    assert (RQ : required (Plain k) = "obs" :: map fst ps).
    { cbn. rewrite PM, map_map. reflexivity. }
    rewrite RQ. destruct (String.eqb m "name") eqn:E1.
    { apply String.eqb_eq in E1. subst. apply in_or_app. right. cbn. tauto. }
    destruct (String.eqb m "obs") eqn:E2.
    { apply String.eqb_eq in E2. subst. apply in_or_app. left. now left. }
    destruct (String.eqb m "yield"); [congruence|].
    change (func_arg p) with (@None arg) in I. cbv iota in I.
    assert (I' : get m (copy_args p) <> None) by (destruct (String.eqb m "func"); auto).
    rewrite A in I'. apply keys_get in I'. rewrite keys_pars_of in I'.
    apply in_or_app. left. now right.
  - intros m I. apply keys_get. rewrite G. cbn in I. rewrite PM, map_map in I. cbn in I.
    unfold arg_of. destruct I as [<-|I]; [discriminate|].
    assert (D : forall s, In s reserved -> String.eqb m s = false).
    { intros s J. apply String.eqb_neq. intros ->. exact (R s I J). }
    rewrite !D by (cbn; tauto). rewrite A. apply keys_get. now rewrite keys_pars_of.
Qed.
