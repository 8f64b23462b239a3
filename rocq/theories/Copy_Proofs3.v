(** More lemmas about copies of PDFs: all classes together. *)
From Verif Require Import Base BaseLemmas PGraph_Proofs Copy_Model Copy_Spec Copy_Proofs Copy_Proofs2.
Open Scope string_scope.
Open Scope list_scope.

Definition the_copy (p : pdf) (n : option string) (ps : list (string * par)) : pdf :=
  mkPdf (p_cls p) ps (p_ext p) (p_daughters p) (p_norm p) (p_norm p) (new_name p n) (new_name p n) None.

Lemma copy_exponential e v ds sp nm na la y n :
  let p := mkPdf (Plain Exponential) [("lambda", v); ("lam", v)] NoExtra ds sp nm na la y in
  copy e p (ov n) = Ok (mkPdf (Plain Exponential) [("lambda", v); ("lam", v)] NoExtra [] nm nm
                          (new_name p n) (new_name p n) None).
Proof. intros p. destruct n; reflexivity. Qed.

Lemma copy_poly e k q cs b sp nm na la y n :
  let p := mkPdf (Poly k) (enumerate "c_" (Const q :: cs)) (Scaling b) [] sp nm na la y in
  copy e p (ov n) = Ok (mkPdf (Poly k) (enumerate "c_" (Const q :: cs)) (Scaling true) [] nm nm
                          (new_name p n) (new_name p n) None).
Proof.
  intros p.
  assert (A : copy_args p = [("coeff0", APar (Const q)); ("coeffs", APars cs)]).
  { unfold copy_args. cbn [p_cls p is_functor p_ext p_params].
    rewrite (enumerate_lookup "c_" (Const q :: cs) 0). cbn [nth_error].
    rewrite coefficients_enumerate; [reflexivity|].
    unfold enumerate. rewrite combine_length, map_length, seq_length. cbn [length]. lia. }
  unfold copy. cbn [p_cls p]. fold p. rewrite A. destruct n; reflexivity.
Qed.

Lemma copy_wrapdist e ps d sp nm na la y n :
  let p := mkPdf WrapDistribution ps (Dist d DMap 0) [] sp nm na la y in
  copy e p (ov n) = Ok (mkPdf WrapDistribution ps (Dist d DMap 0) [] nm nm
                          (new_name p n) (new_name p n) None).
Proof. intros p. destruct n; reflexivity. Qed.

Lemma copy_product e ps ds sp nm na la y n :
  let p := mkPdf ProductPDF ps NoExtra ds sp nm na la y in
  copy e p (ov n) = Ok (mkPdf ProductPDF [] NoExtra ds nm nm (new_name p n) (new_name p n) None).
Proof.
  intros p. destruct n; cbn; unfold the_pdfs; cbn; now rewrite !app_nil_r.
Qed.

Lemma copy_sfunctor e ps f ds sp nm na la y n :
  let p := mkPdf SimpleFunctorPDF ps (Func f) ds sp nm na la y in
  copy e p (ov n) = Ok (mkPdf SimpleFunctorPDF [] (Func f) ds nm nm (new_name p n) (new_name p n) None).
Proof.
  intros p. destruct n; cbn; unfold the_pdfs; cbn; now rewrite !app_nil_r.
Qed.

Lemma copy_sum e ps ds sp nm na la y n :
  let p := mkPdf SumPDF ps NoExtra ds sp nm na la y in
  let given := if is_extended p then map snd ps else drop_last (map snd ps) in
  given <> [] ->
  copy e p (ov n) =
  (let* fr := sum_fracs given ds in
   Ok (mkPdf SumPDF (enumerate "frac_" fr) NoExtra ds nm nm (new_name p n) (new_name p n) None)).
Proof.
  intros p given NE. subst given.
  assert (A : copy_args p = [("fracs", APars (if is_extended p then map snd ps else drop_last (map snd ps)));
                             ("pdfs", APdfs ds)]) by reflexivity.
  unfold copy. cbn [p_cls p]. fold p. rewrite A. clear A.
  set (given := if is_extended p then map snd ps else drop_last (map snd ps)) in *.
  assert (forall kw : kwargs, the_pdfs [("fracs", APars given); ("pdfs", APdfs ds); ("obs", ASpace nm)] = ds) as _.
  { intros _. unfold the_pdfs. cbn. now rewrite !app_nil_r. }
  destruct n; cbn; unfold the_pdfs; cbn; rewrite !app_nil_r;
    destruct (sum_fracs given ds) as [fr|er]; cbn; try reflexivity;
    unfold sum_yield; cbn; destruct given as [|g gs]; try contradiction; reflexivity.
Qed.

Lemma copy_simple e ps f sp nm na la y n :
  let p := mkPdf SimplePDF ps (Func f) [] sp nm na la y in
  plain_names (map fst ps) ->
  copy e p (ov n) = Ok (mkPdf SimplePDF ps (Func f) [] nm nm (new_name p n) (new_name p n) None).
Proof.
  intros p [ND R].
  assert (X : forall s, In s reserved -> lookup String.eqb s ps = None).
  { intros s I. apply lookup_none. intros J. exact (R s J I). }
  assert (A : copy_args p = pars_of ps).
  { unfold copy_args. cbn [p_cls p_ext p_params is_functor p]. fold (pars_of ps).
    rewrite get_pars_of, X by (cbn; tauto). reflexivity. }
  assert (Z : forall s, In s reserved -> get s (copy_args p) = None).
  { intros s I. rewrite A, get_pars_of, X by auto. reflexivity. }
  destruct (copy_construct e p n eq_refl) as (kw & -> & G & F); [apply Z; cbn; tauto|].
  cbn [p_cls p]. unfold construct. rewrite check_call_ok.
  - cbn [bind]. unfold get_space at 1. rewrite (G "obs").
    change (arg_of p n "obs") with (Some (ASpace nm)). cbv iota beta.
    rewrite F by reflexivity. rewrite A.
    assert (M : forall l : list (string * par), (forall m, In m (map fst l) -> ~ In m reserved) ->
      mapM (fun ka : string * arg => match snd ka with APar p0 => Ok (fst ka, p0) | _ => Err TypeError end)
        (filter (fun ka => negb (mem String.eqb (fst ka) (required SimplePDF ++ optional SimplePDF))) (pars_of l))
      = Ok l).
    { induction l as [|[m v] l IH]; intros H; [reflexivity|]. cbn [pars_of map filter fst snd].
      rewrite str_mem_false.
      - cbn [negb mapM fst snd bind]. unfold pars_of in IH. rewrite IH; [reflexivity|].
        intros k I. apply H. now right.
      - intros I. apply (H m); [now left|]. cbn in I. cbn. tauto. }
    rewrite M by exact R. cbn [bind].
    unfold get_func. rewrite (G "func"). change (arg_of p n "func") with (Some (AFunc f)).
    unfold given_yield, get_par. rewrite (G "extended").
    change (arg_of p n "extended") with (get "extended" (copy_args p)). rewrite (Z "extended") by (cbn; tauto).
    f_equal. apply (base_init_copied p n); [exact G|apply Z; cbn; tauto|apply Z; cbn; tauto].
  - now left.
  - intros m I. apply keys_get. rewrite G. cbn in I. destruct I as [<-|[<-|[]]]; cbn; discriminate.
Qed.

(** * What is constructed *)
Definition constructed (p : pdf) : Prop := exists e c kw, construct e c kw = Ok p.

Lemma mapM_names (k : list (string * string)) kw (ps : list (string * par)) :
  mapM (fun na => match get_par (snd na) kw with
                  | Some p => Ok (fst na, p) | None => Err ValueError end) k = Ok ps ->
  map fst ps = map fst k /\ Forall2 (fun na np => get_par (snd na) kw = Some (snd np)) k ps.
Proof.
  intros H. apply mapM_ok in H. induction H as [|[n a] np k ps E F [IH1 IH2]]; cbn; [auto|].
  cbn in E. destruct (get_par a kw) as [v|] eqn:G; [|discriminate]. injection E as <-. cbn.
  rewrite IH1. auto.
Qed.

Lemma constructed_plain e k kw p : construct e (Plain k) kw = Ok p ->
  p_cls p = Plain k /\ p_ext p = NoExtra /\ p_daughters p = []
  /\ map fst (p_params p) = map fst (par_map k)
  /\ Forall2 (fun na np => get_par (snd na) kw = Some (snd np)) (par_map k) (p_params p).
Proof.
  unfold construct. destruct (check_call _ kw) as [[]|]; [|discriminate]. cbn [bind].
  destruct (get_space "obs" kw) as [s|]; [|discriminate].
  destruct (mapM _ (par_map k)) as [ps|] eqn:M; [|discriminate]. cbn [bind]. intros H. injection H as <-.
  apply mapM_names in M. cbn. tauto.
Qed.
Lemma constructed_sum e kw p : construct e SumPDF kw = Ok p ->
  exists fr sp nm na la y, p = mkPdf SumPDF (enumerate "frac_" fr) NoExtra (the_pdfs kw) sp nm na la y
    /\ sum_fracs (get_pars "fracs" kw) (the_pdfs kw) = Ok fr
    /\ length fr = length (the_pdfs kw) /\ 2 <= length (the_pdfs kw).
Proof.
  unfold construct. destruct (check_call _ kw) as [[]|]; [|discriminate]. cbn [bind].
  destruct (sum_fracs _ _) as [fr|] eqn:E; [|discriminate]. cbn [bind].
  destruct (match get_space "obs" kw with Some s => Some s | None => of_pdfs (the_pdfs kw) end); [|discriminate].
  intros H. injection H as <-. unfold base_init. repeat eexists.
  - unfold sum_fracs in E. destruct (Nat.ltb _ 2) eqn:L; [discriminate|]. apply Nat.ltb_ge in L.
    destruct (get_pars "fracs" kw) as [|f fs] eqn:GF.
    + destruct (all_some _) as [ys|] eqn:A; [|discriminate]. injection E as <-. rewrite map_length.
      apply all_some_forall2 in A. apply Forall2_length' in A. now rewrite map_length in A.
    + destruct (Nat.eqb (length (f :: fs)) _) eqn:E1.
      * injection E as <-. apply Nat.eqb_eq in E1. cbn [app length] in *. rewrite app_length. cbn [length]. lia.
      * destruct (Nat.eqb (length (f :: fs)) _) eqn:E2 in E; [|discriminate]. injection E as <-.
        now apply Nat.eqb_eq in E2.
  - unfold sum_fracs in E. destruct (Nat.ltb _ 2) eqn:L; [discriminate|]. now apply Nat.ltb_ge in L.
Qed.

Lemma drop_last_app {A} (l : list A) : l <> [] -> exists x, l = drop_last l ++ [x].
Proof.
  intros N. destruct (exists_last N) as (r & x & ->). exists x. unfold drop_last.
  rewrite app_length. cbn. replace (length r + 1 - 1) with (length r) by lia.
  rewrite firstn_app, Nat.sub_diag, firstn_all. cbn. now rewrite app_nil_r.
Qed.
Lemma total_fr e fr : total e (enumerate "frac_" fr) = fold_right Qplus 0%Q (map (val e) fr).
Proof. unfold total. rewrite <- map_map with (f := snd) (g := val e). now rewrite enumerate_snd. Qed.
Lemma sum_snoc l (x : Q) : (fold_right Qplus 0 (l ++ [x]) == fold_right Qplus 0 l + x)%Q.
Proof. induction l as [|a l IH]; cbn [app fold_right]; [ring|]. rewrite IH. ring. Qed.

(** The main lemma. *)
Lemma builtin_names k : (forall l, k <> User l) -> k <> Exponential ->
  (forall n a, In (n, a) (par_map k) -> n = a) /\ plain_names (map fst (par_map k)).
Proof.
  intros NU NE. destruct k; try (exfalso; now apply NE); try (exfalso; eapply NU; reflexivity);
  (split; [cbn; intros n a H; repeat (destruct H as [E|H]; [injection E as <- <-; reflexivity|]); destruct H|];
   split; [cbn; repeat constructor; cbn; intuition discriminate|];
   cbn; intros n H I; repeat (destruct H as [<-|H]; [intuition discriminate|]); exact H).
Qed.
Lemma same_pairs (l : list (string * string)) (ps : list (string * par)) :
  (forall n a, In (n, a) l -> n = a) -> map fst ps = map fst l ->
  l = map (fun np => (fst np, fst np)) ps.
Proof.
  revert ps. induction l as [|[n a] l IH]; intros [|[m v] ps] H E; cbn in *; try discriminate; [reflexivity|].
  injection E as -> E. rewrite <- (H n a) by now left. f_equal. apply IH; auto.
Qed.

Lemma copy_ok e p n : constructed p -> copyable p ->
  exists q, copy e p (ov n) = Ok q
    /\ p_cls q = p_cls p /\ map fst (p_params q) = map fst (p_params p) /\ p_ext q = p_ext p
    /\ p_daughters q = p_daughters p /\ p_norm q = p_norm p /\ p_space q = p_norm p
    /\ p_name q = new_name p n /\ p_label q = new_name p n /\ p_yield q = None
    /\ same_density p q
    /\ (p_cls p <> SumPDF -> p_params q = p_params p).
Proof.
  intros (e0 & c & kw & H) C.
  assert (DONE : forall ps', copy e p (ov n) = Ok (the_copy p n ps') -> ps' = p_params p ->
    (used_space (the_copy p n ps') = used_space p) ->
    exists q, copy e p (ov n) = Ok q
    /\ p_cls q = p_cls p /\ map fst (p_params q) = map fst (p_params p) /\ p_ext q = p_ext p
    /\ p_daughters q = p_daughters p /\ p_norm q = p_norm p /\ p_space q = p_norm p
    /\ p_name q = new_name p n /\ p_label q = new_name p n /\ p_yield q = None
    /\ same_density p q
    /\ (p_cls p <> SumPDF -> p_params q = p_params p)).
  { intros ps' E -> U. eexists. split; [exact E|]. unfold the_copy in *. cbn. repeat split.
    now apply same_density_eq. }
  destruct c as [k|k| |k| | | | | |k|].
  - destruct (constructed_plain _ _ _ _ H) as (EC & EX & ED & EN & EF).
    destruct p as [c ps ex ds sp nm na la y]. cbn in EC, EX, ED, EN, EF. subst c ex ds.
    assert (K : (exists v, k = Exponential /\ ps = [("lambda", v); ("lam", v)])
      \/ (par_map k = map (fun np => (fst np, fst np)) ps /\ plain_names (map fst ps))).
    { assert (D : k = Exponential \/ (exists l, k = User l) \/ ((forall l, k <> User l) /\ k <> Exponential)).
      { destruct k; try (right; right; split; [intros l|]; discriminate); [now left|right; left; eauto]. }
      destruct D as [->|[(l & ->)|(NU & NE)]].
      - left. cbn in EF. inversion EF as [|? [n1 v1] ? r1 E1 F1]; subst.
        inversion F1 as [|? [n2 v2] ? r2 E2 F2]; subst. inversion F2; subst. cbn in *.
        rewrite E1 in E2. injection E2 as <-. injection EN as -> ->. eauto.
      - right. cbn in C, EN. destruct C as [C1 C2]. split.
        + cbn [par_map]. now apply same_pairs.
        + now rewrite EN.
      - right. destruct (builtin_names k NU NE) as [B1 B2]. split.
        + now apply same_pairs.
        + now rewrite EN. }
    destruct K as [(v & -> & ->)|(K1 & K2)].
    + apply (DONE [("lambda", v); ("lam", v)]); [|reflexivity|reflexivity]. apply copy_exponential.
    + apply (DONE ps); [|reflexivity|reflexivity]. now apply copy_plain.
  - unfold construct in H. destruct (check_call _ kw) as [[]|]; [|discriminate]. cbn [bind] in H.
    destruct (get_space "obs" kw) as [s|]; [|discriminate]. injection H as <-.
    unfold copyable in C. cbn [p_cls base_init] in C. destruct C as [C1 C2].
    cbn [p_ext p_norm p_space base_init] in C1, C2. injection C1 as C1.
    assert (Q : exists q, (match get_par "coeff0" kw with Some p => Const (val e0 p) | None => Const 1 end)
                          = Const q) by (destruct (get_par "coeff0" kw); eauto).
    destruct Q as (q & Q). rewrite Q in *.
    eapply DONE.
    + unfold base_init. rewrite copy_poly. unfold the_copy. cbn [p_cls p_ext p_daughters p_norm].
      rewrite C1. reflexivity.
    + reflexivity.
    + unfold used_space, the_copy. cbn [p_cls p_ext base_init p_space p_norm]. rewrite C1. cbn. now rewrite C2.
  - unfold construct in H. destruct (check_call _ kw) as [[]|]; [|discriminate]. cbn [bind] in H.
    destruct (get_space "obs" kw) as [s|]; [|discriminate]. injection H as <-. destruct C.
  - unfold construct in H. destruct (check_call _ kw) as [[]|]; [|discriminate]. cbn [bind] in H.
    destruct (get_space "obs" kw) as [s|]; [|discriminate]. injection H as <-. destruct C.
  - unfold construct in H. destruct (check_call _ kw) as [[]|]; [|discriminate]. cbn [bind] in H.
    destruct (get_space "obs" kw) as [s|]; [|discriminate].
    destruct (get "dist_params" kw) as [[| | | | | |f|l|]|]; try discriminate;
      destruct (get "params" kw) as [[| | | | | |g|l'|]|]; try discriminate; injection H as <-.
    + destruct C as (d & C). cbn in C. discriminate.
    + destruct C as (d & C). cbn in C. injection C as C1 C2.
      eapply DONE.
      * unfold base_init. rewrite C2. rewrite copy_wrapdist. unfold the_copy. cbn [p_cls p_ext p_daughters p_norm]. reflexivity.
      * reflexivity.
      * reflexivity.
  - unfold construct in H. destruct (check_call _ kw) as [[]|]; [|discriminate]. cbn [bind] in H.
    destruct (get_space "obs" kw) as [s|]; [|discriminate].
    destruct (mapM _ _) as [ps|]; [|discriminate]. cbn [bind] in H. injection H as <-.
    unfold copyable in C. cbn [p_cls base_init p_params] in C.
    eapply DONE.
    + unfold base_init. rewrite copy_simple by exact C. reflexivity.
    + reflexivity.
    + reflexivity.
  - destruct (constructed_sum _ _ _ H) as (fr & sp & nm & na & la & y & -> & SF & LF & L2).
    unfold copyable in C. cbn [p_cls p_params] in C.
    set (p := mkPdf SumPDF (enumerate "frac_" fr) NoExtra (the_pdfs kw) sp nm na la y) in *.
    assert (NE : fr <> []) by (intros ->; cbn in LF; lia).
    assert (SFR : exists fr', sum_fracs (if is_extended p then map snd (enumerate "frac_" fr)
                                        else drop_last (map snd (enumerate "frac_" fr))) (the_pdfs kw) = Ok fr'
                  /\ (if is_extended p then map snd (enumerate "frac_" fr)
                                        else drop_last (map snd (enumerate "frac_" fr))) <> []
                  /\ length fr' = length fr
                  /\ forall e, Forall2 Qeq (map (val e) fr') (map (val e) fr)).
    { rewrite enumerate_snd. destruct (is_extended p) eqn:X.
      - exists fr. split; [|split; [exact NE|split; [reflexivity|]]].
        + unfold sum_fracs. assert (Nat.ltb (length (the_pdfs kw)) 2 = false) as -> by now apply Nat.ltb_ge.
          destruct fr as [|f fs]; [contradiction|].
          assert (Nat.eqb (length (f :: fs)) (length (the_pdfs kw) - 1) = false) as -> by (apply Nat.eqb_neq; lia).
          now rewrite LF, Nat.eqb_refl.
        + intros e'. clear. induction fr; cbn; constructor; auto. reflexivity.
      - destruct C as [C|C]; [discriminate|].
        destruct (drop_last_app fr NE) as (x & EX). set (d := drop_last fr) in *.
        assert (LD : length d = length (the_pdfs kw) - 1).
        { rewrite <- LF. rewrite EX at 1. rewrite app_length. cbn. lia. }
        assert (ND : d <> []) by (intros E; rewrite E in LD; cbn in LD; lia).
        exists (d ++ [Rest d]). split; [|split; [exact ND|split]].
        + unfold sum_fracs. assert (Nat.ltb (length (the_pdfs kw)) 2 = false) as -> by now apply Nat.ltb_ge.
          destruct d as [|f fs]; [contradiction|]. rewrite LD, Nat.eqb_refl. reflexivity.
        + rewrite EX at 1. now rewrite !app_length.
        + intros e'. specialize (C e'). rewrite total_fr in C. rewrite EX in C |- *.
          rewrite !map_app in *. cbn [map] in *. apply Forall2_app.
          * clear. induction d; cbn; constructor; auto. reflexivity.
          * constructor; [|constructor]. rewrite sum_snoc in C. cbn [val]. rewrite <- C. ring. }
    destruct SFR as (fr' & S1 & S2 & S3 & S4).
    exists (mkPdf SumPDF (enumerate "frac_" fr') NoExtra (the_pdfs kw) nm nm (new_name p n) (new_name p n) None).
    split; [|cbn; split; [reflexivity|]].
    + unfold p. rewrite copy_sum by exact S2. fold p. rewrite S1. reflexivity.
    + assert (NM : map fst (enumerate "frac_" fr') = map fst (enumerate "frac_" fr)).
      { unfold enumerate. rewrite S3.
        assert (W : forall (ns : list string) (l : list par), length l = length ns -> map fst (combine ns l) = ns).
        { induction ns as [|m ns IH]; intros [|q l] E; cbn in *; try discriminate; [reflexivity|].
          now rewrite IH by lia. }
        rewrite !W; rewrite ?map_length, ?seq_length; auto. }
      rewrite NM. do 7 (split; [reflexivity|]). split; [reflexivity|]. split.
      * apply same_density_sum. intros e'. specialize (S4 e').
        rewrite <- !map_map with (f := snd) (g := val e'). rewrite !enumerate_snd. exact S4.
      * intros N. now contradiction N.
  - unfold construct in H. destruct (check_call _ kw) as [[]|]; [|discriminate]. cbn [bind] in H.
    destruct (match get_space "obs" kw with Some s => Some s | None => of_pdfs (the_pdfs kw) end); [|discriminate].
    injection H as <-. eapply DONE.
    + unfold base_init. rewrite copy_product. reflexivity.
    + reflexivity.
    + reflexivity.
  - unfold construct in H. destruct (check_call _ kw) as [[]|]; [|discriminate]. cbn [bind] in H.
    destruct (get_space "obs" kw) as [s|]; [|discriminate].
    destruct (mapM _ _) as [ps|]; [|discriminate]. cbn [bind] in H. injection H as <-.
    unfold copyable in C. cbn [p_cls base_init p_params] in C. subst ps.
    eapply DONE.
    + unfold base_init. rewrite copy_sfunctor. reflexivity.
    + reflexivity.
    + reflexivity.
  - unfold construct in H. destruct (check_call _ kw) as [[]|]; [|discriminate]. cbn [bind] in H.
    destruct (match get_space "obs" kw with Some s => Some s | None => of_pdfs (the_pdfs kw) end); [|discriminate].
    injection H as <-. destruct C.
  - unfold construct in H. destruct (check_call _ kw) as [[]|]; [|discriminate]. cbn [bind] in H.
    destruct (match get_space "obs" kw with Some s => Some s | None => of_pdfs (the_pdfs kw) end); [|discriminate].
    injection H as <-. destruct C.
Qed.
