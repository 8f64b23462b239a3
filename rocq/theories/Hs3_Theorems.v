(** C79: what is dumped is loaded again. *)
From Coq Require Import Permutation QArith.
From Verif Require Import Base BaseLemmas PGraph_Proofs Param_Model Hs3_Model Hs3_Spec Hs3_Proofs Hs3_Proofs2 Hs3_Proofs3 Hs3_Proofs4.
#[local] Open Scope string_scope.
#[local] Open Scope list_scope.

Section Statements.
Variable src : source.
Hypothesis DN : distinct_names src.
Hypothesis ON : ordinary_names src.
Hypothesis OO : ordinary_objects src.
Hypothesis PP : parameters_in_pdfs src.
Hypothesis ONE : one_per_name src.
Hypothesis NC : no_clash src.
Hypothesis SF : spaces_fine src.
Hypothesis SV : all_survive src.

(** Loading what was dumped with parameters that exist already: every object is there, under its
    name and in its place, and is the same; every parameter that is one of the existing ones is that
    one, and every other one is as it was dumped. No other parameters are made. Missing (see the
    counterexamples): fixed parameters, labels of composed ones, parameters that are not in a PDF,
    and equal names. *)
Theorem C79_reuse_partial address reuse : exists r, snd (loads reuse (dumps address src)) = Ok r /\
  r_data r = map (fun no => (fst no, same_obj (snd no))) (s_data src) /\
  r_constraints r = map (fun no => (fst no, same_obj (snd no))) (s_constraints src) /\
  r_distributions r = map (fun m => (m_name m, same_obj (m_obj m))) (s_pdfs src) /\
  r_loss r = map (fun no => (fst no, same_obj (snd no))) (s_loss src) /\
  (forall n o, In (n, o) (r_vars r) <-> (exists p, In p (parameters src) /\ par_name p = n) /\ o = LPar n) /\
  (forall p, In p (flat_map parts (parameters src)) ->
     lookup String.eqb (par_name p) (r_table r) = Some (match lookup String.eqb (par_name p) reuse with Some q => q | None => same_par p end)) /\
  (forall n, (forall p, In p (flat_map parts (parameters src)) -> par_name p <> n) -> lookup String.eqb n (r_table r) = lookup String.eqb n reuse).
Proof.
  destruct (loaded_all src address reuse DN ON OO PP ONE NC SF SV) as (st&E&F&H). eexists. split; [exact E|].
  cbn [r_data r_constraints r_distributions r_loss r_vars r_table]. do 4 (split; [reflexivity|]). destruct F as [M F]. split; [|split].
  - intros n o. unfold R2. rewrite map_map. cbn [fst]. rewrite in_map_iff. rewrite <- (R_par src ONE NC SF). rewrite in_map_iff. split.
    + intros ([k t]&X&Y). cbn in X. injection X as <- <-. split; [|reflexivity]. exists (k, t). auto.
    + intros ((kt&X&Y)&->). exists kt. subst n. auto.
  - intros p P. assert (HL : held st (par_name p)) by (apply in_flat_map in P; destruct P as (q&Q&P); exact (H q Q p P)).
    destruct HL as (c&C). rewrite C. f_equal. destruct (F _ _ C) as [X|(X&q&Q&N&->)]; rewrite X; [reflexivity|].
    f_equal. apply ONE; auto.
  - intros n N. destruct (lookup String.eqb n st) as [c|] eqn:C.
    + destruct (F _ _ C) as [X|(X&q&Q&Y&_)]; [now rewrite X|]. exfalso. exact (N q Q Y).
    + destruct (lookup String.eqb n reuse) eqn:X; [|reflexivity]. rewrite (M _ _ X) in C. discriminate.
Qed.

(** Without existing ones every parameter is as it was dumped, and these are all. *)
Theorem C79_round_trip_partial address : exists r, snd (loads [] (dumps address src)) = Ok r /\
  r_data r = map (fun no => (fst no, same_obj (snd no))) (s_data src) /\
  r_constraints r = map (fun no => (fst no, same_obj (snd no))) (s_constraints src) /\
  r_distributions r = map (fun m => (m_name m, same_obj (m_obj m))) (s_pdfs src) /\
  r_loss r = map (fun no => (fst no, same_obj (snd no))) (s_loss src) /\
  (forall n c, lookup String.eqb n (r_table r) = Some c <-> exists p, In p (flat_map parts (parameters src)) /\ par_name p = n /\ c = same_par p).
Proof.
  destruct (C79_reuse_partial address []) as (r&E&A&B&C&D&_&T&O). exists r. do 5 (split; [assumption|]). intros n c. split.
  - intros L. destruct (in_dec string_dec n (map par_name (flat_map parts (parameters src)))) as [I|I].
    + apply in_map_iff in I. destruct I as (p&<-&I). exists p. rewrite (T p I) in L. cbn in L. injection L as <-. auto.
    + rewrite O in L; [discriminate|]. intros p P X. apply I. apply in_map_iff. eauto.
  - intros (p&P&<-&->). rewrite (T p P). reflexivity.
Qed.

(** The document is the same wherever objects are in memory. *)
Theorem C79_deterministic_partial address address' : dumps address src = dumps address' src.
Proof. rewrite !(dumped _ _ DN). reflexivity. Qed.
End Statements.

(** ** Loading changes its argument, and then no more: loading it again gives the same *)

Lemma set_type_has k v d : k <> "type" -> get k (dict_set "type" v d) = get k d.
Proof. intros N. unfold get. apply dict_set_other. auto. Qed.
Lemma set_set {A} k (v : A) d : dict_set k v (dict_set k v d) = dict_set k v d.
Proof.
  induction d as [|[a b] d IH]; cbn; [now rewrite String.eqb_refl|]. destruct (String.eqb k a) eqn:E; cbn; rewrite E; [reflexivity|now rewrite IH].
Qed.
Lemma typed_entry_again t u : In u (typed_entry t) -> typed_entry u = [u].
Proof.
  destruct t; try (intros []; fail). cbn [typed_entry]. destruct (has "value" d) eqn:HV.
  - intros [<-|[]]. cbn [typed_entry]. unfold has in *. rewrite !set_type_has by discriminate. destruct (get "value" d); [|discriminate]. now rewrite set_set.
  - destruct (has "func" d) eqn:HF; [|intros []]. intros [<-|[]]. cbn [typed_entry]. unfold has in *. rewrite !set_type_has by discriminate.
    destruct (get "value" d); [discriminate|]. destruct (get "func" d); [|discriminate]. now rewrite set_set.
Qed.
Lemma retype_again v : retype (retype v) = retype v.
Proof.
  rewrite !retype_entries. induction v as [|[k t] v IH]; [reflexivity|]. cbn [flat_map fst snd]. rewrite flat_map_app, IH. f_equal.
  pose proof (typed_entry_again t) as H. induction (typed_entry t) as [|u l IHl]; [reflexivity|]. cbn [map flat_map fst snd]. rewrite H by now left. cbn [map app].
  f_equal. apply IHl. intros w W. apply H. now right.
Qed.

(** Loading a document again, also after the first time changed it, gives the same. *)
Theorem C79_load_again reuse D : loads reuse (fst (loads reuse D)) = loads reuse D.
Proof. unfold loads. cbn [fst d_vars d_data d_constraints d_distributions d_loss]. rewrite retype_again. reflexivity. Qed.

(** What loading does to its argument: only variables change, and of these the ones with neither a
    value nor a function are gone and the others have a type. *)
Theorem C79_argument reuse D :
  let D' := fst (loads reuse D) in
  d_data D' = d_data D /\ d_constraints D' = d_constraints D /\ d_distributions D' = d_distributions D /\ d_loss D' = d_loss D /\
  forall n t, In (n, t) (d_vars D') <-> exists d, In (n, TDict d) (d_vars D) /\
    (get "value" d <> None /\ t = TDict (dict_set "type" (TStr (if tree_is (get "floating" d) (TBool false) then "ConstantParameter" else "Parameter")) d) \/
     get "value" d = None /\ get "func" d <> None /\ t = TDict (dict_set "type" (TStr "ComposedParameter") d)).
Proof.
  cbn. do 4 (split; [reflexivity|]). intros n t. rewrite retype_entries, in_flat_map. split.
  - intros ([k u]&K&X). cbn [fst snd] in X. apply in_map_iff in X. destruct X as (w&X&W). injection X as <- <-. destruct u; cbn [typed_entry] in W; try contradiction.
    exists d. split; [exact K|]. unfold has in W. destruct (get "value" d); [destruct W as [<-|[]]; left; split; [discriminate|reflexivity]|].
    destruct (get "func" d); [|contradiction]. destruct W as [<-|[]]. right. split; [reflexivity|]. split; [discriminate|reflexivity].
  - intros (d&I&H). exists (n, TDict d). split; [exact I|]. cbn [fst snd typed_entry]. unfold has. destruct H as [(V&->)|(V&F&->)].
    + destruct (get "value" d); [|congruence]. now left.
    + rewrite V. destruct (get "func" d); [|congruence]. now left.
Qed.

(** ** A model that can be dumped and loaded *)
Definition mu := PFree "mu" (Fin 1) (Fin 0) (Fin 2) (Fin (1#100)) true None.
Definition sigma := PConst "sigma" (Fin 3) (Some "width").
Definition twice := PComp "twice" "f" (Some true) [("0", mu); ("1", sigma)] [mu; sigma] None.
Definition space_x := ODict [("type", OStr "Space"); ("name", OStr "x"); ("min", ONum (Fin 0)); ("max", ONum (Fin 5))].
Definition gauss name (m s : par) := ODict [("type", OStr "Gauss"); ("name", OStr name); ("x", OStr "x"); ("mu", OPar m); ("sigma", OPar s)].
Definition pdf1 := Mpdf "g1" (gauss "g1" mu sigma) [mu; sigma] [("x", space_x)].
Definition pdf2 := Mpdf "g2" (gauss "g2" twice sigma) [twice; mu; sigma] [("x", space_x)].
Definition model1 := Source [pdf1; pdf2] [("data", ODict [("type", OStr "Data"); ("data", OArr 7)])]
  [("c", ODict [("type", OStr "GaussConstraint"); ("params", OList [OPar mu]); ("sigma", ONum (Fin 1))])]
  [("nll", ODict [("type", OStr "UnbinnedNLL"); ("model", OList [gauss "g1" mu sigma])])].

Ltac each := repeat match goal with H : _ \/ _ |- _ => destruct H | H : False |- _ => destruct H | H : (_, _) = (_, _) |- _ => injection H; clear H; intros; subst | H : _ = ?x |- _ => subst x end.
Example C79_met : distinct_names model1 /\ ordinary_names model1 /\ ordinary_objects model1 /\ parameters_in_pdfs model1 /\ one_per_name model1 /\
  no_clash model1 /\ spaces_fine model1 /\ all_survive model1.
Proof.
  split; [repeat split; cbn; repeat constructor; cbn; intuition discriminate|].
  split; [intros n o I; cbn in I; each; repeat split; discriminate|].
  split; [intros n o I; cbn in I; each; cbn; repeat split; try discriminate; eauto|].
  split; [intros n o p I P; cbn in I; each; cbn in P; each; cbn; tauto|].
  split; [intros p q P Q E; cbn in P, Q; each; try reflexivity; discriminate|].
  split; [split; [intros n o s p I S P; cbn in I; each; cbn in S, P; each; discriminate|intros m s p M S P; cbn in M; each; cbn in S, P; each; discriminate]|].
  split; [intros m s M S; cbn in M; each; cbn in S; each; cbn; auto|].
  intros p P; cbn in P; each; cbn; auto.
Qed.
Example C79_round_trip_example : match snd (loads [] (dumps (fun _ _ => "at 1") model1)) with
  | Ok r => r_table r = [("mu", LFree (Fin 1) (Some (Fin 0)) (Some (Fin 2)) (Some (Fin (1#100))) true "mu"); ("sigma", LConst (Fin 3) "width");
                         ("twice", LComp "f" (Some true) ["mu"; "sigma"] "twice")] /\
            map fst (r_distributions r) = ["g1"; "g2"] /\ r_vars r = [("mu", LPar "mu"); ("sigma", LPar "sigma"); ("twice", LPar "twice")]
  | Err _ => False
  end.
Proof. vm_compute. repeat split. Qed.
Example C79_reuse_example : match snd (loads [("mu", LConst (Fin 9) "other")] (dumps (fun _ _ => "at 1") model1)) with
  | Ok r => r_table r = [("mu", LConst (Fin 9) "other"); ("sigma", LConst (Fin 3) "width"); ("twice", LComp "f" (Some true) ["mu"; "sigma"] "twice")]
  | Err _ => False
  end.
Proof. vm_compute. reflexivity. Qed.
(** The argument loses its observables when it is loaded. *)
Example C79_argument_example : map fst (d_vars (dumps (fun _ _ => "at 1") model1)) = ["mu"; "sigma"; "x"; "twice"] /\
  map fst (d_vars (fst (loads [] (dumps (fun _ _ => "at 1") model1)))) = ["mu"; "sigma"; "twice"].
Proof. vm_compute. split; reflexivity. Qed.

(** ** What does not survive *)

Definition one_pdf (ps : list par) (o : obj) := Source [Mpdf "g" o ps [("x", space_x)]] [] [] [].
Definition table_of (src : source) : option table := match snd (loads [] (dumps (fun _ _ => "at 1") src)) with Ok r => Some (r_table r) | Err _ => None end.

(** Finding: a parameter that is fixed ([floating = False]) is loaded as a constant parameter; it
    can not be set or set free again and has no limits. *)
Theorem C79_fixed_refuted : exists p o, par_name p = "a" /\ (exists v lo up st, p = PFree "a" v lo up st false None) /\
  table_of (one_pdf [p] o) = Some [("a", LConst (Fin 1) "a")].
Proof. exists (PFree "a" (Fin 1) (Fin 0) (Fin 2) (Fin 1) false None), (gauss "g" (PFree "a" (Fin 1) (Fin 0) (Fin 2) (Fin 1) false None) sigma).
  split; [reflexivity|]. split; [do 4 eexists; reflexivity|]. vm_compute. reflexivity. Qed.

(** Finding: the label of a composed parameter is lost. *)
Theorem C79_label_refuted : exists p o, same_par p = LComp "f" None [] "label of p" /\ table_of (one_pdf [p] o) = Some [("p", LComp "f" None [] "p")].
Proof. exists (PComp "p" "f" None [] [] (Some "label of p")), (ODict [("type", OStr "Gauss"); ("mu", OPar (PComp "p" "f" None [] [] (Some "label of p")))]).
  split; [reflexivity|]. vm_compute. reflexivity. Qed.

(** Finding: a parameter of a constraint that is in none of the PDFs is dumped as its name only, and
    is not loaded. *)
Theorem C79_constraint_refuted : exists src, distinct_names src /\ one_per_name src /\ all_survive src /\ ordinary_objects src /\ no_clash src /\
  s_constraints src = [("c", ODict [("type", OStr "GaussConstraint"); ("params", OList [OPar (PFree "b" (Fin 1) NInf PInf (Fin 1) true None)])])] /\
  forall address r, snd (loads [] (dumps address src)) = Ok r ->
    lookup String.eqb "b" (r_table r) = None /\ r_constraints r = [("c", LDict [("type", LStr "GaussConstraint"); ("params", LList [LStr "b"])])].
Proof.
  exists (Source [pdf1] [] [("c", ODict [("type", OStr "GaussConstraint"); ("params", OList [OPar (PFree "b" (Fin 1) NInf PInf (Fin 1) true None)])])] []).
  split; [repeat split; cbn; repeat constructor; cbn; intuition discriminate|].
  split; [intros p q P Q E; cbn in P, Q; each; try reflexivity; discriminate|].
  split; [intros p P; cbn in P; each; cbn; auto|].
  split; [intros n o I; cbn in I; each; cbn; repeat split; try discriminate; eauto|].
  split; [split; [intros n o s p I S P; cbn in I; each; cbn in S, P; each; discriminate|intros m s p M S P; cbn in M; each; cbn in S, P; each; discriminate]|].
  split; [reflexivity|]. intros address r H. vm_compute in H. injection H as <-. vm_compute. split; reflexivity.
Qed.

(** Finding: a PDF with the name of one of its parameters can be dumped but not loaded. *)
Theorem C79_clash_refuted : exists src, distinct_names src /\ ordinary_names src /\ ordinary_objects src /\ parameters_in_pdfs src /\ one_per_name src /\ spaces_fine src /\ all_survive src /\
  forall address, snd (loads [] (dumps address src)) = Err ValueError.
Proof.
  exists (Source [Mpdf "mu" (gauss "mu" mu sigma) [mu; sigma] [("x", space_x)]] [] [] []).
  split; [repeat split; cbn; repeat constructor; cbn; intuition discriminate|].
  split; [intros n o I; cbn in I; each; repeat split; discriminate|].
  split; [intros n o I; cbn in I; each; cbn; repeat split; try discriminate; eauto|].
  split; [intros n o p I P; cbn in I; each; cbn in P; each; cbn; tauto|].
  split; [intros p q P Q E; cbn in P, Q; each; try reflexivity; discriminate|].
  split; [intros m s M S; cbn in M; each; cbn in S; each; cbn; auto|].
  split; [intros p P; cbn in P; each; cbn; auto|]. intros address. vm_compute. reflexivity.
Qed.

(** Finding: of PDFs with the same name all but the first are named after an address in memory. The
    document is different each time, and if the address is used again a PDF is lost. *)
Theorem C79_equal_names_refuted : exists src, length (s_pdfs src) = 3 /\
  (exists a b, dumps a src <> dumps b src) /\
  (exists a r, snd (loads [] (dumps a src)) = Ok r /\ length (r_distributions r) = 2).
Proof.
  exists (Source [pdf1; pdf1; pdf1] [] [] []). split; [reflexivity|]. split.
  - exists (fun _ _ => "1"), (fun _ _ => "2"). vm_compute. discriminate.
  - exists (fun _ _ => "at 1"). vm_compute. eexists. split; [reflexivity|]. reflexivity.
Qed.

(** Finding: two parameters with the same name, in two PDFs, are loaded as one, with the value of
    the first. *)
Theorem C79_merged_refuted : exists a b src, par_name a = par_name b /\ same_par a <> same_par b /\ s_pdfs src =
    [Mpdf "g1" (gauss "g1" a sigma) [a; sigma] []; Mpdf "g2" (gauss "g2" b sigma) [b; sigma] []] /\
  forall address, exists r, snd (loads [] (dumps address src)) = Ok r /\
    lookup String.eqb (par_name b) (r_table r) = Some (same_par a).
Proof.
  exists mu, (PFree "mu" (Fin 5) NInf PInf (Fin 1) true None).
  exists (Source [Mpdf "g1" (gauss "g1" mu sigma) [mu; sigma] []; Mpdf "g2" (gauss "g2" (PFree "mu" (Fin 5) NInf PInf (Fin 1) true None) sigma) [PFree "mu" (Fin 5) NInf PInf (Fin 1) true None; sigma] []] [] [] []).
  split; [reflexivity|]. split; [discriminate|]. split; [reflexivity|]. intros address. vm_compute. eexists. split; reflexivity.
Qed.
