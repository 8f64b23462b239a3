From Verif Require Import Base BaseLemmas FSamp_Model FSamp_Spec FSamp_Proofs PGraph_Proofs.
From Coq Require Import Permutation Lia Lqa.
#[local] Open Scope nat_scope.

Lemma mem_string_In o l : mem String.eqb o l = true <-> In o l.
Proof. apply (mem_In _ string_eqb_ok). Qed.
Lemma mem_string_not o l : ~ In o l -> mem String.eqb o l = false.
Proof. intros H. destruct (mem String.eqb o l) eqn:E; [|reflexivity]. now apply mem_string_In in E. Qed.

Lemma project_app obs r r' : project obs (r ++ r') = project obs r ++ project obs r'.
Proof. apply filter_app. Qed.
Lemma project_all obs o r : columns o r -> incl o obs -> project obs r = r.
Proof.
  unfold columns, project. revert o. induction r as [|[a v] r IH]; intros o E HI; [reflexivity|]. cbn in *. subst o.
  assert (mem String.eqb a obs = true) as -> by (apply mem_string_In, HI; now left).
  f_equal. eapply IH; [reflexivity|]. intros x Hx. apply HI. now right.
Qed.
Lemma project_none obs o r : columns o r -> (forall x, In x o -> In x obs -> False) -> project obs r = [].
Proof.
  unfold columns, project. revert o. induction r as [|[a v] r IH]; intros o E HI; [reflexivity|]. cbn in *. subst o.
  rewrite mem_string_not; [|intros H; apply (HI a); [now left|assumption]].
  eapply IH; [reflexivity|]. intros x Hx. apply HI. now right.
Qed.

Lemma join_project_l obs o o' : forall x y, length x = length y -> Forall (columns o) x -> Forall (columns o') y ->
  incl o obs -> (forall a, In a o' -> In a obs -> False) -> map (project obs) (join_columns x y) = x.
Proof.
  induction x as [|r x IH]; intros [|r' y] L C C' HI HD; try discriminate L; [reflexivity|]. cbn in *.
  apply Forall_cons_iff in C as [c C], C' as [c' C']. rewrite project_app, (project_all _ _ _ c HI), (project_none _ _ _ c' HD), app_nil_r.
  f_equal. apply IH; auto.
Qed.
Lemma join_project_r obs o : forall x y, length x = length y -> Forall (columns o) x -> (forall a, In a o -> In a obs -> False) ->
  map (project obs) (join_columns x y) = map (project obs) y.
Proof.
  induction x as [|r x IH]; intros [|r' y] L C HD; try discriminate L; [reflexivity|]. cbn in *.
  apply Forall_cons_iff in C as [c C]. rewrite project_app, (project_none _ _ _ c HD). cbn. f_equal. apply IH; auto.
Qed.

(** the rows of a concatenation of columns, seen in the observables of one of the parts *)
Lemma concat_columns_project b n obs (part : list row) : forall l1 l2 o1 o2 rows,
  Forall2 (fun p o => fine o b n p) l1 o1 -> Forall2 (fun p o => fine o b n p) l2 o2 -> fine obs b n part ->
  (forall a o, In o (o1 ++ o2) -> In a o -> In a obs -> False) ->
  concat_columns (l1 ++ part :: l2) = Ok rows -> map (project obs) rows = part.
Proof.
  induction l1 as [|p l1 IH]; intros l2 o1 o2 rows F1 F2 FP HD E.
  - inversion F1; subst. cbn [app] in E. destruct l2 as [|q l2].
    + cbn in E. injection E as <-. destruct FP as (_ & C & _). clear - C. induction C as [|r part c C IHc]; [reflexivity|]. cbn.
      rewrite IHc. f_equal. eapply project_all; [exact c|]. intros x; auto.
    + destruct (concat_columns_ok b n (q :: l2) o2) as (r & Er & Lr & Cr & Wr); [easy|assumption|].
      change (concat_columns (part :: q :: l2)) with
        (let* r := concat_columns (q :: l2) in
         if Nat.eqb (length part) (length r) then Ok (join_columns part r) else Err InvalidArgumentError) in E.
      rewrite Er in E. cbn [bind] in E. destruct FP as (L & C & W). rewrite L, Lr, Nat.eqb_refl in E. injection E as <-.
      eapply join_project_l; [congruence|exact C|exact Cr|intros x; auto|].
      intros a Ha. apply in_concat in Ha as (o & Ho & Ha). apply (HD a o); auto.
  - inversion F1 as [|? o ? o1' (L & C & W) F1']; subst. cbn [app] in E.
    assert (NE : l1 ++ part :: l2 <> []) by now destruct l1.
    destruct (l1 ++ part :: l2) as [|q qs] eqn:EQ; [easy|].
    change (concat_columns (p :: q :: qs)) with
      (let* r := concat_columns (q :: qs) in
       if Nat.eqb (length p) (length r) then Ok (join_columns p r) else Err InvalidArgumentError) in E.
    destruct (concat_columns (q :: qs)) as [r|] eqn:Er; [|discriminate]. cbn [bind] in E.
    destruct (Nat.eqb (length p) (length r)) eqn:EL; [|discriminate]. injection E as <-. apply Nat.eqb_eq in EL.
    rewrite (join_project_r obs o); [|assumption|assumption|intros a Ha; apply (HD a o); [now left|assumption]].
    rewrite <- EQ in Er. apply (IH l2 o1' o2 r F1' F2 FP); [|assumption].
    intros a o' Ho. apply HD. now right.
Qed.

Lemma filter_eqb_in (o : string) l : In o l -> filter (String.eqb o) l <> [].
Proof. intros H E. assert (In o (filter (String.eqb o) l)) by (apply filter_In; now rewrite String.eqb_refl). now rewrite E in *. Qed.

(** the observables of a factor that does not overlap are in no other factor *)
Lemma not_shared l1 p l2 q o : overlaps (l1 ++ p :: l2) p = false -> In q (l1 ++ l2) -> In o (t_obs p) -> In o (t_obs q) -> False.
Proof.
  intros H HQ HP HO. unfold overlaps in H. assert (shared (l1 ++ p :: l2) o = true) as HS.
  2:{ enough (existsb (shared (l1 ++ p :: l2)) (t_obs p) = true) by congruence. apply existsb_exists. eauto. }
  unfold shared. apply Nat.ltb_lt. rewrite flat_map_app. cbn. rewrite !filter_app, !app_length.
  pose proof (filter_eqb_in o _ HP) as NP. destruct (filter (String.eqb o) (t_obs p)); [easy|]. cbn.
  apply in_app_iff in HQ as [HQ|HQ].
  - assert (In o (flat_map t_obs l1)) as HI by (apply in_flat_map; eauto).
    apply filter_eqb_in in HI. destruct (filter (String.eqb o) (flat_map t_obs l1)); [easy|cbn; lia].
  - assert (In o (flat_map t_obs l2)) as HI by (apply in_flat_map; eauto).
    apply filter_eqb_in in HI. destruct (filter (String.eqb o) (flat_map t_obs l2)); [easy|cbn; lia].
Qed.

Lemma common_obs_in ps o : In o (common_obs ps) -> exists p, In p ps /\ In o (t_obs p).
Proof.
  unfold common_obs. assert (forall l acc, In o (fold_left (fun acc o => if mem String.eqb o acc then acc else acc ++ [o]) l acc) -> In o acc \/ In o l) as H.
  { induction l as [|a l IH]; intros acc HI; cbn in *; [auto|]. apply IH in HI as [HI|HI]; [|auto].
    destruct (mem String.eqb a acc); [auto|]. apply in_app_iff in HI as [HI|[HI|[]]]; auto. }
  intros HI. apply H in HI as [[]|HI]. now apply in_flat_map in HI.
Qed.

Section S.
Variables (multinomial : list nat -> nat -> list Q -> list nat) (shuffle : list nat -> list row -> list row)
  (draw : list nat -> tree -> nat -> box -> result (list row)) (poisson : list nat -> Q -> nat)
  (integral : tree -> Q * Q -> Q) (eager : bool).
Hypothesis G : good_random multinomial shuffle draw.
Notation tensor := (tensor multinomial shuffle draw integral eager).
Notation sample := (sample multinomial shuffle draw integral eager).
Notation prod_go := (prod_go multinomial shuffle draw integral eager).

Lemma prod_go_fine' ps n b s qs i parts : all_ordered ps qs -> prod_go ps n b s i qs = Ok parts ->
  Forall2 (fun r o => fine o b n r) parts (map t_obs (filter (fun p => negb (overlaps ps p)) qs)).
Proof.
  intros HA E. pose proof (prod_go_fine multinomial shuffle draw integral eager ps n b s qs i) as H. rewrite E in H. apply H; [|assumption].
  apply Forall_forall. intros t _ HO. now apply tensor_fine.
Qed.
Lemma prod_go_app ps n b s : forall l1 l2 i parts, prod_go ps n b s i (l1 ++ l2) = Ok parts ->
  exists p1 p2, prod_go ps n b s i l1 = Ok p1 /\ prod_go ps n b s (i + length l1) l2 = Ok p2 /\ parts = p1 ++ p2.
Proof.
  induction l1 as [|p l1 IH]; intros l2 i parts E; cbn in *.
  - exists [], parts. rewrite Nat.add_0_r. auto.
  - destruct (overlaps ps p).
    + destruct (IH l2 (S i) parts E) as (p1 & p2 & E1 & E2 & ->). exists p1, p2. now replace (i + S (length l1)) with (S i + length l1) by lia.
    + destruct (tensor p n b (i :: s)) as [r|]; [|discriminate]. cbn in *.
      destruct (prod_go ps n b s (S i) (l1 ++ l2)) as [rs|] eqn:E0; [|discriminate]. cbn in E. injection E as <-.
      destruct (IH l2 (S i) rs E0) as (p1 & p2 & E1 & E2 & ->). rewrite E1. cbn.
      exists (cut (t_obs p) b r :: p1), p2. now replace (i + S (length l1)) with (S i + length l1) by lia.
Qed.
Lemma all_ordered_app ps l1 l2 : all_ordered ps (l1 ++ l2) -> all_ordered ps l1 /\ all_ordered ps l2.
Proof. induction l1 as [|p l1 IH]; cbn; [auto|]. intros [H HA]. destruct (IH HA). auto. Qed.

Lemma product_project o y l1 p l2 n b s rows : let ps := l1 ++ p :: l2 in
  ordered (ProdT o y ps) -> overlaps ps p = false -> sample (ProdT o y ps) n b s = Ok rows ->
  sample p n b (length l1 :: s) = Ok (map (project (t_obs p)) rows).
Proof.
  intros ps HO EO ES. destruct (sample_fine _ _ _ integral eager G _ HO n b s rows ES) as (E & _).
  rewrite tensor_prod in E. destruct (forallb (overlaps ps) ps) eqn:EF.
  { rewrite forallb_forall in EF. specialize (EF p). rewrite EF in EO; [discriminate|]. apply in_elt. }
  destruct HO as [HO|[_ HA]]; [congruence|]. fold (all_ordered ps) in HA. unfold ps in HA at 2. apply all_ordered_app in HA as [HA1 [HP HA2]].
  fold (all_ordered ps) in HA2.
  destruct (prod_go ps n b s 0 ps) as [parts|] eqn:EP; [|discriminate]. cbn [bind] in E.
  unfold ps in EP at 2. apply prod_go_app in EP as (p1 & p2 & E1 & E2 & ->). cbn [plus] in E2. cbn [FSamp_Proofs.prod_go] in E2.
  rewrite EO in E2. destruct (tensor p n b (length l1 :: s)) as [r|] eqn:ER; [|discriminate].
  destruct (tensor_sample _ _ _ integral eager G p (HP EO) _ _ _ _ ER) as [_ F]. cbn [bind] in E2.
  fold (prod_go ps n b s (S (length l1)) l2) in E2.
  destruct (prod_go ps n b s (S (length l1)) l2) as [p2'|] eqn:E3; [|discriminate]. cbn [bind] in E2. injection E2 as <-.
  rewrite (fine_cut _ _ _ _ F) in E. unfold FSamp_Model.sample. rewrite ER. cbn [bind]. rewrite (fine_cut _ _ _ _ F). f_equal. symmetry.
  apply prod_go_fine' in E1; [|assumption]. apply prod_go_fine' in E3; [|assumption].
  assert (HD : forall a o, In o (map t_obs (filter (fun p => negb (overlaps ps p)) l1) ++ map t_obs (filter (fun p => negb (overlaps ps p)) l2)) ->
            In a o -> In a (t_obs p) -> False).
  { intros a ob HI Ha Hp. rewrite <- map_app, <- filter_app in HI. apply in_map_iff in HI as (q & <- & HQ). apply filter_In in HQ as [HQ _].
    apply (not_shared l1 p l2 q a EO HQ Hp Ha). }
  destruct (existsb (overlaps ps) ps).
  - pose proof (good_draw _ _ _ G (length ps :: s) (nested ps) n b) as FN. destruct (draw (length ps :: s) (nested ps) n b) as [rn|]; [|discriminate].
    cbn [bind good] in *. rewrite (fine_cut _ _ _ _ FN) in E. rewrite <- app_assoc in E. cbn [app] in E.
    eapply (concat_columns_project b n (t_obs p) r p1 (p2' ++ [rn]) _ _ rows E1); [|exact F| |exact E].
    + apply Forall2_app; [exact E3|]. constructor; [exact FN|constructor].
    + intros a ob HI Ha Hp. rewrite app_assoc in HI. apply in_app_iff in HI as [HI|[<-|[]]]; [eapply HD; eauto|].
      unfold nested in Ha. cbn [t_obs] in Ha. apply common_obs_in in Ha as (q & HQ & Ha). apply filter_In in HQ as [HQ EQ].
      apply (not_shared l1 p l2 q a EO); auto. unfold ps in HQ. apply in_app_iff in HQ as [HQ|[<-|HQ]]; [apply in_app_iff; auto| |apply in_app_iff; auto].
      fold ps in EO. congruence.
  - eapply (concat_columns_project b n (t_obs p) r p1 p2' _ _ rows E1 E3 F HD E).
Qed.

(** extended sampling *)
Lemma extract_props t : ordered t -> additive t -> forall ps, extract t = Ok ps ->
  Forall (fun p => t_obs p = t_obs t /\ ordered p) ps.
Proof.
  induction t as [i o y|o y fs ps IH|o y ps IH|o y sp ls p IH] using tree_ind'; intros HO HA qs E;
    (destruct (extract_cases _ HA) as [E1|(o' & v & fs' & ps' & E0 & E1 & AA & EV)]; rewrite E1 in E; [injection E as <-; constructor; [split; [reflexivity|exact HO]|constructor]|]);
    try discriminate E0.
  injection E0 as -> -> -> ->. destruct HO as (_ & _ & HO). clear HA EV E1. revert qs E AA HO. cbn [t_obs].
  induction ps' as [|p ps IHp]; intros qs E AA HO; [injection E as <-; constructor|].
  apply Forall_cons_iff in IH as [IH1 IH2]. destruct AA as [A AA], HO as (O & HO1 & HO). cbn [extract_all] in E.
  destruct (extract p) as [a|] eqn:E1; [|discriminate]. cbn [bind] in E. destruct (extract_all ps) as [r|] eqn:E2; [|discriminate].
  cbn [bind] in E. injection E as <-. apply Forall_app. split; [rewrite <- O; now apply IH1|]. apply (IHp IH2 r); auto.
Qed.

Lemma counts_of_poisson s ps : counts_of poisson s ps = map (fun ip => match t_yield (snd ip) with Some y => poisson (fst ip :: s) y | None => 0 end) (combine (seq 0 (length ps)) ps).
Proof. reflexivity. Qed.

Lemma extract_not_nil t : ordered t -> additive t -> extract t <> Ok [].
Proof.
  induction t as [i o y|o y fs ps IH|o y ps IH|o y sp ls p IH] using tree_ind'; intros HO HA E;
    (destruct (extract_cases _ HA) as [E1|(o' & v & fs' & ps' & E0 & E1 & AA & EV)]; rewrite E1 in E; [discriminate|]); try discriminate E0.
  injection E0 as -> -> -> ->. destruct HO as (_ & NE & HO). destruct ps' as [|p ps]; [easy|].
  apply Forall_cons_iff in IH as [IH1 _]. destruct AA as [A _], HO as (_ & HO & _). cbn [extract_all] in E.
  destruct (extract p) as [a|] eqn:E2; [|discriminate]. cbn [bind] in E. destruct (extract_all ps); [|discriminate].
  cbn [bind] in E. injection E as E. apply app_eq_nil in E as [-> _]. now apply IH1.
Qed.

Lemma extended_good t b s : ordered t -> additive t -> exists ps, extract t = Ok ps /\
  good draw (fun rows => fine (t_obs t) b (sum_nat (counts_of poisson s ps)) rows /\
      exists rowss, rows = concat rowss /\ length rowss = length ps /\
      forall k p c, nth_error ps k = Some p -> nth_error (counts_of poisson s ps) k = Some c ->
        exists r, nth_error rowss k = Some r /\ sample p c b (k :: s) = Ok r)
    (public_sample multinomial shuffle draw poisson integral eager t NoNumber b s).
Proof.
  intros HO HA. destruct (extract_yields t HA) as (ps & E & _). pose proof (extract_props t HO HA ps E) as HP.
  pose proof (additive_extended t HA) as EXT.
  assert (HG : forall qs cs i, length cs = length qs -> Forall (fun p => t_obs p = t_obs t /\ ordered p) qs ->
            good draw (fun rowss =>
              Forall2 (fun r c => fine (t_obs t) b c r) rowss cs /\
              forall k p c, nth_error qs k = Some p -> nth_error cs k = Some c ->
                exists r, nth_error rowss k = Some r /\ sample p c b ((i + k) :: s) = Ok r)
              (mapM (fun ic => sample (snd (snd ic)) (fst (snd ic)) b (fst ic :: s)) (combine (seq i (length qs)) (combine cs qs)))).
  { clear - G. induction qs as [|p qs IH]; intros [|c cs] i L H; try discriminate L.
    - split; [constructor|]. intros [|k]; discriminate.
    - apply Forall_cons_iff in H as [[Eo HO] H]. cbn [length seq combine mapM fst snd].
      eapply good_bind; [exact (sample_good _ _ _ integral eager G p HO c b (i :: s))|]. intros r E F.
      eapply good_bind; [apply (IH cs (S i)); [now injection L|assumption]|]. intros rs _ (F' & N).
      split; [constructor; [now rewrite <- Eo|assumption]|].
      intros [|k] q d HQ HC; cbn in *.
      + injection HQ as <-. injection HC as <-. exists r. now rewrite Nat.add_0_r.
      + destruct (N k q d HQ HC) as (r' & ? & ?). exists r'. now replace (i + S k) with (S i + k) by lia. }
  assert (LC : length (counts_of poisson s ps) = length ps).
  { unfold counts_of. rewrite map_length, combine_length, seq_length. lia. }
  assert (NE : ps <> []) by (intros ->; now apply (extract_not_nil t)).
  exists ps. split; [exact E|]. unfold public_sample, extended_sampling. rewrite EXT, E. cbn [bind].
  specialize (HG ps (counts_of poisson s ps) 0 LC HP).
  match goal with |- context [mapM ?f ?l] => destruct (mapM f l) as [rowss|e] end; [|exact HG]. destruct HG as (F & N). cbn [bind].
  pose proof (concat_fine _ _ _ _ F) as FC.
  assert (concat_rows (map (fun p => length (t_obs p)) ps) rowss = Ok (concat rowss)) as ->.
  { clear - HP NE. destruct ps as [|p ps]; [easy|]. cbn. apply Forall_cons_iff in HP as [[B1 _] HB].
    replace (forallb (Nat.eqb (length (t_obs p))) (map (fun p0 => length (t_obs p0)) ps)) with true; [reflexivity|].
    symmetry. apply forallb_forall. intros k HI. apply in_map_iff in HI as (q & <- & HI).
    rewrite Forall_forall in HB. destruct (HB q HI) as [-> _]. rewrite B1. apply Nat.eqb_refl. }
  cbn [bind good]. rewrite (fine_cut _ _ _ _ FC). split; [exact FC|].
  exists rowss. split; [reflexivity|]. split; [now rewrite (Forall2_length' _ _ _ F)|]. exact N.
Qed.

Lemma counts_numbers s ps : Forall (fun p => t_yield p <> None) ps -> counts_of poisson s ps = poisson_numbers poisson s ps.
Proof.
  intros H. unfold counts_of, poisson_numbers.
  assert (HG : forall qs pre, Forall (fun p => t_yield p <> None) qs ->
    map (fun ip => match t_yield (snd ip) with Some y => poisson (fst ip :: s) y | None => 0 end) (combine (seq (length pre) (length qs)) qs) =
    map (fun i => poisson (i :: s) (yield_of (nth i (pre ++ qs) (Leaf 0 [] None)))) (seq (length pre) (length qs))).
  { clear. induction qs as [|q qs IH]; intros pre H; [reflexivity|]. apply Forall_cons_iff in H as [H1 H]. cbn [length seq combine map fst snd].
    f_equal.
    - rewrite app_nth2, Nat.sub_diag by lia. cbn. unfold yield_of. now destruct (t_yield q).
    - specialize (IH (pre ++ [q]) H). rewrite app_length, <- app_assoc in IH. cbn in IH. rewrite Nat.add_1_r in IH. exact IH. }
  exact (HG ps [] H).
Qed.
Lemma extract_extended t : forall ps, extract t = Ok ps -> Forall (fun p => t_yield p <> None) ps.
Proof.
  assert (HG : forall qs, Forall (fun t => forall ps, extract t = Ok ps -> Forall (fun p => t_yield p <> None) ps) qs ->
     forall ps, (fix go (ps0 : list tree) : result (list tree) :=
                   match ps0 with [] => Ok [] | p :: ps' => let* a := extract p in let* r := go ps' in Ok (a ++ r) end) qs = Ok ps ->
     Forall (fun p => t_yield p <> None) ps).
  { clear. induction qs as [|q qs IHq]; intros H ps E; [injection E as <-; constructor|]. apply Forall_cons_iff in H as [H1 H].
    destruct (extract q) as [a|]; [|discriminate]. cbn [bind] in E. match type of E with bind ?e _ = _ => destruct e as [r|]; [|discriminate] end.
    cbn [bind] in E. injection E as <-. apply Forall_app. split; [now apply H1|]. apply IHq; auto. }
  induction t as [i o y|o y fs qs IH|o y qs IH|o y sp ls p IH] using tree_ind'; intros ps E; cbn in E; unfold t_extended in E at 1; cbn in E;
    (destruct y as [v|]; cbn in E; [|injection E as <-; constructor]).
  - injection E as <-. (constructor; [intros HH; discriminate HH|constructor]).
  - destruct (forallb t_extended qs); [exact (HG qs IH ps E)|]. destruct (negb (existsb t_extended qs)); [|discriminate].
    injection E as <-. (constructor; [intros HH; discriminate HH|constructor]).
  - destruct (forallb t_extended qs); [exact (HG qs IH ps E)|]. destruct (negb (existsb t_extended qs)); [|discriminate].
    injection E as <-. (constructor; [intros HH; discriminate HH|constructor]).
  - rewrite andb_true_r, orb_false_r in E. destruct (t_extended p); cbn in E; [now apply IH|]. injection E as <-. (constructor; [intros HH; discriminate HH|constructor]).
Qed.
End S.
