From Verif Require Import Base BaseLemmas FSamp_Model FSamp_Spec.
From Coq Require Import Permutation Lia Lqa.
#[local] Open Scope nat_scope.

Lemma tree_ind' (P : tree -> Prop) :
  (forall i o y, P (Leaf i o y)) ->
  (forall o y fs ps, Forall P ps -> P (SumT o y fs ps)) ->
  (forall o y ps, Forall P ps -> P (ProdT o y ps)) ->
  (forall o y sp ls p, P p -> P (TruncT o y sp ls p)) ->
  forall t, P t.
Proof.
  intros HL HS HP HT. fix IH 1. destruct t as [i o y|o y fs ps|o y ps|o y sp ls p].
  - apply HL.
  - apply HS. induction ps; constructor; [apply IH|assumption].
  - apply HP. induction ps; constructor; [apply IH|assumption].
  - apply HT, IH.
Qed.

Lemma cut_all obs b rows : Forall (columns obs) rows -> Forall (within b) rows -> cut obs b rows = rows.
Proof.
  intros HC HW. unfold cut. induction rows as [|r rows IH]; [reflexivity|]. cbn [filter].
  apply Forall_cons_iff in HC as [C HC]. apply Forall_cons_iff in HW as [W HW].
  match goal with |- context [if ?e then _ else _] => assert (e = true) as -> end; [|cbv iota; apply f_equal; apply IH; assumption].
  apply forallb_forall. intros [o [o' v]] HI. cbn.
  assert (o = o' /\ In (o', v) r) as [-> HI'].
  { unfold columns in C. subst obs. clear - HI. induction r as [|[a q] r IHr]; cbn in *; [easy|].
    destruct HI as [E|HI]; [injection E as -> -> ->; auto|]. destruct (IHr HI); auto. }
  unfold inside_box. destruct (lookup String.eqb o' b) as [[lo hi]|] eqn:E; [|reflexivity].
  destruct (W _ _ _ _ HI' E). apply andb_true_iff; split; now apply Qle_bool_iff.
Qed.

Lemma sum_nat_app a b : sum_nat (a ++ b) = sum_nat a + sum_nat b.
Proof. induction a; cbn; [reflexivity|]. unfold sum_nat in *. lia. Qed.

Lemma within_app b r r' : within b r -> within b r' -> within b (r ++ r').
Proof. intros H H' o v lo hi HI. apply in_app_iff in HI as [HI|HI]; [now apply H|now apply H']. Qed.

Lemma join_ok b o o' : forall x y, length x = length y ->
  Forall (columns o) x -> Forall (columns o') y -> Forall (within b) x -> Forall (within b) y ->
  length (join_columns x y) = length x /\ Forall (columns (o ++ o')) (join_columns x y) /\ Forall (within b) (join_columns x y).
Proof.
  induction x as [|r x IH]; intros [|r' y] HL C C' W W'; cbn in *; try discriminate; [repeat split; constructor|].
  apply Forall_cons_iff in C as [c C], C' as [c' C'], W as [w W], W' as [w' W'].
  destruct (IH y) as (L & CC & WW); auto. split; [now rewrite L|]. split; constructor; auto.
  - unfold columns in *. now rewrite map_app, c, c'.
  - now apply within_app.
Qed.

Lemma concat_columns_ok b n : forall (parts : list (list row)) (obss : list (list string)), parts <> [] ->
  Forall2 (fun p o => length p = n /\ Forall (columns o) p /\ Forall (within b) p) parts obss ->
  exists rows, concat_columns parts = Ok rows /\ length rows = n /\ Forall (columns (concat obss)) rows /\ Forall (within b) rows.
Proof.
  induction parts as [|p parts IH]; intros obss NE H; [easy|].
  inversion H as [|? o ? obs' (L & C & W) H']; subst.
  destruct parts as [|q parts].
  - inversion H'; subst. exists p. cbn. rewrite app_nil_r. auto.
  - destruct (IH obs') as (rows & E & L' & C' & W'); [easy|assumption|].
    change (concat_columns (p :: q :: parts)) with
      (let* r := concat_columns (q :: parts) in
       if Nat.eqb (length p) (length r) then Ok (join_columns p r) else Err InvalidArgumentError).
    rewrite E. cbn [bind]. rewrite L', Nat.eqb_refl. eexists. split; [reflexivity|].
    destruct (join_ok b o (concat obs') p rows) as (L2 & C2 & W2); auto.
Qed.

Lemma concat_columns_inv b n : forall (parts : list (list row)) (obss : list (list string)), parts <> [] ->
  Forall2 (fun p o => length p = n /\ Forall (columns o) p /\ Forall (within b) p) parts obss -> forall rows,
  concat_columns parts = Ok rows -> length rows = n /\ Forall (columns (concat obss)) rows /\ Forall (within b) rows.
Proof.
  intros parts obss NE H rows E. destruct (concat_columns_ok b n parts obss NE H) as (rows' & E' & F). rewrite E in E'. injection E' as <-. exact F.
Qed.

Section S.
Variables (multinomial : list nat -> nat -> list Q -> list nat) (shuffle : list nat -> list row -> list row)
  (draw : list nat -> tree -> nat -> box -> result (list row)) (poisson : list nat -> Q -> nat)
  (integral : tree -> Q * Q -> Q) (eager : bool).
Hypothesis G : good_random multinomial shuffle draw.
Notation tensor := (tensor multinomial shuffle draw integral eager).
Notation sample := (sample multinomial shuffle draw integral eager).

Definition fine (obs : list string) (b : box) (n : nat) (rows : list row) : Prop :=
  length rows = n /\ Forall (columns obs) rows /\ Forall (within b) rows.
(** the rows are fine, or the error is one of the direct sampling *)
Definition good {A} (P : A -> Prop) (r : result A) : Prop := match r with Ok a => P a | Err e => draw_fails draw e end.
Lemma good_bind {A B} (P : A -> Prop) (P' : B -> Prop) r (f : A -> result B) : good P r -> (forall a, r = Ok a -> P a -> good P' (f a)) -> good P' (bind r f).
Proof. destruct r; cbn; auto. Qed.
Lemma good_draw s t n b : good (fine (t_obs t) b n) (draw s t n b).
Proof. destruct (draw s t n b) as [rows|e] eqn:E; cbn; [exact (g_draw _ _ _ G _ _ _ _ _ E)|]. exists s, t, n, b. exact E. Qed.

Definition sum_go (b : box) (s : list nat) :=
  fix go (i : nat) (ps : list tree) (cs : list nat) : result (list (list row)) :=
    match ps, cs with
    | p :: ps, c :: cs => let* r := tensor p c b (i :: s) in let* rs := go (S i) ps cs in Ok (cut (t_obs p) b r :: rs)
    | _, _ => Ok []
    end.
Lemma tensor_sum o y fs ps n b s : tensor (SumT o y fs ps) n b s =
  let* rowss := sum_go b s 0 ps (multinomial s n fs) in
  let* rows := concat_rows (map (fun p => length (t_obs p)) ps) rowss in Ok (shuffle s rows).
Proof. reflexivity. Qed.

(** the samples of the components of a sum, with the numbers they were asked for *)
Lemma sum_go_samples b s : forall ps cs i rowss, length cs = length ps -> sum_go b s i ps cs = Ok rowss ->
  length rowss = length ps /\
  forall k p c, nth_error ps k = Some p -> nth_error cs k = Some c ->
    exists r, nth_error rowss k = Some r /\ sample p c b ((i + k) :: s) = Ok r.
Proof.
  induction ps as [|p ps IH]; intros [|c cs] i rowss HL E; cbn in HL; try discriminate.
  - cbn in E. injection E as <-. split; [reflexivity|]. intros [|k]; discriminate.
  - cbn in E. destruct (tensor p c b (i :: s)) as [r|e] eqn:E1; [|discriminate]. cbn in E.
    destruct (sum_go b s (S i) ps cs) as [rs|e] eqn:E2; [|discriminate]. cbn in E. injection E as <-.
    destruct (IH cs (S i) rs) as [L H]; auto. split; [cbn; now rewrite L|].
    intros [|k] q d HP HC; cbn in *.
    + injection HP as <-. injection HC as <-. exists (cut (t_obs p) b r). split; [reflexivity|].
      unfold FSamp_Model.sample. replace (i + 0) with i by lia. now rewrite E1.
    + destruct (H k q d HP HC) as (r' & N & S'). exists r'. split; [assumption|]. now replace (i + S k) with (S i + k) by lia.
Qed.

Definition prod_go (pdfs : list tree) (n : nat) (b : box) (s : list nat) :=
  fix go (i : nat) (ps : list tree) : result (list (list row)) :=
    match ps with
    | [] => Ok []
    | p :: ps => if overlaps pdfs p then go (S i) ps
                 else let* r := tensor p n b (i :: s) in let* rs := go (S i) ps in Ok (cut (t_obs p) b r :: rs)
    end.
Lemma tensor_prod o y ps n b s : tensor (ProdT o y ps) n b s =
  if forallb (overlaps ps) ps then draw s (ProdT o y ps) n b
  else let* parts := prod_go ps n b s 0 ps in
       if existsb (overlaps ps) ps
       then let* r := draw (length ps :: s) (nested ps) n b in concat_columns (parts ++ [cut (t_obs (nested ps)) b r])
       else concat_columns parts.
Proof. reflexivity. Qed.

Definition trunc_go (o : string) (p : tree) (s : list nat) :=
  fix go (i : nat) (ls : list (Q * Q)) (cs : list nat) : result (list (list row)) :=
    match ls, cs with
    | l :: ls, c :: cs => let* r := tensor p c (with_limit o l) (i :: s) in
                          let* rs := go (S i) ls cs in Ok (cut (t_obs p) (with_limit o l) r :: rs)
    | _, _ => Ok []
    end.
Definition trunc_counts (p : tree) (limits : list (Q * Q)) (s : list nat) (n : nat) : list nat :=
  match limits with
  | [_] => [n]
  | _ => let is := map (integral p) limits in
         let tot := fold_right Qplus 0%Q is in multinomial s n (map (fun v => v / tot)%Q is)
  end.
Lemma tensor_trunc o y sp ls p n b s : tensor (TruncT o y sp ls p) n b s =
  if negb eager || negb (is_space o sp b) then draw s (TruncT o y sp ls p) n b
  else let* rowss := trunc_go o p s 0 ls (trunc_counts p ls s n) in Ok (concat rowss).
Proof. reflexivity. Qed.

Lemma trunc_counts_ok p ls s n : ls <> [] -> length (trunc_counts p ls s n) = length ls /\ sum_nat (trunc_counts p ls s n) = n.
Proof.
  intros NE. unfold trunc_counts. destruct ls as [|l [|l' ls]]; [easy|cbn; auto|].
  split.
  - rewrite (g_length _ _ _ G), !map_length. reflexivity.
  - apply (g_sum _ _ _ G). discriminate.
Qed.

Lemma concat_fine obs b : forall (rowss : list (list row)) cs, Forall2 (fun r c => fine obs b c r) rowss cs ->
  fine obs b (sum_nat cs) (concat rowss).
Proof.
  induction 1 as [|r c rowss cs (L & C & W) H IH]; cbn; [repeat split; constructor|].
  destruct IH as (L' & C' & W'). unfold fine. rewrite app_length, L, L'. split; [reflexivity|]. split; now apply Forall_app.
Qed.

Lemma fine_cut obs b n rows : fine obs b n rows -> cut obs b rows = rows.
Proof. intros (_ & C & W). now apply cut_all. Qed.

Definition all_ordered (ps : list tree) := fix all (qs : list tree) : Prop :=
  match qs with [] => True | p :: qs => (overlaps ps p = false -> ordered p) /\ all qs end.

Lemma prod_go_fine ps n b s : forall qs i,
  Forall (fun t => ordered t -> forall n b s, good (fine (t_obs t) b n) (tensor t n b s)) qs -> all_ordered ps qs ->
  good (fun parts => Forall2 (fun r o => fine o b n r) parts (map t_obs (filter (fun p => negb (overlaps ps p)) qs))) (prod_go ps n b s i qs).
Proof.
  induction qs as [|p qs IHp]; intros i IH HA; [constructor|].
  apply Forall_cons_iff in IH as [IH1 IH2]. destruct HA as [O1 HA]. cbn [prod_go filter].
  destruct (overlaps ps p) eqn:E; cbn [negb]; [now apply IHp|].
  eapply good_bind; [exact (IH1 (O1 eq_refl) n b (i :: s))|]. intros r _ F. eapply good_bind; [exact (IHp (S i) IH2 HA)|].
  intros rs _ F'. cbn. rewrite (fine_cut _ _ _ _ F). constructor; assumption.
Qed.

Lemma tensor_fine t : ordered t -> forall n b s, good (fine (t_obs t) b n) (tensor t n b s).
Proof.
  induction t as [i o y|o y fs ps IH|o y ps IH|o y sp ls p IH] using tree_ind'; intros HO n b s.
  - apply good_draw.
  - destruct HO as (HL & NE & HA).
    assert (HB : Forall (fun p => t_obs p = o) ps).
    { clear - HA. induction ps as [|p ps IHp]; constructor; [apply HA|apply IHp, HA]. }
    assert (HG : forall i cs, length cs = length ps -> good (fun rowss => Forall2 (fun r c => fine o b c r) rowss cs) (sum_go b s i ps cs)).
    { clear HL NE HB. induction ps as [|p ps IHp]; intros i [|c cs] L; try discriminate L; [constructor|].
      apply Forall_cons_iff in IH as [IH1 IH2]. destruct HA as (Eo & O1 & HA).
      cbn [sum_go]. eapply good_bind; [exact (IH1 O1 c b (i :: s))|]. intros r _ F.
      eapply good_bind; [apply (IHp IH2 HA (S i) cs); now injection L|]. intros rs _ F'. cbn. rewrite (fine_cut _ _ _ _ F).
      constructor; [now rewrite <- Eo|assumption]. }
    rewrite tensor_sum. eapply good_bind; [apply HG; now rewrite (g_length _ _ _ G)|]. intros rowss _ F.
    assert (concat_rows (map (fun p => length (t_obs p)) ps) rowss = Ok (concat rowss)) as ->.
    { destruct ps as [|p ps]; [easy|]. cbn. apply Forall_cons_iff in HB as [B1 HB].
      replace (forallb (Nat.eqb (length (t_obs p))) (map (fun p0 => length (t_obs p0)) ps)) with true; [reflexivity|].
      symmetry. apply forallb_forall. intros k HI. apply in_map_iff in HI as (q & <- & HI).
      rewrite Forall_forall in HB. rewrite B1, (HB q HI). apply Nat.eqb_refl. }
    cbn [bind good]. apply concat_fine in F. destruct F as (L & C & W).
    pose proof (g_shuffle _ _ _ G s (concat rowss)) as PM. split; [|split].
    + rewrite <- (Permutation_length PM), L. apply (g_sum _ _ _ G). intros ->. destruct ps; [easy|discriminate HL].
    + eapply Permutation_Forall; [exact PM|assumption].
    + eapply Permutation_Forall; [exact PM|assumption].
  - rewrite tensor_prod. destruct (forallb (overlaps ps) ps) eqn:EF; [apply good_draw|].
    destruct HO as [HO|[HO HA]]; [congruence|]. fold t_obs in HO.
    eapply good_bind; [exact (prod_go_fine ps n b s ps 0 IH HA)|]. intros parts _ F. cbn [t_obs]. rewrite HO, flat_map_concat_map.
    assert (NE : parts <> []).
    { intros ->. apply Forall2_length' in F. rewrite map_length in F. symmetry in F. apply length_zero_iff_nil in F as E0.
      enough (forallb (overlaps ps) ps = true) by congruence. apply forallb_forall. intros p HI.
      destruct (overlaps ps p) eqn:EO; [reflexivity|]. assert (In p (filter (fun p => negb (overlaps ps p)) ps)) as HI'.
      { apply filter_In. now rewrite EO. } now rewrite E0 in HI'. }
    destruct (existsb (overlaps ps) ps).
    + eapply good_bind; [apply (good_draw (length ps :: s) (nested ps) n b)|]. intros r _ FN. rewrite (fine_cut _ _ _ _ FN).
      replace (concat (map t_obs (filter (fun p => negb (overlaps ps p)) ps)) ++ t_obs (nested ps))
        with (concat (map t_obs (filter (fun p => negb (overlaps ps p)) ps) ++ [t_obs (nested ps)]))
        by (rewrite concat_app; cbn; now rewrite app_nil_r).
      edestruct (concat_columns_ok b n (parts ++ [r])) as (rows & E & F2); [now destruct parts| |rewrite E; exact F2].
      apply Forall2_app; [exact F|]. constructor; [exact FN|constructor].
    + rewrite app_nil_r. edestruct (concat_columns_ok b n parts) as (rows & E & F2); [assumption|exact F|rewrite E; exact F2].
  - rewrite tensor_trunc. destruct (negb eager || negb (is_space o sp b)) eqn:EE; [apply good_draw|].
    destruct HO as (Eo & HO & NE & HI). apply orb_false_iff in EE as [_ EE]. apply negb_false_iff in EE.
    assert (HG : forall ls i cs, Forall (fun l => fst sp <= fst l /\ snd l <= snd sp)%Q ls -> length cs = length ls ->
              good (fun rowss => Forall2 (fun r c => fine [o] b c r) rowss cs) (trunc_go o p s i ls cs)).
    { clear - IH HO Eo EE. induction ls as [|l ls IHl]; intros i [|c cs] HI L; try discriminate L; [constructor|].
      apply Forall_cons_iff in HI as [I1 HI]. cbn [trunc_go].
      eapply good_bind; [exact (IH HO c (with_limit o l) (i :: s))|]. intros r _ F.
      eapply good_bind; [apply (IHl (S i) cs HI); now injection L|]. intros rs _ F'. cbn. rewrite (fine_cut _ _ _ _ F).
      constructor; [|assumption]. destruct F as (L1 & C1 & W1). rewrite Eo in C1. split; [assumption|]. split; [assumption|].
      clear - W1 C1 I1 EE. rewrite Forall_forall in *. intros w HR o' v lo hi HIn HL. specialize (C1 w HR). unfold columns in C1.
      assert (o' = o) as ->. { apply (in_map fst) in HIn. rewrite C1 in HIn. now destruct HIn as [HIn|[]]. }
      unfold is_space in EE. rewrite HL in EE. apply andb_true_iff in EE as [E1 E2]. apply Qeq_bool_iff in E1, E2.
      destruct l as [l1 l2]. assert (l1 <= v <= l2)%Q.
      { apply (W1 w HR o v l1 l2 HIn). cbn. now rewrite String.eqb_refl. }
      cbn in I1. lra. }
    destruct (trunc_counts_ok p ls s n NE) as [L SM].
    eapply good_bind; [exact (HG ls 0 _ HI L)|]. intros rowss _ F. cbn [good]. rewrite <- SM. cbn [t_obs]. now apply concat_fine.
Qed.

Lemma sample_good t : ordered t -> forall n b s, good (fine (t_obs t) b n) (sample t n b s).
Proof.
  intros HO n b s. eapply good_bind; [exact (tensor_fine t HO n b s)|]. intros rows _ F. cbn. now rewrite (fine_cut _ _ _ _ F).
Qed.
Lemma sample_fine t : ordered t -> forall n b s rows, sample t n b s = Ok rows -> tensor t n b s = Ok rows /\ fine (t_obs t) b n rows.
Proof.
  intros HO n b s rows E. pose proof (tensor_fine t HO n b s) as H. unfold FSamp_Model.sample in E. destruct (tensor t n b s) as [r|]; [|discriminate].
  cbn in *. rewrite (fine_cut _ _ _ _ H) in E. injection E as <-. auto.
Qed.
Lemma tensor_sample t : ordered t -> forall n b s rows, tensor t n b s = Ok rows -> sample t n b s = Ok rows /\ fine (t_obs t) b n rows.
Proof.
  intros HO n b s rows E. pose proof (tensor_fine t HO n b s) as H. unfold FSamp_Model.sample. rewrite E in *. cbn in *.
  rewrite (fine_cut _ _ _ _ H). auto.
Qed.

Lemma trunc_limits o y sp ls p : ordered (TruncT o y sp ls p) -> forall n b s rows,
  sample (TruncT o y sp ls p) n b s = Ok rows -> Forall (in_limits o ls) rows.
Proof.
  intros HO n b s rows ES. destruct (sample_fine _ HO n b s rows ES) as (E & _).
  rewrite tensor_trunc in E. destruct (negb eager || negb (is_space o sp b)); [exact (g_positive _ _ _ G _ _ _ _ _ _ _ _ _ E)|].
  destruct HO as (Eo & HO & NE & HI).
  assert (HG : forall qs i cs rowss, incl qs ls -> trunc_go o p s i qs cs = Ok rowss -> Forall (in_limits o ls) (concat rowss)).
  { clear - HO Eo G. induction qs as [|l qs IHl]; intros i [|c cs] rowss HIn E; cbn in E; try (injection E as <-; constructor).
    destruct (tensor p c (with_limit o l) (i :: s)) as [r|] eqn:E1; [|discriminate]. cbn in E.
    destruct (tensor_sample p HO _ _ _ _ E1) as [_ F].
    destruct (trunc_go o p s (S i) qs cs) as [rs|e] eqn:E2; [|discriminate]. cbn in E. injection E as <-. cbn.
    rewrite (fine_cut _ _ _ _ F). apply Forall_app. split; [|eapply IHl; [|exact E2]; intros x Hx; apply HIn; now right].
    destruct F as (_ & C & W). rewrite Forall_forall in *. intros w HW. specialize (C w HW). specialize (W w HW).
    rewrite Eo in C. unfold columns in C. destruct w as [|[o' v] [|? w]]; try discriminate C. cbn in C. injection C as ->.
    exists v, l. split; [reflexivity|]. split; [apply HIn; now left|]. destruct l as [l1 l2].
    apply (W o v l1 l2); [now left|]. cbn. now rewrite String.eqb_refl. }
  destruct (trunc_go o p s 0 ls (trunc_counts p ls s n)) as [rowss|e] eqn:E2; [|discriminate]. cbn in E. injection E as <-.
  eapply HG; [|exact E2]. intros x; auto.
Qed.

End S.

(** yields of the extracted PDFs *)
Definition extract_all := fix go (ps : list tree) : result (list tree) :=
  match ps with [] => Ok [] | p :: ps => let* a := extract p in let* r := go ps in Ok (a ++ r) end.
Definition all_additive := fix all (ps : list tree) : Prop := match ps with [] => True | p :: ps => additive p /\ all ps end.
Lemma additive_extended t : additive t -> t_extended t = true.
Proof. unfold t_extended. destruct t; cbn; intros [H _]; destruct yield; auto; contradiction. Qed.
Lemma none_extended ps : no_yields ps -> forallb t_extended ps = false /\ existsb t_extended ps = false.
Proof.
  intros [NE H]. assert (EX : existsb t_extended ps = false).
  { destruct (existsb t_extended ps) eqn:E; [|reflexivity]. apply existsb_exists in E as (p & HI & E). unfold t_extended in E. now rewrite (H p HI) in E. }
  split; [|assumption]. destruct ps as [|p ps]; [easy|]. cbn in *. now destruct (t_extended p).
Qed.
Lemma extract_cases t : additive t -> extract t = Ok [t] \/
  exists o v fs ps, t = SumT o (Some v) fs ps /\ extract t = extract_all ps /\ all_additive ps /\
    (v == fold_right (fun p a => yield_of p + a) 0 ps)%Q.
Proof.
  destruct t as [i o [y|]|o [y|] fs ps|o [y|] ps|o [y|] sp ls p]; intros [HY HA]; try now destruct HY.
  - now left.
  - change (extract (SumT o (Some y) fs ps)) with (if forallb t_extended ps then extract_all ps
      else if negb (existsb t_extended ps) then Ok [SumT o (Some y) fs ps] else Err AssertionError).
    destruct HA as [HN|[Ev HA]].
    + left. destruct (none_extended ps HN) as [-> ->]. reflexivity.
    + right. exists o, y, fs, ps. split; [reflexivity|]. split; [|split; [exact HA|exact Ev]].
      assert (forallb t_extended ps = true) as ->; [|reflexivity]. clear - HA. induction ps as [|p ps IHp]; [reflexivity|]. destruct HA as [A HA]. cbn.
      now rewrite (additive_extended p A), IHp.
  - left. change (extract (ProdT o (Some y) ps)) with (if forallb t_extended ps then extract_all ps
      else if negb (existsb t_extended ps) then Ok [ProdT o (Some y) ps] else Err AssertionError).
    destruct (none_extended ps HA) as [-> ->]. reflexivity.
  - left. cbn. unfold t_extended. rewrite HA. reflexivity.
Qed.
Lemma extract_yields t : additive t -> exists ps, extract t = Ok ps /\ (fold_right (fun p a => yield_of p + a) 0 ps == yield_of t)%Q.
Proof.
  induction t as [i o y|o y fs ps IH|o y ps IH|o y sp ls p IH] using tree_ind'; intros HA;
    (destruct (extract_cases _ HA) as [->|(o' & v & fs' & ps' & E & -> & AA & EV)]; [eexists; split; [reflexivity|cbn; lra]|]); try discriminate E.
  injection E as -> -> -> ->. unfold yield_of at 2. cbn [t_yield]. setoid_rewrite EV. clear HA EV. revert AA.
  induction ps' as [|p ps IHp]; intros AA; [exists []; split; [reflexivity|cbn; lra]|].
  apply Forall_cons_iff in IH as [IH1 IH2]. destruct AA as [A AA]. destruct (IH1 A) as (a & E & Ea). destruct (IHp IH2 AA) as (r & E' & Er).
  exists (a ++ r). cbn [extract_all]. rewrite E. cbn [bind]. rewrite E'. split; [reflexivity|]. rewrite fold_right_app. cbn [fold_right]. rewrite <- Ea, <- Er.
  clear. induction a as [|q a IHa]; cbn; [lra|]. rewrite IHa. lra.
Qed.
