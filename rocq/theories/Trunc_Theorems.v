(** Theorems about truncated PDFs (C35, C58). *)
From Verif Require Import Base BaseLemmas Disp_Model Disp_Spec Disp_Proofs Disp_Theorems Sum_Model Sum_Spec Sum_Proofs Trunc_Model Trunc_Spec Trunc_Proofs.
From Coq Require Import Lra Permutation Sorted.
#[local] Open Scope R_scope.

(** ** The limits *)

(** Limits are accepted exactly if no two of them overlap; they are then kept, ordered. *)
Theorem C35_limits : forall ls, Forall (fun l => fst l < snd l) ls ->
  (ForallOrdPairs apart ls ->
     exists ls', check_limits ls = Ok ls' /\ Permutation ls ls' /\ StronglySorted (fun l m => snd l <= fst m) ls') /\
  (~ ForallOrdPairs apart ls -> check_limits ls = Err ValueError).
Proof.
  intros ls HP. pose proof (sorted_perm ls) as P. pose proof (sorted_sorted ls) as SS.
  assert (HP' : Forall (fun l => fst l < snd l) (sorted_limits ls)) by (eapply Permutation_Forall; eassumption).
  assert (FP : forall a b : list interval, Permutation a b -> ForallOrdPairs apart a -> ForallOrdPairs apart b).
  { intros a b Hab. induction Hab as [|x a b Hab IH|x y a|a b c H1 IH1 H2 IH2]; intros H.
    - exact H.
    - inversion H as [|? ? A B]; subst. constructor; [eapply Permutation_Forall; eassumption|apply IH; exact B].
    - inversion H as [|? ? A B]; subst. inversion B as [|? ? C D]; subst. inversion A as [|? ? E F]; subst.
      constructor; [constructor; [destruct E; [right|left]; assumption|exact C]|constructor; [exact F|exact D]].
    - apply IH2, IH1, H. }
  assert (EQ : ForallOrdPairs apart (sorted_limits ls) <-> in_order (sorted_limits ls)).
  { unfold in_order. revert SS HP'. generalize (sorted_limits ls). intros l. induction l as [|x l IH]; intros SS HP'; [split; constructor|].
    apply StronglySorted_inv in SS. destruct SS as [S1 S2]. inversion HP' as [|? ? Q1 Q2]; subst. specialize (IH S1 Q2). split; intros H.
    - inversion H as [|? ? A B]; subst. constructor; [apply IH; exact B|]. rewrite Forall_forall in *. intros m Hm.
      specialize (A m Hm). specialize (S2 m Hm). specialize (Q2 m Hm). unfold by_lower in S2. destruct A as [A|A]; lra.
    - apply StronglySorted_inv in H. destruct H as [A B]. constructor; [|apply IH; exact A]. rewrite Forall_forall in *. intros m Hm. left. apply B. exact Hm. }
  assert (D : overlap (sorted_limits ls) = false <-> ForallOrdPairs apart ls).
  { rewrite overlap_iff, <- EQ. split; apply FP; [symmetry|]; exact P. }
  assert (C : check_limits ls = if overlap (sorted_limits ls) then Err ValueError else Ok (sorted_limits ls)).
  { unfold check_limits. destruct (sorted_limits ls) as [|x [|y r]]; reflexivity. }
  rewrite C. split.
  - intros H. apply D in H. rewrite H. exists (sorted_limits ls). split; [reflexivity|]. split; [exact P|]. apply overlap_iff. exact H.
  - intros H. destruct (overlap (sorted_limits ls)); [reflexivity|]. contradiction H. apply D. reflexivity.
Qed.
Example C35_ex_limits :
  ForallOrdPairs apart [(3, 4); (1, 2); (2, 3)] /\ check_limits [(3, 4); (1, 2); (2, 3)] = Ok [(1, 2); (2, 3); (3, 4)] /\
  check_limits [(1, 3); (2, 4)] = Err ValueError.
Proof.
  split; [repeat constructor; simpl; unfold apart; simpl; lra|].
  assert (B : forall a b, a <= b -> Rleb a b = true) by (intros a b; apply Rleb_iff). assert (B' : forall a b, b < a -> Rleb a b = false) by (intros a b; apply Rleb_false).
  split; unfold check_limits; cbn [sorted_limits insert fst snd];
    repeat (first [rewrite B by lra | rewrite B' by lra]; cbn [insert fst snd overlap existsb negb orb length Nat.eqb]); reflexivity.
Qed.

(** ** Row by row *)

(** Each row in one of the limits has the value of the wrapped PDF for that row, each other row has zero. The wrapped
    PDF only has to be defined within the limits: it is not called for any other row. *)
Theorem C35_rows : forall limits wrapped f xs,
  (forall rows, Forall (in_some limits) rows -> wrapped rows = Ok (map f rows)) ->
  exists vs, trunc_unnorm limits wrapped xs = Ok vs /\ length vs = length xs /\
    forall i x v, nth_error xs i = Some x -> nth_error vs i = Some v ->
      (in_some limits x -> v = f x) /\ (~ in_some limits x -> v = 0).
Proof.
  intros limits wrapped f xs H. exists (map (fun x => if anywhere limits x then f x else 0) xs). split; [|split; [apply map_length|]].
  - apply trunc_rows. apply H. rewrite Forall_forall. intros x Hx. apply filter_In in Hx. apply anywhere_iff, Hx.
  - intros i x v Hx Hv. rewrite nth_error_map, Hx in Hv. cbn [option_map] in Hv. injection Hv as <-. split; intros A.
    + apply anywhere_iff in A. rewrite A. reflexivity.
    + destruct (anywhere limits x) eqn:E; [apply anywhere_iff in E; contradiction|reflexivity].
Qed.
(** Hence: taking rows in another order, leaving out rows or repeating them does the same to the values, and joining data
    sets joins the values. *)
Theorem C35_select : forall limits wrapped f xs idx ys vs,
  (forall rows, Forall (in_some limits) rows -> wrapped rows = Ok (map f rows)) ->
  gather xs idx = Some ys -> trunc_unnorm limits wrapped xs = Ok vs ->
  exists ws, gather vs idx = Some ws /\ trunc_unnorm limits wrapped ys = Ok ws.
Proof.
  intros limits wrapped f xs idx ys vs H G V.
  assert (F : forall l, trunc_unnorm limits wrapped l = Ok (map (fun x => if anywhere limits x then f x else 0) l)).
  { intros l. apply trunc_rows. apply H. rewrite Forall_forall. intros x Hx. apply filter_In in Hx. apply anywhere_iff, Hx. }
  rewrite F in V. injection V as <-. exists (map (fun x => if anywhere limits x then f x else 0) ys). split; [|apply F].
  unfold gather in *. revert ys G. induction idx as [|i idx IH]; intros ys G; cbn [map all_some] in *; [injection G as <-; reflexivity|].
  rewrite nth_error_map. destruct (nth_error xs i) as [x|]; [|discriminate G]. cbn [option_map].
  destruct (all_some (map (nth_error xs) idx)) as [r|]; [|discriminate G]. injection G as <-. rewrite (IH r eq_refl). reflexivity.
Qed.
Theorem C35_concat : forall limits wrapped f xs ys vs ws,
  (forall rows, Forall (in_some limits) rows -> wrapped rows = Ok (map f rows)) ->
  trunc_unnorm limits wrapped xs = Ok vs -> trunc_unnorm limits wrapped ys = Ok ws ->
  trunc_unnorm limits wrapped (xs ++ ys) = Ok (vs ++ ws).
Proof.
  intros limits wrapped f xs ys vs ws H V W.
  assert (F : forall l, trunc_unnorm limits wrapped l = Ok (map (fun x => if anywhere limits x then f x else 0) l)).
  { intros l. apply trunc_rows. apply H. rewrite Forall_forall. intros x Hx. apply filter_In in Hx. apply anywhere_iff, Hx. }
  rewrite F in *. injection V as <-. injection W as <-. rewrite map_app. reflexivity.
Qed.

(** ** Integrals and densities *)

(** The truncated function is integrable if the function is, within the limits. *)
Theorem C58_integrable : forall limits f g I,
  StronglySorted (fun l m => snd l <= fst m) limits -> Forall (fun l => fst l < snd l) limits ->
  truncates limits f g -> integrals_within limits f I ->
  exists T, forall a b, a <= b -> integral_is g a b (T (a, b)).
Proof.
  intros limits f g I HO HP [G1 G2] HI. exists (fun l => sum_list (map (clip I (fst l) (snd l)) limits)). intros a b Hab. cbn [fst snd].
  apply (same_RInt (trunc limits f)); [exact Hab| |].
  - intros x _. destruct (anywhere limits x) eqn:E.
    + apply anywhere_iff in E. rewrite trunc_in by exact E. apply G1, E.
    + assert (N : ~ in_some limits x) by (intros N; apply anywhere_iff in N; congruence). rewrite trunc_out by exact N. apply G2, N.
  - apply trunc_RInt; [exact HO| |exact HI|exact Hab]. eapply Forall_impl; [|exact HP]. intros q Hq. lra.
Qed.

Lemma over_space : forall limits f g I T sp,
  StronglySorted (fun l m => snd l <= fst m) limits -> Forall (fun l => fst l < snd l) limits ->
  truncates limits f g -> integrals_within limits f I -> (forall a b, a <= b -> integral_is g a b (T (a, b))) ->
  fst sp <= snd sp -> Forall (fun l => fst sp <= fst l /\ snd l <= snd sp) limits ->
  T sp = sum_list (map I limits).
Proof.
  intros limits f g I T sp HO HP [G1 G2] HI HT Hsp Hin.
  assert (J : integral_is g (fst sp) (snd sp) (sum_list (map (clip I (fst sp) (snd sp)) limits))).
  { apply (same_RInt (trunc limits f)); [exact Hsp| |].
    - intros x _. destruct (anywhere limits x) eqn:E.
      + apply anywhere_iff in E. rewrite trunc_in by exact E. apply G1, E.
      + assert (N : ~ in_some limits x) by (intros N; apply anywhere_iff in N; congruence). rewrite trunc_out by exact N. apply G2, N.
    - apply trunc_RInt; [exact HO| |exact HI|exact Hsp]. eapply Forall_impl; [|exact HP]. intros q Hq. lra. }
  specialize (HT _ _ Hsp). rewrite <- surjective_pairing in HT. unfold integral_is in *.
  pose proof (RInt.is_RInt_unique (V := Hierarchy.R_CompleteNormedModule) _ _ _ _ J) as J'. pose proof (RInt.is_RInt_unique (V := Hierarchy.R_CompleteNormedModule) _ _ _ _ HT) as T'.
  rewrite J' in T'. rewrite <- T'. f_equal. apply map_ext_in. intros l Hl.
  rewrite Forall_forall in HP, Hin. apply (clip_within f I limits); [exact HI|exact Hl|specialize (HP l Hl); lra|apply Hin; exact Hl..].
Qed.

(** What the theorems below assume of the wrapped PDF: where the limits allow it, it behaves like [f] with integrals [I]. *)
Definition wraps (limits : list interval) (f : R -> R) (I : interval -> R) (w : model interval R) : Prop :=
  (forall l, In l limits -> integrate w [l] NormFalse = Val (I l)) /\
  (forall l, In l limits -> analytic_integrate w [l] NormFalse = Val (I l) \/ analytic_integrate w [l] NormFalse = EAnalytic) /\
  (forall x, in_some limits x -> pdf w x NormFalse = Val (f x)) /\
  integrals_within limits f I.

Lemma trunc_honest : forall eager eq_space eq_norm numeric w limits yield sp f g I T,
  StronglySorted (fun l m => snd l <= fst m) limits -> Forall (fun l => fst l < snd l) limits ->
  wraps limits f I w -> truncates limits f g ->
  (forall ls, eq_space ls = true -> ls = [sp]) -> fst sp <= snd sp ->
  Forall (fun l => fst sp <= fst l /\ snd l <= snd sp) limits ->
  (forall a b, a <= b -> integral_is g a b (T (a, b))) -> (forall ls, numeric ls = Val (total T ls)) ->
  (forall y, yield = Some y -> 0 < y) ->
  honest_pdf T g (trunc_model eager eq_space eq_norm numeric w limits yield).
Proof.
  intros eager eq_space eq_norm numeric w limits yield sp f g I T HO HP [W1 [W2 [W3 W4]]] G HE Hsp Hin HT HN HY.
  pose proof (over_space limits f g I T sp HO HP G W4 HT Hsp Hin) as TS.
  assert (SA : forall h : interval -> outcome, (forall l, In l limits -> h l = Val (I l)) -> sum_all (map h limits) = Val (T sp)).
  { intros h Hh. rewrite TS. clear -Hh. induction limits as [|l r IH]; [reflexivity|]. cbn [map sum_all sum_list].
    rewrite Hh by (left; reflexivity). rewrite IH by (intros m Hm; apply Hh; right; exact Hm). reflexivity. }
  assert (SB : forall h : interval -> outcome, (forall l, In l limits -> h l = Val (I l) \/ h l = EAnalytic) ->
           sum_all (map h limits) = Val (sum_list (map I limits)) \/ sum_all (map h limits) = EAnalytic).
  { intros h Hh. clear -Hh. induction limits as [|l r IH]; [left; reflexivity|]. cbn [map sum_all sum_list].
    destruct (Hh l) as [-> | ->]; [left; reflexivity| |right; reflexivity].
    destruct IH as [-> | ->]; [intros m Hm; apply Hh; right; exact Hm|left; reflexivity|right; reflexivity]. }
  assert (OV : forall n : norm interval, integral_of T [sp] n = match n with Norm nls => T sp / total T nls | _ => T sp end).
  { intros [| |nls]; cbn [integral_of total]; rewrite Rplus_0_r; reflexivity. }
  constructor; try (cbn [m_normalization m_pdf m_log_pdf m_ext_pdf m_ext_log_pdf trunc_model opt]; intros; exact Logic.I).
  - constructor; try (cbn [m_numeric trunc_model opt]; exact Logic.I); cbn [m_integrate m_analytic m_reg m_auto trunc_model opt].
    + intros ls n Hls Hm Hn. cbn [h_fun trunc_integrate_hook]. destruct (negb eager || negb (eq_space ls)) eqn:E; [exact Logic.I|].
      apply orb_false_elim in E. destruct E as [_ E]. apply negb_false_iff, HE in E. subst ls.
      rewrite (SA _ W1). rewrite OV. destruct n as [| |k]; [reflexivity..|]. discriminate (Hn (ex_intro _ k eq_refl)).
    + intros ls n Hls Hm Hn. cbn [h_fun trunc_analytic_hook]. destruct (negb eager || negb (eq_space ls)) eqn:E; [reflexivity|].
      apply orb_false_elim in E. destruct E as [_ E]. apply negb_false_iff, HE in E. subst ls.
      destruct (SB _ W2) as [-> | ->]; [|reflexivity]. rewrite OV, TS. destruct n as [| |k]; [reflexivity..|]. discriminate (Hn (ex_intro _ k eq_refl)).
    + discriminate.
    + exact HN.
  - intros x. cbn [m_unnorm trunc_model].
    rewrite (trunc_rows limits (rows_of w) f [x]).
    + cbn [map]. f_equal. destruct G as [G1 G2]. destruct (anywhere limits x) eqn:E; symmetry; [apply G1, anywhere_iff, E|].
      apply G2. intros N. apply anywhere_iff in N. congruence.
    + unfold rows_of. cbn [filter]. destruct (anywhere limits x) eqn:E; [|reflexivity].
      cbn [mapM map]. rewrite W3 by (apply anywhere_iff; exact E). reflexivity.
  - exact HY.
Qed.

(** With limits within the space of the PDF, the truncated PDF behaves like the truncated function: its integrals over all
    limits (several, with any norm) and its normalised density are those of the truncated function, in eager mode
    and in graphs alike. *)
Theorem C58_behaves : forall eager eq_space eq_norm numeric w limits yield sp f g I T,
  StronglySorted (fun l m => snd l <= fst m) limits -> Forall (fun l => fst l < snd l) limits ->
  wraps limits f I w -> truncates limits f g ->
  (forall ls, eq_space ls = true -> ls = [sp]) -> fst sp <= snd sp ->
  Forall (fun l => fst sp <= fst l /\ snd l <= snd sp) limits ->
  (forall a b, a <= b -> integral_is g a b (T (a, b))) -> (forall ls, numeric ls = Val (total T ls)) ->
  (forall y, yield = Some y -> 0 < y) ->
  behaves (fun _ => True) (fun _ => True) T g (trunc_model eager eq_space eq_norm numeric w limits yield).
Proof.
  intros eager eq_space eq_norm numeric w limits yield sp f g I T HO HP HW G HE Hsp Hin HT HN HY.
  pose proof (trunc_honest eager eq_space eq_norm numeric w limits yield sp f g I T HO HP HW G HE Hsp Hin HT HN HY) as HH.
  split.
  - intros ls n [Hl _] Hn. apply C36_integrate; [apply (hp_model _ _ _ HH)|exact Hl|intros nls E; apply (Hn nls E)].
  - intros x n _ Hn Hd. apply C57_pdf; [exact HH|intros nls E; apply (Hn nls E)|exact Hd].
Qed.

(** The analytic integral of the truncated PDF is the integral of the truncated function, or there is none. *)
Theorem C58_analytic : forall eager eq_space eq_norm numeric w limits yield sp f g I T ls n,
  StronglySorted (fun l m => snd l <= fst m) limits -> Forall (fun l => fst l < snd l) limits ->
  wraps limits f I w -> truncates limits f g ->
  (forall ls, eq_space ls = true -> ls = [sp]) -> fst sp <= snd sp ->
  Forall (fun l => fst sp <= fst l /\ snd l <= snd sp) limits ->
  (forall a b, a <= b -> integral_is g a b (T (a, b))) -> (forall ls, numeric ls = Val (total T ls)) ->
  (forall y, yield = Some y -> 0 < y) -> ls <> [] -> (forall nls, n = Norm nls -> nls <> []) ->
  let m := trunc_model eager eq_space eq_norm numeric w limits yield in
  analytic_integrate m ls n = Val (integral_of T ls n) \/ analytic_integrate m ls n = EAnalytic \/
  (analytic_integrate m ls n = ENorm /\ exists nls, n = Norm nls).
Proof.
  intros eager eq_space eq_norm numeric w limits yield sp f g I T ls n HO HP HW G HE Hsp Hin HT HN HY Hls Hn m.
  apply (C36_analytic _ _ T); [|exact Hls|exact Hn].
  apply (hp_model _ g). apply (trunc_honest eager eq_space eq_norm numeric w limits yield sp f g I T); assumption.
Qed.
(** It exists for the space itself, in eager mode, if the wrapped PDF has analytic integrals over the limits. *)
Theorem C58_analytic_exists : forall eq_space eq_norm numeric w limits yield sp (I : interval -> R),
  eq_space [sp] = true -> (forall l, In l limits -> analytic_integrate w [l] NormFalse = Val (I l)) ->
  analytic_integrate (trunc_model true eq_space eq_norm numeric w limits yield) [sp] NormFalse = Val (sum_list (map I limits)).
Proof.
  intros eq_space eq_norm numeric w limits yield sp I HE HA.
  assert (SA : sum_all (map (fun l => analytic_integrate w [l] NormFalse) limits) = Val (sum_list (map I limits))).
  { clear -HA. induction limits as [|l r IH]; [reflexivity|]. cbn [map sum_all sum_list].
    rewrite HA by (left; reflexivity). rewrite IH by (intros m Hm; apply HA; right; exact Hm). reflexivity. }
  set (m := trunc_model true eq_space eq_norm numeric w limits yield).
  assert (K : call m (m_analytic m) [sp] NormFalse = Val (sum_list (map I limits))).
  { cbn [m_analytic m trunc_model call trunc_analytic_hook h_supp s_multi negb andb length Nat.ltb Nat.leb check_norm s_true h_fun]. rewrite HE. exact SA. }
  unfold analytic_integrate, norm_analytic, limits_with, call_analytic. rewrite K. reflexivity.
Qed.

(** ** The yield *)

(** By default, the truncated PDF of an extended PDF has the same extended density as the PDF itself, within the limits, and zero
    outside. *)
Theorem C58_extended : forall eager eq_space eq_norm numeric w_obs (w : model interval R) (ls : list interval) (sp : interval) ext m (f g : R -> R) (I T : interval -> R) y,
  Forall (fun l => fst l < snd l) ls -> Forall (fun l => fst sp <= fst l /\ snd l <= snd sp) ls -> fst sp <= snd sp ->
  (forall lm, eq_space lm = true -> lm = [sp]) ->
  honest_pdf I f w -> m_yield w = Some y -> (forall x, ext_pdf w x (Norm [sp]) = Val (y * density_of I f x (Norm [sp]))) -> 0 < I sp -> 0 < T sp ->
  integrals_within ls f I -> truncates ls f g ->
  (forall a b, a <= b -> integral_is g a b (T (a, b))) -> (forall lm, numeric lm = Val (total T lm)) ->
  ext = ExtNone \/ ext = ExtTrue ->
  trunc_init eager eq_space eq_norm numeric w_obs w_obs w sp ls ext = Ok m ->
  m_yield m = Some (y * (T sp / I sp)) /\
  forall x, (in_some ls x -> ext_pdf m x (Norm [sp]) = ext_pdf w x (Norm [sp])) /\
            (~ in_some ls x -> ext_pdf m x (Norm [sp]) = Val 0).
Proof.
  intros eager eq_space eq_norm numeric w_obs w ls sp ext m f g I T y HP Hin Hsp HE HW Hy HX HIs HTs HI G HT HN Hext H.
  unfold trunc_init in H. destruct (check_limits ls) as [limits|e] eqn:CL; [|discriminate H]. cbn [bind] in H.
  assert (PO : Permutation ls limits /\ in_order limits).
  { unfold check_limits in CL. assert (C : overlap (sorted_limits ls) = false /\ limits = sorted_limits ls).
    { destruct (sorted_limits ls) as [|a [|b r]]; cbn [length Nat.eqb] in CL; [injection CL as <-; auto..|].
      destruct (overlap (a :: b :: r)); [discriminate CL|]. injection CL as <-. auto. }
    destruct C as [C ->]. split; [apply sorted_perm|apply overlap_iff, C]. }
  destruct PO as [P HO].
  assert (HP' : Forall (fun l => fst l < snd l) limits) by (eapply Permutation_Forall; eassumption).
  assert (Hin' : Forall (fun l => fst sp <= fst l /\ snd l <= snd sp) limits) by (eapply Permutation_Forall; eassumption).
  assert (IS : forall x, in_some limits x <-> in_some ls x).
  { intros x. split; intros [l [A B]]; exists l; (split; [|exact B]); [symmetry in P|]; eapply Permutation_in; eassumption. }
  assert (G' : truncates limits f g).
  { destruct G as [G1 G2]. split; intros x Hx; [apply G1, IS, Hx|apply G2; intros N; apply Hx, IS, N]. }
  assert (HI' : integrals_within limits f I).
  { intros a b l Hl. apply HI. symmetry in P. eapply Permutation_in; eassumption. }
  assert (WI : forall l : interval, integrate w [l] NormFalse = Val (I l)).
  { intros l. etransitivity; [apply (C36_integrate _ _ I w [l] NormFalse (hp_model _ _ _ HW)); discriminate|]. cbn [integral_of total]. rewrite Rplus_0_r. reflexivity. }
  assert (W : wraps limits f I w).
  { split; [intros l _; apply WI|]. split; [|split; [|exact HI']].
    - intros l _. destruct (C36_analytic _ _ I w [l] NormFalse (hp_model _ _ _ HW)) as [A|[A|[_ [k A]]]]; [discriminate|discriminate| | |discriminate A].
      + left. etransitivity; [exact A|]. cbn [integral_of total]. rewrite Rplus_0_r. reflexivity.
      + right. exact A.
    - intros x _. apply (C57_pdf _ _ I f w x NormFalse HW); discriminate. }
  pose proof (over_space limits f g I T sp HO HP' G' HI' HT Hsp Hin') as TS.
  assert (SY : trunc_yield w sp limits ext = Some (Val (y * (T sp / I sp)))).
  { assert (SC : scaled_yield w sp limits y = Val (y * (T sp / I sp))).
    { unfold scaled_yield. rewrite WI. assert (S1 : sum_all (map (fun l => map_val (fun v => v / I sp) (integrate w [l] NormFalse)) limits) = Val (sum_list (map I limits) / I sp)).
      { clear -WI HIs. induction limits as [|l r IH]; cbn [map sum_all sum_list]; [f_equal; field; lra|]. rewrite WI. cbn [map_val]. rewrite IH. f_equal. field. lra. }
      rewrite S1. cbn [map_val]. rewrite TS. reflexivity. }
    unfold trunc_yield. destruct Hext as [-> | ->]; rewrite Hy, SC; reflexivity. }
  rewrite SY in H. destruct (list_eq_dec string_dec w_obs w_obs) as [_|N]; [|contradiction N; reflexivity]. injection H as <-.
  assert (Y0 : 0 < y) by (apply (hp_yield _ _ _ HW y Hy)).
  assert (Q : 0 < y * (T sp / I sp)) by (apply Rmult_lt_0_compat; [exact Y0|apply Rdiv_lt_0_compat; assumption]).
  split; [reflexivity|]. intros x.
  assert (HH : honest_pdf T g (trunc_model eager eq_space eq_norm numeric w limits (Some (y * (T sp / I sp))))).
  { apply (trunc_honest eager eq_space eq_norm numeric w limits _ sp f g I T); auto. intros y' E. injection E as <-. exact Q. }
  assert (E1 : ext_pdf (trunc_model eager eq_space eq_norm numeric w limits (Some (y * (T sp / I sp)))) x (Norm [sp])
             = Val ((y * (T sp / I sp)) * density_of T g x (Norm [sp]))).
  { apply (C57_ext_pdf _ _ T g _ x (Norm [sp]) _ HH); [intros k E; injection E as <-; discriminate|discriminate|reflexivity|discriminate]. }
  assert (E2 : ext_pdf w x (Norm [sp]) = Val (y * density_of I f x (Norm [sp]))) by apply HX.
  rewrite E1, E2. cbn [density_of total]. rewrite !Rplus_0_r. destruct G as [G1 G2]. split; intros A.
  - rewrite (G1 x A). f_equal. field. lra.
  - rewrite (G2 x A). f_equal. field. lra.
Qed.
(** Other arguments for the yield: a yield given is used, False gives none, True for a PDF that is not extended gives one; limits that
    overlap and other observables are refused. *)
Theorem C58_init : forall eager eq_space eq_norm numeric w_obs obs w sp ls ext m,
  trunc_init eager eq_space eq_norm numeric w_obs obs w sp ls ext = Ok m ->
  obs = w_obs /\ (exists limits, check_limits ls = Ok limits) /\
  match ext with
  | ExtYield y => m_yield m = Some y
  | ExtFalse => m_yield m = None
  | ExtTrue => m_yield m <> None /\ (m_yield w = None -> m_yield m = Some 1)
  | ExtNone => m_yield m = None <-> m_yield w = None
  end.
Proof.
  intros eager eq_space eq_norm numeric w_obs obs w sp ls ext m H. unfold trunc_init in H. destruct (check_limits ls) as [limits|e]; [|discriminate H]. cbn [bind] in H.
  assert (A : match trunc_yield w sp limits ext with
              | None => obs = w_obs /\ m_yield m = None
              | Some (Val y) => obs = w_obs /\ m_yield m = Some y
              | _ => False
              end).
  { destruct (trunc_yield w sp limits ext) as [[]|]; try discriminate H; (destruct (list_eq_dec string_dec obs w_obs); [|discriminate H]); injection H as <-; auto. }
  clear H. split; [destruct (trunc_yield w sp limits ext) as [[]|]; tauto|]. split; [exists limits; reflexivity|].
  unfold trunc_yield in A. destruct ext.
  - destruct (m_yield w) as [y|]; [|tauto]. destruct (scaled_yield w sp limits y); try contradiction. destruct A as [_ A]; rewrite A; split; discriminate.
  - destruct (m_yield w); tauto.
  - destruct (m_yield w) as [y|]; [|destruct A as [_ ->]; split; [discriminate|reflexivity]].
    destruct (scaled_yield w sp limits y); try contradiction. destruct A as [_ ->]; split; discriminate.
  - tauto.
Qed.

(** ** Limits that stick out of the space *)

Definition length_of (l : interval) : R := snd l - fst l.
(** The uniform PDF with all its integrals *)
Definition flat (yield : option R) : model interval R :=
  mkModel (fun _ => false) (fun _ => false) None None (fun _ => None) None (fun ls => Val (total length_of ls)) None None None None None (fun _ => Val 1) yield.
Lemma flat_honest : forall y, (forall v, y = Some v -> 0 < v) -> honest_pdf length_of (fun _ => 1) (flat y).
Proof.
  intros y Hy. constructor; simpl; auto. constructor; simpl; auto. intros ls h H. discriminate H.
Qed.
Lemma flat_integrals : forall limits, integrals_within limits (fun _ => 1) length_of.
Proof.
  intros limits a b l _ _ _ _. unfold integral_is, length_of. cbn [fst snd].
  pose proof (RInt.is_RInt_const (V := Hierarchy.R_NormedModule) a b 1) as K. change (RInt.is_RInt (V := Hierarchy.R_NormedModule) (fun _ : R => 1) a b ((b - a) * 1)) in K.
  rewrite Rmult_1_r in K. exact K.
Qed.
Lemma flat_wraps : forall limits y, (forall v, y = Some v -> 0 < v) -> wraps limits (fun _ => 1) length_of (flat y).
Proof.
  intros limits y Hy. pose proof (flat_honest y Hy) as HW. split; [|split; [|split; [|apply flat_integrals]]].
  - intros l _. rewrite (C36_integrate _ _ length_of (flat y) [l] NormFalse (hp_model _ _ _ HW)); [cbn [integral_of total]; rewrite Rplus_0_r; reflexivity|discriminate|discriminate].
  - intros l _. right. reflexivity.
  - intros x _. destruct y; reflexivity.
Qed.

(** The claim that the integral over the space is the integral of the truncated function there is false for limits that stick
    out of the space: in eager mode the integral is taken over the whole of the limits; in a graph it is right. *)
Theorem C58_outside_space_refuted : forall eq_norm,
  exists (w : model interval R) (sp : interval) (limits : list interval) (f g : R -> R) (I T : interval -> R),
    wraps limits f I w /\ truncates limits f g /\ (forall a b, a <= b -> integral_is g a b (T (a, b))) /\
    let eq_space ls := match ls with [l] => if Rleb (fst l) 0 && Rleb 0 (fst l) && Rleb (snd l) 1 && Rleb 1 (snd l) then true else false | _ => false end in
    let m eager := trunc_model eager eq_space eq_norm (fun ls => Val (total T ls)) w limits None in
    sp = (0, 1) /\ integral_is g 0 1 1 /\ integrate (m true) [sp] NormFalse = Val 2 /\ integrate (m false) [sp] NormFalse = Val 1.
Proof.
  intros eq_norm. exists (flat None), (0, 1), [(0, 2)], (fun _ => 1), (trunc [(0, 2)] (fun _ => 1)), length_of,
    (fun l => sum_list (map (clip length_of (fst l) (snd l)) [(0, 2)])).
  assert (T0 : forall a b, a <= b -> integral_is (trunc [(0, 2)] (fun _ => 1)) a b (sum_list (map (clip length_of a b) [(0, 2)]))).
  { intros a b Hab. apply trunc_RInt; [repeat constructor|repeat constructor; simpl; lra|apply flat_integrals|exact Hab]. }
  assert (V : sum_list (map (clip length_of 0 1) [(0, 2)]) = 1).
  { cbn [map sum_list]. unfold clip. cbn [fst snd]. rewrite Rmax_right by lra. rewrite Rmin_left by lra. destruct (Rlt_dec 0 1); [|lra]. unfold length_of. cbn [fst snd]. lra. }
  split; [apply flat_wraps; discriminate|]. split; [split; intros x Hx; [apply trunc_in, Hx|apply trunc_out, Hx]|].
  split; [intros a b Hab; apply T0; exact Hab|].
  assert (B : Rleb 0 0 = true /\ Rleb 1 1 = true) by (split; apply Rleb_iff; lra). destruct B as [B0 B1].
  cbv zeta. split; [reflexivity|]. split; [pose proof (T0 0 1 ltac:(lra)) as J; rewrite V in J; exact J|]. split.
  - unfold integrate, norm_with, limits_with, call_integrate.
    cbn [m_integrate trunc_model call trunc_integrate_hook h_supp s_multi negb andb length Nat.ltb Nat.leb check_norm s_true h_fun fst snd].
    rewrite B0, B1. cbn [andb negb orb map]. destruct (flat_wraps [(0, 2)] None ltac:(discriminate)) as [W1 _].
    rewrite W1 by (left; reflexivity). cbn [sum_all]. unfold length_of. cbn [fst snd]. f_equal. lra.
  - unfold integrate, norm_with, limits_with, call_integrate.
    cbn [m_integrate trunc_model call trunc_integrate_hook h_supp s_multi negb andb orb length Nat.ltb Nat.leb check_norm s_true h_fun].
    unfold norm_analytic, limits_with, call_analytic. cbn [m_analytic m_reg m_numeric m_auto trunc_model call trunc_analytic_hook h_supp s_multi negb andb orb length Nat.ltb Nat.leb check_norm s_true h_fun].
    unfold norm_with, limits_with, call_numeric. cbn [m_numeric m_auto trunc_model call total fst snd]. rewrite V. f_equal. lra.
Qed.

(** ** Examples: the hypotheses can be met *)

Definition ex_limits : list interval := [(1, 2); (3, 5)].
Example C35_ex_rows : trunc_unnorm ex_limits (fun rows => Ok (map (fun x => x * 10) rows)) [4; 0; 1; 6; 4] = Ok [40; 0; 10; 0; 40].
Proof.
  rewrite (trunc_rows ex_limits _ (fun x => x * 10)) by reflexivity.
  assert (A : forall x, in_some ex_limits x -> anywhere ex_limits x = true) by (intros x; apply anywhere_iff).
  assert (B : forall x, ~ in_some ex_limits x -> anywhere ex_limits x = false).
  { intros x H. destruct (anywhere ex_limits x) eqn:E; [apply anywhere_iff in E; contradiction|reflexivity]. }
  cbn [map]. rewrite (A 4), (B 0), (A 1), (B 6).
  - do 2 f_equal; try lra. do 2 f_equal; try lra. do 2 f_equal; lra.
  - intros [l [[<-|[<-|[]]] H]]; simpl in H; lra.
  - exists (1, 2). simpl. split; [auto|lra].
  - intros [l [[<-|[<-|[]]] H]]; simpl in H; lra.
  - exists (3, 5). simpl. split; [auto|lra].
Qed.
Example C58_ex_behaves : exists T, behaves (fun _ => True) (fun _ => True) T (trunc ex_limits (fun _ => 1))
  (trunc_model true (fun _ => false) (fun _ => false) (fun ls => Val (total T ls)) (flat None) ex_limits None) /\ T (0, 6) = 3.
Proof.
  assert (HO : StronglySorted (fun l m : interval => snd l <= fst m) ex_limits) by (repeat constructor; simpl; lra).
  assert (HP : Forall (fun l : interval => fst l < snd l) ex_limits) by (repeat constructor; simpl; lra).
  assert (Hin : Forall (fun l : interval => fst (0, 6) <= fst l /\ snd l <= snd (0, 6)) ex_limits) by (repeat constructor; simpl; lra).
  assert (G : truncates ex_limits (fun _ => 1) (trunc ex_limits (fun _ => 1))) by (split; intros x Hx; [apply trunc_in, Hx|apply trunc_out, Hx]).
  destruct (C58_integrable ex_limits (fun _ => 1) (trunc ex_limits (fun _ => 1)) length_of HO HP G (flat_integrals _)) as [T HT].
  exists T. split.
  - apply (C58_behaves true (fun _ => false) (fun _ => false) _ (flat None) ex_limits None (0, 6) (fun _ => 1) _ length_of T HO HP); auto.
    + apply flat_wraps. discriminate.
    + discriminate.
    + simpl. lra.
    + discriminate.
  - rewrite (over_space ex_limits (fun _ => 1) _ length_of T (0, 6) HO HP G (flat_integrals _) HT); [|simpl; lra|exact Hin]. unfold length_of. simpl. lra.
Qed.
Example C58_ex_extended : exists T m,
  trunc_init true (fun _ => false) (fun _ => false) (fun ls => Val (total T ls)) ["x"%string] ["x"%string] (flat (Some 12)) (0, 6) [(3, 5); (1, 2)] ExtNone = Ok m /\
  m_yield m = Some 6 /\ ext_pdf m 4 (Norm [(0, 6)]) = Val 2 /\ ext_pdf (flat (Some 12)) 4 (Norm [(0, 6)]) = Val 2.
Proof.
  assert (HO : StronglySorted (fun l m : interval => snd l <= fst m) ex_limits) by (repeat constructor; simpl; lra).
  assert (HP : Forall (fun l : interval => fst l < snd l) ex_limits) by (repeat constructor; simpl; lra).
  assert (HP2 : Forall (fun l : interval => fst l < snd l) [(3, 5); (1, 2)]) by (repeat constructor; simpl; lra).
  assert (Hin : Forall (fun l : interval => fst (0, 6) <= fst l /\ snd l <= snd (0, 6)) ex_limits) by (repeat constructor; simpl; lra).
  assert (Hin2 : Forall (fun l : interval => fst (0, 6) <= fst l /\ snd l <= snd (0, 6)) [(3, 5); (1, 2)]) by (repeat constructor; simpl; lra).
  assert (G : truncates ex_limits (fun _ => 1) (trunc ex_limits (fun _ => 1))) by (split; intros x Hx; [apply trunc_in, Hx|apply trunc_out, Hx]).
  assert (G2 : truncates [(3, 5); (1, 2)] (fun _ => 1) (trunc ex_limits (fun _ => 1))).
  { destruct G as [A B]. split; intros x Hx; [apply A|apply B].
    - destruct Hx as [l [Hl Hx]]. exists l. split; [|exact Hx]. simpl in *. tauto.
    - intros [l [Hl Hx']]. apply Hx. exists l. split; [|exact Hx']. simpl in *. tauto. }
  destruct (C58_integrable ex_limits (fun _ => 1) (trunc ex_limits (fun _ => 1)) length_of HO HP G (flat_integrals _)) as [T HT].
  assert (TS : T (0, 6) = 3).
  { rewrite (over_space ex_limits (fun _ => 1) _ length_of T (0, 6) HO HP G (flat_integrals _) HT); [|simpl; lra|exact Hin]. unfold length_of. simpl. lra. }
  assert (HF : honest_pdf length_of (fun _ => 1) (flat (Some 12))) by (apply flat_honest; intros v E; injection E as <-; lra).
  exists T.
  assert (CL : check_limits [(3, 5); (1, 2)] = Ok ex_limits).
  { assert (B : forall a b, a <= b -> Rleb a b = true) by (intros a b; apply Rleb_iff). assert (B' : forall a b, b < a -> Rleb a b = false) by (intros a b; apply Rleb_false).
    unfold check_limits; cbn [sorted_limits insert fst snd]; repeat (first [rewrite B by lra | rewrite B' by lra]; cbn [insert fst snd overlap existsb negb orb length Nat.eqb]); reflexivity. }
  assert (W0 : forall l : interval, integrate (flat (Some 12)) [l] NormFalse = Val (length_of l)).
  { intros l. etransitivity; [apply (C36_integrate _ _ length_of (flat (Some 12)) [l] NormFalse (hp_model _ _ _ HF)); discriminate|].
    cbn [integral_of total]. rewrite Rplus_0_r. reflexivity. }
  assert (I : exists m, trunc_init true (fun _ => false) (fun _ => false) (fun ls => Val (total T ls)) ["x"%string] ["x"%string] (flat (Some 12)) (0, 6) [(3, 5); (1, 2)] ExtNone = Ok m).
  { unfold trunc_init. rewrite CL. cbn [bind]. unfold trunc_yield. cbn [m_yield flat]. unfold scaled_yield. rewrite W0. unfold ex_limits in *. cbn [map].
    rewrite !W0. cbn [map_val sum_all]. cbn [list_eq_dec]. eexists. reflexivity. }
  destruct I as [m Hm]. exists m. split; [exact Hm|].
  destruct (C58_extended true (fun _ => false) (fun _ => false) (fun ls => Val (total T ls)) ["x"%string] (flat (Some 12)) [(3, 5); (1, 2)] (0, 6) ExtNone m
    (fun _ => 1) (trunc ex_limits (fun _ => 1)) length_of T 12) as [E1 E2]; auto.
  - simpl. lra.
  - discriminate.
  - intros x. apply (C57_ext_pdf _ _ length_of (fun _ => 1) (flat (Some 12)) x (Norm [(0, 6)]) 12 HF); [intros k E; injection E as <-; discriminate|discriminate|reflexivity|discriminate].
  - unfold length_of. simpl. lra.
  - rewrite TS. lra.
  - apply flat_integrals.
  - assert (EF : ext_pdf (flat (Some 12)) 4 (Norm [(0, 6)]) = Val 2).
    { rewrite (C57_ext_pdf _ _ length_of (fun _ => 1) (flat (Some 12)) 4 (Norm [(0, 6)]) 12 HF); [|intros k E; injection E as <-; discriminate|discriminate|reflexivity|discriminate].
      unfold length_of. simpl. f_equal. lra. }
    split; [rewrite E1, TS; unfold length_of; simpl; f_equal; lra|]. split; [|exact EF].
    rewrite <- EF. apply E2. exists (3, 5). simpl. split; [auto|lra].
Qed.

Print Assumptions C35_limits. Print Assumptions C35_rows. Print Assumptions C58_behaves. Print Assumptions C58_extended. Print Assumptions C58_outside_space_refuted.
