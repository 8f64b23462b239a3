(** Lemmas about plots. *)
From Coq Require Import Lia Lqa Qfield.
From Verif Require Import Base BaseLemmas PGraph_Proofs Plot_Model Plot_Spec.
Open Scope Q_scope.
Open Scope list_scope.

Lemma linspace_length lo hi n : length (linspace lo hi n) = n.
Proof. unfold linspace. now rewrite map_length, seq_length. Qed.
Lemma linspace_nth lo hi n i x : nth_error (linspace lo hi n) i = Some x ->
  (i < n)%nat /\ x = lo + (hi - lo) * (inject_Z (Z.of_nat i) / inject_Z (Z.of_nat (n - 1))).
Proof.
  intros H. assert (L : (i < n)%nat). { rewrite <- (linspace_length lo hi n). apply nth_error_Some. congruence. }
  split; [exact L|]. unfold linspace in H. rewrite nth_error_map in H. destruct (nth_error (seq 0 n) i) as [k|] eqn:E; [|discriminate].
  cbn in H. injection H as <-. apply (nth_error_nth _ _ 0%nat) in E. rewrite seq_nth in E; [|exact L]. cbn in E. now subst k.
Qed.

Lemma nth_error_combine {A B} (l : list A) (l' : list B) i x y :
  nth_error (combine l l') i = Some (x, y) <-> nth_error l i = Some x /\ nth_error l' i = Some y.
Proof.
  revert l' i. induction l as [|a l IH]; intros l' i; [split; [destruct i; discriminate|intros [X _]; destruct i; discriminate]|].
  destruct l' as [|b l']; [split; [destruct i; discriminate|intros [_ X]; destruct i; discriminate]|].
  destruct i as [|i]; cbn; [|apply IH]. split; [intros E; injection E as -> ->; now split|intros [E1 E2]; injection E1 as ->; injection E2 as ->; reflexivity].
Qed.

Lemma points_nth lo hi n (f : Q -> Q) i x y :
  nth_error (combine (linspace lo hi n) (map f (linspace lo hi n))) i = Some (x, y) ->
  nth_error (linspace lo hi n) i = Some x /\ y = f x.
Proof.
  intros H. apply nth_error_combine in H as (A & B). split; [exact A|]. rewrite nth_error_map, A in B. cbn in B. now injection B as <-.
Qed.

Lemma inject_pos n : (1 <= n)%nat -> 0 < inject_Z (Z.of_nat n).
Proof. intros L. change 0 with (inject_Z 0). rewrite <- Zlt_Qlt. lia. Qed.

Lemma draws_ok lo hi n (f : Q -> Q) :
  draws (combine (linspace lo hi n) (map f (linspace lo hi n))) lo hi n f.
Proof.
  unfold draws. split; [rewrite combine_length, map_length, linspace_length; lia|]. split.
  { intros i x y H. apply points_nth in H as (_ & ->). reflexivity. } split.
  { intros x y H. apply points_nth in H as (H & _). apply linspace_nth in H as (_ & ->). cbn. unfold Qdiv. rewrite Qmult_0_l, Qmult_0_r. apply Qplus_0_r. } split.
  { intros x y N H. apply points_nth in H as (H & _). apply linspace_nth in H as (_ & ->).
    assert (P := inject_pos (n - 1) ltac:(lia)). field. intros E. rewrite E in P. apply (Qlt_irrefl _ P). }
  intros i x y x' y' H H'. apply points_nth in H as (H & _), H' as (H' & _).
  apply linspace_nth in H as (_ & ->), H' as (L & ->).
  assert (P := inject_pos (n - 1) ltac:(lia)). replace (Z.of_nat (S i)) with (Z.of_nat i + 1)%Z by lia. rewrite inject_Z_plus.
  change (inject_Z 1) with 1. field. intros E. rewrite E in P. apply (Qlt_irrefl _ P).
Qed.

Lemma plot_ok m a ob lo hi : range m (a_obs a) = Ok (ob, (lo, hi)) ->
  (extended_drawn a m = true -> exists y, p_yield m = Some y) ->
  let n := or_else (a_num a) 300%nat in
  let label := match or_else (a_kwargs a) None with Some l => Some l | None => if or_else (a_full a) true then Some (p_label m) else None end in
  plot_model m a = Ok (mkCurve (combine (linspace lo hi n)
       (map (fun x => height (extended_drawn a m) m ob x * or_else (a_scale a) 1) (linspace lo hi n))) label (a_style a),
     match a_kwargs a with None => None | Some _ => Some label end).
Proof.
  intros R E. cbv zeta. unfold plot_model. rewrite R. change (or_else (a_extended a) (match p_yield m with Some _ => true | None => false end)) with (extended_drawn a m).
  set (n := or_else (a_num a) 300%nat). set (s := or_else (a_scale a) 1). set (ex := extended_drawn a m) in *.
  destruct ex.
  - destruct (E eq_refl) as [y YI].
    assert (M : forall l, mapM (ext_density m ob) l = Ok (map (height true m ob) l)).
    { intros l. induction l as [|x l IH]; [reflexivity|]. cbn [mapM map]. rewrite IH. unfold ext_density, height. now rewrite YI. }
    rewrite M, map_map. reflexivity.
  - rewrite map_map. reflexivity.
Qed.

(** ** The parts of a sum *)
Definition fits (a : args) (ob : string) (lo hi : Q) (m : pdf) : Prop :=
  range m (a_obs a) = Ok (ob, (lo, hi)) /\ (extended_drawn a m = true -> exists y, p_yield m = Some y).
Definition part_points (a : args) (ob : string) (lo hi scale : Q) (p : pdf * Q) : list (Q * Q) :=
  let xs := linspace lo hi (or_else (a_num a) 300%nat) in
  combine xs (map (fun x => height (extended_drawn a (fst p)) (fst p) ob x * (snd p * scale)) xs).

Lemma parts_ok ob lo hi scale parts a : Forall (fun p => fits a ob lo hi (fst p)) parts ->
  exists cs k, plot_parts parts scale a = (cs, k, Ok tt)
    /\ Forall2 (fun p c => c_points c = part_points a ob lo hi scale p /\ c_style c = a_style a) parts cs.
Proof.
  revert a. induction parts as [|[m f] parts IH]; intros a F.
  - exists [], (a_kwargs a). split; [reflexivity|constructor].
  - inversion F as [|? ? [R E] F']; subst. cbn [fst] in *. cbn [plot_parts].
    rewrite (plot_ok m (with_scale a (f * scale)) ob lo hi R E). cbv zeta.
    set (k := match a_kwargs (with_scale a (f * scale)) with None => None | Some _ => _ end). clearbody k.
    destruct (IH (with_kwargs a k)) as (cs & k' & P & FF).
    { clear - F'. induction F' as [|p l [R E] F' IH]; constructor; [split; [exact R|exact E]|exact IH]. }
    rewrite P. eexists. exists k'. split; [reflexivity|]. constructor; [split; reflexivity|exact FF].
Qed.

Lemma add_up_ok {P : Type} (parts : list P) (cs : list curve) whole xs (g : P -> Q -> Q) (G : Q -> Q) factor :
  Forall2 (fun p c => c_points c = combine xs (map (g p) xs)) parts cs ->
  c_points whole = combine xs (map G xs) ->
  (forall x, total (map (fun p => g p x) parts) == G x * factor) -> add_up cs whole factor.
Proof.
  intros F W T i x y H. rewrite W in H. apply nth_error_combine in H as (HX & HY). rewrite nth_error_map, HX in HY. cbn in HY. injection HY as <-.
  exists (map (fun p => g p x) parts). split; [|apply T].
  clear - F HX. induction F as [|p c parts cs E F IH]; cbn [map]; constructor; [|exact IH].
  rewrite E. apply nth_error_combine. split; [exact HX|]. now rewrite nth_error_map, HX.
Qed.

Lemma total_ext {A} (f g : A -> Q) l : (forall x, In x l -> f x == g x) -> total (map f l) == total (map g l).
Proof.
  induction l as [|x l IH]; intros H; cbn; [reflexivity|]. rewrite (H x (or_introl eq_refl)), IH; [reflexivity|]. intros y I. apply H. now right.
Qed.
Lemma total_scale {A} (f : A -> Q) s l : total (map (fun x => f x * s) l) == total (map f l) * s.
Proof. induction l as [|x l IH]; cbn; [ring|]. rewrite IH. ring. Qed.
Lemma total_lt {A} (f g : A -> Q) l : l <> [] -> (forall x, In x l -> f x < g x) -> total (map f l) < total (map g l).
Proof.
  intros N. induction l as [|x l IH]; [congruence|]. intros H. cbn. assert (X := H x (or_introl eq_refl)).
  destruct l as [|y l]; [cbn; lra|]. assert (Y := IH ltac:(discriminate) (fun z I => H z (or_intror I))). cbn [map total] in *. lra.
Qed.

(** Labels *)
Lemma parts_label parts scale a cs k l : a_kwargs a = Some (Some l) -> plot_parts parts scale a = (cs, k, Ok tt) ->
  Forall (fun c => c_label c = Some l) cs /\ k = Some (Some l).
Proof.
  revert a cs. induction parts as [|[m f] parts IH]; intros a cs K H; cbn [plot_parts] in H.
  - injection H as <- <-. split; [constructor|exact K].
  - destruct (plot_model m (with_scale a (f * scale))) as [[c k1]|e] eqn:P; [|discriminate].
    destruct (plot_parts parts scale (with_kwargs a k1)) as [[cs' k'] r] eqn:R. injection H as <- <- ->.
    assert (X : c_label c = Some l /\ k1 = Some (Some l)).
    { unfold plot_model in P. destruct (range _ _) as [[ob [lo hi]]|]; [|discriminate]. destruct (if or_else (a_extended _) _ then _ else _); [|discriminate].
      injection P as <- <-. cbn. rewrite K. cbn. split; reflexivity. }
    destruct X as (X1 & ->). destruct (IH (with_kwargs a (Some (Some l))) cs' eq_refl R) as (Y1 & Y2). split; [constructor; assumption|exact Y2].
Qed.
Lemma parts_label_first m f parts scale a cs k : a_kwargs a = Some None -> a_full a <> Some false -> plot_parts ((m, f) :: parts) scale a = (cs, k, Ok tt) ->
  Forall (fun c => c_label c = Some (p_label m)) cs /\ k = Some (Some (p_label m)).
Proof.
  intros K FU H. cbn [plot_parts] in H.
  destruct (plot_model m (with_scale a (f * scale))) as [[c k1]|e] eqn:P; [|discriminate].
  destruct (plot_parts parts scale (with_kwargs a k1)) as [[cs' k'] r] eqn:R. injection H as <- <- ->.
  assert (X : c_label c = Some (p_label m) /\ k1 = Some (Some (p_label m))).
  { unfold plot_model in P. destruct (range _ _) as [[ob [lo hi]]|]; [|discriminate]. destruct (if or_else (a_extended _) _ then _ else _); [|discriminate].
    injection P as <- <-. cbn. rewrite K. cbn. destruct (a_full a) as [[|]|]; cbn; [split; reflexivity|congruence|split; reflexivity]. }
  destruct X as (X1 & ->). destruct (parts_label parts scale (with_kwargs a (Some (Some (p_label m)))) cs' k' (p_label m) eq_refl R) as (Y1 & Y2).
  split; [constructor; assumption|exact Y2].
Qed.
Lemma parts_own parts scale a cs k : a_kwargs a = None -> a_full a <> Some false -> plot_parts parts scale a = (cs, k, Ok tt) ->
  Forall2 (fun p c => c_label c = Some (p_label (fst p))) parts cs.
Proof.
  revert a cs. induction parts as [|[m f] parts IH]; intros a cs K FU H; cbn [plot_parts] in H.
  - injection H as <- <-. constructor.
  - destruct (plot_model m (with_scale a (f * scale))) as [[c k1]|e] eqn:P; [|discriminate].
    destruct (plot_parts parts scale (with_kwargs a k1)) as [[cs' k'] r] eqn:R. injection H as <- <- ->.
    assert (X : c_label c = Some (p_label m) /\ k1 = None).
    { unfold plot_model in P. destruct (range _ _) as [[ob [lo hi]]|]; [|discriminate]. destruct (if or_else (a_extended _) _ then _ else _); [|discriminate].
      injection P as <- <-. cbn. rewrite K. cbn. destruct (a_full a) as [[|]|]; cbn; [split; reflexivity|congruence|split; reflexivity]. }
    destruct X as (X1 & ->). constructor; [exact X1|]. apply (IH (with_kwargs a None) cs' eq_refl FU R).
Qed.
