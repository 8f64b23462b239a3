(** Theorems about products of PDFs (C34). *)
From Verif Require Import Base BaseLemmas Disp_Model Disp_Spec Disp_Proofs Sum_Spec Prod_Model Prod_Spec Prod_Proofs Prod_Proofs2.
From Coq Require Import Lra Lia.
#[local] Open Scope R_scope.

(** A factor that works: it behaves like the function [F f] with integrals [I f], on all points and boxes with as many
    coordinates as it has observables, and these are among those of the product. *)
Definition works_in (I : factor -> box -> R) (F : factor -> point -> R) (obs : list string) (f : factor) : Prop :=
  a_obs f <> [] /\ NoDup (a_obs f) /\ incl (a_obs f) obs /\ behaves (fits (a_obs f)) (fitsx (a_obs f)) (I f) (F f) (a_model f).
(** Norms that are equal have the same observables. *)
Definition sound_norms (eqn : list string * list box -> list string * list box -> bool) : Prop :=
  forall o l o' l', eqn (o, l) (o', l') = true -> incl o' o.
(** Factors over different observables *)
Definition different_obs (pdfs : list factor) : Prop := NoDup (flat_map a_obs pdfs).

(** ** Disjoint observables *)

(** Products of PDFs that behave are PDFs that behave, so that products can be nested. *)
Theorem C34_product_behaves : forall eqn numeric es en I F obs pdfs y,
  sound_norms eqn -> (2 <= length pdfs)%nat -> different_obs pdfs -> (forall f, In f pdfs -> works_in I F obs f) ->
  behaves (fits obs) (fitsx obs)
    (fun l => prod_list (map (fun f => I f (sides obs l (a_obs f))) pdfs))
    (fun x => prod_list (map (fun f => F f (coords obs x (a_obs f))) pdfs))
    (product eqn numeric es en obs pdfs y).
Proof.
  intros eqn numeric es en I F obs pdfs y HE H2 HD HW. destruct (all_disjoint pdfs HD) as [S D].
  unfold product, groups. rewrite S, D. destruct pdfs as [|f0 r] eqn:E; [simpl in H2; lia|]. rewrite <- E in *.
  assert (G : Some pdfs = Some (map fst (map (fun f => (f, I f)) pdfs))) by (rewrite map_map; simpl; rewrite map_id; reflexivity).
  rewrite G. apply (behaves_I_ext _ _ (I_groups obs (map (fun f => (f, I f)) pdfs))).
  { intro l. unfold I_groups. rewrite map_map. reflexivity. }
  apply (prod_some eqn numeric es en F obs pdfs (map (fun f => (f, I f)) pdfs) y).
  - intros f Hf. destruct (HW f Hf) as [_ [_ [A [_ B]]]]. split; [|exact A]. intros x Hx. apply (B x NormFalse Hx); [intros k C; discriminate C|discriminate].
  - intros p Hp. apply in_map_iff in Hp. destruct Hp as [f [<- Hf]]. destruct (HW f Hf) as [_ [_ [A [B _]]]]. split; [exact B|exact A].
  - intro n. apply norms_differ.
    + intros f nls _ Hq. apply (HE _ _ _ _ Hq).
    + exact H2.
    + intros f Hf. destruct (HW f Hf) as [A [_ [B _]]]. auto.
    + rewrite D, E. discriminate.
Qed.
Lemma named_env : forall {V} (d : V) (e : string -> V) names o, In o names -> named d names (map e names) o = e o.
Proof.
  intros V d e names o H. unfold named. induction names as [|q names IH]; [destruct H|]. cbn [map combine lookup].
  destruct (String.eqb o q) eqn:E; [apply String.eqb_eq in E; subst; reflexivity|]. apply IH. destruct H as [->|H]; [|exact H].
  rewrite String.eqb_refl in E. discriminate E.
Qed.
Lemma map_named_env : forall {V} (d : V) (e : string -> V) names want, incl want names -> map (named d names (map e names)) want = map e want.
Proof. intros V d e names want H. apply map_ext_in. intros o Ho. apply named_env, H, Ho. Qed.

(** The pdf of a row, whatever the order of its columns [names] (there may be more columns than needed), is the product of
    the pdfs of the factors, each of them at its own coordinates (in its own order) and over its own part of the norm. *)
Theorem C34_pdf : forall eqn numeric es en I F obs pdfs y names (e : string -> R) (b : string -> R * R),
  sound_norms eqn -> (2 <= length pdfs)%nat -> different_obs pdfs -> (forall f, In f pdfs -> works_in I F obs f) -> incl obs names ->
  exists vs, Forall2 (fun f v => pdf (a_model f) (map e (a_obs f)) (Norm [map b (a_obs f)]) = Val v) pdfs vs /\
             product_pdf eqn numeric es en obs pdfs y names (map e names) (Norm [map b obs]) = Val (prod_list vs) /\
             prod_list vs = prod_list (map (fun f => F f (map e (a_obs f))) pdfs) / prod_list (map (fun f => I f (map b (a_obs f))) pdfs).
Proof.
  intros eqn numeric es en I F obs pdfs y names e b HE H2 HD HW HN.
  exists (map (fun f => F f (map e (a_obs f)) / I f (map b (a_obs f))) pdfs).
  assert (Q : prod_list (map (fun f => F f (map e (a_obs f)) / I f (map b (a_obs f))) pdfs) =
              prod_list (map (fun f => F f (map e (a_obs f))) pdfs) / prod_list (map (fun f => I f (map b (a_obs f))) pdfs)).
  { clear. induction pdfs as [|f l IH]; simpl; [field|]. rewrite IH. unfold Rdiv. rewrite Rinv_mult. ring. }
  split; [|split; [|exact Q]].
  - assert (W : forall f, In f pdfs -> pdf (a_model f) (map e (a_obs f)) (Norm [map b (a_obs f)]) = Val (F f (map e (a_obs f)) / I f (map b (a_obs f)))).
    { intros f Hf. destruct (HW f Hf) as [_ [_ [_ [_ B]]]]. rewrite B.
      - cbn [density_of total]. rewrite Rplus_0_r. reflexivity.
      - unfold fitsx. apply map_length.
      - intros nls Hn. injection Hn as <-. split; [discriminate|]. constructor; [unfold fits; apply map_length|constructor].
      - discriminate. }
    clear - W. induction pdfs as [|f l IH]; [constructor|]. simpl. constructor; [apply W; left; reflexivity|apply IH; intros; apply W; right; assumption].
  - unfold product_pdf. rewrite (pick_named 0) by (rewrite ?map_length; auto). rewrite map_named_env by exact HN.
    rewrite (b_pdf _ _ _ _ _ (C34_product_behaves eqn numeric es en I F obs pdfs y HE H2 HD HW)).
    + cbn [density_of total]. rewrite Rplus_0_r, Q. f_equal. unfold Rdiv. f_equal; [|apply f_equal]; apply prod_list_ext; intros f Hf; f_equal;
        unfold coords, sides; apply map_named_env; apply (HW f Hf).
    + unfold fitsx. apply map_length.
    + intros nls Hn. injection Hn as <-. split; [discriminate|]. constructor; [unfold fits; apply map_length|constructor].
    + discriminate.
Qed.
(** The integral over a box, given in any order of the observables, is the product of the integrals of the factors over their own sides:
    unnormalised, and normalised over another box. *)
Theorem C34_integrate : forall eqn numeric es en I F obs pdfs y names (b nb : string -> R * R),
  sound_norms eqn -> (2 <= length pdfs)%nat -> different_obs pdfs -> (forall f, In f pdfs -> works_in I F obs f) -> incl obs names ->
  exists vs ns, Forall2 (fun f v => integrate (a_model f) [map b (a_obs f)] NormFalse = Val v) pdfs vs /\
             Forall2 (fun f v => integrate (a_model f) [map b (a_obs f)] (Norm [map nb (a_obs f)]) = Val v) pdfs ns /\
             product_integrate eqn numeric es en obs pdfs y names (map b names) NormFalse = Val (prod_list vs) /\
             product_integrate eqn numeric es en obs pdfs y names (map b names) (Norm [map nb obs]) = Val (prod_list ns).
Proof.
  intros eqn numeric es en I F obs pdfs y names b nb HE H2 HD HW HN.
  exists (map (fun f => I f (map b (a_obs f))) pdfs), (map (fun f => I f (map b (a_obs f)) / I f (map nb (a_obs f))) pdfs).
  assert (LB : forall (c : string -> R * R) o, limits (fits o) [map c o]).
  { intros c o. split; [discriminate|]. constructor; [unfold fits; apply map_length|constructor]. }
  assert (W : forall f, In f pdfs -> integrate (a_model f) [map b (a_obs f)] NormFalse = Val (I f (map b (a_obs f))) /\
                                     integrate (a_model f) [map b (a_obs f)] (Norm [map nb (a_obs f)]) = Val (I f (map b (a_obs f)) / I f (map nb (a_obs f)))).
  { intros f Hf. destruct (HW f Hf) as [_ [_ [_ [B _]]]]. split; rewrite B; try apply LB.
    - cbn [integral_of total]. rewrite Rplus_0_r. reflexivity.
    - intros nls Hn. discriminate Hn.
    - cbn [integral_of total]. rewrite !Rplus_0_r. reflexivity.
    - intros nls Hn. injection Hn as <-. apply LB. }
  assert (F2 : forall (P : factor -> R -> Prop) g l, (forall f, In f l -> P f (g f)) -> Forall2 P l (map g l)).
  { intros P g l. induction l as [|f l IH]; intro H; simpl; constructor; [apply H; left; reflexivity|apply IH; intros; apply H; right; assumption]. }
  assert (SE : forall (c : string -> R * R), prod_list (map (fun f => I f (sides obs (map c obs) (a_obs f))) pdfs) = prod_list (map (fun f => I f (map c (a_obs f))) pdfs)).
  { intro c. apply prod_list_ext. intros f Hf. f_equal. apply map_named_env. apply (HW f Hf). }
  split; [apply F2; intros f Hf; apply (W f Hf)|]. split; [apply F2; intros f Hf; apply (W f Hf)|].
  unfold product_integrate. rewrite (pick_named (0, 0)) by (rewrite ?map_length; auto). rewrite map_named_env by exact HN.
  pose proof (b_integrate _ _ _ _ _ (C34_product_behaves eqn numeric es en I F obs pdfs y HE H2 HD HW)) as B.
  split; rewrite B; try apply LB.
  - cbn [integral_of total]. rewrite Rplus_0_r, SE. reflexivity.
  - intros nls Hn. discriminate Hn.
  - cbn [integral_of total]. rewrite !Rplus_0_r, !SE. f_equal. clear. induction pdfs as [|f l IH]; simpl; [field|]. rewrite <- IH. unfold Rdiv. rewrite Rinv_mult. ring.
  - intros nls Hn. injection Hn as <-. apply LB.
Qed.
(** Analytic integrals, over any number of boxes and normalised: the products of the integrals of the factors, if every factor has one;
    none, if one of the factors has none. *)
Theorem C34_analytic : forall eqn numeric es en obs pdfs y (bs nbs : list (string -> R * R)) (v : factor -> box -> R),
  different_obs pdfs -> pdfs <> [] -> (forall f, In f pdfs -> incl (a_obs f) obs) -> bs <> [] -> nbs <> [] ->
  (forall f b, In f pdfs -> In b (bs ++ nbs) -> analytic_integrate (a_model f) [map b (a_obs f)] NormFalse = Val (v f (map b (a_obs f)))) ->
  let integral b := prod_list (map (fun f => v f (map b (a_obs f))) pdfs) in
  let boxes := map (fun b => map b obs) in
  analytic_integrate (product eqn numeric es en obs pdfs y) (boxes bs) NormFalse = Val (sum_list (map integral bs)) /\
  analytic_integrate (product eqn numeric es en obs pdfs y) (boxes bs) (Norm (boxes nbs)) = Val (sum_list (map integral bs) / sum_list (map integral nbs)).
Proof.
  intros eqn numeric es en obs pdfs y bs nbs v HD HN HI HB HNB HA integral boxes. destruct (all_disjoint pdfs HD) as [S D].
  assert (GR : groups eqn numeric es en pdfs = Some pdfs) by (unfold groups; rewrite S, D; destruct pdfs; [contradiction HN; reflexivity|reflexivity]).
  unfold product. rewrite GR.
  set (m := prod_model _ _ _ _ _ _ _ _).
  assert (P : forall b n, In b (bs ++ nbs) -> (forall k, n <> Norm k) -> call_analytic m [map b obs] n = Val (integral b)).
  { intros b n Hb Hn. assert (Q : prod_all (map (factor_analytic obs (map b obs)) pdfs) = Val (integral b)).
    { apply prod_all_vals. intros f Hf. unfold factor_analytic. rewrite (pick_named (0, 0)) by (rewrite ?map_length; auto).
      rewrite map_named_env by (apply HI; exact Hf). apply HA; assumption. }
    unfold call_analytic, call. destruct n as [| |k]; [| |destruct (Hn k eq_refl)];
      cbn [m m_analytic prod_model prod_analytic_hook h_supp h_fun s_multi negb andb length Nat.ltb Nat.leb check_norm s_true]; rewrite Q; reflexivity. }
  assert (M : forall l1 l2 r n, call_analytic m (l1 :: l2 :: r) n = EMulti) by reflexivity.
  assert (N : forall l k, call_analytic m [l] (Norm k) = ENorm) by reflexivity.
  assert (SA : forall l n, incl l (bs ++ nbs) -> (forall k, n <> Norm k) -> sum_all (map (fun b => call_analytic m [b] n) (boxes l)) = Val (sum_list (map integral l))).
  { intros l n Hl Hn. unfold boxes. rewrite map_map. induction l as [|b l IH]; [reflexivity|].
    cbn [map sum_all]. rewrite P by (auto; apply Hl; left; reflexivity). rewrite IH by (intros q Hq; apply Hl; right; exact Hq). reflexivity. }
  assert (LW : forall l n, l <> [] -> incl l (bs ++ nbs) -> (forall k, n <> Norm k) -> limits_with (call_analytic m) (boxes l) n = Val (sum_list (map integral l))).
  { intros l n H0 Hl Hn. unfold limits_with, boxes. destruct l as [|b1 [|b2 l]]; [contradiction H0; reflexivity| |].
    - cbn [map]. rewrite P by (auto; apply Hl; left; reflexivity). simpl. f_equal. ring.
    - cbn [map]. rewrite M. apply (SA (b1 :: b2 :: l) n Hl Hn). }
  assert (LN : forall l k, l <> [] -> limits_with (call_analytic m) (boxes l) (Norm k) = ENorm).
  { intros l k H0. unfold limits_with, boxes. destruct l as [|b1 [|b2 l]]; [contradiction H0; reflexivity|reflexivity|reflexivity]. }
  assert (I1 : incl bs (bs ++ nbs)) by (intros q Hq; apply in_app_iff; left; exact Hq).
  assert (I2 : incl nbs (bs ++ nbs)) by (intros q Hq; apply in_app_iff; right; exact Hq).
  unfold analytic_integrate, norm_analytic. split.
  - rewrite LW by (assumption || discriminate). reflexivity.
  - rewrite LN by exact HB. rewrite !LW by (assumption || discriminate). reflexivity.
Qed.
Theorem C34_no_analytic : forall eqn numeric es en obs pdfs y (b : string -> R * R) f,
  different_obs pdfs -> (forall f, In f pdfs -> incl (a_obs f) obs) -> In f pdfs ->
  analytic_integrate (a_model f) [map b (a_obs f)] NormFalse = EAnalytic ->
  (forall f, In f pdfs -> (exists v, analytic_integrate (a_model f) [map b (a_obs f)] NormFalse = Val v) \/
                          analytic_integrate (a_model f) [map b (a_obs f)] NormFalse = EAnalytic) ->
  analytic_integrate (product eqn numeric es en obs pdfs y) [map b obs] NormFalse = EAnalytic.
Proof.
  intros eqn numeric es en obs pdfs y b f HD HI Hf HA HO. destruct (all_disjoint pdfs HD) as [S D].
  unfold product, groups. rewrite S, D.
  assert (P : prod_all (map (factor_analytic obs (map b obs)) pdfs) = EAnalytic).
  { assert (V : forall g, In g pdfs -> factor_analytic obs (map b obs) g = analytic_integrate (a_model g) [map b (a_obs g)] NormFalse).
    { intros g Hg. unfold factor_analytic. rewrite (pick_named (0, 0)) by (rewrite ?map_length; auto). rewrite map_named_env by (apply HI; exact Hg). reflexivity. }
    clear - V Hf HA HO. induction pdfs as [|g l IH]; [destruct Hf|]. cbn [map prod_all]. rewrite (V g (or_introl eq_refl)).
    destruct Hf as [->|Hf]; [rewrite HA; reflexivity|]. destruct (HO g (or_introl eq_refl)) as [[v E]|E]; rewrite E; [|reflexivity].
    rewrite IH; auto; [intros; apply HO; right; assumption|intros; apply V; right; assumption]. }
  destruct pdfs as [|f0 r]; [destruct Hf|].
  unfold analytic_integrate, norm_analytic, limits_with, call_analytic, call.
  cbn [m_analytic prod_model prod_analytic_hook h_supp h_fun s_multi negb andb length Nat.ltb Nat.leb check_norm s_true].
  rewrite P. reflexivity.
Qed.

(** ** Overlapping observables *)

(** The integral of the factor over its sides of a box, in the order of the observables of the product *)
Definition true_integrals (I : factor -> box -> R) (F : factor -> point -> R) (obs : list string) (f : factor) : Prop :=
  forall l e, fits obs l -> iterated (own_dims (a_obs f) (combine obs l)) (fun a => F f (map a (a_obs f))) e (I f (sides obs l (a_obs f))).
(** The numeric integration is exact, on products of some of the factors *)
Definition exact_numeric (F : factor -> point -> R) (obs : list string) (pdfs : list factor)
    (numeric : list string -> list factor -> list box -> outcome) : Prop :=
  forall o p, let ps := filter p pdfs in NoDup o -> incl o obs -> (forall q, In q o <-> exists f, In f ps /\ In q (a_obs f)) ->
  exists J, (forall l, fits o l -> numeric o ps [l] = Val (J l)) /\
            forall l e, fits obs l -> iterated (own_dims o (combine obs l)) (fun a => prod_list (map (fun f => F f (map a (a_obs f))) ps)) e (J (sides obs l o)).

(** Whatever the overlaps between the factors: the product behaves like the product of the functions, with its true integrals. *)
Theorem C34_any_overlap : forall eqn numeric es en I F obs pdfs y,
  sound_norms eqn -> (2 <= length pdfs)%nat -> NoDup obs -> incl obs (flat_map a_obs pdfs) ->
  (forall f, In f pdfs -> works_in I F obs f /\ true_integrals I F obs f) -> exact_numeric F obs pdfs numeric ->
  exists IP, behaves (fits obs) (fitsx obs) IP (fun x => prod_list (map (fun f => F f (coords obs x (a_obs f))) pdfs)) (product eqn numeric es en obs pdfs y) /\
             forall l e, fits obs l -> iterated (combine obs l) (fun a => prod_list (map (fun f => F f (map a (a_obs f))) pdfs)) e (IP l).
Proof.
  intros eqn numeric es en I F obs pdfs y HE H2 HN HC HW HX.
  assert (GP : forall f, In f pdfs -> good_pdf F f /\ incl (a_obs f) obs).
  { intros f Hf. destruct (HW f Hf) as [[_ [_ [A [_ B]]]] _]. split; [|exact A]. intros x Hx. apply (B x NormFalse Hx); [intros k C; discriminate C|discriminate]. }
  assert (FST : forall l : box, fits obs l -> map fst (combine obs l) = obs).
  { intros l Hl. clear - Hl. unfold fits in Hl. revert l Hl. induction obs as [|o obs IH]; intros [|v l] H; try discriminate; [reflexivity|]. simpl. f_equal. apply IH. injection H as H. exact H. }
  unfold product, groups. destruct (disjoint_obs pdfs) as [|d0 dr] eqn:ED.
  { (* all overlap *)
    destruct (HX obs (fun _ => true) HN (incl_refl _)) as [J [J1 J2]];
      replace (filter (fun _ : factor => true) pdfs) with pdfs in * by (clear; induction pdfs as [|f l IH]; simpl; [reflexivity|f_equal; exact IH]).
    { intro q. rewrite <- in_flat_map. split; [apply HC|]. intro H. apply in_flat_map in H. destruct H as [f [Hf Hq]]. apply (GP f Hf). exact Hq. }
    exists J. split.
    - destruct (same_obs pdfs); apply (prod_none eqn numeric es en F); assumption.
    - intros l e Hl. specialize (J2 l e Hl).
      assert (EO : own_dims obs (combine obs l) = combine obs l).
      { unfold own_dims. pose proof (FST l Hl) as E. assert (G : forall ds : list (string * (R * R)), incl (map fst ds) obs -> filter (fun d => mem String.eqb (fst d) obs) ds = ds).
        { induction ds as [|d ds IH]; intro H; [reflexivity|]. simpl. assert (mem String.eqb (fst d) obs = true) as -> by (apply (mem_In _ string_eqb_ok); apply H; left; reflexivity).
          f_equal. apply IH. intros q Hq. apply H. right. exact Hq. }
        apply G. rewrite E. apply incl_refl. }
      assert (ES : sides obs l obs = l).
      { clear - Hl HN. unfold fits in Hl. unfold sides, named. revert l Hl. induction obs as [|o obs IH]; intros [|v l] H; try discriminate; [reflexivity|].
        cbn [map combine lookup]. rewrite String.eqb_refl. f_equal. injection H as H. inversion HN; subst. etransitivity; [|apply (IH ltac:(assumption) l H)].
        apply map_ext_in. intros q Hq. cbn [lookup]. destruct (String.eqb q o) eqn:E; [apply String.eqb_eq in E; subst; contradiction|reflexivity]. }
      rewrite EO, ES in J2. exact J2. }
  assert (DI : forall f, In f (disjoint_obs pdfs) -> In f pdfs) by (intros f Hf; apply filter_In in Hf; apply Hf).
  assert (EQ : forall n, equal_norms eqn obs pdfs n = false).
  { intro n. apply norms_differ; [intros f nls _ Hq; apply (HE _ _ _ _ Hq)|exact H2| |rewrite ED; discriminate].
    intros f Hf. destruct (HW f Hf) as [[A [_ [B _]]] _]. auto. }
  assert (HND : forall f, In f pdfs -> NoDup (a_obs f)) by (intros f Hf; apply (HW f Hf)).
  rewrite <- ED.
  assert (GD : forall f, In f (disjoint_obs pdfs) -> good (f, I f) /\ incl (a_obs f) obs).
  { intros f Hf. destruct (HW f (DI f Hf)) as [[_ [_ [A [B _]]]] _]. split; [exact B|exact A]. }
  set (items l := map (fun f => (a_obs f, (fun a : string -> R => F f (map a (a_obs f))), I f (sides obs l (a_obs f))) : item) (disjoint_obs pdfs)).
  assert (IOwn : forall l, flat_map i_own (items l) = flat_map a_obs (disjoint_obs pdfs)).
  { intro l. unfold items. clear. induction (disjoint_obs pdfs) as [|f r IH]; [reflexivity|]. simpl. rewrite IH. reflexivity. }
  assert (IT : forall l e t, fits obs l -> In t (items l) -> depends_on (i_own t) (i_fun t) /\ iterated (own_dims (i_own t) (combine obs l)) (i_fun t) e (i_val t)).
  { intros l e t Hl Ht. unfold items in Ht. apply in_map_iff in Ht. destruct Ht as [f [<- Hf]]. unfold i_own, i_fun, i_val. cbn [fst snd]. split.
    - intros u w Huw. f_equal. apply map_ext_in. exact Huw.
    - apply (HW f (DI f Hf)). exact Hl. }
  assert (SI : forall f, In f (same_obs pdfs) -> In f pdfs) by (intros f Hf; apply filter_In in Hf; apply Hf).
  destruct (same_obs pdfs) as [|s0 sr] eqn:ES; [|rewrite <- ES in SI].
  - (* no overlap *)
    assert (AD : disjoint_obs pdfs = pdfs).
    { unfold disjoint_obs, same_obs in *. clear - ES. induction pdfs as [|f l IH]; [reflexivity|].
      set (p := overlaps (f :: l)) in *. clearbody p. clear IH. revert ES. generalize (f :: l). induction l0 as [|g l0 IH]; intro ES; [reflexivity|]. simpl in *.
      destruct (p g); [discriminate ES|]. simpl. f_equal. apply IH. exact ES. }
    exists (I_groups obs (map (fun f => (f, I f)) (disjoint_obs pdfs))). split.
    + assert (G : Some (disjoint_obs pdfs) = Some (map fst (map (fun f => (f, I f)) (disjoint_obs pdfs)))) by (rewrite map_map; simpl; rewrite map_id; reflexivity).
      rewrite G.
      apply (prod_some eqn numeric es en F); [exact GP| |exact EQ]. intros p Hp. apply in_map_iff in Hp. destruct Hp as [f [<- Hf]]. apply GD. exact Hf.
    + intros l e Hl. apply (iterated_ext _ (fun a => prod_list (map (fun t => i_fun t a) (items l)))).
      { intro a. unfold items. rewrite map_map, AD. reflexivity. }
      replace (I_groups obs (map (fun f => (f, I f)) (disjoint_obs pdfs)) l) with (prod_list (map i_val (items l)))
        by (unfold I_groups, items; rewrite !map_map; reflexivity).
      apply iterated_product.
      * rewrite IOwn. apply disjoint_nodup. exact HND.
      * rewrite FST by exact Hl. exact HN.
      * rewrite FST by exact Hl. rewrite IOwn, AD. exact HC.
      * intros t Ht. apply IT; assumption.
  - (* some overlap *)
    set (so := common_obs (same_obs pdfs)).
    assert (SO : forall q, In q so <-> exists f, In f (same_obs pdfs) /\ In q (a_obs f)) by (intro q; apply common_obs_In).
    assert (SOI : incl so obs) by (intros q Hq; apply SO in Hq; destruct Hq as [f [Hf Hq]]; apply (GP f (SI f Hf)); exact Hq).
    assert (SN : NoDup so).
    { unfold so, common_obs. assert (G : forall l0 acc, NoDup acc -> NoDup (fold_left (fun acc o => if mem String.eqb o acc then acc else acc ++ [o]) l0 acc)).
      { induction l0 as [|q l0 IH]; intros acc Ha; simpl; [exact Ha|]. apply IH. destruct (mem String.eqb q acc) eqn:Eq; [exact Ha|].
        apply (mem_false _ string_eqb_ok) in Eq. clear - Ha Eq. induction acc as [|u acc IHa]; [constructor; [intros []|constructor]|]. inversion Ha; subst. simpl. constructor.
        - rewrite in_app_iff. simpl. intros [H|[H|[]]]; [contradiction|]. subst. apply Eq. left. reflexivity.
        - apply IHa; [assumption|]. intro H. apply Eq. right. exact H. }
      apply G. constructor. }
    destruct (HX so (overlaps pdfs) SN SOI SO) as [J [J1 J2]]. fold (same_obs pdfs) in J1, J2.
    set (gI := map (fun f => (f, I f)) (disjoint_obs pdfs) ++ [(nested eqn numeric es en pdfs, J)]).
    exists (I_groups obs gI). split.
    + assert (G : Some (disjoint_obs pdfs ++ [nested eqn numeric es en pdfs]) = Some (map fst gI)) by (unfold gI; rewrite map_app, map_map; simpl; rewrite map_id; reflexivity).
      rewrite G.
      apply (prod_some eqn numeric es en F); [exact GP| |exact EQ]. intros p Hp. unfold gI in Hp. apply in_app_iff in Hp. destruct Hp as [Hp|[<-|[]]].
      * apply in_map_iff in Hp. destruct Hp as [f [<- Hf]]. apply GD. exact Hf.
      * split; [|exact SOI]. unfold good. cbn [fst snd nested a_obs a_model]. fold so.
        refine (b_integrate _ _ _ _ _ (prod_none eqn numeric es en F so (same_obs pdfs) None J _ J1)).
        intros f Hf. split; [apply GP, SI, Hf|]. intros q Hq. apply SO. exists f. auto.
    + intros l e Hl.
      set (its := items l ++ [(so, (fun a : string -> R => prod_list (map (fun f => F f (map a (a_obs f))) (same_obs pdfs))), J (sides obs l so)) : item]).
      apply (iterated_ext _ (fun a => prod_list (map (fun t => i_fun t a) its))).
      { intro a. unfold its, items. rewrite map_app, prod_list_app, map_map. cbn [map prod_list i_fun fst snd]. rewrite Rmult_1_r.
        rewrite (prod_list_filter (overlaps pdfs) _ pdfs). fold (same_obs pdfs). fold (disjoint_obs pdfs). ring. }
      replace (I_groups obs gI l) with (prod_list (map i_val its)).
      2:{ unfold I_groups, gI, its, items. rewrite !map_app, !prod_list_app, !map_map. reflexivity. }
      assert (Own : flat_map i_own its = flat_map a_obs (disjoint_obs pdfs) ++ so).
      { unfold its. rewrite flat_map_app, IOwn. cbn [flat_map i_own fst]. rewrite app_nil_r. reflexivity. }
      apply iterated_product.
      * rewrite Own. assert (X1 := disjoint_nodup pdfs HND).
        assert (X3 : forall o, In o (flat_map a_obs (disjoint_obs pdfs)) -> ~ In o so).
        { intros o Ho Hso. apply in_flat_map in Ho. destruct Ho as [d [Hd Hod]]. apply SO in Hso. destruct Hso as [f [Hf Hof]].
          apply (same_disjoint pdfs f d o); assumption. }
        revert X1 SN X3. generalize (flat_map a_obs (disjoint_obs pdfs)). clear. intros l X1 X2 X3. induction X1 as [|o l Ho X1 IH]; [exact X2|]. simpl. constructor.
        -- rewrite in_app_iff. intros [H|H]; [contradiction|]. apply (X3 o (or_introl eq_refl) H).
        -- apply IH. intros q Hq. apply X3. right. exact Hq.
      * rewrite FST by exact Hl. exact HN.
      * rewrite FST by exact Hl. rewrite Own. intros q Hq. apply HC in Hq. apply in_flat_map in Hq. destruct Hq as [f [Hf Hqf]]. apply in_app_iff.
        destruct (overlaps pdfs f) eqn:Eo.
        -- right. apply SO. exists f. split; [apply filter_In; auto|exact Hqf].
        -- left. apply in_flat_map. exists f. split; [apply filter_In; rewrite Eo; auto|exact Hqf].
      * intros t Ht. unfold its in Ht. apply in_app_iff in Ht. destruct Ht as [Ht|[<-|[]]]; [apply IT; assumption|].
        unfold i_own, i_fun, i_val. cbn [fst snd]. split; [|apply J2; exact Hl]. intros u w Huw. apply prod_list_ext. intros f Hf. f_equal.
        apply map_ext_in. intros q Hq. apply Huw, SO. exists f. auto.
Qed.
(** The values of the pdf integrate to one over the norm. *)
Theorem C34_integral_of_pdf_one : forall eqn numeric es en I F obs pdfs y l e v,
  sound_norms eqn -> (2 <= length pdfs)%nat -> NoDup obs -> incl obs (flat_map a_obs pdfs) ->
  (forall f, In f pdfs -> works_in I F obs f /\ true_integrals I F obs f) -> exact_numeric F obs pdfs numeric -> fits obs l ->
  integrate (product eqn numeric es en obs pdfs y) [l] NormFalse = Val v -> v <> 0 ->
  exists P, (forall a, pdf (product eqn numeric es en obs pdfs y) (map a obs) (Norm [l]) = Val (P a)) /\ iterated (combine obs l) P e 1.
Proof.
  intros eqn numeric es en I F obs pdfs y l e v HE H2 HN HC HW HX Hl HI Hv.
  destruct (C34_any_overlap eqn numeric es en I F obs pdfs y HE H2 HN HC HW HX) as [IP [[B1 B2] T]].
  assert (LL : limits (fits obs) [l]) by (split; [discriminate|constructor; [exact Hl|constructor]]).
  rewrite B1 in HI; [|exact LL|intros nls C; discriminate C]. cbn [integral_of total] in HI. injection HI as HI. rewrite Rplus_0_r in HI.
  exists (fun a => / v * prod_list (map (fun f => F f (map a (a_obs f))) pdfs)). split.
  - intro a. rewrite B2.
    + cbn [density_of total]. rewrite Rplus_0_r, HI. f_equal. unfold Rdiv. rewrite Rmult_comm. f_equal. apply prod_list_ext. intros f Hf. f_equal.
      unfold coords. apply map_named_env. apply (HW f Hf).
    + unfold fitsx. apply map_length.
    + intros nls C. injection C as <-. exact LL.
    + discriminate.
  - replace 1 with (/ v * IP l) by (rewrite HI; field; exact Hv). apply iterated_scale, T, Hl.
Qed.
(** What is put aside as overlapping cannot be split again. *)
Theorem C34_nested_not_split : forall eqn numeric es en pdfs, same_obs pdfs <> [] -> groups eqn numeric es en (same_obs pdfs) = None.
Proof.
  intros eqn numeric es en pdfs H. destruct (nested_not_split pdfs) as [A B]. unfold groups. rewrite A, B. destruct (same_obs pdfs); [contradiction H; reflexivity|reflexivity].
Qed.

(** ** Products of one PDF, and observables that no factor has *)

(** The product of a single PDF raises an exception when it is evaluated over the norm of that PDF. *)
Theorem C34_single_factor_refuted : forall eqn numeric es en obs f y x nls,
  NoDup (a_obs f) -> eqn (a_obs f, a_norm f) (obs, nls) = true -> pdf (product eqn numeric es en obs [f] y) x (Norm nls) = EOther.
Proof.
  intros eqn numeric es en obs f y x nls HN HE. destruct (all_disjoint [f]) as [S D]; [simpl; rewrite app_nil_r; exact HN|].
  unfold product, groups. rewrite S, D. unfold pdf, call_pdf. cbn [m_pdf prod_model pcall prod_pdf_hook p_supp p_fun check_norm s_true orb equal_norms forallb].
  rewrite HE. reflexivity.
Qed.

(** A flat factor in the observable [o] over [0, 1], and one that rises linearly *)
Definition vol1 (l : box) : R := match l with [(a, b)] => b - a | _ => 0 end.
Definition flat (o : string) : factor := mkFactor [o] [[(0, 1)]]
  (mkModel (fun _ => true) (fun _ => true) None None (fun _ => None) None (fun ls => Val (total vol1 ls)) None None None None None (fun _ => Val 1) None).
Definition rise1 (l : box) : R := match l with [(a, b)] => (b * b - a * a) / 2 | _ => 0 end.
Definition hd0 (x : point) : R := match x with v :: _ => v | [] => 0 end.
Definition rising (o : string) : factor := mkFactor [o] [[(0, 1)]]
  (mkModel (fun _ => true) (fun _ => true) None None (fun _ => None) None (fun ls => Val (total rise1 ls)) None None None None None (fun x => Val (hd0 x)) None).
Lemma honest_behaves : forall {L X : Type} okL okX (I : L -> R) (f : X -> R) m, honest_pdf I f m -> behaves okL okX I f m.
Proof.
  intros L X okL okX I f m HP. split.
  - intros ls n Hls Hn. apply (integrate_ok _ m (hp_model _ _ _ HP)); [apply Hls|]. destruct n; simpl; auto. apply (Hn ls0 eq_refl).
  - intros x n Hx Hn Hd. apply (pdf_ok _ _ m (hp_model _ _ _ HP) HP); auto. destruct n; simpl; auto. apply (Hn ls eq_refl).
Qed.
Lemma flat_behaves : forall o, behaves (fits [o]) (fitsx [o]) vol1 (fun _ => 1) (a_model (flat o)).
Proof. intro o. apply honest_behaves. split; simpl; auto; try discriminate. split; simpl; auto; discriminate. Qed.
Lemma rising_behaves : forall o, behaves (fits [o]) (fitsx [o]) rise1 hd0 (a_model (rising o)).
Proof. intro o. apply honest_behaves. split; simpl; auto; try discriminate. split; simpl; auto; discriminate. Qed.
Open Scope string_scope. Open Scope list_scope.
Ltac nodup := repeat (constructor; [simpl; intuition discriminate|]); constructor.

(** An observable given to the product that none of the factors has is ignored in the integral: the pdf is not normalised, its values
    integrate to two over the norm. *)
Theorem C34_extra_observable_refuted : exists eqn numeric es en I F obs pdfs l,
  sound_norms eqn /\ NoDup obs /\ different_obs pdfs /\ (2 <= length pdfs)%nat /\
  (forall f, In f pdfs -> works_in I F obs f /\ true_integrals I F obs f) /\ fits obs l /\
  (forall a, pdf (product eqn numeric es en obs pdfs None) (map a obs) (Norm [l]) = Val 1) /\
  forall e, iterated (combine obs l) (fun _ => 1) e 2.
Proof.
  exists (fun _ _ => false), (fun _ _ _ => ENotImpl), (fun _ _ => false), (fun _ _ => false), (fun _ => vol1), (fun _ _ => 1), ["x"; "y"; "z"], [flat "x"; flat "z"], [(0, 1); (0, 2); (0, 1)].
  assert (W : forall f, In f [flat "x"; flat "z"] -> works_in (fun _ => vol1) (fun _ _ => 1) ["x"; "y"; "z"] f).
  { intros f [<-|[<-|[]]]; (split; [discriminate|split; [nodup|split; [intros q [<-|[]]; simpl; tauto|apply flat_behaves]]]). }
  assert (SN : sound_norms (fun _ _ => false)) by (intros o l o' l' H; discriminate H).
  assert (DO : different_obs [flat "x"; flat "z"]) by nodup.
  split; [exact SN|]. split; [nodup|].
  split; [exact DO|]. split; [simpl; lia|]. split; [|split; [reflexivity|split]].
  - intros f Hf. split; [apply W; exact Hf|]. intros l e Hl. destruct l as [|l1 [|l2 [|l3 [|]]]]; try discriminate Hl. destruct l1 as [a1 b1], l3 as [a3 b3].
    destruct Hf as [<-|[<-|[]]]; cbn; (exists (fun _ => 1), (fun x => x)); (split; [intros x _; split; [reflexivity|apply derivable_pt_lim_id]|reflexivity]).
  - intro a. rewrite (b_pdf _ _ _ _ _ (C34_product_behaves _ _ _ _ _ _ _ [flat "x"; flat "z"] None SN (le_n 2) DO W)).
    + cbn. f_equal. field.
    + reflexivity.
    + intros nls H. injection H as <-. split; [discriminate|repeat constructor].
    + discriminate.
  - intro e. cbn. exists (fun _ => 2), (fun x => 2 * x). split; [|ring]. intros x _. split.
    + exists (fun _ => 1), (fun x => x). split; [|ring]. intros u _. split; [|apply derivable_pt_lim_id].
      exists (fun _ => 1), (fun x => x). split; [|ring]. intros w _. split; [reflexivity|apply derivable_pt_lim_id].
    + assert (D : derivable_pt_lim (fun x => 2 * x) x (2 * 1)) by (apply (derivable_pt_lim_scal id), derivable_pt_lim_id). rewrite Rmult_1_r in D. exact D.
Qed.

(** ** Non-vacuity *)
(** x rises, y is flat; over [0, 2] x [0, 4] at x = 1/2, y = 3, with the columns in another order and one more of them *)
Example C34_ex_pdf : product_pdf (fun _ _ => false) (fun _ _ _ => ENotImpl) (fun _ _ => false) (fun _ _ => false) ["x"; "y"] [rising "x"; flat "y"] None
    ["w"; "y"; "x"] [7; 3; 1 / 2] (Norm [[(0, 2); (0, 4)]]) = Val (1 / 16).
Proof.
  set (I f := if String.eqb (hd "" (a_obs f)) "x" then rise1 else vol1).
  set (F f := if String.eqb (hd "" (a_obs f)) "x" then hd0 else fun _ => 1).
  set (e o := if String.eqb o "x" then 1 / 2 else if String.eqb o "y" then 3 else 7).
  set (b o := if String.eqb o "x" then (0, 2) else (0, 4)).
  destruct (C34_pdf (fun _ _ => false) (fun _ _ _ => ENotImpl) (fun _ _ => false) (fun _ _ => false) I F ["x"; "y"] [rising "x"; flat "y"] None ["w"; "y"; "x"] e b) as [vs [_ [P Q]]].
  - intros o l o' l' H. discriminate H.
  - simpl. lia.
  - nodup.
  - intros f [<-|[<-|[]]]; (split; [discriminate|split; [nodup|split; [intros q [<-|[]]; simpl; tauto|]]]);
      [apply rising_behaves|apply flat_behaves].
  - intros q [<-|[<-|[]]]; simpl; tauto.
  - rewrite Q in P. cbn in P. etransitivity; [exact P|]. f_equal. field.
Qed.
(** Two factors share x, one has y alone: the groups are y and the product of the other two *)
Example C34_ex_groups : forall eqn numeric es en, exists g, groups eqn numeric es en [flat "x"; flat "y"; rising "x"] = Some [flat "y"; g] /\ a_obs g = ["x"].
Proof. intros. eexists. split; reflexivity. Qed.
Example C34_ex_single : pdf (product (fun _ _ => true) (fun _ _ _ => ENotImpl) (fun _ _ => false) (fun _ _ => false) ["x"] [flat "x"] None) [1 / 2] (Norm [[(0, 1)]]) = EOther.
Proof. apply C34_single_factor_refuted; [nodup|reflexivity]. Qed.
(** The premises of C34_any_overlap and C34_integral_of_pdf_one are met by a product with an overlap: two factors that rise in x, one flat in y,
    and a numeric integration that is exact: the integral of x to the number of factors in x *)
Definition ex_pdfs := [rising "x"; flat "y"; rising "x"].
Definition ex_in_x (f : factor) : bool := String.eqb (hd "" (a_obs f)) "x".
Definition ex_F (f : factor) : point -> R := if ex_in_x f then hd0 else fun _ => 1.
Definition ex_I (f : factor) : box -> R := if ex_in_x f then rise1 else vol1.
Definition ex_J (o : list string) (ps : list factor) (l : box) : R :=
  let k := S (length (filter ex_in_x ps)) in
  prod_list (map (fun q => if String.eqb (fst q) "x" then (snd (snd q) ^ k - fst (snd q) ^ k) / INR k else snd (snd q) - fst (snd q)) (combine o l)).
Definition ex_numeric (o : list string) (ps : list factor) (ls : list box) : outcome :=
  match ls with [l] => Val (ex_J o ps l) | _ => EOther end.
Lemma ex_pow : forall k x, derivable_pt_lim (fun x => x ^ S k / INR (S k)) x (x ^ k).
Proof.
  intros k x. replace (x ^ k) with (/ INR (S k) * (INR (S k) * x ^ k)) by (field; apply not_0_INR; discriminate).
  assert (D : derivable_pt_lim (fun x => / INR (S k) * x ^ S k) x (/ INR (S k) * (INR (S k) * x ^ k))).
  { apply (derivable_pt_lim_scal (fun x => x ^ S k)). apply (derivable_pt_lim_pow x (S k)). }
  intros eps He. destruct (D eps He) as [del Hd]. exists del. intros h Hh Hl. specialize (Hd h Hh Hl).
  match goal with |- Rabs ?a < _ => match type of Hd with Rabs ?b < _ => replace a with b; [exact Hd|] end end. f_equal. unfold Rdiv. f_equal. ring.
Qed.
Lemma ex_exact : exact_numeric ex_F ["x"; "y"] ex_pdfs ex_numeric.
Proof.
  intros o p ps HN HI HO. exists (ex_J o ps). split; [reflexivity|]. intros l e Hl.
  destruct l as [|[a1 b1] [|[a2 b2] [|]]]; try discriminate Hl.
  set (k := length (filter ex_in_x ps)).
  assert (Nx : In "x" o \/ ~ In "x" o) by (destruct (in_dec string_dec "x" o); auto).
  assert (Ny : In "y" o \/ ~ In "y" o) by (destruct (in_dec string_dec "y" o); auto).
  assert (FE : forall a, prod_list (map (fun f => ex_F f (map a (a_obs f))) ps) = a "x" ^ k).
  { intro a. subst k ps. unfold ex_pdfs. cbn [filter]. destruct (p (rising "x")), (p (flat "y")); cbn; ring. }
  assert (KX : ~ In "x" o -> k = 0%nat).
  { intro H. subst k ps. unfold ex_pdfs in *. cbn [filter] in *. destruct (p (rising "x")) eqn:E; [|destruct (p (flat "y")); reflexivity].
    exfalso. apply H, HO. exists (rising "x"). split; simpl; auto. }
  apply (iterated_ext _ (fun a => a "x" ^ k)); [intro a; symmetry; apply FE|].
  assert (JE : ex_J o ps (sides ["x"; "y"] [(a1, b1); (a2, b2)] o) =
    (if in_dec string_dec "x" o then (b1 ^ S k - a1 ^ S k) / INR (S k) else 1) * (if in_dec string_dec "y" o then b2 - a2 else 1)).
  { unfold ex_J. fold k. clear HO FE KX Hl. clearbody k.
    destruct o as [|q1 [|q2 [|q3 r]]].
    - destruct (in_dec string_dec "x" []) as [[]|]; destruct (in_dec string_dec "y" []) as [[]|]. cbn. ring.
    - destruct (HI q1 (or_introl eq_refl)) as [<-|[<-|[]]].
      + destruct (in_dec string_dec "x" ["x"]) as [|C]; [|contradiction C; left; reflexivity]. destruct (in_dec string_dec "y" ["x"]) as [[C|[]]|]; [discriminate C|].
        unfold sides, named. cbn [map combine lookup]. change (String.eqb "x" "x") with true. cbn iota. cbn [fst snd prod_list]. change (String.eqb "x" "x") with true. cbn iota. ring.
      + destruct (in_dec string_dec "y" ["y"]) as [|C]; [|contradiction C; left; reflexivity]. destruct (in_dec string_dec "x" ["y"]) as [[C|[]]|]; [discriminate C|].
        unfold sides, named. cbn [map combine lookup]. change (String.eqb "y" "x") with false. change (String.eqb "y" "y") with true. cbn iota. cbn [fst snd prod_list]. change (String.eqb "y" "x") with false. cbn iota. ring.
    - destruct (HI q1 (or_introl eq_refl)) as [<-|[<-|[]]]; (destruct (HI q2 (or_intror (or_introl eq_refl))) as [<-|[<-|[]]]);
        try (exfalso; inversion HN as [|? ? N1 N2]; apply N1; left; reflexivity).
      + destruct (in_dec string_dec "x" ["x"; "y"]) as [|C]; [|contradiction C; simpl; auto]. destruct (in_dec string_dec "y" ["x"; "y"]) as [|C]; [|contradiction C; simpl; auto].
        unfold sides, named. cbn [map combine lookup]. change (String.eqb "x" "x") with true. change (String.eqb "y" "x") with false. change (String.eqb "y" "y") with true. cbn iota. cbn [fst snd prod_list]. change (String.eqb "y" "x") with false. change (String.eqb "x" "x") with true. cbn iota. ring.
      + destruct (in_dec string_dec "x" ["y"; "x"]) as [|C]; [|contradiction C; simpl; auto]. destruct (in_dec string_dec "y" ["y"; "x"]) as [|C]; [|contradiction C; simpl; auto].
        unfold sides, named. cbn [map combine lookup]. change (String.eqb "x" "x") with true. change (String.eqb "y" "x") with false. change (String.eqb "y" "y") with true. cbn iota. cbn [fst snd prod_list]. change (String.eqb "y" "x") with false. change (String.eqb "x" "x") with true. cbn iota. ring.
    - exfalso. inversion HN as [|? ? N1 N2]; subst. inversion N2 as [|? ? N3 N4]; subst.
      assert (M1 := HI q1 (or_introl eq_refl)). assert (M2 := HI q2 (or_intror (or_introl eq_refl))). assert (M3 := HI q3 (or_intror (or_intror (or_introl eq_refl)))).
      simpl in *. destruct M1 as [<-|[<-|[]]], M2 as [<-|[<-|[]]], M3 as [<-|[<-|[]]]; tauto. }
  rewrite JE. clear JE. unfold own_dims. cbn [combine filter fst].
  assert (MX : mem String.eqb "x" o = if in_dec string_dec "x" o then true else false).
  { destruct (in_dec string_dec "x" o); [apply (mem_In _ string_eqb_ok); assumption|apply (mem_false _ string_eqb_ok); assumption]. }
  assert (MY : mem String.eqb "y" o = if in_dec string_dec "y" o then true else false).
  { destruct (in_dec string_dec "y" o); [apply (mem_In _ string_eqb_ok); assumption|apply (mem_false _ string_eqb_ok); assumption]. }
  rewrite MX, MY. clear MX MY. destruct (in_dec string_dec "x" o) as [X|X]; destruct (in_dec string_dec "y" o) as [Y|Y]; cbn [iterated].
  - exists (fun x => (b2 - a2) * x ^ k), (fun x => (b2 - a2) * (x ^ S k / INR (S k))). split; [|field; apply not_0_INR; discriminate].
    intros x _. split; [|apply (derivable_pt_lim_scal (fun x => x ^ S k / INR (S k))), ex_pow].
    exists (fun _ => x ^ k), (fun y => x ^ k * y). split; [|ring]. intros y _. split; [reflexivity|].
    assert (D : derivable_pt_lim (fun y => x ^ k * y) y (x ^ k * 1)) by (apply (derivable_pt_lim_scal id), derivable_pt_lim_id). rewrite Rmult_1_r in D. exact D.
  - exists (fun x => x ^ k), (fun x => x ^ S k / INR (S k)). split; [|field; apply not_0_INR; discriminate]. intros x _. split; [reflexivity|apply ex_pow].
  - rewrite (KX X). exists (fun _ => 1), (fun y => y). split; [|ring]. intros y _. split; [reflexivity|apply derivable_pt_lim_id].
  - rewrite (KX X). simpl. ring.
Qed.
Example C34_ex_overlap : exists P, (forall a, pdf (product (fun _ _ => false) ex_numeric (fun _ _ => false) (fun _ _ => false) ["x"; "y"] ex_pdfs None) (map a ["x"; "y"]) (Norm [[(0, 1); (0, 2)]]) = Val (P a)) /\
  iterated [("x", (0, 1)); ("y", (0, 2))] P (fun _ => 0) 1.
Proof.
  assert (W : forall f, In f ex_pdfs -> works_in ex_I ex_F ["x"; "y"] f /\ true_integrals ex_I ex_F ["x"; "y"] f).
  { intros f Hf. split.
    - destruct Hf as [<-|[<-|[<-|[]]]]; (split; [discriminate|split; [nodup|split; [intros q [<-|[]]; simpl; tauto|]]]); [apply rising_behaves|apply flat_behaves|apply rising_behaves].
    - intros l e Hl. destruct l as [|[a1 b1] [|[a2 b2] [|]]]; try discriminate Hl.
      assert (RX : exists g G : R -> R, (forall x, a1 <= x <= b1 -> g x = hd0 (map (upd e "x" x) ["x"]) /\ derivable_pt_lim G x (g x)) /\ (b1 * b1 - a1 * a1) / 2 = G b1 - G a1).
      { exists (fun x => x), (fun x => x ^ 2 / INR 2). split; [|simpl; field]. intros x _. split; [reflexivity|]. replace x with (x ^ 1) at 2 by ring. apply (ex_pow 1). }
      destruct Hf as [<-|[<-|[<-|[]]]]; [exact RX| |exact RX].
      cbn. exists (fun _ => 1), (fun x => x). split; [|reflexivity]. intros x _. split; [reflexivity|apply derivable_pt_lim_id]. }
  assert (SN : sound_norms (fun _ _ => false)) by (intros o l o' l' H; discriminate H).
  assert (L2 : (2 <= length ex_pdfs)%nat) by (simpl; lia). assert (ND : NoDup ["x"; "y"]) by nodup.
  assert (IC : incl ["x"; "y"] (flat_map a_obs ex_pdfs)) by (intros q [<-|[<-|[]]]; simpl; tauto).
  destruct (C34_any_overlap _ ex_numeric (fun _ _ => false) (fun _ _ => false) ex_I ex_F ["x"; "y"] ex_pdfs None SN L2 ND IC W ex_exact) as [IP [[B1 _] T]].
  apply (C34_integral_of_pdf_one (fun _ _ => false) ex_numeric (fun _ _ => false) (fun _ _ => false) ex_I ex_F ["x"; "y"] ex_pdfs None [(0, 1); (0, 2)] (fun _ => 0) (IP [(0, 1); (0, 2)])); auto; try exact ex_exact; try reflexivity.
  - rewrite B1; [cbn [integral_of total]; rewrite Rplus_0_r; reflexivity|split; [discriminate|repeat constructor]|intros nls H; discriminate H].
  - assert (V : integrate (product (fun _ _ => false) ex_numeric (fun _ _ => false) (fun _ _ => false) ["x"; "y"] ex_pdfs None) [[(0, 1); (0, 2)]] NormFalse = Val (2 / 3)).
    { cbv -[Rplus Rmult Rdiv Rminus Rinv pow INR]. f_equal. simpl. field. }
    rewrite B1 in V; [|split; [discriminate|repeat constructor]|intros nls H; discriminate H]. cbn [integral_of total] in V. rewrite Rplus_0_r in V. injection V as ->. lra.
Qed.
Print Assumptions C34_product_behaves.
Print Assumptions C34_pdf.
Print Assumptions C34_integrate.
Print Assumptions C34_analytic.
Print Assumptions C34_no_analytic.
Print Assumptions C34_any_overlap.
Print Assumptions C34_integral_of_pdf_one.
Print Assumptions C34_nested_not_split.
Print Assumptions C34_single_factor_refuted.
Print Assumptions C34_extra_observable_refuted.
