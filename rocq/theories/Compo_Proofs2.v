(** Proofs for the conversion of values to parameters. *)
From Coq Require Import Reals Ascii DecimalString.
From Verif Require Import Base BaseLemmas Compo_Model Compo_Spec Compo_Proofs.
#[local] Open Scope nat_scope.

(** ** Numbers in names *)
Definition is_digit (c : ascii) : bool := mem Ascii.eqb c ["0"; "1"; "2"; "3"; "4"; "5"; "6"; "7"; "8"; "9"]%char.
Fixpoint all_digits (s : string) : bool := match s with EmptyString => true | String c r => is_digit c && all_digits r end.
Definition no_digit_first (s : string) : bool := match s with EmptyString => true | String c _ => negb (is_digit c) end.
Lemma digits_digits k : all_digits (digits k) = true.
Proof.
  unfold digits. assert (G : forall d, all_digits (NilEmpty.string_of_uint d) = true) by (induction d; [reflexivity|exact IHd ..]).
  destruct (Nat.to_uint k); [reflexivity|apply (G (Decimal.D0 _))|apply (G (Decimal.D1 _))|apply (G (Decimal.D2 _))
    |apply (G (Decimal.D3 _))|apply (G (Decimal.D4 _))|apply (G (Decimal.D5 _))|apply (G (Decimal.D6 _))|apply (G (Decimal.D7 _))
    |apply (G (Decimal.D8 _))|apply (G (Decimal.D9 _))].
Qed.
Lemma split_digits a b s t : all_digits a = true -> all_digits b = true -> no_digit_first s = true -> no_digit_first t = true ->
  (a ++ s)%string = (b ++ t)%string -> a = b /\ s = t.
Proof.
  revert b. induction a as [|c a IH]; intros [|d b] Ha Hb Hs Ht E; cbn in *.
  - auto.
  - exfalso. subst s. cbn in Hs. apply andb_true_iff in Hb. destruct Hb as [Hb _]. rewrite Hb in Hs. discriminate.
  - exfalso. subst t. cbn in Ht. apply andb_true_iff in Ha. destruct Ha as [Ha _]. rewrite Ha in Ht. discriminate.
  - injection E as -> E. apply andb_true_iff in Ha, Hb. destruct (IH b (proj2 Ha) (proj2 Hb) Hs Ht E) as [-> ->]. auto.
Qed.
Definition prefixes : list string := ["FIXED_autoparam_"; "autoparam_"; "FIXED_complex_autoparam_"]%string.
Definition suffixes : list string := [""; "_REALPART"; "_IMAGPART"]%string.
Lemma name_inj p q i j s t : In p prefixes -> In q prefixes -> In s suffixes -> In t suffixes ->
  ((p ++ digits i) ++ s)%string = ((q ++ digits j) ++ t)%string -> p = q /\ i = j /\ s = t.
Proof.
  intros Hp Hq Hs Ht E.
  assert (Assoc : forall a b c : string, ((a ++ b) ++ c)%string = (a ++ (b ++ c))%string).
  { induction a as [|x a IH]; intros b c; [reflexivity|]. cbn. f_equal. apply IH. }
  rewrite !Assoc in E.
  assert (Fs : no_digit_first s = true) by (repeat (destruct Hs as [<-|Hs]; [reflexivity|]); destruct Hs).
  assert (Ft : no_digit_first t = true) by (repeat (destruct Ht as [<-|Ht]; [reflexivity|]); destruct Ht).
  assert (G : p = q).
  { repeat (destruct Hp as [<-|Hp]; [repeat (destruct Hq as [<-|Hq]; [reflexivity || (exfalso; discriminate E)|]); destruct Hq|]). destruct Hp. }
  subst q. split; [reflexivity|].
  assert (E' : (digits i ++ s)%string = (digits j ++ t)%string).
  { clear -E. induction p as [|c p IH]; [exact E|]. cbn in E. injection E as E. exact (IH E). }
  destruct (split_digits _ _ _ _ (digits_digits i) (digits_digits j) Fs Ft E') as [D1 D2].
  split; [exact (digits_inj _ _ D1)|exact D2].
Qed.

(** the new names come from the numbers in [k, k') *)
Definition from_range (k k' : nat) (n : string) : Prop :=
  exists p i s, In p prefixes /\ In s suffixes /\ k <= i < k' /\ n = ((p ++ digits i) ++ s)%string.
Lemma app_nil_s (a : string) : (a ++ "")%string = a.
Proof. induction a as [|c a IH]; [reflexivity|]. cbn. rewrite IH. reflexivity. Qed.
Lemma nodup_complex p k : In p prefixes ->
  NoDup [((p ++ digits k) ++ "")%string; ((p ++ digits k) ++ "_REALPART")%string; ((p ++ digits k) ++ "_IMAGPART")%string].
Proof.
  intros Hp. assert (S : forall s, In s suffixes -> In s suffixes) by auto.
  constructor; [|constructor; [|constructor; [intros []|constructor]]].
  - intros [H|[H|[]]]; apply name_inj in H; try assumption; try (cbn; tauto); destruct H as [_ [_ H]]; discriminate.
  - intros [H|[]]; apply name_inj in H; try assumption; try (cbn; tauto); destruct H as [_ [_ H]]; discriminate.
Qed.
Lemma convert_names k v pc lo up st r k' : is_param v = false -> convert_to_parameter true k v None pc None lo up st = Ok (r, k') ->
  k' = S k /\ NoDup (new_names r) /\ forall n, In n (new_names r) -> from_range k k' n.
Proof.
  intros Hv H. unfold convert_to_parameter in H. destruct v as [x|z|n p|f]; try discriminate.
  - cbn [negb] in H. destruct pc; cbn [auto_name] in H; injection H as <- <-; (split; [reflexivity|]); (split; [repeat constructor; intros []|]); intros n [<-|[]].
    + exists "FIXED_autoparam_"%string, k, ""%string. split; [cbn; tauto|]. split; [cbn; tauto|]. split; [lia|]. rewrite app_nil_s. reflexivity.
    + exists "autoparam_"%string, k, ""%string. split; [cbn; tauto|]. split; [cbn; tauto|]. split; [lia|]. rewrite app_nil_s. reflexivity.
  - cbn [negb] in H. cbn [auto_name] in H. injection H as Hr <-. split; [reflexivity|].
    set (q := "FIXED_complex_autoparam_"%string) in *. assert (Hq : In q prefixes) by (cbn; tauto).
    assert (E : new_names r = [((q ++ digits k) ++ "")%string; ((q ++ digits k) ++ "_REALPART")%string; ((q ++ digits k) ++ "_IMAGPART")%string]).
    { rewrite <- Hr, app_nil_s. destruct pc; reflexivity. }
    rewrite E. split; [apply nodup_complex, Hq|].
    intros n [<-|[<-|[<-|[]]]]; (eexists q, k, _; split; [exact Hq|]; split; [|split; [lia|reflexivity]]); cbn; tauto.
Qed.
Lemma nodup_app {A} (l r : list A) : NoDup l -> NoDup r -> (forall x, In x l -> ~ In x r) -> NoDup (l ++ r).
Proof.
  induction 1 as [|x l Hn Hd IH]; intros Hr Hx; [exact Hr|]. cbn. constructor.
  - rewrite in_app_iff. intros [H|H]; [exact (Hn H)|exact (Hx x (or_introl eq_refl) H)].
  - apply IH; [exact Hr|]. intros y Hy. apply Hx. right. exact Hy.
Qed.
Lemma range_disjoint a b c d n : b <= c -> from_range a b n -> ~ from_range c d n.
Proof.
  intros Hbc [p [i [s [Hp [Hs [Hi E]]]]]] [q [j [t [Hq [Ht [Hj E']]]]]]. rewrite E in E'.
  apply name_inj in E'; try assumption. lia.
Qed.
Lemma each_names vs : forall k i pc lo up st rs k', existsb is_param vs = false ->
  convert_each true k i vs None pc lo up st = Ok (rs, k') ->
  k <= k' /\ NoDup (flat_map new_names rs) /\ forall n, In n (flat_map new_names rs) -> from_range k k' n.
Proof.
  induction vs as [|v vs IH]; intros k i pc lo up st rs k' Hp H; cbn [convert_each] in H.
  - injection H as <- <-. split; [lia|]. split; [constructor|]. intros n [].
  - cbn [existsb] in Hp. apply orb_false_iff in Hp. destruct Hp as [Hv Hp]. cbn [opt_nth] in H.
    destruct (convert_to_parameter _ _ _ _ _ _ _ _ _) as [[r k1]|] eqn:E; [cbn [bind fst snd] in H|discriminate].
    destruct (convert_each _ _ _ _ _ _ _ _ _) as [[rs' k2]|] eqn:E2; [cbn [bind fst snd] in H|discriminate]. injection H as <- <-.
    destruct (convert_names _ _ _ _ _ _ _ _ Hv E) as [-> [N1 F1]]. destruct (IH _ _ _ _ _ _ _ _ Hp E2) as [L2 [N2 F2]].
    split; [lia|]. cbn [flat_map]. split.
    + apply nodup_app; [exact N1|exact N2|]. intros n H1 H2. eapply range_disjoint; [apply Nat.le_refl|apply F1, H1|apply F2, H2].
    + intros n Hn. apply in_app_iff in Hn. destruct Hn as [Hn|Hn].
      * destruct (F1 _ Hn) as [p [j [s [A [B [D X]]]]]]. exists p, j, s. repeat (split; [assumption|]). split; [lia|exact X].
      * destruct (F2 _ Hn) as [p [j [s [A [B [D X]]]]]]. exists p, j, s. repeat (split; [assumption|]). split; [lia|exact X].
Qed.
Lemma parameters_each a k vs names pc lo up st r : vs <> [] -> existsb is_param vs = false ->
  convert_to_parameters a k vs names pc lo up st = Ok r -> convert_each a k 0 vs names pc lo up st = Ok r
   /\ opt_len names (length vs) = true /\ opt_len lo (length vs) = true /\ opt_len up (length vs) = true /\ opt_len st (length vs) = true.
Proof.
  intros Hne Hp H. unfold convert_to_parameters in H.
  destruct (forallb is_param vs) eqn:E.
  { exfalso. destruct vs as [|v vs]; [congruence|]. cbn in Hp, E. apply orb_false_iff in Hp. rewrite (proj1 Hp) in E. discriminate. }
  rewrite Hp in H.
  destruct (opt_len names _ && opt_len lo _ && opt_len up _ && opt_len st _) eqn:El in H; [|discriminate]. rewrite !andb_true_iff in El. split; [exact H|tauto].
Qed.
Lemma auto_names_unique k vs pc lo up st rs k' : existsb is_param vs = false ->
  convert_to_parameters true k vs None pc lo up st = Ok (rs, k') ->
  k <= k' /\ NoDup (flat_map new_names rs) /\ forall n, In n (flat_map new_names rs) -> from_range k k' n.
Proof.
  intros Hp H. destruct vs as [|v vs].
  - cbn in H. injection H as <- <-. split; [lia|]. split; [constructor|intros n []].
  - assert (Hne : v :: vs <> []) by discriminate. destruct (parameters_each _ _ _ _ _ _ _ _ _ Hne Hp H) as [H' _]. exact (each_names _ _ _ _ _ _ _ _ _ Hp H').
Qed.

(** ** One by one *)
Lemma each_nth a vs : forall k i names pc lo up st rs k', convert_each a k i vs names pc lo up st = Ok (rs, k') ->
  length rs = length vs /\ forall j v, nth_error vs j = Some v -> exists r k1 k2, nth_error rs j = Some r
    /\ convert_to_parameter a k1 v (opt_nth names (i + j)) pc None (opt_nth lo (i + j)) (opt_nth up (i + j)) (opt_nth st (i + j)) = Ok (r, k2).
Proof.
  induction vs as [|v vs IH]; intros k i names pc lo up st rs k' H; cbn [convert_each] in H.
  - injection H as <- <-. split; [reflexivity|]. intros [|j] v Hv; discriminate.
  - destruct (convert_to_parameter _ _ _ _ _ _ _ _ _) as [[r k1]|] eqn:E; [cbn [bind fst snd] in H|discriminate].
    destruct (convert_each _ _ _ _ _ _ _ _ _) as [[rs' k2]|] eqn:E2; [cbn [bind fst snd] in H|discriminate]. injection H as <- <-.
    destruct (IH _ _ _ _ _ _ _ _ _ E2) as [L F]. split; [cbn; rewrite L; reflexivity|]. intros [|j] w Hw.
    + cbn in Hw. injection Hw as <-. exists r, k, k1. split; [reflexivity|]. rewrite Nat.add_0_r. exact E.
    + cbn in Hw. destruct (F _ _ Hw) as [r' [k3 [k4 [Hr Hc]]]]. exists r', k3, k4. split; [exact Hr|].
      replace (i + S j) with (S i + j) by lia. exact Hc.
Qed.
Lemma auto_given n p k s k' : auto_name n p k = (s, k') -> forall g, n = Some g -> s = g.
Proof. intros H g ->. injection H as <- _. reflexivity. Qed.

Lemma numbers_converted k vs names pc lo up st rs k' : existsb is_param vs = false ->
  convert_to_parameters true k vs names pc lo up st = Ok (rs, k') ->
  length rs = length vs
  /\ (forall j x, nth_error vs j = Some (RReal x) -> exists n, (forall g, opt_nth names j = Some g -> n = g)
       /\ nth_error rs j = Some (if pc then NConstant n x else NVariable n x (opt_nth lo j) (opt_nth up j) (opt_nth st j)))
  /\ (forall j z, nth_error vs j = Some (RComplex z) -> exists n, (forall g, opt_nth names j = Some g -> n = g)
       /\ nth_error rs j = Some (NComplex n
            (if pc then NConstant (n ++ "_REALPART")%string (fst z) else NVariable (n ++ "_REALPART")%string (fst z) None None None)
            (if pc then NConstant (n ++ "_IMAGPART")%string (snd z) else NVariable (n ++ "_IMAGPART")%string (snd z) None None None))).
Proof.
  intros Hp H. destruct vs as [|v0 vs0] eqn:Ev.
  { cbn in H. injection H as <- <-. split; [reflexivity|]. split; intros [|j] x Hx; discriminate. }
  rewrite <- Ev in *. assert (Hne : vs <> []) by (rewrite Ev; discriminate).
  destruct (parameters_each _ _ _ _ _ _ _ _ _ Hne Hp H) as [H' [Ln _]]. destruct (each_nth _ _ _ _ _ _ _ _ _ _ _ H') as [L F].
  split; [exact L|]. split.
  - intros j x Hx. destruct (F _ _ Hx) as [r [k1 [k2 [Hr Hc]]]]. cbn [Nat.add] in Hc. unfold convert_to_parameter in Hc. cbn [negb] in Hc.
    destruct pc; destruct (auto_name (opt_nth names j) _ k1) as [n k3] eqn:Ea; injection Hc as <- <-; exists n;
      (split; [intros g Hg; exact (auto_given _ _ _ _ _ Ea g Hg)|exact Hr]).
  - intros j z Hx. destruct (F _ _ Hx) as [r [k1 [k2 [Hr Hc]]]]. cbn [Nat.add] in Hc. unfold convert_to_parameter in Hc. cbn [negb] in Hc.
    destruct (auto_name (opt_nth names j) _ k1) as [n k3] eqn:Ea. injection Hc as <- <-. exists n.
    split; [intros g Hg; exact (auto_given _ _ _ _ _ Ea g Hg)|exact Hr].
Qed.

Lemma each_total vs : forall k i names pc lo up st, existsb is_param vs = false -> (forall f, ~ In (RFunc f) vs) ->
  exists r, convert_each true k i vs names pc lo up st = Ok r.
Proof.
  induction vs as [|v vs IH]; intros k i names pc lo up st Hp Hf; [eexists; reflexivity|].
  cbn [existsb] in Hp. apply orb_false_iff in Hp. cbn [convert_each].
  assert (exists r, convert_to_parameter true k v (opt_nth names i) pc None (opt_nth lo i) (opt_nth up i) (opt_nth st i) = Ok r) as [r ->].
  { destruct v as [x|z|n p|f]; cbn [convert_to_parameter negb]; [| |eexists; reflexivity|destruct (Hf f (or_introl eq_refl))].
    - destruct pc; destruct (auto_name _ _ _); eexists; reflexivity. - destruct (auto_name _ _ _); eexists; reflexivity. }
  cbn [bind]. destruct (IH (snd r) (S i) names pc lo up st (proj2 Hp)) as [r2 ->]; [intros f Hi; apply (Hf f); right; exact Hi|]. eexists. reflexivity.
Qed.
Lemma each_func f vs : forall a k i names pc lo up st, In (RFunc f) vs -> forall r, convert_each a k i vs names pc lo up st <> Ok r.
Proof.
  induction vs as [|v vs IH]; intros a k i names pc lo up st Hi r; [destruct Hi|]. cbn [convert_each]. destruct Hi as [->|Hi].
  - cbn. discriminate.
  - destruct (convert_to_parameter _ _ _ _ _ _ _ _ _); [cbn [bind]|discriminate].
    destruct (convert_each _ _ _ _ _ _ _ _ _) eqn:E; [destruct (IH _ _ _ _ _ _ _ _ Hi _ E)|discriminate].
Qed.
Lemma opt_len_iff {A} (o : option (list A)) n : opt_len o n = true <-> fits o n.
Proof.
  destruct o as [l|]; cbn; [rewrite Nat.eqb_eq|]; unfold fits; (split; [|]); intros H.
  - intros l' E. injection E as <-. exact H. - apply H. reflexivity. - discriminate. - reflexivity.
Qed.
Lemma parameters_succeed k vs names pc lo up st : vs <> [] ->
  ((exists r, convert_to_parameters true k vs names pc lo up st = Ok r)
   <-> (forall v, In v vs -> is_param v = true)
       \/ ((forall v, In v vs -> is_param v = false) /\ (forall f, ~ In (RFunc f) vs)
           /\ fits names (length vs) /\ fits lo (length vs) /\ fits up (length vs) /\ fits st (length vs)))
  /\ ((forall r, convert_to_parameters true k vs names pc lo up st <> Ok r) -> convert_to_parameters true k vs names pc lo up st = Err ValueError).
Proof.
  intros Hne. unfold convert_to_parameters. destruct (forallb is_param vs) eqn:Ea.
  { split.
    - split; [intros _; left; apply forallb_forall, Ea|intros _; eexists; reflexivity].
    - intros H. destruct (H _ eq_refl). }
  assert (Na : ~ (forall v, In v vs -> is_param v = true)) by (intros H; apply forallb_forall in H; congruence).
  destruct (existsb is_param vs) eqn:Ex.
  { split; [|reflexivity]. split; [intros [r H]; discriminate|]. intros [H|[H _]]; [destruct (Na H)|].
    apply existsb_exists in Ex. destruct Ex as [v [Hv Ev]]. rewrite (H v Hv) in Ev. discriminate. }
  assert (Nx : forall v, In v vs -> is_param v = false).
  { intros v Hv. destruct (is_param v) eqn:E; [|reflexivity]. assert (existsb is_param vs = true) by (apply existsb_exists; exists v; auto). congruence. }
  assert (Fd : (forall f, ~ In (RFunc f) vs) \/ exists f, In (RFunc f) vs).
  { clear. induction vs as [|v vs IH]; [left; intros f []|]. destruct v as [x|z|n p|f]; [| | |right; exists f; left; reflexivity];
    (destruct IH as [IH|[f IH]]; [left; intros f [H|H]; [discriminate|exact (IH f H)]|right; exists f; right; exact IH]). }
  destruct (opt_len names _ && opt_len lo _ && opt_len up _ && opt_len st _) eqn:El.
  - rewrite !andb_true_iff, !opt_len_iff in El. destruct Fd as [Fd|[f Fd]].
    + destruct (each_total vs k 0 names pc lo up st Ex Fd) as [r E]. rewrite E. split.
      * split; [intros _; right; tauto|intros _; eexists; reflexivity]. * intros H. destruct (H _ eq_refl).
    + split.
      * split; [intros [r H]; destruct (each_func _ _ _ _ _ _ _ _ _ _ Fd _ H)|]. intros [H|[_ [H _]]]; [destruct (Na H)|destruct (H f Fd)].
      * intros _. clear -Fd. revert k. generalize 0 as i. induction vs as [|v vs IH]; intros i k; [destruct Fd|]. cbn [convert_each].
        destruct v as [x|z|n p|g]; [| | |reflexivity].
        -- destruct Fd as [Fd|Fd]; [discriminate|]. cbn [convert_to_parameter negb]. destruct pc; destruct (auto_name _ _ _); cbn [bind fst snd]; rewrite IH by exact Fd; reflexivity.
        -- destruct Fd as [Fd|Fd]; [discriminate|]. cbn [convert_to_parameter negb]. destruct (auto_name _ _ _); cbn [bind fst snd]; rewrite IH by exact Fd; reflexivity.
        -- destruct Fd as [Fd|Fd]; [discriminate|]. cbn [convert_to_parameter bind fst snd]. rewrite IH by exact Fd; reflexivity.
  - split; [|reflexivity]. split; [intros [r H]; discriminate|]. intros [H|[_ [_ H]]]; [destruct (Na H)|].
    assert (opt_len names (length vs) && opt_len lo (length vs) && opt_len up (length vs) && opt_len st (length vs) = true) by (rewrite !andb_true_iff, !opt_len_iff; tauto).
    congruence.
Qed.
