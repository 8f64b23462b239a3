(** Proofs about parameters, part 3: set_values and assign_values. *)
From Coq Require Import Lqa.
From Verif Require Import Base BaseLemmas Param_Model Param_Spec Param_Proofs Param_Proofs2.

Lemma refused_spec p v : ordered_limits p -> (rejects p v = true <-> refused p v).
Proof.
  intros Ho. destruct v as [q| | |]; simpl.
  - apply rejects_fin, Ho.
  - rewrite rejects_inf by auto. unfold has_limits. destruct (p_lower p), (p_upper p); intuition congruence.
  - rewrite rejects_inf by auto. unfold has_limits. destruct (p_lower p), (p_upper p); intuition congruence.
  - rewrite rejects_nan. intuition discriminate.
Qed.
Lemma refused_same p p' v : p_lower p' = p_lower p -> p_upper p' = p_upper p -> refused p v -> refused p' v.
Proof. intros L U. destruct v; simpl; unfold beyond, tolerance; rewrite ?L, ?U; auto. Qed.

Lemma updated_zero ids vs st : updated_up_to 0 ids vs st st.
Proof. split; [intros; lia|]. auto. Qed.
(** one more parameter in front *)
Lemma updated_cons k i v ids vs st st' :
  updated_up_to k ids vs (assign st i v) st' -> updated_up_to (S k) (i :: ids) (v :: vs) st st'.
Proof.
  intros [A [B [C D]]]. split; [|split; [|split; [exact C|exact D]]].
  - intros [|j] i' v' Hj Hi Hv Hlast; simpl in Hi, Hv.
    + inversion Hi; inversion Hv; subst i' v'. rewrite B.
      * unfold assign, set_par. cbn [st_par]. rewrite upd_same. reflexivity.
      * intros Hin. apply In_nth_error in Hin. destruct Hin as [n Hn].
        assert (n < k).
        { destruct (Nat.lt_ge_cases n k) as [H|H]; [exact H|]. exfalso.
          assert (Hx : nth_error (firstn k ids) n = None) by (apply nth_error_None; pose proof (firstn_le_length k ids); lia). congruence. }
        assert (nth_error ids n = Some i).
        { rewrite <- (firstn_skipn k ids). rewrite nth_error_app1; [exact Hn|]. apply nth_error_Some. congruence. }
        apply (Hlast (S n)); [lia|assumption].
    + rewrite (A j i' v'); [|lia|exact Hi|exact Hv|intros j' Hj'; apply (Hlast (S j')); lia].
      unfold assign, set_par. cbn [st_par]. destruct (Nat.eq_dec i' i) as [->|E]; [rewrite upd_same|rewrite upd_other by exact E]; reflexivity.
  - intros i' Hn. cbn [firstn] in Hn. rewrite B by (intros H; apply Hn; right; exact H).
    unfold assign, set_par. cbn [st_par]. apply upd_other. intros ->. apply Hn. left. reflexivity.
Qed.

Lemma set_each_positional ids : forall vs st st' e, (forall i, ordered_limits (st_par st i)) ->
  length vs = length ids -> set_each st ids vs = (st', e) ->
  exists k, k <= length ids /\ updated_up_to k ids vs st st'
    /\ (forall j i v, j < k -> nth_error ids j = Some i -> nth_error vs j = Some v -> ~ refused (st_par st i) v)
    /\ ((k = length ids /\ e = None)
        \/ (e = Some ValueError /\ exists i v, nth_error ids k = Some i /\ nth_error vs k = Some v /\ refused (st_par st i) v)).
Proof.
  induction ids as [|i ids IH]; intros vs st st' e Ho Hl E.
  - destruct vs; [|discriminate]. simpl in E. inversion E; subst. exists 0. split; [lia|]. split; [apply updated_zero|].
    split; [intros; lia|]. left. auto.
  - destruct vs as [|v vs]; [discriminate|]. cbn [set_each] in E.
    destruct (set_value_cases st i v) as [[Hr E']|[Hr E']]; rewrite E' in E.
    + inversion E; subst. exists 0. split; [lia|]. split; [apply updated_zero|]. split; [intros; lia|]. right. split; [reflexivity|].
      exists i, v. split; [reflexivity|]. split; [reflexivity|]. apply refused_spec; auto.
    + assert (HL : forall j, p_lower (st_par (assign st i v) j) = p_lower (st_par st j) /\ p_upper (st_par (assign st i v) j) = p_upper (st_par st j)).
      { intros j. unfold assign, set_par. cbn [st_par]. destruct (Nat.eq_dec j i) as [->|Hj]; [rewrite upd_same|rewrite upd_other by exact Hj]; auto. }
      destruct (IH vs (assign st i v) st' e) as [k [Hk [U [N R]]]]; [|simpl in Hl; lia|exact E|].
      { intros j l u. destruct (HL j) as [-> ->]. apply Ho. }
      exists (S k). split; [simpl; lia|]. split; [apply updated_cons, U|]. split.
      * intros [|j] i' v' Hj Hi Hv; simpl in Hi, Hv.
        -- inversion Hi; inversion Hv; subst. intros C. apply refused_spec in C; [congruence|apply Ho].
        -- intros C. destruct (HL i') as [L U']. apply (N j i' v'); [lia|exact Hi|exact Hv|]. eapply refused_same; eassumption.
      * destruct R as [[-> ->]|[-> [i' [v' [Hi [Hv C]]]]]]; [left; auto|]. right. split; [reflexivity|]. exists i', v'.
        split; [exact Hi|]. split; [exact Hv|]. destruct (HL i') as [L U']. eapply refused_same; [symmetry|symmetry|exact C]; assumption.
Qed.

Lemma assign_each_updated ids : forall vs st, length vs = length ids -> updated_up_to (length ids) ids vs st (assign_each st ids vs).
Proof.
  induction ids as [|i ids IH]; intros [|v vs] st Hl; try discriminate; [apply updated_zero|].
  cbn [length assign_each]. apply updated_cons, IH. simpl in Hl. lia.
Qed.

(* conversion *)
Lemma indep_ids_map ids : indep_ids (map OIndep ids) = ids.
Proof. unfold indep_ids. induction ids as [|i ids IH]; [reflexivity|]. cbn. f_equal. exact IH. Qed.
Lemma all_params ids : forallb is_param (map OIndep ids) = true.
Proof. induction ids; [reflexivity|exact IHids]. Qed.
Lemma all_indep ids : forallb is_indep (map OIndep ids) = true.
Proof. induction ids; [reflexivity|exact IHids]. Qed.

Lemma convert_seq nm ids vs ap : length vs = length ids -> convert_values nm (map OIndep ids) (VSeq vs) ap = Ok (ids, vs).
Proof.
  intros Hl. destruct ids as [|i ids]; [destruct vs; [reflexivity|discriminate]|].
  unfold convert_values. cbn [map]. change (OIndep i :: map OIndep ids) with (map OIndep (i :: ids)).
  rewrite map_length, Hl, Nat.eqb_refl. cbn [bind]. rewrite all_params, all_indep, indep_ids_map. reflexivity.
Qed.

Lemma key_eqb_ok : eqb_spec key_eqb.
Proof.
  intros [i|s] [j|t]; simpl; split; intros H; try discriminate.
  - f_equal. apply Nat.eqb_eq, H. - inversion H. apply Nat.eqb_refl.
  - f_equal. apply String.eqb_eq, H. - inversion H. apply String.eqb_refl.
Qed.

Section L.
Context {K V : Type} (eqb : K -> K -> bool) (ok : eqb_spec eqb).
Lemma lookup_in_unique k v (m : list (K * V)) : NoDup (map fst m) -> In (k, v) m -> lookup eqb k m = Some v.
Proof.
  intros Hn. induction m as [|[k0 v0] m IH]; [intros []|]. cbn [map fst] in Hn. inversion Hn as [|? ? H1 H2]; subst.
  intros [E|Hin]; simpl.
  - inversion E; subst. replace (eqb k k) with true by (symmetry; apply ok; reflexivity). reflexivity.
  - destruct (eqb k k0) eqn:E; [|apply IH; assumption]. apply ok in E. subst. exfalso. apply H1.
    change k0 with (fst (k0, v)). apply in_map, Hin.
Qed.
Lemma lookup_absent k (m : list (K * V)) : (forall v, ~ In (k, v) m) -> lookup eqb k m = None.
Proof.
  induction m as [|[k0 v0] m IH]; [reflexivity|]. intros H. simpl. destruct (eqb k k0) eqn:E.
  - apply ok in E. subst. exfalso. apply (H v0). left. reflexivity.
  - apply IH. intros v Hin. apply (H v). right. exact Hin.
Qed.
End L.

Lemma holds_lookup nm m i v : NoDup (map fst m) -> holds m i nm v ->
  match lookup key_eqb (KParam i) m with Some w => Some w | None => lookup key_eqb (KName nm) m end = Some v.
Proof.
  intros Hn [H|[H1 H2]].
  - rewrite (lookup_in_unique _ key_eqb_ok _ _ _ Hn H). reflexivity.
  - rewrite (lookup_absent _ key_eqb_ok _ _ H1). apply lookup_in_unique; [exact key_eqb_ok|exact Hn|exact H2].
Qed.
Lemma absent_lookup nm m i : absent m i nm ->
  match lookup key_eqb (KParam i) m with Some w => Some w | None => lookup key_eqb (KName nm) m end = None.
Proof. intros [H1 H2]. rewrite (lookup_absent _ key_eqb_ok _ _ H1). apply lookup_absent; [exact key_eqb_ok|exact H2]. Qed.

Lemma found_length H A l ids vs : found H A l ids vs -> length vs = length ids.
Proof. induction 1; simpl; lia. Qed.

Lemma pick_map_found nm m ids l vs : NoDup (map fst m) ->
  found (fun i v => holds m i (nm i) v) (fun i => absent m i (nm i)) ids l vs ->
  pick_map nm m (map OIndep ids) true = Ok (map OIndep l, vs)
  /\ pick_map nm m (map OIndep ids) false = if Nat.eqb (length l) (length ids) then Ok (map OIndep l, vs) else Err ValueError.
Proof.
  intros Hn. induction 1 as [|i v ids l vs Hh Hf [IH1 IH2]|i ids l vs Ha Hf [IH1 IH2]]; [split; reflexivity| |].
  - cbn [map pick_map]. pose proof (holds_lookup _ _ _ _ Hn Hh) as E.
    assert (X : (match lookup key_eqb (KParam i) m with Some v0 => Ok (Some v0) | None => Ok (lookup key_eqb (KName (nm i)) m) end) = Ok (Some v)).
    { destruct (lookup key_eqb (KParam i) m); [congruence|rewrite E; reflexivity]. }
    rewrite X. cbn [bind length Nat.eqb]. rewrite IH1, IH2. split; [reflexivity|].
    destruct (Nat.eqb (length l) (length ids)); reflexivity.
  - cbn [map pick_map]. pose proof (absent_lookup _ _ _ Ha) as E.
    assert (X : (match lookup key_eqb (KParam i) m with Some v0 => Ok (Some v0) | None => Ok (lookup key_eqb (KName (nm i)) m) end) = Ok None).
    { destruct (lookup key_eqb (KParam i) m); [discriminate|rewrite E; reflexivity]. }
    rewrite X. cbn [bind length]. rewrite IH1. split; [reflexivity|].
    assert (Hle : length l <= length ids) by (clear - Hf; induction Hf; simpl; lia).
    destruct (Nat.eqb (length l) (S (length ids))) eqn:E1; [apply Nat.eqb_eq in E1; lia|reflexivity].
Qed.
Lemma pick_result_found r ids l vs : NoDup (map fst r) ->
  found (fun i v => In (i, v) r) (fun i => forall v, ~ In (i, v) r) ids l vs ->
  pick_result r (map OIndep ids) true = Ok (map OIndep l, vs)
  /\ pick_result r (map OIndep ids) false = if Nat.eqb (length l) (length ids) then Ok (map OIndep l, vs) else Err ValueError.
Proof.
  intros Hn. induction 1 as [|i v ids l vs Hh Hf [IH1 IH2]|i ids l vs Ha Hf [IH1 IH2]]; [split; reflexivity| |].
  - cbn [map pick_result]. rewrite (lookup_in_unique _ nat_eqb_ok _ _ _ Hn Hh). cbn [bind length Nat.eqb]. rewrite IH1, IH2. split; [reflexivity|].
    destruct (Nat.eqb (length l) (length ids)); reflexivity.
  - cbn [map pick_result]. rewrite (lookup_absent _ nat_eqb_ok _ _ Ha). cbn [length]. rewrite IH1. split; [reflexivity|].
    assert (Hle : length l <= length ids) by (clear - Hf; induction Hf; simpl; lia).
    destruct (Nat.eqb (length l) (S (length ids))) eqn:E1; [apply Nat.eqb_eq in E1; lia|reflexivity].
Qed.
Lemma found_all H A ids l vs : found H A ids l vs -> length l = length ids -> l = ids.
Proof.
  induction 1 as [|i v ids l vs Hh Hf IH|i ids l vs Ha Hf IH]; intros E; [reflexivity| |].
  - f_equal. apply IH. simpl in E. lia.
  - assert (Hle : length l <= length ids) by (clear - Hf; induction Hf; simpl; lia). simpl in E. lia.
Qed.

Lemma convert_map nm m ids l vs ap : NoDup (map fst m) ->
  found (fun i v => holds m i (nm i) v) (fun i => absent m i (nm i)) ids l vs -> (ap = true \/ l = ids) ->
  convert_values nm (map OIndep ids) (VMap m) ap = convert_values nm (map OIndep l) (VSeq vs) ap.
Proof.
  intros Hn Hf Hap. rewrite convert_seq by (eapply found_length, Hf).
  destruct ids as [|i ids]; [inversion Hf; reflexivity|].
  unfold convert_values. change (map OIndep (i :: ids)) with (OIndep i :: map OIndep ids). cbv iota.
  change (OIndep i :: map OIndep ids) with (map OIndep (i :: ids)).
  destruct (pick_map_found _ _ _ _ _ Hn Hf) as [E1 E2].
  assert (E : pick_map nm m (map OIndep (i :: ids)) ap = Ok (map OIndep l, vs)).
  { destruct Hap as [->| ->]; [exact E1|]. destruct ap; [exact E1|]. rewrite E2, Nat.eqb_refl. reflexivity. }
  rewrite E. cbn [bind]. rewrite all_params, all_indep, indep_ids_map. reflexivity.
Qed.
Lemma convert_map_missing nm m ids l vs : NoDup (map fst m) ->
  found (fun i v => holds m i (nm i) v) (fun i => absent m i (nm i)) ids l vs -> l <> ids ->
  convert_values nm (map OIndep ids) (VMap m) false = Err ValueError.
Proof.
  intros Hn Hf Hne. destruct ids as [|i ids]; [inversion Hf; subst; congruence|].
  unfold convert_values. change (map OIndep (i :: ids)) with (OIndep i :: map OIndep ids). cbv iota.
  change (OIndep i :: map OIndep ids) with (map OIndep (i :: ids)).
  destruct (pick_map_found _ _ _ _ _ Hn Hf) as [_ E2]. rewrite E2.
  destruct (Nat.eqb (length l) (length (i :: ids))) eqn:E; [|reflexivity]. apply Nat.eqb_eq in E. exfalso. apply Hne. eapply found_all; eassumption.
Qed.
Lemma convert_result nm r ids l vs ap : NoDup (map fst r) ->
  found (fun i v => In (i, v) r) (fun i => forall v, ~ In (i, v) r) ids l vs -> (ap = true \/ l = ids) ->
  convert_values nm (map OIndep ids) (VResult r) ap = convert_values nm (map OIndep l) (VSeq vs) ap.
Proof.
  intros Hn Hf Hap. rewrite convert_seq by (eapply found_length, Hf).
  destruct (pick_result_found _ _ _ _ Hn Hf) as [E1 E2].
  assert (E : pick_result r (map OIndep ids) ap = Ok (map OIndep l, vs)).
  { destruct Hap as [->| ->]; [exact E1|]. destruct ap; [exact E1|]. rewrite E2, Nat.eqb_refl. reflexivity. }
  unfold convert_values.
  destruct ids; cbn [map] in *; rewrite E; cbn [bind]; rewrite all_params, all_indep, indep_ids_map; reflexivity.
Qed.
Lemma convert_result_missing nm r ids l vs : NoDup (map fst r) ->
  found (fun i v => In (i, v) r) (fun i => forall v, ~ In (i, v) r) ids l vs -> l <> ids ->
  convert_values nm (map OIndep ids) (VResult r) false = Err ValueError.
Proof.
  intros Hn Hf Hne. destruct (pick_result_found _ _ _ _ Hn Hf) as [_ E2]. unfold convert_values.
  destruct (Nat.eqb (length l) (length ids)) eqn:E.
  - apply Nat.eqb_eq in E. exfalso. apply Hne. eapply found_all; eassumption.
  - destruct ids; cbn [map] in *; rewrite E2; reflexivity.
Qed.
(** every object is found or missing: the relation is total on independent parameters *)
Lemma found_total_map (nm : nat -> string) m ids : exists l vs, found (fun i v => holds m i (nm i) v) (fun i => absent m i (nm i)) ids l vs.
Proof.
  induction ids as [|i ids [l [vs IH]]]; [exists [], []; constructor|].
  destruct (lookup key_eqb (KParam i) m) as [v|] eqn:E1.
  - exists (i :: l), (v :: vs). constructor; [|exact IH]. left. apply (lookup_in key_eqb key_eqb_ok), E1.
  - assert (N : forall w, ~ In (KParam i, w) m).
    { intros w Hw. apply (lookup_none key_eqb key_eqb_ok) in E1. apply E1. apply (in_map fst) in Hw. exact Hw. }
    destruct (lookup key_eqb (KName (nm i)) m) as [v|] eqn:E2.
    + exists (i :: l), (v :: vs). constructor; [|exact IH]. right. split; [exact N|]. apply (lookup_in key_eqb key_eqb_ok), E2.
    + exists l, vs. constructor; [|exact IH]. split; [exact N|].
      intros w Hw. apply (lookup_none key_eqb key_eqb_ok) in E2. apply E2. apply (in_map fst) in Hw. exact Hw.
Qed.
Lemma convert_length nm ps vs ap : ps <> [] -> length vs <> length ps -> convert_values nm ps (VSeq vs) ap = Err ValueError.
Proof. intros Hp Hl. destruct ps; [congruence|]. unfold convert_values. apply Nat.eqb_neq in Hl. rewrite Hl. reflexivity. Qed.
Lemma convert_dep nm ps vs ap : length vs = length ps -> (exists s, In (ODep s) ps) -> ~ In OOther ps ->
  convert_values nm ps (VSeq vs) ap = Err ParameterNotIndependentError.
Proof.
  intros Hl [s Hs] Hn. destruct ps as [|o ps]; [destruct Hs|]. unfold convert_values. rewrite Hl, Nat.eqb_refl. cbn [bind].
  assert (E1 : forallb is_param (o :: ps) = true) by (apply forallb_forall; intros [| |] Hx; try reflexivity; contradiction).
  assert (E2 : forallb is_indep (o :: ps) = false).
  { destruct (forallb is_indep (o :: ps)) eqn:E; [|reflexivity]. rewrite forallb_forall in E. apply E in Hs. discriminate. }
  rewrite E1, E2. reflexivity.
Qed.
Lemma convert_other nm ps vs ap : length vs = length ps -> In OOther ps ->
  convert_values nm ps (VSeq vs) ap = Err TypeError.
Proof.
  intros Hl Hs. destruct ps as [|o ps]; [destruct Hs|]. unfold convert_values. rewrite Hl, Nat.eqb_refl. cbn [bind].
  assert (E2 : forallb is_param (o :: ps) = false).
  { destruct (forallb is_param (o :: ps)) eqn:E; [|reflexivity]. rewrite forallb_forall in E. apply E in Hs. discriminate. }
  rewrite E2. reflexivity.
Qed.

Lemma set_values_positional st ids vs ap st' e :
  (forall i, ordered_limits (st_par st i)) -> length vs = length ids ->
  set_values st (map OIndep ids) (VSeq vs) ap = (st', e) ->
  exists k, k <= length ids /\ updated_up_to k ids vs st st'
    /\ (forall j i v, j < k -> nth_error ids j = Some i -> nth_error vs j = Some v -> ~ refused (st_par st i) v)
    /\ ((k = length ids /\ e = None)
        \/ (e = Some ValueError /\ exists i v, nth_error ids k = Some i /\ nth_error vs k = Some v
              /\ refused (st_par st i) v)).
Proof. intros Ho Hl E. unfold set_values in E. rewrite convert_seq in E by exact Hl. apply set_each_positional; assumption. Qed.
Lemma set_values_mapping st ids m ap l vs :
  NoDup (map fst m) ->
  found (fun i v => holds m i (p_name (st_par st i)) v) (fun i => absent m i (p_name (st_par st i))) ids l vs ->
  (ap = true \/ l = ids ->
     set_values st (map OIndep ids) (VMap m) ap = set_values st (map OIndep l) (VSeq vs) ap /\ length vs = length l)
  /\ (l <> ids -> set_values st (map OIndep ids) (VMap m) false = (st, Some ValueError)).
Proof.
  intros Hn Hf. split.
  - intros Ha. split; [|eapply found_length, Hf]. unfold set_values.
    rewrite (convert_map (fun i => p_name (st_par st i)) m ids l vs ap Hn Hf Ha). reflexivity.
  - intros Hl. unfold set_values. rewrite (convert_map_missing (fun i => p_name (st_par st i)) m ids l vs Hn Hf Hl). reflexivity.
Qed.
Lemma set_values_result st ids r ap l vs :
  NoDup (map fst r) ->
  found (fun i v => In (i, v) r) (fun i => forall v, ~ In (i, v) r) ids l vs ->
  (ap = true \/ l = ids ->
     set_values st (map OIndep ids) (VResult r) ap = set_values st (map OIndep l) (VSeq vs) ap /\ length vs = length l)
  /\ (l <> ids -> set_values st (map OIndep ids) (VResult r) false = (st, Some ValueError)).
Proof.
  intros Hn Hf. split.
  - intros Ha. split; [|eapply found_length, Hf]. unfold set_values.
    rewrite (convert_result (fun i => p_name (st_par st i)) r ids l vs ap Hn Hf Ha). reflexivity.
  - intros Hl. unfold set_values. rewrite (convert_result_missing (fun i => p_name (st_par st i)) r ids l vs Hn Hf Hl). reflexivity.
Qed.
Lemma set_values_invalid st ps vs ap :
  (ps <> [] -> length vs <> length ps -> set_values st ps (VSeq vs) ap = (st, Some ValueError))
  /\ (length vs = length ps -> In OOther ps -> set_values st ps (VSeq vs) ap = (st, Some TypeError))
  /\ (length vs = length ps -> ~ In OOther ps -> (exists s, In (ODep s) ps) ->
      set_values st ps (VSeq vs) ap = (st, Some ParameterNotIndependentError)).
Proof.
  unfold set_values. split; [|split]; intros.
  - rewrite convert_length by assumption. reflexivity.
  - rewrite convert_other by assumption. reflexivity.
  - rewrite convert_dep by assumption. reflexivity.
Qed.
Lemma assign_values_positional st ids vs ap : length vs = length ids ->
  exists st', assign_values st (map OIndep ids) (VSeq vs) ap = (st', None) /\ updated_up_to (length ids) ids vs st st'.
Proof.
  intros Hl. unfold assign_values. rewrite convert_seq by exact Hl. eexists. split; [reflexivity|]. apply assign_each_updated, Hl.
Qed.
Lemma C13_special st i v st' e :
  (forall q, v <> Fin q) -> exec (Do (CSet i v)) st = (st', e) ->
  (e = Some ValueError /\ st' = st /\ v <> NaN /\ (p_lower (st_par st i) <> None \/ p_upper (st_par st i) <> None))
  \/ (e = None /\ p_value (st_par st' i) = v
      /\ (v = NaN \/ (p_lower (st_par st i) = None /\ p_upper (st_par st i) = None))
      /\ (forall j, j <> i -> st_par st' j = st_par st j)).
Proof.
  intros Hv E. simpl in E.
  assert (Hc : v = NaN \/ ((v = PInf \/ v = NInf) /\ v <> NaN)) by (destruct v; intuition (congruence || discriminate)).
  assert (Hoth : forall j, j <> i -> st_par (assign st i v) j = st_par st j) by (intros j Hj; unfold assign, set_par; cbn [st_par]; apply upd_other, Hj).
  assert (Hi : st_par (assign st i v) i = with_raw (st_par st i) v) by (unfold assign, set_par; cbn [st_par]; apply upd_same).
  unfold set_value in E. destruct Hc as [->|[Hinf Hn]].
  - rewrite rejects_nan in E. inversion E; subst. right. rewrite Hi. split; [reflexivity|]. split; [apply value_nan; reflexivity|]. auto.
  - rewrite rejects_inf in E by exact Hinf. destruct (has_limits (st_par st i)) eqn:El; inversion E; subst.
    + left. split; [reflexivity|]. split; [reflexivity|]. split; [exact Hn|]. unfold has_limits in El.
      destruct (p_lower (st_par st' i)); [left; discriminate|]. destruct (p_upper (st_par st' i)); [right; discriminate|discriminate].
    + right. rewrite Hi. split; [reflexivity|]. split; [unfold p_value; change (has_limits (with_raw (st_par st i) v)) with (has_limits (st_par st i)); rewrite El; reflexivity|].
      split; [right; apply no_limits, El|exact Hoth].
Qed.
