(** Properties C13 (inside a graph), C55 and C56: acceptance inside a graph, [at_limit], and the
    graph mode. *)
From Verif Require Import Base BaseLemmas Param_Model Param_Spec Param_Proofs Param_Proofs2.
From Coq Require Import Lqa.
#[local] Open Scope string_scope.
#[local] Open Scope list_scope.
#[local] Open Scope nat_scope.

Definition has_a_limit (p : param) : Prop := p_lower p <> None \/ p_upper p <> None.

Lemma has_limits_iff p : has_limits p = true <-> has_a_limit p.
Proof.
  unfold has_limits, has_a_limit. destruct (p_lower p), (p_upper p); split; intros H; try reflexivity; try discriminate;
    try (left; discriminate); try (right; discriminate). destruct H; congruence.
Qed.

(** Inside a graph a value is refused exactly when it is not strictly between the limits that
    are set; NaN and the infinities are refused as soon as there is a limit. *)
Theorem C13_graph_mode_exactly : forall p v,
  rejects_graph p v = true <->
  match v with
  | Fin q => (exists l, p_lower p = Some l /\ (q <= l)%Q) \/ (exists u, p_upper p = Some u /\ (u <= q)%Q)
  | NInf | PInf | NaN => has_a_limit p
  end.
Proof.
  intros p v. unfold rejects_graph. rewrite andb_true_iff, has_limits_iff, negb_true_iff, andb_false_iff.
  destruct v as [q| | |]; cbn [num_lt].
  - unfold lower_of, upper_of, has_a_limit.
    assert (L : forall a b, negb (Qle_bool b a) = false <-> (b <= a)%Q).
    { intros a b. rewrite negb_false_iff. apply Qle_bool_iff. }
    destruct (p_lower p) as [l|], (p_upper p) as [u|]; cbn.
    + rewrite !L. split.
      * intros [_ [H|H]]; [left; exists l|right; exists u]; auto.
      * intros H. split; [left; discriminate|]. destruct H as [[a [E H]]|[a [E H]]]; injection E as <-; auto.
    + rewrite L. split.
      * intros [_ [H|H]]; [left; exists l; auto|discriminate].
      * intros H. split; [left; discriminate|]. destruct H as [[a [E H]]|[a [E H]]]; [injection E as <-; auto|discriminate].
    + rewrite L. split.
      * intros [_ [H|H]]; [discriminate|right; exists u; auto].
      * intros H. split; [right; discriminate|]. destruct H as [[a [E H]]|[a [E H]]]; [discriminate|injection E as <-; auto].
    + split; [intros [[H|H] _]; congruence|]. intros [[a [E _]]|[a [E _]]]; discriminate.
  - split; [tauto|]. intros H. split; [exact H|]. right. unfold upper_of. destruct (p_upper p); reflexivity.
  - split; [tauto|]. intros H. split; [exact H|]. left. unfold lower_of. destruct (p_lower p); reflexivity.
  - split; [tauto|]. intros H. split; [exact H|]. left. unfold lower_of. destruct (p_lower p); reflexivity.
Qed.
Print Assumptions C13_graph_mode_exactly.
Example C13_graph_ex : let p := mkParam "x" (Fin 0) (Some (-1)%Q) (Some 1%Q) true in
  rejects_graph p (Fin 1) = true /\ rejects_graph p (Fin (1 # 2)) = false /\ rejects_graph p NaN = true.
Proof. repeat split. Qed.

(** [at_limit] for a finite value: the value is within the tolerance of a limit, where the
    tolerance is 1e-5 or, for close limits, 0.5 % of their distance. *)
Definition near_tolerance (p : param) (t : Q) : Prop :=
  match p_lower p, p_upper p with
  | Some l, Some u => ((u - l) * (5 # 1000) <= 1 # 100000 /\ t == (u - l) * (5 # 1000))%Q
                      \/ (1 # 100000 < (u - l) * (5 # 1000) /\ t == 1 # 100000)%Q
  | _, _ => (t == 1 # 100000)%Q
  end.
Definition close_to_limit (p : param) (q t : Q) : Prop :=
  (exists l, p_lower p = Some l /\ (q <= l + t)%Q) \/ (exists u, p_upper p = Some u /\ (u - t <= q)%Q).

Lemma near_tol_ok p : (forall l u, p_lower p = Some l -> p_upper p = Some u -> (l <= u)%Q) ->
  near_tolerance p (limit_tol p (5 # 1000) (1 # 100000)).
Proof.
  intros H. unfold near_tolerance, limit_tol. destruct (p_lower p) as [l|], (p_upper p) as [u|]; try reflexivity.
  specialize (H l u eq_refl eq_refl).
  replace (Qle_bool 0 (u - l)) with true by (symmetry; apply Qle_bool_iff; lra).
  destruct (Qle_bool ((u - l) * (5 # 1000)) (1 # 100000)) eqn:E.
  - apply Qle_bool_iff in E. left. split; [exact E|reflexivity].
  - right. split; [|reflexivity]. apply Qnot_le_lt. intros L. apply Qle_bool_iff in L. congruence.
Qed.

Theorem C55_at_limit : forall p q,
  (forall l u, p_lower p = Some l -> p_upper p = Some u -> (l <= u)%Q) -> p_value p = Fin q ->
  exists t, near_tolerance p t /\ (at_limit p = true <-> close_to_limit p q t).
Proof.
  intros p q HO HV. exists (limit_tol p (5 # 1000) (1 # 100000)). split; [apply near_tol_ok, HO|].
  unfold at_limit. rewrite HV. unfold check_at_limit, close_to_limit.
  set (t := limit_tol p (5 # 1000) (1 # 100000)). unfold has_limits, lower_of, upper_of.
  destruct (p_lower p) as [l|], (p_upper p) as [u|]; cbn [negb num_add num_le].
  - rewrite orb_true_iff, !Qle_bool_iff. split.
    + intros [H|H]; [left; exists l|right; exists u]; (split; [reflexivity|lra]).
    + intros [[a [E H]]|[a [E H]]]; injection E as <-; [left|right]; lra.
  - rewrite orb_true_iff, Qle_bool_iff. split.
    + intros [H|H]; [left; exists l; split; [reflexivity|lra]|discriminate].
    + intros [[a [E H]]|[a [E H]]]; [injection E as <-; left; lra|discriminate].
  - rewrite orb_true_iff, Qle_bool_iff. split.
    + intros [H|H]; [discriminate|right; exists u; split; [reflexivity|lra]].
    + intros [[a [E H]]|[a [E H]]]; [discriminate|injection E as <-; right; lra].
  - split; [discriminate|]. intros [[a [E H]]|[a [E H]]]; discriminate.
Qed.
Print Assumptions C55_at_limit.

(** A parameter without limits is never at a limit, whatever its value. *)
Theorem C55_no_limits : forall p, p_lower p = None -> p_upper p = None -> at_limit p = false.
Proof. intros p H1 H2. unfold at_limit, check_at_limit, has_limits. rewrite H1, H2. reflexivity. Qed.
Print Assumptions C55_no_limits.

(** A value that set_value accepts beyond a limit (or on it) reads as at the limit. *)
Theorem C55_clipped_is_at_limit : forall p l u q,
  p_lower p = Some l -> p_upper p = Some u -> (l < u)%Q -> p_raw p = Fin q -> (q <= l \/ u <= q)%Q ->
  at_limit p = true.
Proof.
  intros p l u q HL HU LU HR H.
  assert (V : exists v, p_value p = Fin v /\ (v == l \/ v == u)%Q).
  { unfold p_value, has_limits, upper_of, lower_of. rewrite HL, HU, HR. cbn [num_min num_le].
    destruct (Qle_bool q u) eqn:E1; cbn [num_max num_le].
    - apply Qle_bool_iff in E1. destruct (Qle_bool l q) eqn:E2.
      + apply Qle_bool_iff in E2. exists q. split; [reflexivity|]. destruct H; [left|right]; lra.
      + exists l. split; [reflexivity|left; reflexivity].
    - replace (Qle_bool l u) with true by (symmetry; apply Qle_bool_iff; lra). exists u. split; [reflexivity|right; reflexivity]. }
  destruct V as [v [EV Ev]]. destruct (C55_at_limit p v) as [t [T A]]; [|exact EV|].
  - intros l' u' E1 E2. rewrite HL in E1. rewrite HU in E2. injection E1 as <-. injection E2 as <-. lra.
  - assert (TP : (0 <= t)%Q). { unfold near_tolerance in T. rewrite HL, HU in T. destruct T as [[_ T]|[_ T]]; lra. }
    apply A. unfold close_to_limit. destruct Ev as [Ev|Ev]; [left; exists l|right; exists u]; (split; [assumption|lra]).
Qed.
Print Assumptions C55_clipped_is_at_limit.
Example C55_ex : let p q := mkParam "x" (Fin q) (Some 0%Q) (Some 1%Q) true in
  at_limit (p (1 # 2)) = false /\ at_limit (p (1 # 1000000)) = true /\ at_limit (p (1 # 1000)) = false
  /\ at_limit (p 3%Q) = true.
Proof. repeat split. Qed.

(** ** Graph mode *)
Definition compiles (r : runstate) (kind : string) (b : bool) : Prop := lookup String.eqb kind (r_jit r) = Some b.
Definition standard_kinds : list string :=
  ["None"; "model"; "loss"; "sample"; "model_sampling"; "zfit_tensor"; "tensor"].

(** After [set_graph_mode]: True compiles all kinds of functions known, False none (and runs
    the backend eagerly), "auto" all but the ones called "model", and a dictionary changes
    the kinds it names, the last entry of a name counting. *)
Theorem C56_graph_mode : forall st g st' e,
  (forall k, In k standard_kinds -> exists b, compiles (st_run st) k b) ->
  exec (Do (CGraph g)) st = (st', e) ->
  match g with
  | GBad => e = Some ValueError
  | _ => e = None /\ r_graph (st_run st') = g
  end /\
  (forall k b, compiles (st_run st) k b ->
     match g with
     | GTrue => compiles (st_run st') k true
     | GFalse => compiles (st_run st') k false
     | GAuto => compiles (st_run st') k (negb (String.eqb k "model"))
     | GDict d => (forall b', In (k, b') d -> NoDup (map fst d) -> compiles (st_run st') k b')
                  /\ (~ In k (map fst d) -> compiles (st_run st') k b)
     | GBad => compiles (st_run st') k b
     end) /\
  r_backend_eager (st_run st') = (match g with GFalse => true | _ => false end) /\
  r_autograd (st_run st') = r_autograd (st_run st) /\ r_numgrad (st_run st') = r_numgrad (st_run st) /\
  r_auto_update (st_run st') = r_auto_update (st_run st) /\
  st_par st' = st_par st /\ st_weights st' = st_weights st.
Proof.
  intros st g st' e HK E. cbn [exec setter] in E.
  assert (X : (st', e) = (let (r, e) := set_graph (st_run st) g in (set_run st r, e))).
  { rewrite <- E. destruct (set_graph (st_run st) g) as [r [e'|]]; reflexivity. }
  clear E. unfold compiles in *.
  destruct g as [| | |d|]; cbn in X; injection X as -> ->; cbn.
  - split; [auto|split; [|repeat split]]. intros k b H. rewrite jit_all_lookup, H. reflexivity.
  - split; [auto|split; [|repeat split]]. intros k b H. rewrite jit_all_lookup, H. reflexivity.
  - split; [auto|split; [|repeat split]]. intros k b H.
    etransitivity; [apply (jit_default_lookup (r_jit (st_run st)) k HK)|]. rewrite H. f_equal. unfold default_of.
    cbn [default_jit lookup].
    repeat match goal with |- context [String.eqb k ?s] => destruct (String.eqb_spec k s); [subst; reflexivity|] end.
    reflexivity.
  - split; [auto|split; [|repeat split]]. intros k b H. unfold jit_update. split.
    + intros b' I N. clear H HK. revert I N. generalize (r_jit (st_run st)). induction d as [|[k0 b0] d IH]; intros d0 I N; [destruct I|].
      cbn [map fst] in N. inversion N as [|? ? N1 N2]; subst. cbn [fold_left fst snd]. destruct I as [I|I].
      * injection I as -> ->. clear IH N N2.
        assert (G : forall d1, lookup String.eqb k d1 = Some b' ->
                  lookup String.eqb k (fold_left (fun acc kb => jit_set acc (fst kb) (snd kb)) d d1) = Some b').
        { induction d as [|[k1 b1] d IH]; intros d1 H; [exact H|]. cbn [fold_left fst snd]. apply IH.
          - intros C. apply N1. right. exact C.
          - rewrite jit_set_lookup. destruct (String.eqb_spec k k1) as [Ek|Ek]; [|exact H].
            exfalso. apply N1. left. symmetry. exact Ek. }
        apply G. rewrite jit_set_lookup, String.eqb_refl. reflexivity.
      * apply IH; assumption.
    + intros NI. revert H. generalize (r_jit (st_run st)). induction d as [|[k0 b0] d IH]; intros d0 H; [exact H|].
      cbn [fold_left fst snd]. apply IH; [intros C; apply NI; right; exact C|].
      rewrite jit_set_lookup. destruct (String.eqb_spec k k0) as [Ek|Ek]; [|exact H].
      exfalso. apply NI. left. symmetry. exact Ek.
  - split; [auto|split; [|repeat split]]. intros k b H. exact H.
Qed.
Print Assumptions C56_graph_mode.
Definition ex_run56 := mkRun GAuto default_jit false true false true.
Example C56_ex : (forall k, In k standard_kinds -> exists b, compiles ex_run56 k b) /\
  (let st := mkState (fun _ => mkParam "x" (Fin 0) None None true) ex_run56 (fun _ => None) in
   compiles (st_run (fst (exec (Do (CGraph GTrue)) st))) "model" true).
Proof.
  split; [|reflexivity]. intros k H. cbn in H.
  repeat (destruct H as [<-|H]; [eexists; reflexivity|]). destruct H.
Qed.
