(** C91: options for integrals. *)
From Coq Require Import Lia Lqa.
From Verif Require Import Base BaseLemmas Opt_Model Opt_Spec.

Section Any.
Context {S : Type} (log10_ logexp simpson_points : Q -> nat) (power06 : nat -> nat).
Notation update := (@update S log10_ logexp simpson_points power06).
Notation create := (@create S log10_ logexp simpson_points power06).
Notation auto_draws := (auto_draws log10_ logexp power06).
Notation auto_simpson := (auto_simpson simpson_points).

Lemma simpson_inv o si o' r : update_simpson simpson_points o si = (o', r) ->
  o_sampler o' = @o_sampler S o /\ o_max o' = o_max o /\ o_tol o' = o_tol o /\ o_draws o' = o_draws o
  /\ (si = None -> o_simpson o' = o_simpson o /\ r = Ok tt).
Proof.
  unfold update_simpson. destruct si as [[|n]|]; [destruct (auto_simpson (o_tol o))| |]; intros H; injection H as <- <-;
    (repeat split; try reflexivity; discriminate).
Qed.

(** C91: options that are not given stay as they are, also if the update raises. *)
Theorem C91_kept o draws sampler tol mx simpson : let o' := fst (update o draws sampler tol mx simpson) in
  (draws = None -> o_draws o' = o_draws o) /\ (sampler = None -> o_sampler o' = o_sampler o)
  /\ (tol = None -> o_tol o' = o_tol o) /\ (mx = None -> o_max o' = o_max o) /\ (simpson = None -> o_simpson o' = o_simpson o).
Proof.
  cbv zeta. unfold Opt_Model.update.
  destruct (match tol with Some t => _ | None => false end).
  - destruct draws, sampler, mx; cbn; repeat split; try discriminate; reflexivity.
  - set (o1 := given set_tol _ tol).
    assert (A : (draws = None -> o_draws o1 = o_draws o) /\ (sampler = None -> o_sampler o1 = o_sampler o)
      /\ (tol = None -> o_tol o1 = o_tol o) /\ (mx = None -> o_max o1 = o_max o) /\ o_simpson o1 = o_simpson o).
    { subst o1. destruct draws, sampler, mx, tol; cbn; repeat split; try discriminate; reflexivity. }
    clearbody o1. destruct A as (A1 & A2 & A3 & A4 & A5).
    destruct draws as [[|n]|].
    + destruct (auto_draws (o_tol o1) (o_max o1)) as [k|e].
      * destruct (update_simpson simpson_points (set_draws o1 (Num k)) simpson) as [o2 r] eqn:U. apply simpson_inv in U as (B1 & B2 & B3 & B4 & B5).
        cbn [fst] in *. rewrite B1, B2, B3. cbn [set_draws o_sampler o_max o_tol o_simpson] in *.
        split; [discriminate|]. repeat split; auto. intros E. destruct (B5 E) as [-> _]. exact A5.
      * cbn [fst]. split; [discriminate|]. repeat split; auto.
    + cbn [fst]. split; [discriminate|]. repeat split; auto.
    + destruct (update_simpson simpson_points o1 simpson) as [o2 r] eqn:U. apply simpson_inv in U as (B1 & B2 & B3 & B4 & B5).
      cbn [fst] in *. rewrite B1, B2, B3, B4. repeat split; auto. intros E. destruct (B5 E) as [-> _]. exact A5.
Qed.

(** C91: after an update the options are the given ones; 'auto' stands for the numbers that belong to the tolerance and the maximum then in force. Only tolerances from zero to one are accepted. *)
Theorem C91_update o draws sampler tol mx simpson o' : update o draws sampler tol mx simpson = (o', Ok tt) ->
  o_sampler o' = or_old sampler (o_sampler o) /\ o_tol o' = or_old tol (o_tol o) /\ o_max o' = or_old mx (o_max o)
  /\ (forall t, tol = Some t -> tolerance t)
  /\ (draws = Some Auto -> exists n, o_draws o' = Num n /\ auto_draws (o_tol o') (o_max o') = Ok n)
  /\ (simpson = Some Auto -> exists n, o_simpson o' = Some (Num n) /\ auto_simpson (o_tol o') = Ok n)
  /\ (forall n, simpson = Some (Num n) -> o_simpson o' = Some (Num n)).
Proof.
  unfold Opt_Model.update. destruct (match tol with Some t => _ | None => false end) eqn:BAD; [discriminate|].
  set (o1 := given set_tol _ tol).
  assert (A : o_sampler o1 = or_old sampler (o_sampler o) /\ o_tol o1 = or_old tol (o_tol o) /\ o_max o1 = or_old mx (o_max o)).
  { subst o1. destruct draws, sampler, mx, tol; repeat split. }
  assert (T : forall t, tol = Some t -> tolerance t).
  { intros t ->. apply orb_false_iff in BAD as (X & Y). apply negb_false_iff in X, Y. apply Qle_bool_iff in X, Y. split; assumption. }
  clearbody o1. destruct A as (A1 & A2 & A3).
  assert (U : forall o2, o_sampler o2 = o_sampler o1 -> o_tol o2 = o_tol o1 -> o_max o2 = o_max o1 ->
    update_simpson simpson_points o2 simpson = (o', Ok tt) ->
    o_sampler o' = o_sampler o1 /\ o_tol o' = o_tol o1 /\ o_max o' = o_max o1 /\ o_draws o' = o_draws o2
    /\ (simpson = Some Auto -> exists n, o_simpson o' = Some (Num n) /\ auto_simpson (o_tol o1) = Ok n)
    /\ (forall n, simpson = Some (Num n) -> o_simpson o' = Some (Num n))).
  { intros o2 E1 E2 E3 H. pose proof H as H'. apply simpson_inv in H' as (B1 & B2 & B3 & B4 & _).
    rewrite B1, B2, B3. do 3 (split; [assumption|]). split; [exact B4|].
    unfold update_simpson in H. rewrite E2 in H. split.
    - intros ->. destruct (auto_simpson (o_tol o1)) as [k|e]; [|discriminate]. injection H as <-. exists k. split; reflexivity.
    - intros n ->. now injection H as <-. }
  destruct draws as [[|n]|]; [|discriminate|].
  - destruct (auto_draws (o_tol o1) (o_max o1)) as [k|e] eqn:AD; [|discriminate]. intros H.
    apply U in H as (C1 & C2 & C3 & C4 & C5 & C6); [|reflexivity|reflexivity|reflexivity].
    rewrite C1, C2, C3. do 3 (split; [assumption|]). split; [exact T|]. split; [|now split].
    intros _. exists k. split; [exact C4|exact AD].
  - intros H. apply U in H as (C1 & C2 & C3 & C4 & C5 & C6); [|reflexivity|reflexivity|reflexivity].
    rewrite C1, C2, C3. do 3 (split; [assumption|]). split; [exact T|]. split; [discriminate|]. now split.
Qed.

(** C91: the number of draws that is found is at most the maximum, at least one if that is, and at most 10, 15, 150, 300 or 600 for tolerances whose logarithm is below 1, 2, 3, 4 and 5. *)
Theorem C91_auto tol mx n : auto_draws tol mx = Ok n ->
  (n <= mx)%nat /\ (1 <= mx -> 1 <= n)%nat
  /\ (forall k, In (log10_ tol, k) [(0, 10); (1, 15); (2, 150); (3, 300); (4, 600)]%nat -> (n <= k)%nat).
Proof.
  unfold Opt_Model.auto_draws. destruct (Qeq_bool tol 0); [discriminate|].
  set (high := Nat.pow 20 _). assert (H1 : (1 <= high)%nat).
  { subst high. clear. induction (power06 _) as [|k IH]; cbn; lia. }
  clearbody high. intros H. injection H as <-. split; [lia|]. split.
  - intros M. destruct (log10_ tol) as [|[|[|[|[|l]]]]]; cbn [table]; lia.
  - intros k I. cbn [In] in I. destruct (log10_ tol) as [|[|[|[|[|l]]]]]; cbn [table];
      repeat (destruct I as [I|I]; [try discriminate; injection I as <-; lia|]); try (destruct I); try lia.
Qed.

(** C91: a new model has numbers of draws, found for the defaults. *)
Theorem C91_created sampler mx tol o : create sampler Auto Auto mx tol = Ok o ->
  ready o /\ o_tol o = tol /\ o_max o = mx /\ o_sampler o = sampler
  /\ exists n, o_draws o = Num n /\ auto_draws tol mx = Ok n.
Proof.
  unfold Opt_Model.create. destruct (update _ _ _ _ _ _) as [o1 [[]|e]] eqn:U; [|discriminate]. intros H. injection H as <-.
  apply C91_update in U as (A & B & C & _ & D & E & _). cbn in A, B, C. destruct (D eq_refl) as (n & D1 & D2). destruct (E eq_refl) as (k & E1 & _).
  split; [exists n, k; auto|]. rewrite A, B, C in *. do 3 (split; [reflexivity|]). exists n. now split.
Qed.

(** C91: a model that can be integrated can still be after any update that does not raise. *)
Theorem C91_ready o draws sampler tol mx simpson o' : ready o -> update o draws sampler tol mx simpson = (o', Ok tt) -> ready o'.
Proof.
  intros (d & s & D & SI) H. pose proof (C91_kept o draws sampler tol mx simpson) as K. cbv zeta in K. rewrite H in K. cbn [fst] in K.
  destruct K as (K1 & _ & _ & _ & K5). pose proof H as H'. apply C91_update in H' as (_ & _ & _ & _ & U1 & U2 & U3).
  assert (DD : exists d', o_draws o' = Num d').
  { destruct draws as [[|n]|]; [destruct (U1 eq_refl) as (n & E & _); eauto| |rewrite (K1 eq_refl); eauto].
    exfalso. unfold Opt_Model.update in H. destruct (match tol with Some t => _ | None => false end); discriminate. }
  assert (SS : exists s', o_simpson o' = Some (Num s')).
  { destruct simpson as [[|n]|]; [destruct (U2 eq_refl) as (n & E & _); eauto|rewrite (U3 n eq_refl); eauto|rewrite (K5 eq_refl); eauto]. }
  destruct DD as [d' DD], SS as [s' SS]. exists d', s'. now split.
Qed.

(** C91: an integral uses the options of its model; many bins at once get a thirtieth of the draws, but at least ten. *)
Theorem C91_use o d s : o_draws o = Num d -> @o_simpson S o = Some (Num s) ->
  use o false = Ok (mkU (o_sampler o) d s (o_max o) (o_tol o))
  /\ use o true = Ok (mkU (o_sampler o) (Nat.max (d / 30) 10) (Nat.max (s / 30) 10) (o_max o) (o_tol o)).
Proof. intros D SI. unfold use. rewrite D, SI. split; reflexivity. Qed.

(** C91: without compiling, an integral uses the present options, whatever has happened before. *)
Theorem C91_eager (m : model S) binned : integrate false m binned = (m, use (m_options m) binned).
Proof. reflexivity. Qed.

(** C91: "the number of draws can be set": false, for every number an UnboundLocalError is raised (if the tolerance is accepted); the option is set nevertheless, other options that come later are not. *)
Theorem C91_number_refuted o n sampler mx simpson : 
  snd (update o (Some (Num n)) sampler None mx simpson) = Err UnboundLocalError
  /\ o_draws (fst (update o (Some (Num n)) sampler None mx simpson)) = Num n
  /\ o_simpson (fst (update o (Some (Num n)) sampler None mx simpson)) = o_simpson o.
Proof. destruct sampler, mx; repeat split; reflexivity. Qed.

(** C91: so a class with a number as the default has no models: each creation raises. *)
Theorem C91_default_refuted sampler n simpson mx tol : create sampler (Num n) simpson mx tol = Err UnboundLocalError.
Proof. reflexivity. Qed.

(** C91: "an update that raises changes nothing": false, with a tolerance that is refused the other options have changed. *)
Theorem C91_failed_refuted o mx t : (1 < t)%Q ->
  snd (update o None None (Some t) (Some mx) None) = Err ValueError
  /\ o_max (fst (update o None None (Some t) (Some mx) None)) = mx /\ o_tol (fst (update o None None (Some t) (Some mx) None)) = o_tol o.
Proof.
  intros T. unfold Opt_Model.update. assert (B : negb (Qle_bool t 1) = true).
  { apply negb_true_iff. destruct (Qle_bool t 1) eqn:E; [|reflexivity]. apply Qle_bool_iff in E. exfalso. lra. }
  rewrite B. repeat split; reflexivity.
Qed.

(** C91: "a tolerance that is accepted can be used": false for zero, 'auto' raises a ValueError from then on. *)
Theorem C91_zero_refuted o : exists o', update o None None (Some 0%Q) None None = (o', Ok tt)
  /\ snd (update o' (Some Auto) None None None None) = Err ValueError /\ snd (update o' None None None None (Some Auto)) = Err ValueError.
Proof. eexists. split; [reflexivity|]. split; reflexivity. Qed.

(** C91: "'auto' draws follow the tolerance": false; 'auto' is replaced by a number at once, which stays when the tolerance changes. *)
Theorem C91_adapt_refuted sampler mx tol tol' o : create sampler Auto Auto mx tol = Ok o -> tolerance tol' ->
  exists o', update o None None (Some tol') None None = (o', Ok tt) /\ o_draws o' = o_draws o /\ o_tol o' = tol'
    /\ exists n, o_draws o' = Num n /\ auto_draws tol mx = Ok n.
Proof.
  intros C (T0 & T1). apply C91_created in C as (_ & _ & _ & _ & n & D & A). unfold Opt_Model.update.
  apply Qle_bool_iff in T0, T1. rewrite T0, T1. cbn. eexists. split; [reflexivity|]. cbn. split; [reflexivity|]. split; [reflexivity|]. eauto.
Qed.

(** C91: "an update has an effect on the next integral": false if the function of the integration has been compiled before; nothing that happens to the model changes what it uses. *)
Theorem C91_compiled_refuted (m : model S) binned u m1 steps : integrate true m binned = (m1, Ok u) ->
  snd (integrate true (fold_left (apply log10_ logexp simpson_points power06) steps m1) binned) = Ok u.
Proof.
  intros H. assert (C : m_compiled m1 binned = Some (Ok u)).
  { unfold integrate in H. destruct (m_compiled m binned) as [v|] eqn:E; [injection H as <- ->; exact E|].
    destruct (use (m_options m) binned) as [v|e] eqn:U; [|discriminate]. injection H as <- <-. cbn [m_compiled]. now rewrite Bool.eqb_reflx. }
  clear H. revert m1 C. induction steps as [|st steps IH]; intros m1 C; cbn [fold_left].
  - unfold integrate. now rewrite C.
  - apply IH. destruct st as [d sa t mx si|g b]; cbn [apply].
    + unfold m_update. destruct (Opt_Model.update _ _ _ _ _ _ _ _ _ _) as [o r]. exact C.
    + unfold integrate. destruct g; [|exact C]. destruct (m_compiled m1 b) as [v|] eqn:E; [exact C|].
      destruct (use (m_options m1) b); [|exact C]. cbn [fst m_compiled]. destruct (Bool.eqb binned b) eqn:BB; [|exact C].
      apply Bool.eqb_prop in BB as ->. congruence.
Qed.

(** C91: it has if nothing has been compiled yet. *)
Theorem C91_compiled_partial (m : model S) binned draws sampler tol mx simpson m' : m_compiled m binned = None ->
  m_update log10_ logexp simpson_points power06 m draws sampler tol mx simpson = (m', Ok tt) ->
  snd (integrate true m' binned) = use (m_options m') binned
  /\ m_options m' = fst (update (m_options m) draws sampler tol mx simpson).
Proof.
  intros C H. unfold m_update in H. destruct (update (m_options m) draws sampler tol mx simpson) as [o r]. injection H as <- ->.
  unfold integrate. cbn [m_compiled m_options]. rewrite C. split; reflexivity.
Qed.
End Any.

(** ** Examples; the functions have the values of the logarithms for 3e-6, 1e-2 and others *)
Definition ex_log10 (t : Q) : nat := if Qeq_bool t (1 # 100) then 2 else 5.
Definition ex_log (t : Q) : nat := if Qeq_bool t (1 # 100) then 4 else 12.
Definition ex_power (n : nat) : nat := if Nat.leb n 4 then 2 else 3.
Definition ex_points (t : Q) : nat := 900.
Example ex_created : exists o, create ex_log10 ex_log ex_points ex_power 7 Auto Auto 5000 (3 # 1000000) = Ok o
  /\ o_draws o = Num 5000 /\ o_simpson o = Some (Num 900).
Proof. eexists. split; [vm_compute; reflexivity|]. split; reflexivity. Qed.
Example ex_update : exists o o', create ex_log10 ex_log ex_points ex_power 7 Auto Auto 5000 (3 # 1000000) = Ok o
  /\ update ex_log10 ex_log ex_points ex_power o (Some Auto) None (Some (1 # 100)) (Some 100%nat) (Some (Num 31)) = (o', Ok tt)
  /\ o_draws o' = Num 100 /\ o_simpson o' = Some (Num 31) /\ use o' true = Ok (mkU 7 10 10 100 (1 # 100)).
Proof. eexists. eexists. split; [vm_compute; reflexivity|]. split; [vm_compute; reflexivity|]. repeat split; vm_compute; reflexivity. Qed.
Example ex_compiled : exists m1 u, integrate true (mkM (mkO 7 (Num 150) (Some (Num 900)) 5000 (1 # 100)) (fun _ => None)) false = (m1, Ok u)
  /\ u_draws u = 150%nat.
Proof. eexists. eexists. split; [vm_compute; reflexivity|]. reflexivity. Qed.
