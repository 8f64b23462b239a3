From Verif Require Import Base BaseLemmas Prof_Model Prof_Spec.
From Coq Require Import QArith Qabs Qpower Lqa Lia.
#[local] Open Scope nat_scope.

Lemma Qle_t a b : Qle_bool a b = true <-> (a <= b)%Q.
Proof. apply Qle_bool_iff. Qed.
Lemma Qle_f a b : Qle_bool a b = false <-> (b < a)%Q.
Proof.
  split; intros H.
  - apply Qnot_le_lt. intros C. apply Qle_t in C. congruence.
  - destruct (Qle_bool a b) eqn:E; [|reflexivity]. apply Qle_t in E. exfalso. apply (Qlt_not_le _ _ H E).
Qed.

Lemma outside_allowed b v : outside b v = false <-> allowed b v.
Proof.
  unfold outside, allowed. rewrite orb_false_iff. destruct b as [[l|] [u|]]; cbn [fst snd]; rewrite ?negb_false_iff, ?Qle_t;
  (split; [intros [H1 H2]; split; intros ? E; inversion E; subst; assumption|intros [H1 H2]; split; auto]).
Qed.
Lemma clip_takes b v : takes b v (clip b v).
Proof.
  unfold clip. destruct b as [[l|] [u|]]; cbn [fst snd].
  - destruct (Qle_bool l v) eqn:E1.
    + apply Qle_t in E1. destruct (Qle_bool v u) eqn:E2.
      * apply Qle_t in E2. apply t_inside. split; intros ? E; inversion E; subst; assumption.
      * apply Qle_f in E2. apply t_above; [reflexivity|exact E2].
    + apply Qle_f in E1. destruct (Qle_bool l u) eqn:E2.
      * apply Qle_t in E2. apply t_below; [reflexivity|exact E1|]. intros ? E; inversion E; subst; assumption.
      * apply Qle_f in E2. eapply t_reversed; [reflexivity|reflexivity|exact E1|exact E2].
  - destruct (Qle_bool l v) eqn:E1.
    + apply Qle_t in E1. apply t_inside. split; intros ? E; inversion E; subst; assumption.
    + apply Qle_f in E1. apply t_below; [reflexivity|exact E1|]. intros ? E; discriminate.
  - destruct (Qle_bool v u) eqn:E1.
    + apply Qle_t in E1. apply t_inside. split; intros ? E; inversion E; subst; assumption.
    + apply Qle_f in E1. apply t_above; [reflexivity|exact E1].
  - apply t_inside. split; intros ? E; discriminate.
Qed.
Lemma takes_fun b v w w' : takes b v w -> takes b v w' -> w = w'.
Proof.
  intros H H'. destruct H as [[A1 A2]|u Eu Hu|l El Hl Hlu|l u El Eu Hl Hu]; destruct H' as [[B1 B2]|u' Eu' Hu'|l' El' Hl' Hlu'|l' u' El' Eu' Hl' Hu'];
  try congruence;
  try (specialize (A2 _ Eu'); lra); try (specialize (A1 _ El'); lra); try (specialize (B2 _ Eu); lra); try (specialize (B1 _ El); lra);
  try (rewrite El in El'; injection El' as <-); try (specialize (Hlu' _ Eu); lra); try (specialize (Hlu _ Eu'); lra).
Qed.
Lemma read_have S vals : have_values S vals (read_all S vals).
Proof.
  unfold have_values, read_all. induction (combine (s_bounds S) vals) as [|p l IH]; constructor; [apply clip_takes|exact IH].
Qed.

Lemma have_fun S vals now : have_values S vals now -> now = read_all S vals.
Proof.
  unfold have_values, read_all. revert now. induction (combine (s_bounds S) vals) as [|[b v] c IH]; intros now H; inversion H as [|? w ? now' Ht Hr]; subst; [reflexivity|].
  cbn [map fst snd] in *. f_equal; [eapply takes_fun; [exact Ht|apply clip_takes]|apply IH, Hr].
Qed.

(* ---------- start values ---------- *)
Definition pow45 (k : nat) : Q := Qpower (4 # 5) (Z.of_nat k).
Lemma pow45_S k : (pow45 (S k) == (4 # 5) * pow45 k)%Q.
Proof. unfold pow45. rewrite Nat2Z.inj_succ. unfold Z.succ. rewrite Qpower_plus by discriminate. rewrite (Qpower_1_r (4#5)). ring. Qed.
Lemma pow45_0 : (pow45 0 == 1)%Q.
Proof. reflexivity. Qed.
Lemma pow45_pos k : (0 < pow45 k)%Q.
Proof. induction k as [|k IH]; [reflexivity|]. rewrite pow45_S. lra. Qed.
Lemma allowed_eq b v w : (v == w)%Q -> allowed b v -> allowed b w.
Proof. intros E [H1 H2]. split; intros x Hx; [specialize (H1 x Hx)|specialize (H2 x Hx)]; lra. Qed.

Lemma shrink_ok n : forall b v step x, shrink n b v step = Ok x ->
  exists k, k < n /\ (x == v + step * pow45 k)%Q /\ allowed b x /\ forall j, j < k -> ~ allowed b (v + step * pow45 j)%Q.
Proof.
  induction n as [|n IH]; intros b v step x H; [discriminate|]. cbn [shrink] in H. destruct (outside b (v + step)) eqn:E.
  - destruct (IH _ _ _ _ H) as [k [Hk [Hx [Ha Hj]]]]. exists (S k). split; [lia|]. split; [rewrite Hx, pow45_S; ring|]. split; [exact Ha|].
    intros [|j] Hlt C.
    + assert (C' : allowed b (v + step)%Q) by (eapply allowed_eq; [|exact C]; rewrite pow45_0; ring).
      apply outside_allowed in C'. congruence.
    + apply (Hj j); [lia|]. eapply allowed_eq; [|exact C]. rewrite pow45_S. ring.
  - inversion H; subst. exists 0. split; [lia|]. split; [rewrite pow45_0; ring|]. split; [apply outside_allowed, E|]. intros j Hj. lia.
Qed.
Lemma shrink_err n : forall b v step e, shrink n b v step = Err e ->
  e = RuntimeError /\ forall k, k < n -> ~ allowed b (v + step * pow45 k)%Q.
Proof.
  induction n as [|n IH]; intros b v step e H; [inversion H; split; [reflexivity|intros; lia]|]. cbn [shrink] in H.
  destruct (outside b (v + step)) eqn:E; [|discriminate]. destruct (IH _ _ _ _ H) as [-> Hk]. split; [reflexivity|].
  intros [|k] Hlt C.
  - assert (C' : allowed b (v + step)%Q) by (eapply allowed_eq; [|exact C]; rewrite pow45_0; ring). apply outside_allowed in C'. congruence.
  - apply (Hk k); [lia|]. eapply allowed_eq; [|exact C]. rewrite pow45_S. ring.
Qed.
Lemma shrink_never b v step : (forall k, k < 50 -> ~ allowed b (v + step * pow45 k)%Q) -> shrink 50 b v step = Err RuntimeError.
Proof.
  intros H. destruct (shrink 50 b v step) as [x|e] eqn:E; [|apply shrink_err in E; destruct E as [-> _]; reflexivity].
  destruct (shrink_ok _ _ _ _ _ E) as [k [Hk [Hx [Ha _]]]]. exfalso. apply (H k Hk). eapply allowed_eq; [exact Hx|exact Ha].
Qed.

(* ---------- the function ---------- *)
Section One.
Variables (S : setting) (r : fitres) (sigma tol : Q) (poi : nat) (upper : bool).

Lemma func_vals st x st' a : func S r sigma tol poi upper st x = (st', a) -> length x = length (f_vals r) -> p_vals st' = x.
Proof.
  unfold func. intros H Hl. rewrite Hl, Nat.eqb_refl in H. cbn [negb] in H.
  destruct (match s_loss S (read_all S x) with Ok (l, g) => _ | Err _ => _ end) as [[l g]|e]; [|inversion H; reflexivity].
  destruct (negb _ && _) in H; [inversion H; reflexivity|]. cbv zeta in H.
  destruct (negb (Qle_bool tol _)) in H; [destruct (Nat.ltb _ _) in H|]; inversion H; reflexivity.
Qed.

Lemma side_iff p fit : (if upper then negb (Qle_bool fit p) else negb (Qle_bool p fit)) = false <-> on_side upper fit p.
Proof. unfold on_side. destruct upper; rewrite negb_false_iff, Qle_t; reflexivity. Qed.

Lemma func_cases st x st' a : func S r sigma tol poi upper st x = (st', a) ->
  match a with
  | RootFound => crossing S r sigma tol poi upper x /\ length x = length (f_vals r) /\ p_root st' = Some (nth poi x 0%Q) /\ 3 < p_ntol st /\ p_ntol st' = p_ntol st
  | Value _ => length x = length (f_vals r) /\
      ((crossing S r sigma tol poi upper x /\ p_ntol st <= 3 /\ p_ntol st' = Datatypes.S (p_ntol st)) \/ (~ crossing S r sigma tol poi upper x /\ p_ntol st' = 0))
  | NewMinimum => length x = length (f_vals r) /\ exists l, (exists g, s_loss S (read_all S x) = Ok (l, g)) /\ (l < f_min r - s_tol S * s_errordef S * 2)%Q
        \/ s_loss S (read_all S x) = Err InvalidArgumentError
  | Failed _ => True
  end.
Proof.
  unfold func. intros H. destruct (Nat.eqb_spec (length x) (length (f_vals r))) as [Hl|Hl]; cbn [negb] in H; [|inversion H; exact I].
  assert (HE : exists ev, ev = match s_loss S (read_all S x) with
            | Ok (l, g) => Ok (l, remove_nth poi g)
            | Err InvalidArgumentError => Ok (9999999999%Q, s_random S (p_ncalls (mkP x (Datatypes.S (p_ncalls st)) (p_ntol st) (p_root st))))
            | Err e => Err e end) by (eexists; reflexivity).
  destruct HE as [ev HE]. rewrite <- HE in H.
  destruct ev as [[l g]|e]; [|inversion H; exact I].
  assert (HL : (exists g', s_loss S (read_all S x) = Ok (l, g')) \/ (s_loss S (read_all S x) = Err InvalidArgumentError /\ l = 9999999999%Q)).
  { destruct (s_loss S (read_all S x)) as [[l' g']|e]; [inversion HE; left; eauto|]. destruct e; try discriminate. inversion HE. right. auto. }
  cbv zeta in H. cbn [p_ncalls p_ntol p_root] in H.
  set (fit := nth poi (f_vals r) 0%Q) in *. set (p := nth poi (read_all S x) 0%Q) in *.
  set (sw := if upper then negb (Qle_bool fit p) else negb (Qle_bool p fit)) in *.
  destruct (negb sw && negb (Qle_bool (- (s_tol S * s_errordef S * 2)) (l - f_min r))) eqn:EN.
  { inversion H; subst. split; [exact Hl|]. exists l. apply andb_true_iff in EN. destruct EN as [_ EN].
    apply negb_true_iff, Qle_f in EN. destruct HL as [[g' HL]|[HL _]]; [left; split; [eauto|lra]|right; exact HL]. }
  assert (HC : crossing S r sigma tol poi upper x <-> (Qabs ((if sw then - (l - f_min r) else l - f_min r) - s_errordef S * (sigma * sigma)) < tol)%Q).
  { assert (Hon : sw = false <-> on_side upper fit p) by apply side_iff. split.
    - intros [now [l' [Hn [Hl' Hc]]]]. apply have_fun in Hn. subst now. fold p fit in Hc.
      assert (l' = l).
      { destruct HL as [[g1 HL]|[HL ->]]; destruct Hl' as [[g2 Hl']|[Hl' ->]]; rewrite HL in Hl'; congruence. }
      subst l'. destruct Hc as [[Hs Hc]|[Hs Hc]].
      + apply Hon in Hs. rewrite Hs. exact Hc.
      + destruct sw; [exact Hc|]. exfalso. apply Hs, Hon. reflexivity.
    - intros Hc. exists (read_all S x), l. split; [apply read_have|]. split; [exact HL|]. fold p fit.
      destruct sw eqn:Es; [right; split; [rewrite <- Hon; discriminate|exact Hc]|left; split; [apply Hon; reflexivity|exact Hc]]. }
  set (sh := ((if sw then - (l - f_min r) else l - f_min r) - s_errordef S * (sigma * sigma))%Q) in *.
  destruct (Qle_bool tol (Qabs sh)) eqn:Et; cbn [negb] in H.
  - apply Qle_t in Et. inversion H; subst. split; [exact Hl|]. right. split; [|reflexivity]. rewrite HC. intros C. apply (Qlt_not_le _ _ C Et).
  - apply Qle_f in Et. apply HC in Et. destruct (Nat.ltb_spec 3 (p_ntol st)) as [Hn|Hn]; inversion H; subst; cbn [p_ntol p_root].
    + repeat split; [exact Et|exact Hl|exact Hn].
    + split; [exact Hl|]. left. repeat split; [exact Et|exact Hn].
Qed.

Lemma func_state st x st' a : func S r sigma tol poi upper st x = (st', a) -> (p_vals st' = x \/ a = Failed ValueError).
Proof.
  intros H. destruct (Nat.eq_dec (length x) (length (f_vals r))) as [E|E]; [left; eapply func_vals; eassumption|].
  right. unfold func in H. apply Nat.eqb_neq in E. rewrite E in H. inversion H. reflexivity.
Qed.

(** the last points *)
Lemma run_found t : forall st st', run S r sigma tol poi upper t st = (st', Found) ->
  exists pts x, visited t (pts ++ [x]) /\ crossing S r sigma tol poi upper x /\ length x = length (f_vals r) /\ p_root st' = Some (nth poi x 0%Q)
    /\ p_vals st' = x /\ 3 < p_ntol st'
    /\ ((pts = [] /\ 3 < p_ntol st) \/ exists pre hits, pts = pre ++ hits /\ (forall y, In y hits -> crossing S r sigma tol poi upper y)
          /\ (4 <= length hits \/ (pre = [] /\ p_ntol st <= 3 /\ 4 <= p_ntol st + length hits))).
Proof.
  induction t as [x|x k IH|e]; intros st st' H; cbn [run] in H; [discriminate| |discriminate].
  destruct (func S r sigma tol poi upper st x) as [st1 a] eqn:E. pose proof (func_cases _ _ _ _ E) as C.
  destruct (func_state _ _ _ _ E) as [Hv| ->]; [|discriminate].
  destruct a as [out| | |e]; try discriminate.
  - destruct (IH out _ _ H) as [pts [y [V [Cy [Ly [Ry [Vy [Ny Hp]]]]]]]]. exists (x :: pts), y. split; [apply v_eval with out; exact V|].
    repeat (split; [assumption|]). destruct C as [Lx [[Cx [Hn1 Hn2]]|[Cx Hn]]].
    + destruct Hp as [[-> Hn]|[pre [hits [-> [Hh Hc]]]]].
      * right. exists [], [x]. split; [reflexivity|]. split; [intros z [<-|[]]; exact Cx|]. right. split; [reflexivity|]. split; [exact Hn1|]. cbn. lia.
      * right. destruct Hc as [Hc|[-> [Hc1 Hc2]]].
        -- exists (x :: pre), hits. split; [reflexivity|]. split; [exact Hh|]. left. exact Hc.
        -- exists [], (x :: hits). split; [reflexivity|]. split; [intros z [<-|Hz]; [exact Cx|apply Hh, Hz]|].
           right. split; [reflexivity|]. split; [exact Hn1|]. cbn. lia.
    + destruct Hp as [[-> Hn']|[pre [hits [-> [Hh Hc]]]]]; [lia|]. right. exists (x :: pre), hits. split; [reflexivity|]. split; [exact Hh|].
      destruct Hc as [Hc|[-> [Hc1 Hc2]]]; left; [exact Hc|]. lia.
  - inversion H; subst st1. destruct C as [C1 [C2 [C3 [C4 C5]]]]. exists [], x. split; [apply v_eval with []; apply v_stop|].
    split; [exact C1|]. split; [exact C2|]. split; [exact C3|]. split; [exact Hv|]. split; [lia|]. left. auto.
Qed.
End One.
