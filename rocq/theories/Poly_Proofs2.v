From Coq Require Import Reals Lra Lia.
From Coquelicot Require Import Coquelicot.
From Verif Require Import Base BaseLemmas Poly_Model Poly_Spec Poly_Proofs.
Import ListNotations.
#[local] Open Scope R_scope.
#[local] Notation length := List.length.

Lemma scalR (f : R -> R) x (k l : R) : is_derive f x l -> is_derive (fun t => k * f t) x (k * l).
Proof. exact (is_derive_scal f x k l). Qed.
Definition primitive (G g : R -> R) : Prop := (forall x, is_derive G x (g x)) /\ forall x, continuous g x.

Lemma scaled_integral G g m a b : primitive G g -> m_scale m = true -> m_lo m < m_hi m ->
  is_RInt (fun x => g (rescale m x)) a b ((G (rescale m b) - G (rescale m a)) * (/ 2 * volume m)).
Proof.
  intros [HG HC] HS HL. unfold rescale, volume, rescale_minus_plus_one. rewrite HS. set (lo := m_lo m) in *. set (hi := m_hi m) in *.
  set (r := fun x => (2 * x - lo - hi) / (hi - lo)).
  assert (HD : forall x, is_derive (fun x => G (r x) * (/ 2 * (hi - lo))) x (g (r x))).
  { intros x. assert (HR : is_derive r x (2 / (hi - lo))) by (unfold r; auto_derive; [auto|]; field; lra).
    pose proof (is_derive_comp G r x _ _ (HG (r x)) HR) as K. pose proof (is_derive_scal _ x (/ 2 * (hi - lo)) _ K) as K2.
    apply (is_derive_ext (fun x => / 2 * (hi - lo) * G (r x))); [intros t; apply Rmult_comm|]. eapply is_derive_eq; [exact K2|]. unfold scal; cbn. unfold mult; cbn. field. lra. }
  assert (K : is_RInt (fun x => g (r x)) a b (minus (G (r b) * (/ 2 * (hi - lo))) (G (r a) * (/ 2 * (hi - lo))))).
  { apply (is_RInt_derive (fun x => G (r x) * (/ 2 * (hi - lo))) (fun x => g (r x))).
    - intros x _. apply HD.
    - intros x _. apply (continuous_comp r g); [|apply HC]. apply (ex_derive_continuous r). exists (2 / (hi - lo)). unfold r. auto_derive; [auto|]. field. lra. }
  replace ((G ((2 * b - lo - hi) / (hi - lo)) - G ((2 * a - lo - hi) / (hi - lo))) * (/ 2 * (hi - lo))) with (minus (G (r b) * (/ 2 * (hi - lo))) (G (r a) * (/ 2 * (hi - lo)))); [exact K|].
  unfold minus, plus, opp, r; cbn. ring.
Qed.
Lemma unscaled_integral G g a b : primitive G g -> is_RInt g a b (G b - G a).
Proof.
  intros [HG HC]. assert (K : is_RInt g a b (minus (G b) (G a))) by (apply (is_RInt_derive G g); intros x _; [apply HG|apply HC]). exact K.
Qed.

Lemma series_primitive (f f' : nat -> R -> R) cs i : (forall n x, is_derive (f n) x (f' n x)) -> (forall n x, continuous (f' n) x) ->
  primitive (fun t => series_from i (fun n => f n t) cs) (fun x => series_from i (fun n => f' n x) cs).
Proof.
  intros H HC. split; [intros x; now apply is_derive_series|]. intros x. revert i. induction cs as [|c cs IH]; intros i; cbn [series_from]; [apply continuous_const|].
  apply (continuous_plus (fun x => c * f' i x) (fun x => series_from (S i) (fun n => f' n x) cs)); [|apply IH].
  apply (continuous_scal_r c (f' i)). apply HC.
Qed.

Lemma der_cont (f : R -> R) x l : is_derive f x l -> continuous f x.
Proof. intros H. apply (ex_derive_continuous f). now exists l. Qed.

Lemma series_ext f g cs : forall i, (forall n, (i <= n)%nat -> f n = g n) -> series_from i f cs = series_from i g cs.
Proof. induction cs as [|c cs IH]; intros i H; cbn; [reflexivity|]. rewrite H by lia. f_equal. apply IH. intros n Hn. apply H. lia. Qed.
Lemma series_scaled (g : nat -> R -> R) f h cs : (forall n c, g n c * f (S n) = c * h n) -> forall i, series_from (S i) f (scaled_from g i cs) = series_from i h cs.
Proof. intros H. induction cs as [|c cs IH]; intros i; cbn [scaled_from series_from]; [reflexivity|]. now rewrite H, IH. Qed.

(** the sums over the degrees *)
Lemma terms_ok cs (h : R -> nat -> R) (f : nat -> R) : (forall c d, h c d = c * f d) -> forall k i, (i + k)%nat = length cs ->
  exists l, mapM (fun d => let* c := get (enumerate cs) d in Ok (h c d)) (seq i k) = Ok l /\ total l = series_from i f (skipn i cs).
Proof.
  intros H. induction k as [|k IH]; intros i E; cbn [seq mapM].
  - exists []. split; [reflexivity|]. rewrite skipn_all2 by lia. reflexivity.
  - destruct (nth_error cs i) as [c|] eqn:N; [|apply nth_error_None in N; lia]. rewrite get_enumerate, N. cbn [bind].
    destruct (IH (S i) ltac:(lia)) as (l & -> & HT). cbn [bind]. eexists. split; [reflexivity|]. cbn [total fold_right].
    assert (ES : skipn i cs = c :: skipn (S i) cs).
    { clear - N. revert i N. induction cs as [|a cs IH]; intros [|i] N; cbn in *; try discriminate; [congruence|now apply IH]. }
    rewrite ES. cbn [series_from]. rewrite H. f_equal. exact HT.
Qed.

Lemma series_mult k f cs : forall i, series_from i f cs * k = series_from i (fun n => f n * k) cs.
Proof. induction cs as [|c cs IH]; intros i; cbn; [ring|]. rewrite <- IH. ring. Qed.

Lemma recursive_pdf_series F c0 cs sc lo hi x :
  recursive_pdf F (recursive_init c0 cs sc lo hi) x = series (fun n => P F n (rescale (recursive_init c0 cs sc lo hi) x)) (match c0 with None => 1 | Some c => c end :: cs).
Proof. unfold recursive_pdf. cbn [m_params recursive_init]. rewrite enumerate_to_list. apply create_poly_series. Qed.

(** ** Legendre *)
Definition legendre_prim (n : nat) (x : R) : R := match n with O => x | S m => (L (S (S m)) x - L m x) / (2 * INR (S m) + 1) end.
Lemma legendre_prim_der n x : is_derive (legendre_prim n) x (L n x).
Proof.
  destruct n as [|m]; [apply (is_derive_id x)|]. unfold legendre_prim.
  assert (H : is_derive (fun x => L (S (S m)) x - L m x) x ((2 * INR (S m) + 1) * L (S m) x)).
  { eapply is_derive_eq; [apply (is_derive_minus (L (S (S m))) (L m) x _ _ (L_der _ x) (L_der _ x))|]. rewrite <- L_diff. reflexivity. }
  pose proof (scalR _ x (/ (2 * INR (S m) + 1)) _ H) as K.
  apply (is_derive_ext (fun x => / (2 * INR (S m) + 1) * (L (S (S m)) x - L m x))); [intros t; unfold Rdiv; apply Rmult_comm|].
  eapply is_derive_eq; [exact K|]. pose proof (pos_INR (S m)). field. lra.
Qed.
Definition all_coeffs (c0 : option R) (cs : list R) : list R := match c0 with None => 1 | Some c => c end :: cs.

Lemma legendre_indefinite_ok c0 cs sc lo hi x : legendre_indefinite (recursive_init c0 cs sc lo hi) x = Ok (series_from 1 (fun n => legendre_prim n x) cs).
Proof.
  unfold legendre_indefinite. cbn [m_degree m_params recursive_init]. fold (all_coeffs c0 cs).
  replace (length (all_coeffs c0 cs) - 1 + 1)%nat with (S (length cs)) by (cbn; lia). replace (S (length cs) - 1)%nat with (length cs) by lia.
  set (pol := do_recurrence legendre x (S (length cs))).
  assert (HF : forall d, In d (seq 1 (length cs)) -> (nth (d + 1) pol 0 - nth (d - 1) pol 0) / (2 * INR d + 1) = legendre_prim d x).
  { intros d Hd. apply in_seq in Hd. unfold pol. rewrite !do_recurrence_nth by lia. destruct d as [|m]; [lia|]. cbn [legendre_prim]. repeat f_equal; lia. }
  assert (E : mapM (fun degree => let* c := get (enumerate (all_coeffs c0 cs)) degree in Ok (c * (nth (degree + 1) pol 0 - nth (degree - 1) pol 0) / (2 * INR degree + 1))) (seq 1 (length cs))
            = mapM (fun degree => let* c := get (enumerate (all_coeffs c0 cs)) degree in Ok (c * legendre_prim degree x)) (seq 1 (length cs))).
  { revert HF. generalize (seq 1 (length cs)) as l. induction l as [|d l IH]; intros HF; [reflexivity|]. cbn [mapM]. rewrite (IH (fun d' H => HF d' (or_intror H))).
    destruct (get _ d) as [c|]; [|reflexivity]. cbn [bind]. rewrite <- (HF d (or_introl eq_refl)). unfold Rdiv. rewrite Rmult_assoc. reflexivity. }
  rewrite E. destruct (terms_ok (all_coeffs c0 cs) (fun c d => c * legendre_prim d x) (fun d => legendre_prim d x) (fun c d => eq_refl) (length cs) 1 eq_refl) as (l & -> & HT).
  cbn [bind]. rewrite HT. reflexivity.
Qed.
Lemma legendre_integral_ok c0 cs sc lo hi a b : let m := recursive_init c0 cs sc lo hi in
  legendre_integral m a b = Ok ((series (fun n => legendre_prim n (rescale m b)) (all_coeffs c0 cs) - series (fun n => legendre_prim n (rescale m a)) (all_coeffs c0 cs)) * (/ 2 * volume m)).
Proof.
  intros m. unfold legendre_integral. set (u := rescale m b). set (l := rescale m a). cbn [m m_params recursive_init]. rewrite get_enumerate. cbn [nth_error bind].
  cbn [m_degree recursive_init m]. fold (all_coeffs c0 cs). destruct (Nat.eqb_spec (length (all_coeffs c0 cs) - 1) 0) as [E|E].
  - cbn [bind]. destruct cs as [|c cs]; [|cbn in E; lia]. f_equal. f_equal. cbn. ring.
  - fold (recursive_init c0 cs sc lo hi). fold m. unfold m at 1 2. rewrite !legendre_indefinite_ok. cbn [bind]. f_equal. f_equal. unfold series. cbn [all_coeffs series_from legendre_prim].
    set (X := series_from 1 _ cs). set (Y := series_from 1 _ cs). ring.
Qed.
Lemma legendre_primitive cs : primitive (fun t => series (fun n => legendre_prim n t) cs) (fun x => series (fun n => L n x) cs).
Proof. apply series_primitive; [intros; apply legendre_prim_der|]. intros n x. eapply der_cont. apply L_der. Qed.

(** ** Chebyshev *)
Definition chebyshev_prim (n : nat) (x : R) : R :=
  match n with O => x | 1 => / 2 * (x * x) | _ => INR n * T (S n) x / (INR n * INR n - 1) - x * T n x / (INR n - 1) end.
Lemma chebyshev_prim_der n x : is_derive (chebyshev_prim n) x (T n x).
Proof.
  destruct n as [|[|m]]; [apply (is_derive_id x)| |].
  - unfold chebyshev_prim. auto_derive; [auto|]. unfold P; cbn. field.
  - unfold chebyshev_prim. set (n := S (S m)). pose proof (T_der (S n) x) as H1. pose proof (T_der n x) as H0. cbv beta iota in H1. unfold n in H0. cbv beta iota in H0. fold n in H0.
    assert (HN : 2 <= INR n) by (unfold n; rewrite !S_INR; pose proof (pos_INR m); lra).
    remember (INR n) as k eqn:Ek.
    assert (N1 : k * k - 1 <> 0) by nra. assert (N2 : k - 1 <> 0) by lra.
    auto_derive; [split; [eexists; exact H1|split; [eexists; exact H0|exact Logic.I]]|].
    change (fun x0 => T (S n) x0) with (T (S n)). change (fun x0 => T n x0) with (T n). rewrite (is_derive_unique _ _ _ H1), (is_derive_unique _ _ _ H0).
    pose proof (TU (S m) x) as E. fold n in E. rewrite S_INR, <- Ek in *. rewrite <- E. field. split; lra.
Qed.
Lemma chebyshev_indefinite_ok c0 c1 cs sc lo hi x : cs <> [] -> chebyshev_indefinite (recursive_init c0 (c1 :: cs) sc lo hi) x = Ok (series_from 2 (fun n => chebyshev_prim n x) cs).
Proof.
  intros NE. unfold chebyshev_indefinite. cbv zeta. cbn [m_degree m_params recursive_init]. fold (all_coeffs c0 (c1 :: cs)).
  replace (length (all_coeffs c0 (c1 :: cs)) - 1 + 1)%nat with (S (S (length cs))) by (cbn; lia). replace (S (S (length cs)) - 2)%nat with (length cs) by lia.
  set (pol := do_recurrence chebyshev x (S (S (length cs)))).
  assert (HF : forall d, In d (seq 2 (length cs)) -> INR d * nth (d + 1) pol 0 / (INR d * INR d - 1) - x * nth d pol 0 / (INR d - 1) = chebyshev_prim d x).
  { intros d Hd. apply in_seq in Hd. unfold pol. rewrite !do_recurrence_nth by lia. destruct d as [|[|m]]; [lia|lia|]. unfold chebyshev_prim. rewrite Nat.add_1_r. reflexivity. }
  assert (E : mapM (fun degree => let* c := get (enumerate (all_coeffs c0 (c1 :: cs))) degree in Ok (c * (INR degree * nth (degree + 1) pol 0 / (INR degree * INR degree - 1) - x * nth degree pol 0 / (INR degree - 1)))) (seq 2 (length cs))
            = mapM (fun degree => let* c := get (enumerate (all_coeffs c0 (c1 :: cs))) degree in Ok (c * chebyshev_prim degree x)) (seq 2 (length cs))).
  { revert HF. generalize (seq 2 (length cs)) as l. induction l as [|d l IH]; intros HF; [reflexivity|]. cbn [mapM]. rewrite (IH (fun d' H => HF d' (or_intror H))).
    destruct (get _ d) as [c|]; [|reflexivity]. cbn [bind]. rewrite <- (HF d (or_introl eq_refl)). reflexivity. }
  rewrite E. destruct (terms_ok (all_coeffs c0 (c1 :: cs)) (fun c d => c * chebyshev_prim d x) (fun d => chebyshev_prim d x) (fun c d => eq_refl) (length cs) 2 eq_refl) as (l & -> & HT).
  cbn [bind]. rewrite HT. reflexivity.
Qed.
Lemma chebyshev_integral_ok c0 cs sc lo hi a b : let m := recursive_init c0 cs sc lo hi in
  chebyshev_integral m a b = Ok ((series (fun n => chebyshev_prim n (rescale m b)) (all_coeffs c0 cs) - series (fun n => chebyshev_prim n (rescale m a)) (all_coeffs c0 cs)) * (/ 2 * volume m)).
Proof.
  intros m. unfold chebyshev_integral. set (u := rescale m b). set (l := rescale m a). unfold series.
  destruct cs as [|c1 [|c2 cs]].
  - cbn. f_equal. ring.
  - cbn. f_equal. unfold volume; cbn. field.
  - assert (EI : forall y, chebyshev_indefinite m y = Ok (series_from 2 (fun n => chebyshev_prim n y) (c2 :: cs))) by (intros y; unfold m; apply chebyshev_indefinite_ok; discriminate).
    rewrite !EI. change (m_params m) with (enumerate (all_coeffs c0 (c1 :: c2 :: cs))). change (m_degree m) with (length (all_coeffs c0 (c1 :: c2 :: cs)) - 1)%nat. rewrite !get_enumerate.
    cbn [all_coeffs nth_error bind length Nat.sub Nat.leb]. f_equal. f_equal. unfold all_coeffs. rewrite !(fun f a b r => eq_refl : series_from 0 f (a :: b :: r) = a * f 0%nat + (b * f 1%nat + series_from 2 f r)).
    cbn [chebyshev_prim]. set (X := series_from 2 _ _). set (Y := series_from 2 _ _). ring.
Qed.
Lemma chebyshev_primitive cs : primitive (fun t => series (fun n => chebyshev_prim n t) cs) (fun x => series (fun n => T n x) cs).
Proof. apply series_primitive; [intros; apply chebyshev_prim_der|]. intros n x. eapply der_cont. apply T_der. Qed.

(** ** Second kind, Hermite, Laguerre *)
Lemma U_cont n x : continuous (U n) x.
Proof.
  assert (H : forall x, ex_derive (U n) x); [|apply (ex_derive_continuous (U n)), H].
  clear x. induction n as [| |n H0 H1] using pair_ind; intros x.
  - exists 0. apply (is_derive_const 1 x).
  - unfold P; cbn. auto_derive; auto.
  - apply (ex_derive_ext (fun t => 2 * (t * U (S n) t) - U n t)); [reflexivity|]. specialize (H0 x). specialize (H1 x). auto_derive. auto.
Qed.
Lemma cheb2_primitive cs : primitive (fun t => series_from 1 (fun n => T n t) (scaled_from (fun i c => c / INR (i + 1)) 0 cs)) (fun x => series (fun n => U n x) cs).
Proof.
  destruct (series_primitive (fun n x => T (S n) x / INR (n + 1)) U cs 0) as [H1 H2].
  - intros n x. pose proof (scalR _ x (/ INR (n + 1)) _ (T_der (S n) x)) as K. apply (is_derive_ext (fun x => / INR (n + 1) * T (S n) x)); [intros t; unfold Rdiv; apply Rmult_comm|].
    eapply is_derive_eq; [exact K|]. rewrite Nat.add_1_r. pose proof (pos_INR n). rewrite S_INR. field. lra.
  - apply U_cont.
  - split; [|exact H2]. intros x. eapply is_derive_ext; [|apply H1]. intros t. symmetry. apply series_scaled. intros n c. unfold Rdiv. ring.
Qed.
Lemma hermite_primitive cs : primitive (fun t => series_from 1 (fun n => P hermite n t) (scaled_from (fun i c => c / (INR (i + 1) * 2)) 0 cs)) (fun x => series (fun n => P hermite n x) cs).
Proof.
  destruct (series_primitive (fun n x => P hermite (S n) x / (INR (n + 1) * 2)) (P hermite) cs 0) as [H1 H2].
  - intros n x. pose proof (scalR _ x (/ (INR (n + 1) * 2)) _ (hermite_der (S n) x)) as K.
    apply (is_derive_ext (fun x => / (INR (n + 1) * 2) * P hermite (S n) x)); [intros t; unfold Rdiv; apply Rmult_comm|].
    eapply is_derive_eq; [exact K|]. rewrite Nat.add_1_r. pose proof (pos_INR n). rewrite S_INR. field. lra.
  - intros n x. eapply der_cont, hermite_der.
  - split; [|exact H2]. intros x. eapply is_derive_ext; [|apply H1]. intros t. symmetry. apply series_scaled. intros n c. unfold Rdiv. ring.
Qed.
Lemma laguerre_primitive cs : primitive (fun t => - 1 * series_from 1 (fun n => Lm n t) (scaled_from (fun _ c => c) 0 cs)) (fun x => series (fun n => La n x) cs).
Proof.
  destruct (series_primitive (fun n x => -1 * Lm (S n) x) La cs 0) as [H1 H2].
  - intros n x. eapply is_derive_eq; [apply (scalR _ x (-1) _ (Lm_der n x))|]. ring.
  - intros n x. eapply der_cont, La_der.
  - split; [|exact H2]. intros x. eapply is_derive_ext; [|apply H1]. intros t. cbv beta. symmetry.
    rewrite (series_scaled (fun _ c => c) (fun n => Lm n t) (fun n => Lm (S n) t) cs (fun n c => eq_refl) 0), (Rmult_comm (-1)), series_mult.
    apply series_ext. intros n _. apply Rmult_comm.
Qed.
Lemma chebyshev2_integral_ok c0 cs sc lo hi a b : let m := recursive_init c0 cs sc lo hi in
  let G t := series_from 1 (fun n => T n t) (scaled_from (fun i c => c / INR (i + 1)) 0 (all_coeffs c0 cs)) in
  chebyshev2_integral m a b = Ok ((G (rescale m b) - G (rescale m a)) * (/ 2 * volume m)).
Proof.
  intros m G. unfold chebyshev2_integral. cbv zeta. change (m_params m) with (enumerate (all_coeffs c0 cs)).
  rewrite (shifted_front (fun i c => c / INR (i + 1))), enumerate_to_list, !create_poly_series. unfold series. cbn [series_from]. f_equal. f_equal. unfold G. ring.
Qed.
Lemma hermite_integral_ok c0 cs sc lo hi a b : let m := recursive_init c0 cs sc lo hi in
  let G t := series_from 1 (fun n => P hermite n t) (scaled_from (fun i c => c / (INR (i + 1) * 2)) 0 (all_coeffs c0 cs)) in
  hermite_integral m a b = Ok ((G (rescale m b) - G (rescale m a)) * (/ 2 * volume m)).
Proof.
  intros m G. unfold hermite_integral. cbv zeta. change (m_params m) with (enumerate (all_coeffs c0 cs)).
  rewrite (shifted_front (fun i c => c / (INR (i + 1) * 2))), enumerate_to_list, !create_poly_series. unfold series. cbn [series_from]. f_equal. f_equal. unfold G. ring.
Qed.
Lemma laguerre_integral_ok c0 cs sc lo hi a b : let m := recursive_init c0 cs sc lo hi in
  let G t := - 1 * series_from 1 (fun n => Lm n t) (scaled_from (fun _ c => c) 0 (all_coeffs c0 cs)) in
  laguerre_integral m a b = Ok ((G (rescale m b) - G (rescale m a)) * (/ 2 * volume m)).
Proof.
  intros m G. unfold laguerre_integral. cbv zeta. change (m_params m) with (enumerate (all_coeffs c0 cs)).
  rewrite (shifted_back (fun _ c => c)), !create_poly_series. unfold series. cbn [series_from]. f_equal. f_equal. unfold G. ring.
Qed.
