(** Proofs about sums of PDFs. *)
From Verif Require Import Base BaseLemmas Disp_Model Disp_Spec Disp_Proofs Sum_Model Sum_Spec.
From Coq Require Import Lra Lia.
#[local] Open Scope R_scope.

Lemma radd_sum : forall l, radd l = sum_list l.
Proof. induction l as [|x l IH]; simpl; [reflexivity|]. rewrite IH. reflexivity. Qed.
Lemma sum_list_app : forall a b, sum_list (a ++ b) = sum_list a + sum_list b.
Proof. induction a as [|x a IH]; intro b; simpl; [ring|]. rewrite IH. ring. Qed.
Lemma sum_list_div : forall {A} (g : A -> R) d l, sum_list (map (fun a => g a / d) l) = sum_list (map g l) / d.
Proof. intros A g d. induction l as [|a l IH]; simpl; [unfold Rdiv; ring|]. rewrite IH. unfold Rdiv. ring. Qed.
Lemma wsum_plus : forall {A} (u v : A -> R) l ws, wsum ws (map (fun a => u a + v a) l) = wsum ws (map u l) + wsum ws (map v l).
Proof. intros A u v. induction l as [|a l IH]; intros [|w ws]; simpl; try ring. rewrite IH. ring. Qed.
Lemma wsum_zero : forall {A} (l : list A) ws, wsum ws (map (fun _ => 0) l) = 0.
Proof. intros A. induction l as [|a l IH]; intros [|w ws]; simpl; try ring. rewrite IH. ring. Qed.
Lemma wsum_scale : forall {A} c (u : A -> R) l ws, wsum ws (map (fun a => c * u a) l) = c * wsum ws (map u l).
Proof. intros A c u. induction l as [|a l IH]; intros [|w ws]; simpl; try ring. rewrite IH. ring. Qed.
Lemma wsum_ext : forall {A} (u v : A -> R) l ws, (forall a, In a l -> u a = v a) -> wsum ws (map u l) = wsum ws (map v l).
Proof. intros A u v l ws H. f_equal. apply map_ext_in. exact H. Qed.
Lemma wsum_ones : forall {A} (l : list A) ws, length ws = length l -> wsum ws (map (fun _ => 1) l) = sum_list ws.
Proof. intros A. induction l as [|a l IH]; intros [|w ws] H; simpl in *; try discriminate; [reflexivity|]. rewrite IH by lia. ring. Qed.
Lemma wsum_nonneg : forall ws vs, Forall (fun w => 0 <= w) ws -> Forall (fun v => 0 <= v) vs -> 0 <= wsum ws vs.
Proof.
  induction ws as [|w ws IH]; intros [|v vs] H1 H2; simpl; try lra.
  inversion H1; inversion H2; subst. specialize (IH vs ltac:(assumption) ltac:(assumption)). nra.
Qed.
Lemma wsum_map_weights : forall {A} (g u : A -> R) l, wsum (map g l) (map u l) = sum_list (map (fun a => g a * u a) l).
Proof. intros A g u. induction l as [|a l IH]; simpl; [reflexivity|]. rewrite IH. reflexivity. Qed.
Lemma sum_list_scale : forall {A} c (u : A -> R) l, sum_list (map (fun a => c * u a) l) = c * sum_list (map u l).
Proof. intros A c u. induction l as [|a l IH]; simpl; [ring|]. rewrite IH. ring. Qed.
Lemma sum_list_ext : forall {A} (u v : A -> R) l, (forall a, In a l -> u a = v a) -> sum_list (map u l) = sum_list (map v l).
Proof. intros A u v l H. f_equal. apply map_ext_in. exact H. Qed.

Section Sum.
Context {L X : Type}.
Notation comp := (comp L X).
Lemma sum_all_vals : forall {A} (g : A -> outcome) (v : A -> R) l, (forall a, In a l -> g a = Val (v a)) ->
  sum_all (map g l) = Val (sum_list (map v l)).
Proof.
  intros A g v l. induction l as [|a l IH]; intro H; simpl; [reflexivity|].
  rewrite (H a) by (left; reflexivity). rewrite IH by (intros; apply H; right; assumption). reflexivity.
Qed.
Lemma weighted_vals : forall (g : comp -> outcome) (v : comp -> R) s, (forall c, In c (s_pdfs s) -> g c = Val (v c)) ->
  weighted g s = Val (wsum (s_fracs s) (map v (s_pdfs s))).
Proof.
  intros g v s H. unfold weighted. destruct s as [pdfs fracs au y]. cbn [s_pdfs s_fracs] in *. revert fracs.
  induction pdfs as [|c pdfs IH]; intros [|w ws]; cbn [combine map sum_all wsum]; try reflexivity.
  cbn [fst snd]. rewrite (H c) by (left; reflexivity). cbn [map_val]. rewrite IH by (intros; apply H; right; assumption).
  f_equal. ring.
Qed.

Variable okL : L -> Prop.
Variable okX : X -> Prop.
Variable I : comp -> L -> R.
Variable f : comp -> X -> R.
Variable eqn : list L -> list L -> bool.
Variables eq_space eq_norm : list L -> bool.
Variable numeric : list L -> outcome.
Variable s : sumpdf L X.
Notation T c := (total (I c) (c_norm c)).
Notation model_of := (sum_model eqn eq_space eq_norm numeric s).

Hypothesis HB : forall c, In c (s_pdfs s) -> behaves okL okX (I c) (f c) (c_model c) /\ limits okL (c_norm c).

(** The function and the integrals of the sum *)
Definition f_sum (x : X) : R := wsum (s_fracs s) (map (fun c => f c x / T c) (s_pdfs s)).
Definition I_sum (l : L) : R := wsum (s_fracs s) (map (fun c => I c l / T c) (s_pdfs s)).

Lemma total_sum : forall ls, total I_sum ls = wsum (s_fracs s) (map (fun c => total (I c) ls / T c) (s_pdfs s)).
Proof.
  induction ls as [|l ls IH]; simpl.
  - symmetry. etransitivity; [|apply (wsum_zero (s_pdfs s) (s_fracs s))]. apply wsum_ext. intros. unfold Rdiv. ring.
  - rewrite IH. unfold I_sum. rewrite <- wsum_plus. apply wsum_ext. intros. unfold Rdiv. ring.
Qed.
Lemma comp_proper : forall c, In c (s_pdfs s) -> proper okL (Norm (c_norm c)).
Proof. intros c Hc nls E. injection E as <-. apply (HB c Hc). Qed.
Lemma unnorm_ok : forall x, okX x -> weighted (fun c => comp_pdf c x) s = Val (f_sum x).
Proof.
  intros x Hx. unfold f_sum. apply weighted_vals. intros c Hc. unfold comp_pdf.
  rewrite (b_pdf _ _ _ _ _ (proj1 (HB c Hc))); [reflexivity|exact Hx|apply comp_proper; exact Hc|discriminate].
Qed.
Lemma hook_integral : forall ls, limits okL ls -> weighted (fun c => comp_integrate c ls) s = Val (total I_sum ls).
Proof.
  intros ls Hls. rewrite total_sum. apply weighted_vals. intros c Hc. unfold comp_integrate.
  rewrite (b_integrate _ _ _ _ _ (proj1 (HB c Hc))); [reflexivity|exact Hls|apply comp_proper; exact Hc].
Qed.
Lemma sum_call_integrate : forall ls n, limits okL ls -> (forall nls, n <> Norm nls) -> call_integrate model_of ls n = Val (total I_sum ls).
Proof.
  intros ls n Hls Hn. unfold call_integrate, call. cbn [m_integrate sum_model sum_integrate_hook h_supp h_fun s_multi negb andb].
  destruct n as [| |nls]; [| |destruct (Hn nls eq_refl)]; cbn [check_norm s_true]; rewrite hook_integral by exact Hls; reflexivity.
Qed.
Lemma sum_integrate : forall ls n, limits okL ls -> proper okL n -> integrate model_of ls n = Val (integral_of I_sum ls n).
Proof.
  intros ls n Hls Hn. unfold integrate, norm_with, limits_with at 1.
  destruct n as [| |nls]; [rewrite sum_call_integrate by (exact Hls || discriminate); reflexivity..|].
  assert (N : call_integrate model_of ls (Norm nls) = ENorm) by reflexivity. rewrite N.
  unfold limits_with. rewrite !sum_call_integrate by (exact Hls || discriminate || apply (Hn nls eq_refl)). reflexivity.
Qed.

Hypothesis Hlen : length (s_fracs s) = length (s_pdfs s).
Hypothesis Hone : sum_list (s_fracs s) = 1.
Hypothesis HT : forall c, In c (s_pdfs s) -> T c <> 0.
(** Norms that count as equal have equal integrals *)
Hypothesis Heq : forall c nls, In c (s_pdfs s) -> eqn (c_norm c) nls = true -> total (I c) nls = T c.

Lemma same_total : forall nls, same_norms eqn s (Norm nls) = true -> total I_sum nls = 1.
Proof.
  intros nls H. cbn [same_norms] in H. rewrite forallb_forall in H. rewrite total_sum.
  rewrite (wsum_ext _ (fun _ => 1)).
  - rewrite wsum_ones by exact Hlen. exact Hone.
  - intros c Hc. rewrite (Heq c nls Hc (H c Hc)). field. apply HT. exact Hc.
Qed.
Lemma hook_same : forall x n, same_norms eqn s n = true -> n <> NoNorm -> f_sum x = density_of I_sum f_sum x n.
Proof.
  intros x [| |nls] H Hn; [contradiction Hn; reflexivity|reflexivity|]. cbn [density_of].
  rewrite (same_total nls H). field.
Qed.
Lemma sum_check_norm : forall b c d n, check_norm model_of (mkSupp true b c d) n = Some n.
Proof. intros b c d [| |nls]; reflexivity. Qed.
Lemma sum_normalization : forall nls, limits okL nls -> normalization model_of nls = Val (total I_sum nls).
Proof. intros nls H. unfold normalization. cbn [m_normalization sum_model]. rewrite sum_integrate; [reflexivity|exact H|intros nls' E; discriminate E]. Qed.
Lemma sum_ext_hook_no : forall x n, same_norms eqn s n = false -> pcall model_of (m_ext_pdf model_of) x n = ENotImpl.
Proof.
  intros x n H. cbn [m_ext_pdf sum_model pcall sum_ext_hook p_supp p_fun]. rewrite sum_check_norm, H. reflexivity.
Qed.
Lemma sum_pdf_same : forall x n, okX x -> same_norms eqn s n = true -> pdf model_of x n = Val (f_sum x).
Proof.
  intros x n Hx H. unfold pdf, call_pdf. cbn [m_pdf sum_model pcall sum_pdf_hook p_supp p_fun].
  rewrite sum_check_norm, H, unnorm_ok by exact Hx. reflexivity.
Qed.
Lemma sum_pdf : forall x n, okX x -> proper okL n -> n <> NoNorm -> pdf model_of x n = Val (density_of I_sum f_sum x n).
Proof.
  intros x n Hx Hp Hn. destruct (same_norms eqn s n) eqn:E.
  - rewrite sum_pdf_same by assumption. rewrite <- hook_same by assumption. reflexivity.
  - destruct n as [| |nls]; try discriminate E.
    assert (F : fallback_pdf model_of x (Norm nls) = Val (density_of I_sum f_sum x (Norm nls))).
    { cbn [fallback_pdf]. rewrite sum_normalization by (apply (Hp nls eq_refl)).
      cbn [m_unnorm sum_model]. unfold sum_unnorm. rewrite unnorm_ok by exact Hx. reflexivity. }
    unfold pdf, call_pdf. rewrite sum_ext_hook_no by exact E.
    cbn [m_pdf m_log_pdf sum_model pcall sum_pdf_hook p_supp p_fun]. rewrite sum_check_norm, E.
    cbn [m_yield sum_model]. destruct (s_yield s); rewrite F; reflexivity.
Qed.
Lemma sum_behaves : behaves okL okX I_sum f_sum model_of.
Proof. split; [apply sum_integrate|apply sum_pdf]. Qed.

(** Extended *)
Lemma ext_by_yield : forall y x n, okX x -> s_yield s = Some y -> proper okL n -> n <> NoNorm ->
  (same_norms eqn s n && s_auto s = false) -> ext_pdf model_of x n = Val (y * density_of I_sum f_sum x n).
Proof.
  intros y x n Hx Hy Hp Hn H. unfold ext_pdf. cbn [m_yield sum_model]. rewrite Hy.
  assert (E : pcall model_of (m_ext_pdf model_of) x n = ENotImpl).
  { cbn [m_ext_pdf sum_model pcall sum_ext_hook p_supp p_fun]. rewrite sum_check_norm, H. reflexivity. }
  rewrite E, sum_pdf by assumption. cbn [map_val]. f_equal. ring.
Qed.
Lemma ext_auto : forall y x n, okX x -> s_yield s = Some y -> s_auto s = true -> y <> 0 ->
  (forall c, In c (s_pdfs s) -> exists yc, behaves_ext okL okX (I c) (f c) yc (c_model c)) ->
  s_fracs s = map (fun c => c_yield c / y) (s_pdfs s) ->
  proper okL n -> n <> NoNorm -> ext_pdf model_of x n = Val (y * density_of I_sum f_sum x n).
Proof.
  intros y x n Hx Hy Ha Hy0 HE HF Hp Hn. destruct (same_norms eqn s n) eqn:E; [|apply ext_by_yield; auto; rewrite E; reflexivity].
  unfold ext_pdf. cbn [m_yield sum_model]. rewrite Hy.
  assert (V : pcall model_of (m_ext_pdf model_of) x n = Val (y * f_sum x)).
  { cbn [m_ext_pdf sum_model pcall sum_ext_hook p_supp p_fun]. rewrite sum_check_norm, E, Ha. cbn [andb].
    rewrite (sum_all_vals _ (fun c => c_yield c * (f c x / T c))).
    - f_equal. unfold f_sum. rewrite HF, wsum_map_weights, <- sum_list_scale. apply sum_list_ext.
      intros c Hc. unfold Rdiv. field. split; [apply HT; exact Hc|exact Hy0].
    - intros c Hc. destruct (HE c Hc) as [yc B]. unfold comp_ext_pdf. rewrite (be_pdf _ _ _ _ _ _ B); [|exact Hx|apply comp_proper; exact Hc|discriminate].
      unfold c_yield. rewrite (be_yield _ _ _ _ _ _ B). reflexivity. }
  rewrite V, <- hook_same by assumption. reflexivity.
Qed.
End Sum.

(** ** Construction *)
Section Init.
Context {L X : Type}.
Lemma preprocess_fracs : forall checks fracs obs (pdfs : list (comp L X)) fs given sy,
  preprocess checks fracs obs pdfs = Ok (fs, given, sy) ->
  (2 <= length pdfs)%nat /\ length fs = length pdfs /\
  match fracs with
  | Some (a :: l) => given = true /\ sy = None /\ (fs = a :: l \/ fs = (a :: l) ++ [1 - sum_list (a :: l)])
  | _ => given = false /\ forallb c_extended pdfs = true /\ sy = Some (sum_list (map c_yield pdfs)) /\
         fs = map (fun c => c_yield c / sum_list (map c_yield pdfs)) pdfs
  end.
Proof.
  intros checks fracs obs pdfs fs given sy H. unfold preprocess in H.
  destruct (Nat.ltb (length pdfs) 2) eqn:E1; [discriminate H|]. apply Nat.ltb_ge in E1. split; [exact E1|].
  destruct (existsb _ pdfs); [discriminate H|].
  assert (D : (if forallb c_extended pdfs
          then Ok (map (fun c => c_yield c / radd (map c_yield pdfs)) pdfs, false, Some (radd (map c_yield pdfs)))
          else Err ModelIncompatibleError) = Ok (fs, given, sy) ->
    length fs = length pdfs /\ given = false /\ forallb c_extended pdfs = true /\ sy = Some (sum_list (map c_yield pdfs)) /\
         fs = map (fun c => c_yield c / sum_list (map c_yield pdfs)) pdfs).
  { intro D. destruct (forallb c_extended pdfs); [|discriminate D]. rewrite radd_sum in D. injection D as <- <- <-.
    rewrite map_length. auto. }
  destruct fracs as [[|a l]|]; [exact (D H)| |exact (D H)].
  set (fr := a :: l) in *. destruct (Nat.eqb (length fr) (length pdfs - 1)) eqn:E2.
  - destruct (checks && _); [discriminate H|]. injection H as <- <- <-. apply Nat.eqb_eq in E2.
    rewrite radd_sum. split; [subst fr; cbn [app length] in *; rewrite app_length; cbn [length]; lia|]. auto.
  - destruct (Nat.eqb (length fr) (length pdfs)) eqn:E3; [|discriminate H]. injection H as <- <- <-.
    apply Nat.eqb_eq in E3. auto.
Qed.
End Init.
