(** Proofs about products of PDFs. *)
From Verif Require Import Base BaseLemmas Disp_Model Disp_Spec Disp_Proofs Sum_Spec Prod_Model Prod_Spec.
From Coq Require Import Lra Lia.
#[local] Open Scope R_scope.

Lemma pick_named : forall {V} (d : V) names vals want, length vals = length names -> incl want names ->
  pick names vals want = Some (map (named d names vals) want).
Proof.
  intros V d names vals want HL HI. unfold pick. induction want as [|o want IH]; [reflexivity|]. cbn [map all_some].
  assert (Ho : In o (map fst (combine names vals))).
  { replace (map fst (combine names vals)) with names; [apply HI; left; reflexivity|].
    clear - HL. revert vals HL. induction names as [|n names IH]; intros [|v vals] HL; try discriminate; [reflexivity|]. simpl. f_equal. apply IH. injection HL as HL. exact HL. }
  destruct (lookup_some_key _ string_eqb_ok o _ Ho) as [v Hv]. unfold named at 1. rewrite Hv.
  rewrite IH by (intros a Ha; apply HI; right; exact Ha). reflexivity.
Qed.
Lemma prod_all_vals : forall {A} (g : A -> outcome) (v : A -> R) l, (forall a, In a l -> g a = Val (v a)) ->
  prod_all (map g l) = Val (prod_list (map v l)).
Proof.
  intros A g v l. induction l as [|a l IH]; intro H; simpl; [reflexivity|].
  rewrite (H a) by (left; reflexivity). rewrite IH by (intros; apply H; right; assumption). reflexivity.
Qed.
Lemma prod_list_app : forall a b, prod_list (a ++ b) = prod_list a * prod_list b.
Proof. induction a as [|x a IH]; intro b; simpl; [ring|]. rewrite IH. ring. Qed.
Lemma prod_list_ext : forall {A} (u v : A -> R) l, (forall a, In a l -> u a = v a) -> prod_list (map u l) = prod_list (map v l).
Proof. intros A u v l H. f_equal. apply map_ext_in. exact H. Qed.
Lemma prod_list_filter : forall {A} (p : A -> bool) (u : A -> R) l,
  prod_list (map u l) = prod_list (map u (filter p l)) * prod_list (map u (filter (fun a => negb (p a)) l)).
Proof.
  intros A p u l. induction l as [|a l IH]; simpl; [ring|]. rewrite IH. destruct (p a); simpl; ring.
Qed.

(** A model whose integration takes one box and no norm *)
Lemma single_integrate : forall {L X} (m : model L X) (okL : L -> Prop) (I : L -> R),
  (forall l n, okL l -> (forall nls, n <> Norm nls) -> call_integrate m [l] n = Val (I l)) ->
  (forall ls n, (1 < length ls)%nat -> call_integrate m ls n = EMulti) ->
  (forall l nls, call_integrate m [l] (Norm nls) = ENorm) ->
  forall ls n, limits okL ls -> proper okL n -> integrate m ls n = Val (integral_of I ls n).
Proof.
  intros L X m okL I H1 H2 H3 ls n Hls Hn.
  assert (S : forall ls n, limits okL ls -> (forall nls, n <> Norm nls) -> limits_with (call_integrate m) ls n = Val (total I ls)).
  { intros ls' n' [A B] C. unfold limits_with. destruct ls' as [|l [|l2 r]]; [contradiction A; reflexivity| |].
    - inversion B; subst. rewrite H1 by assumption. simpl. f_equal. ring.
    - rewrite H2 by (simpl; lia). set (ls' := l :: l2 :: r) in *. clearbody ls'. clear - B C H1.
      induction B as [|l ls' Hl B IH]; [reflexivity|]. cbn [map sum_all]. rewrite H1 by assumption. rewrite IH. reflexivity. }
  assert (E : forall nls ls, limits okL ls -> limits_with (call_integrate m) ls (Norm nls) = ENorm).
  { intros nls ls' [A _]. unfold limits_with. destruct ls' as [|l [|l2 r]]; [contradiction A; reflexivity| |].
    - rewrite H3. reflexivity.
    - rewrite H2 by (simpl; lia). cbn [map sum_all]. rewrite H3. reflexivity. }
  unfold integrate, norm_with. destruct n as [| |nls].
  - rewrite S by (assumption || discriminate). reflexivity.
  - rewrite S by (assumption || discriminate). reflexivity.
  - rewrite E by assumption. rewrite !S by (assumption || discriminate || apply (Hn nls eq_refl)). reflexivity.
Qed.

Lemma behaves_I_ext : forall {L X} okL okX (I I' : L -> R) (f : X -> R) m, (forall l, I l = I' l) -> behaves okL okX I f m -> behaves okL okX I' f m.
Proof.
  intros L X okL okX I I' f m H [B1 B2].
  assert (T : forall ls, total I ls = total I' ls) by (induction ls as [|l ls IH]; simpl; [reflexivity|rewrite IH, H; reflexivity]).
  split.
  - intros ls n A B. rewrite B1 by assumption. destruct n; cbn [integral_of]; rewrite !T; reflexivity.
  - intros x n A B C. rewrite B2 by assumption. destruct n; cbn [density_of]; rewrite ?T; reflexivity.
Qed.

Section Prod.
Variable eqn : list string * list box -> list string * list box -> bool.
Variable numeric : list string -> list factor -> list box -> outcome.
Variable es en : list string -> list box -> bool.
Variable F : factor -> point -> R.

Definition f_prod (obs : list string) (pdfs : list factor) (x : point) : R := prod_list (map (fun f => F f (coords obs x (a_obs f))) pdfs).
(** The factor behaves, on points and boxes with as many coordinates as it has observables *)
Definition good (If : factor * (box -> R)) : Prop :=
  forall ls n, limits (fits (a_obs (fst If))) ls -> proper (fits (a_obs (fst If))) n ->
    integrate (a_model (fst If)) ls n = Val (integral_of (snd If) ls n).
Definition good_pdf (f : factor) : Prop := forall x, fitsx (a_obs f) x -> pdf (a_model f) x NormFalse = Val (F f x).

Lemma prod_unnorm : forall obs pdfs g y x, (forall f, In f pdfs -> good_pdf f /\ incl (a_obs f) obs) -> fitsx obs x ->
  m_unnorm (prod_model eqn numeric es en obs pdfs g y) x = Val (f_prod obs pdfs x).
Proof.
  intros obs pdfs g y x H Hx. cbn [m_unnorm prod_model]. unfold f_prod. apply prod_all_vals. intros f Hf. destruct (H f Hf) as [A B].
  unfold factor_pdf. rewrite (pick_named 0) by assumption. apply A. unfold fitsx. apply map_length.
Qed.

Lemma prod_pdf : forall obs pdfs g y I, (forall f, In f pdfs -> good_pdf f /\ incl (a_obs f) obs) ->
  (forall ls n, limits (fits obs) ls -> proper (fits obs) n -> integrate (prod_model eqn numeric es en obs pdfs g y) ls n = Val (integral_of I ls n)) ->
  (g = None \/ forall n, equal_norms eqn obs pdfs n = false) ->
  behaves (fits obs) (fitsx obs) I (f_prod obs pdfs) (prod_model eqn numeric es en obs pdfs g y).
Proof.
  intros obs pdfs g y I HF HI HE. split; [exact HI|]. intros x n Hx Hp Hn. set (m := prod_model eqn numeric es en obs pdfs g y) in *.
  assert (P : pcall m (m_pdf m) x n = ENotImpl).
  { cbn [m_pdf m prod_model pcall prod_pdf_hook p_supp p_fun]. destruct n as [| |nls]; cbn [check_norm s_true orb];
      (destruct g as [gs|]; [destruct HE as [HE|HE]; [discriminate HE|rewrite HE; reflexivity]|reflexivity]). }
  assert (C : call_pdf m x n = fallback_pdf m x n).
  { unfold call_pdf. rewrite P. cbn [pcall m_log_pdf m_ext_pdf m prod_model m_yield]. destruct y; reflexivity. }
  assert (Q : fallback_pdf m x n = Val (density_of I (f_prod obs pdfs) x n)).
  { destruct n as [| |nls]; cbn [fallback_pdf density_of]; [contradiction Hn; reflexivity|apply prod_unnorm; assumption|].
    unfold m at 1. rewrite prod_unnorm by assumption. unfold normalization. cbn [m_normalization m prod_model].
    fold m. rewrite HI; [reflexivity|apply (Hp nls eq_refl)|intros k E; discriminate E]. }
  unfold pdf. rewrite C, Q. reflexivity.
Qed.

(** No group can be split off *)
Lemma prod_none : forall obs pdfs y J, (forall f, In f pdfs -> good_pdf f /\ incl (a_obs f) obs) ->
  (forall l, fits obs l -> numeric obs pdfs [l] = Val (J l)) ->
  behaves (fits obs) (fitsx obs) J (f_prod obs pdfs) (prod_model eqn numeric es en obs pdfs None y).
Proof.
  intros obs pdfs y J HF HJ. apply prod_pdf; [exact HF| |left; reflexivity]. apply single_integrate.
  - intros l n Hl Hn. unfold call_integrate, norm_analytic, norm_with, limits_with, call_analytic, call_numeric, call.
    destruct n as [| |nls]; [| |destruct (Hn nls eq_refl)]; cbn; rewrite HJ by exact Hl; reflexivity.
  - intros ls n H. unfold call_integrate, call. cbn [m_integrate prod_model prod_integrate_hook h_supp s_multi negb andb].
    apply Nat.ltb_lt in H. rewrite H. reflexivity.
  - intros l nls. reflexivity.
Qed.

(** Groups *)
Definition I_groups (obs : list string) (gI : list (factor * (box -> R))) (l : box) : R :=
  prod_list (map (fun p => snd p (sides obs l (a_obs (fst p)))) gI).
Lemma prod_some : forall obs pdfs gI y, (forall f, In f pdfs -> good_pdf f /\ incl (a_obs f) obs) ->
  (forall p, In p gI -> good p /\ incl (a_obs (fst p)) obs) -> (forall n, equal_norms eqn obs pdfs n = false) ->
  behaves (fits obs) (fitsx obs) (I_groups obs gI) (f_prod obs pdfs) (prod_model eqn numeric es en obs pdfs (Some (map fst gI)) y).
Proof.
  intros obs pdfs gI y HF HG HE. apply prod_pdf; [exact HF| |right; exact HE]. apply single_integrate.
  - intros l n Hl Hn.
    assert (P : prod_all (map (factor_integrate obs l) (map fst gI)) = Val (I_groups obs gI l)).
    { rewrite map_map. unfold I_groups. apply prod_all_vals. intros p Hp. destruct (HG p Hp) as [A B]. unfold factor_integrate.
      rewrite (pick_named (0, 0)) by assumption. rewrite A.
      - cbn [integral_of total]. f_equal. apply Rplus_0_r.
      - split; [discriminate|]. constructor; [|constructor]. unfold fits. apply map_length.
      - intros nls E. discriminate E. }
    unfold call_integrate, call. cbn [m_integrate prod_model prod_integrate_hook h_supp h_fun s_multi negb andb length].
    destruct n as [| |nls]; [| |destruct (Hn nls eq_refl)]; cbn [Nat.ltb Nat.leb check_norm s_true]; rewrite P; reflexivity.
  - intros ls n H. unfold call_integrate, call. cbn [m_integrate prod_model prod_integrate_hook h_supp s_multi negb andb].
    apply Nat.ltb_lt in H. rewrite H. reflexivity.
  - intros l nls. reflexivity.
Qed.
End Prod.
