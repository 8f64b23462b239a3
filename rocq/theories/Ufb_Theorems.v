(** C75: a histogram as an unbinned PDF. *)
From Verif Require Import Base BaseLemmas Hist_Model Hist_Spec Hist_Proofs3 BInt_Model BInt_Spec
  Bpdf_Model Bpdf_Spec Bpdf_Proofs Bpdf_Proofs2 Bpdf_Proofs3 Bpdf_Proofs4 Bpdf_Theorems
  Disp_Model Ufb_Model Ufb_Spec Ufb_Proofs Ufb_Proofs2.
From Coq Require Import Lqa Qreals.
#[local] Open Scope string_scope.
#[local] Open Scope list_scope.
#[local] Open Scope nat_scope.

(** ** Densities *)

(** The density is constant in each bin and zero outside: content over content of the norm range
    over bin volume. *)
Theorem C75_density_partial : forall u v total nm m,
  names_ok u -> f_obs u = f_bobs u -> histogram_of u v total -> same_norm u -> norm_fine u v nm ->
  steps u (fun row => ufb_pdf u (5 + m) row nm) (height u v (asked u v total nm)).
Proof.
  intros u v total nm m NO SO HO SN NF.
  refine (steps_ext u _ _ _ _ (fun row _ => eq_refl) (edges_fine u v total HO) NO _ (density_gen u v total m HO nm NO NF (or_intror SO))).
  intros i Hi. unfold height. rewrite (divisor_asked u v total nm SN). reflexivity.
Qed.
Print Assumptions C75_density_partial.
(** Without norm the observables may have any order, and the norm may be any. *)
Theorem C75_density_without_norm : forall u v total m,
  names_ok u -> histogram_of u v total ->
  steps u (fun row => ufb_pdf u (5 + m) row UFalse) (height u v total).
Proof.
  intros u v total m NO HO. apply (density_gen u v total m HO UFalse NO); [|left; reflexivity].
  intros l [H|[H _]]; discriminate H.
Qed.
Print Assumptions C75_density_without_norm.
(** The extended density is the yield times that, if the yield is that of the binned PDF. *)
Theorem C75_ext_density_partial : forall u v total nm m y,
  names_ok u -> f_obs u = f_bobs u -> histogram_of u v total -> ext_histogram_of u v total -> same_norm u -> norm_fine u v nm ->
  f_yield u = Some y -> p_yield (f_binned u) = Some y ->
  steps u (fun row => ufb_ext_pdf u (5 + m) row nm) (fun i => y * height u v (asked u v total nm) i)%Q.
Proof.
  intros u v total nm m y NO SO HO EH SN NF Y Y'.
  refine (steps_ext u _ _ _ _ (fun row _ => eq_refl) (edges_fine u v total HO) NO _ (ext_density_gen u v total m HO nm y y NO NF (or_intror SO) EH Y' Y)).
  intros i Hi. unfold height. rewrite (divisor_asked u v total nm SN). reflexivity.
Qed.
Print Assumptions C75_ext_density_partial.

(** ** Integrals *)

(** The integral over a box is that of the density: each bin counts with the volume in the box. *)
Theorem C75_integral_partial : forall u v total nm m (l : region),
  names_ok u -> f_obs u = f_bobs u -> histogram_of u v total -> same_norm u -> norm_fine u v nm ->
  box_ok (own_edges (f_binned u)) l ->
  ufb_integrate u (5 + m) [l] nm =
    Val (Q2R (step_integral (own_edges (f_binned u)) (height u v (asked u v total nm)) l)).
Proof.
  intros u v total nm m l NO SO HO SN NF BO.
  rewrite (integral_gen u v total m HO nm l NO NF SO BO). f_equal. apply Qeq_eqR.
  assert (D : ~ (asked u v total nm == 0)%Q) by (rewrite <- (divisor_asked u v total nm SN); apply (divisor_pos u v total HO nm NF)).
  rewrite (step_integral_box u v total HO l _ D BO), (divisor_asked u v total nm SN). reflexivity.
Qed.
Print Assumptions C75_integral_partial.
(** It is normalised over its norm range, and over any other one that is asked for. *)
Theorem C75_normalised_partial : forall u v total nm m l,
  names_ok u -> f_obs u = f_bobs u -> histogram_of u v total -> same_norm u -> norm_fine u v nm ->
  nm = UBox l \/ nm = UOwn /\ l = f_norm u ->
  ufb_integrate u (5 + m) [l] nm = Val 1%R.
Proof.
  intros u v total nm m l NO SO HO SN NF E. destruct (NF l E) as [BO BP].
  rewrite (integral_gen u v total m HO nm l NO NF SO BO). f_equal. rewrite <- RMicromega.Q2R_1. apply Qeq_eqR.
  rewrite (divisor_asked u v total nm SN).
  assert (A : asked u v total nm = in_box (own_edges (f_binned u)) l v) by (destruct E as [-> |[-> ->]]; reflexivity).
  rewrite A. field. exact BP.
Qed.
Print Assumptions C75_normalised_partial.
(** The extended integral is the yield times the integral. *)
Theorem C75_ext_integral : forall u m ls nm y r, f_yield u = Some y -> ufb_integrate u m ls nm = Val r ->
  ufb_ext_integrate u m ls nm = Val (r * Q2R y)%R.
Proof.
  intros u m ls nm y r Y H. unfold ufb_ext_integrate, ext_integrate. cbn [m_yield ufb_model]. rewrite Y. cbn [option_map].
  unfold ufb_integrate in H. rewrite H. reflexivity.
Qed.
Print Assumptions C75_ext_integral.

(** ** A histogram of data *)

(** What [HistogramPDF(data).to_unbinned()] is: the contents over the sum of all, over the bin
    volumes; extended with the sum of all. *)
Theorem C75_histogram : forall e bobs data m,
  Forall edges_ok e -> t_shape data = shape_of e -> NoDup bobs -> length bobs = length e ->
  let total := in_all e (t_get data) in
  let u := unbinned_pdf (histogram_pdf (LSpace (whole e) (Some e)) data ExtNone None) bobs None ExtNone None in
  ~ (total == 0)%Q ->
  steps u (fun row => ufb_pdf u (5 + m) row UOwn) (fun i => t_get data i / total / volume e i)%Q /\
  steps u (fun row => ufb_ext_pdf u (5 + m) row UOwn) (fun i => t_get data i / volume e i)%Q /\
  (forall l : region, box_ok e l ->
     ufb_integrate u (5 + m) [l] UOwn = Val (Q2R (in_box e l (t_get data) / total)) /\
     ufb_ext_integrate u (5 + m) [l] UOwn = Val (Q2R (in_box e l (t_get data)))) /\
  ufb_integrate u (5 + m) [whole e] UOwn = Val 1%R.
Proof.
  intros e bobs data m OK SH ND LB total u T0.
  set (b := histogram_pdf (LSpace (whole e) (Some e)) data ExtNone None).
  assert (NF0 : norm_for b (t_get data) None).
  { split; [right; reflexivity|]. split; [apply whole_ok, OK|]. change (own_edges b) with e. cbn [norm_of b p_norm p_space histogram_pdf l_ranges].
    rewrite in_box_whole by exact OK. exact T0. }
  assert (HO : histogram_of u (t_get data) total).
  { split; [exact (hist_stands e data ExtNone None OK SH T0 (Some NFalse) I)|exact (hist_stands e data ExtNone None OK SH T0 None NF0)]. }
  assert (EH : ext_histogram_of u (t_get data) total).
  { split; [exact (hist_ext_honest e data ExtNone None OK SH T0 (Some NFalse) I)|].
    apply (hist_ext_honest e data ExtNone None OK SH T0 None). exact (asks_for_all_space b None (conj OK eq_refl) eq_refl). }
  assert (NO : names_ok u).
  { split; [split; [exact ND|symmetry; exact LB]|]. split; [exact ND|]. reflexivity. }
  assert (SN : same_norm u).
  { unfold same_norm. cbn [u unbinned_pdf f_norm f_binned norm_of p_norm p_space histogram_pdf l_ranges snd].
    generalize (whole e) as w. induction w as [|x w IH]; constructor; [split; reflexivity|exact IH]. }
  assert (AE : (asked u (t_get data) total UOwn == total)%Q).
  { cbn [asked]. change (own_edges (f_binned u)) with e. change (f_norm u) with (whole e). apply in_box_whole, OK. }
  assert (NF : norm_fine u (t_get data) UOwn).
  { intros l [H|[_ ->]]; [discriminate H|]. change (own_edges (f_binned u)) with e. change (f_norm u) with (whole e).
    split; [apply whole_ok, OK|]. rewrite in_box_whole by exact OK. exact T0. }
  assert (Y : f_yield u = Some (tsum data)) by reflexivity.
  assert (YT : (tsum data == total)%Q) by (rewrite (tsum_in_all e data SH); reflexivity).
  assert (VN : forall i, in_shape i (shape_of e) -> ~ (volume e i == 0)%Q).
  { intros i Hi K. apply (Qlt_not_eq _ _ (volume_pos e i OK Hi)). symmetry. exact K. }
  assert (IN : forall l : region, box_ok e l -> ufb_integrate u (5 + m) [l] UOwn = Val (Q2R (in_box e l (t_get data) / total))).
  { intros l BO. rewrite (integral_gen u (t_get data) total m HO UOwn l NO NF eq_refl BO). f_equal. apply Qeq_eqR.
    rewrite (divisor_asked u (t_get data) total UOwn SN), AE. reflexivity. }
  split; [|split; [|split]].
  - refine (steps_ext u _ _ _ _ (fun row _ => eq_refl) OK NO _ (C75_density_partial u (t_get data) total UOwn m NO eq_refl HO SN NF)).
    intros i Hi. unfold height. rewrite AE. reflexivity.
  - refine (steps_ext u _ _ _ _ (fun row _ => eq_refl) OK NO _ (C75_ext_density_partial u (t_get data) total UOwn m (tsum data) NO eq_refl HO EH SN NF Y eq_refl)).
    intros i Hi. unfold height. change (own_edges (f_binned u)) with e. rewrite AE, YT. field. split; [apply VN, Hi|exact T0].
  - intros l BO. split; [apply IN, BO|]. rewrite (C75_ext_integral u (5 + m) [l] UOwn (tsum data) _ Y (IN l BO)). f_equal.
    rewrite <- Q2R_mult. apply Qeq_eqR. rewrite YT. field. exact T0.
  - apply (C75_normalised_partial u (t_get data) total UOwn m (whole e) NO eq_refl HO SN NF). right. split; reflexivity.
Qed.
Print Assumptions C75_histogram.

(** The histogram of Bpdf_Theorems: two bins [0,1], [1,3] with the contents 1 and 3. *)
Definition ex_u : ufb := unbinned_pdf ex_hist ["x"] None ExtNone None.
Example ex_u_fine : names_ok ex_u /\ f_obs ex_u = f_bobs ex_u /\ same_norm ex_u /\
  histogram_of ex_u (t_get ex_data) 4 /\ ext_histogram_of ex_u (t_get ex_data) 4 /\
  norm_fine ex_u (t_get ex_data) UOwn /\ norm_fine ex_u (t_get ex_data) (UBox [(0, 2)%Q]) /\
  f_yield ex_u = Some (tsum ex_data) /\ p_yield (f_binned ex_u) = Some (tsum ex_data).
Proof.
  assert (T0 : ~ (in_all ex_e (t_get ex_data) == 0)%Q) by (vm_compute; discriminate).
  assert (ND : NoDup ["x"]) by (repeat constructor; intros []).
  assert (NF0 : norm_for ex_hist (t_get ex_data) None).
  { split; [right; reflexivity|]. split; [apply whole_ok, ex_e_ok|]. vm_compute. discriminate. }
  split; [split; [split; [exact ND|reflexivity]|split; [exact ND|reflexivity]]|].
  split; [reflexivity|]. split; [repeat constructor; reflexivity|].
  split; [split; [exact (hist_stands ex_e ex_data ExtNone None ex_e_ok eq_refl T0 (Some NFalse) I)|exact (hist_stands ex_e ex_data ExtNone None ex_e_ok eq_refl T0 None NF0)]|].
  split; [split; [exact (hist_ext_honest ex_e ex_data ExtNone None ex_e_ok eq_refl T0 (Some NFalse) I)|]|].
  { apply (hist_ext_honest ex_e ex_data ExtNone None ex_e_ok eq_refl T0 None). exact (asks_for_all_space ex_hist None (conj ex_e_ok eq_refl) eq_refl). }
  split; [|split; [|split; reflexivity]].
  - intros l [H|[_ ->]]; [discriminate H|]. split; [exact (whole_ok ex_e ex_e_ok)|vm_compute; discriminate].
  - intros l [H|[H _]]; [|discriminate H]. injection H as <-. split; [repeat constructor; unfold Qlt, Qle; cbn; lia|vm_compute; discriminate].
Qed.
(** The values. *)
Definition ex_row (u : ufb) (nm : normarg) (x : Q) : result Q :=
  let* q := step_value u (Bpdf_Model.pdf (f_binned u) 5 (Some nm)) [x] in Ok (Qred q).
Example ex_u_values : map (ex_row ex_u (NSpace (norm_of ex_hist))) [1 # 2; 1; 2; 3; 4; - (1)]%Q =
  map Ok [1 # 4; 3 # 8; 3 # 8; 3 # 8; 0; 0]%Q.
Proof. vm_compute. reflexivity. Qed.

(** ** Norms *)

(** An own norm, or an own range of the observable, that is not that of the binned PDF is not
    used: the density is that of the norm of the binned PDF, and the integral over the own norm
    range is not one. *)
Theorem C75_own_norm_refuted : forall u v total m,
  names_ok u -> f_obs u = f_bobs u -> histogram_of u v total -> norm_fine u v UOwn ->
  let other := in_box (own_edges (f_binned u)) (l_ranges (norm_of (f_binned u))) v in
  steps u (fun row => ufb_pdf u (5 + m) row UOwn) (height u v other) /\
  ufb_integrate u (5 + m) [f_norm u] UOwn = Val (Q2R (in_box (own_edges (f_binned u)) (f_norm u) v / other)).
Proof.
  intros u v total m NO SO HO NF other. split.
  - exact (density_gen u v total m HO UOwn NO NF (or_intror SO)).
  - apply (integral_gen u v total m HO UOwn (f_norm u) NO NF SO). apply (NF (f_norm u)). right. split; reflexivity.
Qed.
Print Assumptions C75_own_norm_refuted.
(** The same histogram over the first bin and half of the second: its integral is 5/8. *)
Example ex_own_norm : let u := unbinned_pdf ex_hist ["x"] (Some (["x"], [(0, 2)%Q])) ExtNone None in
  names_ok u /\ f_obs u = f_bobs u /\ histogram_of u (t_get ex_data) 4 /\ norm_fine u (t_get ex_data) UOwn /\
  ufb_integrate u 5 [f_norm u] UOwn = Val (Q2R (5 # 8)).
Proof.
  intros u. destruct ex_u_fine as (A&_&_&B&_&_&C&_).
  assert (NF : norm_fine u (t_get ex_data) UOwn).
  { intros l [H|[_ ->]]; [discriminate H|]. apply (C _ (or_introl eq_refl)). }
  split; [exact A|]. split; [reflexivity|]. split; [exact B|]. split; [exact NF|].
  etransitivity; [exact (proj2 (C75_own_norm_refuted u (t_get ex_data) 4 0 A eq_refl B NF))|]. f_equal. apply Qeq_eqR. vm_compute. reflexivity.
Qed.

(** ** Yields *)

(** A given yield: the extended density has the yield of the binned PDF, while the extended
    integral has the given one. *)
Theorem C75_own_yield_refuted : forall u v total m y y' (l : region),
  names_ok u -> f_obs u = f_bobs u -> histogram_of u v total -> ext_histogram_of u v total -> same_norm u -> norm_fine u v UOwn ->
  f_yield u = Some y -> p_yield (f_binned u) = Some y' -> box_ok (own_edges (f_binned u)) l ->
  let h := height u v (asked u v total UOwn) in
  steps u (fun row => ufb_ext_pdf u (5 + m) row UOwn) (fun i => y' * h i)%Q /\
  ufb_ext_integrate u (5 + m) [l] UOwn = Val (Q2R (step_integral (own_edges (f_binned u)) h l) * Q2R y)%R.
Proof.
  intros u v total m y y' l NO SO HO EH SN NF Y Y' BO h. split.
  - refine (steps_ext u _ _ _ _ (fun row _ => eq_refl) (edges_fine u v total HO) NO _ (ext_density_gen u v total m HO UOwn y' y NO NF (or_intror SO) EH Y' Y)).
    intros i Hi. unfold h, height. rewrite (divisor_asked u v total UOwn SN). reflexivity.
  - apply (C75_ext_integral u (5 + m) [l] UOwn y _ Y). apply (C75_integral_partial u v total UOwn m l NO SO HO SN NF BO).
Qed.
Print Assumptions C75_own_yield_refuted.
Example ex_own_yield : let u := unbinned_pdf ex_hist ["x"] None (ExtYield 100) None in
  f_yield u = Some 100%Q /\ p_yield (f_binned u) = Some (tsum ex_data) /\ (tsum ex_data == 4)%Q /\
  names_ok u /\ f_obs u = f_bobs u /\ histogram_of u (t_get ex_data) 4 /\ ext_histogram_of u (t_get ex_data) 4 /\ same_norm u /\
  norm_fine u (t_get ex_data) UOwn /\ box_ok (own_edges (f_binned u)) [(0, 1)%Q].
Proof.
  intros u. destruct ex_u_fine as (A&_&B&C&D&E&_). split; [reflexivity|]. split; [reflexivity|]. split; [reflexivity|].
  split; [exact A|]. split; [reflexivity|]. split; [exact C|]. split; [exact D|]. split; [exact B|]. split; [exact E|exact ex_box].
Qed.
(** A given yield for a binned PDF without yield: no extended density. *)
Theorem C75_yield_of_plain_refuted : forall u m y row nm,
  names_ok u -> Forall edges_ok (own_edges (f_binned u)) -> length row = length (f_obs u) ->
  f_yield u = Some y -> p_yield (f_binned u) = None -> ufb_ext_pdf u m row nm = EOther.
Proof.
  intros u m y row nm NO OK LR Y P.
  assert (S : forall norm, of_q (step_value u (Bpdf_Model.ext_pdf (f_binned u) m norm) row) = EOther).
  { intros norm.
    assert (INC : Forall Hist_Spec.increasing (own_edges (f_binned u))) by (eapply Forall_impl; [|exact OK]; intros x [I0 _]; exact I0).
    destruct (step_ok u (Ok (areas (f_binned u))) (t_get (areas (f_binned u))) row NO INC) as (q&E&_).
    - eexists. split; [reflexivity|]. split; [reflexivity|]. intros. reflexivity.
    - exact LR.
    - unfold step_value in *. destruct (binindex_row (own_bins u) (f_obs u) row) as [idx|]; [|discriminate E]. cbn [bind].
      unfold Bpdf_Model.ext_pdf, get_yield. rewrite P. reflexivity. }
  assert (N : not_steering EOther) by exact I.
  destruct nm as [| |l].
  - rewrite (ext_own u m row y UOwn (f_norm u) Y eq_refl (region_eqb_refl _)); rewrite S; [reflexivity|exact N].
  - rewrite (ext_false u m row y Y); rewrite S; [reflexivity|exact N].
  - destruct (region_eqb (f_norm u) l) eqn:E.
    + rewrite (ext_own u m row y (UBox l) l Y eq_refl E); rewrite S; [reflexivity|exact N].
    + unfold ufb_ext_pdf, ext_pdf. cbn [norm_arg]. rewrite norm_other_ext by exact E. rewrite norm_arg_call_ext by (left; reflexivity).
      rewrite S. cbn [m_yield ufb_model]. rewrite Y. reflexivity.
Qed.
Print Assumptions C75_yield_of_plain_refuted.
Example ex_yield_of_plain : let u := unbinned_pdf (histogram_pdf ex_space ex_data ExtFalse None) ["x"] None (ExtYield 100) None in
  names_ok u /\ Forall edges_ok (own_edges (f_binned u)) /\ f_yield u = Some 100%Q /\ p_yield (f_binned u) = None.
Proof.
  intros u. assert (ND : NoDup ["x"]) by (repeat constructor; intros []).
  split; [split; [split; [exact ND|reflexivity]|split; [exact ND|reflexivity]]|]. split; [exact ex_e_ok|]. split; reflexivity.
Qed.

(** ** Limits *)

(** Integrals over several boxes raise, although the method says it can do them. *)
Theorem C75_several_limits_refuted : forall u m l l' ls nm,
  ufb_integrate u m (l :: l' :: ls) nm = EOther.
Proof.
  intros u m l l' ls nm. unfold ufb_integrate, integrate, norm_with, limits_with, call_integrate.
  assert (F : forall n, n = NoNorm \/ n = NormFalse \/ (exists k, n = Norm [k] /\ region_eqb (f_norm u) k = true) ->
    call (ufb_model u m) (m_integrate (ufb_model u m)) (l :: l' :: ls) n = EOther).
  { intros n [-> |[-> |(k&->&H)]]; [reflexivity|reflexivity|]. cbn. rewrite H. reflexivity. }
  assert (G : forall k, region_eqb (f_norm u) k = false -> call (ufb_model u m) (m_integrate (ufb_model u m)) (l :: l' :: ls) (Norm [k]) = ENorm).
  { intros k H. cbn. rewrite H. reflexivity. }
  destruct nm as [| |k]; cbn [norm_arg].
  - rewrite F; [reflexivity|]. right; right. exists (f_norm u). split; [reflexivity|apply region_eqb_refl].
  - rewrite F; [reflexivity|]. auto.
  - destruct (region_eqb (f_norm u) k) eqn:E.
    + rewrite F; [reflexivity|]. right; right. exists k. auto.
    + rewrite (G k E). rewrite F by auto. reflexivity.
Qed.
Print Assumptions C75_several_limits_refuted.

(** ** Observables in another order *)

(** Two axes with two bins each, contents 1, 2, 3, 4 in the order of the bins. *)
Definition ex_e2 : list (list Q) := [[0; 1; 2]%Q; [0; 1; 3]%Q].
Definition ex_data2 : tensor :=
  Tensor [2; 2] (fun i => match i with [a; b] => inject_Z (Z.of_nat (1 + 2 * a + b)) | _ => 0%Q end).
Definition ex_hist2 : bpdf := histogram_pdf (LSpace (whole ex_e2) (Some ex_e2)) ex_data2 ExtNone None.
Definition ex_u2 : ufb := unbinned_pdf ex_hist2 ["x"; "y"] (Some (["y"; "x"], [(0, 3)%Q; (0, 2)%Q])) ExtNone None.
Lemma ex_e2_ok : Forall edges_ok ex_e2.
Proof. repeat constructor; unfold Qlt; cbn; lia. Qed.
Lemma ex_u2_fine : names_ok ex_u2 /\ histogram_of ex_u2 (t_get ex_data2) 10.
Proof.
  assert (T0 : ~ (in_all ex_e2 (t_get ex_data2) == 0)%Q) by (vm_compute; discriminate).
  assert (NF0 : norm_for ex_hist2 (t_get ex_data2) None).
  { split; [right; reflexivity|]. split; [apply whole_ok, ex_e2_ok|]. vm_compute. discriminate. }
  assert (ND : forall a b : string, a <> b -> NoDup [a; b]) by (intros a b H; repeat constructor; cbn; intuition).
  split.
  - split; [split; [apply ND; discriminate|reflexivity]|]. split; [apply ND; discriminate|]. cbn. intros o. intuition.
  - split; [exact (hist_stands ex_e2 ex_data2 ExtNone None ex_e2_ok eq_refl T0 (Some NFalse) I)|exact (hist_stands ex_e2 ex_data2 ExtNone None ex_e2_ok eq_refl T0 None NF0)].
Qed.
(** With the observables in another order than those of the binned PDF, densities are found by
    name, and integrals are wrong: the edges are put in the new order, the contents are not. *)
Theorem C75_order_refuted : exists u v total l,
  names_ok u /\ histogram_of u v total /\ f_obs u = rev (f_bobs u) /\ box_ok (own_edges (f_binned u)) (rev l) /\
  (forall m, steps u (fun row => ufb_pdf u (5 + m) row UFalse) (height u v total)) /\
  (step_integral (own_edges (f_binned u)) (height u v total) (rev l) == 4 # 10)%Q /\
  ufb_integrate u 5 [l] UFalse = Val (Q2R (3 # 10)).
Proof.
  destruct ex_u2_fine as [A B].
  exists ex_u2, (t_get ex_data2), 10%Q, [(0, 1)%Q; (0, 2)%Q].
  split; [exact A|]. split; [exact B|]. split; [reflexivity|].
  split; [repeat constructor; unfold Qlt, Qle; cbn; lia|].
  split; [intros m; exact (C75_density_without_norm ex_u2 _ _ m A B)|].
  split; [vm_compute; reflexivity|].
  assert (E : exists q, (let* s := binned_limits ex_u2 [(0, 1)%Q; (0, 2)%Q] in Bpdf_Model.integrate (f_binned ex_u2) 5 (Some s) (Some NFalse)) = Ok q /\ (q == 3 # 10)%Q).
  { eexists. split; [vm_compute; reflexivity|]. reflexivity. }
  destruct E as (q&E&VQ).
  assert (BI : binned_integral ex_u2 5 [(0, 1)%Q; (0, 2)%Q] (Some NFalse) = Val (Q2R (3 # 10))).
  { unfold binned_integral. rewrite E. cbn [of_q]. f_equal. apply Qeq_eqR, VQ. }
  etransitivity; [apply (integrate_false ex_u2 5); rewrite BI; exact I|exact BI].
Qed.
Print Assumptions C75_order_refuted.

(** ** Samples *)

(** If the counts of the bins are whole numbers (what the multinomial generator gives) and the
    limits contain all bins, each bin gets its number of events, and each event is in a bin. *)
Theorem C75_sample_partial : forall u m poisson multinomial draw n limits r c,
  names_ok u -> f_obs u = f_bobs u -> pdf_space_ok (f_binned u) -> p_sample (f_binned u) = None ->
  rel_counts_of (f_binned u) m None = Ok r ->
  t_shape (multinomial n r) = shape_of (own_edges (f_binned u)) -> whole_counts (multinomial n r) c ->
  unit_draws (length (own_edges (f_binned u))) draw ->
  covers (match limits with Some l => l | None => f_space u end) (own_edges (f_binned u)) ->
  exists d, ufb_sample u m poisson multinomial draw (Some n) limits = Ok d /\ u_obs d = f_obs u /\
    Forall (fun row => exists idx, event_in (own_bins u) (f_obs u) row idx) (u_rows d) /\
    length (u_rows d) = list_sum (map c (indices (shape_of (own_edges (f_binned u))))) /\
    forall idx, in_shape idx (shape_of (own_edges (f_binned u))) -> rows_in_bin u (u_rows d) idx = c idx.
Proof.
  intros u m poisson multinomial draw n limits r c NO SO PS PN ER SH WC UD CV.
  set (e := own_edges (f_binned u)) in *.
  assert (OK : Forall edges_ok e) by apply PS.
  destruct NO as ((NB&LB)&ND&_). cbn [own_bins b_obs b_edges] in NB, LB. fold e in LB.
  unfold ufb_sample, raw_sample. cbn [bind].
  rewrite (C68_sample (f_binned u) poisson multinomial m (Some n) r PN PS ER). cbn [bind].
  rewrite (places_of _ c WC), SH. cbn [bind]. fold e.
  set (ps := flat_map (fun i => repeat i (c i)) (indices (shape_of e))).
  assert (PI : Forall (fun p => in_shape p (shape_of e)) ps).
  { apply Forall_forall. intros p I0. unfold ps in I0. apply in_flat_map in I0. destruct I0 as (y&I1&I2). apply repeat_spec in I2. subst p. apply indices_in, I1. }
  assert (LS : forall p, in_shape p (shape_of e) -> length p = length e).
  { intros p H. unfold in_shape in H. rewrite (Forall2_length' _ _ _ H). unfold shape_of. rewrite map_length. reflexivity. }
  assert (PT : forall k, Forall (fun row => length row = length e /\ exists idx, in_shape idx (shape_of e) /\ inb e idx row = true) (points_at e k draw ps)).
  { apply points_forall. eapply Forall_impl; [|exact PI]. intros p Hp k. destruct (UD k) as [U1 U2].
    destruct (point_in e OK p (draw k) Hp U1 U2) as [A B]. split; [exact A|]. exists p. split; [exact Hp|exact B]. }
  assert (FI : filter (in_limits match limits with Some l => l | None => f_space u end) (points_at e 0 draw ps) = points_at e 0 draw ps).
  { specialize (PT 0). induction PT as [|row rows (L&idx&_&H) PT IH]; cbn [filter]; [reflexivity|].
    rewrite (inb_limits _ e idx row OK CV H), IH. reflexivity. }
  rewrite FI. eexists. split; [reflexivity|]. cbn [u_obs u_rows]. split; [reflexivity|]. split; [|split].
  - eapply Forall_impl; [|exact (PT 0)]. intros row (L&idx&HS&H). exists idx.
    apply inb_event; fold e; auto; try congruence.
  - rewrite points_length. unfold ps. apply length_flat.
  - intros idx HS. unfold rows_in_bin. fold e.
    rewrite (filter_ext_in _ (inb e idx)).
    + rewrite (points_count e draw ps idx OK PI UD 0). unfold ps. apply count_flat; [apply indices_nodup|apply indices_in, HS].
    + intros row I0. assert (L : length row = length e) by (exact (proj1 (proj1 (Forall_forall _ _) (PT 0) row I0))).
      rewrite <- SO. apply (by_name_inb (f_obs u) e idx row ND); try congruence. apply LS, HS.
Qed.
Print Assumptions C75_sample_partial.
(** A generator that puts all events in the last bin. *)
Definition ex_multinomial (n : Q) (t : tensor) : tensor := one_axis [0; n]%Q.
Definition ex_draw (k : nat) : list Q := [1 # 2]%Q.
Example ex_sample_fine : pdf_space_ok (f_binned ex_u) /\ p_sample (f_binned ex_u) = None /\
  (exists r, rel_counts_of (f_binned ex_u) 5 None = Ok r) /\ (forall n r, t_shape (ex_multinomial n r) = shape_of ex_e) /\
  (forall r, whole_counts (ex_multinomial 3 r) (fun i => match i with [1] => 3 | _ => 0 end)) /\
  unit_draws 1 ex_draw /\ covers (f_space ex_u) ex_e /\
  ufb_sample ex_u 5 (fun y => y) ex_multinomial ex_draw (Some 3%Q) None = Ok (UData ["x"] [[4 # 2]; [4 # 2]; [4 # 2]]%Q None).
Proof.
  split; [split; [exact ex_e_ok|reflexivity]|]. split; [reflexivity|]. split; [eexists; vm_compute; reflexivity|].
  split; [reflexivity|]. split.
  { intros r idx H. cbn in H. inversion H as [|k ? l ? K R]; subst. inversion R; subst. destruct k as [|[|k]]; [reflexivity|reflexivity|lia]. }
  split; [intros i; split; [reflexivity|repeat constructor; unfold Qle, Qlt; cbn; lia]|].
  split; [repeat constructor; unfold Qle; cbn; lia|]. vm_compute. reflexivity.
Qed.

(** Limits: the number asked for is drawn in the whole range, and what is outside of the limits
    is dropped. *)
Theorem C75_sample_limits_refuted : forall u m poisson multinomial draw n limits d,
  ufb_sample u m poisson multinomial draw (Some n) (Some limits) = Ok d ->
  exists rows, raw_sample u m poisson multinomial draw n = Ok rows /\ u_rows d = filter (in_limits limits) rows.
Proof.
  intros u m poisson multinomial draw n limits d H. unfold ufb_sample in H. cbn [bind] in H.
  destruct (raw_sample u m poisson multinomial draw n) as [rows|]; [|discriminate H]. cbn [bind] in H. injection H as <-.
  exists rows. split; reflexivity.
Qed.
Print Assumptions C75_sample_limits_refuted.
Example ex_sample_limits2 :
  ufb_sample ex_u 5 (fun y => y) ex_multinomial ex_draw (Some 3%Q) (Some [(0, 1)%Q]) = Ok (UData ["x"] [] None).
Proof. vm_compute. reflexivity. Qed.
(** Without a number, the sample of an extended PDF of an extended binned PDF raises. *)
Theorem C75_sample_extended_refuted : forall u m poisson multinomial draw limits y y',
  f_yield u = Some y -> p_yield (f_binned u) = Some y' ->
  ufb_sample u m poisson multinomial draw None limits = Err AttributeError.
Proof. intros u m poisson multinomial draw limits y y' Y Y'. unfold ufb_sample. rewrite Y, Y'. reflexivity. Qed.
Print Assumptions C75_sample_extended_refuted.
Example ex_sample_extended : exists y y', f_yield ex_u = Some y /\ p_yield (f_binned ex_u) = Some y'.
Proof. eexists. eexists. split; reflexivity. Qed.
(** With the observables in another order the columns get the wrong names: the events of the last
    bin, [1,2] in x and [1,3] in y, have x = 2 and y = 3/2. *)
Theorem C75_sample_order_refuted :
  let last_bin := fun (n : Q) (_ : tensor) => Tensor [2; 2] (fun i => match i with [1; 1] => n | _ => 0%Q end) in
  let draw := fun _ : nat => [1 # 2; 1 # 2]%Q in
  exists d, ufb_sample ex_u2 5 (fun y => y) last_bin draw (Some 1%Q) None = Ok d /\
    map (fun row => (Qred (value_of (u_obs d) row "x"), Qred (value_of (u_obs d) row "y"))) (u_rows d) = [(2, 3 # 2)%Q].
Proof. cbn zeta. eexists. split; vm_compute; reflexivity. Qed.
Print Assumptions C75_sample_order_refuted.

(** ** Splines *)

(** [SplinePDF]: the order asked for has no effect on the density, while the extended density
    uses it. *)
Theorem C75_spline_order_refuted : forall interpolate b m nm row,
  (forall o o', spline_pdf interpolate b m o nm row = spline_pdf interpolate b m o' nm row) /\
  (forall o t, Bpdf_Model.ext_pdf b m (Some nm) = Ok t ->
     spline_ext_pdf interpolate b m (Some o) nm row = Ok (interpolate o t row)).
Proof. intros. split; [reflexivity|]. intros o t H. unfold spline_ext_pdf. rewrite H. reflexivity. Qed.
Print Assumptions C75_spline_order_refuted.
Example ex_spline : spline_pdf (fun o _ _ => inject_Z (Z.of_nat o)) ex_hist 5 (Some 1) NFalse [0%Q] = Ok 3%Q /\
  spline_ext_pdf (fun o _ _ => inject_Z (Z.of_nat o)) ex_hist 5 (Some 1) NFalse [0%Q] = Ok 1%Q.
Proof. split; vm_compute; reflexivity. Qed.
