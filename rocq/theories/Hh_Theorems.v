(** C96: binned data from histograms and back. *)
From Coq Require Import List String Arith Bool ZArith QArith.Qcanon Lia.
From Verif Require Import Base BaseLemmas Bsp_Model Bsp_Spec Bsp_Proofs Bsp_Theorems Hh_Model Hh_Spec.
Import ListNotations.
Open Scope string_scope.
Open Scope list_scope.

Lemma same_shape_ok a b : same_shape a b = true <-> a = b.
Proof. unfold same_shape. destruct (list_eq_dec Nat.eq_dec a b); split; congruence. Qed.
Lemma same_shape_refl a : same_shape a a = true.
Proof. apply same_shape_ok. reflexivity. Qed.

Lemma proper_edges a : proper a -> plain a -> exists n, length (edges a) = S n.
Proof.
  destruct a as [n k s t tr|n e|n]; cbn; [|intros (x & y & r & ->) _; eexists; reflexivity|intros _ []].
  intros _ _. exists k. unfold regular_edges. rewrite map_length, seq_length. reflexivity.
Qed.

Lemma fits_bins l v : Forall proper l -> Forall plain l -> (fits l v <-> bins_of l = shape v).
Proof.
  unfold fits, bins_of. intros P U. split.
  - intros F. induction F as [|a n l sh E F IH]; [reflexivity|]. cbn. rewrite E. inversion P; inversion U; subst.
    rewrite IH by assumption. f_equal. lia.
  - intros <-. induction l as [|a l IH]; [constructor|]. inversion P; inversion U; subst. cbn. constructor; [|apply IH; assumption].
    destruct (proper_edges a) as (n & ->); [assumption|assumption|]. lia.
Qed.

Lemma make_data_ok s v w l : s_binning s = Some l -> bins_of l = shape v -> (forall u, w = Some u -> shape u = shape v) ->
  make_data s v w = Ok (Data s v w).
Proof.
  intros B E W. unfold make_data. rewrite B.
  assert (L : length l = length (shape v)) by (rewrite <- E; unfold bins_of; rewrite map_length; reflexivity).
  destruct w as [u|]; [rewrite (W u eq_refl), Nat.eqb_refl, same_shape_refl|]; cbn [negb bind]; rewrite L, Nat.eqb_refl, E, same_shape_refl; reflexivity.
Qed.
Lemma make_data_inv s v w d : make_data s v w = Ok d ->
  d = Data s v w /\ (exists l, s_binning s = Some l /\ bins_of l = shape v) /\ (forall u, w = Some u -> shape u = shape v).
Proof.
  unfold make_data. intros H. destruct w as [u|].
  - destruct (Nat.eqb (length (shape v)) (length (shape u))); [|discriminate H]. cbn [negb] in H.
    destruct (same_shape (shape u) (shape v)) eqn:E; [|discriminate H]. cbn [negb bind] in H.
    destruct (s_binning s) as [l|]; [|discriminate H]. destruct (Nat.eqb (length l) (length (shape v))); [|discriminate H]. cbn [negb] in H.
    destruct (same_shape (bins_of l) (shape v)) eqn:F; [|discriminate H]. injection H as <-. apply same_shape_ok in E. apply same_shape_ok in F.
    split; [reflexivity|]. split; [exists l; split; [reflexivity|exact F]|]. intros u' X. congruence.
  - cbn [bind] in H. destruct (s_binning s) as [l|]; [|discriminate H]. destruct (Nat.eqb (length l) (length (shape v))); [|discriminate H]. cbn [negb] in H.
    destruct (same_shape (bins_of l) (shape v)) eqn:F; [|discriminate H]. injection H as <-. apply same_shape_ok in F.
    split; [reflexivity|]. split; [exists l; split; [reflexivity|exact F]|]. discriminate.
Qed.

Definition outer (l : list axis) : list (string * range) := combine (map name l) (map (fun a => (first_edge a, last_edge a)) l).

Lemma axes_named_self l : NoDup (map name l) -> axes_named (map name l) l = Ok l.
Proof.
  intros ND. assert (G : forall k, incl k l -> axes_named (map name k) l = Ok k).
  { induction k as [|a k IH]; intros I; [reflexivity|]. cbn. rewrite (axis_named_nodup l a ND (I a (or_introl eq_refl))). cbn.
    rewrite IH; [reflexivity|]. intros x J. apply I. right. exact J. }
  apply G. intros x I. exact I.
Qed.

Lemma space_of_axes l : usable_axes l -> make_space None NoLimits (OfSpace l) = Ok (Space (map name l) (Some (outer l)) (Some l)).
Proof.
  intros (N & P & U & E & ND). unfold make_space. cbn [convert_binning].
  assert (X : existsb (fun a => String.eqb (name a) "") l = false).
  { destruct (existsb _ l) eqn:X; [|reflexivity]. apply existsb_exists in X. destruct X as (a & I & Q). apply String.eqb_eq in Q.
    rewrite Forall_forall in E. exfalso. exact (E a I Q). }
  rewrite X. cbn [bind]. destruct l as [|a0 l0]; [contradiction|]. cbn [choose_obs bind limits_from]. 
  assert (B : by_name (map name (a0 :: l0)) (a0 :: l0) = Ok (a0 :: l0)).
  { destruct (by_name_total (map name (a0 :: l0)) (a0 :: l0)) as (r & R); [intros n; reflexivity|]. rewrite R. apply by_name_ok in R.
    rewrite (axes_named_self _ ND) in R. destruct R as (R & _). congruence. }
  unfold convert_limits. rewrite !map_length, Nat.eqb_refl. cbn [bind]. rewrite B. reflexivity.
Qed.

(** C96: a histogram with usable axes is taken exactly if there is one number for each bin, and the variances, if it
    has some, are as many. The data have its numbers, its axes by name, and their outer edges as limits. *)
Theorem C96_from_hist : forall h, usable_axes (h_axes h) ->
  ((exists d, from_hist h = Ok d) <-> fits (h_axes h) (h_values h) /\ forall w, h_variances h = Some w -> shape w = shape (h_values h))
  /\ forall d, from_hist h = Ok d ->
       d_values d = h_values h /\ d_variances d = h_variances h
       /\ s_obs (d_space d) = map name (h_axes h)
       /\ (forall a, In a (h_axes h) -> axis_at (d_space d) (name a) a /\ range_at (d_space d) (name a) (first_edge a, last_edge a)).
Proof.
  intros h U. assert (U' := U). destruct U' as (N & P & Pl & E & ND).
  assert (H : from_hist h = make_data (Space (map name (h_axes h)) (Some (outer (h_axes h))) (Some (h_axes h))) (h_values h) (h_variances h)).
  { unfold from_hist. rewrite (usable_converted (h_axes h) P).
    - cbn [bind]. rewrite (space_of_axes _ U). reflexivity.
    - rewrite Forall_forall in *. intros a I. split; [exact (E a I)|exact (Pl a I)]. }
  split.
  - rewrite H. split.
    + intros (d & D). apply make_data_inv in D. destruct D as (_ & (l & L & B) & W). cbn in L. injection L as <-.
      split; [apply fits_bins; assumption|exact W].
    + intros (F & W). eexists. apply make_data_ok with (l := h_axes h); [reflexivity|apply fits_bins; assumption|exact W].
  - intros d D. rewrite H in D. apply make_data_inv in D. destruct D as (-> & _ & _). cbn [d_values d_variances d_space s_obs].
    split; [reflexivity|]. split; [reflexivity|]. split; [reflexivity|]. intros a I. split.
    + apply in_axis_at with (l := h_axes h); [reflexivity|reflexivity|exact I].
    + apply In_nth_error in I. destruct I as (i & I). exists (outer (h_axes h)), i. split; [reflexivity|]. cbn [s_obs].
      split; [rewrite nth_error_map, I; reflexivity|]. unfold outer. clear - I. revert i I. induction (h_axes h) as [|b l IH]; intros i I; [destruct i; discriminate I|].
      destruct i as [|i]; cbn in *; [injection I as ->; reflexivity|exact (IH i I)].
Qed.

Definition h_ex : histogram := Histogram [ax_x; ax_y] (Array [4; 2] (map (fun z => Num (q z)) [1; 2; 3; 4; 5; 6; 7; 8]%Z)) None.
Lemma ax_usable : usable_axes [ax_x; ax_y].
Proof.
  split; [discriminate|]. split; [exact ax_proper|]. split; [repeat constructor|]. split; [repeat constructor; discriminate|].
  constructor; [intros [E|[]]; discriminate E|]. constructor; [intros []|constructor].
Qed.
Example C96_from_hist_applies : usable_axes (h_axes h_ex) /\ fits (h_axes h_ex) (h_values h_ex).
Proof. split; [exact ax_usable|]. repeat constructor. Qed.

(** C96: axes that can not be used are refused: without a name, transformed, or of other kinds. *)
Theorem C96_refused : forall h a, In a (h_axes h) -> name a = "" \/ ~ plain a -> from_hist h = Err ValueError.
Proof.
  intros h a I B. unfold from_hist.
  assert (X : forall b, new_from_axis b = Err ValueError \/ exists c, new_from_axis b = Ok c).
  { intros [n k s t [|]|n e|n]; cbn; auto.
    - unfold regular_binning. destruct (Nat.eqb k 0); [auto|]. match goal with |- context [Qc_eq_bool ?x ?y] => destruct (Qc_eq_bool x y) end; [auto|].
      destruct (String.eqb n ""); eauto.
    - unfold variable_binning. destruct (String.eqb n ""); eauto. }
  assert (A : new_from_axis a = Err ValueError).
  { destruct B as [B|B].
    - destruct (X a) as [Y|(c & Y)]; [exact Y|]. destruct a as [n k s t [|]|n e|n]; cbn in B; subst; cbn in Y |- *; try discriminate Y.
      unfold regular_binning in Y. destruct (Nat.eqb k 0); [discriminate Y|].
      match type of Y with context [Qc_eq_bool ?x ?y] => destruct (Qc_eq_bool x y) end; discriminate Y.
    - destruct a as [n k s t [|]|n e|n]; cbn in *; [reflexivity|contradiction (B eq_refl)|contradiction (B Logic.I)|reflexivity]. }
  assert (H : histaxes_to_binning (h_axes h) = Err ValueError).
  { clear B. induction (h_axes h) as [|b l IH]; [destruct I|]. cbn. destruct I as [<-|I]; [rewrite A; reflexivity|].
    destruct (X b) as [Y|(c & Y)]; rewrite Y; [reflexivity|]. cbn. rewrite (IH I). reflexivity. }
  rewrite H. reflexivity.
Qed.

Example C96_refused_applies : from_hist (Histogram [Regular "x" 2 (q 1) (q 9) true] (Array [2] [Num (q 1); Num (q 2)]) None) = Err ValueError.
Proof. reflexivity. Qed.

(** C96 (partial): data with variances, whose limits are the outer edges of its axes, are the same after the way to
    hist and back. Missing: data without variances, other limits. *)
Theorem C96_round_trip_partial : forall d l w, usable_axes l -> d_space d = Space (map name l) (Some (outer l)) (Some l) ->
  d_variances d = Some w -> fits l (d_values d) -> shape w = shape (d_values d) ->
  from_hist (to_hist d) = Ok d.
Proof.
  intros d l w U S W F Sw. unfold to_hist. rewrite S, W. cbn [s_binning]. unfold from_hist. cbn [h_axes h_values h_variances].
  assert (U' := U). destruct U' as (N & P & Pl & E & ND).
  rewrite (usable_converted l P) by (rewrite Forall_forall in *; intros a I; split; [exact (E a I)|exact (Pl a I)]). cbn [bind].
  rewrite (space_of_axes l U). cbn [bind].
  rewrite make_data_ok with (l := l); [|reflexivity|apply fits_bins; assumption|intros u X; congruence].
  destruct d as [s v ws]. cbn in *. congruence.
Qed.

(** C96: the way from hist to data and back keeps axes, values and variances, NaN if there were none. *)
Theorem C96_hist_and_back : forall h d, usable_axes (h_axes h) -> from_hist h = Ok d ->
  h_axes (to_hist d) = h_axes h /\ h_values (to_hist d) = h_values h
  /\ h_variances (to_hist d) = Some (match h_variances h with Some w => w | None => no_numbers (h_values h) end).
Proof.
  intros h d U D. assert (U' := U). destruct U' as (N & P & Pl & E & ND). unfold from_hist in D.
  rewrite (usable_converted (h_axes h) P) in D by (rewrite Forall_forall in *; intros a I; split; [exact (E a I)|exact (Pl a I)]). cbn [bind] in D.
  rewrite (space_of_axes _ U) in D. cbn [bind] in D. apply make_data_inv in D. destruct D as (-> & _ & _). repeat split.
Qed.

Definition d_ex : data := Data sp (h_values h_ex) (Some (h_values h_ex)).
Example C96_round_trip_applies : from_hist (to_hist d_ex) = Ok d_ex.
Proof. apply C96_round_trip_partial with (l := [ax_x; ax_y]) (w := h_values h_ex); try reflexivity; [exact ax_usable|repeat constructor]. Qed.
Example C96_hist_and_back_applies : exists d, from_hist h_ex = Ok d.
Proof. eexists. reflexivity. Qed.

(** REFUTED: "data are the same after the way to hist and back". Without variances they have NaN as variances then;
    limits other than the outer edges are replaced by the outer edges. *)
Theorem C96_round_trip_refuted :
  (exists d d', d_variances d = None /\ from_hist (to_hist d) = Ok d' /\ exists w, d_variances d' = Some w /\ In NaN (numbers w))
  /\ (exists s d d', with_limits sp (Ranges [(q 0, q 1); (q 10, q 15)]) = Ok s /\ d_space d = s /\ range_at s "x" (q 0, q 1)
        /\ from_hist (to_hist d) = Ok d' /\ range_at (d_space d') "x" (q 0, q 2)).
Proof.
  split.
  - exists (Data sp (h_values h_ex) None). eexists. split; [reflexivity|]. split; [reflexivity|]. eexists. split; [reflexivity|]. left. reflexivity.
  - eexists. exists (Data (Space ["x"; "y"] (Some [("x", (q 0, q 1)); ("y", (q 10, q 15))]) (Some [ax_x; ax_y])) (h_values h_ex) (Some (h_values h_ex))).
    eexists. split; [vm_compute; reflexivity|]. split; [vm_compute; reflexivity|].
    split; [eexists; exists 0; split; [reflexivity|split; reflexivity]|]. split; [vm_compute; reflexivity|].
    eexists; exists 0; split; [reflexivity|split; [reflexivity|vm_compute; reflexivity]].
Qed.

(** C96: data made of arrays are accepted with one number for each bin, and keep values and variances as given. *)
Theorem C96_from_tensor : forall sqrt s l v w d, s_binning s = Some l -> from_tensor sqrt s v w = Ok d ->
  d_space d = s /\ d_values d = v /\ bins_of l = shape v
  /\ match w with NoVariances => d_variances d = None | Variances u => d_variances d = Some u /\ shape u = shape v | FromValues => exists u, d_variances d = Some u /\ shape u = shape v end.
Proof.
  intros sqrt s l v w d B H. unfold from_tensor in H. apply make_data_inv in H. destruct H as (-> & (l' & L & F) & W).
  assert (l' = l) by congruence. subst l'. cbn [d_space d_values d_variances]. split; [reflexivity|]. split; [reflexivity|]. split; [exact F|].
  destruct w as [| |u]; [reflexivity|eexists; split; reflexivity|split; [reflexivity|exact (W u eq_refl)]].
Qed.

(** C96: arrays are accepted exactly if there is one number for each bin of the space and the variances, if given, are
    as many. *)
Theorem C96_from_tensor_accepted : forall sqrt s l v w, s_binning s = Some l -> Forall proper l -> Forall plain l ->
  ((exists d, from_tensor sqrt s v w = Ok d) <-> fits l v /\ match w with Variances u => shape u = shape v | _ => True end).
Proof.
  intros sqrt s l v w B P Pl. unfold from_tensor. split.
  - intros (d & H). apply make_data_inv in H. destruct H as (_ & (l' & L & F) & W). assert (l' = l) by congruence. subst l'.
    split; [apply fits_bins; assumption|]. destruct w as [| |u]; [exact I|exact I|exact (W u eq_refl)].
  - intros (F & W). eexists. apply make_data_ok with (l := l); [exact B|apply fits_bins; assumption|].
    intros u X. destruct w as [| |u']; [discriminate X|injection X as <-; reflexivity|injection X as <-; exact W].
Qed.

(** C96: without any condition on the limits and the variances, the way to hist and back keeps the axis of each
    observable, the values, and the variances that there are. *)
Theorem C96_round_trip_numbers : forall d l, usable_axes l -> s_binning (d_space d) = Some l -> s_obs (d_space d) = map name l ->
  fits l (d_values d) -> (forall w, d_variances d = Some w -> shape w = shape (d_values d)) ->
  exists d', from_hist (to_hist d) = Ok d' /\ d_values d' = d_values d
    /\ s_obs (d_space d') = s_obs (d_space d)
    /\ (forall a, In a l -> axis_at (d_space d') (name a) a)
    /\ (forall w, d_variances d = Some w -> d_variances d' = Some w)
    /\ (forall a, In a l -> range_at (d_space d') (name a) (first_edge a, last_edge a)).
Proof.
  intros d l U B O F W.
  assert (A : h_axes (to_hist d) = l) by (unfold to_hist; rewrite B; reflexivity).
  destruct (C96_from_hist (to_hist d)) as (Acc & Keep); [rewrite A; exact U|]. destruct (proj2 Acc) as (d' & D').
  - rewrite A. split; [exact F|]. cbn [to_hist h_variances h_values]. intros w X. injection X as <-.
    destruct (d_variances d) as [w|]; [exact (W w eq_refl)|reflexivity].
  - exists d'. destruct (Keep d' D') as (V & Va & Ob & Ax). rewrite A in Ob, Ax. split; [exact D'|]. split; [exact V|].
    split; [congruence|]. split; [intros a J; apply Ax; exact J|]. split; [|intros a J; apply Ax; exact J].
    intros w X. rewrite Va. cbn [to_hist h_variances]. rewrite X. reflexivity.
Qed.

Example C96_round_trip_numbers_applies :
  usable_axes [ax_x; ax_y] /\ s_binning (d_space d_ex) = Some [ax_x; ax_y] /\ s_obs (d_space d_ex) = map name [ax_x; ax_y] /\ fits [ax_x; ax_y] (d_values d_ex).
Proof. split; [exact ax_usable|]. split; [reflexivity|]. split; [reflexivity|]. repeat constructor. Qed.

Example C96_from_tensor_applies : exists d, from_tensor (fun x => x) sp (h_values h_ex) FromValues = Ok d.
Proof. eexists. reflexivity. Qed.

(** REFUTED: "with variances=True the variances are those of Poisson counts". They are the square roots of the counts,
    for every count other than 0 and 1 not its variance. *)
Theorem C96_poisson_refuted : forall sqrt s v d x, sqrt (x * x)%Qc = x -> from_tensor sqrt s v FromValues = Ok d -> numbers v = [Num (x * x)%Qc] -> (0 < x)%Qc -> x <> 1%Qc ->
  exists w, d_variances d = Some w /\ numbers w = [Num x] /\ ~ poisson v w.
Proof.
  intros sqrt s v d x S H V X O. unfold from_tensor in H. apply make_data_inv in H. destruct H as (-> & _ & _). cbn [d_variances].
  eexists. split; [reflexivity|]. unfold poisson. cbn [numbers]. rewrite V. cbn [map].
  rewrite S. split; [reflexivity|].
  intros (_ & P). assert (P' : x = (x * x)%Qc) by congruence. clear P.
  apply O. assert (Q : x <> 0%Qc) by (intros ->; exact (Qclt_not_eq _ _ X eq_refl)).
  transitivity (x * x * / x)%Qc; [rewrite <- Qcmult_assoc, Qcmult_inv_r by assumption; symmetry; apply Qcmult_1_r|].
  rewrite <- P'. apply Qcmult_inv_r. assumption.
Qed.

Example C96_poisson_applies : exists d, from_tensor (fun _ => q 2) (Space ["x"] (Some [("x", (q 0, q 1))]) (Some [Varied "x" [q 0; q 1]]))
  (Array [1] [Num (q 2 * q 2)%Qc]) FromValues = Ok d /\ (0 < q 2)%Qc /\ q 2 <> 1%Qc.
Proof. eexists. split; [reflexivity|]. split; [reflexivity|]. intros E. apply (f_equal this) in E. vm_compute in E. discriminate E. Qed.

(** C96: what comes out of the conversion is the binned data given, or has the numbers of the histogram given and
    one variance for each number if there are some; None comes out only for other things, and if asked for. *)
Theorem C96_convert : forall x b r, convert_hist2binneddata x b = Ok r ->
  match r with
  | Some d => x = Binned d \/ exists h, x = Hist h /\ d_values d = h_values h /\ d_variances d = h_variances h
                /\ forall w, d_variances d = Some w -> shape w = shape (d_values d)
  | None => x = Else /\ b = true
  end.
Proof.
  intros [d|h|] b r H; cbn [convert_hist2binneddata] in H.
  - injection H as <-. left. reflexivity.
  - destruct (from_hist h) as [d|e] eqn:E; [|discriminate H]. injection H as <-. right. exists h. unfold from_hist in E.
    destruct (histaxes_to_binning (h_axes h)) as [l|]; [|discriminate E]. cbn [bind] in E.
    destruct (make_space None NoLimits (OfSpace l)) as [s|]; [|discriminate E]. cbn [bind] in E.
    apply make_data_inv in E. destruct E as (-> & _ & W). repeat split. exact W.
  - destruct b; [injection H as <-; split; reflexivity|discriminate H].
Qed.

(** C96: every histogram that [from_hist] takes and all binned data are taken, whatever the option; other things are
    refused with a TypeError unless None is asked for. *)
Theorem C96_convert_taken : forall b,
  (forall d, convert_hist2binneddata (Binned d) b = Ok (Some d))
  /\ (forall h d, from_hist h = Ok d -> convert_hist2binneddata (Hist h) b = Ok (Some d))
  /\ (forall h, usable_axes (h_axes h) -> fits (h_axes h) (h_values h) -> h_variances h = None -> exists d, convert_hist2binneddata (Hist h) b = Ok (Some d))
  /\ convert_hist2binneddata Else b = (if b then Ok None else Err TypeError).
Proof.
  intros b. split; [reflexivity|]. split; [intros h d E; cbn [convert_hist2binneddata]; rewrite E; reflexivity|]. split; [|reflexivity].
  intros h U F W. destruct (proj2 (proj1 (C96_from_hist h U))) as (d & E); [split; [exact F|intros w X; congruence]|].
  exists d. cbn [convert_hist2binneddata]. rewrite E. reflexivity.
Qed.
