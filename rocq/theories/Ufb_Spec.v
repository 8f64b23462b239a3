(** What a histogram as an unbinned PDF has to be: constant in each bin, zero outside, with the
    integral of a step function. *)
From Verif Require Import Base Hist_Model Hist_Spec BInt_Model BInt_Spec Bpdf_Model Bpdf_Spec Disp_Model Ufb_Model.
#[local] Open Scope nat_scope.

(** A step function [h] (a height for each bin) integrated over a box: each bin counts with the
    volume that lies in the box. *)
Definition step_integral (edges : list (list Q)) (h : list nat -> Q) (l : region) : Q :=
  qsum (map (fun idx => h idx * bin_weight length_of (box edges l) idx)%Q (indices (shape_of edges))).

(** What the density is divided by for a norm: the content of the box that is asked for, or
    [total]. *)
Definition asked (u : ufb) (v : list nat -> Q) (total : Q) (nm : unorm) : Q :=
  match nm with
  | UFalse => total
  | UOwn => in_box (own_edges (f_binned u)) (f_norm u) v
  | UBox l => in_box (own_edges (f_binned u)) l v
  end.
(** The height of a bin with content [v]. *)
Definition height (u : ufb) (v : list nat -> Q) (d : Q) : list nat -> Q :=
  fun idx => (v idx / d / volume (own_edges (f_binned u)) idx)%Q.
(** A norm that can be asked for: a box with content. *)
Definition norm_fine (u : ufb) (v : list nat -> Q) (nm : unorm) : Prop :=
  forall l, nm = UBox l \/ nm = UOwn /\ l = f_norm u ->
    box_ok (own_edges (f_binned u)) l /\ ~ (in_box (own_edges (f_binned u)) l v == 0)%Q.

(** The names of the axes: distinct, one per axis, and the same as those of the PDF. *)
Definition names_ok (u : ufb) : Prop :=
  space_ok (own_bins u) /\ NoDup (f_obs u) /\ forall o, In o (f_bobs u) <-> In o (f_obs u).
(** The binned PDF has the contents [v] (see C68), [v / total] without norm. *)
Definition histogram_of (u : ufb) (v : list nat -> Q) (total : Q) : Prop :=
  stands_for (f_binned u) v (/ total) NFalse /\ stands_for (f_binned u) v (/ total) (convert_norm (f_binned u) None).
Definition ext_histogram_of (u : ufb) (v : list nat -> Q) (total : Q) : Prop :=
  ext_honest (f_binned u) v (/ total) NFalse /\ ext_honest (f_binned u) v (/ total) (convert_norm (f_binned u) None).
(** The norm is that of the binned PDF. *)
Definition same_norm (u : ufb) : Prop :=
  Forall2 (fun a b => (fst a == fst b)%Q /\ (snd a == snd b)%Q) (f_norm u) (l_ranges (norm_of (f_binned u))).

(** A function of the events that is [h] in the bins and zero outside. *)
Definition steps (u : ufb) (f : list Q -> outcome) (h : list nat -> Q) : Prop :=
  forall row, length row = length (f_obs u) ->
    (forall idx, event_in (own_bins u) (f_obs u) row idx -> f row = Val (Q2R (h idx))) /\
    (event_outside (own_bins u) (f_obs u) row -> f row = Val 0%R).

(** Samples: contents that are whole numbers, and numbers between zero and one for each row. *)
Definition whole_counts (t : tensor) (c : list nat -> nat) : Prop :=
  forall idx, in_shape idx (t_shape t) -> (t_get t idx == inject_Z (Z.of_nat (c idx)))%Q.
Definition unit_draws (k : nat) (draw : nat -> list Q) : Prop :=
  forall i, length (draw i) = k /\ Forall (fun v => 0 <= v /\ v < 1)%Q (draw i).
(** Number of rows in a bin. *)
Definition rows_in_bin (u : ufb) (rows : list (list Q)) (idx : list nat) : nat :=
  length (filter (fun row => forallb (fun p => in_bin true (fst (snd p)) (snd (snd p)) (value_of (f_obs u) row (fst p)))
                               (combine (f_bobs u) (combine (own_edges (f_binned u)) idx))) rows).
(** Limits that contain all bins. *)
Definition covers (l : region) (edges : list (list Q)) : Prop :=
  Forall2 (fun r e => fst r <= hd 0 e /\ last e 0 <= snd r)%Q l edges.
