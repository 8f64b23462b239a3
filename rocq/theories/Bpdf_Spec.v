(** What the methods of a binned PDF have to say to each other: one histogram of relative
    contents, and the others follow from it, the bin volumes and the yield. *)
From Verif Require Import Base Hist_Model Hist_Spec BInt_Model BInt_Spec Bpdf_Model.
#[local] Open Scope nat_scope.

(** Number of bins per axis, volume of a bin. *)
Definition shape_of (edges : list (list Q)) : list nat := map (fun e => length e - 1) edges.
Definition volume (edges : list (list Q)) (idx : list nat) : Q :=
  product (map (fun p => width (fst p) (snd p)) (combine edges idx)).

(** The call returns a histogram with the bins of [edges], with the content [f] in each bin. *)
Definition shows (edges : list (list Q)) (r : result tensor) (f : list nat -> Q) : Prop :=
  exists t, r = Ok t /\ t_shape t = shape_of edges /\
    forall idx, in_shape idx (shape_of edges) -> (t_get t idx == f idx)%Q.
Definition gives (r : result Q) (q : Q) : Prop := exists x, r = Ok x /\ (x == q)%Q.

(** Content of a box: each bin counts with the covered fraction. *)
Definition box (edges : list (list Q)) (ranges : list (Q * Q)) : list spec_axis :=
  map (fun p => (fst p, Some (snd p))) (combine edges ranges).
Definition in_box (edges : list (list Q)) (ranges : list (Q * Q)) (f : list nat -> Q) : Q :=
  qsum (map (fun idx => f idx * bin_weight fraction_of (box edges ranges) idx)%Q (indices (shape_of edges))).
Definition in_all (edges : list (list Q)) (f : list nat -> Q) : Q := qsum (map f (indices (shape_of edges))).
(** A box that meets the bins. *)
Definition box_ok (edges : list (list Q)) (ranges : list (Q * Q)) : Prop :=
  Forall2 (fun e r => edges_ok e /\ meets e r) edges ranges.
(** The box of all bins. *)
Definition whole (edges : list (list Q)) : list (Q * Q) := map (fun e => (hd 0%Q e, last e 0%Q)) edges.

(** The views: relative contents [r], densities [r / volume], and with a yield [y] contents
    [y * r], densities [y * r / volume]. *)
Definition plain_views (b : bpdf) (n : nat) (norm : option normarg) (r : list nat -> Q) : Prop :=
  let e := own_edges b in
  shows e (rel_counts_of b n norm) r /\
  shows e (pdf b n norm) (fun i => r i / volume e i)%Q.
Definition counts_view (b : bpdf) (n : nat) (norm : option normarg) (r : list nat -> Q) : Prop :=
  forall y, p_yield b = Some y -> shows (own_edges b) (counts b n norm) (fun i => y * r i)%Q.
Definition ext_view (b : bpdf) (n : nat) (norm : option normarg) (r : list nat -> Q) : Prop :=
  let e := own_edges b in
  forall y, p_yield b = Some y -> shows e (ext_pdf b n norm) (fun i => y * r i / volume e i)%Q.
(** Integrals over any box. *)
Definition integral_views (b : bpdf) (n : nat) (norm : option normarg) (r : list nat -> Q) : Prop :=
  let e := own_edges b in
  forall ranges, box_ok e ranges ->
    gives (integrate b n (Some (LSpace ranges None)) norm) (in_box e ranges r) /\
    forall y, p_yield b = Some y -> gives (ext_integrate b n (Some (LSpace ranges None)) norm) (y * in_box e ranges r)%Q.
Definition views (b : bpdf) (n : nat) (norm : option normarg) (r : list nat -> Q) : Prop :=
  plain_views b n norm r /\ counts_view b n norm r /\ ext_view b n norm r /\ integral_views b n norm r.

(** The space of the PDF: a binning, and the limits from its first to its last edges. *)
Definition pdf_space_ok (b : bpdf) : Prop :=
  Forall edges_ok (own_edges b) /\ p_space b = LSpace (whole (own_edges b)) (Some (own_edges b)).
(** What a norm asks for: False, or a box with content one. Norms that carry a binning carry
    that of the PDF (others: see C41_binned_limits_refuted). *)
Definition norm_box (b : bpdf) (norm : option normarg) (ranges : list (Q * Q)) : Prop :=
  exists s, l_ranges s = ranges /\ (l_binning s = None \/ l_binning s = Some (own_edges b)) /\
    (norm = Some (NSpace s) \/ norm = None /\ s = norm_of b).
Definition normalised (b : bpdf) (norm : option normarg) (r : list nat -> Q) : Prop :=
  forall ranges, norm_box b norm ranges -> (in_box (own_edges b) ranges r == 1)%Q.

(** ** Classes of users

    The contents [v] that a class stands for. [asked]: contents for the norm asked for, [raw]:
    contents without norm. A method may be absent (raise SpecificFunctionNotImplemented, maybe
    only once it is asked without norm), may support the norm, or may only work without norm. *)
Definition absent (f : normarg -> result tensor) (nm : normarg) : Prop :=
  f nm = Err SpecificFunctionNotImplemented \/
  f nm = Err NormNotImplemented /\ f NFalse = Err SpecificFunctionNotImplemented.
Definition present (f : normarg -> result tensor) (nm : normarg) : Prop := ~ absent f nm.
Inductive honest (edges : list (list Q)) (f : normarg -> result tensor) (nm : normarg)
  (asked raw : list nat -> Q) : Prop :=
| H_absent : absent f nm -> honest edges f nm asked raw
| H_direct : shows edges (f nm) asked -> honest edges f nm asked raw
| H_without : f nm = Err NormNotImplemented -> shows edges (f NFalse) raw -> honest edges f nm asked raw.

(** The factor of the contents [v] for a norm: one over the content of the box, and some number
    [c] without norm. *)
Definition factor (b : bpdf) (v : list nat -> Q) (c : Q) (nm : normarg) : Q :=
  match nm with NFalse => c | NSpace s => / in_box (own_edges b) (l_ranges s) v end.
Definition admissible (b : bpdf) (v : list nat -> Q) (nm : normarg) : Prop :=
  match nm with
  | NFalse => True
  | NSpace s => l_binning s = Some (own_edges b) /\ box_ok (own_edges b) (l_ranges s) /\
                ~ (in_box (own_edges b) (l_ranges s) v == 0)%Q
  end.
Definition rel_honest (b : bpdf) (v : list nat -> Q) (c : Q) (nm : normarg) : Prop :=
  honest (own_edges b) (deco b (p_rel_counts b)) nm (fun i => factor b v c nm * v i)%Q (fun i => c * v i)%Q.
Definition counts_honest (b : bpdf) (v : list nat -> Q) (c : Q) (nm : normarg) : Prop :=
  forall y, p_yield b = Some y ->
  honest (own_edges b) (deco b (p_counts b)) nm (fun i => y * (factor b v c nm * v i))%Q (fun i => y * (c * v i))%Q.
(** Something has to be implemented: relative contents, or contents and a yield. *)
Definition basis (b : bpdf) (nm : normarg) : Prop :=
  present (deco b (p_rel_counts b)) nm \/
  (exists y, p_yield b = Some y /\ ~ (y == 0)%Q) /\ present (deco b (p_counts b)) nm.
(** The density may be left to the base class. *)
Definition pdf_honest (b : bpdf) (v : list nat -> Q) (c : Q) (nm : normarg) : Prop :=
  forall h, p_pdf b = Some h ->
  honest (own_edges b) (deco b (Some h)) nm (fun i => factor b v c nm * v i / volume (own_edges b) i)%Q
    (fun i => c * v i / volume (own_edges b) i)%Q /\
  (present (deco b (Some h)) nm \/ present (deco b (p_rel_counts b)) nm).
(** The extended density: without norm it must not contain the yield (which is not zero then). *)
Definition ext_honest (b : bpdf) (v : list nat -> Q) (c : Q) (nm : normarg) : Prop :=
  forall y, p_yield b = Some y ->
  (present (deco b (p_ext_pdf b)) nm -> deco b (p_ext_pdf b) nm = Err NormNotImplemented -> ~ (y == 0)%Q) /\
  honest (own_edges b) (deco b (p_ext_pdf b)) nm (fun i => y * (factor b v c nm * v i) / volume (own_edges b) i)%Q
    (fun i => c * v i / volume (own_edges b) i)%Q.
(** An own method for the normalisation, if any, gives the content of the box. *)
Definition norm_honest (b : bpdf) (v : list nat -> Q) (c : Q) : Prop :=
  p_normalization b = None \/
  exists f, p_normalization b = Some f /\
    forall s, admissible b v (NSpace s) ->
      f s = Err SpecificFunctionNotImplemented \/ gives (f s) (c * in_box (own_edges b) (l_ranges s) v)%Q.
Record stands_for (b : bpdf) (v : list nat -> Q) (c : Q) (nm : normarg) : Prop := Stands {
  sf_edges : Forall edges_ok (own_edges b);
  sf_c : ~ (c == 0)%Q;
  sf_norm : admissible b v nm;
  sf_rel : rel_honest b v c nm /\ rel_honest b v c NFalse;
  sf_counts : counts_honest b v c nm /\
    (present (deco b (p_rel_counts b)) NFalse \/ counts_honest b v c NFalse);
  sf_basis : basis b nm /\ basis b NFalse;
  sf_pdf : pdf_honest b v c nm;
  sf_normalization : norm_honest b v c;
  sf_integrals : p_integrate b = None /\ p_ext_integrate b = None /\ p_ext_normalization b = None }.

(** A norm that can be asked for: without binning or with that of the PDF, a box with content. *)
Definition space_for (b : bpdf) (v : list nat -> Q) (s : lspace) : Prop :=
  (l_binning s = None \/ l_binning s = Some (own_edges b)) /\ box_ok (own_edges b) (l_ranges s) /\
  ~ (in_box (own_edges b) (l_ranges s) v == 0)%Q.
Definition norm_for (b : bpdf) (v : list nat -> Q) (norm : option normarg) : Prop :=
  match norm with
  | None => space_for b v (norm_of b)
  | Some NFalse => True
  | Some (NSpace s) => space_for b v s
  end.

(** The share of a bin in the content of the box that the norm asks for; without norm, in
    [total]. *)
Definition share (b : bpdf) (v : list nat -> Q) (total : Q) (norm : option normarg) : list nat -> Q :=
  fun i => (v i / match norm with
                  | Some NFalse => total
                  | Some (NSpace s) => in_box (own_edges b) (l_ranges s) v
                  | None => in_box (own_edges b) (l_ranges (norm_of b)) v
                  end)%Q.
(** Norms that are the whole range (or none). *)
Definition asks_for_all (b : bpdf) (norm : option normarg) : Prop :=
  match norm with
  | Some NFalse => True
  | Some (NSpace s) => l_ranges s = whole (own_edges b) /\ (l_binning s = None \/ l_binning s = Some (own_edges b))
  | None => p_norm b = None
  end.
(** A yield that is given, or none. *)
Definition yield_given (extended : ext_arg) : Prop :=
  match extended with ExtYield _ | ExtFalse => True | _ => False end.
(** What is read out for an event: the content of its bin, zero outside. *)
Definition event_in (own : bspace) (obs : list string) (row : list Q) (idx : list nat) : Prop :=
  length idx = length (b_obs own) /\
  forall k o e j, nth_error (b_obs own) k = Some o -> nth_error (b_edges own) k = Some e ->
    nth_error idx k = Some j -> in_bin true e j (value_of obs row o) = true.
Definition event_outside (own : bspace) (obs : list string) (row : list Q) : Prop :=
  exists o e, edges_of own o e /\ in_range true e (value_of obs row o) = false.
