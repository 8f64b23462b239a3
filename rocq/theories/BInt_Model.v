(** Integration of histograms over limits that need not match the edges
    (core/binnedpdf.py), and the integral of a [HistogramPDF].

    Numbers are rationals, tensors those of Hist_Model.v. The edges of an axis are a plain
    list: the code reshapes them back and forth between this and a broadcastable shape. *)
From Verif Require Import Base Hist_Model.
#[local] Open Scope nat_scope.

(** [znp.maximum], [znp.minimum] *)
Definition maximum (a b : Q) : Q := if Qle_bool a b then b else a.
Definition minimum (a b : Q) : Q := if Qle_bool a b then a else b.

(** [tfp.stats.find_bins(x, edges, extend_lower_interval=True, extend_upper_interval=True)]:
    the number of edges not above [x] minus one, clipped to the numbers of bins. *)
Definition find_bins (x : Q) (edges : list Q) : nat :=
  Nat.min (upper_bound edges x - 1) (length edges - 2).

(** [tf.slice] on a vector *)
Definition slice (l : list Q) (from size : nat) : list Q := firstn size (skipn from l).

(** [tf.tensor_scatter_nd_update] of one element *)
Fixpoint update_nth (k : nat) (x : Q) (l : list Q) : list Q :=
  match l, k with
  | [], _ => []
  | _ :: r, 0 => x :: r
  | y :: r, S k' => y :: update_nth k' x r
  end.

(** What is kept of one axis: the edges with the limits in place of the outermost, the bins
    (the upper one excluded), and the edges unchanged. *)
Record cut : Type := Cut { c_scaled : list Q; c_lower : nat; c_upper : nat; c_unscaled : list Q }.

(** core/binnedpdf.py:1505-1526: an axis that is integrated. If the upper bin is below the
    lower one (limits in the wrong order) the slice or the update fail. *)
Definition cut_axis (edge : list Q) (lim : Q * Q) : result cut :=
  let lower_i := maximum (fst lim) (hd 0%Q edge) in
  let upper_i := minimum (snd lim) (last edge 0%Q) in
  let lower_bin := find_bins lower_i edge in
  let upper_bin := find_bins upper_i edge + 1 in
  if Nat.ltb upper_bin lower_bin then Err InvalidArgumentError
  else
    let size := upper_bin - lower_bin in
    let new_edge := slice edge lower_bin (size + 1) in
    Ok (Cut (update_nth size upper_i (update_nth 0 lower_i new_edge)) lower_bin upper_bin new_edge).

(** core/binnedpdf.py:1527-1532: an axis that is not. *)
Definition keep_axis (edge : list Q) : cut := Cut edge 0 (length edge - 1) edge.

(** core/binnedpdf.py:1449-1564 [cut_edges_and_bins] with [unscaled=True] and a list of axes.
    [limits] are [lower_all] and [upper_all] zipped; they are taken one by one for the axes
    that are integrated, in the order of the edges. *)
Fixpoint cut_edges_and_bins (i : nat) (edges : list (list Q)) (axis : list nat)
  (limits : list (Q * Q)) : result (list cut) :=
  match edges with
  | [] => Ok []
  | edge :: rest =>
      if mem Nat.eqb i axis then
        match limits with
        | [] => Err IndexError
        | lim :: lims =>
            let* c := cut_axis edge lim in
            let* cs := cut_edges_and_bins (S i) rest axis lims in
            Ok (c :: cs)
        end
      else
        let* cs := cut_edges_and_bins (S i) rest axis limits in
        Ok (keep_axis edge :: cs)
  end.

(** core/binnedpdf.py:1407-1437: the widths of an axis, and the product of the widths at an
    index (the tensors are broadcast). *)
Fixpoint widths (edges : list Q) : list Q :=
  match edges with
  | a :: ((b :: _) as r) => (b - a)%Q :: widths r
  | _ => []
  end.
Fixpoint area (ws : list (list Q)) (idx : list nat) : Q :=
  match ws, idx with
  | w :: ws', i :: idx' => (nth i w 0 * area ws' idx')%Q
  | _, _ => 1%Q
  end.

(** [tf.slice] of the values: the index of the result plus the first index. *)
Fixpoint add_index (a b : list nat) : list nat :=
  match a, b with
  | x :: a', y :: b' => x + y :: add_index a' b'
  | _, _ => []
  end.

(** [tf.reduce_sum(t, axis)]. [merge n axis rest summed] is the index whose entries along
    [axis] are [summed] and whose other entries are [rest]. *)
Fixpoint merge (i : nat) (rank : nat) (axis : list nat) (rest summed : list nat) : list nat :=
  match rank with
  | 0 => []
  | S rank' =>
      if mem Nat.eqb i axis then
        match summed with
        | s :: summed' => s :: merge (S i) rank' axis rest summed'
        | [] => []
        end
      else
        match rest with
        | r :: rest' => r :: merge (S i) rank' axis rest' summed
        | [] => []
        end
  end.
Fixpoint pick (b : bool) (i : nat) (axis : list nat) (l : list nat) : list nat :=
  match l with
  | [] => []
  | x :: r => if Bool.eqb (mem Nat.eqb i axis) b then x :: pick b (S i) axis r else pick b (S i) axis r
  end.
Definition reduce_sum (t : tensor) (axis : list nat) : tensor :=
  Tensor (pick false 0 axis (t_shape t))
         (fun rest => qsum (map (fun summed => t_get t (merge 0 (length (t_shape t)) axis rest summed))
                                (indices (pick true 0 axis (t_shape t))))).

(** tf's checks: the slice lies within the tensor; the axes exist and are distinct. *)
Fixpoint slice_fits (shape lower size : list nat) : bool :=
  match shape, lower, size with
  | [], [], [] => true
  | n :: r, l :: lr, s :: sr => Nat.leb (l + s) n && slice_fits r lr sr
  | _, _, _ => false
  end.
Fixpoint axes_fit (rank : nat) (axis : list nat) : bool :=
  match axis with
  | [] => true
  | a :: r => Nat.ltb a rank && negb (mem Nat.eqb a r) && axes_fit rank r
  end.

(** core/binnedpdf.py:1344-1446 [binned_rect_integration]; [limits] is a space with limits
    (the check of its type, 1371-1373, is not modelled). Negative axes are not modelled. *)
Definition binned_rect_integration (limits : list (Q * Q)) (edges : list (list Q))
  (counts density : option tensor) (axis : option (list nat)) : result tensor :=
  let* p :=
    match counts, density with
    | Some _, Some _ => Err ValueError
    | Some v, None => Ok (false, v)
    | None, Some v => Ok (true, v)
    | None, None => Err ValueError
    end in
  let is_density := fst p in
  let values := snd p in
  let ndims := length (t_shape values) in
  let* axis :=
    match axis with
    | Some a => if Nat.ltb ndims (length a) then Err ValueError else Ok a
    | None => Ok (seq 0 ndims)
    end in
  let* cuts := cut_edges_and_bins 0 edges axis limits in
  let lower_bins := map c_lower cuts in
  let sizes := map (fun c => c_upper c - c_lower c) cuts in
  if negb (slice_fits (t_shape values) lower_bins sizes) then Err InvalidArgumentError
  else if negb (axes_fit ndims axis) then Err InvalidArgumentError
  else
    let binwidths := map (fun c => widths (c_scaled c)) cuts in
    let binwidths_unscaled := map (fun c => widths (c_unscaled c)) cuts in
    let factor idx := if is_density then area binwidths idx
                      else (area binwidths idx / area binwidths_unscaled idx)%Q in
    Ok (reduce_sum (Tensor sizes (fun idx => (t_get values (add_index idx lower_bins) * factor idx)%Q)) axis).

(** ** The integral of a histogram as a PDF *)

(** models/histogram.py:95-99 [_rel_counts], the only thing the integral needs; [supports
    norm="space"]: the normalisation is over the whole space. *)
Definition rel_counts (values : tensor) : tensor :=
  let total := qsum (flatten values) in
  Tensor (t_shape values) (fun idx => (t_get values idx / total)%Q).

(** A space given as limits: its ranges and, if it is binned, its edges. *)
Record lspace : Type := LSpace { l_ranges : list (Q * Q); l_binning : option (list (list Q)) }.

(** core/binnedpdf.py:704-755 [integrate] through [_check_convert_limits] (276-283: the own
    binning is added to limits without one) and [_fallback_integrate]; no norm is given. The
    space of the PDF has one axis per edges, and its limits are in this order. *)
Definition hist_integrate (edges : list (list Q)) (values : tensor) (limits : lspace) : result tensor :=
  let binning := match l_binning limits with Some e => e | None => edges end in
  binned_rect_integration (l_ranges limits) binning (Some (rel_counts values)) None None.
