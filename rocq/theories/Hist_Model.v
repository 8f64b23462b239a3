(** Binned data: reordering of the axes, filling from events, bin numbers of events,
    conversion back to events, and linear binning on a grid.

    Numbers are rationals. A tensor is its shape and the function giving the entry at a
    list of indices; [indices] lists all indices of a shape in row-major order, the order
    of [tf.reshape(t, (-1,))]. *)
From Verif Require Import Base.
From Coq Require Import Qround.
#[local] Open Scope nat_scope.

Record tensor : Type := Tensor { t_shape : list nat; t_get : list nat -> Q }.

Fixpoint indices (shape : list nat) : list (list nat) :=
  match shape with
  | [] => [[]]
  | n :: r => flat_map (fun i => map (cons i) (indices r)) (seq 0 n)
  end.

(** [znp.reshape(t, (-1,))] *)
Definition flatten (t : tensor) : list Q := map (t_get t) (indices (t_shape t)).

Definition qsum (l : list Q) : Q := fold_right Qplus 0%Q l.

(** A binned space: observables and, in the same order, the edges of their binning
    (core/space.py:1379-1391: the constructor puts the binning in the order of the
    observables). Other parts of a space are modelled in Space_Model.v. *)
Record bspace : Type := BSpace { b_obs : list string; b_edges : list (list Q) }.

(** _data/binneddatav1.py:59-64 [BinnedHolder]. *)
Record holder : Type := Holder { h_space : bspace; h_values : tensor; h_variances : option tensor }.

Definition shape_eqb : list nat -> list nat -> bool :=
  fix go a b := match a, b with
                | [], [] => true
                | x :: a', y :: b' => Nat.eqb x y && go a' b'
                | _, _ => false
                end.

(** _data/binneddatav1.py:66-88 [_check_init_values], with the constructor 60-64. The rank is
    checked first (ShapeIncompatibleError), a difference in shape is tf's
    InvalidArgumentError. *)
Definition make_holder (s : bspace) (v : tensor) (var : option tensor) : result holder :=
  let vshape := t_shape v in
  let* _ :=
    match var with
    | None => Ok tt
    | Some w =>
        if negb (Nat.eqb (length vshape) (length (t_shape w))) then Err ShapeIncompatibleError
        else if negb (shape_eqb (t_shape w) vshape) then Err InvalidArgumentError
        else Ok tt
    end in
  if negb (Nat.eqb (length (b_edges s)) (length vshape)) then Err ShapeIncompatibleError
  else if negb (shape_eqb (map (fun e => length e - 1) (b_edges s)) vshape)
  then Err InvalidArgumentError
  else Ok (Holder s v var).

(** ** Reordering *)

(** [numpy.moveaxis]: the axes that are not moved, in order, and then, by increasing
    destination, each source inserted at its destination. *)
Fixpoint insert_at {A} (k : nat) (a : A) (l : list A) : list A :=
  match k, l with
  | 0, _ => a :: l
  | S k', x :: r => x :: insert_at k' a r
  | S _, [] => [a]
  end.

(** [sorted] on pairs with distinct first components *)
Fixpoint insert_sorted (p : nat * nat) (l : list (nat * nat)) : list (nat * nat) :=
  match l with
  | [] => [p]
  | q :: r => if Nat.leb (fst p) (fst q) then p :: l else q :: insert_sorted p r
  end.
Definition sort_pairs (l : list (nat * nat)) : list (nat * nat) := fold_right insert_sorted [] l.

Definition moveaxis_order (rank : nat) (source destination : list nat) : list nat :=
  fold_left (fun order p => insert_at (fst p) (snd p) order)
            (sort_pairs (combine destination source))
            (filter (fun n => negb (mem Nat.eqb n source)) (seq 0 rank)).

(** [tf.transpose(t, order)]: axis [k] of the result is axis [order[k]] of the argument. *)
Definition transpose (t : tensor) (order : list nat) : tensor :=
  Tensor (map (fun a => nth a (t_shape t) 0) order)
         (fun idx => t_get t (map (fun a => match index_of Nat.eqb a order with
                                            | Some k => nth k idx 0
                                            | None => 0
                                            end) (seq 0 (length order)))).

Definition moveaxis (t : tensor) (source destination : list nat) : tensor :=
  transpose t (moveaxis_order (length (t_shape t)) source destination).

(** _data/binneddatav1.py:140-146 [move_axis_obs]. *)
Definition move_axis_obs (original target : list string) (v : tensor) (var : option tensor)
  : result (tensor * option tensor) :=
  let* new_axes := opt_result ValueError
                     (all_some (map (fun o => index_of String.eqb o original) target)) in
  let newobs := seq 0 (length target) in
  Ok (moveaxis v newobs new_axes,
      match var with None => None | Some w => Some (moveaxis w newobs new_axes) end).

(** core/space.py:1925-1938 [Space.with_obs] for a binned space (both flags at their
    default, true): see Space_Model.v for the limits. *)
Definition bspace_with_obs (s : bspace) (obs : list string) : result bspace :=
  if negb (intersectsb String.eqb obs (b_obs s)) then Err ObsIncompatibleError
  else
    let new := filter (fun o => mem String.eqb o (b_obs s)) obs in
    let* es := opt_result KeyError
                 (all_some (map (fun o => lookup String.eqb o (combine (b_obs s) (b_edges s))) new)) in
    Ok (BSpace new es).

(** _data/binneddatav1.py:108-116 [BinnedHolder.with_obs]. *)
Definition holder_with_obs (h : holder) (obs : list string) : result holder :=
  let* s := bspace_with_obs (h_space h) obs in
  let* p := move_axis_obs (b_obs (h_space h)) (b_obs s) (h_values h) (h_variances h) in
  make_holder s (fst p) (snd p).

(** _data/binneddatav1.py:118-138 [with_variances] (the numeric check is the one of the
    constructor). *)
Definition holder_with_variances (h : holder) (var : option tensor) : result holder :=
  make_holder (h_space h) (h_values h) var.

(** _data/binneddatav1.py:405-412 [n_events]/[samplesize]: the sum of the values. *)
Definition samplesize (h : holder) : Q := qsum (flatten (h_values h)).

(** ** Filling *)

(** Number of leading edges that are not above [x] ([std::upper_bound] on sorted edges). *)
Fixpoint upper_bound (edges : list Q) (x : Q) : nat :=
  match edges with
  | [] => 0
  | e :: r => if Qle_bool e x then S (upper_bound r x) else 0
  end.

(** The index of boost-histogram's [Variable] axis without flow bins, [None] outside.
    Whether the upper edge of the last bin belongs to it depends on the version of the
    library: the theorems hold for both values of [closed]. *)
Definition axis_index (closed : bool) (edges : list Q) (x : Q) : option nat :=
  let n := length edges - 1 in
  if closed && Nat.ltb 0 n && Qeq_bool x (last edges 0%Q) then Some (n - 1)
  else match upper_bound edges x with
       | 0 => None
       | S k => if Nat.ltb k n then Some k else None
       end.

Definition row_index (closed : bool) (edges : list (list Q)) (row : list Q) : option (list nat) :=
  all_some (map (fun p => axis_index closed (fst p) (snd p)) (combine edges row)).

(** One call of the fill of a [Weight] storage: the value grows by the weight, the variance
    by its square. *)
Definition add_at (idx : list nat) (w : Q) (get : list nat -> Q) : list nat -> Q :=
  fun i => if shape_eqb i idx then (get i + w)%Q else get i.

Definition fill1 (closed : bool) (edges : list (list Q))
  (st : (list nat -> Q) * (list nat -> Q)) (ev : list Q * Q) :=
  match row_index closed edges (fst ev) with
  | None => st
  | Some idx => (add_at idx (snd ev) (fst st), add_at idx (snd ev * snd ev)%Q (snd st))
  end.

(** core/binning.py:31-48 [unbinned_to_hist_eager]; an event is its row and its weight, and
    without weights every weight is one. A number of columns that differs from the number
    of axes is a ValueError of [Hist.fill]. *)
Definition unbinned_to_hist (closed : bool) (ncols : nat) (rows : list (list Q))
  (edges : list (list Q)) (weights : option (list Q)) : result (tensor * tensor) :=
  if negb (Nat.eqb ncols (length edges)) then Err ValueError
  else
    let ws := match weights with Some w => w | None => map (fun _ => 1%Q) rows end in
    let st := fold_left (fill1 closed edges) (combine rows ws)
                        ((fun _ => 0%Q), (fun _ => 0%Q)) in
    let shape := map (fun e => length e - 1) edges in
    Ok (Tensor shape (fst st), Tensor shape (snd st)).

(** Unbinned data as far as it matters here (Data_Model.v has the rest). *)
Record udata : Type := UData { u_obs : list string; u_rows : list (list Q);
                               u_weights : option (list Q) }.

(** The [space] argument: a space, or a binning (a list of named axes). *)
Inductive bin_arg : Type := ASpace (s : bspace) | ABinning (axes : list (string * list Q)).

(** core/space.py:1379-1391 through [Space.with_binning]: the names have to be the
    observables, and the axes are put in the order of the observables. *)
Definition with_binning (obs : list string) (axes : list (string * list Q)) : result bspace :=
  if negb (set_eqb String.eqb (map fst axes) obs) then Err ValueError
  else
    let* es := opt_result ValueError
                 (all_some (map (fun o => lookup String.eqb o axes) obs)) in
    Ok (BSpace obs es).

(** core/binning.py:51-87 [unbinned_to_binned]: the columns of the data in the order of the
    data, the edges in the order of the space. Variances are those of the fill
    ([from_tensor] at _data/binneddatav1.py:205-239 keeps a given tensor). *)
Definition unbinned_to_binned (closed : bool) (d : udata) (a : bin_arg) : result holder :=
  let* s := match a with
            | ASpace s => Ok s
            | ABinning axes => with_binning (u_obs d) axes
            end in
  let* vv := unbinned_to_hist closed (length (u_obs d)) (u_rows d) (b_edges s) (u_weights d) in
  make_holder s (fst vv) (Some (snd vv)).

(** [tfp.stats.find_bins]: the last bin includes its upper edge, outside is NaN ([None]). *)
Definition find_bins (edges : list Q) (x : Q) : option nat := axis_index true edges x.

(** core/binning.py:90-115 [unbinned_to_binindex], row by row, [data.value(ob)] for the
    observables of the space. With [flow] every number is one higher and outside is zero;
    without it outside is NaN. A missing observable raises. *)
Definition column_of (obs : list string) (row : list Q) (o : string) : result Q :=
  match index_of String.eqb o obs with
  | Some k => opt_result IndexError (nth_error row k)
  | None => Err ObsIncompatibleError
  end.

Definition binindex_row (s : bspace) (obs : list string) (row : list Q) : result (list (option nat)) :=
  mapM (fun p => let* x := column_of obs row (fst p) in Ok (find_bins (snd p) x))
       (combine (b_obs s) (b_edges s)).

Definition unbinned_to_binindex (d : udata) (s : bspace) : result (list (list (option nat))) :=
  mapM (binindex_row s (u_obs d)) (u_rows d).

Definition flow_index (i : option nat) : nat := match i with Some k => S k | None => 0 end.
Definition unbinned_to_binindex_flow (d : udata) (s : bspace) : result (list (list nat)) :=
  let* l := unbinned_to_binindex d s in Ok (map (map flow_index) l).

(** ** Back to events *)

(** Centers of the bins of an axis. *)
Fixpoint centers (edges : list Q) : list Q :=
  match edges with
  | a :: (b :: _) as r => ((a + b) / 2)%Q :: centers r
  | _ => []
  end.

(** _data/binneddatav1.py:432-445 [to_unbinned]: [meshgrid] with "ij" indexing, flattened,
    is the list of the centers of all bins in row-major order. [inside] is the cut that
    [Data.from_tensor] applies with the limits of the space. *)
Definition to_unbinned (inside : list Q -> bool) (h : holder) : udata :=
  let cs := map centers (b_edges (h_space h)) in
  let rows := map (fun idx => map (fun p => nth (fst p) (snd p) 0%Q) (combine idx cs))
                  (indices (map (@length Q) cs)) in
  let kept := filter (fun p => inside (fst p)) (combine rows (flatten (h_values h))) in
  UData (b_obs (h_space h)) (map fst kept) (Some (map snd kept)).

(** ** Binning on a grid: util/binning.py *)

Definition qmin_list (l : list Q) : Q :=
  match l with [] => 0%Q | a :: r => fold_left (fun m x => if Qle_bool m x then m else x) r a end.
Definition qmax_list (l : list Q) : Q :=
  match l with [] => 0%Q | a :: r => fold_left (fun m x => if Qle_bool x m then m else x) r a end.

(** [tf.math.bincount(arr, weights, minlength=size, maxlength=size)]: numbers from [size] on
    are ignored, a negative number raises. *)
Definition bincount (arr : list Z) (weights : list Q) (size : nat) : result (list Q) :=
  if existsb (fun z => (z <? 0)%Z) arr then Err InvalidArgumentError
  else Ok (map (fun k => qsum (map snd (filter (fun p => Z.eqb (fst p) (Z.of_nat k))
                                               (combine arr weights))))
               (seq 0 size)).

(** [tf.roll(l, shift=1)]: the last entry comes first. *)
Definition roll1 (l : list Q) : list Q :=
  match l with [] => [] | _ => last l 0%Q :: removelast l end.

(** util/binning.py:56-104 [_bin_1d_weighted]; [simple] is [method == "simple"]. The
    [tf.concat] of a single tensor at 82-90 leaves it as it is. *)
Definition bin_1d_weighted (simple : bool) (data grid : list Q) (weights : option (list Q))
  : result (list Q) :=
  let weights0 := match weights with Some w => w | None => map (fun _ => 1%Q) data end in
  let total := qsum weights0 in
  let ws := map (fun w => w / total)%Q weights0 in
  let grid_size := length grid in
  let grid_min := qmin_list grid in
  let grid_max := qmax_list grid in
  let dx := ((grid_max - grid_min) / inject_Z (Z.of_nat (grid_size - 1)))%Q in
  let transformed := map (fun x => (x - grid_min) / dx)%Q data in
  let integral := map Qfloor transformed in
  let fractional0 := map (fun t => t - inject_Z (Qfloor t))%Q transformed in
  let fractional := if simple
                    then map (fun f => if Qlt_bool (1 # 2) f then f else 0%Q) fractional0
                    else fractional0 in
  let frac_weights := map (fun p => fst p * snd p)%Q (combine fractional ws) in
  let neg_frac_weights := map (fun p => fst p - snd p)%Q (combine ws frac_weights) in
  let* lcount := bincount integral frac_weights grid_size in
  let* rcount := bincount integral neg_frac_weights grid_size in
  Ok (map (fun p => fst p + snd p)%Q (combine (roll1 lcount) rcount)).
