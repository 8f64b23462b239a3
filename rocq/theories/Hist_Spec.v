(** What binned data means: contents by the names of the observables, events enclosed by
    the edges of a bin, triangular weights on a grid. *)
From Verif Require Import Base Hist_Model.
From Coq Require Import Sorted Qabs.
#[local] Open Scope nat_scope.

(** Bins are named by a bin number per observable. [content os t f]: the entry of [t], whose
    axes are the observables [os], in the bin [f]. *)
Definition content (os : list string) (t : tensor) (f : string -> nat) : Q := t_get t (map f os).

(** Number of bins of an observable of a space. *)
Definition nbins (s : bspace) (o : string) (n : nat) : Prop :=
  exists k e, nth_error (b_obs s) k = Some o /\ nth_error (b_edges s) k = Some e /\ n = length e - 1.
Definition edges_of (s : bspace) (o : string) (e : list Q) : Prop :=
  exists k, nth_error (b_obs s) k = Some o /\ nth_error (b_edges s) k = Some e.

(** A bin of the space. *)
Definition bin_of (s : bspace) (f : string -> nat) : Prop :=
  forall o n, nbins s o n -> f o < n.

(** Well-formed binned data: distinct observables, one list of edges each, shapes that fit. *)
Definition space_ok (s : bspace) : Prop :=
  NoDup (b_obs s) /\ length (b_edges s) = length (b_obs s).
Definition holder_ok (h : holder) : Prop :=
  space_ok (h_space h) /\
  t_shape (h_values h) = map (fun e => length e - 1) (b_edges (h_space h)) /\
  (forall v, h_variances h = Some v -> t_shape v = t_shape (h_values h)).

(** Same entries: same shape and same value at every index list of that shape. *)
Definition in_shape (idx shape : list nat) : Prop := Forall2 lt idx shape.
Definition same_tensor (a b : tensor) : Prop :=
  t_shape a = t_shape b /\ forall idx, in_shape idx (t_shape a) -> t_get a idx = t_get b idx.
Definition same_var (a b : option tensor) : Prop :=
  match a, b with None, None => True | Some x, Some y => same_tensor x y | _, _ => False end.

(** A reordering that only trades places: whoever sits where [o] was, [o] sits where they
    were. *)
Definition trades_places (own new : list string) : Prop :=
  forall i j o o', nth_error own i = Some o -> nth_error new j = Some o ->
                   nth_error own j = Some o' -> nth_error new i = Some o'.

(** The own observables in the requested order. *)
Definition order_in (own req : list string) : list string :=
  filter (fun o => mem String.eqb o own) req.
(** The numbers of bins allow the reordering: if the new [i]-th axis was the [j]-th and the new
    [j]-th the [k]-th, then the axes [i] and [k] have the same number of bins. *)
Definition fits (own new : list string) (shape : list nat) : Prop :=
  forall i j k, i < length own -> j < length own ->
    nth_error new i = nth_error own j -> nth_error new j = nth_error own k ->
    nth_error shape i = nth_error shape k.
Definition var_content (os : list string) (v : option tensor) (f : string -> nat) : option Q :=
  match v with None => None | Some w => Some (content os w f) end.

(** ** Events *)
Definition increasing (e : list Q) : Prop := StronglySorted Qlt e.

(** [x] is enclosed by the edges number [k] and [k+1]; with [closed] the upper edge of the
    last bin belongs to it. *)
Definition in_bin (closed : bool) (edges : list Q) (k : nat) (x : Q) : bool :=
  match nth_error edges k, nth_error edges (S k) with
  | Some lo, Some hi =>
      Qle_bool lo x && (Qlt_bool x hi || (closed && Nat.eqb (S (S k)) (length edges) && Qeq_bool x hi))
  | _, _ => false
  end.
(** [x] is in the range of the binning. *)
Definition in_range (closed : bool) (edges : list Q) (x : Q) : bool :=
  Nat.ltb 1 (length edges) && Qle_bool (hd 0%Q edges) x
  && (Qlt_bool x (last edges 0%Q) || (closed && Qeq_bool x (last edges 0%Q))).

(** The value of an observable in a row of data. *)
Definition value_of (obs : list string) (row : list Q) (o : string) : Q :=
  match index_of String.eqb o obs with Some k => nth k row 0%Q | None => 0%Q end.

(** The row is in the bin [f] of the space, by the names of the observables. *)
Definition row_in_bin (closed : bool) (s : bspace) (obs : list string) (row : list Q)
  (f : string -> nat) : bool :=
  forallb (fun p => in_bin closed (snd p) (f (fst p)) (value_of obs row (fst p)))
          (combine (b_obs s) (b_edges s)).
Definition row_in_range (closed : bool) (s : bspace) (obs : list string) (row : list Q) : bool :=
  forallb (fun p => in_range closed (snd p) (value_of obs row (fst p)))
          (combine (b_obs s) (b_edges s)).

(** The events of a data set with their weights (one without weights). *)
Definition events (d : udata) : list (list Q * Q) :=
  combine (u_rows d) (match u_weights d with Some w => w | None => map (fun _ => 1%Q) (u_rows d) end).
Definition udata_ok (d : udata) : Prop :=
  NoDup (u_obs d) /\ Forall (fun r => length r = length (u_obs d)) (u_rows d) /\
  (forall w, u_weights d = Some w -> length w = length (u_rows d)).
(** Sum of [g] of the weight over the events satisfying [p]. *)
Definition weight_where (p : list Q -> bool) (g : Q -> Q) (d : udata) : Q :=
  qsum (map (fun ev => if p (fst ev) then g (snd ev) else 0%Q) (events d)).

(** The point in the middle of a bin. *)
Definition center_row (s : bspace) (idx : list nat) : list Q :=
  map (fun p => nth (fst p) (snd p) 0%Q) (combine idx (map centers (b_edges s))).

(** ** Grid *)
Definition grid_point (g0 dx : Q) (k : nat) : Q := (g0 + inject_Z (Z.of_nat k) * dx)%Q.
(** [n] equally spaced points. *)
Definition regular_grid (g0 dx : Q) (n : nat) : list Q := map (grid_point g0 dx) (seq 0 n).
(** Linear weight: one at the point, falling to zero at the neighbouring points. *)
Definition tri (t : Q) : Q := if Qle_bool (Qabs t) 1 then (1 - Qabs t)%Q else 0%Q.
Definition within_grid (g0 dx : Q) (n : nat) (x : Q) : Prop := (g0 <= x /\ x <= grid_point g0 dx (n - 1))%Q.
(** Weights, one each if there are none. *)
Definition wts (data : list Q) (weights : option (list Q)) : list Q :=
  match weights with Some w => w | None => map (fun _ => 1%Q) data end.
