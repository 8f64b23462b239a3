(** Specification of the kernel density estimates. *)
From Verif Require Import Base Hist_Model Hist_Spec Kde_Model.
From Coq Require Import Qabs.
#[local] Open Scope nat_scope.

(** Events: position and weight; without weights each counts once. *)
Definition event := (Q * Q)%type.
Definition with_weights (xs : list Q) (weights : option (list Q)) : list event :=
  match weights with Some w => combine xs w | None => map (fun x => (x, 1%Q)) xs end.
Definition weight_of (evs : list event) : Q := qsum (map snd evs).
(** The weighted mean of [f] over the events *)
Definition average (f : Q -> Q) (evs : list event) : Q := (qsum (map (fun e => snd e * f (fst e)) evs) / weight_of evs)%Q.
(** The kernel density estimate: the weighted mean of the kernels around the events *)
Definition estimate (K : dist) (h : Q) (evs : list event) (t : Q) : Q := average (fun x => K x h t) evs.
(** The same with a bandwidth for every event *)
Definition local_estimate (K : dist) (evs : list (event * Q)) (t : Q) : Q :=
  (qsum (map (fun e => snd (fst e) * K (fst (fst e)) (snd e) t) evs) / weight_of (map fst evs))%Q.
(** The data that can be used: a weight for every event, and the weights do not add up to zero *)
Definition usable (xs : list Q) (weights : option (list Q)) : Prop :=
  (forall w, weights = Some w -> length w = length xs) /\ ~ (weight_of (with_weights xs weights) == 0)%Q.

(** A functional of functions that is linear, such as an integral *)
Definition linear_functional (J : (Q -> Q) -> Q) : Prop :=
  (forall f g, (forall x, f x == g x) -> J f == J g)%Q /\
  (forall f g, J (fun x => f x + g x) == J f + J g)%Q /\ (forall c f, J (fun x => c * f x) == c * J f)%Q.
(** A kernel is a function of numbers, not of the way they are written; it only depends on the distance
    in units of the bandwidth. *)
Definition kernel_ok (K : dist) : Prop := forall x x' h h' t t', (x == x' -> h == h' -> t == t' -> K x h t == K x' h' t')%Q.
Definition moves_along (K : dist) : Prop := forall a x h t, (K (a + x) h (a + t) == K x h t)%Q.
Definition scales_along (K : dist) : Prop := forall c x h t, (0 < c -> K (c * x) (c * h) (c * t) == K x h t / c)%Q.
Definition even_kernel (K : dist) : Prop := forall x h t, (K x h t == K t h x)%Q.
Definition reaches (K : dist) (h r : Q) : Prop := forall x t, (r <= Qabs (x - t) -> K x h t == 0)%Q.

(** The mirror image about [c] *)
Definition image (c : Q) (e : event) : event := ((- fst e + 2 * c)%Q, snd e).
Definition below (c : Q) (e : event) : bool := negb (Qle_bool c (fst e)).
Definition above (c : Q) (e : event) : bool := negb (Qle_bool (fst e) c).
(** The events, with those that are closer to a limit than [down] or [up] added once more, mirrored at it *)
Definition mirrored (lo hi : Q) (down up : option Q) (evs : list event) : list event :=
  match down with Some d => map (image lo) (filter (below (lo + d)) evs) | None => [] end ++ evs ++
  match up with Some u => map (image hi) (filter (above (hi - u)) evs) | None => [] end.
(** The fractions of the range that a padding asks for *)
Definition fractions (p : padding_arg) : option (option Q * option Q) :=
  match p with
  | PadFalse => Some (None, None)
  | PadTrue => Some (Some (1 # 10)%Q, Some (1 # 10)%Q)
  | PadNumber q => Some (Some q, Some q)
  | PadDict d =>
      if forallb (fun e => String.eqb (fst e) "lowermirror" || String.eqb (fst e) "uppermirror") d
      then Some (match lookup String.eqb "lowermirror"%string d with Some v => v | None => None end,
                 match lookup String.eqb "uppermirror"%string d with Some v => v | None => None end)
      else None
  | PadCall _ => None
  end.
Definition of_range (lo hi : Q) (f : option Q) : option Q := match f with Some q => Some ((hi - lo) * q)%Q | None => None end.
Definition inside (lo hi : Q) (evs : list event) : Prop := forall e, In e evs -> (lo <= fst e <= hi)%Q.

(** A kernel and a cumulative distribution that are symmetric and reach no further than [r] *)
Definition symmetric_kernel (K : dist) (h : Q) : Prop := forall x c t, (K (- x + 2 * c) h t == K x h (- t + 2 * c))%Q.
Definition symmetric_cdf (C : dist) (h r : Q) : Prop :=
  forall x t, (x + r <= t -> C x h t == 1)%Q /\ (t <= x - r -> C x h t == 0)%Q /\ (C (- x + 2 * t) h t == 1 - C x h t)%Q.

(** Linear interpolation of [f] from the points of a grid *)
Definition interpolate (g0 dx : Q) (n : nat) (f : Q -> Q) (x : Q) : Q :=
  qsum (map (fun k => tri ((x - grid_point g0 dx k) / dx) * f (grid_point g0 dx k))%Q (seq 0 n)).
(** The ends of the grid: five percent of the range of the data outside of it *)
Definition grid_start (xs : list Q) : Q := (qmin_list xs - (1 # 20) * (qmax_list xs - qmin_list xs))%Q.
Definition grid_end (xs : list Q) : Q := (qmax_list xs + (1 # 20) * (qmax_list xs - qmin_list xs))%Q.
Definition grid_spacing (xs : list Q) (n : nat) : Q := ((grid_end xs - grid_start xs) / nat_q (n - 1))%Q.
(** The smallest and the largest entry *)
Definition smallest (l : list Q) (m : Q) : Prop := In m l /\ forall x, In x l -> (m <= x)%Q.
Definition largest (l : list Q) (m : Q) : Prop := In m l /\ forall x, In x l -> (x <= m)%Q.

(** The kernel, cut off at the distance [r] *)
Definition cut (r : Q) (K : dist) : dist := fun x h t => if Qle_bool (Qabs (x - t)) r then K x h t else 0%Q.

(** The variance *)
Definition spread (evs : list event) : Q :=
  let m := average (fun x => x) evs in average (fun x => (x - m) * (x - m))%Q evs.
(** A function of numbers that behaves as a square root when [v] is multiplied by the square of [c] *)
Definition root_at (root : Q -> Q) (c v : Q) : Prop :=
  (forall a b, a == b -> root a == root b)%Q /\ (root (c * c * v) == c * root v)%Q.
(** A linear change of the scale *)
Definition affine (a c x : Q) : Q := (a + c * x)%Q.
(** [v] is the entry of [xs] that a rank, which differs from [q] times the highest rank by at most one
    half, belongs to *)
Definition count (p : Q -> bool) (xs : list Q) : nat := length (filter p xs).
Definition nearest_rank (xs : list Q) (q v : Q) : Prop :=
  In v xs /\ exists k, (Qabs (nat_q k - nat_q (length xs - 1) * q) <= 1 # 2)%Q /\
    count (fun x => Qlt_bool x v) xs <= k < count (fun x => Qle_bool x v) xs.
