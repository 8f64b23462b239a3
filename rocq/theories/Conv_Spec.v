(** Specification of the numerical convolution. *)
From Verif Require Import Base AccRej_Model Conv_Model.
#[local] Open Scope nat_scope.

Definition qn (n : nat) : Q := inject_Z (Z.of_nat n).
Definition within (l : Q * Q) (x : Q) : Prop := (fst l <= x <= snd l)%Q.
Definition width (l : Q * Q) : Q := (snd l - fst l)%Q.
Definition centre (l : Q * Q) : Q := ((fst l + snd l) / 2)%Q.
(** A function of numbers, not of the way they are written as fractions *)
Definition respects (f : Q -> Q) : Prop := forall x y, (x == y -> f x == f y)%Q.

(** The sum of f 0, ..., f (n - 1) *)
Fixpoint total (n : nat) (f : nat -> Q) : Q := match n with 0 => 0%Q | S n => (total n f + f n)%Q end.
(** The distance of [num] equally spaced points of an interval, ends included, and the i-th of them *)
Definition spacing (l : Q * Q) (num : nat) : Q := (width l / (qn num - 1))%Q.
Definition node (l : Q * Q) (num i : nat) : Q := (fst l + qn i * spacing l num)%Q.
(** The function, zero outside of the interval *)
Definition restricted (l : Q * Q) (f : Q -> Q) (x : Q) : Q :=
  if Qle_bool (fst l) x && Qle_bool x (snd l) then f x else 0%Q.

(** The ratio of the spacings of the two grids; the point of the kernel that stands for [t] *)
Definition squeeze (c : conv) : Q := (spacing (c_func c) (c_nf c) / spacing (c_kernel c) (c_nk c))%Q.
Definition squeezed (c : conv) (t : Q) : Q := (centre (c_kernel c) + squeeze c * (t - centre (c_kernel c)))%Q.
(** The discrete convolution at [x], of the func on its grid and of the kernel on its grid with its
    points moved by [move]: the sum over the kernel of kernel(t) func(x - move t) *)
Definition convolved (move : Q -> Q) (c : conv) (func kernel : Q -> Q) (x : Q) : Q :=
  total (c_nk c) (fun j => let t := node (c_kernel c) (c_nk c) j in
                           (kernel t * restricted (c_func c) func (x - move t))%Q).
(** The positions of the values *)
Definition position (c : conv) (i : nat) : Q := (node (c_func c) (c_nf c) i + centre (c_kernel c))%Q.

(** Made by the constructor from these limits *)
Definition built (lf lk : Q * Q) (n : nat) (c : conv) : Prop :=
  (0 < width lk)%Q /\ (width lk <= width lf)%Q /\ 2 <= n /\
  exists int n1 n2 ip, conv_init int 1 1 1 n1 n2 (Some (Z.of_nat n)) (Some [lf]) (Some [lk]) ip = Ok c.

(** Mass, mean and variance of the weights [w] at the points [x] *)
Definition mass (n : nat) (w : nat -> Q) : Q := total n w.
Definition mean (n : nat) (w x : nat -> Q) : Q := (total n (fun i => w i * x i) / mass n w)%Q.
Definition variance (n : nat) (w x : nat -> Q) : Q := (total n (fun i => w i * ((x i - mean n w x) * (x i - mean n w x))) / mass n w)%Q.
(** The values of a function on a grid *)
Definition on_grid (l : Q * Q) (num : nat) (f : Q -> Q) (i : nat) : Q := f (node l num i).
(** The func is zero at the points closer to an end of its grid than half the points of the kernel *)
Definition margin (c : conv) (func : Q -> Q) : Prop :=
  forall m, m < c_nf c -> 2 * m < c_nk c - 1 \/ 2 * (c_nf c - m) <= c_nk c - 1 -> (func (node (c_func c) (c_nf c) m) == 0)%Q.

(** The samples that the two PDFs return lie in the limits asked for, if these are ordered, and have the size asked for *)
Definition draws_inside (draw : nat -> (Q * Q) -> Z -> list Q) : Prop :=
  forall it l m, length (draw it l m) = Z.to_nat m /\ ((fst l <= snd l)%Q -> Forall (within l) (draw it l m)).
(** The events of an iteration: those of the func, each moved by one of the kernel, if the result lies in the limits *)
Definition smeared (draw_func draw_kernel : nat -> (Q * Q) -> Z -> list Q) (shuffle : nat -> list Q -> list Q)
    (range limits_kernel limits : Q * Q) (it : nat) (m : Z) : list Q :=
  filter (fun x => Qle_bool (fst limits) x && Qle_bool x (snd limits))
    (map (fun p => fst p + snd p)%Q (combine (draw_func it range m) (shuffle it (draw_kernel it limits_kernel m)))).
(** One after the other for the numbers asked for *)
Fixpoint in_turn {A} (it : nat) (events : nat -> Z -> list A) (asked : list Z) : list A :=
  match asked with [] => [] | m :: r => events it m ++ in_turn (S it) events r end.
