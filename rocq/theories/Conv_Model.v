(** The numerical convolution: models/convolution.py, with [AddingSampleAndWeights] (461-496) on top
    of the accept-reject loop of AccRej_Model.v.

    Numbers are rationals: rounding is not modelled. One observable, the only case the code accepts.
    [func] and [kernel] stand for the not normalised values of the two PDFs, which the code evaluates
    on grids (333-334). Spaces are modelled by their list of intervals (empty: no limits). Of the two
    interpolations only the points handed to them are modelled for the spline. *)
From Verif Require Import Base AccRej_Model.
From Coq Require Import Ascii Qround.
#[local] Open Scope nat_scope.

(** WorkInProgressError (util/exception.py:254) is no class of Base.v. *)
Definition WorkInProgressError : error := UserError 1.

(** 196-212: the interpolation. [int] stands for Python's function of that name on strings. *)
Inductive interpolation : Type := Linear | Spline (order : Z).
Fixpoint split_colon (s : string) : list string :=
  match s with
  | EmptyString => [EmptyString]
  | String c r =>
      match split_colon r with
      | [] => []
      | w :: ws => if Ascii.eqb c ":"%char then EmptyString :: w :: ws else String c w :: ws
      end
  end.
Definition named (name : string) (order : Z) : result interpolation :=
  if String.eqb name "spline" then Ok (Spline order)
  else if String.eqb name "linear" then Ok Linear else Err ValueError.
Definition parse_interpolation (int : string -> option Z) (o : option string) : result interpolation :=
  match split_colon (match o with None => "linear"%string | Some s => s end) with
  | [name] => named name 3
  | [name; order] => match int order with Some k => named name k | None => Err ValueError end
  | _ => Err ValueError
  end.

(** 213-235: the limits: those given, else those of the PDF; exactly one interval *)
Definition one_interval (given : option (list (Q * Q))) (own : list (Q * Q)) : result (Q * Q) :=
  match (match given with Some l => l | None => own end) with
  | [] => Err LimitsNotSpecifiedError
  | [i] => Ok i
  | _ => Err WorkInProgressError
  end.

(** 302-308 [_conv_limits] (["valid"] is never used), with the limits kept for sampling (253) *)
Record conv : Type := Conv {
  c_kernel : Q * Q; c_func : Q * Q; c_nk : nat; c_nf : nat; c_interp : interpolation; c_limits_func : Q * Q }.

(** 255-258 *)
Definition points (n : option Z) : Z :=
  let n := match n with None => 51%Z | Some n => n end in
  if Z.even n then (n + 1)%Z else n.
(** 260-298: from the limits of the func and of the kernel *)
Definition grid_of (lf lk : Q * Q) (n : Z) : (Q * Q) * Z :=
  let lower := (fst lf + fst lk)%Q in
  let upper := (snd lf + snd lk)%Q in
  let nf := Qceiling ((upper - lower) / (snd lk - fst lk) * inject_Z n) in
  let binwidth := ((snd lk - fst lk) / inject_Z n)%Q in
  let to_extend := ((binwidth * inject_Z nf - (upper - lower)) / 2)%Q in
  ((lower - to_extend, upper + to_extend)%Q, nf).

(** 29-308: the constructor. [n_obs] are those of func, kernel and of [obs] *)
Definition conv_init (int : string -> option Z) (nobs nobs_func nobs_kernel : nat)
    (own_func own_kernel : list (Q * Q)) (n : option Z)
    (limits_func limits_kernel : option (list (Q * Q))) (interp : option string) : result conv :=
  if Nat.ltb 1 nobs then Err WorkInProgressError
  else
    let* ip := parse_interpolation int interp in
    let* lf := one_interval limits_func own_func in
    let* lk := one_interval limits_kernel own_kernel in
    if negb (Nat.eqb nobs_func nobs_kernel) then Err ShapeIncompatibleError
    else
      let n := points n in
      if Qlt_bool (snd lf - fst lf) (snd lk - fst lk) then Err WorkInProgressError
      else
        let g := grid_of lf lk n in
        Ok (Conv lk (fst g) (Z.to_nat n) (Z.to_nat (snd g)) ip lf).

(** [tf.linspace]: one point is the lower end *)
Definition linspace (lo hi : Q) (num : nat) : list Q :=
  map (fun i => (lo + inject_Z (Z.of_nat i) * ((hi - lo) / inject_Z (Z.of_nat (num - 1))))%Q) (seq 0 num).

(** [tf.nn.convolution] with padding "SAME" and stride 1, in one dimension: the cross-correlation with
    the filter, where (length - 1) / 2 zeros (rounded down) are put in front and the rest behind. *)
Definition at_or_zero (l : list Q) (i : Z) : Q := if Z.ltb i 0 then 0%Q else nth (Z.to_nat i) l 0%Q.
Fixpoint sumf (n : nat) (f : nat -> Q) : Q := match n with 0 => 0%Q | S n => (sumf n f + f n)%Q end.
Definition correlate_same (input filt : list Q) : list Q :=
  map (fun i => sumf (length filt) (fun j =>
         at_or_zero input (Z.of_nat i + Z.of_nat j - Z.of_nat ((length filt - 1) / 2)) * nth j filt 0)%Q)
      (seq 0 (length input)).

Section Values.
Variables (func kernel : Q -> Q).
(** 311-368: the values of the convolution on the grid of the func *)
Definition conv_values (c : conv) : list Q :=
  let y_func := map func (linspace (fst (c_func c)) (snd (c_func c)) (c_nf c)) in
  let y_kernel := map kernel (linspace (fst (c_kernel c)) (snd (c_kernel c)) (c_nk c)) in
  correlate_same y_func (rev y_kernel).
(** 345-348 *)
Definition kernel_shift (c : conv) : Q := ((snd (c_kernel c) + fst (c_kernel c)) / 2)%Q.
(** 346, 377: where these values are put *)
Definition conv_positions (c : conv) : list Q :=
  map (fun x => x + kernel_shift c)%Q (linspace (fst (c_func c)) (snd (c_func c)) (c_nf c)).

(** [tfp.math.batch_interp_regular_1d_grid] with its default, a constant extension *)
Definition clip (x lo hi : Q) : Q := if Qlt_bool x lo then lo else if Qlt_bool hi x then hi else x.
Definition interp_regular (x lo hi : Q) (ys : list Q) : Q :=
  let last := inject_Z (Z.of_nat (length ys) - 1) in
  let idx := clip ((x - lo) / (hi - lo) * last) 0 last in
  let below := Qfloor idx in
  let above := Z.min (below + 1) (Z.of_nat (length ys) - 1) in
  let t := (idx - inject_Z below)%Q in
  (t * nth (Z.to_nat above) ys 0 + (1 - t) * nth (Z.to_nat below) ys 0)%Q.

(** 388-397: the value at [x] with the linear interpolation *)
Definition conv_pdf (c : conv) (x : Q) : Q :=
  interp_regular x (fst (c_func c) + kernel_shift c) (snd (c_func c) + kernel_shift c) (conv_values c).
End Values.

(** 461-496 [AddingSampleAndWeights]. [own_kernel] are the limits of the space of the kernel (which may
    differ from [limits_kernel]); [draw_func] and [draw_kernel] stand for the two samples, given the
    iteration, the limits and the number; [shuffle] for the shuffling. *)
Definition interval := (Q * Q)%type.
Definition inside_interval (l : interval) (x : Q) : bool := Qle_bool (fst l) x && Qle_bool x (snd l).
Definition extended_limits (own_kernel limits : interval) : interval :=
  (fst limits + fst own_kernel, snd limits + snd own_kernel)%Q.
Section Sample.
Variables (draw_func draw_kernel : nat -> interval -> Z -> list Q) (shuffle : nat -> list Q -> list Q).
Definition conv_proposals (own_kernel limits_kernel limits : interval) (it : nat) (m : Z) : list proposal :=
  let sample_func := draw_func it (extended_limits own_kernel limits) m in
  let sample_kernel := shuffle it (draw_kernel it limits_kernel m) in
  let sums := map (fun p => fst p + snd p)%Q (combine sample_func sample_kernel) in
  map (fun x => Prop_ [x] (1 # 2) 1) (filter (inside_interval limits) sums).

(** 406-441 [_sample]: every point has the probability one. The first guess of the efficiency (0.9 here)
    is that of AccRej_Model.v, it only changes how many are drawn at first. *)
Definition in_limits1 (l : interval) (x : point) : bool := match x with [v] => inside_interval l v | _ => false end.
Definition conv_sample (own_kernel limits_kernel limits : interval) (n : nat) (numeric_checks : bool)
    (binomial : nat -> nat -> Q -> nat) (fuel : nat) : result (option (list (option point))) :=
  accept_reject (fun _ => 1%Q) (in_limits1 limits) n numeric_checks (Some 1%Q) (Some 1%Q)
    (conv_proposals own_kernel limits_kernel limits) binomial (fun l => l) false fuel.
End Sample.
