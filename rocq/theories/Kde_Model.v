(** Kernel density estimates in one dimension: models/kde.py with util/binning.py and
    util/convolution.py. Numbers are rationals. The kernel is a function of location, scale and point,
    it stands for the [prob] (or the [cdf]) of a distribution of tensorflow_probability. Square root,
    the power -1/5, the geometric mean, the improved Sheather-Jones bandwidth and the step from the
    shape to [pdf] are arguments. Not modelled: Parameters as bandwidth (they act as a number), the
    density of KDE1DimISJ (util/improved_sheather_jones.py), [obs = None] (only replaced by the space of
    the data), weights that are negative. *)
From Verif Require Import Base Hist_Model Conv_Model.
From Coq Require Import Qround.
#[local] Open Scope nat_scope.

Definition dist := Q -> Q -> Q -> Q.
Definition nat_q (n : nat) : Q := inject_Z (Z.of_nat n).

(** What is given as [data]: an array or a [Data] with rows, number of observables and weights *)
Inductive input : Type :=
| Array (xs : list Q)
| DataObject (rows : list (list Q)) (n_obs : nat) (w : option (list Q)).

(** The bandwidth as a value: a number or an array *)
Inductive bwidth : Type := Global (h : Q) | Local (hs : list Q).
(** The argument [bandwidth]; a callable gets data and weights *)
Inductive bw_arg : Type :=
| BwNone | BwName (s : string) | BwValue (b : bwidth)
| BwCall (f : list Q -> option (list Q) -> result bwidth).
(** models/kde.py:1317-1323 [bw_is_arraylike(bw, allow1d=False)] *)
Definition arraylike (b : bw_arg) : option (list Q) :=
  match b with BwValue (Local hs) => if Nat.ltb 1 (length hs) then Some hs else None | _ => None end.

(** The argument [padding] *)
Definition events := (list Q * option (list Q) * bw_arg)%type.
Inductive padding_arg : Type :=
| PadFalse | PadTrue | PadNumber (q : Q) | PadDict (d : list (string * option Q))
| PadCall (f : list Q -> option (list Q) -> option (Q * Q) -> bw_arg -> events).

(** [znp.where(area)[0]] *)
Definition where_ (p : Q -> bool) (data : list Q) : list nat :=
  filter (fun i => p (nth i data 0%Q)) (seq 0 (length data)).
(** [tf.gather]: an index out of range raises (on a CPU) *)
Definition tf_gather {A} (l : list A) (idx : list nat) : result (list A) :=
  match gather l idx with Some r => Ok r | None => Err InvalidArgumentError end.
Definition opt_gather {A} (l : option (list A)) (idx : list nat) : result (option (list A)) :=
  match l with Some l => let* r := tf_gather l idx in Ok (Some r) | None => Ok None end.
Definition opt_app {A} (a b : option (list A)) : option (list A) :=
  match a, b with Some a, Some b => Some (a ++ b) | Some a, None => Some a | None, b => b end.

(** models/kde.py:547-558, 563-574: one side. [area] are the events to mirror, [at_] is the limit. *)
Definition mirror (data : list Q) (weights : option (list Q)) (hs : option (list Q)) (area : Q -> bool) (at_ : Q)
  : result (list Q * option (list Q) * option (list Q)) :=
  let idx := where_ area data in
  let* d := tf_gather data idx in
  let* w := opt_gather weights idx in
  let* b := opt_gather hs idx in
  Ok (map (fun x => - x + 2 * at_)%Q d, w, b).

(** models/kde.py:519-581 [padreflect_data_weights_1dim] *)
Definition padreflect (data : list Q) (mode : list (string * option Q)) (weights : option (list Q))
    (limits : option (Q * Q)) (bw : bw_arg) : result events :=
  if existsb (fun e => negb (mem String.eqb (fst e) ["lowermirror"; "uppermirror"]%string)) mode then Err ValueError
  else
    let lo := match limits with Some l => fst l | None => qmin_list data end in
    let hi := match limits with Some l => snd l | None => qmax_list data end in
    let diff := (hi - lo)%Q in
    let hs := arraylike bw in
    let side key area at_ :=
      match lookup String.eqb key mode with
      | Some (Some frac) => mirror data weights hs (area (diff * frac)%Q) at_
      | _ => Ok ([], match weights with Some _ => Some [] | None => None end, match hs with Some _ => Some [] | None => None end)
      end in
    let* l := side "lowermirror"%string (fun dx x => Qlt_bool x (lo + dx)) lo in
    let* u := side "uppermirror"%string (fun dx x => Qlt_bool (hi - dx) x) hi in
    Ok (fst (fst l) ++ data ++ fst (fst u),
        opt_app (snd (fst l)) (opt_app weights (snd (fst u))),
        match opt_app (snd l) (opt_app hs (snd u)) with Some hs => BwValue (Local hs) | None => bw end).

(** models/kde.py:458-481 [_convert_init_data_weights_size] *)
Definition convert_init (inp : input) (weights : option (list Q)) (pad : padding_arg) (limits : option (Q * Q))
    (bw : bw_arg) : result events :=
  let* dw :=
    match inp with
    | Array xs => Ok (xs, weights)
    | DataObject rows n_obs w =>
        match w, weights with
        | Some _, Some _ => Err OverdefinedError
        | _, _ => if Nat.ltb 1 n_obs then Err ShapeIncompatibleError
                  else Ok (map (fun r => nth 0 r 0%Q) rows, match w with Some w => Some w | None => weights end)
        end
    end in
  let both q := [("lowermirror"%string, Some q); ("uppermirror"%string, Some q)] in
  match pad with
  | PadFalse => Ok (fst dw, snd dw, bw)
  | PadCall f => Ok (f (fst dw) (snd dw) limits bw)
  | PadTrue => padreflect (fst dw) (both (1 # 10)%Q) (snd dw) limits bw
  | PadNumber q => padreflect (fst dw) (both q) (snd dw) limits bw
  | PadDict d => padreflect (fst dw) d (snd dw) limits bw
  end.

(** ** The mixture of kernels *)

(** models/kde.py:443-448 [calc_kernel_probs] *)
Definition calc_kernel_probs (size : nat) (weights : option (list Q)) : list Q :=
  match weights with
  | Some w => map (fun x => x / qsum w)%Q w
  | None => repeat (1 / nat_q size)%Q size
  end.

(** A [MixtureSameFamily] with a [Categorical]: locations, scales and probabilities of the components *)
Record kde := Kde { k_locs : list Q; k_scales : list Q; k_probs : list Q }.
(** Broadcasting of location and scale; the class of the exception is that of a static shape. *)
Definition broadcast_scale (n : nat) (b : bwidth) : result (list Q) :=
  match b with
  | Global h => Ok (repeat h n)
  | Local [h] => Ok (repeat h n)
  | Local hs => if Nat.eqb (length hs) n then Ok hs else Err ValueError
  end.
Definition make_mixture (locs : list Q) (b : bwidth) (probs : list Q) : result kde :=
  let* s := broadcast_scale (length locs) b in
  if Nat.eqb (length probs) (length locs) then Ok (Kde locs s probs) else Err ValueError.
(** Its [prob] with the density of the kernel, its [cdf] with the cdf: [Categorical] normalises the
    probabilities. *)
Definition mixture (K : dist) (d : kde) (x : Q) : Q :=
  qsum (map (fun e => snd e / qsum (k_probs d) * K (fst (fst e)) (snd (fst e)) x)%Q
            (combine (combine (k_locs d) (k_scales d)) (k_probs d))).
(** models/dist_tfp.py:110-116 [_analytic_integrate] *)
Definition mixture_integral (C : dist) (d : kde) (lo hi : Q) : Q := (mixture C d hi - mixture C d lo)%Q.

(** ** The grid: util/binning.py *)

(** util/binning.py:11-22 [generate_1d_grid] with the default boundaries *)
Definition generate_1d_grid (data : list Q) (num : nat) : list Q :=
  let lo := qmin_list data in let hi := qmax_list data in
  let out := let r := ((1 # 20) * (hi - lo))%Q in if Qle_bool 0 r then r else 0%Q in
  linspace (lo - out)%Q (hi + out)%Q num.

(** [tf.histogram_fixed_width]: outliers go to the first and the last bin *)
Definition fixed_width_index (lo hi : Q) (nbins : nat) (x : Q) : Z :=
  Z.max 0 (Z.min (Qfloor (nat_q nbins * (x - lo) / (hi - lo))%Q) (Z.of_nat nbins - 1)).
Definition histogram_fixed_width (data : list Q) (lo hi : Q) (nbins : nat) : list Q :=
  map (fun k => nat_q (length (filter (fun x => Z.eqb (fixed_width_index lo hi nbins x) (Z.of_nat k)) data))) (seq 0 nbins).

(** util/binning.py:26-53 [bin_1d]. All points of the grid equal: the positions are 0 / 0, whose
    conversion to an integer is negative (as on x86), the histogram refuses the range. *)
Definition bin_1d (method : string) (data grid : list Q) (weights : option (list Q)) : result (list Q) :=
  let simple := String.eqb method "simple" in
  if simple || String.eqb method "linear" then
    if Qeq_bool (qmin_list grid) (qmax_list grid) then Err InvalidArgumentError
    else match simple, weights with
         | true, None => Ok (histogram_fixed_width data (qmin_list grid) (qmax_list grid) (length grid))
         | _, _ => bin_1d_weighted simple data grid weights
         end
  else Err ValueError.

(** ** The convolution: util/convolution.py *)

(** util/convolution.py:40-55: how many grid points the kernel reaches to each side *)
Definition kernel_reach (support bandwidth dx : Q) (n : nat) : nat :=
  Z.to_nat (Z.min (Qfloor (support * bandwidth / dx)) (Z.of_nat n)).
(** 57-61 *)
Definition kernel_weights (K : dist) (bandwidth dx : Q) (reach : nat) : list Q :=
  let side := map (K 0%Q bandwidth) (linspace 0 (dx * nat_q reach)%Q (S reach)) in
  removelast (rev side) ++ side.
(** The circular convolution, which the product of two real Fourier transforms of the same even length
    stands for *)
Definition circular (c k : list Q) (len : nat) : list Q :=
  map (fun r => sumf len (fun a => nth a c 0 * nth ((r + len - a) mod len) k 0)%Q) (seq 0 len).
(** util/convolution.py:39-102 [convolve_1d_data_with_kernel] with a support *)
Definition convolve_1d (K : dist) (bandwidth : Q) (data grid : list Q) (support : Q) (fft_method : string)
  : result (list Q) :=
  let n := length grid in
  let dx := ((qmax_list grid - qmin_list grid) / nat_q (n - 1))%Q in
  let k := kernel_weights K bandwidth dx (kernel_reach support bandwidth dx n) in
  if String.eqb fft_method "conv1d" then Ok (correlate_same data k)
  else
    let P := 2 ^ Nat.log2_up (3 * n - 1) in
    if Nat.ltb P (2 * n + 1) then Err InvalidArgumentError
    else
      let right := P - 2 * n - 1 in
      let c' := repeat 0%Q (n - 1) ++ data ++ repeat 0%Q right in
      let k' := k ++ repeat 0%Q right in
      if Nat.eqb (length c' / 2) (length k' / 2)
      then Ok (firstn n (skipn (2 * n - 1) (circular c' k' (2 * (length c' / 2)))))
      else Err InvalidArgumentError.

(** ** Bandwidths *)
Definition qmin2 (a b : Q) : Q := if Qle_bool a b then a else b.
Fixpoint insert_key {A} (e : Q * A) (l : list (Q * A)) : list (Q * A) :=
  match l with [] => [e] | f :: r => if Qle_bool (fst e) (fst f) then e :: l else f :: insert_key e r end.
(** [argsort] and the two gathers: sorted by the first entry *)
Definition sort_by_key {A} (l : list (Q * A)) : list (Q * A) := fold_right insert_key [] l.
Definition sort_q (l : list Q) : list Q := map fst (sort_by_key (map (fun x => (x, tt)) l)).
(** [tf.round]: halves go to the even neighbour *)
Definition round_even (q : Q) : Z :=
  let f := Qfloor q in
  let r := (q - inject_Z f)%Q in
  if Qlt_bool r (1 # 2) then f else if Qlt_bool (1 # 2) r then (f + 1)%Z else if Z.even f then f else (f + 1)%Z.
(** [tfp.stats.percentile], whose default is the nearest entry; [q] is a fraction here. *)
Definition percentile (xs : list Q) (q : Q) : Q :=
  nth (Z.to_nat (round_even (nat_q (length xs - 1) * q))) (sort_q xs) 0%Q.
(** z/math.py:373-407 [weighted_quantile], side "middle". [searchsorted] counts the entries before. *)
Fixpoint cumulated (acc : Q) (w : list Q) : list Q :=
  match w with [] => [] | x :: r => (acc + x)%Q :: cumulated (acc + x)%Q r end.
Definition weighted_quantile (xs w : list Q) (q : Q) : result Q :=
  let s := sort_by_key (combine xs w) in
  let sx := map fst s in let sw := map snd s in
  let at_ := map (fun p => (fst p - (1 # 2) * snd p) / qsum sw)%Q (combine (cumulated 0 sw) sw) in
  let il := length (filter (fun a => Qlt_bool a q) at_) in
  let ir := length (filter (fun a => Qle_bool a q) at_) in
  match nth_error sx il, nth_error sx ir with
  | Some a, Some b => Ok ((a + b) / 2)%Q
  | _, _ => Err InvalidArgumentError
  end.
Definition mean_q (xs : list Q) : Q := (qsum xs / nat_q (length xs))%Q.
(** the square of [znp.std] *)
Definition variance_q (xs : list Q) : Q := mean_q (map (fun x => (x - mean_q xs) * (x - mean_q xs))%Q xs).
(** [tf.nn.weighted_moments(...)[1]] *)
Definition weighted_mean (f : Q -> Q) (xs w : list Q) : Q :=
  (qsum (map (fun p => snd p * f (fst p)) (combine xs w)) / qsum w)%Q.
Definition weighted_variance (xs w : list Q) : Q :=
  let m := weighted_mean (fun x => x) xs w in weighted_mean (fun x => (x - m) * (x - m))%Q xs w.

Section Bandwidths.
Variables (root power : Q -> Q) (gmean : list Q -> option (list Q) -> Q) (isj : list Q -> option (list Q) -> Q).

(** models/kde.py:431-440 [min_std_or_iqr] *)
Definition min_std_or_iqr (xs : list Q) (weights : option (list Q)) : result Q :=
  match weights with
  | Some w =>
      let* a := weighted_quantile xs w (3 # 4) in
      let* b := weighted_quantile xs w (1 # 4) in
      Ok (qmin2 (root (weighted_variance xs w)) (a - b)%Q)
  | None => Ok (qmin2 (root (variance_q xs)) (percentile xs (3 # 4) - percentile xs (1 # 4))%Q)
  end.
(** 41-76 [bandwidth_rule_of_thumb] *)
Definition rule_of_thumb (xs : list Q) (weights : option (list Q)) (factor : Q) : result Q :=
  let* m := min_std_or_iqr xs weights in Ok (m * power (nat_q (length xs)) * factor)%Q.
(** 79-105, 108-134 *)
Definition silverman (xs : list Q) (weights : option (list Q)) : result Q := rule_of_thumb xs weights (9 # 10).
Definition scott (xs : list Q) (weights : option (list Q)) : result Q := rule_of_thumb xs weights (1059 # 1000).

Definition event_count (xs : list Q) (weights : option (list Q)) : Q :=
  match weights with Some w => qsum w | None => nat_q (length xs) end.
Inductive adaptive_kind : Type := Geom | Zfit | Std.
(** 168-229, 232-290, 293-355; [f] is the density of the initial estimate. *)
Definition adaptive (k : adaptive_kind) (xs : list Q) (f : Q -> Q) (weights : option (list Q)) : result (list Q) :=
  let probs := map f xs in
  match k with
  | Geom =>
      let* m := min_std_or_iqr xs weights in
      Ok (map (fun p => 1 / root (p / gmean probs weights) * power (event_count xs weights) * m)%Q probs)
  | Zfit =>
      let* e := scott xs weights in
      Ok (map (fun p => e / (root p / mean_q (map root probs)))%Q probs)
  | Std =>
      let* m := min_std_or_iqr xs weights in
      Ok (map (fun p => root (m / p) * (power (event_count xs weights) * (1059 # 1000)))%Q probs)
  end.

(** The tables [_bandwidth_methods]: 451-454, 586-587 (GaussianKDE1DimV1), 793-801 (KDE1DimExact),
    1055-1063 (KDE1DimGrid) and KDE1DimFFT, which has the first only *)
Inductive method : Type := MSilverman | MScott | MIsj | MAdaptive (k : adaptive_kind).
Inductive kde_class : Type := GaussianKDE | ExactKDE | GridKDE | FFTKDE.
Definition methods (c : kde_class) : list (string * method) :=
  [("scott"%string, MScott); ("silverman"%string, MSilverman)] ++
  match c with
  | GaussianKDE => [("adaptive"%string, MAdaptive Std); ("isj"%string, MIsj)]
  | ExactKDE => [("adaptive_geom"%string, MAdaptive Geom); ("adaptive_std"%string, MAdaptive Std);
                 ("adaptive_zfit"%string, MAdaptive Zfit); ("isj"%string, MIsj)]
  | GridKDE => [("adaptive_geom"%string, MAdaptive Geom); ("adaptive_zfit"%string, MAdaptive Zfit)]
  | FFTKDE => []
  end.

(** 483-518 [_convert_input_bandwidth]; [initial] stands for what an adaptive method does with the
    constructor: the points, the density and the weights it hands to the method (358-389). *)
Definition input_bandwidth (c : kde_class) (initial : result (list Q * (Q -> Q) * option (list Q)))
    (bw : bw_arg) (data : list Q) (weights : option (list Q)) : result bwidth :=
  let by_name s :=
    match lookup String.eqb s (methods c) with
    | None => Err ValueError
    | Some MSilverman => let* h := silverman data weights in Ok (Global h)
    | Some MScott => let* h := scott data weights in Ok (Global h)
    | Some MIsj => Ok (Global (isj data weights))
    | Some (MAdaptive k) =>
        let* i := initial in
        let* hs := adaptive k (fst (fst i)) (snd (fst i)) (snd i) in Ok (Local hs)
    end in
  match bw with
  | BwNone => by_name "silverman"%string
  | BwName s => by_name s
  | BwValue b => Ok b
  | BwCall f => f data weights
  end.

(** ** The PDFs. [norm] makes the normalised density, called [pdf], from a shape. *)
Variables (K : dist) (norm : (Q -> Q) -> Q -> Q).

(** 379-387: the initial estimate of an adaptive method; the weights are not handed on to it. *)
Definition initial_exact (data : list Q) (weights : option (list Q)) : result (list Q * (Q -> Q) * option (list Q)) :=
  let* h := silverman data None in
  let* d := make_mixture data (Global h) (calc_kernel_probs (length data) None) in
  Ok (data, norm (mixture K d), weights).
(** 584-789 [GaussianKDE1DimV1]: no padding; the kernel is the (truncated) Gaussian. [inside] is given
    if it is truncated: all the data has to be inside. *)
Definition gaussian_kde (inp : input) (weights : option (list Q)) (inside : option (Q -> bool)) (bw : bw_arg) : result kde :=
  let* e := convert_init inp weights PadFalse None bw in
  let data := fst (fst e) in let w := snd (fst e) in
  let* b := input_bandwidth GaussianKDE (initial_exact data w) bw data w in
  if match inside with Some p => forallb p data | None => true end
  then make_mixture data b (calc_kernel_probs (length data) w)
  else Err InvalidArgumentError.
(** 792-1021 [KDE1DimExact] *)
Definition exact_kde (inp : input) (weights : option (list Q)) (pad : padding_arg) (limits : option (Q * Q)) (bw : bw_arg) : result kde :=
  let* e := convert_init inp weights pad limits bw in
  let data := fst (fst e) in let w := snd (fst e) in
  let* b := input_bandwidth ExactKDE (initial_exact data w) (snd e) data w in
  make_mixture data b (calc_kernel_probs (length data) w).

(** 420-428 [check_bw_grid_shapes] *)
Definition check_bw_grid_shapes (b : bwidth) (n : nat) : result unit :=
  match arraylike (BwValue b) with
  | Some hs => if Nat.eqb (length hs) n then Ok tt else Err ShapeIncompatibleError
  | None => Ok tt
  end.
(** 1262-1296: the grid, its contents and the mixture, once the bandwidth is known *)
Definition grid_mixture (binning : string) (num : nat) (data : list Q) (weights : option (list Q)) (b : bwidth) : result kde :=
  let grid := generate_1d_grid data (Nat.min (length data) num) in
  let* g := bin_1d binning data grid weights in
  let* _ := check_bw_grid_shapes b (length grid) in
  make_mixture grid b g.
(** 361-375: the initial estimate is a grid KDE with the same weights *)
Definition initial_grid (binning : string) (num : nat) (data : list Q) (weights : option (list Q))
  : result (list Q * (Q -> Q) * option (list Q)) :=
  let* h := silverman data weights in
  let* d := grid_mixture binning num data weights (Global h) in
  Ok (k_locs d, norm (mixture K d), Some (map (fun p => p * nat_q (length data))%Q (k_probs d))).
(** 1054-1314 [KDE1DimGrid]: the padded bandwidths are dropped. *)
Definition grid_kde (inp : input) (weights : option (list Q)) (pad : padding_arg) (limits : option (Q * Q)) (bw : bw_arg)
    (binning : string) (num : nat) : result kde :=
  let* _ := match bw with BwName s => if mem String.eqb s ["isj"; "adaptive_std"]%string then Err ValueError else Ok tt | _ => Ok tt end in
  let* e := convert_init inp weights pad limits bw in
  let data := fst (fst e) in let w := snd (fst e) in
  let* b := input_bandwidth GridKDE (initial_grid binning num data w) bw data w in
  grid_mixture binning num data w b.

(** 1358-1602 [KDE1DimFFT]: the ends of the grid and the values there. Only a single bandwidth is
    modelled, an array is refused here. *)
Record fft_kde := FftKde { f_lo : Q; f_hi : Q; f_vals : list Q }.
(** 1575-1578 *)
Definition fft_support (support : option Q) (limits : Q * Q) : Q :=
  match support with Some s => s | None => ((snd limits - fst limits) * (6 # 5))%Q end.
Definition fft_grid (data : list Q) (weights : option (list Q)) (h : Q) (binning : string) (num : nat)
    (support : Q) (fft_method : string) : result fft_kde :=
  let grid := generate_1d_grid data (Nat.min (length data) num) in
  let* g := bin_1d binning data grid weights in
  let* v := convolve_1d K h g grid support fft_method in
  Ok (FftKde (nth 0 grid 0%Q) (last grid 0%Q) v).
Definition fft_kde_init (inp : input) (weights : option (list Q)) (pad : padding_arg) (limits : Q * Q) (bw : bw_arg)
    (binning : string) (num : nat) (support : option Q) (fft_method : string) : result fft_kde :=
  let* e := convert_init inp weights pad (Some limits) bw in
  let data := fst (fst e) in let w := snd (fst e) in
  let* b := input_bandwidth FFTKDE (Err ValueError) bw data w in
  match b with
  | Local _ => Err ShapeIncompatibleError
  | Global h => fft_grid data w h binning num (fft_support support limits) fft_method
  end.
(** 1595-1602 *)
Definition fft_pdf (d : fft_kde) (x : Q) : Q := interp_regular x (f_lo d) (f_hi d) (f_vals d).
End Bandwidths.
