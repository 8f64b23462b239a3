(** Histograms of the library hist and binned data: zfit/_data/binneddatav1.py [BinnedHolder], [BinnedData.from_hist],
    [to_hist], [from_tensor], [convert_hist2binneddata]. Spaces and axes are those of Bsp_Model.v. *)
From Coq Require Import List String Arith Bool QArith.Qcanon.
From Verif Require Import Base Bsp_Model.
Import ListNotations.
Open Scope string_scope.
Open Scope list_scope.

(** Arrays: the shape and the numbers in order, where a number can be NaN. *)
Inductive num : Type := Num (x : Qc) | NaN.
Record array : Type := Array { shape : list nat; numbers : list num }.

(** A histogram of hist: its axes, [h.values()] and [h.variances()] without flow bins; the variances can be None
    for some storages. *)
Record histogram : Type := Histogram { h_axes : list axis; h_values : array; h_variances : option array }.

(** Binned data. *)
Record data : Type := Data { d_space : space; d_values : array; d_variances : option array }.

(** binneddatav1.py:66-88 [_check_init_values] *)
Definition same_shape (a b : list nat) : bool := if list_eq_dec Nat.eq_dec a b then true else false.
Definition bins_of (l : list axis) : list nat := map (fun a => length (edges a) - 1) l.
Definition make_data (s : space) (v : array) (w : option array) : result data :=
  let* _ := match w with
            | None => Ok tt
            | Some u => if negb (Nat.eqb (length (shape v)) (length (shape u))) then Err ShapeIncompatibleError
                        else if negb (same_shape (shape u) (shape v)) then Err InvalidArgumentError else Ok tt
            end in
  match s_binning s with
  | None => Err AttributeError
  | Some l => if negb (Nat.eqb (length l) (length (shape v))) then Err ShapeIncompatibleError
              else if negb (same_shape (bins_of l) (shape v)) then Err InvalidArgumentError
              else Ok (Data s v w)
  end.

(** binneddatav1.py:91-106, 274-284 [from_hist]: a space of the axes alone. [Space] is given a [Binnings]. *)
Definition from_hist (h : histogram) : result data :=
  let* l := histaxes_to_binning (h_axes h) in
  let* s := make_space None NoLimits (OfSpace l) in
  make_data s (h_values h) (h_variances h).

(** binneddatav1.py:329-340 [to_hist]: the axes as they are; the view of the variances is filled with what [variances()]
    is. numpy takes None for NaN. *)
Definition no_numbers (v : array) : array := Array (shape v) (map (fun _ => NaN) (numbers v)).
Definition to_hist (d : data) : histogram :=
  Histogram (match s_binning (d_space d) with Some l => l | None => [] end) (d_values d)
            (Some (match d_variances d with Some w => w | None => no_numbers (d_values d) end)).

(** binneddatav1.py:206-240 [from_tensor]; the square root is a parameter. *)
Inductive variances_arg : Type := NoVariances | FromValues | Variances (w : array).
Definition from_tensor (sqrt : Qc -> Qc) (s : space) (v : array) (w : variances_arg) : result data :=
  make_data s v
    match w with
    | NoVariances => None
    | FromValues => Some (Array (shape v) (map (fun n => match n with Num x => Num (sqrt x) | NaN => NaN end) (numbers v)))
    | Variances u => Some u
    end.

(** binneddatav1.py:32-55 [convert_hist2binneddata] *)
Inductive some_data : Type := Binned (d : data) | Hist (h : histogram) | Else.
Definition convert_hist2binneddata (x : some_data) (none_if_fail : bool) : result (option data) :=
  match x with
  | Binned d => Ok (Some d)
  | Hist h => let* d := from_hist h in Ok (Some d)
  | Else => if none_if_fail then Ok None else Err TypeError
  end.
