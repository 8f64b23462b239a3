(** A binned PDF as an unbinned one: [UnbinnedFromBinnedPDF] (models/unbinnedpdf.py), the step
    function of the densities, and how [SplinePDF] (models/interpolation.py) uses its order.

    The binned PDF is a [bpdf] of Bpdf_Model.v ([m] is the depth of its calls), the methods of the
    unbinned PDF go through the dispatch of Disp_Model.v. *)
From Verif Require Import Base Hist_Model BInt_Model Bpdf_Model Disp_Model.
From Coq Require Import Qreals.
#[local] Open Scope nat_scope.

(** A box: one range per observable. *)
Definition region : Type := list (Q * Q).

(** The PDF: its observables, space and norm, its yield, and the binned PDF with the names of its
    axes. *)
Record ufb : Type := Ufb {
  f_obs : list string;
  f_space : region;
  f_norm : region;
  f_yield : option Q;
  f_binned : bpdf;
  f_bobs : list string }.

(** models/unbinnedpdf.py:63-73 [__init__]: yield and space of the binned PDF unless others are
    given ([True] gives a yield of one, core/basepdf.py); the norm is the space unless given.
    A space without limits is not modelled. *)
Definition unbinned_pdf (b : bpdf) (bobs : list string) (obs : option (list string * region)) (extended : ext_arg)
  (norm : option region) : ufb :=
  let yield := match extended with
               | ExtNone => p_yield b
               | ExtFalse => None
               | ExtTrue => Some 1%Q
               | ExtYield y => Some y
               end in
  let space := match obs with Some s => s | None => (bobs, l_ranges (p_space b)) end in
  Ufb (fst space) (snd space) (match norm with Some n => n | None => snd space end) yield b bobs.

(** models/unbinnedpdf.py:76-88, 91-104: the content of the bin of an event, of the histogram
    with one bin of zeros on each side. *)
Definition own_bins (u : ufb) : bspace := BSpace (f_bobs u) (own_edges (f_binned u)).
Definition step_value (u : ufb) (values : result tensor) (row : list Q) : result Q :=
  let* l := binindex_row (own_bins u) (f_obs u) row in
  let* t := values in Ok (t_get (pad t) (map flow_index l)).

(** 82, 97, 108: [norm if norm is False else self._binned_norm], the latter being the norm of the
    binned PDF. (It is in the order of the own observables, 73; the comparison of spaces in
    Bpdf_Model.v knows one order only, so with another order only calls without norm are
    modelled.) *)
Definition binned_norm (u : ufb) (nm : norm region) : normarg :=
  match nm with
  | NoNorm | NormFalse => NFalse
  | Norm _ => NSpace (norm_of (f_binned u))
  end.

(** The limits get the binning of the binned PDF with the axes in the order of the limits
    (core/binnedpdf.py:276-283, core/space.py:1379-1391), while the contents stay in that of the
    binned PDF. Several limits have no [with_binning] (core/space.py:2143, 2677). *)
Definition binned_limits (u : ufb) (l : region) : result lspace :=
  let* s := with_binning (f_obs u) (combine (f_bobs u) (own_edges (f_binned u))) in
  Ok (LSpace l (Some (b_edges s))).

(** What the dispatch sees of a result. *)
Definition of_q (r : result Q) : outcome :=
  match r with
  | Ok q => Val (Q2R q)
  | Err SpecificFunctionNotImplemented => ENotImpl
  | Err NormNotImplemented => ENorm
  | Err MultipleLimitsNotImplemented => EMulti
  | Err _ => EOther
  end.

Definition region_eqb (a b : region) : bool := list_eqb range_eqb a b.

(** The class: [_pdf], [_ext_pdf] and [_integrate], all with [supports(norm="norm",
    multiple_limits=True)] (75-109). [_ext_integrate] (111-114) is not used by unbinned PDFs. *)
Definition ufb_supp : supp := mkSupp false false true true.
Definition ufb_model (u : ufb) (m : nat) : model region (list Q) :=
  mkModel
    (fun ls => match ls with [l] => region_eqb (f_space u) l | _ => false end)
    (fun ls => match ls with [l] => region_eqb (f_norm u) l | _ => false end)
    (Some (mkHook ufb_supp (fun ls nm =>
       match ls with
       | [l] => of_q (let* s := binned_limits u l in Bpdf_Model.integrate (f_binned u) m (Some s) (Some (binned_norm u nm)))
       | _ => EOther
       end)))
    None (fun _ => None) None (fun _ => EOther) None
    (Some (mkPhook ufb_supp (fun row nm =>
       of_q (step_value u (Bpdf_Model.pdf (f_binned u) m (Some (binned_norm u nm))) row))))
    None
    (Some (mkPhook ufb_supp (fun row nm =>
       of_q (step_value u (Bpdf_Model.ext_pdf (f_binned u) m (Some (binned_norm u nm))) row))))
    None (fun _ => ENotImpl) (option_map Q2R (f_yield u)).

(** The calls of users: [norm] is None, False or a box. *)
Inductive unorm : Type := UOwn | UFalse | UBox (l : region).
Definition norm_arg (u : ufb) (nm : unorm) : norm region :=
  match nm with UOwn => Norm [f_norm u] | UFalse => NormFalse | UBox l => Norm [l] end.
Definition ufb_pdf (u : ufb) (m : nat) (row : list Q) (nm : unorm) : outcome :=
  pdf (ufb_model u m) row (norm_arg u nm).
Definition ufb_ext_pdf (u : ufb) (m : nat) (row : list Q) (nm : unorm) : outcome :=
  ext_pdf (ufb_model u m) row (norm_arg u nm).
Definition ufb_integrate (u : ufb) (m : nat) (ls : list region) (nm : unorm) : outcome :=
  integrate (ufb_model u m) ls (norm_arg u nm).
Definition ufb_ext_integrate (u : ufb) (m : nat) (ls : list region) (nm : unorm) : outcome :=
  ext_integrate (ufb_model u m) ls (norm_arg u nm).

(** ** Samples *)

(** [znp.asarray(counts, int32)] and [tf.repeat]: the bins in order, each as often as the whole
    part of its content; a negative one raises. *)
Definition whole_part (q : Q) : Z := Z.quot (Qnum q) (Zpos (Qden q)).
Definition places (counts : tensor) : result (list (list nat)) :=
  if existsb (fun idx => Z.ltb (whole_part (t_get counts idx)) 0) (indices (t_shape counts))
  then Err InvalidArgumentError
  else Ok (flat_map (fun idx => repeat idx (Z.to_nat (whole_part (t_get counts idx)))) (indices (t_shape counts))).
(** [prng.uniform] between the edges of the bin, from numbers between zero and one. *)
Fixpoint point (edges : list (list Q)) (idx : list nat) (us : list Q) : list Q :=
  match edges, idx, us with
  | e :: edges', i :: idx', v :: us' =>
      (nth i e 0 + v * (nth (S i) e 0 - nth i e 0))%Q :: point edges' idx' us'
  | _, _, _ => []
  end.
Fixpoint points_at (edges : list (list Q)) (k : nat) (draw : nat -> list Q) (ps : list (list nat)) : list (list Q) :=
  match ps with
  | [] => []
  | p :: ps' => point edges p (draw k) :: points_at edges (S k) draw ps'
  end.
(** models/unbinnedpdf.py:117-145 [_sample]: the limits are not used. *)
Definition raw_sample (u : ufb) (m : nat) (poisson : Q -> Q) (multinomial : Q -> tensor -> tensor)
  (draw : nat -> list Q) (n : Q) : result (list (list Q)) :=
  let* counts := Bpdf_Model.sample (f_binned u) poisson multinomial m (Some n) None in
  let* ps := places counts in
  Ok (points_at (own_edges (f_binned u)) 0 draw ps).
(** core/basemodel.py:1147-1200 [sample]: the columns are named after the limits, and only the
    rows inside of them are kept (see C21, C59). *)
Fixpoint in_limits (l : region) (row : list Q) : bool :=
  match l, row with
  | [], [] => true
  | r :: l', x :: row' => Qle_bool (fst r) x && Qle_bool x (snd r) && in_limits l' row'
  | _, _ => false
  end.
(** core/basepdf.py:773-790, core/sample.py:499-551: without a number, the daughter is asked for
    a sample if it is extended, and that sample has no method [value]. *)
Definition ufb_sample (u : ufb) (m : nat) (poisson : Q -> Q) (multinomial : Q -> tensor -> tensor)
  (draw : nat -> list Q) (n : option Q) (limits : option region) : result udata :=
  let l := match limits with Some l => l | None => f_space u end in
  let* k := match n, f_yield u with
            | Some k, _ => Ok k
            | None, None => Err ValueError
            | None, Some y => match p_yield (f_binned u) with
                              | Some _ => Err AttributeError
                              | None => Ok (poisson y)
                              end
            end in
  let* rows := raw_sample u m poisson multinomial draw k in
  Ok (UData (f_obs u) (filter (in_limits l) rows) None).

(** ** Splines *)

(** models/interpolation.py:44-98: [interpolate] is [interpolate_spline] with its order on the
    densities of the bins. The density always uses the order three (97), the extended density,
    unless a yield is given, the order asked for (84). *)
Definition spline_order (order : option nat) : nat := match order with Some o => o | None => 3 end.
Definition spline_pdf (interpolate : nat -> tensor -> list Q -> Q) (b : bpdf) (m : nat) (order : option nat)
  (nm : normarg) (row : list Q) : result Q :=
  let* t := Bpdf_Model.pdf b m (Some nm) in Ok (interpolate 3 t row).
Definition spline_ext_pdf (interpolate : nat -> tensor -> list Q -> Q) (b : bpdf) (m : nat) (order : option nat)
  (nm : normarg) (row : list Q) : result Q :=
  let* t := Bpdf_Model.ext_pdf b m (Some nm) in Ok (interpolate (spline_order order) t row).
