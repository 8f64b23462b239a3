(** Model of plotting: zfit/util/plotter.py [plot_model_pdfV1], [plot_sumpdf_components_pdfV1], [PDFPlotter], [SumCompPlotter],
    and the densities of sums, zfit/models/functor.py and basefunctor.py, at one parameter point.

    Simplifications, everywhere in this file:
    - numbers are rational; a density is any function; all PDFs of a sum have the norm of the sum;
    - what is drawn is a list of curves; the axes of matplotlib, the labels of the axes and the legend are left out;
    - the plotting function is the default one, and of [plotkwargs] only the label is kept. *)
From Verif Require Import Base.
Open Scope Q_scope.
Open Scope string_scope.
Open Scope list_scope.

(** A PDF: its label, its observables with the limits if it has any, its yield if it is extended, and its density in one
    observable: its own if it has just one, else that of [create_projection_pdf] (plotter.py:117-121). For sums of extended PDFs the sum of
    the extended densities (models/functor.py:198-206) is the same as the density times the yield. *)
Record pdf := mkPdf {
  p_label : string; p_obs : list string; p_limits : string -> option (Q * Q);
  p_yield : option Q; p_density : string -> Q -> Q }.
(** core/basepdf.py:349-362 [ext_pdf] *)
Definition ext_density (m : pdf) (ob : string) (x : Q) : result Q :=
  match p_yield m with Some y => Ok (p_density m ob x * y) | None => Err NotExtendedPDFError end.

(** The argument [obs]: a name, or a space with limits *)
Inductive obs_arg := Name (ob : string) | Limited (ob : string) (lower upper : Q).
(** [label]: no [plotkwargs], or [plotkwargs] with or without a label *)
Record args := mkArgs {
  a_extended : option bool; a_obs : option obs_arg; a_scale : option Q; a_num : option nat; a_full : option bool;
  a_style : option string; a_kwargs : option (option string) }.
Record curve := mkCurve { c_points : list (Q * Q); c_label : option string; c_style : option string }.

(** numpy.linspace, used in plotter.py:123 *)
Definition linspace (lower upper : Q) (num : nat) : list Q :=
  map (fun i => lower + (upper - lower) * (inject_Z (Z.of_nat i) / inject_Z (Z.of_nat (num - 1)))) (seq 0 num).

Definition or_else {A} (x : option A) (d : A) : A := match x with Some v => v | None => d end.

(** plotter.py:101-116: the observable and the limits *)
Definition range (m : pdf) (o : option obs_arg) : result (string * (Q * Q)) :=
  match o with
  | None =>
      match p_obs m with
      | [ob] => match p_limits m ob with Some l => Ok (ob, l) | None => Err ValueError end
      | _ => Err ValueError
      end
  | Some (Limited ob lower upper) => Ok (ob, (lower, upper))
  | Some (Name ob) =>
      if mem String.eqb ob (p_obs m) then match p_limits m ob with Some l => Ok (ob, l) | None => Err ValueError end
      else Err ObsIncompatibleError
  end.

(** plotter.py:54-140 [plot_model_pdfV1]: the curve, and [plotkwargs] afterwards: the label is written into the dictionary (132-133) *)
Definition plot_model (m : pdf) (a : args) : result (curve * option (option string)) :=
  let extended := or_else (a_extended a) (match p_yield m with Some _ => true | None => false end) in
  let scale := or_else (a_scale a) 1 in
  let num := or_else (a_num a) 300%nat in
  let full := or_else (a_full a) true in
  let kwargs := or_else (a_kwargs a) None in
  match range m (a_obs a) with
  | Err e => Err e
  | Ok (ob, (lower, upper)) =>
      let xs := linspace lower upper num in
      match (if extended then mapM (ext_density m ob) xs else Ok (map (p_density m ob) xs)) with
      | Err e => Err e
      | Ok ys =>
          let label := match kwargs with
                       | Some l => Some l
                       | None => if full then Some (p_label m) else None
                       end in
          Ok (mkCurve (combine xs (map (fun y => y * scale) ys)) label (a_style a),
              match a_kwargs a with None => None | Some _ => Some label end)
      end
  end.

Definition with_scale (a : args) (s : Q) : args :=
  mkArgs (a_extended a) (a_obs a) (Some s) (a_num a) (a_full a) (a_style a) (a_kwargs a).
Definition with_kwargs (a : args) (k : option (option string)) : args :=
  mkArgs (a_extended a) (a_obs a) (a_scale a) (a_num a) (a_full a) (a_style a) k.

(** The curves that are drawn, [plotkwargs] afterwards, and the exception, if any *)
Fixpoint plot_parts (parts : list (pdf * Q)) (scale : Q) (a : args) : list curve * option (option string) * result unit :=
  match parts with
  | [] => ([], a_kwargs a, Ok tt)
  | (m, frac) :: parts =>
      match plot_model m (with_scale a (frac * scale)) with
      | Err e => ([], a_kwargs a, Err e)
      | Ok (c, k) =>
          let '(cs, k, r) := plot_parts parts scale (with_kwargs a k) in (c :: cs, k, r)
      end
  end.

(** models/functor.py:135-168, basefunctor.py:155-252: a sum of PDFs with the fractions that are given, or those of the yields *)
Record sum_pdf := mkSum { s_pdf : pdf; s_parts : list (pdf * Q) }.
Fixpoint total (l : list Q) : Q := match l with [] => 0 | x :: l => x + total l end.
Definition sum_density (parts : list (pdf * Q)) (ob : string) (x : Q) : Q :=
  total (map (fun p => p_density (fst p) ob x * snd p) parts).
(** with fractions; extended if a yield is given (functor.py:161-166) *)
Definition sum_of_fracs (label : string) (obs : list string) (limits : string -> option (Q * Q)) (yield : option Q)
  (parts : list (pdf * Q)) : sum_pdf :=
  mkSum (mkPdf label obs limits yield (sum_density parts)) parts.
(** without: all the PDFs are extended; the yield of the sum is the sum of the yields, the fractions are the yields divided by it
    (basefunctor.py:224-240) *)
Definition sum_of_yields (label : string) (obs : list string) (limits : string -> option (Q * Q)) (pdfs : list pdf) : result sum_pdf :=
  match all_some (map p_yield pdfs) with
  | None => Err ValueError
  | Some yields =>
      let y := total yields in
      let parts := combine pdfs (map (fun yi => yi / y) yields) in
      Ok (mkSum (mkPdf label obs limits (Some y) (sum_density parts)) parts)
  end.

(** plotter.py:251-262 [SumCompPlotter._plotpdf] *)
Definition plot_components (s : sum_pdf) (a : args) : list curve * option (option string) * result unit :=
  plot_parts (s_parts s) (or_else (a_scale a) 1) a.
(** 20-51 [plot_sumpdf_components_pdfV1]: fewer arguments; one dictionary [plotkwargs] for all (46-47), '--' by default *)
Definition plot_sumpdf_components (s : sum_pdf) (scale : Q) (style : option string) (kwargs : option (option string))
  : list curve * option (option string) * result unit :=
  plot_parts (s_parts s) scale
    (mkArgs None None None None None (Some (or_else style "--")) (Some (or_else kwargs None))).

(** 205-236 [PDFPlotter]: the defaults for some arguments, and another function for plotting *)
Record plotter := mkPlotter {
  pl_pdf : option pdf;
  pl_custom : option (pdf -> args -> result (curve * option (option string)));
  pl_scale : option Q; pl_num : option nat; pl_extended : option bool }.
Definition prefer {A} (x y : option A) : option A := match x with Some _ => x | None => y end.
(** 154-195, 228-230: the defaults replace the arguments *)
Definition plotpdf (p : plotter) (a : args) : result (curve * option (option string)) :=
  match pl_pdf p with
  | None => Err ValueError
  | Some m =>
      plot_model m (mkArgs (prefer (pl_extended p) (a_extended a)) (a_obs a) (prefer (pl_scale p) (a_scale a))
                      (prefer (pl_num p) (a_num a)) (a_full a) (a_style a) (a_kwargs a))
  end.
