(** Binned PDFs: how [pdf], [ext_pdf], [counts], [rel_counts], [normalization], [integrate] and
    [ext_integrate] are obtained from the methods that a class implements
    (core/binnedpdf.py), and the binned PDFs that zfit has (models/histogram.py, template.py,
    histmodifier.py, binned_functor.py, morphing.py, tobinned.py).

    Numbers are rationals, a histogram is a tensor of Hist_Model.v with the bins of the space
    as its shape. The methods do not get the argument [x]: all classes return the whole
    histogram, and [x] only decides how it is read out (last section). Spaces have a single
    limit; parameters are their values. *)
From Verif Require Import Base Hist_Model BInt_Model.
#[local] Open Scope nat_scope.

(** The argument [norm] once it is converted: the value False, or a space. *)
Inductive normarg : Type := NFalse | NSpace (s : lspace).

(** Equality of spaces (core/space.py: limits and binning), with exact comparison of numbers;
    the observables are the same for all spaces of a PDF. *)
Fixpoint list_eqb {A} (eqb : A -> A -> bool) (a b : list A) : bool :=
  match a, b with
  | [], [] => true
  | x :: a', y :: b' => eqb x y && list_eqb eqb a' b'
  | _, _ => false
  end.
Definition range_eqb (a b : Q * Q) : bool := Qeq_bool (fst a) (fst b) && Qeq_bool (snd a) (snd b).
Definition lspace_eqb (a b : lspace) : bool :=
  list_eqb range_eqb (l_ranges a) (l_ranges b) &&
  match l_binning a, l_binning b with
  | None, None => true
  | Some x, Some y => list_eqb (list_eqb Qeq_bool) x y
  | _, _ => false
  end.

(** Elementwise operations; broadcasting is not needed. *)
Definition tmap (f : Q -> Q) (t : tensor) : tensor := Tensor (t_shape t) (fun i => f (t_get t i)).
Definition tmap2 (f : Q -> Q -> Q) (a b : tensor) : tensor :=
  Tensor (t_shape a) (fun i => f (t_get a i) (t_get b i)).
Definition tsum (t : tensor) : Q := qsum (flatten t).

(** A method of a class: what its decorator [supports] allows (core/space.py:3358-3397; a method
    without decorator gets every norm, as with [norm=True]), and the method itself. *)
Record hook : Type := Hook { k_true : bool; k_space : bool; k_norm : bool; k_fun : normarg -> result tensor }.

(** A binned PDF (core/binnedpdf.py:91-120): space (with a binning), norm if one is given, yield,
    and the methods its class overrides ([None]: those of the base class, which raise
    SpecificFunctionNotImplemented). The methods giving numbers are those after decoration. *)
Record bpdf : Type := Bpdf {
  p_space : lspace;
  p_norm : option lspace;
  p_yield : option Q;
  p_pdf : option hook;
  p_ext_pdf : option hook;
  p_counts : option hook;
  p_rel_counts : option hook;
  p_log_pdf : option hook;
  p_unnormalized : option (result tensor);
  p_normalization : option (lspace -> result Q);
  p_ext_normalization : option (lspace -> result Q);
  p_integrate : option (lspace -> normarg -> result Q);
  p_ext_integrate : option (lspace -> normarg -> result Q);
  p_sample : option (Q -> lspace -> result tensor) }.

Definition own_edges (b : bpdf) : list (list Q) :=
  match l_binning (p_space b) with Some e => e | None => [] end.
(** core/binnedpdf.py:1071-1076 [norm] *)
Definition norm_of (b : bpdf) : lspace := match p_norm b with Some s => s | None => p_space b end.
(** core/binnedpdf.py:1027-1030 [get_yield] *)
Definition get_yield (b : bpdf) : result Q := opt_result NotExtendedPDFError (p_yield b).
(** [np.prod(self.space.binning.widths, axis=0)] *)
Definition areas (b : bpdf) : tensor :=
  Tensor (map (fun e => length e - 1) (own_edges b)) (area (map widths (own_edges b))).

(** [with suppress(SpecificFunctionNotImplemented): return r], and then [k] *)
Definition suppress {A} (r k : result A) : result A :=
  match r with Err SpecificFunctionNotImplemented => k | _ => r end.

(** core/space.py:3226-3291 [check_norm] and the method; spaces with limits False are not
    modelled. *)
Definition deco (b : bpdf) (h : option hook) (nm : normarg) : result tensor :=
  match h with
  | None => Err SpecificFunctionNotImplemented
  | Some h =>
      match nm with
      | NFalse => k_fun h NFalse
      | NSpace s =>
          if k_true h || (k_space h && lspace_eqb (p_space b) s) || (k_norm h && lspace_eqb (norm_of b) s)
          then k_fun h nm else Err NormNotImplemented
      end
  end.
Definition opt_method {A} (r : option (result A)) : result A :=
  match r with Some r => r | None => Err SpecificFunctionNotImplemented end.

(** core/binnedpdf.py:353-360, 445-452, 1215-1222, 1298-1305 [_auto_*]: a method, and, if it does
    not support the norm, the method without norm divided by [z]. *)
Definition auto (f : normarg -> result tensor) (z : result Q) (nm : normarg) : result tensor :=
  match f nm with
  | Err NormNotImplemented => let* u := f NFalse in let* d := z in Ok (tmap (fun v => v / d)%Q u)
  | r => r
  end.

(** core/binnedpdf.py:751-755, 816-820: the integral of a histogram over the limits, with the
    edges of the binning of the limits. *)
Definition rect (lim : lspace) (counts : tensor) : result Q :=
  match l_binning lim with
  | None => Err AttributeError
  | Some e => let* r := binned_rect_integration (l_ranges lim) e (Some counts) None None in Ok (t_get r [])
  end.

Section Dispatch.
Variable b : bpdf.

Definition divide_areas (r : result tensor) : result tensor :=
  let* t := r in Ok (tmap2 Qdiv t (areas b)).

(** The methods call each other; [n] bounds the depth of the calls, as the limit of Python does
    (RecursionError is a RuntimeError).

    core/binnedpdf.py:285-287, 345-369 [_pdf], [_call_pdf], [_auto_pdf], [_fallback_pdf];
    1286-1309 [_call_rel_counts], [_auto_rel_counts], [_fallback_rel_counts];
    696-701 [_call_normalization]; 743-769 [_call_integrate], [_auto_integrate],
    [_fallback_integrate] (a method that does not support the norm is asked once without). *)
Fixpoint call_pdf (n : nat) (nm : normarg) {struct n} : result tensor :=
  match n with
  | 0 => Err RuntimeError
  | S n =>
      suppress
        (auto (fun nm => match p_pdf b with
                         | Some h => deco b (Some h) nm
                         | None => divide_areas (call_rel_counts n nm)
                         end) (normalization n nm) nm)
        (suppress (divide_areas (auto (deco b (p_rel_counts b)) (normalization n nm) nm))
           (let* v := opt_method (p_unnormalized b) in
            match nm with
            | NFalse => Ok v
            | NSpace _ => let* z := normalization n nm in Ok (tmap (fun x => x / z)%Q v)
            end))
  end
with call_rel_counts (n : nat) (nm : normarg) {struct n} : result tensor :=
  match n with
  | 0 => Err RuntimeError
  | S n =>
      suppress (auto (deco b (p_rel_counts b)) (normalization n nm) nm)
        (suppress
           (let* c := auto (deco b (p_counts b)) (normalization n nm) nm in
            let* y := get_yield b in Ok (tmap (fun v => v / y)%Q c))
           (let* d := call_pdf n nm in Ok (tmap2 Qmult d (areas b))))
  end
with normalization (n : nat) (nm : normarg) {struct n} : result Q :=
  match n with
  | 0 => Err RuntimeError
  | S n =>
      match nm with
      | NFalse => Err AttributeError
      | NSpace s =>
          suppress (match p_normalization b with Some f => f s | None => Err SpecificFunctionNotImplemented end)
            (call_integrate n s NFalse)
      end
  end
with call_integrate (n : nat) (lim : lspace) (nm : normarg) {struct n} : result Q :=
  match n with
  | 0 => Err RuntimeError
  | S n =>
      suppress
        match p_integrate b with
        | None => Err SpecificFunctionNotImplemented
        | Some f =>
            match f lim nm with
            | Err NormNotImplemented => let* u := f lim NFalse in let* z := normalization n nm in Ok (u / z)%Q
            | r => r
            end
        end
        (let* c := call_rel_counts n nm in rect lim c)
  end.

(** core/binnedpdf.py:1169-1173, 1215-1225 [_call_counts], [_auto_counts], [_fallback_counts] *)
Definition call_counts (n : nat) (nm : normarg) : result tensor :=
  suppress (auto (deco b (p_counts b)) (normalization n nm) nm)
    (let* r := auto (deco b (p_rel_counts b)) (normalization n nm) nm in
     let* y := get_yield b in Ok (tmap (fun v => v * y)%Q r)).

(** core/binnedpdf.py:1198-1213 [ext_normalization], [_call_ext_normalization] *)
Definition ext_normalization (n : nat) (nm : normarg) : result Q :=
  let* _ := get_yield b in
  match nm with
  | NFalse => Err AttributeError
  | NSpace s =>
      suppress (match p_ext_normalization b with Some f => f s | None => Err SpecificFunctionNotImplemented end)
        (let* z := normalization n nm in let* y := get_yield b in Ok (z / y)%Q)
  end.

(** core/binnedpdf.py:437-456 [_call_ext_pdf], [_auto_ext_pdf], [_fallback_ext_pdf] *)
Definition call_ext_pdf (n : nat) (nm : normarg) : result tensor :=
  suppress (auto (deco b (p_ext_pdf b)) (ext_normalization n nm) nm)
    (suppress (divide_areas (auto (deco b (p_counts b)) (normalization n nm) nm))
       (let* v := call_pdf n nm in let* y := get_yield b in Ok (tmap (fun x => x * y)%Q v))).

(** core/binnedpdf.py:810-834 [_call_ext_integrate], [_auto_ext_integrate],
    [_fallback_ext_integrate] *)
Definition call_ext_integrate (n : nat) (lim : lspace) (nm : normarg) : result Q :=
  suppress
    match p_ext_integrate b with
    | None => Err SpecificFunctionNotImplemented
    | Some f =>
        match f lim nm with
        | Err NormNotImplemented => let* u := f lim NFalse in let* z := ext_normalization n nm in Ok (u / z)%Q
        | r => r
        end
    end
    (let* c := call_counts n nm in rect lim c).

(** core/binnedpdf.py:262-274 [_check_convert_norm], 276-283 [_check_convert_limits]: the own
    binning is added to spaces without one. Values that are neither None, False nor a space
    are not modelled. *)
Definition with_own_binning (s : lspace) : lspace :=
  match l_binning s with
  | Some _ => s
  | None => LSpace (l_ranges s) (Some (own_edges b))
  end.
Definition convert_norm (norm : option normarg) : normarg :=
  match norm with
  | None => NSpace (with_own_binning (norm_of b))
  | Some NFalse => NFalse
  | Some (NSpace s) => NSpace (with_own_binning s)
  end.
Definition convert_limits (limits : option lspace) : lspace :=
  match limits with None => with_own_binning (p_space b) | Some s => with_own_binning s end.

(** The methods that users call, for the histogram as a whole (core/binnedpdf.py:289-343,
    378-435, 707-741, 771-808, 1112-1167, 1231-1284). *)
Definition pdf (n : nat) (norm : option normarg) : result tensor := call_pdf n (convert_norm norm).
Definition rel_counts_of (n : nat) (norm : option normarg) : result tensor := call_rel_counts n (convert_norm norm).
Definition counts (n : nat) (norm : option normarg) : result tensor :=
  let* _ := get_yield b in call_counts n (convert_norm norm).
Definition ext_pdf (n : nat) (norm : option normarg) : result tensor :=
  let* _ := get_yield b in call_ext_pdf n (convert_norm norm).
Definition integrate (n : nat) (limits : option lspace) (norm : option normarg) : result Q :=
  call_integrate n (convert_limits limits) (convert_norm norm).
Definition ext_integrate (n : nat) (limits : option lspace) (norm : option normarg) : result Q :=
  let* _ := get_yield b in call_ext_integrate n (convert_limits limits) (convert_norm norm).
(** core/binnedpdf.py:984-1005 [values] *)
Definition hist_values (n : nat) : result tensor :=
  match p_yield b with Some _ => counts n None | None => rel_counts_of n None end.

(** core/binnedpdf.py:518-537, 655-660 [_call_log_pdf], [_auto_log_pdf] and
    [_call_log_normalization], with [log] the logarithm. [_log_normalization] of the base class
    does not take the [options] it is given: TypeError. *)
Definition call_log_pdf (log : Q -> Q) (n : nat) (nm : normarg) : result tensor :=
  suppress
    match deco b (p_log_pdf b) nm with
    | Err NormNotImplemented => let* _ := deco b (p_log_pdf b) NFalse in Err TypeError
    | r => r
    end
    (let* v := call_pdf n nm in Ok (tmap log v)).
Definition log_pdf (log : Q -> Q) (n : nat) (norm : option normarg) : result tensor :=
  call_log_pdf log n (convert_norm norm).

(** core/binnedpdf.py:930-983 [sample]: the own method is called and its result dropped
    (967-969); [poisson] and [multinomial] are what the generators give. WorkInProgressError is
    not one of the errors of the model: NotImplementedError. *)
Definition sample (poisson : Q -> Q) (multinomial : Q -> tensor -> tensor)
  (n : nat) (events : option Q) (limits : option lspace) : result tensor :=
  let* k := match events with
            | Some k => Ok k
            | None => match p_yield b with Some y => Ok (poisson y) | None => Err ValueError end
            end in
  let lim := convert_limits limits in
  let* _ := suppress (match p_sample b with Some f => let* _ := f k lim in Ok tt | None => Err SpecificFunctionNotImplemented end) (Ok tt) in
  if lspace_eqb lim (p_space b) then
    let* probs := rel_counts_of n None in Ok (multinomial k probs)
  else Err NotImplementedError.
End Dispatch.

(** ** The classes *)

(** The argument [extended] *)
Inductive ext_arg : Type := ExtNone | ExtFalse | ExtTrue | ExtYield (y : Q).

(** models/histogram.py:16-94 [HistogramPDF]. By default [extended=True]. *)
Definition histogram_pdf (space : lspace) (data : tensor) (extended : ext_arg) (norm : option lspace) : bpdf :=
  let auto_extended := match extended with ExtNone | ExtTrue => true | _ => false end in
  let yield := match extended with
               | ExtNone | ExtTrue => Some (tsum data)
               | ExtYield y => Some y
               | ExtFalse => None
               end in
  let base := Bpdf space norm yield None None None None None None None None None None None in
  let counts_hook := Hook false true false (fun _ => if auto_extended then Ok data else Err SpecificFunctionNotImplemented) in
  let rel_hook := Hook false true false (fun _ => Ok (rel_counts data)) in
  let per_area r := divide_areas base r in
  Bpdf space norm yield
    (Some (Hook false true false (fun nm => per_area (deco base (Some rel_hook) nm))))
    (Some (Hook false true false (fun nm => if auto_extended then per_area (deco base (Some counts_hook) nm)
                                            else Err SpecificFunctionNotImplemented)))
    (Some counts_hook) (Some rel_hook) None None None None None None None.

(** models/template.py:13-84 [BinnedTemplatePDFV1]; [sysshape] is the tensor of the factors, or
    none. [_ext_pdf] has no decorator, [_pdf] has [norm=False]. With [extended=False] an
    attribute is missing, but nothing that reads it is called. *)
Definition template_pdf (space : lspace) (data : tensor) (sysshape : option tensor) (extended : ext_arg)
  (norm : option lspace) : bpdf :=
  let auto_extended := match extended with ExtNone | ExtTrue => true | _ => false end in
  let contents := match sysshape with None => data | Some s => tmap2 Qmult data s end in
  let yield := match extended with
               | ExtNone | ExtTrue => Some (tsum contents)
               | ExtYield y => Some y
               | ExtFalse => None
               end in
  let base := Bpdf space norm yield None None None None None None None None None None None in
  let counts_hook := Hook false false true (fun _ => if auto_extended then Ok contents else Err SpecificFunctionNotImplemented) in
  let rel_hook := Hook false false true (fun _ => Ok (rel_counts contents)) in
  Bpdf space norm yield
    (Some (Hook false false false (fun nm => divide_areas base (deco base (Some rel_hook) nm))))
    (Some (Hook true false false (fun nm => divide_areas base (deco base (Some counts_hook) nm))))
    (Some counts_hook) (Some rel_hook) None None None None None None None.

(** models/histmodifier.py:23-128 [BinwiseScaleModifier] of the PDF [d]; [modifiers] is the
    tensor of the modifiers, or none (an empty dict). By default extended if [d] is. The yield
    made automatically is the sum of [counts()]. With [extended=False] the attribute that
    [_counts] reads is missing. [m]: depth for the calls of the daughter. *)
Definition modified (m : nat) (d : bpdf) (modifiers : option tensor) (nm : normarg) : result tensor :=
  let* v := counts d m (Some nm) in
  Ok match modifiers with None => v | Some s => tmap2 Qmult v s end.
Definition modifier_pdf (m : nat) (d : bpdf) (modifiers : option tensor) (extended : ext_arg)
  (norm : option lspace) : result bpdf :=
  let space := p_space d in
  let ext := match extended with
             | ExtNone => match p_yield d with Some _ => ExtTrue | None => ExtFalse end
             | e => e
             end in
  let counts_hook :=
    Hook true false false (fun nm => match ext with
                                     | ExtFalse => Err AttributeError
                                     | ExtYield _ => Err SpecificFunctionNotImplemented
                                     | _ => modified m d modifiers nm
                                     end) in
  let rel_hook := Hook false true false (fun nm => let* v := modified m d modifiers nm in Ok (rel_counts v)) in
  let make yield := Bpdf space norm yield None None (Some counts_hook) (Some rel_hook) None None None None None None None in
  let* yield :=
    match ext with
    | ExtFalse => Ok None
    | ExtYield y => Ok (Some y)
    | _ => match modifiers with
           | None => let* y := get_yield d in Ok (Some y)
           | Some _ =>
               let* v := modified m d modifiers (NSpace (match norm with Some s => s | None => space end)) in
               Ok (Some (tsum v))
           end
    end in
  Ok (make yield).

(** [znp.sum(ts, axis=0)] *)
Definition zeros (shape : list nat) : tensor := Tensor shape (fun _ => 0%Q).
Definition tsum_all (shape : list nat) (ts : list tensor) : tensor := fold_right (tmap2 Qplus) (zeros shape) ts.
Definition bins (space : lspace) : list nat :=
  match l_binning space with Some e => map (fun x => length x - 1) e | None => [] end.

(** models/binned_functor.py:39-163 [BinnedSumPDF] once the fractions are there
    ([_preprocess_init_sum], see Sum_Model.v): [pdfs] with their fractions; the observables of the daughters are in
    the order of the sum. [equal_norm_ranges]: all norms of the daughters equal [norm]. *)
Definition sum_all_of (f : bpdf * Q -> result tensor) (space : lspace) (ds : list (bpdf * Q)) : result tensor :=
  let* ts := mapM f ds in Ok (tsum_all (bins space) ts).
Definition equal_norms (ds : list (bpdf * Q)) (nm : normarg) : bool :=
  match nm with
  | NFalse => true
  | NSpace s => forallb (fun d => lspace_eqb (norm_of (fst d)) s) ds
  end.
Definition checked (ds : list (bpdf * Q)) (f : result tensor) : hook :=
  Hook true false false (fun nm => if equal_norms ds nm then f else Err NormNotImplemented).
Definition sum_pdf (m : nat) (space : lspace) (ds : list (bpdf * Q)) (yield : option Q) : bpdf :=
  Bpdf space None yield
    (Some (checked ds (sum_all_of (fun d => let* t := pdf (fst d) m None in Ok (tmap (fun v => v * snd d)%Q t)) space ds)))
    (Some (checked ds (sum_all_of (fun d => ext_pdf (fst d) m None) space ds)))
    (Some (checked ds (sum_all_of (fun d => counts (fst d) m None) space ds)))
    (Some (checked ds (sum_all_of (fun d => let* t := rel_counts_of (fst d) m None in Ok (tmap (fun v => v * snd d)%Q t)) space ds)))
    None None None None None None None.
(** Without fractions, all daughters extended: the fractions are those of the yields
    (models/basefunctor.py:224-240, binned_functor.py:112-119). *)
Definition sum_of_yields (ds : list bpdf) : result Q :=
  let* ys := mapM get_yield ds in Ok (qsum ys).
Definition sum_pdf_extended (m : nat) (space : lspace) (ds : list bpdf) : result bpdf :=
  let* ys := mapM get_yield ds in
  let total := qsum ys in
  Ok (sum_pdf m space (combine ds (map (fun y => y / total)%Q ys)) (Some total)).

(** models/morphing.py:19-154 [SplineMorphingPDF] at one value of the parameter: the
    interpolation [interpolate_spline] is linear in the values, so it is given by the weights of
    the histograms, which depend on the parameter and the points only. All norms are handed on
    to the histograms. *)
Definition interpolate (shape : list nat) (ws : list Q) (ts : list tensor) : tensor :=
  tsum_all shape (map (fun p => tmap (Qmult (fst p)) (snd p)) (combine ws ts)).
Definition interpolate_scalar (ws ys : list Q) : Q := qsum (map (fun p => fst p * snd p)%Q (combine ws ys)).
Definition morphing_pdf (m : nat) (ws : list Q) (hists : list bpdf) (extended : ext_arg) (norm : option lspace) : result bpdf :=
  let* space := match hists with h :: _ => Ok (p_space h) | [] => Err (UserError 0) end in
  let all_extended := forallb (fun h => match p_yield h with Some _ => true | None => false end) hists in
  let ext := match extended with ExtNone => if all_extended then ExtTrue else ExtFalse | e => e end in
  let* yield := match ext with
                | ExtTrue => if all_extended then let* ys := mapM get_yield hists in Ok (Some (interpolate_scalar ws ys))
                             else Err ValueError
                | ExtYield y => Ok (Some y)
                | _ => Ok None
                end in
  let auto_extended := match ext with ExtTrue => true | _ => false end in
  let method f := fun nm => let* ts := mapM (fun h => f h nm) hists in Ok (interpolate (bins space) ws ts) in
  let only_auto f := fun nm : normarg => if auto_extended then f nm else Err SpecificFunctionNotImplemented in
  let plain f := Some (Hook true false false f) in
  Ok (Bpdf space norm yield
        (plain (method (fun h nm => pdf h m (Some nm))))
        (plain (only_auto (method (fun h nm => ext_pdf h m (Some nm)))))
        (plain (only_auto (method (fun h nm => counts h m (Some nm)))))
        (plain (method (fun h nm => rel_counts_of h m (Some nm))))
        None None None None None None None).

(** models/tobinned.py:26-211 [BinnedFromUnbinnedPDF] of an unbinned PDF: [ints] are its
    unnormalised integrals over the bins, [unorm] is its [normalization], [uyield] its yield
    ([ext_integrate] is the integral times the yield, see C18). *)
Definition from_unbinned (space : lspace) (ints : tensor) (unorm : lspace -> Q) (uyield : option Q)
  (extended : ext_arg) (norm : option lspace) : bpdf :=
  let yield := match extended with
               | ExtNone => uyield
               | ExtFalse => None
               | ExtTrue => Some 1%Q
               | ExtYield y => Some y
               end in
  let divided nm (t : tensor) := match nm with NFalse => t | NSpace s => tmap (fun v => v / unorm s)%Q t end in
  let counts_hook :=
    Hook false true false (fun nm =>
      let* v := match uyield with
                | Some u => Ok (tmap (fun v => v * u)%Q ints)
                | None => let* y := opt_result NotExtendedPDFError yield in Ok (tmap (fun v => v * y)%Q ints)
                end in
      Ok (divided nm v)) in
  let rel_hook := Hook true false false (fun nm => Ok (divided nm ints)) in
  Bpdf space norm yield None None (Some counts_hook) (Some rel_hook) None None None None None None None.

(** ** Reading the histogram out *)

(** [znp.pad] by one bin of zeros on each side *)
Fixpoint unpad (idx shape : list nat) : option (list nat) :=
  match idx, shape with
  | [], [] => Some []
  | S i :: idx', n :: shape' =>
      if Nat.ltb i n then match unpad idx' shape' with Some r => Some (i :: r) | None => None end else None
  | _, _ => None
  end.
Definition pad (t : tensor) : tensor :=
  Tensor (map (fun n => n + 2) (t_shape t))
         (fun idx => match unpad idx (t_shape t) with Some i => t_get t i | None => 0%Q end).

(** What is given as [x]: a binned space or binned data (of which only the observables are
    used), or events. *)
Inductive xarg : Type := XNone | XBinned (s : bspace) | XEvents (d : udata).

(** core/binnedpdf.py:316-343 (and the same in the other methods): bin numbers and [gather_nd]
    for events, otherwise the axes are moved to the order of the observables of [x].
    [with_obs] (322) raises if there is no observable in common. *)
Definition read_out (own : bspace) (x : xarg) (values : result tensor) : result (list Q + tensor) :=
  match x with
  | XNone => let* t := values in let* r := move_axis_obs (b_obs own) (b_obs own) t None in Ok (inr (fst r))
  | XBinned s =>
      let* _ := bspace_with_obs s (b_obs own) in
      let* t := values in
      let* r := move_axis_obs (b_obs own) (b_obs s) t None in Ok (inr (fst r))
  | XEvents d =>
      let* idx := unbinned_to_binindex_flow d own in
      let* t := values in Ok (inl (map (t_get (pad t)) idx))
  end.
