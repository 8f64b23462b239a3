(** Model of the sum of PDFs (models/functor.py:66-305, models/basefunctor.py:155-251), as a model in the sense of
    the dispatch (Disp_Model). *)
From Verif Require Import Base Disp_Model.
#[local] Open Scope R_scope.

Section Sum.
(** [L]: a single limit, [X]: a point, as in Disp_Model *)
Context {L X : Type}.

(** A component: its observables, its default norm, and the model itself. Components with a yield are extended. *)
Record comp := mkComp { c_obs : list string; c_norm : list L; c_model : model L X }.
Definition c_extended (c : comp) : bool := match m_yield (c_model c) with Some _ => true | None => false end.

Fixpoint radd (l : list R) : R := match l with [] => 0 | x :: r => x + radd r end.

(** Yields of the components (0 for a component without; only used if all have one) *)
Definition c_yield (c : comp) : R := match m_yield (c_model c) with Some y => y | None => 0 end.

(** models/basefunctor.py:155-251 [_preprocess_init_sum]: the fractions, whether fractions were given (an empty list counts as none,
    164), and the sum of the yields. [checks]: numeric checks are on (181-185). Values of the parameters at one time;
    parameters and their names are modelled in Param_Model and PGraph_Model. *)
Definition preprocess (checks : bool) (fracs : option (list R)) (obs : option (list string)) (pdfs : list comp)
  : result (list R * bool * option R) :=
  if Nat.ltb (length pdfs) 2 then Err ValueError
  else
    let common := match obs with Some o => o | None => match pdfs with c :: _ => c_obs c | [] => [] end end in
    if existsb (fun c => negb (set_eqb String.eqb (c_obs c) common)) pdfs then Err ObsIncompatibleError
    else
      let all_extended := forallb c_extended pdfs in
      match fracs with
      | None | Some [] =>
          if all_extended then
            let sum_yields := radd (map c_yield pdfs) in
            Ok (map (fun c => c_yield c / sum_yields) pdfs, false, Some sum_yields)
          else Err ModelIncompatibleError
      | Some fs =>
          if Nat.eqb (length fs) (length pdfs - 1) then
            let remaining := 1 - radd fs in
            if checks && (if Rlt_dec remaining 0 then true else false) then Err InvalidArgumentError
            else Ok (fs ++ [remaining], true, None)
          else if Nat.eqb (length fs) (length pdfs) then Ok (fs, true, None)
          else Err ModelIncompatibleError
      end.

(** The argument [extended]: absent, False, True, or a yield *)
Inductive ext_arg := ExtNone | ExtFalse | ExtTrue | ExtYield (y : R).

Record sumpdf := mkSum { s_pdfs : list comp; s_fracs : list R; s_auto : bool; s_yield : option R }.

(** models/functor.py:133-170 [SumPDF.__init__]; [extended=True] where the yields of the components cannot be
    used makes the value True a parameter, i.e. a yield of one (core/basepdf.py:757). *)
Definition sum_init (checks : bool) (pdfs : list comp) (fracs : option (list R)) (obs : option (list string)) (extended : ext_arg)
  : result sumpdf :=
  let* p := preprocess checks fracs obs pdfs in
  let '(fs, given, sum_yields) := p in
  let all_extended := forallb c_extended pdfs in
  let ext := match extended with
             | ExtNone => if all_extended && negb given then ExtTrue else ExtFalse
             | e => e
             end in
  Ok (match ext with
      | ExtTrue => if all_extended && negb given then mkSum pdfs fs true sum_yields else mkSum pdfs fs false (Some 1)
      | ExtYield y => mkSum pdfs fs false (Some y)
      | _ => mkSum pdfs fs false None
      end).

(** [pdf.pdf(x)], [pdf.ext_pdf(x)], [pdf.integrate(limits)]: with the default norm of the component *)
Definition comp_pdf (c : comp) (x : X) : outcome := pdf (c_model c) x (Norm (c_norm c)).
Definition comp_ext_pdf (c : comp) (x : X) : outcome := ext_pdf (c_model c) x (Norm (c_norm c)).
Definition comp_integrate (c : comp) (ls : list L) : outcome := integrate (c_model c) ls (Norm (c_norm c)).
Definition comp_analytic (c : comp) (ls : list L) : outcome := analytic_integrate (c_model c) ls (Norm (c_norm c)).

Definition weighted (g : comp -> outcome) (s : sumpdf) : outcome :=
  sum_all (map (fun p => map_val (fun v => v * snd p) (g (fst p))) (combine (s_pdfs s) (s_fracs s))).

(** Equality of norms, as decided by [len(set(...)) == 1] (equal and of equal hash) *)
Variable eqn : list L -> list L -> bool.
(** 191, 202: do all the norms of the components and the norm asked for agree? A norm with limits False has no
    truth value (core/space.py:1213), and passes. *)
Definition same_norms (s : sumpdf) (n : norm L) : bool :=
  match n with Norm nls => forallb (fun c => eqn (c_norm c) nls) (s_pdfs s) | _ => true end.

(** models/functor.py:182-187 [_unnormalized_pdf]: normalised components *)
Definition sum_unnorm (s : sumpdf) (x : X) : outcome := weighted (fun c => comp_pdf c x) s.
(** 189-198 [_pdf] *)
Definition sum_pdf_hook (s : sumpdf) : phook L X :=
  mkPhook (mkSupp true false false true)
    (fun x n => if same_norms s n then weighted (fun c => comp_pdf c x) s else ENotImpl).
(** 200-209 [_ext_pdf] *)
Definition sum_ext_hook (s : sumpdf) : phook L X :=
  mkPhook (mkSupp true false false true)
    (fun x n => if same_norms s n && s_auto s then sum_all (map (fun c => comp_ext_pdf c x) (s_pdfs s)) else ENotImpl).
(** 211-222 [_integrate] *)
Definition sum_integrate_hook (s : sumpdf) : hook L :=
  mkHook (mkSupp false false false true) (fun ls _ => weighted (fun c => comp_integrate c ls) s).
(** 239-258 [_analytic_integrate] *)
Definition sum_analytic_hook (s : sumpdf) : hook L :=
  mkHook (mkSupp false false false true) (fun ls _ => weighted (fun c => comp_analytic c ls) s).

(** The sum as a model. [numeric]: the numeric integration of its pdf *)
Definition sum_model (eq_space eq_norm : list L -> bool) (numeric : list L -> outcome) (s : sumpdf) : model L X :=
  mkModel eq_space eq_norm (Some (sum_integrate_hook s)) (Some (sum_analytic_hook s)) (fun _ => None) None numeric None
    (Some (sum_pdf_hook s)) None (Some (sum_ext_hook s)) None (sum_unnorm s) (s_yield s).
End Sum.
Arguments comp : clear implicits.
Arguments sumpdf : clear implicits.
