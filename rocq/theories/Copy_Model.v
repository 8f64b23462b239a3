(** Model of [BasePDF.copy], [create_extended] and [set_yield] of zfit/core/basepdf.py, with the
    constructors that they call.

    Simplifications, everywhere in this file:
    - numbers are exact rationals; a space is one interval, and PDFs have one observable;
    - shapes and integrals are arguments of the densities (nothing is assumed about them);
    - arguments that only exist for old code ([lamb], [lambda_], ...) are left out, and so is the
      check that names of parameters are unique; [extended=True] with fractions is left out;
    - classes derived from the ones below are left out, except for those with parameters as
      keyword arguments ([User]). *)
From Verif Require Import Base.
Open Scope string_scope.
Open Scope list_scope.

(** A parameter: an independent one, a constant, the remainder 1 - sum of fractions
    (models/basefunctor.py:188-189), a yield divided by the sum of yields, and the sum
    (225-236). *)
Inductive par :=
| P (id : nat)
| Const (q : Q)
| Rest (l : list par)
| Share (y : par) (l : list par)
| SumOf (l : list par).
Fixpoint val (e : nat -> Q) (p : par) : Q :=
  match p with
  | P i => e i
  | Const q => q
  | Rest l => 1 - fold_right Qplus 0 (map (val e) l)
  | Share y l => val e y / fold_right Qplus 0 (map (val e) l)
  | SumOf l => fold_right Qplus 0 (map (val e) l)
  end%Q.

Definition space := (Q * Q)%type.

(** models/dist_tfp.py, models/basic.py, models/physics.py: classes whose constructor has one
    argument for each parameter *)
Inductive plain :=
| Gauss | Uniform | TruncatedGauss | Cauchy | Poisson | LogNormal | ChiSquared | StudentT | QGauss
| BifurGauss | Gamma | JohnsonSU | GeneralizedGauss
| Exponential | Voigt
| CrystalBall | DoubleCB | GeneralizedCB | GaussExpTail | GeneralizedGaussExpTail
| User (pars : list (string * string)).   (* name of the parameter, name of the argument *)
(** models/polynomials.py *)
Inductive poly := Legendre | Chebyshev | Chebyshev2 | Laguerre | Hermite.
(** Functors with one PDF, or two: models/truncated.py, convolution.py, cache.py, unbinnedpdf.py,
    interpolation.py. *)
Inductive wrap := TruncatedPDF | FFTConvPDF | CachedPDF | UnbinnedFromBinnedPDF | SplinePDF.
(** models/kde.py; the first one is GaussianKDE1DimV1 *)
Inductive kde := GaussianKDE1Dim | KDE1DimExact | KDE1DimGrid | KDE1DimFFT | KDE1DimISJ.
Inductive cls :=
| Plain (k : plain)
| Poly (k : poly)
| Bernstein
| Kde (k : kde)
| WrapDistribution
| SimplePDF
| SumPDF
| ProductPDF
| SimpleFunctorPDF
| Wrap (k : wrap)
| ConditionalPDF.

(** The parameters of a class with the arguments they are taken from: dist_tfp.py:249, 333, 391,
    458, 528, 598, 672, 766, 890, 1002, 1110, 1224, 1321; basic.py:103, 309; physics.py:361, 469,
    594, 731, 840. Of [User] those of the class: special.py:75-88 with basemodel.py:1388-1397 if
    the names are equal. *)
Definition same_names (l : list string) : list (string * string) := map (fun n => (n, n)) l.
Definition par_map (k : plain) : list (string * string) :=
  match k with
  | Gauss => same_names ["mu"; "sigma"]
  | Uniform => same_names ["low"; "high"]
  | TruncatedGauss => same_names ["mu"; "sigma"; "low"; "high"]
  | Cauchy => same_names ["m"; "gamma"]
  | Poisson => same_names ["lam"]
  | LogNormal => same_names ["mu"; "sigma"]
  | ChiSquared => same_names ["ndof"]
  | StudentT => same_names ["ndof"; "mu"; "sigma"]
  | QGauss => same_names ["q"; "mu"; "sigma"]
  | BifurGauss => same_names ["mu"; "sigmal"; "sigmar"]
  | Gamma => same_names ["gamma"; "beta"; "mu"]
  | JohnsonSU => same_names ["mu"; "lambd"; "gamma"; "delta"]
  | GeneralizedGauss => same_names ["mu"; "sigma"; "beta"]
  | Exponential => [("lambda", "lam"); ("lam", "lam")]
  | Voigt => same_names ["m"; "sigma"; "gamma"]
  | CrystalBall => same_names ["mu"; "sigma"; "alpha"; "n"]
  | DoubleCB => same_names ["mu"; "sigma"; "alphal"; "nl"; "alphar"; "nr"]
  | GeneralizedCB => same_names ["mu"; "sigmal"; "alphal"; "nl"; "sigmar"; "alphar"; "nr"]
  | GaussExpTail => same_names ["mu"; "sigma"; "alpha"]
  | GeneralizedGaussExpTail => same_names ["mu"; "sigmal"; "alphal"; "sigmar"; "alphar"]
  | User l => l
  end.

(** A PDF. What is not a parameter or a PDF: whether a polynomial scales its argument, the
    function of a simple PDF, and anything else (data, kernels, limits, ...). *)
Inductive dargs := DMap | DFun (f : nat).   (* the mapping of the parameters, or a function *)
Inductive extra :=
| NoExtra
| Scaling (b : bool)
| Func (f : nat)
| Dist (d : nat) (args : dargs) (kwargs : nat)
| More (n : nat).
Inductive pdf :=
  mkPdf (c : cls) (params : list (string * par)) (ext : extra) (daughters : list pdf)
    (sp nm : space) (name label : string) (yld : option par).
Definition p_cls (p : pdf) := let '(mkPdf c _ _ _ _ _ _ _ _) := p in c.
Definition p_params (p : pdf) := let '(mkPdf _ x _ _ _ _ _ _ _) := p in x.
Definition p_ext (p : pdf) := let '(mkPdf _ _ x _ _ _ _ _ _) := p in x.
Definition p_daughters (p : pdf) := let '(mkPdf _ _ _ x _ _ _ _ _) := p in x.
Definition p_space (p : pdf) := let '(mkPdf _ _ _ _ x _ _ _ _) := p in x.
Definition p_norm (p : pdf) := let '(mkPdf _ _ _ _ _ x _ _ _) := p in x.
Definition p_name (p : pdf) := let '(mkPdf _ _ _ _ _ _ x _ _) := p in x.
Definition p_label (p : pdf) := let '(mkPdf _ _ _ _ _ _ _ x _) := p in x.
Definition p_yield (p : pdf) := let '(mkPdf _ _ _ _ _ _ _ _ x) := p in x.
Definition is_extended (p : pdf) : bool := match p_yield p with Some _ => true | None => false end.

(** Keyword arguments. *)
Inductive arg :=
| APar (p : par)
| APars (l : list par)
| ABool (b : bool)
| ASpace (s : space)
| AStr (s : string)
| APdfs (l : list pdf)
| AFunc (f : nat)
| AMap (l : list (string * par))
| AMore (n : nat).
Definition kwargs := list (string * arg).
Definition get (k : string) (kw : kwargs) : option arg := lookup String.eqb k kw.
Definition get_par k kw : option par := match get k kw with Some (APar p) => Some p | _ => None end.
Definition get_pars k kw : list par := match get k kw with Some (APars l) => l | _ => [] end.
Definition get_pdfs k kw : list pdf := match get k kw with Some (APdfs l) => l | _ => [] end.
Definition get_bool k (d : bool) kw : bool := match get k kw with Some (ABool b) => b | _ => d end.
Definition get_space k kw : option space := match get k kw with Some (ASpace s) => Some s | _ => None end.
Definition get_str k kw : option string := match get k kw with Some (AStr s) => Some s | _ => None end.
Definition get_func k kw : nat := match get k kw with Some (AFunc f) => f | _ => 0 end.
Definition get_more k kw : nat := match get k kw with Some (AMore n) => n | _ => 0 end.

(** What a constructor accepts: required arguments, optional ones, and whether it takes any other
    argument as a parameter. [None] for an argument is the same as no argument. *)
Definition common : list string := ["extended"; "norm"; "name"; "label"].
Definition required (c : cls) : list string :=
  match c with
  | Plain k => "obs" :: map snd (par_map k)
  | Poly _ | Bernstein => ["obs"; "coeffs"]
  | Kde GaussianKDE1Dim => ["obs"; "data"]
  | Kde _ => ["data"]
  | WrapDistribution => ["distribution"; "dist_params"; "obs"]
  | SimplePDF => ["obs"; "func"]
  | SumPDF | ProductPDF => ["pdfs"]
  | SimpleFunctorPDF => ["obs"; "pdfs"; "func"]
  | Wrap TruncatedPDF => ["pdf"; "limits"]
  | Wrap FFTConvPDF => ["func"; "kernel"]
  | Wrap _ => ["pdf"]
  | ConditionalPDF => ["pdf"; "cond"]
  end.
Definition optional (c : cls) : list string :=
  match c with
  | Plain _ => common
  | Poly _ => "apply_scaling" :: "coeff0" :: common
  | Bernstein => "apply_scaling" :: common
  | Kde _ => "obs" :: "bandwidth" :: "options" :: common
  | WrapDistribution => "params" :: "dist_kwargs" :: "dtype" :: common
  | SimplePDF | SimpleFunctorPDF => common
  | SumPDF => "fracs" :: "obs" :: common
  | ProductPDF => ["obs"; "extended"; "norm"; "name"]
  | Wrap CachedPDF => "options" :: common
  | Wrap _ => "obs" :: "options" :: common
  | ConditionalPDF => "options" :: common
  end.
Definition any_other (c : cls) : bool :=
  match c with SimplePDF | SimpleFunctorPDF => true | _ => false end.
(** Python: an unexpected or a missing argument is a TypeError *)
Definition check_call (c : cls) (kw : kwargs) : result unit :=
  if negb (any_other c)
     && negb (subsetb String.eqb (map fst kw) (required c ++ optional c)) then Err TypeError
  else if negb (subsetb String.eqb (required c) (map fst kw)) then Err TypeError
  else Ok tt.

(** core/basepdf.py:145-172 [__init__] *)
Definition class_name (c : cls) : string :=
  match c with SumPDF => "SumPDF" | ProductPDF => "ProductPDF" | SimplePDF => "SimplePDF"
  | _ => "PDF" end.
Definition base_init (c : cls) (params : list (string * par)) (x : extra) (ds : list pdf)
    (sp : space) (ext : option par) (kw : kwargs) : pdf :=
  let name := match get_str "name" kw with Some n => n | None => class_name c end in
  mkPdf c params x ds sp
    (match get_space "norm" kw with Some n => n | None => sp end)
    name (match get_str "label" kw with Some l => l | None => name end) ext.
Definition given_yield (kw : kwargs) : option par := get_par "extended" kw.

(** A name made of a prefix and a number, c_0, c_1, ...; how a number is written does not matter,
    here it is a tally. *)
Fixpoint tally (n : nat) : string := match n with O => "" | S n => ("|" ++ tally n)%string end.
Definition numbered (pre : string) (n : nat) : string := (pre ++ tally n)%string.
Definition enumerate (pre : string) (l : list par) : list (string * par) :=
  combine (map (numbered pre) (seq 0 (length l))) l.

(** models/basefunctor.py:155-251 [_preprocess_init_sum]: the fractions *)
Definition sum_fracs (fracs : list par) (pdfs : list pdf) : result (list par) :=
  if Nat.ltb (length pdfs) 2 then Err ValueError
  else match fracs with
  | [] => match all_some (map p_yield pdfs) with
          | Some ys => Ok (map (fun y => Share y ys) ys)
          | None => Err ModelIncompatibleError
          end
  | _ => if Nat.eqb (length fracs) (length pdfs - 1) then Ok (fracs ++ [Rest fracs])
         else if Nat.eqb (length fracs) (length pdfs) then Ok fracs
         else Err ModelIncompatibleError
  end.
(** models/functor.py:145-151: the yield of a sum *)
Definition sum_yield (fracs : list par) (pdfs : list pdf) (kw : kwargs) : option par :=
  match get "extended" kw with
  | Some (APar y) => Some y
  | Some (ABool false) => None
  | _ => match fracs, all_some (map p_yield pdfs) with
         | [], Some ys => Some (SumOf ys)
         | _, _ => None
         end
  end.

Definition of_pdfs (pdfs : list pdf) : option space :=
  match pdfs with [] => None | p :: _ => Some (p_space p) end.
Definition the_pdfs (kw : kwargs) : list pdf := get_pdfs "pdfs" kw ++ get_pdfs "pdf" kw
  ++ get_pdfs "func" kw ++ get_pdfs "kernel" kw.

(** A call of the class. The current values of the parameters are needed for [coeff0]. *)
Definition construct (e : nat -> Q) (c : cls) (kw : kwargs) : result pdf :=
  let* _ := check_call c kw in
  let need (s : option space) (f : space -> result pdf) : result pdf :=
    match s with Some s => f s | None => Err ValueError end in
  match c with
  | Plain k =>
      need (get_space "obs" kw) (fun s =>
      let* ps := mapM (fun na => match get_par (snd na) kw with
                                 | Some p => Ok (fst na, p) | None => Err ValueError end) (par_map k) in
      Ok (base_init c ps NoExtra [] s (given_yield kw) kw))
  | Poly _ =>
      (* models/polynomials.py:111-123; coeff0 becomes the number that it is now *)
      need (get_space "obs" kw) (fun s =>
      let c0 := match get_par "coeff0" kw with Some p => Const (val e p) | None => Const 1 end in
      Ok (base_init c (enumerate "c_" (c0 :: get_pars "coeffs" kw))
            (Scaling (get_bool "apply_scaling" true kw)) [] s (given_yield kw) kw))
  | Bernstein =>
      need (get_space "obs" kw) (fun s =>
      Ok (base_init c (enumerate "c_" (get_pars "coeffs" kw))
            (Scaling (get_bool "apply_scaling" true kw)) [] s (given_yield kw) kw))
  | Kde _ =>
      need (get_space "obs" kw) (fun s =>
      Ok (base_init c (match get_par "bandwidth" kw with Some p => [("bandwidth", p)] | None => [] end)
            (More (get_more "data" kw)) [] s (given_yield kw) kw))
  | WrapDistribution =>
      (* models/dist_tfp.py:67-91; a function for dist_params needs params (and has no
         method copy); a mapping together with params is left out *)
      need (get_space "obs" kw) (fun s =>
      let go a ps := Ok (base_init c ps (Dist (get_func "distribution" kw) a (get_more "dist_kwargs" kw))
                           [] s (given_yield kw) kw) in
      match get "dist_params" kw, get "params" kw with
      | Some (AMap ps), None => go DMap ps
      | Some (AFunc f), Some (AMap ps) => go (DFun f) ps
      | _, _ => Err AttributeError
      end)
  | SimplePDF =>
      (* models/special.py:21-23 *)
      need (get_space "obs" kw) (fun s =>
      let* ps := mapM (fun ka => match snd ka with APar p => Ok (fst ka, p) | _ => Err TypeError end)
                   (filter (fun ka => negb (mem String.eqb (fst ka) (required c ++ optional c))) kw) in
      Ok (base_init c ps (Func (get_func "func" kw)) [] s (given_yield kw) kw))
  | SumPDF =>
      (* models/functor.py:122-153 *)
      let pdfs := the_pdfs kw in
      let* fracs := sum_fracs (get_pars "fracs" kw) pdfs in
      need (match get_space "obs" kw with Some s => Some s | None => of_pdfs pdfs end) (fun s =>
      Ok (base_init c (enumerate "frac_" fracs) NoExtra pdfs s
            (sum_yield (get_pars "fracs" kw) pdfs kw) kw))
  | ProductPDF =>
      let pdfs := the_pdfs kw in
      need (match get_space "obs" kw with Some s => Some s | None => of_pdfs pdfs end) (fun s =>
      Ok (base_init c [] NoExtra pdfs s (given_yield kw) kw))
  | SimpleFunctorPDF =>
      need (get_space "obs" kw) (fun s =>
      let* ps := mapM (fun ka => match snd ka with APar p => Ok (fst ka, p) | _ => Err TypeError end)
                   (filter (fun ka => negb (mem String.eqb (fst ka) (required c ++ optional c))) kw) in
      Ok (base_init c ps (Func (get_func "func" kw)) (the_pdfs kw) s (given_yield kw) kw))
  | Wrap _ | ConditionalPDF =>
      let pdfs := the_pdfs kw in
      need (match get_space "obs" kw with Some s => Some s | None => of_pdfs pdfs end) (fun s =>
      Ok (base_init c [] (More (get_more "options" kw)) pdfs s (given_yield kw) kw))
  end.

Definition is_functor (c : cls) : bool :=
  match c with
  | SumPDF | ProductPDF | SimpleFunctorPDF | Wrap _ | ConditionalPDF => true
  | _ => false
  end.

(** dictionaries: pop, and update *)
Definition pop (k : string) (kw : kwargs) : kwargs := filter (fun ka => negb (String.eqb k (fst ka))) kw.
Definition put (k : string) (a : arg) (kw : kwargs) : kwargs := pop k kw ++ [(k, a)].
Definition update (kw new : kwargs) : kwargs := fold_left (fun d ka => put (fst ka) (snd ka) d) new kw.

Definition drop_last {A} (l : list A) : list A := firstn (length l - 1) l.
(** core/basepdf.py:981-993: the coefficients c_1, c_2, ... as long as there are some *)
Fixpoint coefficients (fuel i : nat) (ps : list (string * par)) : list par :=
  match fuel with
  | O => []
  | S f => match lookup String.eqb (numbered "c_" i) ps with
           | Some p => p :: coefficients f (S i) ps
           | None => []
           end
  end.

(** core/basepdf.py:952-1000: the arguments for the copy *)
Definition copy_args (p : pdf) : kwargs :=
  let pars := map (fun np => (fst np, APar (snd np))) (p_params p) in
  if is_functor (p_cls p) then
    (match p_cls p with
     | SumPDF => let fracs := map snd (p_params p) in
                 [("fracs", APars (if is_extended p then fracs else drop_last fracs))]
     | _ => []
     end) ++ [("pdfs", APdfs (p_daughters p))]
  else match p_cls p, p_ext p with
  | WrapDistribution, Dist d a _ =>
      [("distribution", AFunc d);
       ("dist_params", match a with DMap => AMap (p_params p) | DFun f => AFunc f end)]
  | Poly _, _ =>
      (match lookup String.eqb (numbered "c_" 0) (p_params p) with Some c0 => [("coeff0", APar c0)] | None => [] end)
      ++ [("coeffs", APars (coefficients (length (p_params p)) 1 (p_params p)))]
  | _, _ =>
      match get "lambda" pars with
      | Some l => put "lam" l (pop "lambda" pars)
      | None => pars
      end
  end.

(** core/basepdf.py:750-765 *)
Definition AlreadyExtended := UserError 1.
Definition set_yield (p : pdf) (y : par) : result pdf :=
  if is_extended p then Err AlreadyExtended
  else let '(mkPdf c ps x ds s n nm l _) := p in Ok (mkPdf c ps x ds s n nm l (Some y)).

(** core/basepdf.py:935-1015 [copy] with models/special.py:30-32, models/conditional.py:206-208;
    UserError 2 is a WorkInProgressError *)
Definition copy (e : nat -> Q) (p : pdf) (override : kwargs) : result pdf :=
  match p_cls p with
  | ConditionalPDF => Err (UserError 2)
  | Kde GaussianKDE1Dim => Err RuntimeError
  | c =>
      let override :=
        match c, p_ext p with
        | SimplePDF, Func f | SimpleFunctorPDF, Func f => put "func" (AFunc f) override
        | _, _ => override
        end in
      let kw := update (update (copy_args p) [("obs", ASpace (p_norm p)); ("name", AStr (p_name p))])
                  override in
      let* q := construct e c (pop "yield" kw) in
      match get_par "yield" kw with Some y => set_yield q y | None => Ok q end
  end.

(** core/basepdf.py:677-727 [create_extended] *)
Definition create_extended (e : nat -> Q) (p : pdf) (y : par) (name : option string) : result pdf :=
  let name := match name with Some n => n | None => p_name p ++ "_ext" end%string in
  if is_extended p then Err AlreadyExtended
  else match copy e p [("name", AStr name)] with
       | Err _ => Err RuntimeError
       | Ok q => set_yield q y
       end.

(** * Densities
    [shape] is the function of a class without daughters, [fshape] that of a functor with
    daughters; [integral] integrates a function over a space. *)
Section Density.
Context (shape : cls -> extra -> option space -> list (string * Q) -> Q -> Q)
        (fshape : cls -> extra -> list (string * Q) -> list (Q -> Q) -> Q -> Q)
        (integral : (Q -> Q) -> space -> Q).
Definition space_eqb (a b : space) : bool := Qeq_bool (fst a) (fst b) && Qeq_bool (snd a) (snd b).
(** polynomials with scaling (models/polynomials.py:125-128) and others that use their space *)
Definition used_space (p : pdf) : option space :=
  match p_cls p, p_ext p with
  | Poly _, Scaling true | Bernstein, Scaling true | Kde _, _ => Some (p_space p)
  | _, _ => None
  end.
Definition sumQ (l : list Q) : Q := fold_right Qplus 0%Q l.
(** [density e p true x] is the density, [density e p false x] the same without normalisation;
    models/functor.py:166-190 (sum), 397-413 (product) *)
Fixpoint density (e : nat -> Q) (p : pdf) (normed : bool) (x : Q) {struct p} : Q :=
  match p with
  | mkPdf c ps ex ds sp nm na la y =>
      let vals := map (fun np => (fst np, val e (snd np))) ps in
      let f : Q -> Q :=
        match c with
        | SumPDF => fun x => sumQ (map (fun df => (snd df * fst df x)%Q)
                               (combine (map (fun d => density e d true) ds) (map snd vals)))
        | ProductPDF => fun x => fold_right Qmult 1%Q (map (fun d => density e d false x) ds)
        | SimpleFunctorPDF | Wrap _ | ConditionalPDF =>
            fshape c ex vals (map (fun d => density e d true) ds)
        | _ => shape c ex (used_space p) vals
        end in
      let sum_is_normed :=
        match c with SumPDF => forallb (fun d => space_eqb (p_norm d) nm) ds | _ => false end in
      if normed && negb sum_is_normed then (f x / integral f nm)%Q else f x
  end.
End Density.
