(** Model of zfit/settings.py [set_seed], of the functions of zfit/z/random.py and of zfit/sample.py.

    Simplifications, everywhere in this file:
    - a generator of random numbers is a state of any type, started from a seed by [start] and advanced by [next]; all
      numbers that are drawn are natural numbers, of which the distributions are functions;
    - os.urandom is a sequence [urandom], of which a counter says how much has been used;
    - functions are not compiled. *)
From Verif Require Import Base.
Open Scope list_scope.

(** The three generators: numpy (np.random), the backend (tf.random) and that of zfit (z/random.py:20-32 [get_prng]) *)
Inductive kind := Numpy | Backend | Zfit.
(** settings.py:13: the argument [seed], and the arguments for the generators *)
Inductive seed_arg := SNone | STrue | SInt (k : nat).
Inductive gen_arg := GNone | GTrue | GFalse | GInt (k : nat).

Section Seeds.
Context {G : Type}.
Variable start : kind -> nat -> G.
Variable next : kind -> G -> G * nat.
(** [np.random.default_rng(seed).integers(0, 2**31 - 1)] *)
Variable rng : nat -> nat.
(** 84-89 [generate_urandom_seed] *)
Variable urandom : nat -> nat.

Record gens := mkG { g_numpy : G; g_backend : G; g_zfit : G; used : nat }.
Definition get (k : kind) (s : gens) : G := match k with Numpy => g_numpy s | Backend => g_backend s | Zfit => g_zfit s end.
Definition set (k : kind) (g : G) (s : gens) : gens :=
  match k with
  | Numpy => mkG g (g_backend s) (g_zfit s) (used s)
  | Backend => mkG (g_numpy s) g (g_zfit s) (used s)
  | Zfit => mkG (g_numpy s) (g_backend s) g (used s)
  end.

(** 37-44: the defaults; without a seed one is taken from os.urandom *)
Definition default (a : gen_arg) : gen_arg := match a with GNone => GTrue | a => a end.
Definition take (s : gens) : nat * gens := (urandom (used s), mkG (g_numpy s) (g_backend s) (g_zfit s) (S (used s))).
(** 47-53, 54-60, 69-75: the seed of a generator, if it is to be found; the seed for the next generator is this one *)
Definition derive (a : gen_arg) (seed : seed_arg) (s : gens) : gen_arg * seed_arg * gens :=
  match a, seed with
  | GTrue, SInt k => (GInt (rng k), SInt (rng k), s)
  | GTrue, _ => let (u, s) := take s in (GInt u, seed, s)
  | a, _ => (a, seed, s)
  end.
(** 62-65, 76-77 *)
Definition start_gen (k : kind) (a : gen_arg) (s : gens) : gens := match a with GInt n => set k (start k n) s | _ => s end.

(** The dictionary that is returned *)
Record seeds := mkS { r_zfit : gen_arg; r_numpy : gen_arg; r_backend : gen_arg; r_seed : option nat }.

(** 13-81 [set_seed] *)
Definition set_seed (seed : seed_arg) (numpy backend zfit : gen_arg) (s : gens) : gens * seeds :=
  let '(seed, s) := match seed with SNone => let (u, s) := take s in (SInt u, s) | _ => (seed, s) end in
  let initial := seed in
  let '(numpy, seed, s) := derive (default numpy) seed s in
  let '(backend, seed, s) := derive (default backend) seed s in
  let s := start_gen Backend backend (start_gen Numpy numpy s) in
  let '(zfit, seed, s) := derive (default zfit) seed s in
  (start_gen Zfit zfit s, mkS zfit numpy backend (match initial with SInt k => Some k | _ => None end)).

(** One number from a generator *)
Definition draw (k : kind) (s : gens) : gens * nat := let (g, x) := next k (get k s) in (set k g s, x).
Fixpoint draws (k : kind) (n : nat) (s : gens) : gens * list nat :=
  match n with
  | O => (s, [])
  | S n => let (s, x) := draw k s in let (s, xs) := draws k n s in (s, x :: xs)
  end.

(** The functions and the generator each of them uses: z/random.py:58-59, 117-118, 122-123, 127-137, 140-143 that of zfit;
    105-113 (a distribution of TensorFlow Probability without a seed) and core/binnedpdf.py:886, 952
    (tf.experimental.numpy.random) the backend; core/parameter.py:638 and the start values of minimisers (minimizer_nlopt.py:301,
    minimizers_scipy.py:351) numpy *)
Inductive func := Uniform | Normal | Poisson | Shuffle | WithReplacement | CountsMultinomial | BinnedPoisson | Randomize | StartValues.
Definition generator_of (f : func) : kind :=
  match f with
  | Uniform | Normal | Poisson | Shuffle | WithReplacement => Zfit
  | CountsMultinomial | BinnedPoisson => Backend
  | Randomize | StartValues => Numpy
  end.
(** A program: functions with the numbers they need *)
Fixpoint run (p : list (func * nat)) (s : gens) : gens * list (list nat) :=
  match p with
  | [] => (s, [])
  | (f, n) :: p => let (s, xs) := draws (generator_of f) n s in let (s, r) := run p s in (s, xs :: r)
  end.

(** z/random.py:35-61 [sample_with_replacement] along the only axis; the indices are below the size *)
Definition sample_with_replacement {A : Type} (a : list A) (n : nat) (s : gens) : gens * result (list A) :=
  match a with
  | [] => if Nat.eqb n 0 then (s, Ok []) else (s, Err InvalidArgumentError)
  | d :: _ => let (s, xs) := draws Zfit n s in (s, Ok (map (fun x => nth (x mod length a) a d) xs))
  end.

(** z/random.py:121-131 [poisson]: the shape has no default *)
Definition z_poisson (lam : option Q) (shape : option nat) (s : gens) : gens * result (list nat) :=
  match shape with
  | None => (s, Err TypeError)
  | Some n => let (s, xs) := draws Zfit n s in (s, Ok xs)
  end.
(** sample.py:17-37 [poisson]: of a number [n] (zero counts as not given) and of PDFs, of which it is known whether they are extended and, if so, their yield *)
Definition NotExtended := UserError 13.
Definition sample_poisson (n : option Q) (pdfs : list (bool * Q)) (s : gens) : gens * result (list nat) :=
  let given := match n with Some q => negb (Qeq_bool q 0) | None => false end in
  match pdfs with
  | [] => z_poisson n None s
  | p :: rest =>
      if given then (s, Err ValueError)
      else
        let not_extended := map fst pdfs in
        match not_extended with
        | _ :: _ => (s, Err NotExtended)
        | [] => match rest with [] => z_poisson (Some (snd p)) None s | _ => (s, Err ValueError) end
        end
  end.
End Seeds.
Arguments gens : clear implicits.
