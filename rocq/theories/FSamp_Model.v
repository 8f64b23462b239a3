(** Model of sampling from combined PDFs: sums, products and truncated PDFs (models/functor.py, models/truncated.py,
    core/basemodel.py:1147-1230, core/basepdf.py:773-789, core/sample.py:499-551). *)
From Verif Require Import Base.
#[local] Open Scope nat_scope.

(** A row of a sample. Each value carries the name of the observable for which it was drawn: the code has no such name, only the
    position; with it, the model can tell whether a column ends up under the right label. *)
Definition row : Type := list (string * Q).
(** One limit: an interval for each observable *)
Definition box : Type := list (string * (Q * Q)).

(** PDFs: a PDF that is not a functor, a sum, a product, a truncated PDF (of one observable, with its space and limits). *)
Inductive tree :=
| Leaf (id : nat) (obs : list string) (yield : option Q)
| SumT (obs : list string) (yield : option Q) (fracs : list Q) (pdfs : list tree)
| ProdT (obs : list string) (yield : option Q) (pdfs : list tree)
| TruncT (obs : string) (yield : option Q) (space : Q * Q) (limits : list (Q * Q)) (pdf : tree).

Definition t_obs (t : tree) : list string :=
  match t with Leaf _ o _ | SumT o _ _ _ | ProdT o _ _ => o | TruncT o _ _ _ _ => [o] end.
Definition t_yield (t : tree) : option Q :=
  match t with Leaf _ _ y | SumT _ y _ _ | ProdT _ y _ | TruncT _ y _ _ _ => y end.
Definition t_extended (t : tree) : bool := match t_yield t with Some _ => true | None => false end.

(** models/functor.py:375-386: see Prod_Model. The overlapping factors form one product, whose sampling falls back on
    accept-reject (C34_nested_not_split). *)
Definition shared (pdfs : list tree) (o : string) : bool :=
  Nat.ltb 1 (length (filter (String.eqb o) (flat_map t_obs pdfs))).
Definition overlaps (pdfs : list tree) (p : tree) : bool := existsb (shared pdfs) (t_obs p).
Definition common_obs (pdfs : list tree) : list string :=
  fold_left (fun acc o => if mem String.eqb o acc then acc else acc ++ [o]) (flat_map t_obs pdfs) [].
Definition nested (pdfs : list tree) : tree :=
  let same := filter (overlaps pdfs) pdfs in ProdT (common_obs same) None same.

(** core/space.py:1880-1935 [limits.with_obs(pdf.obs)], and the ordering of the limits by the observables of the PDF
    (core/basemodel.py:344-345): the limits are looked up by name, so that the order does not matter here. *)
Definition inside_box (b : box) (o : string) (v : Q) : bool :=
  match lookup String.eqb o b with Some (lo, hi) => Qle_bool lo v && Qle_bool v hi | None => true end.
(** core/basemodel.py:1200 [Data.from_tensor(tensor, obs=limits)]: the columns are labelled by position, and the rows outside the limits
    are removed (core/data.py, Data_Model). *)
Definition cut (obs : list string) (b : box) (rows : list row) : list row :=
  filter (fun r => forallb (fun p => inside_box b (fst p) (snd (snd p))) (combine obs r)) rows.

(** [znp.concatenate(samples, axis=0)]: the numbers of columns have to agree. *)
Definition concat_rows (widths : list nat) (rowss : list (list row)) : result (list row) :=
  match widths with
  | [] => Err InvalidArgumentError
  | w :: ws => if forallb (Nat.eqb w) ws then Ok (concat rowss) else Err InvalidArgumentError
  end.
(** core/data.py:1665-1722 [concat_data_obs], without weights: columns next to each other; the numbers of rows have to agree. *)
Fixpoint join_columns (a b : list row) : list row :=
  match a, b with x :: a, y :: b => (x ++ y) :: join_columns a b | _, _ => [] end.
Fixpoint concat_columns (parts : list (list row)) : result (list row) :=
  match parts with
  | [] => Err ValueError
  | [p] => Ok p
  | p :: ps => let* r := concat_columns ps in
               if Nat.eqb (length p) (length r) then Ok (join_columns p r) else Err InvalidArgumentError
  end.

Section Sampling.
(** Random numbers, as functions of the place in the call tree: the multinomial counts (z/random.py:64-115), the permutation
    of [shuffle], the accept-reject (or analytic) sampling of a PDF within a box (AccRej_Model), which may fail, the Poisson number for a yield. *)
Variable multinomial : list nat -> nat -> list Q -> list nat.
Variable shuffle : list nat -> list row -> list row.
Variable draw : list nat -> tree -> nat -> box -> result (list row).
Variable poisson : list nat -> Q -> nat.
(** Integrals of a PDF of one observable; whether the code runs eagerly. *)
Variable integral : tree -> Q * Q -> Q.
Variable eager : bool.

(** [limits == self.space] of a truncated PDF; exact here *)
Definition is_space (o : string) (sp : Q * Q) (b : box) : bool :=
  match lookup String.eqb o b with Some (lo, hi) => Qeq_bool lo (fst sp) && Qeq_bool hi (snd sp) | None => false end.
Definition with_limit (o : string) (l : Q * Q) : box := [(o, l)].

(** core/basemodel.py:1202-1238 [_limits_sample], [_call_sample] for one limit and a given number: the method [_sample] of the class,
    or accept-reject. models/functor.py:290-304 (sum), 465-474 (product), models/truncated.py:256-277 (truncated). Components are sampled with the
    public [sample], that is, cut. *)
Fixpoint tensor (t : tree) (n : nat) (b : box) (s : list nat) {struct t} : result (list row) :=
  match t with
  | Leaf _ _ _ => draw s t n b
  | SumT _ _ fracs pdfs =>
      let* rowss := (fix go (i : nat) (ps : list tree) (cs : list nat) : result (list (list row)) :=
                       match ps, cs with
                       | p :: ps, c :: cs =>
                           let* r := tensor p c b (i :: s) in
                           let* rs := go (S i) ps cs in Ok (cut (t_obs p) b r :: rs)
                       | _, _ => Ok []
                       end) 0 pdfs (multinomial s n fracs) in
      let* rows := concat_rows (map (fun p => length (t_obs p)) pdfs) rowss in
      Ok (shuffle s rows)
  | ProdT _ _ pdfs =>
      if forallb (overlaps pdfs) pdfs then draw s t n b
      else
        let* parts := (fix go (i : nat) (ps : list tree) : result (list (list row)) :=
                         match ps with
                         | [] => Ok []
                         | p :: ps =>
                             if overlaps pdfs p then go (S i) ps
                             else let* r := tensor p n b (i :: s) in
                                  let* rs := go (S i) ps in Ok (cut (t_obs p) b r :: rs)
                         end) 0 pdfs in
        if existsb (overlaps pdfs) pdfs
        then let* r := draw (length pdfs :: s) (nested pdfs) n b in concat_columns (parts ++ [cut (t_obs (nested pdfs)) b r])
        else concat_columns parts
  | TruncT o _ sp limits p =>
      if negb eager || negb (is_space o sp b) then draw s t n b
      else
        let counts := match limits with
                      | [_] => [n]
                      | _ => let is := map (integral p) limits in
                             let tot := fold_right Qplus 0%Q is in
                             multinomial s n (map (fun v => v / tot)%Q is)
                      end in
        let* rowss := (fix go (i : nat) (ls : list (Q * Q)) (cs : list nat) : result (list (list row)) :=
                         match ls, cs with
                         | l :: ls, c :: cs =>
                             let* r := tensor p c (with_limit o l) (i :: s) in
                             let* rs := go (S i) ls cs in Ok (cut (t_obs p) (with_limit o l) r :: rs)
                         | _, _ => Ok []
                         end) 0 limits counts in
        Ok (concat rowss)
  end.
(** core/basemodel.py:1147-1200 [sample] with a given number *)
Definition sample (t : tree) (n : nat) (b : box) (s : list nat) : result (list row) :=
  let* rows := tensor t n b s in Ok (cut (t_obs t) b rows).

(** core/sample.py:499-527 [extract_extended_pdfs], for a single PDF *)
Fixpoint extract (t : tree) : result (list tree) :=
  if negb (t_extended t) then Ok []
  else
    let functor (pdfs : list tree) (sub : result (list tree)) : result (list tree) :=
      if forallb t_extended pdfs then sub
      else if negb (existsb t_extended pdfs) then Ok [t] else Err AssertionError in
    match t with
    | Leaf _ _ _ => Ok [t]
    | SumT _ _ _ pdfs | ProdT _ _ pdfs =>
        functor pdfs ((fix go (ps : list tree) : result (list tree) :=
                         match ps with
                         | [] => Ok []
                         | p :: ps => let* a := extract p in let* r := go ps in Ok (a ++ r)
                         end) pdfs)
    | TruncT _ _ _ _ p => functor [p] (extract p)
    end.
(** core/sample.py:530-551 [extended_sampling] *)
Definition counts_of (s : list nat) (ps : list tree) : list nat :=
  map (fun ip => match t_yield (snd ip) with Some y => poisson (fst ip :: s) y | None => 0 end) (combine (seq 0 (length ps)) ps).
Definition extended_sampling (t : tree) (b : box) (s : list nat) : result (list row) :=
  let* ps := extract t in
  let* rowss := mapM (fun ic => sample (snd (snd ic)) (fst (snd ic)) b (fst ic :: s))
                     (combine (seq 0 (length ps)) (combine (counts_of s ps) ps)) in
  concat_rows (map (fun p => length (t_obs p)) ps) rowss.

(** core/basemodel.py:1147-1200 [sample], core/basepdf.py:773-789 [_hook_sample]: the number is an integer, None, or a string, which
    is treated as None (1180). *)
Inductive number := Given (n : nat) | NoNumber | Text (w : string).
Definition public_sample (t : tree) (n : number) (b : box) (s : list nat) : result (list row) :=
  match n with
  | Given n => sample t n b s
  | NoNumber | Text _ => if t_extended t then let* rows := extended_sampling t b s in Ok (cut (t_obs t) b rows) else Err ValueError
  end.
End Sampling.
