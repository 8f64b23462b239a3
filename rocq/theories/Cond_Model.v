(** Conditional PDFs: models/conditional.py [ConditionalPDFV1], with the conversion of the data
    (core/basemodel.py [_convert_sort_x], core/data.py [with_obs]), [sample] and [integrate]
    (core/basemodel.py) and the context manager [set_values] (core/parameter.py).

    - The wrapped PDF is a function of the values that the parameters show: [inner], [inner_int] and
      [inner_draw]. Parameters are known by their names.
    - tf.map_fn takes the rows one after the other; use_vectorized_map is not modelled.
    - [graph] tells whether TensorFlow functions are compiled (the default).
    - Rows of data have one number for each column. Weights are not used by this PDF. Events
      of a sample outside of the limits of the data given, which [sample] removes, are not modelled. *)
From Verif Require Import Base.

Definition store := string -> Q.
Definition assign (s : store) (p : string) (v : Q) : store := fun q => if String.eqb q p then v else s q.

(** core/parameter.py:508-514 [value]: what a parameter with limits shows. *)
Definition limits_t := string -> option Q * option Q.
Definition clip (l : option Q * option Q) (v : Q) : Q :=
  let v := match fst l with Some a => if Qle_bool a v then v else a | None => v end in
  match snd l with Some b => if Qle_bool v b then v else b | None => v end.
Definition visible (lims : limits_t) (s : store) : store := fun p => clip (lims p) (s p).

Record dat : Type := Dat { cols : list string; rows : list (list Q) }.
Definition column (d : dat) (o : string) (row : list Q) : Q :=
  match index_of String.eqb o (cols d) with Some k => nth k row 0%Q | None => 0%Q end.

(** conditional.py:36-85 [__init__], 91-98 [_check_input_cond]: for each parameter whether it is an
    independent one, and the observables of its space. Limits and norm are not modelled here. *)
Record cond_pdf : Type := CondPdf { c_pdf_obs : list string; c_cond : list (string * list string); c_obs : list string }.
Fixpoint unique (l : list string) : list string :=
  match l with [] => [] | a :: r => a :: filter (fun b => negb (String.eqb a b)) (unique r) end.
Definition make_cond (pdf_obs : list string) (cond : list (string * bool * list string)) : result cond_pdf :=
  if forallb (fun c => snd (fst c)) cond then
    Ok (CondPdf pdf_obs (map (fun c => (fst (fst c), snd c)) cond) (unique (pdf_obs ++ flat_map snd cond)))
  else Err TypeError.

(** 129-139 [_get_params]; [params] are those of the wrapped PDF. *)
Definition cond_params (C : cond_pdf) (params : list string) : list string :=
  filter (fun p => negb (mem String.eqb p (map fst (c_cond C)))) params.

(** basemodel.py:219-240 with data.py:869-897: the columns that the PDF knows, in its order. *)
Definition sort_x (C : cond_pdf) (d : dat) : result dat :=
  let cs := filter (fun o => mem String.eqb o (cols d)) (c_obs C) in
  match cs with
  | [] => Err ObsIncompatibleError
  | _ => Ok (Dat cs (map (fun row => map (fun o => column d o row) cs) (rows d)))
  end.

(** 104, 152, 184: the index of the first observable of each space; tuple.index raises. *)
Definition indices (C : cond_pdf) (cs : list string) : result (list (string * nat)) :=
  mapM (fun c => match snd c with
                 | [] => Err IndexError
                 | o :: _ => let* k := opt_result ValueError (index_of String.eqb o cs) in Ok (fst c, k)
                 end) (c_cond C).

(** 120-121, 165-166, 198-199 *)
Definition assign_row (idx : list (string * nat)) (row : list Q) (s : store) : store :=
  fold_left (fun s pk => assign s (fst pk) (nth (snd pk) row 0%Q)) idx s.
(** tf.map_fn, one row after the other. *)
Section MapRows.
Context {B : Type} (f : nat -> store -> list Q -> store * result B).
Fixpoint map_rows (i : nat) (s : store) (l : list (list Q)) : store * result (list B) :=
  match l with
  | [] => (s, Ok [])
  | row :: l =>
      match f i s row with
      | (s, Err e) => (s, Err e)
      | (s, Ok b) => let (s, r) := map_rows (S i) s l in (s, let* bs := r in Ok (b :: bs))
      end
  end.
End MapRows.

(** Ranges of observables; what a PDF takes of those handed over: its own observables. *)
Definition ranges := list (string * (Q * Q)).
Definition part (obs : list string) (r : ranges) : ranges := filter (fun p => mem String.eqb (fst p) obs) r.

Section Eval.
Variable C : cond_pdf.
Variable lims : limits_t.
Variable inner : store -> ranges -> list Q -> result Q.
Variable inner_int : store -> ranges -> ranges -> result Q.
Variable inner_draw : nat -> store -> ranges -> result (list Q).
Variable graph : bool.

Definition cond_names : list string := map fst (c_cond C).

(** parameter.py:1512-1550 [set_values] with [set_value] 580-621: each parameter is set to the value
    that it shows. In a compiled function the value has to be strictly inside of the limits; outside
    of it, [_check_at_limit] with [exact] lets values at the limit pass. *)
Definition inside (l : option Q * option Q) (v : Q) : bool :=
  match fst l with Some a => Qlt_bool a v | None => true end && match snd l with Some b => Qlt_bool v b | None => true end.
Definition blocked (s : store) : bool := graph && existsb (fun p => negb (inside (lims p) (visible lims s p))) cond_names.
Definition set_to (old s : store) : store := fold_left (fun s p => assign s p (visible lims old p)) cond_names s.

(** 118-122 [eval_pdf] *)
Definition eval_pdf (idx : list (string * nat)) (norm : ranges) (_ : nat) (s : store) (row : list Q) : store * result Q :=
  let x := firstn (length (c_pdf_obs C)) row in
  let s := assign_row idx row s in
  (s, if Nat.eqb (length x) (length (c_pdf_obs C)) then inner (visible lims s) (part (c_pdf_obs C) norm) x
      else Err ShapeIncompatibleError).

(** 100-127 [_pdf]: the values of the parameters afterwards, and the values. If an error occurs
    while a compiled function runs, the values are not set back. *)
Definition pdf (s : store) (norm : ranges) (d : dat) : store * result (list Q) :=
  match sort_x C d with
  | Err e => (s, Err e)
  | Ok x =>
      match indices C (cols x) with
      | Err e => (s, Err e)
      | Ok idx =>
          if blocked s then (s, Err InvalidArgumentError)
          else
            match map_rows (eval_pdf idx norm) 0 (set_to s s) (rows x) with
            | (s', Ok v) => (set_to s s', Ok v)
            | (s', Err e) => (if graph then s' else set_to s s', Err e)
            end
      end
  end.

(** 141-171 [_single_hook_integrate]; [var] is None if not given (x.obs raises). *)
Definition integrate (s : store) (limits norm : ranges) (var : option dat) : store * result (list Q) :=
  match var with
  | None => (s, Err AttributeError)
  | Some d =>
      match sort_x C d with
      | Err e => (s, Err e)
      | Ok x =>
          match indices C (cols x) with
          | Err e => (s, Err e)
          | Ok idx =>
              map_rows (fun _ s row => let s := assign_row idx row s in
                          (s, inner_int (visible lims s) (part (c_pdf_obs C) limits) (part (c_pdf_obs C) norm)))
                0 s (rows x)
          end
      end
  end.

(** 173-206 [_single_hook_sample] with basemodel.py:1180-1200 [sample]: [n] and [x] as given,
    [limits] those given or those of the PDF. [[..., 0]] (205) takes the first observable of each
    event. *)
Definition sample (s : store) (n : option nat) (limits : ranges) (x : option dat) : store * result dat :=
  match x with
  | None => (s, Err AttributeError)
  | Some d =>
      match sort_x C d with
      | Err e => (s, Err e)
      | Ok x =>
          let new_obs := unique (map fst limits ++ cols x) in
          match n with
          | None => (s, Err ValueError)
          | Some n =>
              if negb (Nat.eqb n (length (rows x))) then (s, Err InvalidArgumentError)
              else
                match indices C (cols x) with
                | Err e => (s, Err e)
                | Ok idx =>
                    match map_rows (fun i s row => let s := assign_row idx row s in
                                      (s, let* e := inner_draw i (visible lims s) (part (c_pdf_obs C) limits) in
                                          Ok (firstn 1 e ++ row))) 0 s (rows x) with
                    | (s', Err e) => (s', Err e)
                    | (s', Ok l) =>
                        (s', if forallb (fun r => Nat.eqb (length r) (length new_obs)) l then Ok (Dat new_obs l)
                             else Err ShapeIncompatibleError)
                    end
                end
          end
      end
  end.
End Eval.
