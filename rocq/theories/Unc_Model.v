(** Model of the symmetric uncertainties of a fit result: covariance, correlation, [hesse], [errors] and
    [freeze] (minimizers/fitresult.py) with minimizers/errors.py:326-475.
    Parameters are their names (C47: a model never has two different parameters of one name). Numbers are
    rationals; the square root and the chi2 quantile of scipy are parameters of the model. *)
From Verif Require Import Base.

Definition pair_eqb (a b : string * string) : bool := String.eqb (fst a) (fst b) && String.eqb (snd a) (snd b).
(** A dictionary (param, param) -> number. *)
Definition covd := list ((string * string) * Q).
(** A 2-dimensional array; [None] stands for nan. *)
Definition mget {A} (d : A) (m : list (list A)) (i j : nat) : A := nth j (nth i m []) d.

(** minimizers/errors.py:443-457 [dict_to_matrix]: only the entries (p_i, p_j) with i <= j are read; a missing key is a
    KeyError. The case of an empty dictionary (448: None) is treated by the callers. *)
Definition dict_to_matrix {V} (ps : list string) (d : list ((string * string) * V)) : result (list (list V)) :=
  mapM (fun i => mapM (fun j =>
          let* p := opt_result IndexError (nth_error ps (Nat.min i j)) in
          let* q := opt_result IndexError (nth_error ps (Nat.max i j)) in
          opt_result KeyError (lookup pair_eqb (p, q) d)) (seq 0 (length ps))) (seq 0 (length ps)).

(** minimizers/errors.py:460-475 [matrix_to_dict]: only the entries with i <= j are read. *)
Definition matrix_to_dict {V} (dflt : V) (ps : list string) (m : list (list V)) : list ((string * string) * V) :=
  concat (map (fun i => concat (map (fun j =>
     match nth_error ps i, nth_error ps j with
     | Some p, Some q => ((p, q), mget dflt m i j) :: (if Nat.eqb i j then [] else [((q, p), mget dflt m i j)])
     | _, _ => []
     end) (seq i (length ps - i)))) (seq 0 (length ps))).

(** numpy matmul of square matrices of size n, and J J^T for a Jacobian with n rows (errors.py:436-437). *)
Fixpoint qsum (l : list Q) : Q := match l with [] => 0%Q | a :: r => (a + qsum r)%Q end.
Definition matmul (n : nat) (a b : list (list Q)) : list (list Q) :=
  map (fun i => map (fun j => qsum (map (fun k => mget 0%Q a i k * mget 0%Q b k j)%Q (seq 0 n))) (seq 0 n)) (seq 0 n).
Definition gram (n : nat) (jac : list (list Q)) : list (list Q) :=
  map (fun i => map (fun j => qsum (map (fun ab => fst ab * snd ab)%Q (combine (nth i jac []) (nth j jac [])))) (seq 0 n)) (seq 0 n).

(** minimizers/errors.py:43-46 [WeightCorr] *)
Inductive wcorr := ASYMPTOTIC | EFFSIZE | NOCORR.
Definition wcorr_eqb (a b : wcorr) : bool :=
  match a, b with ASYMPTOTIC, ASYMPTOTIC | EFFSIZE, EFFSIZE | NOCORR, NOCORR => true | _, _ => false end.

(** How a covariance method is given: its registered name, or a callable. *)
Inductive method := MName (s : string) | MCall (n : nat).
Definition method_eqb (a b : method) : bool :=
  match a, b with MName s, MName t => String.eqb s t | MCall n, MCall m => Nat.eqb n m | _, _ => false end.

(** What is stored under [result.params[p][name]]: an entry of [hesse], one of [errors], or the message that replaces
    it when a new minimum was found. *)
Inductive entry :=
| EHesse (err : Q) (cl : Q) (w : wcorr)
| EAsym (lower upper : Q) (cl : Q)
| EMsg.

Definition world := string -> Q.
(** The state: the values of the parameters, and the mutable parts of the fit result. *)
Record st := mkSt { vals : world; cache : list (method * covd); errs : list ((string * string) * entry); valid_flag : bool }.
Definition with_vals (s : st) (w : world) : st := mkSt w (cache s) (errs s) (valid_flag s).

(** core/parameter.py:1483-1509 [assign_values] *)
Definition set1 (w : world) (p : string) (v : Q) : world := fun q => if String.eqb q p then v else w q.
Fixpoint assign (w : world) (ps : list string) (vs : list Q) : world :=
  match ps, vs with p :: ps, v :: vs => assign (set1 w p v) ps vs | _, _ => w end.

(** dict item assignment *)
Fixpoint put {V} (k : string * string) (v : V) (d : list ((string * string) * V)) : list ((string * string) * V) :=
  match d with
  | [] => [(k, v)]
  | (k', v') :: r => if pair_eqb k k' then (k, v) :: r else (k', v') :: put k v r
  end.

Definition product (ps : list string) : list (string * string) := concat (map (fun p => map (fun q => (p, q)) ps) ps).

(** minimizers/fitresult.py:521: math.isclose(a, b, abs_tol=t) with its default rel_tol 1e-9. *)
Definition qabs (q : Q) : Q := if Qle_bool 0 q then q else (- q)%Q.
Definition qmax (a b : Q) : Q := if Qle_bool a b then b else a.
Definition isclose (a b t : Q) : bool :=
  Qle_bool (qabs (a - b)) (qmax ((1 # 1000000000) * qmax (qabs a) (qabs b)) t).
Definition cl_close (stored cl : Q) : bool := isclose stored cl ((3 # 1000) * (1 - cl))%Q.

Section Result.
(** The parameters of the result in order, whether the loss has weighted data, whether one of several data sets has no weights. *)
Variable r_params : list string.
Variable weighted : bool.
Variable some_unweighted : bool.
(** The registered covariance methods, and what a method computes; it may change the parameters. *)
Variable hesse_methods : string -> option nat.
Variable run_method : nat -> world -> world * result covd.
(** The Jacobian of the weighted log-likelihood terms: one row per parameter (errors.py:390-434). *)
Variable jacobian : world -> result (list (list Q)).
(** The method for asymmetric errors: lower and upper error per parameter, and whether a new minimum was found. *)
Variable error_method : list string -> Q -> world -> world * result (list (string * (Q * Q)) * bool).
Variable sqrt_ ppf cdf : Q -> Q.

(** minimizers/errors.py:326-440 [covariance_with_weights] *)
Definition covariance_with_weights (n : nat) (w0 : world) (wc : wcorr) : world * result covd :=
  let old_vals := map w0 r_params in
  match run_method n w0 with
  | (w, Err e) => (w, Err e)
  | (w, Ok []) => (w, Ok [])
  | (w, Ok hinv_dict) =>
      match dict_to_matrix r_params hinv_dict with
      | Err e => (w, Err e)
      | Ok hinv =>
          match wc with
          | ASYMPTOTIC =>
              match jacobian w with
              | Err e => (w, Err e)
              | Ok jac =>
                  let k := length r_params in
                  let c := gram k jac in
                  (assign w r_params old_vals, Ok (matrix_to_dict 0%Q r_params (matmul k hinv (matmul k c hinv))))
              end
          | EFFSIZE => if some_unweighted then (w, Err AttributeError)
                       else (assign w r_params old_vals, Ok (matrix_to_dict 0%Q r_params hinv))
          | NOCORR => (w, Err ValueError)
          end
      end
  end.

(** minimizers/fitresult.py:1465-1478 [_covariance] *)
Definition run_covariance (m : method) (w : world) (wc : wcorr) : world * result covd :=
  match (match m with MName s => hesse_methods s | MCall n => Some n end) with
  | None => (w, Err KeyError)
  | Some n => if negb (wcorr_eqb wc NOCORR) && weighted then covariance_with_weights n w wc
              else run_method n w
  end.

(** minimizers/fitresult.py:1138-1152 [_input_check_reset_params]: the values of [ps] are put back, but not if the body
    raised. (The values were read from the parameters, so [set_values] does not refuse them.) *)
Definition reset {A} (ps : list string) (s : st) (body : st -> st * result A) : st * result A :=
  let old := map (vals s) ps in
  match body s with
  | (s', Err e) => (s', Err e)
  | (s', Ok a) => (with_vals s' (assign (vals s') ps old), Ok a)
  end.
Definition check_params (ps : option (list string)) : list string :=
  match ps with Some l => l | None => r_params end.

(** minimizers/fitresult.py:1413-1463 [covariance] with [as_dict=True]: the cache is keyed by the method. *)
Definition covariance_dict (s : st) (ps : option (list string)) (m : option method) (wc : option wcorr)
  : st * result (list ((string * string) * option Q)) :=
  let m := match m with Some m => m | None => MName "minuit_hesse" end in
  let wc := match wc with Some w => w | None => ASYMPTOTIC end in
  let checked := check_params ps in
  let answer (d : covd) := map (fun k => (k, lookup pair_eqb k d)) (product checked) in
  match lookup method_eqb m (cache s) with
  | Some d => (s, Ok (answer d))
  | None =>
      reset checked s (fun s =>
        match run_covariance m (vals s) wc with
        | (w, Err e) => (with_vals s w, Err e)
        | (w, Ok d) => (mkSt w ((m, d) :: cache s) (errs s) (valid_flag s), Ok (answer d))
        end)
  end.
(** the same with [as_dict=False]; for no parameters [dict_to_matrix] returns None (errors.py:448) *)
Definition covariance_matrix (s : st) (ps : option (list string)) (m : option method) (wc : option wcorr)
  : st * result (option (list (list (option Q)))) :=
  match covariance_dict s ps m wc with
  | (s', Err e) => (s', Err e)
  | (s', Ok d) => (s', match d with [] => Ok None | _ => let* x := dict_to_matrix (check_params ps) d in Ok (Some x) end)
  end.

(** minimizers/fitresult.py:1599-1601 [covariance_to_correlation]: D C D with D = diag(1 / C_ii ** 0.5), for a matrix without nan. *)
Definition to_correlation (c : list (list Q)) : list (list Q) :=
  let n := length c in
  let diag := map (fun i => map (fun j => if Nat.eqb i j then (1 / sqrt_ (mget 0 c i i))%Q else 0%Q) (seq 0 n)) (seq 0 n) in
  matmul n diag (matmul n c diag).

(** minimizers/fitresult.py:516-542 [_check_get_uncached_params]: nothing is taken from the cache, but an entry of the same
    name with another confidence level or weight correction is refused. Indexing the message raises TypeError. *)
Definition check_uncached (s : st) (ps : list string) (name : option string) (cl : Q) (wc : option wcorr) : result unit :=
  let* _ := mapM (fun p =>
    if negb (mem String.eqb p r_params) then Err KeyError
    else match name with
         | None => Ok tt
         | Some name =>
             match lookup pair_eqb (p, name) (errs s) with
             | None => Ok tt
             | Some EMsg => Err TypeError
             | Some (EAsym _ _ cl') => if negb (cl_close cl' cl) then Err NameError
                                       else match wc with
                                            | Some w => if wcorr_eqb w NOCORR then Ok tt else Err KeyError
                                            | None => Ok tt end
             | Some (EHesse _ cl' w') => if negb (cl_close cl' cl) then Err NameError
                                         else match wc with
                                              | Some w => if wcorr_eqb w w' then Ok tt else Err NameError
                                              | None => Ok tt end
             end
         end) ps in Ok tt.

Definition store (s : st) (name : string) (es : list (string * entry)) : st :=
  mkSt (vals s) (cache s) (fold_left (fun d e => put (fst e, name) (snd e) d) es (errs s)) (valid_flag s).

(** How the name is given: not at all, [False], or a string. *)
Inductive namearg := NDefault | NFalse | NName (s : string).

(** minimizers/fitresult.py:1157-1286 [hesse] with [_hesse]. A variance that is missing gives the answer {}. *)
Definition default_cl : Q := 68268949 # 100000000.
Definition hesse (s : st) (ps : option (list string)) (m : option method) (cl : option Q) (name : namearg) (wc : option wcorr)
  : st * result (list (string * entry)) :=
  let cl := match cl with Some c => c | None => default_cl end in
  if Qle_bool 1 cl then (s, Err ValueError)
  else
  let m := match m with Some m => m | None => MName "minuit_hesse" end in
  match (match name, m with
         | NDefault, MCall _ => Err ValueError
         | NDefault, MName _ => Ok (Some "hesse")
         | NFalse, _ => Ok None
         | NName n, _ => Ok (Some n) end)%string with
  | Err e => (s, Err e)
  | Ok name =>
      let wc' := match wc with Some w => w | None => if weighted then ASYMPTOTIC else NOCORR end in
      if negb (wcorr_eqb wc' NOCORR) && negb weighted then (s, Err ValueError)
      else
      let checked := check_params ps in
      reset checked s (fun s =>
        match check_uncached s checked name cl (Some wc') with
        | Err e => (s, Err e)
        | Ok _ =>
            match checked with
            | [] => (s, Ok [])
            | _ =>
            match covariance_dict s (Some checked) (Some m) (Some wc') with
            | (s, Err e) => (s, Err e)
            | (s, Ok d) =>
                let vs := map (fun p => (p, match lookup pair_eqb (p, p) d with Some v => v | None => None end)) checked in
                if existsb (fun pv => match snd pv with None => true | Some _ => false end) vs then (s, Ok [])
                else
                let es := map (fun pv => (fst pv, EHesse (match snd pv with Some v => sqrt_ v | None => 0%Q end * sqrt_ (ppf cl))%Q cl wc')) vs in
                (match name with Some n => store s n es | None => s end, Ok es)
            end
            end
        end)
  end.

(** minimizers/fitresult.py:1319-1411 [errors] with [_error]. *)
Definition errors (s : st) (ps : option (list string)) (name : string) (cl sigma : option Q)
  : st * result (list (string * entry) * bool) :=
  match (match sigma, cl with
         | Some _, Some _ => Err ValueError
         | Some g, None => Ok (cdf g)
         | None, Some c => Ok c
         | None, None => Ok default_cl end) with
  | Err e => (s, Err e)
  | Ok cl =>
      let checked := check_params ps in
      match reset r_params s (fun s =>
        match check_uncached s checked (Some name) cl None with
        | Err e => (s, Err e)
        | Ok _ =>
            match checked with
            | [] => (s, Ok false)
            | _ =>
                match error_method checked cl (vals s) with
                | (w, Err e) => (with_vals s w, Err e)
                | (w, Ok (es, new)) =>
                    let s := store (with_vals s w) name (map (fun e => (fst e, EAsym (fst (snd e)) (snd (snd e)) cl)) es) in
                    if new then let s := store s name (map (fun p => (p, EMsg)) checked) in
                                (mkSt (vals s) (cache s) (errs s) false, Ok true)
                    else (s, Ok false)
                end
            end
        end) with
      | (s', Err e) => (s', Err e)
      | (s', Ok new) =>
          (s', let* es := mapM (fun p => let* e := opt_result KeyError (lookup pair_eqb (p, name) (errs s')) in Ok (p, e)) checked in
               Ok (es, new))
      end
  end.
End Result.

(** [result.values] and [result.params]: minimizers/fitresult.py:277-300 [NameToParamGetitem], 1646-1674. Before [freeze] the
    keys are parameters, afterwards names. *)
Inductive key := KParam (n : string) | KName (n : string) | KInt (i : nat).
Definition key_name (k : key) : option string := match k with KParam n | KName n => Some n | KInt _ => None end.
Definition resolve {V} (frozen : bool) (d : list (string * V)) (item : key) : key :=
  match key_name item with
  | Some n => if mem String.eqb n (map fst d) then (if frozen then KName n else KParam n) else KName n
  | None => item
  end.
Definition values_getitem {V} (frozen : bool) (d : list (string * V)) (item : key) : result V :=
  match resolve frozen d item with
  | KParam n => opt_result KeyError (lookup String.eqb n d)
  | KName _ => Err TypeError
  | KInt i => opt_result IndexError (nth_error (map snd d) i)
  end.
Definition params_getitem {V} (frozen : bool) (d : list (string * V)) (item : key) : result V :=
  match resolve frozen d item with
  | KParam n => if frozen then Err KeyError else opt_result KeyError (lookup String.eqb n d)
  | KName n => if frozen then opt_result KeyError (lookup String.eqb n d) else Err KeyError
  | KInt _ => Err KeyError
  end.
Definition contains {V} (r : result V) : result bool :=
  match r with Ok _ => Ok true | Err KeyError => Ok false | Err _ => Err RuntimeError end.

(** minimizers/fitresult.py:1508-1539 [freeze] and what [covariance] then finds: the keys of the computed covariances and the
    requested parameters are compared as keys, a parameter is not equal to its name. *)
Definition frozen_covariance (frozen : bool) (d : covd) (asked : list key) : list ((key * key) * option Q) :=
  map (fun k => (k, match fst k, snd k with
                    | KParam p, KParam q => if frozen then None else lookup pair_eqb (p, q) d
                    | KName p, KName q => if frozen then lookup pair_eqb (p, q) d else None
                    | _, _ => None end))
      (concat (map (fun p => map (fun q => (p, q)) asked) asked)).

(** minimizers/fitresult.py:117-135 [Approximations.gradient]: the known parameters, sorted by their position in the request. *)
Fixpoint insert_by (key : nat -> nat) (i : nat) (l : list nat) : list nat :=
  match l with [] => [i] | j :: r => if Nat.leb (key i) (key j) then i :: l else j :: insert_by key i r end.
Definition sort_by (key : nat -> nat) (l : list nat) : list nat := fold_right (insert_by key) [] l.
Definition approx_gradient (own : list string) (grad : list Q) (req : list string) : result (list Q) :=
  let pos i := match nth_error own i with
               | Some p => match index_of String.eqb p req with Some k => k | None => 0 end | None => 0 end in
  let known := filter (fun i => match nth_error own i with Some p => mem String.eqb p req | None => false end) (seq 0 (length own)) in
  opt_result IndexError (gather grad (sort_by pos known)).
(** minimizers/fitresult.py:248-265 [_covariance_approx]: rows are looked up by the position in [result.params]. *)
Definition covariance_approx (r_params : list string) (inv_hessian : list (list Q)) (ps : list string) : result covd :=
  let* rows := mapM (fun k => let* i := opt_result ValueError (index_of String.eqb (fst k) r_params) in
                              let* j := opt_result ValueError (index_of String.eqb (snd k) r_params) in
                              Ok (k, mget 0%Q inv_hessian i j)) (product ps) in
  Ok rows.
