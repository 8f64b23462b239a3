(** Unbinned data: [LightDataset], [Data], [concat] and [SamplerData] (core/data.py), eager mode.
    Data types (dtype), names, labels and hashes are not modelled; numbers are rationals. *)
From Verif Require Import Base Coord_Model Space_Model.

(** A 2-D tensor: number of columns and rows. *)
Record tensor := mkT { t_width : nat; t_rows : list (list Q) }.

(** core/data.py:1768-1810 [LightDataset]: either a tensor together with the column of the
    tensor for every axis ([_tensormap] with integer values), or no tensor and one array per axis. *)
Inductive lds :=
| LT (t : tensor) (tmap : list nat)
| LM (cols : list (list Q)).

(** core/data.py:1817-1827 *)
Definition lds_ndims (d : lds) : nat := match d with LT _ m => length m | LM c => length c end.
Definition lds_num (d : lds) : nat :=
  match d with LT t _ => length (t_rows t) | LM c => length (hd [] c) end.

(** core/data.py:1835-1844 [from_tensor] and 1787-1802 *)
Definition lds_from_tensor (t : tensor) (ndims : nat) : result lds :=
  if Nat.eqb (t_width t) ndims then Ok (LT t (seq 0 (t_width t))) else Err ShapeIncompatibleError.

(** core/data.py:1846-1864 [with_indices]; a missing key of [_tensormap] is a KeyError. *)
Definition lds_with_indices (d : lds) (idx : list nat) : result lds :=
  match d with
  | LT t m => let* m' := opt_result KeyError (gather m idx) in Ok (LT t m')
  | LM c => let* c' := opt_result KeyError (gather c idx) in Ok (LM c')
  end.

(** [tensor[:, j]] *)
Definition tcolumn (t : tensor) (j : nat) : result (list Q) :=
  if Nat.ltb j (t_width t) then Ok (map (fun r => nth j r 0%Q) (t_rows t)) else Err InvalidArgumentError.

(** [znp.stack(columns, axis=-1)] *)
Definition stack (cols : list (list Q)) : result (list (list Q)) :=
  match cols with
  | [] => Err ValueError
  | c :: _ => if forallb (fun c' => Nat.eqb (length c') (length c)) cols
              then Ok (map (fun k => map (fun c' => nth k c' 0%Q) cols) (seq 0 (length c)))
              else Err InvalidArgumentError
  end.

(** core/data.py:1866-1887 [_get_tensor_and_tensormap] with [forcemap]: the tensor is replaced
    by its columns, also in the object itself. *)
Definition lds_force (d : lds) : result lds :=
  match d with
  | LM c => Ok (LM c)
  | LT t m => let* cols := mapM (tcolumn t) m in Ok (LM cols)
  end.

(** core/data.py:1889-1926 [value]; the first component is the object after the call. *)
Definition lds_value (d : lds) (index : option (list nat)) : result (lds * tensor) :=
  let idx := match index with None => seq 0 (lds_ndims d) | Some i => i end in
  let forcemap := match index with
                  | None => false
                  | Some i => Nat.ltb (length (nodup Nat.eq_dec i)) (lds_ndims d)
                  end in
  let* d' := if forcemap then lds_force d else Ok d in
  match d' with
  | LM c => let* cols := opt_result KeyError (gather c idx) in
            let* rows := stack cols in Ok (d', mkT (length idx) rows)
  | LT t m => let* newindex := opt_result KeyError (gather m idx) in
              let* rows := mapM (fun r => opt_result InvalidArgumentError (gather r newindex)) (t_rows t) in
              Ok (d', mkT (length idx) rows)
  end.

(** core/data.py:1213-1220: the number of weights has to be the number of rows *)
Definition check_weights (n : nat) (ws : option (list Q)) : result unit :=
  match ws with
  | Some w => if Nat.eqb (length w) n then Ok tt else Err ValueError
  | None => Ok tt
  end.

(** core/data.py:1199-1240 [check_cut_data_weights] for a 2-D tensor *)
Definition check_cut_tensor (limits : space) (t : tensor) (ws : option (list Q))
  : result (tensor * option (list Q)) :=
  let* _ := check_weights (length (t_rows t)) ws in
  if s_has_limits limits then
    let* mask := mapM (fun r => s_inside limits r false) (t_rows t) in
    Ok (mkT (t_width t) (boolean_mask (t_rows t) mask), option_map (fun w => boolean_mask w mask) ws)
  else Ok (t, ws).

(** core/data.py:1180-1196 [check_cut_datamap_weights]: one axis after the other. Masks of
    different lengths are an error (broadcasting of a mask of length one is not modelled). *)
Definition and_masks (a : option (list bool)) (b : list bool) : result (option (list bool)) :=
  match a with
  | None => Ok (Some b)
  | Some a => if Nat.eqb (length a) (length b)
              then Ok (Some (map (fun p => fst p && snd p) (combine a b)))
              else Err InvalidArgumentError
  end.
Definition mask_step (limits : space) (cols : list (list Q)) (acc : option (list bool)) (ax : Z)
  : result (option (list bool)) :=
  let* limit := s_with_axes limits (Some [ax]) true true in
  let* arr := opt_result KeyError (nth_error cols (Z.to_nat ax)) in
  if s_has_limits limit then
    let* m := mapM (fun v => s_inside limit [v] false) arr in
    and_masks acc m
  else Ok acc.
Definition mask_column (mask : list bool) (c : list Q) : result (list Q) :=
  if Nat.eqb (length c) (length mask) then Ok (boolean_mask c mask) else Err InvalidArgumentError.
Definition check_cut_map (limits : space) (cols : list (list Q)) (ws : option (list Q))
  : result (list (list Q) * option (list Q)) :=
  let* _ := check_weights (length (hd [] cols)) ws in
  let axes := match s_axes limits with Some a => a | None => [] end in
  let* inside := foldM (mask_step limits cols) None axes in
  let* cols' := mapM (fun ax => opt_result KeyError (nth_error cols (Z.to_nat ax))) axes in
  match inside with
  | None => Ok (cols', ws)
  | Some mask =>
      if forallb (fun b => b) mask then Ok (cols', ws)
      else let* cut := mapM (mask_column mask) cols' in
           match ws with
           | None => Ok (cut, None)
           | Some w => let* w' := mask_column mask w in Ok (cut, Some w')
           end
  end.

(** core/data.py:119-239: a [Data] object *)
Record data := mkData { d_space : space; d_set : lds; d_weights : option (list Q) }.

(** core/data.py:131-239 [Data.__init__] with an unbinned space. [_set_space] numbers the axes
    0, ..., n - 1. *)
Definition data_init (obs : space) (d : lds) (ws : option (list Q)) (guarantee : bool) : result data :=
  let* sp := s_with_autofill_axes obs true in
  if guarantee then Ok (mkData sp d ws)
  else match d with
       | LM cols => let* (cols', ws') := check_cut_map sp cols ws in Ok (mkData sp (LM cols') ws')
       | LT _ _ => let* (_, t) := lds_value d None in
                   let* (t', ws') := check_cut_tensor sp t ws in
                   let* d' := lds_from_tensor t' (s_n_obs sp) in
                   Ok (mkData sp d' ws')
       end.

(** core/data.py:775-854 [from_tensor] (2-D input; from_numpy 716-772 is the same) *)
Definition data_from_tensor (t : tensor) (obs : space) (ws : option (list Q)) (guarantee : bool) : result data :=
  let* d := lds_from_tensor t (s_n_obs obs) in
  data_init obs d ws guarantee.

Definition d_obs (d : data) : list string := match s_obs (d_space d) with Some o => o | None => [] end.

(** core/data.py:526-602 [from_mapping] *)
Definition data_from_mapping (m : list (string * list Q)) (obs : space) (ws : option (list Q)) (guarantee : bool)
  : result data :=
  let os := match s_obs obs with Some o => o | None => [] end in
  if negb (subsetb String.eqb os (map fst m)) then Err ValueError
  else let* cols := mapM (fun o => opt_result KeyError (lookup String.eqb o m)) os in
       data_init obs (LM cols) ws guarantee.

(** Keys of [_tensormap] are the integers 0, ..., n - 1. *)
Definition keys_of (axes : list Z) : result (list nat) :=
  mapM (fun z => if Z.ltb z 0 then Err KeyError else Ok (Z.to_nat z)) axes.

(** core/data.py:948-975 [value] for a list of observables (or None) and for axes; the object
    after the call is returned too. *)
Definition set_lds (d : data) (l : lds) : data := mkData (d_space d) l (d_weights d).
Definition d_value_ix (d : data) (axes : list Z) : result (data * tensor) :=
  let* idx := keys_of axes in
  let* (l, t) := lds_value (d_set d) (Some idx) in
  Ok (set_lds d l, t).
Definition d_value (d : data) (obs : option (list string)) : result (data * tensor) :=
  let* sp := s_with_obs (d_space d) obs true true in
  match s_axes sp with
  | None => Err TypeError
  | Some axes => d_value_ix d axes
  end.
Definition d_value_axes (d : data) (axes : list Z) : result (data * tensor) :=
  if negb (subsetb Z.eqb axes (match s_axes (d_space d) with Some a => a | None => [] end)) then Err ValueError
  else d_value_ix d axes.
(** [value("x")]: the last axis, of length one, is squeezed *)
Definition d_column (d : data) (ob : string) : result (data * list Q) :=
  let* (d', t) := d_value d (Some [ob]) in
  if Nat.eqb (t_width t) 1 then Ok (d', map (fun r => nth 0 r 0%Q) (t_rows t)) else Err ValueError.

(** core/data.py:247-268 *)
Definition d_num (d : data) : nat := lds_num (d_set d).
Definition qsum (l : list Q) : Q := fold_right Qplus 0%Q l.
Definition d_samplesize (d : data) : Q :=
  match d_weights d with Some w => qsum w | None => inject_Z (Z.of_nat (d_num d)) end.

(** core/data.py:365-384 [with_weights]; [_copy] (336-358) with neither obs nor data keeps the
    data as it is. *)
Definition d_with_weights (d : data) (ws : option (list Q)) : result data :=
  match ws with
  | Some w => if Nat.eqb (length w) (d_num d) then data_init (d_space d) (d_set d) ws true else Err ValueError
  | None => data_init (d_space d) (d_set d) None true
  end.

(** core/data.py:999-1011 [_get_permutation_indices] *)
Definition permutation_indices (d : data) (obs : list string) : result (list nat) :=
  if negb (subsetb String.eqb obs (d_obs d)) then Err ValueError
  else get_reorder_indices (s_coords (d_space d)) (Some obs) None.

(** core/data.py:869-897 [with_obs]: names, axes or a space. [_copy] (350-354) ignores
    [guarantee_limits] whenever obs or data are given, so the result is always cut to the
    limits of the new space; the comparison of line 888 therefore has no effect. *)
Inductive obs_arg := ByNames (l : list string) | ByAxes (l : list Z) | BySpace (s : space).
Definition d_with_obs (d : data) (a : obs_arg) : result data :=
  let* obs := match a with
              | ByNames l => s_with_obs (d_space d) (Some l) true true
              | ByAxes l => s_with_axes (d_space d) (Some l) true true
              | BySpace s => let* _ := s_with_obs (d_space d) (s_obs s) true true in Ok s
              end in
  if is_binned obs then Err ValueError
  else
    let* idx := permutation_indices d (match s_obs obs with Some o => o | None => [] end) in
    let* l := lds_with_indices (d_set d) idx in
    data_init obs l (d_weights d) false.

(** core/data.py:899-918 [to_pandas]: a dictionary of columns; [dict.update] overwrites a
    column of the same name. *)
Definition frame := list (string * list Q).
Fixpoint frame_set (f : frame) (k : string) (c : list Q) : frame :=
  match f with
  | [] => [(k, c)]
  | (k', c') :: r => if String.eqb k k' then (k', c) :: r else (k', c') :: frame_set r k c
  end.
Fixpoint d_columns (d : data) (obs : list string) : result (data * frame) :=
  match obs with
  | [] => Ok (d, [])
  | o :: r => let* (d1, c) := d_column d o in
              let* (d2, f) := d_columns d1 r in
              Ok (d2, (o, c) :: f)
  end.
Definition d_to_pandas (d : data) (weightsname : option string) : result (data * frame) :=
  let* (d', f) := d_columns d (d_obs d) in
  Ok (d', match d_weights d with
          | Some w => frame_set f (match weightsname with Some n => n | None => ""%string end) w
          | None => f
          end).

(** core/data.py:423-523 [from_pandas] with a space; the weights are a column name or nothing
    (then the column "" is used if there is one). *)
Definition data_from_pandas (f : frame) (obs : space) (weights : option string) (guarantee : bool) : result data :=
  let names := map fst f in
  let os := match s_obs obs with Some o => o | None => [] end in
  if negb (subsetb String.eqb os names) then Err ValueError
  else
    let wname := match weights with Some n => n | None => ""%string end in
    match lookup String.eqb wname f with
    | None => match weights with
              | Some _ => Err ValueError
              | None => data_from_mapping f obs None guarantee
              end
    | Some w => let* sp := s_with_obs obs (Some (filter (fun o => negb (String.eqb o wname)) os)) true true in
                data_from_mapping f sp (Some w) guarantee
    end.

(** core/data.py:1725-1762 [concat_data_index]; [obs] is a space or names *)
Inductive obs_opt := NoObs | Names (l : list string) | InSpace (s : space).
Definition set_eq_names (a b : list string) : bool := set_eqb String.eqb a b.
Fixpoint values_of (ds : list data) (obs : list string) : result (list tensor) :=
  match ds with
  | [] => Ok []
  | d :: r => let* (_, t) := d_value d (Some obs) in
              let* ts := values_of r obs in Ok (t :: ts)
  end.
Definition d_has_weights (d : data) : bool := match d_weights d with Some _ => true | None => false end.
Definition weights_or_ones (d : data) (t : tensor) : list Q :=
  match d_weights d with Some w => w | None => repeat 1%Q (length (t_rows t)) end.
Definition concat_index (ds : list data) (o : obs_opt) : result data :=
  match ds with
  | [] => Err ValueError
  | d0 :: _ =>
      let* sp := match o with
                 | NoObs => Ok (d_space d0)
                 | Names l => s_with_obs (d_space d0) (Some l) true true
                 | InSpace s => Ok s
                 end in
      let obs := match s_obs sp with Some l => l | None => [] end in
      if negb (forallb (fun d => set_eq_names obs (d_obs d)) ds) then Err ValueError
      else
        let* ts := values_of ds obs in
        let rows := concat (map t_rows ts) in
        let ws := if existsb d_has_weights ds
                  then Some (concat (map (fun p => weights_or_ones (fst p) (snd p)) (combine ds ts)))
                  else None in
        data_from_tensor (mkT (length obs) rows) sp ws true
  end.

(** core/data.py:1665-1722 [concat_data_obs]. If no data set has a tensor, [data_new] is a
    dictionary, whose missing attribute [append] is used in line 1693. *)
Definition is_map (d : data) : bool := match d_set d with LM _ => true | LT _ _ => false end.
Fixpoint all_values (ds : list data) : result (list tensor) :=
  match ds with
  | [] => Ok []
  | d :: r => let* (_, t) := d_value d None in let* ts := all_values r in Ok (t :: ts)
  end.
Fixpoint mul_spaces (acc : space) (l : list space) : result space :=
  match l with
  | [] => Ok acc
  | s :: r => let* acc' := combine_spaces [acc; s] in mul_spaces acc' r
  end.
Fixpoint has_dup (l : list string) : bool :=
  match l with [] => false | o :: r => mem String.eqb o r || has_dup r end.
Fixpoint join_rows (ts : list (list (list Q))) (n : nat) : list (list Q) :=
  match ts with
  | [] => repeat [] n
  | t :: r => map (fun p => fst p ++ snd p) (combine t (join_rows r n))
  end.
Fixpoint prod_weights (ws : list (list Q)) : list Q :=
  match ws with
  | [] => []
  | [w] => w
  | w :: r => map (fun p => (fst p * snd p)%Q) (combine w (prod_weights r))
  end.
Definition weights_list (ds : list data) : list (list Q) :=
  concat (map (fun d => match d_weights d with Some w => [w] | None => [] end) ds).
Definition concat_obs (ds : list data) (obs : option space) : result data :=
  match ds with
  | [] => Err ValueError
  | d0 :: rest =>
      let all := concat (map d_obs ds) in
      if has_dup all then Err ObsIncompatibleError
      else if match obs with
              | Some s => negb (set_eq_names (match s_obs s with Some l => l | None => [] end) all)
              | None => false
              end then Err ObsIncompatibleError
      else if forallb is_map ds then Err AttributeError
      else
        let* ts := all_values ds in
        let* sp := mul_spaces (d_space d0) (map d_space rest) in
        match map (fun t => length (t_rows t)) ts with
        | [] => Err IndexError
        | n :: ns =>
            if negb (forallb (Nat.eqb n) ns) then Err InvalidArgumentError
            else
              let ws := match weights_list ds with [] => None | l => Some (prod_weights l) end in
              let* d := data_from_tensor (mkT (fold_right Nat.add 0 (map t_width ts)) (join_rows (map t_rows ts) n))
                                         sp ws true in
              match obs with Some s => d_with_obs d (BySpace s) | None => Ok d end
        end
  end.

(** core/data.py:1243-1602 [SamplerData]: the state consists of the contents of the variables
    that hold the sample and the weights and of [n_samples]. The sample function
    gets the number of events and the parameter values. *)
Record sampler := mkSampler {
  sm_space : space;
  sm_rows : list (list Q);
  sm_weights : option (list Q);
  sm_n : nat;
  sm_params : list (string * Q);
  sm_func : nat -> list (string * Q) -> tensor * option (list Q) }.

(** What [update_data] accepts. *)
Inductive new_sample := NArray (t : tensor) (ws : option (list Q)) | NData (d : data) (ws : option (list Q)).

(** core/data.py:1523-1543: conversion, checks and cut *)
Definition prepare_sample (s : sampler) (x : new_sample) (guarantee : bool)
  : result (tensor * option (list Q)) :=
  let* (t, ws) := match x with
                  | NArray t ws => Ok (t, ws)
                  | NData d (Some _) => Err ValueError
                  | NData d None => let* d' := d_with_obs d (BySpace (sm_space s)) in
                                    let* (_, t) := d_value d' None in
                                    Ok (t, d_weights d')
                  end in
  if negb (Nat.eqb (t_width t) (s_n_obs (sm_space s))) then Err ValueError
  else if guarantee then Ok (t, ws) else check_cut_tensor (sm_space s) t ws.

Definition set_rows (s : sampler) (r : list (list Q)) : sampler :=
  mkSampler (sm_space s) r (sm_weights s) (sm_n s) (sm_params s) (sm_func s).
Definition set_all (s : sampler) (r : list (list Q)) (w : option (list Q)) : sampler :=
  mkSampler (sm_space s) r w (length r) (sm_params s) (sm_func s).

(** core/data.py:1504-1556 [update_data]: the state afterwards and the outcome. The sample is
    assigned (1544) before the weights are checked (1545-1553). *)
Definition sm_update (s : sampler) (x : new_sample) (guarantee : bool) : sampler * result unit :=
  match prepare_sample s x guarantee with
  | Err e => (s, Err e)
  | Ok (t, ws) =>
      let s1 := set_rows s (t_rows t) in
      match ws, sm_weights s with
      | Some _, None => (s1, Err ValueError)
      | None, Some _ => (s1, Err ValueError)
      | Some w, Some _ => (set_all s (t_rows t) (Some w), Ok tt)
      | None, None => (set_all s (t_rows t) None, Ok tt)
      end
  end.

(** [dict.update] *)
Fixpoint pset (f : list (string * Q)) (k : string) (v : Q) : list (string * Q) :=
  match f with
  | [] => [(k, v)]
  | (k', v') :: r => if String.eqb k k' then (k', v) :: r else (k', v') :: pset r k v
  end.
Definition pupdate (f g : list (string * Q)) : list (string * Q) :=
  fold_left (fun acc p => pset acc (fst p) (snd p)) g f.

(** core/data.py:1559-1595 [resample]; [_sampler_guarantee_limits] is True for every sampler
    made by [from_sampler] (1500, 1293). The number of rows and weights produced is checked
    (1590-1593). *)
Definition sm_resample (s : sampler) (params : list (string * Q)) (n : nat) : sampler * result unit :=
  let '(t, ws) := sm_func s n (pupdate (sm_params s) params) in
  if negb (Nat.eqb (length (t_rows t)) n && Nat.eqb (t_width t) (s_n_obs (sm_space s))) then (s, Err ValueError)
  else if match ws with Some w => negb (Nat.eqb (length w) n) | None => false end then (s, Err ValueError)
  else sm_update s (NArray t ws) true.

(** core/data.py:1441-1502 [from_sampler] and 1243-1295: the first sample is cut. *)
Definition from_sampler (obs : space) (func : nat -> list (string * Q) -> tensor * option (list Q))
  (params : list (string * Q)) (n : nat) : result sampler :=
  let '(t, ws) := func n params in
  let* (t', ws') := check_cut_tensor obs t ws in
  if negb (Nat.eqb (t_width t') (s_n_obs obs)) then Err ShapeIncompatibleError
  else let* sp := s_with_autofill_axes obs true in
       let s := mkSampler sp (t_rows t') ws' n params func in
       match sm_update s (NArray t' ws') false with
       | (s', Ok _) => Ok s'
       | (_, Err e) => Err e
       end.

(** Data sets that stem from a sampler: the dataset of the sampler is backed by its variable;
    [with_weights] passes this very dataset on (346, 384), [with_obs] takes its present value
    (1876). *)
Inductive vset := VVar (tmap : list nat) | VSet (l : lds).
Record vdata := mkV { v_space : space; v_set : vset; v_weights : option (list Q) }.
Definition resolve (s : sampler) (v : vset) : lds :=
  match v with VVar m => LT (mkT (s_n_obs (sm_space s)) (sm_rows s)) m | VSet l => l end.
Definition v_data (s : sampler) (v : vdata) : data := mkData (v_space v) (resolve s (v_set v)) (v_weights v).
Definition sampler_data (s : sampler) : vdata :=
  mkV (sm_space s) (VVar (seq 0 (s_n_obs (sm_space s)))) (sm_weights s).
Definition v_value (s : sampler) (v : vdata) (obs : option (list string)) : result tensor :=
  let* (_, t) := d_value (v_data s v) obs in Ok t.
Definition v_with_weights (s : sampler) (v : vdata) (ws : option (list Q)) : result vdata :=
  let* d := d_with_weights (v_data s v) ws in
  Ok (mkV (d_space d) (v_set v) (d_weights d)).
Definition v_with_obs (s : sampler) (v : vdata) (a : obs_arg) : result vdata :=
  let* d := d_with_obs (v_data s v) a in
  Ok (mkV (d_space d) (VSet (d_set d)) (d_weights d)).
