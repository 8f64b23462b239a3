(** Specification vocabulary for unbinned data: a data set is seen through its observables,
    the array [value()] and its weights. *)
From Verif Require Import Base Coord_Model Coord_Spec Space_Model Space_Spec Data_Model.

(** Spaces without limits (or with limits=False) that a user can create and derive. *)
Inductive plain_space : space -> Prop :=
| ps_make os axs i s :
    NoDup os -> i = INone \/ i = IFalse -> make_space (Some os) axs i None = Ok s -> plain_space s
| ps_with_obs s req sup sub s' :
    plain_space s -> NoDup req -> s_with_obs s (Some req) sup sub = Ok s' -> plain_space s'
| ps_autofill s s' :
    plain_space s -> s_with_autofill_axes s true = Ok s' -> plain_space s'.

(** The spaces for unbinned data: rectangular limits, or none at all. *)
Definition data_space (s : space) : Prop :=
  (rect_space s /\ s_binning s = None) \/ plain_space s.

(** All rows have as many entries as the tensor has columns. *)
Definition rectangular (t : tensor) : Prop := forall r, In r (t_rows t) -> length r = t_width t.

(** One weight per row, if there are weights. *)
Definition weights_fit {A} (rows : list A) (ws : option (list Q)) : Prop :=
  match ws with Some w => length w = length rows | None => True end.

(** The data set has the observables [os], and [value()] returns [rows]. *)
Definition shows (d : data) (os : list string) (rows : list (list Q)) : Prop :=
  s_obs (d_space d) = Some os /\ exists d', d_value d None = Ok (d', mkT (length os) rows).

(** All rows are inside the limits of the data's own space (the case for all data that were
    not created with a wrong guarantee of this). *)
Definition inside_all (d : data) (os : list string) (rows : list (list Q)) : Prop :=
  forall r, In r rows -> in_box os r (limit_of (d_space d)).

(** Keep the rows that satisfy [P], each with its weight, in order. *)
Definition kept_weighted (P : list Q -> Prop) (rows : list (list Q)) (ws : option (list Q))
  (rows' : list (list Q)) (ws' : option (list Q)) : Prop :=
  match ws, ws' with
  | None, None => kept P rows rows'
  | Some w, Some w' => length w' = length rows' /\ kept (fun p => P (fst p)) (combine rows w) (combine rows' w')
  | _, _ => False
  end.

(** [rows], labelled by [os], is the table whose columns are those of the mapping [m]. *)
Definition table_of (m : list (string * list Q)) (os : list string) (rows : list (list Q)) : Prop :=
  (forall r, In r rows -> length r = length os)
  /\ forall o, In o os -> exists c, In (o, c) m /\ length c = length rows
       /\ forall k v r, nth_error c k = Some v -> nth_error rows k = Some r -> column os r o v.

(** Row by row, the table [rows'] labelled by [os'] has under every name of [os'] the entry
    that [rows] has under this name. *)
Definition columns_of (os : list string) (rows : list (list Q)) (os' : list string) (rows' : list (list Q)) : Prop :=
  Forall2 (fun r r' => length r' = length os' /\ same_on os' os r os' r') rows rows'.

(** The data sets a user can obtain. Limits may be guaranteed by the user when the data are
    created; then the number of weights is not checked and has to be right. *)
Inductive data_ok : data -> Prop :=
| do_tensor t sp ws g d :
    data_space sp -> rectangular t -> (g = true -> weights_fit (t_rows t) ws) ->
    data_from_tensor t sp ws g = Ok d -> data_ok d
| do_mapping m sp ws g d n :
    data_space sp -> (forall o c, In (o, c) m -> length c = n) ->
    (g = true -> match ws with Some w => length w = n | None => True end) ->
    data_from_mapping m sp ws g = Ok d -> data_ok d
| do_with_obs d req d' :
    data_ok d -> NoDup req -> d_with_obs d (ByNames req) = Ok d' -> data_ok d'
| do_with_space d sp d' :
    data_ok d -> data_space sp -> d_with_obs d (BySpace sp) = Ok d' -> data_ok d'
| do_with_weights d ws d' :
    data_ok d -> d_with_weights d ws = Ok d' -> data_ok d'
| do_read d obs d' t :
    data_ok d -> match obs with Some req => NoDup req | None => True end ->
    d_value d obs = Ok (d', t) -> data_ok d'
| do_concat_index ds o d' :
    (forall d, In d ds -> data_ok d) ->
    match o with NoObs => True | Names l => NoDup l | InSpace s => data_space s end ->
    concat_index ds o = Ok d' -> data_ok d'
| do_concat_obs ds o d' :
    (forall d, In d ds -> data_ok d) ->
    match o with None => True | Some s => data_space s end ->
    concat_obs ds o = Ok d' -> data_ok d'.

(** A sequence of reads [value(obs)], each with its answer; a read may change how the data set
    is stored. *)
Inductive reads : data -> list (option (list string)) -> list tensor -> data -> Prop :=
| reads_nil d : reads d [] [] d
| reads_cons d q t d1 qs ts d2 : d_value d q = Ok (d1, t) -> reads d1 qs ts d2 -> reads d (q :: qs) (t :: ts) d2.

(** The rows of the tables stand side by side: row [k] is made of the rows [k] of all tables. *)
Definition side_by_side (tables : list (list (list Q))) (rows : list (list Q)) : Prop :=
  (forall t, In t tables -> length t = length rows)
  /\ forall k r, nth_error rows k = Some r ->
       exists parts, Forall2 (fun t p => nth_error t k = Some p) tables parts /\ r = concat parts.
(** The weight of event [k]: 1 without weights. *)
Definition weight_at (d : data) (k : nat) (w : Q) : Prop :=
  match d_weights d with Some ws => nth_error ws k = Some w | None => w = 1%Q end.
Definition product (l : list Q) : Q := fold_right Qmult 1%Q l.

(** The space of a concatenation along the index: the given one, or the one of the first data
    set (reordered to the given names). *)
Definition concat_space (ds : list data) (o : obs_opt) : result space :=
  match o with
  | NoObs => match ds with d0 :: _ => Ok (d_space d0) | [] => Err ValueError end
  | Names l => match ds with d0 :: _ => s_with_obs (d_space d0) (Some l) true true | [] => Err ValueError end
  | InSpace s => Ok s
  end.
(** [w'] are the weights of all data sets one after the other, ones where a data set has none;
    there are none if no data set has weights. *)
Definition joined_weights (ds : list data) (parts : list (list (list Q))) (w' : option (list Q)) : Prop :=
  match w' with
  | None => forall d, In d ds -> d_weights d = None
  | Some w' => (exists d, In d ds /\ d_weights d <> None) /\ exists wss, w' = concat wss
      /\ Forall2 (fun p ws => match d_weights (fst p) with Some w => ws = w | None => ws = repeat 1%Q (length (snd p)) end)
           (combine ds parts) wss
  end.
(** Either all data sets have limits or none has any. *)
Definition compatible_limits (ds : list data) : Prop :=
  (forall d, In d ds -> s_has_limits (d_space d) = true) \/ (forall d, In d ds -> s_limits_are_set (d_space d) = false).

(** Samplers a user can have: made by [from_sampler] with a function that returns tables with
    one weight per row, then updated and resampled. *)
Definition sample_ok (x : new_sample) (g : bool) : Prop :=
  match x with
  | NArray t ws => rectangular t /\ (g = true -> weights_fit (t_rows t) ws)
  | NData d _ => data_ok d
  end.
Definition sample_weights (x : new_sample) : option (list Q) :=
  match x with NArray _ ws => ws | NData d _ => d_weights d end.
Inductive sampler_ok : sampler -> Prop :=
| so_new obs func params n s :
    data_space obs -> (forall m p, rectangular (fst (func m p)) /\ weights_fit (t_rows (fst (func m p))) (snd (func m p))) ->
    from_sampler obs func params n = Ok s -> sampler_ok s
| so_update s x g s' r : sampler_ok s -> sample_ok x g -> sm_update s x g = (s', r) -> sampler_ok s'
| so_resample s params n s' r : sampler_ok s -> sm_resample s params n = (s', r) -> sampler_ok s'.
(** The sample has weights exactly if the sampler has. *)
Definition agrees (s : sampler) (ws : option (list Q)) : Prop := ws = None <-> sm_weights s = None.
(** Rows, weights and the sample size belong together. *)
Definition consistent (s : sampler) : Prop :=
  weights_fit (sm_rows s) (sm_weights s) /\ sm_n s = length (sm_rows s).
Inductive history : sampler -> sampler -> Prop :=
| h_nil s : history s s
| h_update s x g s1 r s2 : agrees s (sample_weights x) -> sample_ok x g -> sm_update s x g = (s1, r) -> history s1 s2 -> history s s2
| h_resample s params n s1 r s2 : agrees s (snd (sm_func s n (pupdate (sm_params s) params))) ->
    sm_resample s params n = (s1, r) -> history s1 s2 -> history s s2.

(** The observables at the axes [l] that exist, in the order of [l]; the axes of data are the
    positions of its observables. *)
Definition names_at (os : list string) (l : list Z) : list string :=
  flat_map (fun z => if Z.ltb z 0 then [] else match nth_error os (Z.to_nat z) with Some o => [o] | None => [] end) l.
(** All of [l] are axes of data with the observables [os]. *)
Definition axes_of (os : list string) (l : list Z) : Prop := forall z, In z l -> (0 <= z < Z.of_nat (length os))%Z.
