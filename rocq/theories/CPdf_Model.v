(** Model of the caching PDF, zfit/models/cache.py. *)
From Verif Require Import Base.
From Coq Require Import Qabs.
#[local] Open Scope Q_scope.

(** The parameters of the wrapped PDF: value and [floating] flag. *)
Definition params := list (Q * bool).
Definition values (p : params) : list Q := map fst p.

(** zfit/models/cache.py:152: [get_params()] has [floating=True] as default. *)
Definition floating_values (p : params) : list Q :=
  map fst (filter (fun vf => snd vf) p).
(** zfit/models/cache.py:195: [get_params(floating=None)]. *)
Definition all_values (p : params) : list Q := values p.

(** [reduce_all(abs(a - b) < tol)] with the broadcasting of TensorFlow along the first
    dimension (zfit/models/cache.py:151, 155, 191, 198); incompatible shapes raise. *)
Definition within (tol a b : Q) : bool := Qlt_bool (Qabs (a - b)) tol.
Definition all_within (tol : Q) (a b : list Q) : result bool :=
  if Nat.eqb (length a) (length b) then
    Ok (forallb (fun ab => within tol (fst ab) (snd ab)) (combine a b))
  else match a, b with
       | [x], _ => Ok (forallb (fun y => within tol x y) b)
       | _, [y] => Ok (forallb (fun x => within tol x y) a)
       | _, _ => Err InvalidArgumentError
       end.

(** The variables of one cache: [_cached_pdf_params], [_cached_x], [_pdf_cache] or
    [_cached_pdf_params_for_integration], [_cached_integral_limits], [_integral_cache]
    (zfit/models/cache.py:101-124). *)
Record memo := { m_params : list Q; m_arg : option (list Q); m_val : option (list Q) }.

(** zfit/models/cache.py:129-171 [_pdf] and 174-212 [_integrate], which are the same
    procedure: [key] are the parameter values compared, [arg] the data or the limits,
    [init] the content the cache variable is created with and [compute] the call of the
    wrapped PDF. Eager execution. The key is stored before [compute] is called (163-165,
    206-208), the value after it ([get_value], 22-43). Data is one-dimensional. *)
Definition memo_eval (tol : Q) (key arg init : list Q) (compute : result (list Q)) (m : memo)
  : memo * result (list Q) :=
  let val := match m_val m with Some v => v | None => init end in
  let old := match m_arg m with Some a => a | None => map (fun x => x + 19) arg end in
  let m0 := {| m_params := m_params m; m_arg := Some old; m_val := Some val |} in
  match all_within tol arg old with
  | Err e => (m0, Err e)
  | Ok arg_same =>
      match (match key with [] => Ok true | _ => all_within tol key (m_params m) end) with
      | Err e => (m0, Err e)
      | Ok params_same =>
          if params_same && arg_same then (m0, Ok val)
          else
            let stored := match key with [] => m_params m | _ => key end in
            match compute with
            | Err e => ({| m_params := stored; m_arg := Some arg; m_val := Some val |}, Err e)
            | Ok v => ({| m_params := stored; m_arg := Some arg; m_val := Some v |}, Ok v)
            end
      end
  end.

(** The wrapped PDF. [w_pdf p x norm] is its density with all parameter values, [w_int]
    its integral; [norm] is [true] for the norm equal to the space and [false] for
    [norm=False], the only two that reach [_pdf] and [_integrate] because of the decorator
    [supports(norm="space")] (zfit/core/space.py:3226-3300). *)
Record wrapped := {
  w_pdf : list Q -> list Q -> bool -> result (list Q);
  w_int : list Q -> list Q -> bool -> result (list Q)
}.

(** The state of a session: the parameters and the two caches. *)
Record cstate := { c_params : params; c_pdf : memo; c_int : memo }.

(** zfit/models/cache.py:99-124: all parameters counted, both caches empty. *)
Definition cinit (p : params) : cstate :=
  let m := {| m_params := map (fun _ => 0) p; m_arg := None; m_val := None |} in
  {| c_params := p; c_pdf := m; c_int := m |}.

Inductive cop :=
| HSet (i : nat) (v : Q)            (* [param.set_value(v)] *)
| HFloat (i : nat) (b : bool)       (* [param.floating = b] *)
| HPdf (x : list Q) (norm : bool)   (* [pdf.pdf(x, norm)] *)
| HInt (lim : list Q) (norm : bool) (* [pdf.integrate(limits, norm)] *).

Fixpoint upd_nth {A} (i : nat) (f : A -> A) (l : list A) : list A :=
  match l, i with
  | [], _ => []
  | a :: l', O => f a :: l'
  | a :: l', S i' => a :: upd_nth i' f l'
  end.

(** An evaluation with the parameters at its time. *)
Inductive cev :=
| EvPdf (p : params) (x : list Q) (norm : bool) (r : result (list Q))
| EvInt (p : params) (lim : list Q) (norm : bool) (r : result (list Q)).

Definition cstep (w : wrapped) (tol : Q) (s : cstate) (op : cop) : cstate * list cev :=
  let p := c_params s in
  match op with
  | HSet i v =>
      ({| c_params := upd_nth i (fun vf => (v, snd vf)) p; c_pdf := c_pdf s; c_int := c_int s |}, [])
  | HFloat i b =>
      ({| c_params := upd_nth i (fun vf => (fst vf, b)) p; c_pdf := c_pdf s; c_int := c_int s |}, [])
  | HPdf x n =>
      let '(m, r) := memo_eval tol (floating_values p) x (map (fun _ => - (999)) x)
                               (w_pdf w (values p) x n) (c_pdf s) in
      ({| c_params := p; c_pdf := m; c_int := c_int s |}, [EvPdf p x n r])
  | HInt lim n =>
      let '(m, r) := memo_eval tol (all_values p) lim [0] (w_int w (values p) lim n) (c_int s) in
      ({| c_params := p; c_pdf := c_pdf s; c_int := m |}, [EvInt p lim n r])
  end.

Fixpoint crun (w : wrapped) (tol : Q) (s : cstate) (h : list cop) : list cev :=
  match h with
  | [] => []
  | op :: h' => let '(s1, evs) := cstep w tol s op in (evs ++ crun w tol s1 h')%list
  end.
