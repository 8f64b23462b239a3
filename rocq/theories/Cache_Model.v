(** Model of the bookkeeping of zfit's run time: the CPU pool
    (zfit/util/execution.py), the graph of cachable objects (zfit/util/cache.py) and
    the cache of compiled functions (zfit/z/zextension.py). *)
From Verif Require Import Base.
Open Scope Z_scope.

(** * The CPU pool *)

(** [RunManager._cpu], zfit/util/execution.py:30 and 86: a list of CPU names.
    Names ["dummy_cpu{i}"] are represented by the number [i]. *)
Definition cpus := list nat.

(** [l[-n:]] and [l[:-n]] of Python for an integer [n >= 0]. [l[-0:]] is the whole
    list and [l[:-0]] is the empty list. *)
Definition py_last {A} (n : nat) (l : list A) : list A :=
  match n with O => l | _ => skipn (length l - n)%nat l end.
Definition py_butlast {A} (n : nat) (l : list A) : list A :=
  match n with O => [] | _ => firstn (length l - n)%nat l end.

(** zfit/util/execution.py:75-94 [set_n_cpu] for an integer argument
    ([strict=False] on a non-strict manager: the threads of TensorFlow are not touched). *)
Definition set_n_cpu (n : nat) : cpus := seq 0 n.

(** zfit/util/execution.py:112-121, the part of [aquire_cpu] before the [yield]:
    the acquired CPUs and the ones left. *)
Definition acquire (max_cpu : Z) (pool : cpus) : cpus * cpus :=
  let n_cpu := Z.of_nat (length pool) in
  let max_cpu := if max_cpu <? 0 then Z.max (n_cpu + 1 + max_cpu) 0 else max_cpu in
  if max_cpu =? 0 then ([], pool)
  else
    let n := Z.to_nat (Z.min max_cpu n_cpu) in
    (py_last n pool, py_butlast n pool).

(** Client programs of the pool. [CTry] is a [try: .. except: ..] that swallows every
    exception; [CSet] calls [set_n_cpu]. *)
Inductive cprog :=
| CSkip
| CRaise (e : error)
| CSet (n : nat)
| CSeq (a b : cprog)
| CTry (a : cprog)
| CWith (max_cpu : Z) (body : cprog).

(** What a program can see at the start of a [with] block: the CPUs it received, the CPUs
    that enclosing blocks hold, and the CPUs still in the pool. *)
Record cview := { v_got : cpus; v_held : cpus; v_left : cpus }.

(** zfit/util/execution.py:110-123. [aquire_cpu] is a [contextlib.contextmanager] without
    [try]/[finally]: when the body raises, the exception is thrown at the [yield] and the
    line [self._cpu.extend(cpu)] is not executed. *)
Fixpoint crun (p : cprog) (held : cpus) (pool : cpus)
  : cpus * option error * list cview :=
  match p with
  | CSkip => (pool, None, [])
  | CRaise e => (pool, Some e, [])
  | CSet n => (set_n_cpu n, None, [])
  | CSeq a b =>
      let '(pool1, e, t1) := crun a held pool in
      match e with
      | Some e => (pool1, Some e, t1)
      | None => let '(pool2, e2, t2) := crun b held pool1 in (pool2, e2, (t1 ++ t2)%list)
      end
  | CTry a => let '(pool1, _, t) := crun a held pool in (pool1, None, t)
  | CWith m body =>
      let '(got, rest) := acquire m pool in
      let '(pool1, e, t) := crun body (got ++ held)%list rest in
      let t' := {| v_got := got; v_held := held; v_left := rest |} :: t in
      match e with
      | Some e => (pool1, Some e, t')
      | None => ((pool1 ++ got)%list, None, t')
      end
  end.

Open Scope nat_scope.

(** * The graph of cachable objects *)

(** State of all [GraphCachable] objects (zfit/util/cache.py:99-107). Objects are
    numbered; [cachers o] is [o._cachers] in insertion order, [store o] is [o._cache], of
    which only the time at which its content was computed is kept ([None]: empty).
    [clock] numbers the steps. [objs] are the objects alive ([GraphCachable.instances]). *)
Record cgraph := {
  cachers : nat -> list nat;
  store : nat -> option nat;
  objs : list nat;
  clock : nat
}.

Definition set_store (s : nat -> option nat) (o : nat) (v : option nat) : nat -> option nat :=
  fun o' => if Nat.eqb o o' then v else s o'.

(** zfit/util/cache.py:153-168, [reset_cache_self] = [_clean_cache] then [_inform_cachers],
    which calls [reset_cache] on every cacher. There is no protection against cycles:
    [limit] stands for Python's recursion limit, and [false] in the result for the
    [RecursionError] that ends the recursion. *)
Fixpoint reset (limit : nat) (cs : nat -> list nat) (o : nat) (s : nat -> option nat)
  : (nat -> option nat) * bool :=
  match limit with
  | O => (s, false)
  | S limit =>
      let s0 := set_store s o None in
      (fix inform (l : list nat) (s : nat -> option nat) : (nat -> option nat) * bool :=
         match l with
         | [] => (s, true)
         | c :: l' =>
             let '(s1, ok) := reset limit cs c s in
             if ok then inform l' s1 else (s1, false)
         end) (cs o) s0
  end.

(** zfit/util/cache.py:402-403, the loop of [clear_graph_cache] over all instances (the
    compiled functions it drops as well are the second half of this file). *)
Fixpoint reset_all (limit : nat) (cs : nat -> list nat) (l : list nat) (s : nat -> option nat)
  : (nat -> option nat) * bool :=
  match l with
  | [] => (s, true)
  | o :: l' =>
      let '(s1, ok) := reset limit cs o s in
      if ok then reset_all limit cs l' s1 else (s1, false)
  end.

(** zfit/util/cache.py:125-126 [register_cacher]: add if missing. *)
Definition register (cs : nat -> list nat) (dep cacher : nat) : nat -> list nat :=
  fun o => if Nat.eqb dep o
           then if existsb (Nat.eqb cacher) (cs o) then cs o else cs o ++ [cacher]
           else cs o.

(** Operations on the graph. *)
Inductive gop :=
| GNew (o : nat)                       (* constructor, 103-107 *)
| GDeps (o : nat) (deps : list nat)    (* [o.add_cache_deps(deps)], 128-149 *)
| GCompute (o : nat)                   (* a method of [o] that caches: returns the cached
                                          content if any, else computes and stores it *)
| GChange (o : nat)                    (* a method decorated with [invalidate_graph]
                                          (171-192), called inside a TensorFlow graph *)
| GChangeEager (o : nat)               (* the same, called eagerly: [clear_graph_cache] *)
| GCollect (o : nat).                  (* [o] is garbage collected: weak references vanish *)

Definition gstep (limit : nat) (g : cgraph) (op : gop) : cgraph * bool :=
  let tick cs st ob := {| cachers := cs; store := st; objs := ob; clock := S (clock g) |} in
  match op with
  | GNew o =>
      (tick (fun o' => if Nat.eqb o o' then [] else cachers g o')
            (set_store (store g) o None) (o :: objs g), true)
  | GDeps o deps =>
      (tick (fold_left (fun cs d => register cs d o) deps (cachers g)) (store g) (objs g), true)
  | GCompute o =>
      (tick (cachers g)
            (match store g o with
             | Some _ => store g
             | None => set_store (store g) o (Some (clock g))
             end) (objs g), true)
  | GChange o =>
      let '(s, ok) := reset limit (cachers g) o (store g) in
      (tick (cachers g) s (objs g), ok)
  | GChangeEager o =>
      let '(s, ok) := reset_all limit (cachers g) (objs g) (store g) in
      (tick (cachers g) s (objs g), ok)
  | GCollect o =>
      (tick (fun o' => filter (fun c => negb (Nat.eqb c o)) (cachers g o'))
            (set_store (store g) o None)
            (filter (fun c => negb (Nat.eqb c o)) (objs g)), true)
  end.

(** A history; the exception of a failing step is caught by the caller, who goes on. *)
Fixpoint grun (limit : nat) (g : cgraph) (h : list gop) : cgraph :=
  match h with
  | [] => g
  | op :: h' => grun limit (fst (gstep limit g op)) h'
  end.

Definition gempty : cgraph :=
  {| cachers := fun _ => []; store := fun _ => None; objs := []; clock := 0 |}.

(** * The cache of compiled functions *)

(** Arguments of a cached function, as far as zfit/util/cache.py:290-345
    ([get_immutable_repr_obj]) distinguishes them: a parameter (with its [id]), an
    iterable (a mapping is the iterable of its [(key, value)] pairs), anything else
    (data, losses, models, spaces, strings, arrays, numbers, tensors, ...), represented by
    a number so that different objects can be told apart. *)
Inductive arg :=
| AParam (id : nat)
| AOther (what : nat)
| AIter (items : list arg).

(** An entry of the key: the pair [(ZfitParameter, id)] is spliced into the tuple as two
    entries, here one constructor; [IS_TENSOR] for the rest. *)
Inductive kent := KParamId (id : nat) | KTensor.

(** zfit/util/cache.py:290-345 *)
Fixpoint repr (a : arg) : list kent :=
  match a with
  | AParam id => [KParamId id]
  | AOther _ => [KTensor]
  | AIter l => (fix go l := match l with [] => [] | x :: l' => repr x ++ go l' end) l
  end.

(** zfit/util/cache.py:271-288 [create_immutable]: the positional arguments, the names of
    the keyword arguments (strings, hence [KTensor]), then their values. *)
Definition create_immutable (args : list arg) (kwargs : list (nat * arg)) : list kent :=
  flat_map repr args ++ map (fun _ => KTensor) kwargs ++ flat_map (fun kv => repr (snd kv)) kwargs.

Definition kent_eqb (a b : kent) : bool :=
  match a, b with
  | KParamId i, KParamId j => Nat.eqb i j
  | KTensor, KTensor => true
  | _, _ => false
  end.

(** zfit/util/cache.py:350-364 [__eq__]: entrywise with [zip_longest]; the fill value
    [None] never equals an entry. *)
Fixpoint key_eqb (a b : list kent) : bool :=
  match a, b with
  | [], [] => true
  | x :: a', y :: b' => kent_eqb x y && key_eqb a' b'
  | _, _ => false
  end.

(** A [FunctionCacheHolder] in the cache: its key and the number of the compiled function
    it holds (every call of [self.tf_function(func)] makes a new one). *)
Record holder := { h_key : list kent; h_fun : nat }.

(** State of a [FunctionWrapperRegistry] (zfit/z/zextension.py:161-224), used as a
    decorator for one function. [r_next] numbers the compiled functions. [r_cache] is the
    deque, leftmost first. *)
Record registry := { r_cache : list holder; r_size : Z; r_next : nat }.

Definition DEFAULT_CACHE_SIZE : Z := 40%Z.
Definition new_registry (cachesize : option Z) : registry :=
  {| r_cache := [];
     r_size := match cachesize with Some n => n | None => DEFAULT_CACHE_SIZE end;
     r_next := 0 |}.

(** Python's [deque.index] and [deque.remove] with the equality of the holders. *)
Definition find_holder (k : list kent) (c : list holder) : option holder :=
  find (fun h => key_eqb (h_key h) k) c.
Fixpoint remove_holder (k : list kent) (c : list holder) : list holder :=
  match c with
  | [] => []
  | h :: c' => if key_eqb (h_key h) k then c' else h :: remove_holder k c'
  end.

(** zfit/z/zextension.py:288-330: a call outside any trace, in graph mode. The result is
    the compiled function that is run. [popleft] on an empty deque raises [IndexError]
    (only when the size is zero or negative). Not modelled: the warning about entries that
    were displaced repeatedly, [DoNotCompile] and the retry after a [KeyError]. *)
Definition call (r : registry) (args : list arg) (kwargs : list (nat * arg))
  : registry * result nat :=
  let k := create_immutable args kwargs in
  match find_holder k (r_cache r) with
  | Some h => (r, Ok (h_fun h))
  | None =>
      let f := r_next r in
      let next := S f in
      let h := {| h_key := k; h_fun := f |} in
      if (r_size r <=? Z.of_nat (length (r_cache r)))%Z then
        match r_cache r with
        | [] => ({| r_cache := []; r_size := r_size r; r_next := next |}, Err IndexError)
        | _ :: c => ({| r_cache := c ++ [h]; r_size := r_size r; r_next := next |}, Ok f)
        end
      else ({| r_cache := r_cache r ++ [h]; r_size := r_size r; r_next := next |}, Ok f)
  end.

(** zfit/z/zextension.py:240-250 [set_graph_cache_size]: [popleft] while the length is at
    least the size. *)
Fixpoint shrink (size : Z) (c : list holder) : result (list holder) :=
  if (size <=? Z.of_nat (length c))%Z
  then match c with [] => Err IndexError | _ :: c' => shrink size c' end
  else Ok c.

(** zfit/util/execution.py:447-452 [RunManager.set_graph_cache_size], for one registry. *)
Definition set_cache_size (r : registry) (size : option Z) : registry * result unit :=
  match size with
  | Some n => if (n <? 1)%Z then (r, Err ValueError)
              else match shrink n (r_cache r) with
                   | Ok c => ({| r_cache := c; r_size := n; r_next := r_next r |}, Ok tt)
                   | Err e => ({| r_cache := []; r_size := n; r_next := r_next r |}, Err e)
                   end
  | None => match shrink DEFAULT_CACHE_SIZE (r_cache r) with
            | Ok c => ({| r_cache := c; r_size := DEFAULT_CACHE_SIZE; r_next := r_next r |}, Ok tt)
            | Err e => ({| r_cache := []; r_size := DEFAULT_CACHE_SIZE; r_next := r_next r |}, Err e)
            end
  end.

(** Operations of a registry. [RInvalidate] is what a [FunctionCacheHolder] does when one
    of the objects it depends on changes (zfit/util/cache.py:266-268, deleter at
    zfit/z/zextension.py:281-284); [RReset] is zfit/z/zextension.py:230-238, called by
    [clear_graph_cache]. *)
Inductive rop :=
| RCall (args : list arg) (kwargs : list (nat * arg))
| RSetSize (size : option Z)
| RInvalidate (key : list kent)
| RReset.

Inductive rout := OFun (f : nat) | OErr (e : error) | OUnit.

Definition rstep (r : registry) (op : rop) : registry * rout :=
  match op with
  | RCall a k =>
      let '(r', o) := call r a k in
      (r', match o with Ok f => OFun f | Err e => OErr e end)
  | RSetSize n =>
      let '(r', o) := set_cache_size r n in
      (r', match o with Ok _ => OUnit | Err e => OErr e end)
  | RInvalidate k =>
      ({| r_cache := remove_holder k (r_cache r); r_size := r_size r; r_next := r_next r |}, OUnit)
  | RReset => ({| r_cache := []; r_size := r_size r; r_next := r_next r |}, OUnit)
  end.

Fixpoint rrun (r : registry) (h : list rop) : registry * list rout :=
  match h with
  | [] => (r, [])
  | op :: h' => let '(r1, o) := rstep r op in
                let '(r2, os) := rrun r1 h' in (r2, o :: os)
  end.
