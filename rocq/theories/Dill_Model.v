(** Model of zfit/dill.py: dumping with verification and retries, loading with retries.

    Simplifications, everywhere in this file:
    - what dill itself does is any function of the state of the interpreter ([pickle], [unpickle]), which it may change;
      so is what the garbage collection ([gc]) and the clearing of the graph cache ([clear]) do to it;
    - of an exception only what dill.py looks at is kept: its class and whether certain phrases are in its message;
    - a file is seekable, its content is a list of bytes, and it is not opened for appending. *)
From Verif Require Import Base.
Open Scope list_scope.

(** Exceptions of dill and of the file; the phrases of 42-45 and 224 *)
Inductive perr :=
| EType (funcgraph weakgone ipyopt : bool)
| ERuntime (dictchange : bool)
| EUnsupported (read : bool)
| EOther (tag : nat).
(** Exceptions of the functions of dill.py *)
Inductive exc :=
| Raised (e : perr)
| DillDumpError | DillLoadError | IpyoptPicklingError
| MaxRetries           (* the RuntimeError of 62-67 *)
| RecursionError
| UnboundLocal
| NegativeRetries.     (* the ValueErrors of 116, 181, 267 and 292 *)

(** 24-81 [__retry_with_gc]. [depth] is the number of recursive calls python still allows; [max] is
    [max_retries], where numbers below zero are like zero (55: [<= 0]). *)
Fixpoint retry_gc {St A : Type} (gc : St -> St) (func : St -> St * (A + perr)) (depth max : nat) (st : St) : St * (A + exc) :=
  match depth with
  | O => (st, inr RecursionError)
  | S depth =>
      let (st1, r) := func st in
      match r with
      | inl a => (st1, inl a)
      | inr (EType fg wg ip) =>
          if negb (fg || wg) then (st1, inr (if ip then IpyoptPicklingError else Raised (EType fg wg ip)))
          else if Nat.eqb max 0 then (st1, inr (if ip then IpyoptPicklingError else MaxRetries))
          else retry_gc gc func depth (max - 1) (gc st1)
      | inr (ERuntime true) => retry_gc gc func depth (max - 1) (gc st1)
      | inr e => (st1, inr (Raised e))
      end
  end.

(** 210-243 [__retry_with_graphclear]; [tries] is [max_retries + 1], [reset] puts the file to the position it had (213-220) *)
Fixpoint retry_clear {St A : Type} (clear reset : St -> St) (func : St -> St * (A + perr)) (tries : nat) (st : St) : St * (A + exc) :=
  match tries with
  | O => (st, inr UnboundLocal)
  | S t =>
      let (st1, r) := func (reset st) in
      match r with
      | inl a => (st1, inl a)
      | inr (EUnsupported true) => (st1, inr (Raised (EUnsupported true)))
      | inr (EUnsupported false) => retry_clear clear reset func t st1
      | inr _ => if Nat.eqb t 0 then (st1, inr DillLoadError) else retry_clear clear reset func t (clear st1)
      end
  end.

(** 111-118: the default is two retries, less than none is refused *)
Definition check_retries (m : option Z) : option nat :=
  match m with
  | None => Some 2%nat
  | Some z => if (z <? 0)%Z then None else Some (Z.to_nat z)
  end.
Definition check_verify (v : option bool) : bool := match v with None => true | Some b => b end.

Section Dill.
Context {W Obj Byte : Type}.
(** the bytes that were written, and success or the exception *)
Variable pickle : Obj -> W -> W * (list Byte * option perr).
(** how many bytes were read, and the object or the exception *)
Variable unpickle : list Byte -> W -> W * (nat * (Obj + perr)).
Variable gc clear : W -> W.
Variable depth : nat.

(** 246-269 [loads] *)
Definition loads_once (b : list Byte) (w : W) : W * (Obj + perr) := let (w1, r) := unpickle b w in (w1, snd r).
Definition loads (b : list Byte) (m : option Z) (w : W) : W * (Obj + exc) :=
  match check_retries m with
  | None => (w, inr NegativeRetries)
  | Some m => retry_clear clear (fun w => w) (loads_once b) (S m) w
  end.

(** 84-137 [dumps]: [redo] is never set back to False *)
Definition dumps_once (x : Obj) (w : W) : W * (list Byte + perr) :=
  let (w1, r) := pickle x w in (w1, match snd r with None => inl (fst r) | Some e => inr e end).
Fixpoint dumps_loop (x : Obj) (m : nat) (verify : bool) (tries : nat) (redo : bool) (w : W) : W * (list Byte + exc) :=
  match tries with
  | O => (w, inr UnboundLocal)
  | S t =>
      let (w1, r) := retry_gc gc (dumps_once x) depth m w in
      match r with
      | inr e => (w1, inr e)
      | inl out =>
          let '(w2, redo, failed) :=
            if verify then
              match loads out (Some (Z.of_nat m)) w1 with
              | (w2, inl _) => (w2, redo, None)
              | (w2, inr DillLoadError) => if Nat.eqb t 0 then (w2, true, Some DillDumpError) else (clear w2, true, None)
              | (w2, inr e) => (w2, redo, Some e)
              end
            else (w1, redo, None) in
          match failed with
          | Some e => (w2, inr e)
          | None => if redo && negb (Nat.eqb t 0) then dumps_loop x m verify t redo w2 else (w2, inl out)
          end
      end
  end.
Definition dumps (x : Obj) (m : option Z) (verify : option bool) (w : W) : W * (list Byte + exc) :=
  match check_retries m with
  | None => (w, inr NegativeRetries)
  | Some m => dumps_loop x m (check_verify verify) (S m) false w
  end.

(** ** Files *)
Record file := File { content : list Byte; pos : nat; readable : bool }.
Definition seek (f : file) (p : nat) : file := File (content f) p (readable f).
Definition write (f : file) (b : list Byte) : file :=
  File (firstn (pos f) (content f) ++ b ++ skipn (pos f + length b) (content f)) (pos f + length b) (readable f).

(** 272-294 [load] *)
Definition load_once (st : W * file) : (W * file) * (Obj + perr) :=
  let (w, f) := st in
  if readable f then
    let (w1, r) := unpickle (skipn (pos f) (content f)) w in ((w1, seek f (pos f + fst r)), snd r)
  else (st, inr (EUnsupported true)).
Definition clear_st (st : W * file) : W * file := (clear (fst st), snd st).
Definition gc_st (st : W * file) : W * file := (gc (fst st), snd st).
Definition load (m : option Z) (st : W * file) : (W * file) * (Obj + exc) :=
  match check_retries m with
  | None => (st, inr NegativeRetries)
  | Some m => retry_clear clear_st (fun s => (fst s, seek (snd s) (pos (snd st)))) load_once (S m) st
  end.

(** 142-207 [dump] *)
Definition dump_once (x : Obj) (st : W * file) : (W * file) * (unit + perr) :=
  let (w, f) := st in
  let (w1, r) := pickle x w in ((w1, write f (fst r)), match snd r with None => inl tt | Some e => inr e end).
Fixpoint dump_loop (x : Obj) (m : nat) (verify : bool) (initial tries : nat) (st : W * file) : (W * file) * (unit + exc) :=
  match tries with
  | O => (st, inl tt)
  | S t =>
      let (st1, r) := retry_gc gc_st (dump_once x) depth m st in
      match r with
      | inr e => (st1, inr e)
      | inl _ =>
          if verify then
            match load (Some (Z.of_nat m)) (fst st1, seek (snd st1) initial) with
            | (st2, inl _) => ((fst st2, seek (snd st2) (pos (snd st1))), inl tt)
            | (st2, inr DillLoadError) =>
                if Nat.eqb t 0 then (st2, inr DillDumpError)
                else dump_loop x m verify initial t (clear (fst st2), seek (snd st2) initial)
            | (st2, inr e) => (st2, inr e)
            end
          else (st1, inl tt)
      end
  end.
Definition dump (x : Obj) (m : option Z) (verify : option bool) (st : W * file) : (W * file) * (unit + exc) :=
  match check_retries m with
  | None => (st, inr NegativeRetries)
  | Some m => dump_loop x m (check_verify verify) (pos (snd st)) (S m) st
  end.
End Dill.
Arguments file : clear implicits.
