(** What the properties about dumping and loading say. *)
From Verif Require Import Base Dill_Model.
Open Scope list_scope.

(** The state in which the attempt number [k] (from zero) of loading is made: after each attempt the graph cache is
    cleared. *)
Fixpoint attempt_state {St A : Type} (clear reset : St -> St) (func : St -> St * (A + perr)) (k : nat) (st : St) : St :=
  match k with
  | O => reset st
  | S k => attempt_state clear reset func k (clear (fst (func (reset st))))
  end.

(** Exceptions that have to do with the object, not with what can be done to the file. *)
Definition plain (e : perr) : Prop := match e with EUnsupported _ => False | _ => True end.

Section Good.
Context {W Obj Byte : Type}.
Context (pickle : Obj -> W -> W * (list Byte * option perr)) (unpickle : list Byte -> W -> W * (nat * (Obj + perr))).

(** These bytes are loaded as the object, whatever comes after them and whatever has happened in between. *)
Definition loads_as (b : list Byte) (x : Obj) : Prop :=
  forall rest w, exists w', unpickle (b ++ rest) w = (w', (length b, inl x)).

(** dill works: every object can be dumped and what was dumped is loaded as it. *)
Definition works : Prop := forall x w, exists w' b, pickle x w = (w', (b, None)) /\ loads_as b x.
End Good.

(** Several objects, one after the other. *)
Section Many.
Context {W Obj Byte : Type}.
Context (pickle : Obj -> W -> W * (list Byte * option perr)) (unpickle : list Byte -> W -> W * (nat * (Obj + perr))).
Context (gc clear : W -> W) (depth : nat) (m : option Z) (verify : option bool).
Fixpoint dump_all (xs : list Obj) (st : W * file Byte) : (W * file Byte) * (unit + exc) :=
  match xs with
  | [] => (st, inl tt)
  | x :: xs => match dump pickle unpickle gc clear depth x m verify st with
               | (st, inl _) => dump_all xs st
               | r => r
               end
  end.
Fixpoint load_many (n : nat) (st : W * file Byte) : (W * file Byte) * (list Obj + exc) :=
  match n with
  | O => (st, inl [])
  | S n => match load unpickle clear m st with
           | (st, inl x) => match load_many n st with
                            | (st, inl xs) => (st, inl (x :: xs))
                            | r => r
                            end
           | (st, inr e) => (st, inr e)
           end
  end.
End Many.
