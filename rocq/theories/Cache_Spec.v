(** Specification vocabulary of the run-time bookkeeping. Nothing here is used by the
    model; programs and histories are those of [Cache_Model]. *)
From Verif Require Import Base Cache_Model.

(** * CPU pool *)

(** The program never re-registers the CPUs. *)
Fixpoint no_set (p : cprog) : Prop :=
  match p with
  | CSet _ => False
  | CSeq a b => no_set a /\ no_set b
  | CTry a | CWith _ a => no_set a
  | _ => True
  end.

(** The program swallows no exception. *)
Fixpoint no_try (p : cprog) : Prop :=
  match p with
  | CTry _ => False
  | CSeq a b => no_try a /\ no_try b
  | CWith _ a => no_try a
  | _ => True
  end.

(** How many CPUs a request for [m] is granted when [n] are free: a positive request is
    capped, [-1] means all, [-2] all but one, and so on, never below none. *)
Definition granted (m : Z) (n : nat) : Z :=
  if (m <? 0)%Z then Z.max (Z.of_nat n + 1 + m) 0 else Z.min m (Z.of_nat n).

(** * Cachable objects *)

(** In history [h], [o] declared [d] as a dependency, and since then neither was [o]
    collected nor the number [d] given to a new object. *)
Definition declared (h : list gop) (d o : nat) : Prop :=
  exists h1 deps h2,
    h = h1 ++ GDeps o deps :: h2 /\ In d deps /\
    ~ In (GCollect o) h2 /\ ~ In (GNew d) h2.

(** [o] depends on [d], directly or through others (an object depends on itself). *)
Inductive depends (h : list gop) (d : nat) : nat -> Prop :=
| dep_self : depends h d d
| dep_step m o : depends h d m -> declared h m o -> depends h d o.

(** [o] exists after [h]. *)
Definition alive (h : list gop) (o : nat) : Prop :=
  exists h1 h2, h = h1 ++ GNew o :: h2 /\ ~ In (GCollect o) h2.

(** * Compiled functions *)

(** The parameters among the arguments of a call, in order. *)
Fixpoint arg_params (a : arg) : list nat :=
  match a with
  | AParam i => [i]
  | AOther _ => []
  | AIter l => (fix go l := match l with [] => [] | x :: l' => arg_params x ++ go l' end) l
  end.

(** The size configured by the last accepted request of a history. *)
Fixpoint configured (n : Z) (h : list rop) : Z :=
  match h with
  | [] => n
  | RSetSize (Some m) :: h' => configured (if (m <? 1)%Z then n else m) h'
  | RSetSize None :: h' => configured 40 h'
  | _ :: h' => configured n h'
  end.

Definition is_call (op : rop) : Prop := match op with RCall _ _ => True | _ => False end.
