From Coq Require Import Lia.
From Verif Require Import Base BaseLemmas Seed_Model Seed_Spec.
Open Scope list_scope.

Section Seeds.
Context {G : Type} (start : kind -> nat -> G) (next : kind -> G -> G * nat) (rng : nat -> nat) (urandom : nat -> nat).

Definition agree (P : kind -> Prop) (s1 s2 : gens G) : Prop := forall k, P k -> get k s1 = get k s2.

Lemma kind_eq_dec (a b : kind) : {a = b} + {a <> b}.
Proof. decide equality. Defined.
Lemma get_set k k' g (s : gens G) : get k (set k' g s) = if kind_eq_dec k k' then g else get k s.
Proof. now destruct k, k'. Qed.

Lemma draws_agree (P : kind -> Prop) k n : P k -> forall s1 s2, agree P s1 s2 ->
  snd (draws next k n s1) = snd (draws next k n s2) /\ agree P (fst (draws next k n s1)) (fst (draws next k n s2)).
Proof.
  intros PK. induction n as [|n IH]; intros s1 s2 A; [split; [reflexivity|exact A]|]. cbn [draws].
  unfold draw. rewrite (A k PK). destruct (next k (get k s2)) as [g x].
  assert (A' : agree P (set k g s1) (set k g s2)).
  { intros k' K'. rewrite !get_set. destruct (kind_eq_dec k' k); [reflexivity|now apply A]. }
  specialize (IH _ _ A'). destruct (draws next k n (set k g s1)) as [t1 x1], (draws next k n (set k g s2)) as [t2 x2]. cbn [fst snd] in *.
  destruct IH as (-> & B). now split.
Qed.
Lemma run_agree (P : kind -> Prop) p : Forall (fun f => P (generator_of (fst f))) p -> forall s1 s2, agree P s1 s2 ->
  snd (run next p s1) = snd (run next p s2).
Proof.
  induction 1 as [|[f n] p F FP IH]; intros s1 s2 A; [reflexivity|]. cbn [run fst] in *.
  destruct (draws_agree P (generator_of f) n F s1 s2 A) as (E & B).
  destruct (draws next (generator_of f) n s1) as [t1 x1], (draws next (generator_of f) n s2) as [t2 x2]. cbn [fst snd] in *. subst x2.
  specialize (IH _ _ B). destruct (run next p t1), (run next p t2). cbn [snd] in *. now rewrite IH.
Qed.

(** every generator is started from its entry, or stays *)
Lemma set_seed_get seed n b z s s' r k : set_seed start rng urandom seed n b z s = (s', r) ->
  get k s' = match entry k r with GInt x => start k x | _ => get k s end.
Proof.
  unfold set_seed. destruct seed, n, b, z; cbn; intros H; injection H as <- <-; destruct k; reflexivity.
Qed.
(** the entry is the argument, unless it is to be found *)
Lemma set_seed_entry seed n b z s s' r k : set_seed start rng urandom seed n b z s = (s', r) ->
  match arg_of k n b z with GInt x => entry k r = GInt x | GFalse => entry k r = GFalse | _ => exists x, entry k r = GInt x end.
Proof.
  unfold set_seed. destruct seed, n, b, z; cbn; intros H; injection H as <- <-; destruct k; cbn; eauto.
Qed.
(** the entries depend on the seed and the arguments only *)
Lemma set_seed_same k0 n b z s1 s2 : snd (set_seed start rng urandom (SInt k0) n b z s1) = snd (set_seed start rng urandom (SInt k0) n b z s2).
Proof. unfold set_seed. destruct n, b, z; reflexivity. Qed.
Lemma set_seed_none n b z s : exists k0, r_seed (snd (set_seed start rng urandom SNone n b z s)) = Some k0
  /\ snd (set_seed start rng urandom SNone n b z s) = snd (set_seed start rng urandom (SInt k0) n b z s).
Proof. unfold set_seed. exists (urandom (used s)). destruct n, b, z; split; reflexivity. Qed.
Lemma set_seed_given seed n b z s : n <> GTrue -> b <> GTrue -> z <> GTrue -> n <> GNone -> b <> GNone -> z <> GNone ->
  exists q, snd (set_seed start rng urandom seed n b z s) = mkS z n b q.
Proof. unfold set_seed. destruct seed, n, b, z; intros; try congruence; eexists; reflexivity. Qed.
End Seeds.
