(** C90: seeds. *)
From Coq Require Import Lia.
From Verif Require Import Base BaseLemmas Seed_Model Seed_Spec Seed_Proofs.
Open Scope list_scope.

Section Any.
Context {G : Type} (start : kind -> nat -> G) (next : kind -> G -> G * nat) (rng : nat -> nat) (urandom : nat -> nat).

(** C90: after a seed has been set, a program gives the same numbers, whatever has happened before; it may use all generators that are
    not left out. *)
Theorem C90_reproducible k numpy backend zfit p s1 s2 : only_set numpy backend zfit p ->
  snd (run next p (fst (set_seed start rng urandom (SInt k) numpy backend zfit s1)))
  = snd (run next p (fst (set_seed start rng urandom (SInt k) numpy backend zfit s2))).
Proof.
  intros O. apply (run_agree next (fun k => is_set (arg_of k numpy backend zfit)) p O). intros q Q.
  pose proof (set_seed_same start rng urandom k numpy backend zfit s1 s2) as S.
  destruct (set_seed start rng urandom (SInt k) numpy backend zfit s1) as [t1 r1] eqn:E1.
  destruct (set_seed start rng urandom (SInt k) numpy backend zfit s2) as [t2 r2] eqn:E2. cbn [fst snd] in *. subst r2.
  rewrite (set_seed_get _ _ _ _ _ _ _ _ _ _ q E1), (set_seed_get _ _ _ _ _ _ _ _ _ _ q E2).
  pose proof (set_seed_entry _ _ _ _ _ _ _ _ _ _ q E1) as X.
  destruct (arg_of q numpy backend zfit) eqn:A; [destruct X as [x ->]; reflexivity|destruct X as [x ->]; reflexivity|now destruct Q|now rewrite X].
Qed.

(** C90: with the seeds that were returned, by whatever means they have been found, all generators that were set are set in the same way. *)
Theorem C90_replay seed seed' numpy backend zfit s1 s2 p : only_set numpy backend zfit p ->
  let '(t1, r) := set_seed start rng urandom seed numpy backend zfit s1 in
  let '(t2, r') := set_seed start rng urandom seed' (r_numpy r) (r_backend r) (r_zfit r) s2 in
  snd (run next p t1) = snd (run next p t2) /\ forall k, entry k r' = entry k r.
Proof.
  intros O. destruct (set_seed start rng urandom seed numpy backend zfit s1) as [t1 r] eqn:E1.
  destruct (set_seed start rng urandom seed' (r_numpy r) (r_backend r) (r_zfit r) s2) as [t2 r'] eqn:E2.
  assert (EN : forall k, entry k r' = entry k r).
  { intros k. pose proof (set_seed_entry _ _ _ _ _ _ _ _ _ _ k E1) as X. pose proof (set_seed_entry _ _ _ _ _ _ _ _ _ _ k E2) as Y.
    assert (AE : arg_of k (r_numpy r) (r_backend r) (r_zfit r) = entry k r) by now destruct k. rewrite AE in Y.
    destruct (arg_of k numpy backend zfit); [destruct X as [x X]|destruct X as [x X]| |]; rewrite X in Y |- *; exact Y. }
  split; [|exact EN]. apply (run_agree next (fun k => is_set (arg_of k numpy backend zfit)) p O). intros q Q.
  rewrite (set_seed_get _ _ _ _ _ _ _ _ _ _ q E1), (set_seed_get _ _ _ _ _ _ _ _ _ _ q E2), EN.
  pose proof (set_seed_entry _ _ _ _ _ _ _ _ _ _ q E1) as X.
  destruct (arg_of q numpy backend zfit) eqn:A; [destruct X as [x ->]; reflexivity|destruct X as [x ->]; reflexivity|now destruct Q|now rewrite X].
Qed.

(** C90: without a seed, the one that is returned gives the same again. *)
Theorem C90_found numpy backend zfit s1 s2 p : only_set numpy backend zfit p ->
  exists k, r_seed (snd (set_seed start rng urandom SNone numpy backend zfit s1)) = Some k
    /\ snd (run next p (fst (set_seed start rng urandom (SInt k) numpy backend zfit s2)))
       = snd (run next p (fst (set_seed start rng urandom SNone numpy backend zfit s1))).
Proof.
  intros O. destruct (set_seed_none start rng urandom numpy backend zfit s1) as (k & R & S). exists k. split; [exact R|].
  apply (run_agree next (fun k => is_set (arg_of k numpy backend zfit)) p O). intros q Q.
  pose proof (set_seed_same start rng urandom k numpy backend zfit s1 s2) as S2. rewrite <- S in S2.
  destruct (set_seed start rng urandom (SInt k) numpy backend zfit s2) as [t2 r2] eqn:E2.
  destruct (set_seed start rng urandom SNone numpy backend zfit s1) as [t1 r1] eqn:E1. cbn [fst snd] in *. subst r2.
  rewrite (set_seed_get _ _ _ _ _ _ _ _ _ _ q E1), (set_seed_get _ _ _ _ _ _ _ _ _ _ q E2).
  pose proof (set_seed_entry _ _ _ _ _ _ _ _ _ _ q E1) as X.
  destruct (arg_of q numpy backend zfit) eqn:A; [destruct X as [x ->]; reflexivity|destruct X as [x ->]; reflexivity|now destruct Q|now rewrite X].
Qed.

(** C90: a generator that is left out keeps its state; one with its own seed is started from that, whatever the other arguments are. *)
Theorem C90_own k seed numpy backend zfit s :
  (arg_of k numpy backend zfit = GFalse -> get k (fst (set_seed start rng urandom seed numpy backend zfit s)) = get k s)
  /\ (forall x, arg_of k numpy backend zfit = GInt x -> get k (fst (set_seed start rng urandom seed numpy backend zfit s)) = start k x).
Proof.
  destruct (set_seed start rng urandom seed numpy backend zfit s) as [t r] eqn:E. cbn [fst].
  rewrite (set_seed_get _ _ _ _ _ _ _ _ _ _ k E). pose proof (set_seed_entry _ _ _ _ _ _ _ _ _ _ k E) as X.
  split; [intros A|intros x A]; rewrite A in X; now rewrite X.
Qed.

(** C90: with [seed=True] the three seeds are found independently of each other, and there is no seed to return. *)
Theorem C90_true s : snd (set_seed start rng urandom STrue GNone GNone GNone s)
  = mkS (GInt (urandom (2 + used s))) (GInt (urandom (used s))) (GInt (urandom (1 + used s))) None.
Proof. reflexivity. Qed.

(** C90: the elements of a sample with replacement are elements, and as many as wanted. *)
Theorem C90_with_replacement {A} (a : list A) n s : a <> [] ->
  exists l, snd (sample_with_replacement next a n s) = Ok l /\ length l = n /\ incl l a.
Proof.
  destruct a as [|d a]; [easy|]. intros _. unfold sample_with_replacement.
  assert (L : forall m s, length (snd (draws next Zfit m s)) = m).
  { induction m as [|m IH]; intros s'; [reflexivity|]. cbn [draws]. destruct (draw next Zfit s') as [s1 x]. specialize (IH s1).
    destruct (draws next Zfit m s1). cbn [snd length] in *. now rewrite IH. }
  specialize (L n s). destruct (draws next Zfit n s) as [s1 xs]. cbn [snd] in *. eexists. split; [reflexivity|].
  split; [now rewrite map_length|]. intros y Y. apply in_map_iff in Y as (x & <- & _). apply nth_In. apply Nat.mod_upper_bound. discriminate.
Qed.

(** C90: "leaving one generator out does not change the seeds of the others": false; the seed of the backend is then the one that numpy would have had,
    and the one it would have had otherwise is derived from that. *)
Theorem C90_independent_refuted k s :
  r_backend (snd (set_seed start rng urandom (SInt k) GFalse GNone GNone s)) = GInt (rng k)
  /\ r_numpy (snd (set_seed start rng urandom (SInt k) GNone GNone GNone s)) = GInt (rng k)
  /\ r_backend (snd (set_seed start rng urandom (SInt k) GNone GNone GNone s)) = GInt (rng (rng k)).
Proof. repeat split. Qed.

(** C90: "zfit.sample.poisson draws a number": false, it raises whatever it is called with; all PDFs, extended or not, are refused. *)
Theorem C90_poisson_refuted n pdfs s : exists e, snd (sample_poisson next n pdfs s) = Err e
  /\ (n = None -> pdfs <> [] -> e = NotExtended) /\ (pdfs = [] -> e = TypeError).
Proof.
  destruct pdfs as [|p rest]; cbn.
  - exists TypeError. split; [reflexivity|]. split; [now intros _ []|reflexivity].
  - destruct n as [q|]; [destruct (negb (Qeq_bool q 0))|]; cbn; eexists; (split; [reflexivity|]); split; try discriminate; reflexivity.
Qed.
End Any.

Definition counter_start (_ : kind) (seed : nat) : nat := 100 * seed.
Definition counter_next (_ : kind) (g : nat) : nat * nat := (S g, g).

(** C90: "with a seed for zfit the samples of zfit are reproducible": false if the generator of the backend is left out; the numbers of events of the parts of a sum come
    from that. *)
Theorem C90_zfit_only_refuted : exists s1 s2 : gens nat, 
  snd (run counter_next [(CountsMultinomial, 1)] (fst (set_seed counter_start S S (SInt 5) GFalse GFalse GNone s1)))
  <> snd (run counter_next [(CountsMultinomial, 1)] (fst (set_seed counter_start S S (SInt 5) GFalse GFalse GNone s2)))
  /\ snd (run counter_next [(Uniform, 2); (Shuffle, 1)] (fst (set_seed counter_start S S (SInt 5) GFalse GFalse GNone s1)))
     = snd (run counter_next [(Uniform, 2); (Shuffle, 1)] (fst (set_seed counter_start S S (SInt 5) GFalse GFalse GNone s2))).
Proof. exists (mkG 1 2 3 0), (mkG 1 4 3 0). split; [vm_compute; discriminate|vm_compute; reflexivity]. Qed.

(** ** Examples *)
Example ex_seeds : set_seed counter_start S S (SInt 5) GNone (GInt 0) GNone (mkG 1 2 3 0)
  = (mkG 600 0 700 0, mkS (GInt 7) (GInt 6) (GInt 0) (Some 5)).
Proof. reflexivity. Qed.
Example ex_only_set : only_set GNone (GInt 0) GFalse [(CountsMultinomial, 3); (Randomize, 1)] /\ ~ only_set GNone GNone GFalse [(Uniform, 1)].
Proof.
  split; [repeat constructor; discriminate|]. intros H. apply Forall_inv in H. now apply H.
Qed.
Example ex_run : snd (run counter_next [(Uniform, 2); (CountsMultinomial, 1); (Shuffle, 1)] (fst (set_seed counter_start S S (SInt 5) GNone GNone GNone (mkG 1 2 3 0))))
  = [[800; 801]; [700]; [802]].
Proof. vm_compute. reflexivity. Qed.
Example ex_replacement : sample_with_replacement counter_next [10; 20; 30] 4 (mkG 1 2 4 0) = (mkG 1 2 8 0, Ok [20; 30; 10; 20]).
Proof. vm_compute. reflexivity. Qed.
