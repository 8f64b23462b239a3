(** C89: dumping and loading with retries. *)
From Coq Require Import Lia.
From Verif Require Import Base BaseLemmas Dill_Model Dill_Spec Dill_Proofs.
Open Scope list_scope.

Section Any.
Context {W Obj Byte : Type}.
Context (pickle : Obj -> W -> W * (list Byte * option perr)) (unpickle : list Byte -> W -> W * (nat * (Obj + perr))).
Context (gc clear : W -> W) (depth : nat).

(** C89: loading tries again after an exception, at most as often as allowed, each time after clearing the graph cache. It returns what the first
    attempt that succeeds returns, and raises a ZfitDillLoadError exactly if all attempts fail. *)
Theorem C89_loads b m w :
  (forall w w' n e, unpickle b w = (w', (n, inr e)) -> plain e) ->
  let attempt k := loads_once unpickle b (attempt_state clear (fun w => w) (loads_once unpickle b) k w) in
  (forall w' o, loads unpickle clear b (Some (Z.of_nat m)) w = (w', inl o) <->
     exists k, k <= m /\ (forall i, i < k -> exists e, snd (attempt i) = inr e) /\ attempt k = (w', inl o))
  /\ (forall e, snd (loads unpickle clear b (Some (Z.of_nat m)) w) = inr e <->
        e = DillLoadError /\ forall k, k <= m -> exists e', snd (attempt k) = inr e').
Proof.
  intros P. cbv zeta.
  assert (Q : forall st e, snd (loads_once unpickle b st) = inr e -> plain e).
  { intros st e. unfold loads_once. destruct (unpickle b st) as [w1 [n r]] eqn:E. cbn [snd]. intros ->. now apply P in E. }
  rewrite loads_nat. split; [intros w' o; now apply clear_ok|intros e; now apply clear_err].
Qed.

(** C89: a file is loaded from the position it has, also when this is tried again; it is not changed, and its position is after the object then. *)
Theorem C89_load m st st' o : load unpickle clear m st = (st', inl o) ->
  content (snd st') = content (snd st)
  /\ exists w n, unpickle (skipn (pos (snd st)) (content (snd st))) w = (fst st', (n, inl o)) /\ pos (snd st') = pos (snd st) + n.
Proof. apply load_success. Qed.
Theorem C89_load_content m st :
  content (snd (fst (load unpickle clear m st))) = content (snd st)
  /\ readable (snd (fst (load unpickle clear m st))) = readable (snd st).
Proof. apply load_content. Qed.

(** C89: what [dumps] returns was written completely by dill for this object, and has been loaded once, unless this was not asked for. *)
Theorem C89_dumps x m verify w w' out : dumps pickle unpickle gc clear depth x m verify w = (w', inl out) ->
  (exists w1 w2, pickle x w1 = (w2, (out, None)))
  /\ (verify <> Some false -> exists w1 w2 n o, unpickle out w1 = (w2, (n, inl o))).
Proof.
  unfold dumps. destruct (check_retries m) as [k|]; [|discriminate]. intros H. apply dumps_loop_ok in H as (A & B).
  split; [exact A|]. intros V. destruct B as (w1 & w2 & o & L); [now destruct verify as [[]|]|].
  apply loads_success in L as (w3 & n & U). eauto 6.
Qed.

(** C89: after a [dump] that was verified, an object has been loaded from the place in the file where it began. *)
Theorem C89_dump x m verify st st' : dump pickle unpickle gc clear depth x m verify st = (st', inl tt) -> verify <> Some false ->
  exists w1 w2 o n, unpickle (skipn (pos (snd st)) (content (snd st'))) w1 = (w2, (n, inl o)).
Proof.
  unfold dump. destruct (check_retries m) as [k|]; [|discriminate]. intros H V.
  assert (E : check_verify verify = true) by (now destruct verify as [[]|]). rewrite E in H. now apply dump_loop_ok in H.
Qed.

(** C89: if dill can write the object, a [dump] that succeeds leaves the bytes of one attempt for this object at the place where it began, however many attempts there were,
    and ends after them. *)
Theorem C89_written x m verify st st' : (forall w, snd (snd (pickle x w)) = None) -> pos (snd st) <= length (content (snd st)) ->
  dump pickle unpickle gc clear depth x m verify st = (st', inl tt) ->
  exists w1 w2 b, pickle x w1 = (w2, (b, None)) /\ firstn (length b) (skipn (pos (snd st)) (content (snd st'))) = b
    /\ pos (snd st') = pos (snd st) + length b.
Proof.
  intros N L. unfold dump. destruct (check_retries m) as [k|]; [|discriminate]. now apply dump_loop_written.
Qed.

(** C89: whatever happens, a dump does not change the file before the position where it began, and does not end before it. *)
Theorem C89_before x m verify st : pos (snd st) <= length (content (snd st)) ->
  let f := snd (fst (dump pickle unpickle gc clear depth x m verify st)) in
  firstn (pos (snd st)) (content f) = firstn (pos (snd st)) (content (snd st)) /\ pos (snd st) <= pos f.
Proof.
  intros L. cbv zeta. unfold dump. destruct (check_retries m) as [k|]; [|split; [reflexivity|apply le_n]].
  destruct (dump_loop_keeps pickle unpickle gc clear depth x k (check_verify verify) (pos (snd st)) (firstn (pos (snd st)) (content (snd st))) (S k)
    ltac:(rewrite firstn_length; lia) st) as (A & B); [split; [apply le_n|reflexivity]|]. now split.
Qed.

(** C89: the object is written at most (retries + 1) * (retries + 1) times, as long as no dictionary changes its size. *)
Theorem C89_attempts_partial x (count : W -> nat) m verify w :
  (forall w, count (gc w) = count w) -> (forall w, count (clear w) = count w) ->
  (forall y w, count (fst (pickle y w)) = S (count w)) -> (forall b w, count (fst (unpickle b w)) = count w) ->
  (forall y w, snd (snd (pickle y w)) <> Some (ERuntime true)) ->
  count (fst (dumps pickle unpickle gc clear depth x (Some (Z.of_nat m)) verify w)) <= count w + S m * S m.
Proof.
  intros G C P U N. unfold dumps. cbn [check_retries]. rewrite (proj2 (Z.ltb_ge _ _)) by lia. rewrite Nat2Z.id. now apply dumps_count.
Qed.

(** C89: where dill works, objects that are dumped into a file one after the other are loaded in the same order, even if the file had another content
    before; what is before the place where they begin stays. *)
Theorem C89_stream m k verify c old w xs : works pickle unpickle -> depth <> 0 -> check_retries m = Some k ->
  exists w' f, dump_all pickle unpickle gc clear depth m verify xs (w, File (c ++ old) (length c) true) = ((w', f), inl tt)
    /\ firstn (length c) (content f) = c
    /\ forall w2, exists st', load_many unpickle clear m (length xs) (w2, seek f (length c)) = (st', inl xs)
       /\ pos (snd st') = pos f.
Proof.
  intros WK D CM.
  destruct (dump_all_works pickle unpickle gc clear depth WK D m k verify true CM (or_introl eq_refl) xs w c old) as (w' & bs & F & E).
  rewrite E. eexists _, _. split; [reflexivity|]. cbn [content pos]. split.
  - rewrite <- app_assoc, firstn_app, firstn_all, Nat.sub_diag, firstn_O. apply app_nil_r.
  - intros w2. unfold seek. cbn [content readable]. rewrite <- app_assoc.
    destruct (load_many_works unpickle clear m k true CM eq_refl bs xs F w2 c (skipn (length (concat bs)) old)) as (w3 & L).
    eexists. split; [exact L|]. reflexivity.
Qed.

(** C89: the same for [dumps] and [loads]. *)
Theorem C89_round_trip m k verify x w : works pickle unpickle -> depth <> 0 -> check_retries m = Some k ->
  exists w' out, dumps pickle unpickle gc clear depth x m verify w = (w', inl out)
    /\ forall w2, exists w3, loads unpickle clear out m w2 = (w3, inl x).
Proof.
  intros WK D CM. unfold dumps, loads. rewrite CM. cbn [dumps_loop]. destruct depth as [|d]; [now destruct D|].
  cbn [retry_gc]. unfold dumps_once at 1. destruct (WK x w) as (w1 & b & E & L). rewrite E. cbn [fst snd].
  assert (LD : forall w2, exists w3, retry_clear clear (fun w => w) (loads_once unpickle b) (S k) w2 = (w3, inl x)).
  { intros w2. cbn [retry_clear]. unfold loads_once at 1. destruct (L [] w2) as (w3 & U). rewrite app_nil_r in U. rewrite U. cbn [snd]. eauto. }
  destruct (check_verify verify).
  - rewrite loads_nat. destruct (LD w1) as (w2 & E2). rewrite E2. cbn [andb]. eauto.
  - cbn [andb]. eauto.
Qed.

(** C89: negative numbers of retries are refused, and nothing happens. *)
Theorem C89_negative z x b verify w st : (z < 0)%Z ->
  loads unpickle clear b (Some z) w = (w, inr NegativeRetries)
  /\ load unpickle clear (Some z) st = (st, inr NegativeRetries)
  /\ dumps pickle unpickle gc clear depth x (Some z) verify w = (w, inr NegativeRetries)
  /\ dump pickle unpickle gc clear depth x (Some z) verify st = (st, inr NegativeRetries).
Proof.
  intros H. unfold loads, load, dumps, dump. cbn [check_retries]. rewrite (proj2 (Z.ltb_lt _ _) H). repeat split; reflexivity.
Qed.

(** C89: an object with a problem of ipyopt inside raises its own exception, without any retry. *)
Theorem C89_ipyopt x m k w w1 b verify : depth <> 0 -> check_retries m = Some k -> pickle x w = (w1, (b, Some (EType false false true))) ->
  dumps pickle unpickle gc clear depth x m verify w = (w1, inr IpyoptPicklingError).
Proof.
  intros D CM P. unfold dumps. rewrite CM. cbn [dumps_loop]. destruct depth as [|d]; [now destruct D|].
  cbn [retry_gc]. unfold dumps_once at 1. rewrite P. reflexivity.
Qed.
End Any.

(** ** What is not true. The state of the interpreter is the number of calls so far, an object is a number and its only byte. *)
Definition one_byte (x n : nat) : nat * (list nat * option perr) := (S n, ([x], None)).
Definition first_byte (b : list nat) : nat * (nat + perr) :=
  match b with x :: _ => (1, inl x) | [] => (0, inr (EOther 0)) end.
Definition same (n : nat) : nat := n.

(** C89: "max_retries is the largest number of retries": false; if a dictionary changes its size during the dumping this is tried again until python allows no
    more recursion, even with no retries at all. *)
Theorem C89_endless_refuted : forall depth, exists w,
  dumps (fun x n => (S n, ([], Some (ERuntime true)))) (fun b n => (n, first_byte b)) same same (S depth) 0 (Some 0%Z) None 0
  = (w, inr RecursionError) /\ w = S depth.
Proof.
  intros depth. unfold dumps. cbn [check_retries Z.ltb Z.compare Z.to_nat check_verify dumps_loop].
  destruct (gc_endless same (dumps_once (fun x n => (S n, ([] : list nat, Some (ERuntime true)))) 0) (fun n => n)
    (fun s => eq_refl) (fun s => eq_refl) (fun s => eq_refl) (S depth) 0 0) as (A & B).
  destruct (retry_gc same _ (S depth) 0 0) as [w r]. cbn [fst snd] in A, B. subst r w. exists (S depth). split; reflexivity.
Qed.

(** C89: "bytes that have been verified are returned": false for [dumps]; if the first verification has failed, the object is dumped again even after a verification
    that has succeeded, and an exception is raised if the last one fails. [dump] stops, and succeeds. *)
Definition flaky (b : list nat) (n : nat) : nat * (nat * (nat + perr)) :=
  (S n, if Nat.eqb n 5 then first_byte b else (0, inr (EOther 0))).
Theorem C89_dropped_refuted :
  snd (dumps one_byte flaky same same 9 7 None None 0) = inr DillDumpError
  /\ (forall b, exists n, flaky (7 :: b) 5 = (n, (1, inl 7)))
  /\ exists st, dump one_byte flaky same same 9 7 None None (0, File [] 0 true) = (st, inl tt) /\ content (snd st) = [7].
Proof.
  split; [vm_compute; reflexivity|]. split; [intros b; eexists; reflexivity|]. eexists. split; [vm_compute; reflexivity|reflexivity].
Qed.

(** C89: "after a dump without an exception the file holds the object": false without verification; what an attempt that has failed has
    written stays before it. *)
Definition halfway (x n : nat) : nat * (list nat * option perr) :=
  (S n, if Nat.eqb n 0 then ([99], Some (EType true false false)) else ([x], None)).
Theorem C89_partial_write_refuted : exists st,
  dump halfway (fun b n => (n, first_byte b)) same same 9 7 None (Some false) (0, File [] 0 true) = (st, inl tt)
  /\ content (snd st) = [99; 7]
  /\ snd (load (fun b n => (n, first_byte b)) same None (fst st, seek (snd st) 0)) = inl 99.
Proof. eexists. split; [vm_compute; reflexivity|]. split; vm_compute; reflexivity. Qed.

(** C89: "after a dump that raises because the file can not be read, the next one is written after it": false, the file is back at the position where the first began, and
    the next one overwrites it. *)
Theorem C89_overwritten_refuted : exists st st',
  dump one_byte (fun b n => (n, first_byte b)) same same 9 7 None None (0, File [] 0 false) = (st, inr (Raised (EUnsupported true)))
  /\ content (snd st) = [7]
  /\ dump one_byte (fun b n => (n, first_byte b)) same same 9 8 None (Some false) st = (st', inl tt) /\ content (snd st') = [8].
Proof. eexists. eexists. split; [vm_compute; reflexivity|]. split; [vm_compute; reflexivity|]. split; [vm_compute; reflexivity|]. vm_compute. reflexivity. Qed.

(** C89: "loading raises what is documented": false, after an operation the file does not support that has nothing to do with reading, a variable without a
    value is returned. *)
Theorem C89_unbound_refuted : forall m w,
  snd (loads (fun (b : list nat) n => (n, (0, @inr nat _ (EUnsupported false)))) same [] (Some (Z.of_nat m)) w) = inr UnboundLocal.
Proof.
  intros m w. rewrite loads_nat. generalize (S m). intros t. revert w. induction t as [|t IH]; intros w; [reflexivity|]. cbn [retry_clear loads_once snd]. apply IH.
Qed.

(** ** Examples *)
Example C89_works : works one_byte (fun b n => (n, first_byte b)).
Proof. intros x w. exists (S w), [x]. split; [reflexivity|]. intros rest w'. exists w'. reflexivity. Qed.
Example ex_stream : exists st, dump_all one_byte (fun b n => (n, first_byte b)) same same 1 None None [4; 5; 6] (0, File [1; 2; 9; 9; 9; 3] 2 true) = (st, inl tt)
  /\ content (snd st) = [1; 2; 4; 5; 6; 3] /\ pos (snd st) = 5.
Proof. eexists. split; [vm_compute; reflexivity|]. split; vm_compute; reflexivity. Qed.
(** two attempts fail, the third succeeds *)
Example ex_retry : loads (fun (b : list nat) n => (S n, if Nat.ltb n 2 then (0, inr (EOther 0)) else first_byte b)) same [5] None 0 = (3, inl 5)
  /\ snd (loads (fun (b : list nat) n => (S n, if Nat.ltb n 2 then (0, inr (EOther 0)) else first_byte b)) same [5] (Some 1%Z) 0) = inr DillLoadError.
Proof. split; vm_compute; reflexivity. Qed.
Example ex_graph : dumps (fun x n => (S n, if Nat.ltb n 2 then ([], Some (EType true false false)) else ([x], None))) (fun b n => (n, first_byte b)) same same 9 7 None None 0
  = (3, inl [7]).
Proof. vm_compute. reflexivity. Qed.
