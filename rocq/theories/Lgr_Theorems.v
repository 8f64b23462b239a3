(** C99: loggers. *)
From Verif Require Import Base BaseLemmas Lgr_Model Lgr_Spec.
Open Scope string_scope.
Open Scope list_scope.

Definition is_file (h : handler) : bool := match h with Stream _ => false | File _ _ => true end.
(** One stream at the front, files after it. *)
Definition shape (l : level) (hs : list handler) : Prop := exists r, hs = Stream l :: r /\ forallb is_file r = true.

Lemma set_nth_files i l r : forallb is_file r = true -> forallb is_file (set_nth i l r) = true.
Proof.
  revert i. induction r as [|h r IH]; intros i H; [destruct i; reflexivity|]. cbn in H. apply andb_true_iff in H. destruct H as (H1 & H2).
  destruct i; cbn; [rewrite H2; destruct h; [discriminate H1|reflexivity]|rewrite H1, IH by exact H2; reflexivity].
Qed.
Lemma find_file_pos f : forall hs k i, find_file f k hs = Ok (Some i) -> exists j p l, i = k + j /\ nth_error hs j = Some (File p l).
Proof.
  induction hs as [|h hs IH]; intros k i H; cbn [find_file] in H; [discriminate H|].
  assert (G : find_file f (S k) hs = Ok (Some i) -> exists j p l, i = k + j /\ nth_error (h :: hs) j = Some (File p l)).
  { intros E. destruct (IH _ _ E) as (j & p & l & -> & N). exists (S j), p, l. split; [lia|exact N]. }
  destruct h as [l|p l]; [exact (G H)|]. destruct (negb (truthy f)).
  - injection H as <-. exists 0, p, l. split; [lia|reflexivity].
  - destruct f as [[s|s]|]; [discriminate H|exact (G H)|exact (G H)].
Qed.

Definition start_handlers (lg : logger) : list handler := match handlers lg with [] => [Stream 0] | hs => hs end.
Definition well (lg : logger) : Prop := handlers lg = [] \/ exists l, shape l (handlers lg).
Lemma start_shape lg o : well lg -> shape o (set_first o (start_handlers lg)).
Proof.
  intros [E|(l & r & E & F)]; unfold start_handlers; rewrite E; [exists []; split; reflexivity|]. exists r. split; [reflexivity|exact F].
Qed.

Lemma get_logger_shape lg o l f : well lg -> shape (or_warning o) (handlers (fst (get_logger lg o l f)))
  /\ (snd (get_logger lg o l f) = None -> lg_level (fst (get_logger lg o l f)) = Nat.min (or_warning o) (or_warning l)).
Proof.
  intros W. unfold get_logger. change (match o with Some l => l | None => WARNING end) with (or_warning o). fold (start_handlers lg).
  destruct (start_shape lg (or_warning o) W) as (r & E & F). rewrite E.
  destruct (find_file f 0 (Stream (or_warning o) :: r)) as [found|e] eqn:S; [|split; [exists r; split; [reflexivity|exact F]|discriminate]].
  set (q := match truthy f, found, f with true, None, Some n => _ | _, _, _ => _ end).
  assert (Q : exists r', fst q = Stream (or_warning o) :: r' /\ forallb is_file r' = true /\ snd q <> Some 0).
  { unfold q. destruct (truthy f), found as [i|], f as [n|]; cbn [fst snd];
      try (exists r; split; [reflexivity|]; split; [exact F|]); try discriminate;
      try (intros X; injection X as ->; destruct (find_file_pos _ _ _ _ S) as (j & p & lv & J & N); destruct j; [cbn in N; discriminate N|discriminate J]).
    exists (r ++ [File (path_of n) 0]). split; [reflexivity|]. split; [rewrite forallb_app, F; reflexivity|]. cbn. discriminate. }
  destruct q as (hs & fd). cbn [fst snd] in Q. destruct Q as (r' & -> & F' & N).
  destruct l as [lv|], fd as [[|i]|]; try (contradiction (N eq_refl)); cbn [fst snd handlers lg_level];
    (split; [|try discriminate; intros _; reflexivity]);
    try (exists r'; split; [reflexivity|exact F']); cbn [set_nth]; eexists; (split; [reflexivity|apply set_nth_files; exact F']).
Qed.
Lemma reachable_well lg : reachable lg -> well lg.
Proof. induction 1 as [|lg o l f R IH]; [left; reflexivity|]. right. exists (or_warning o). apply get_logger_shape. exact IH. Qed.

(** C99: after any calls, a message appears on the screen exactly once if its level is at least the one asked for in
    the last call, WARNING without one, and not at all below it. *)
Theorem C99_screen : forall lg o l f m, reachable lg -> 0 < or_warning o -> 0 < or_warning l -> snd (get_logger lg o l f) = None ->
  on_screen (fst (get_logger lg o l f)) m = if Nat.leb (or_warning o) m then 1 else 0.
Proof.
  intros lg o l f m R O0 L0 E. destruct (get_logger_shape lg o l f (reachable_well lg R)) as ((r & H & F) & L). specialize (L E).
  unfold on_screen, receivers. rewrite H.
  assert (L' : effective (fst (get_logger lg o l f)) <= or_warning o) by (unfold effective; rewrite L; destruct (Nat.min (or_warning o) (or_warning l)) eqn:X; lia).
  clear L. set (lv := effective _) in *.
  assert (Z : filter (fun h => match h with Stream _ => true | File _ _ => false end) (filter (takes m) r) = []).
  { clear - F. induction r as [|h r IH]; [reflexivity|]. cbn in F. apply andb_true_iff in F. destruct F as (F1 & F2). cbn [filter].
    destruct (takes m h); [|exact (IH F2)]. cbn [filter]. destruct h; [discriminate F1|exact (IH F2)]. }
  destruct (Nat.leb (or_warning o) m) eqn:M.
  - assert (X : Nat.leb lv m = true) by (apply Nat.leb_le; apply Nat.leb_le in M; lia). rewrite X. cbn [filter takes]. rewrite M. cbn [filter]. rewrite Z. reflexivity.
  - destruct (Nat.leb lv m); [|reflexivity]. cbn [filter takes]. rewrite M. rewrite Z. reflexivity.
Qed.

(** C99: a first file, named by text or a Path, gets each message of at least the level asked for, WARNING without
    one, exactly once; without a file no level for it can be set. *)
Theorem C99_file : forall lg o l n m, reachable lg -> 0 < or_warning o -> 0 < or_warning l ->
  existsb is_file (handlers lg) = false -> path_of n <> "" ->
  snd (get_logger lg o l (Some n)) = None
  /\ in_file (fst (get_logger lg o l (Some n))) (path_of n) m = (if Nat.leb (or_warning l) m then 1 else 0)
  /\ forall lv, snd (get_logger lg o (Some lv) None) = Some ValueError.
Proof.
  intros lg o l n m R O0 L0 N P. assert (W := reachable_well lg R).
  assert (E : set_first (or_warning o) (start_handlers lg) = [Stream (or_warning o)]).
  { unfold start_handlers. destruct W as [E|(lv & r & E & F)]; rewrite E in *; [reflexivity|]. destruct r as [|h r]; [reflexivity|].
    cbn in N, F. apply andb_true_iff in F. destruct F as (F & _). rewrite F in N. discriminate N. }
  assert (T : truthy (Some n) = true) by (destruct n as [[|a s]|s]; [contradiction (P eq_refl)|reflexivity|reflexivity]).
  assert (G : get_logger lg o l (Some n) = (Logger [Stream (or_warning o); File (path_of n) (or_warning l)] (Nat.min (or_warning o) (or_warning l)), None)).
  { unfold get_logger. change (match o with Some l => l | None => WARNING end) with (or_warning o). fold (start_handlers lg). rewrite E. cbn [find_file]. rewrite T.
    destruct l; reflexivity. }
  rewrite G. cbn [fst snd]. split; [reflexivity|]. split.
  - unfold in_file, receivers.
    assert (Z : effective (Logger [Stream (or_warning o); File (path_of n) (or_warning l)] (Nat.min (or_warning o) (or_warning l))) = Nat.min (or_warning o) (or_warning l))
      by (unfold effective; cbn [lg_level]; destruct (Nat.min (or_warning o) (or_warning l)) eqn:X; [lia|reflexivity]).
    rewrite Z. cbn [handlers]. destruct (Nat.leb (or_warning l) m) eqn:M.
    + assert (X : Nat.leb (Nat.min (or_warning o) (or_warning l)) m = true) by (apply Nat.leb_le; apply Nat.leb_le in M; lia).
      rewrite X. cbn [filter takes]. rewrite M. destruct (Nat.leb (or_warning o) m); cbn [filter]; rewrite String.eqb_refl; reflexivity.
    + destruct (Nat.leb (Nat.min _ _) m); [|reflexivity]. cbn [filter takes]. rewrite M. destruct (Nat.leb (or_warning o) m); reflexivity.
  - intros lv. unfold get_logger. change (match o with Some l => l | None => WARNING end) with (or_warning o). fold (start_handlers lg). rewrite E. reflexivity.
Qed.

Example C99_applies : reachable new_logger /\ existsb is_file (handlers new_logger) = false
  /\ on_screen (fst (get_logger new_logger (Some 10) (Some 20) (Some (Text "/a")))) 10 = 1
  /\ in_file (fst (get_logger new_logger (Some 10) (Some 20) (Some (Text "/a")))) "/a" 10 = 0.
Proof. split; [constructor|]. repeat split. Qed.

(** REFUTED: "the file can be given again": a name raises AttributeError, a Path adds the file once more, so that each
    message is written twice. *)
Theorem C99_again_refuted :
  (forall p o l, p <> "" -> snd (get_logger (fst (get_logger new_logger None None (Some (Text p)))) o l (Some (Text p))) = Some AttributeError)
  /\ (forall p, in_file (fst (get_logger (fst (get_logger new_logger None None (Some (APath p)))) None None (Some (APath p)))) p WARNING = 2).
Proof.
  split.
  - intros [|a p] o l N; [contradiction (N eq_refl)|]. destruct o, l; reflexivity.
  - intros p. unfold in_file. cbn. rewrite String.eqb_refl. reflexivity.
Qed.

(** REFUTED: "the levels of screen and file are changed independently" and "a refused call changes nothing". *)
Theorem C99_independent_refuted :
  (exists lg lg', reachable lg /\ get_logger lg (Some 10) None None = (lg', None) /\ in_file lg "/a" 20 = 1 /\ in_file lg' "/a" 20 = 0)
  /\ (exists lg lg', reachable lg /\ get_logger lg (Some 10) None None = (lg', None) /\ on_screen lg' 10 = 1
        /\ snd (get_logger lg' None (Some 20) None) = Some ValueError /\ on_screen (fst (get_logger lg' None (Some 20) None)) 10 = 0).
Proof.
  split.
  - exists (fst (get_logger new_logger None (Some 20) (Some (Text "/a")))). eexists. split; [constructor; constructor|]. repeat split.
  - exists new_logger. eexists. split; [constructor|]. repeat split.
Qed.

(** REFUTED: "level 0 shows everything": a logger of level 0 takes the level of the one above it. *)
Theorem C99_zero_refuted : exists lg, get_logger new_logger (Some 0) None None = (lg, None) /\ forall m, m < WARNING -> on_screen lg m = 0.
Proof.
  eexists. split; [reflexivity|]. intros m L. unfold on_screen, receivers. change (effective _) with WARNING.
  destruct (Nat.leb_spec WARNING m) as [X|X]; [lia|reflexivity].
Qed.

(** C99: all loggers are below that of zfit, and the name of a logger can be used to get it again. *)
Theorem C99_name : forall rstrip n, (exists t, full_name rstrip n = append "zfit" t) /\ full_name rstrip (full_name rstrip n) = full_name rstrip n.
Proof.
  intros rstrip n. unfold full_name. destruct (prefix "zfit" n) eqn:E.
  - split; [|rewrite E; reflexivity].
    repeat match type of E with prefix (String _ _) ?x = _ => destruct x as [|a x]; [discriminate E|]; cbn [prefix] in E; destruct (Ascii.ascii_dec _ a) as [<-|]; [|discriminate E] end.
    eexists. reflexivity.
  - split; [exists (append "." (rstrip n)); reflexivity|reflexivity].
Qed.

(** C99: the level of a file is changed later without giving it again, and this one call sets both levels: all messages
    from the level on are written once, also after an earlier higher or lower one. *)
Theorem C99_later : forall lg o l n o' l' m, reachable lg -> existsb is_file (handlers lg) = false -> path_of n <> "" ->
  0 < or_warning o' -> 0 < or_warning l' ->
  let lg' := fst (get_logger (fst (get_logger lg o l (Some n))) o' l' None) in
  snd (get_logger (fst (get_logger lg o l (Some n))) o' l' None) = None
  /\ in_file lg' (path_of n) m = (if Nat.leb (or_warning l') m then 1 else 0)
  /\ on_screen lg' m = (if Nat.leb (or_warning o') m then 1 else 0).
Proof.
  intros lg o l n o' l' m R N P O0 L0. assert (W := reachable_well lg R).
  assert (E : set_first (or_warning o) (start_handlers lg) = [Stream (or_warning o)]).
  { unfold start_handlers. destruct W as [E|(lv & r & E & F)]; rewrite E in *; [reflexivity|]. destruct r as [|h r]; [reflexivity|].
    cbn in N, F. apply andb_true_iff in F. destruct F as (F & _). rewrite F in N. discriminate N. }
  assert (T : truthy (Some n) = true) by (destruct n as [[|a s]|s]; [contradiction (P eq_refl)|reflexivity|reflexivity]).
  assert (G : get_logger lg o l (Some n) = (Logger [Stream (or_warning o); File (path_of n) (or_warning l)] (Nat.min (or_warning o) (or_warning l)), None)).
  { unfold get_logger. change (match o with Some l => l | None => WARNING end) with (or_warning o). fold (start_handlers lg). rewrite E. cbn [find_file]. rewrite T.
    destruct l; reflexivity. }
  assert (G' : get_logger (fst (get_logger lg o l (Some n))) o' l' None = (Logger [Stream (or_warning o'); File (path_of n) (or_warning l')] (Nat.min (or_warning o') (or_warning l')), None)).
  { rewrite G. destruct o', l'; reflexivity. }
  assert (R' : reachable (fst (get_logger lg o l (Some n)))) by (constructor; exact R).
  assert (S : snd (get_logger (fst (get_logger lg o l (Some n))) o' l' None) = None) by (rewrite G'; reflexivity).
  cbv zeta. split; [exact S|]. split; [|exact (C99_screen _ o' l' None m R' O0 L0 S)]. rewrite G'. cbn [fst].
  unfold in_file, receivers.
  assert (Z : effective (Logger [Stream (or_warning o'); File (path_of n) (or_warning l')] (Nat.min (or_warning o') (or_warning l'))) = Nat.min (or_warning o') (or_warning l'))
    by (unfold effective; cbn [lg_level]; destruct (Nat.min (or_warning o') (or_warning l')) eqn:X; [lia|reflexivity]).
  rewrite Z. cbn [handlers]. destruct (Nat.leb (or_warning l') m) eqn:M.
  - assert (X : Nat.leb (Nat.min (or_warning o') (or_warning l')) m = true) by (apply Nat.leb_le; apply Nat.leb_le in M; lia).
    rewrite X. cbn [filter takes]. rewrite M. destruct (Nat.leb (or_warning o') m); cbn [filter]; rewrite String.eqb_refl; reflexivity.
  - destruct (Nat.leb (Nat.min _ _) m); [|reflexivity]. cbn [filter takes]. rewrite M. destruct (Nat.leb (or_warning o') m); reflexivity.
Qed.

Example C99_later_applies : let lg := fst (get_logger new_logger None (Some 20) (Some (Text "/a"))) in
  in_file lg "/a" 20 = 1 /\ in_file (fst (get_logger lg (Some 10) (Some 40) None)) "/a" 20 = 0.
Proof. repeat split. Qed.
