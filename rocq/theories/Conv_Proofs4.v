(** Proofs about the numerical convolution: sampling. *)
From Verif Require Import Base BaseLemmas AccRej_Model AccRej_Spec AccRej_Proofs AccRej_Proofs2 Conv_Model Conv_Spec Conv_Proofs.
From Coq Require Import Lqa Qround Permutation.
#[local] Open Scope nat_scope.

Section Sample.
Variables (draw_func draw_kernel : nat -> (Q * Q) -> Z -> list Q) (shuffle : nat -> list Q -> list Q).
Variables (own lk lim : Q * Q) (n : nat) (checks : bool) (binomial : nat -> nat -> Q -> nat).
Hypothesis DF : draws_inside draw_func.
Hypothesis DK : draws_inside draw_kernel.
Hypothesis SH : forall it l, Permutation l (shuffle it l).
Hypothesis BN : forall it k q, binomial it k q <= k.

Notation propose := (conv_proposals draw_func draw_kernel shuffle own lk lim).
Notation iterate := (iterate (fun _ => 1%Q) (in_limits1 lim) n checks (Some 1%Q) (Some 1%Q) propose binomial).
Notation body := (body (fun _ => 1%Q) (in_limits1 lim) n checks (Some 1%Q) (Some 1%Q) propose binomial).
Notation loop := (loop (fun _ => 1%Q) (in_limits1 lim) n checks (Some 1%Q) (Some 1%Q) propose binomial).
Notation events := (smeared draw_func draw_kernel shuffle (extended_limits own lim) lk lim).

Lemma proposals_events it m : propose it m = map (fun x => Prop_ [x] (1 # 2) 1) (events it m).
Proof. reflexivity. Qed.
Lemma events_size it m : length (events it m) <= Z.to_nat m.
Proof.
  unfold smeared. assert (HF : forall f (l : list Q), length (filter f l) <= length l) by (induction l as [|a l IHl]; cbn; [lia|destruct (f a); cbn; lia]).
  eapply Nat.le_trans; [apply HF|]. rewrite map_length, combine_length. destruct (DF it (extended_limits own lim) m) as [-> _]. lia.
Qed.
Lemma propose_size it m : (Z.of_nat (length (propose it m)) <= Z.max m 0)%Z.
Proof. rewrite proposals_events, map_length. assert (A := events_size it m). lia. Qed.

Lemma all_accepted (l : list Q) : filter (accepted (fun _ => 1%Q) (1 / 1)) (map (fun x => Prop_ [x] (1 # 2) 1) l) = map (fun x => Prop_ [x] (1 # 2) 1) l.
Proof. induction l as [|a l IH]; [reflexivity|]. cbn [map filter]. unfold accepted at 1. cbn [pr_u pr_w pr_row]. replace (qltb _ _) with true by reflexivity. now rewrite IH. Qed.

Lemma conv_body it s : iterate it = Ok s -> st_np s < n ->
  exists s', body it s = Ok s' /\ st_np s' = st_np s + length (events it (n_to_produce n (Some 1%Q) s)) /\
  st_arr s' = scatter (st_np s) (map (fun x => [x]) (events it (n_to_produce n (Some 1%Q) s))) (st_arr s).
Proof.
  intros E L. destruct (batch_size _ _ _ _ _ _ _ _ BN propose_size it s E L) as [[A _] _].
  unfold AccRej_Model.body. set (m := n_to_produce n (Some 1%Q) s) in *. destruct (Z.leb_spec m 0); [lia|].
  rewrite proposals_events.
  assert (I : forallb (fun p => in_limits1 lim (pr_row p)) (map (fun x => Prop_ [x] (1 # 2) 1) (events it m)) = true).
  { apply forallb_forall. intros p Hp. apply in_map_iff in Hp. destruct Hp as (x & <- & Hx). cbn. unfold smeared in Hx. apply filter_In in Hx. exact (proj2 Hx). }
  rewrite I. cbn [negb]. unfold new_scaling.
  assert (T : existsb (too_large (fun _ => 1%Q) (1 / 1)) (map (fun x => Prop_ [x] (1 # 2) 1) (events it m)) = false).
  { clear. induction (events it m) as [|a l IH]; [reflexivity|]. cbn [map existsb]. rewrite IH. reflexivity. }
  rewrite T, andb_false_r. unfold kept, rescaled. cbn [estimates andb]. rewrite all_accepted.
  eexists. split; [reflexivity|]. cbn [st_np st_arr]. rewrite !map_map, map_length. cbn [pr_row]. auto.
Qed.

Definition good (s : state) (rows : list Q) : Prop :=
  st_np s = length rows /\ exists rest, st_arr s = map (fun x => Some [x]) rows ++ rest /\ length rest = n - length rows.

Lemma good_step it s rows : iterate it = Ok s -> st_np s < n -> good s rows ->
  exists s' m, body it s = Ok s' /\ good s' (rows ++ events it m).
Proof.
  intros E L (G1 & rest & G2 & G3). destruct (conv_body it s E L) as (s' & E' & N' & A').
  exists s', (n_to_produce n (Some 1%Q) s). split; [exact E'|]. set (ev := events it _) in *. split; [rewrite app_length; lia|].
  exists (skipn (length ev) rest). split.
  - rewrite A', G2. unfold scatter. rewrite G1, map_length.
    rewrite firstn_app, map_length, Nat.sub_diag, firstn_O, app_nil_r.
    rewrite firstn_all2 by (rewrite map_length; lia).
    rewrite skipn_app, map_length. rewrite skipn_all2 by (rewrite map_length; lia).
    replace (length rows + length ev - length rows) with (length ev) by lia. cbn [app].
    rewrite map_app, <- app_assoc. f_equal. rewrite map_map. reflexivity.
  - rewrite skipn_length, app_length. lia.
Qed.

Lemma conv_loop : forall fuel it s rows, iterate it = Ok s -> good s rows ->
  exists r, loop fuel it s = Ok r /\
  forall s', r = Some s' -> exists asked, good s' (rows ++ in_turn it events asked) /\ n <= st_np s'.
Proof.
  induction fuel as [|fuel IH]; intros it s rows E G; cbn [AccRej_Model.loop].
  - destruct (Nat.leb_spec n (st_np s)).
    + exists (Some s). split; [reflexivity|]. intros s' [= <-]. exists []. cbn. rewrite app_nil_r. auto.
    + exists None. split; [reflexivity|]. discriminate.
  - destruct (Nat.leb_spec n (st_np s)) as [L|L].
    + exists (Some s). split; [reflexivity|]. intros s' [= <-]. exists []. cbn. rewrite app_nil_r. auto.
    + destruct (good_step it s rows E L G) as (s1 & m & E1 & G1).
      assert (EI : iterate (S it) = Ok s1). { cbn [AccRej_Model.iterate]. rewrite E. exact E1. }
      rewrite E1. cbn [bind]. destruct (IH (S it) s1 _ EI G1) as (r & E2 & H2). exists r. split; [exact E2|].
      intros s' Hs. destruct (H2 s' Hs) as (asked & G' & L'). exists (m :: asked). split; [|exact L']. cbn [in_turn]. rewrite app_assoc. exact G'.
Qed.

Theorem conv_sample_rows fuel :
  exists r, conv_sample draw_func draw_kernel shuffle own lk lim n checks binomial fuel = Ok r /\
  forall res, r = Some res -> length res = n /\
    exists asked, res = map (fun x => Some [x]) (firstn n (in_turn 0 events asked)).
Proof.
  unfold conv_sample, accept_reject. destruct (conv_loop fuel 0 (start n) []) as (r & E & H).
  { reflexivity. }
  { split; [reflexivity|]. exists (repeat None n). split; [reflexivity|]. rewrite repeat_length. cbn. lia. }
  rewrite E. cbn [bind]. destruct r as [s|].
  - eexists. split; [reflexivity|]. intros res [= <-]. destruct (H s eq_refl) as (asked & (G1 & rest & G2 & G3) & L). cbn [app] in *.
    rewrite G2. rewrite firstn_app, map_length. replace (n - length (in_turn 0 events asked)) with 0 by lia. rewrite firstn_O, app_nil_r.
    split; [rewrite firstn_length, map_length; lia|]. exists asked. rewrite firstn_map. reflexivity.
  - eexists. split; [reflexivity|]. discriminate.
Qed.

Lemma in_turn_In {A} (ev : nat -> Z -> list A) x : forall asked it, In x (in_turn it ev asked) -> exists k m, In x (ev k m).
Proof. induction asked as [|m r IH]; intros it; cbn; [easy|]. rewrite in_app_iff. intros [H|H]; eauto. Qed.

Lemma events_In it m x : (fst own <= snd own)%Q -> (fst lk <= snd lk)%Q -> In x (events it m) -> within lim x /\
  exists y t, (x == y + t)%Q /\ within (extended_limits own lim) y /\ within lk t.
Proof.
  unfold smeared. intros P1 P2 H. apply filter_In in H. destruct H as [H I]. apply andb_true_iff in I. rewrite !Qle_bool_iff in I. split; [exact I|].
  apply in_map_iff in H. destruct H as ([y t] & <- & Hp). exists y, t. cbn [fst snd]. split; [reflexivity|].
  destruct (DF it (extended_limits own lim) m) as [_ F1]. destruct (DK it lk m) as [_ F2].
  specialize (F2 P2). assert (P3 : (fst (extended_limits own lim) <= snd (extended_limits own lim))%Q) by (unfold extended_limits; cbn [fst snd]; lra). specialize (F1 P3). rewrite Forall_forall in F1, F2.
  split; [apply F1; exact (in_combine_l _ _ _ _ Hp)|]. apply F2. apply in_combine_r in Hp. eapply Permutation_in; [symmetry; apply SH|exact Hp].
Qed.
End Sample.
