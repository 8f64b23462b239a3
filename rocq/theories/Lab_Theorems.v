(** C97: labels of observables. *)
From Verif Require Import Base BaseLemmas PGraph_Proofs Coord_Model Lab_Model Lab_Spec.
Open Scope string_scope.
Open Scope list_scope.

(** The labels stored are those of a function, for all observables of the space. *)
Definition agrees (L : string -> string) (s : lspace) : Prop :=
  exists o d, c_obs (ls_coords s) = Some o /\ ls_stored s = ByObs d /\ forall ob, In ob o -> lookup String.eqb ob d = Some (L ob).

Lemma labels_for_agrees L d o : (forall ob, In ob o -> lookup String.eqb ob d = Some (L ob)) -> labels_for (ByObs d) o = Ok (map L o).
Proof.
  unfold labels_for. induction o as [|ob o IH]; intros H; [reflexivity|]. cbn [mapM label_of].
  rewrite (H ob (or_introl eq_refl)). cbn [bind]. rewrite IH; [reflexivity|]. intros x I. apply H. right. exact I.
Qed.
Lemma agrees_labels L s o : agrees L s -> c_obs (ls_coords s) = Some o -> labels s = Ok (Some (map L o)).
Proof.
  intros (o' & d & O & S & H) E. assert (o' = o) by congruence. subst o'. unfold labels. rewrite E, S, (labels_for_agrees L d o H). reflexivity.
Qed.
Lemma lookup_combine_map (L : string -> string) o ob : In ob o -> lookup String.eqb ob (combine o (map L o)) = Some (L ob).
Proof.
  induction o as [|x o IH]; [intros []|]. intros I. cbn. destruct (String.eqb ob x) eqn:E; [apply String.eqb_eq in E; congruence|].
  destruct I as [<-|I]; [rewrite String.eqb_refl in E; discriminate E|exact (IH I)].
Qed.
Lemma make_agrees L c o s : c_obs c = Some o -> make_lspace c (Some (map L o)) = Ok s -> agrees L s /\ c_obs (ls_coords s) = Some o.
Proof.
  intros O H. unfold make_lspace in H. rewrite O in H. destruct (negb _); [discriminate H|]. injection H as <-.
  split; [|exact O]. exists o, (combine o (map L o)). split; [exact O|]. split; [reflexivity|]. intros ob I. apply lookup_combine_map. exact I.
Qed.
Lemma new_labels_agrees L s o c o' : agrees L s -> c_obs (ls_coords s) = Some o -> c_obs c = Some o' -> incl o' o ->
  new_labels s c = Ok (Some (map L o')).
Proof.
  intros A O O' I. unfold new_labels. rewrite (agrees_labels L s o A O). cbn [bind]. rewrite O'.
  destruct A as (o2 & d & O2 & S & H). assert (o2 = o) by congruence. subst o2. rewrite S, (labels_for_agrees L d o'); [reflexivity|].
  intros ob J. apply H, I, J.
Qed.

Lemma make_coords_obs obs axes c : make_coords obs axes = Ok c -> c_obs c = obs.
Proof. unfold make_coords. destruct obs, axes; repeat (match goal with |- context [if ?b then _ else _] => destruct b end); intros H; try discriminate H; injection H as <-; reflexivity. Qed.
Lemma reorder_obs c o idx n a c' : c_obs c = Some o -> reorder_tuple (c_obs c) idx = Ok n -> make_coords n a = Ok c' ->
  exists o', c_obs c' = Some o' /\ incl o' o.
Proof.
  intros O R M. rewrite O in R. unfold reorder_tuple in R. destruct (gather o idx) as [o'|] eqn:G; [|discriminate R]. injection R as <-.
  exists o'. split; [exact (make_coords_obs _ _ _ M)|]. intros x I. apply gather_forall2 in G.
  destruct (Forall2_In_r _ _ _ x G I) as (i & _ & Hn). exact (nth_error_In _ _ Hn).
Qed.
Lemma with_obs_incl c o r sup sub c' : c_obs c = Some o -> with_obs c (Some r) sup sub = Ok c' -> exists o', c_obs c' = Some o' /\ incl o' o.
Proof.
  intros O H. unfold with_obs in H. rewrite O in H. repeat (match type of H with (if ?b then _ else _) = _ => destruct b; [discriminate H|] end).
  destruct (get_reorder_indices _ _ _) as [idx|]; [|discriminate H]. cbn [bind] in H. rewrite <- O in H.
  destruct (reorder_tuple (c_obs c) idx) as [n|] eqn:R; [|discriminate H]. cbn [bind] in H.
  destruct (reorder_tuple (c_axes c) idx) as [m|]; [|discriminate H]. exact (reorder_obs c o idx n m c' O R H).
Qed.
Lemma with_axes_incl c o r sup sub c' : c_obs c = Some o -> with_axes c (Some r) sup sub = Ok c' -> exists o', c_obs c' = Some o' /\ incl o' o.
Proof.
  intros O H. unfold with_axes in H. match type of H with (if ?b then _ else _) = _ => destruct b; [discriminate H|] end.
  destruct (c_axes c) as [ax|] eqn:A.
  - repeat (match type of H with (if ?b then _ else _) = _ => destruct b; [discriminate H|] end).
    destruct (get_reorder_indices _ _ _) as [idx|]; [|discriminate H]. cbn [bind] in H.
    destruct (reorder_tuple (c_obs c) idx) as [n|] eqn:R; [|discriminate H]. cbn [bind] in H.
    destruct (reorder_tuple (Some ax) idx) as [m|]; [|discriminate H]. exact (reorder_obs c o idx n m c' O R H).
  - exists o. split; [rewrite (make_coords_obs _ _ _ H); exact O|]. intros x I. exact I.
Qed.

Lemma via L s o c' s' : agrees L s -> c_obs (ls_coords s) = Some o -> (exists o', c_obs c' = Some o' /\ incl o' o) ->
  (let* l := new_labels s c' in make_lspace c' l) = Ok s' -> agrees L s' /\ exists o', c_obs (ls_coords s') = Some o' /\ incl o' o.
Proof.
  intros A O (o' & O' & I) H. rewrite (new_labels_agrees L s o c' o' A O O' I) in H. cbn [bind] in H.
  destruct (make_agrees L c' o' s' O' H) as (A' & C'). split; [exact A'|]. exists o'. split; [exact C'|exact I].
Qed.
Lemma via_copy L s o axes s' : agrees L s -> c_obs (ls_coords s) = Some o ->
  (let* l := new_labels s (ls_coords s) in copy s (Some o) axes l) = Ok s' -> agrees L s' /\ exists o', c_obs (ls_coords s') = Some o' /\ incl o' o.
Proof.
  intros A O H. rewrite (new_labels_agrees L s o (ls_coords s) o A O O (incl_refl o)) in H. cbn [bind] in H. unfold copy in H.
  destruct (make_coords (Some o) axes) as [c|] eqn:C; [|discriminate H]. cbn [bind] in H. apply make_coords_obs in C.
  destruct (make_agrees L c o s' C H) as (A' & C'). split; [exact A'|]. exists o. split; [exact C'|apply incl_refl].
Qed.

Lemma answer_agrees L s o r s' : agrees L s -> c_obs (ls_coords s) = Some o -> answer s r = Ok s' ->
  agrees L s' /\ exists o', c_obs (ls_coords s') = Some o' /\ incl o' o.
Proof.
  intros A O H. destruct r as [|q sup sub|a sup sub|q|a]; cbn [answer] in H.
  - unfold with_limits in H. rewrite (agrees_labels L s o A O) in H. cbn [bind] in H. destruct (make_agrees L _ o s' O H) as (A' & C').
    split; [exact A'|]. exists o. split; [exact C'|apply incl_refl].
  - unfold space_with_obs in H. destruct (with_obs _ _ _ _) as [c'|] eqn:W; [|discriminate H]. cbn [bind] in H.
    apply (via L s o c' s' A O); [exact (with_obs_incl _ o q sup sub c' O W)|exact H].
  - unfold space_with_axes in H. destruct a as [a|].
    + destruct (c_axes (ls_coords s)) as [ax|] eqn:X.
      * destruct (with_axes _ _ _ _) as [c'|] eqn:W; [|discriminate H]. cbn [bind] in H.
        apply (via L s o c' s' A O); [exact (with_axes_incl _ o a sup sub c' O W)|exact H].
      * rewrite O in H. destruct (negb _); [discriminate H|]. exact (via_copy L s o (Some a) s' A O H).
    + destruct (c_axes (ls_coords s)) as [ax|]; [rewrite O in H; exact (via_copy L s o None s' A O H)|].
      injection H as <-. split; [exact A|]. exists o. split; [exact O|apply incl_refl].
  - unfold get_subspace in H. destruct (with_obs _ _ _ _) as [c'|] eqn:W; [|discriminate H]. cbn [bind] in H.
    apply (via L s o c' s' A O); [exact (with_obs_incl _ o q true true c' O W)|exact H].
  - unfold get_subspace in H. destruct (with_axes _ _ _ _) as [c'|] eqn:W; [|discriminate H]. cbn [bind] in H.
    apply (via L s o c' s' A O); [exact (with_axes_incl _ o a true true c' O W)|exact H].
Qed.
Lemma history_agrees L l : forall s o s', agrees L s -> c_obs (ls_coords s) = Some o -> history s l = Ok s' ->
  agrees L s' /\ exists o', c_obs (ls_coords s') = Some o' /\ incl o' o.
Proof.
  induction l as [|r l IH]; intros s o s' A O H; cbn [history] in H.
  - injection H as <-. split; [exact A|]. exists o. split; [exact O|apply incl_refl].
  - destruct (answer s r) as [s1|] eqn:E; [|discriminate H]. cbn [bind] in H. destruct (answer_agrees L s o r s1 A O E) as (A1 & o1 & O1 & I1).
    destruct (IH s1 o1 s' A1 O1 H) as (A' & o' & O' & I'). split; [exact A'|]. exists o'. split; [exact O'|]. intros x J. exact (I1 x (I' x J)).
Qed.

(** Every space of a user has such a function. *)
Definition fun_of (d : list (string * string)) (ob : string) : string := match lookup String.eqb ob d with Some l => l | None => ob end.
Lemma lookup_combine_in (o : list string) : forall (l : list string) ob, length l = length o -> In ob o -> exists x, lookup String.eqb ob (combine o l) = Some x.
Proof.
  induction o as [|y o IH]; intros l ob E I; [destruct I|]. destruct l as [|z l]; [discriminate E|]. cbn.
  destruct (String.eqb ob y) eqn:Q; [eexists; reflexivity|]. destruct I as [->|I]; [rewrite String.eqb_refl in Q; discriminate Q|].
  apply IH; [injection E as E; exact E|exact I].
Qed.
Lemma user_agrees s : from_user s -> exists L o, agrees L s /\ c_obs (ls_coords s) = Some o /\ NoDup o.
Proof.
  intros (c & o & l & O & _ & ND & H). unfold make_lspace, n_obs in H. rewrite O in H.
  set (t := match l with Some l => l | None => o end) in H.
  assert (E : length t = length o).
  { unfold t. destruct l as [l|]; [|reflexivity]. destruct (Nat.eqb (length l) (length o)) eqn:E; [apply Nat.eqb_eq; exact E|discriminate H]. }
  assert (S : s = LSpace c (ByObs (combine o t))).
  { destruct l as [l|]; [|injection H as <-; reflexivity]. destruct (negb _); [discriminate H|]. injection H as <-. reflexivity. }
  subst s. exists (fun_of (combine o t)), o. split; [|split; [exact O|exact ND]]. exists o, (combine o t). split; [exact O|]. split; [reflexivity|].
  intros ob I. unfold fun_of. destruct (lookup_combine_in o t ob E I) as (x & ->). reflexivity.
Qed.
Lemma agrees_shows L s o ob lab : agrees L s -> c_obs (ls_coords s) = Some o -> (shows s ob lab <-> In ob o /\ lab = L ob).
Proof.
  intros A O. assert (E := agrees_labels L s o A O). split.
  - intros (o' & l & k & O' & E' & K & K'). assert (o' = o) by congruence. subst o'. assert (l = map L o) by congruence. subst l.
    split; [exact (nth_error_In _ _ K)|]. rewrite nth_error_map, K in K'. cbn in K'. congruence.
  - intros (I & ->). apply In_nth_error in I. destruct I as (k & K). exists o, (map L o), k. split; [exact O|]. split; [exact E|].
    split; [exact K|]. rewrite nth_error_map, K. reflexivity.
Qed.

(** C97: a space with observables shows the labels in the order given, and the observables themselves without labels;
    another number of labels is refused. *)
Theorem C97_created : forall c o, c_obs c = Some o -> o <> [] -> NoDup o ->
  (forall l, (exists s, make_lspace c (Some l) = Ok s) <-> length l = length o)
  /\ (forall l s k ob lab, make_lspace c (Some l) = Ok s -> nth_error o k = Some ob -> nth_error l k = Some lab -> shows s ob lab)
  /\ (exists s, make_lspace c None = Ok s /\ forall ob, In ob o -> shows s ob ob).
Proof.
  intros c o O NE ND. split; [|split].
  - intros l. unfold make_lspace, n_obs. rewrite O. destruct (Nat.eqb (length l) (length o)) eqn:E; cbn [negb].
    + apply Nat.eqb_eq in E. split; [intros _; exact E|intros _; eexists; reflexivity].
    + apply Nat.eqb_neq in E. split; [intros (s & X); discriminate X|intros X; contradiction].
  - intros l s k ob lab H K K'. destruct (user_agrees s) as (L & o' & A & O' & _); [exists c, o, (Some l); repeat split; assumption|].
    assert (S := H). unfold make_lspace, n_obs in S. rewrite O in S. destruct (Nat.eqb (length l) (length o)) eqn:E; [|discriminate S].
    apply Nat.eqb_eq in E. cbn [negb] in S. injection S as S. assert (o' = o) by (rewrite <- S in O'; cbn in O'; congruence). subst o'.
    apply (agrees_shows L s o ob lab A O'). split; [exact (nth_error_In _ _ K)|].
    destruct A as (o2 & d & O2 & D & F). rewrite <- S in D. cbn in D. injection D as <-. assert (o2 = o) by congruence. subst o2.
    specialize (F ob (nth_error_In _ _ K)).
    assert (X : lookup String.eqb ob (combine o l) = Some lab).
    { apply (lookup_nodup _ string_eqb_ok).
      - clear - ND E. revert l E. induction o as [|x o IH]; intros [|y l] E; try discriminate E; [constructor|]. inversion ND; subst. cbn.
        constructor; [|apply IH; [assumption|injection E as E; exact E]]. intros I. apply in_map_iff in I. destruct I as ((a & b) & Q & I). cbn in Q. subst a.
        apply in_combine_l in I. contradiction.
      - clear - K K'. revert l k K K'. induction o as [|x o IH]; intros l [|k] K K'; try discriminate K; destruct l as [|y l]; try discriminate K'; cbn in *.
        + left. congruence.
        + right. exact (IH l k K K'). }
    congruence.
  - destruct (make_lspace c None) as [s|] eqn:H; [|unfold make_lspace in H; discriminate H]. exists s. split; [reflexivity|]. intros ob I.
    assert (S : s = LSpace c (ByObs (combine o o))) by (unfold make_lspace in H; rewrite O in H; injection H as <-; reflexivity).
    assert (A : agrees (fun x => x) s).
    { subst s. exists o, (combine o o). split; [exact O|]. split; [reflexivity|]. intros x J.
      assert (M := lookup_combine_map (fun x => x) o x J). rewrite map_id in M. exact M. }
    apply (agrees_shows (fun x => x) s o ob ob A); [subst s; exact O|]. split; [exact I|reflexivity].
Qed.

(** C97: whatever other limits, orders and parts are asked for, by observables or axes, one after the other, each
    observable that is left shows the label it had, and there are labels for all of them. *)
Theorem C97_history : forall s l s', from_user s -> history s l = Ok s' ->
  exists o', c_obs (ls_coords s') = Some o' /\ forall ob, In ob o' -> exists lab, shows s' ob lab /\ shows s ob lab
    /\ forall lab', shows s' ob lab' -> lab' = lab.
Proof.
  intros s l s' U H. destruct (user_agrees s U) as (L & o & A & O & _). destruct (history_agrees L l s o s' A O H) as (A' & o' & O' & I').
  exists o'. split; [exact O'|]. intros ob I. exists (L ob).
  split; [apply (agrees_shows L s' o'); [exact A'|exact O'|split; [exact I|reflexivity]]|].
  split; [apply (agrees_shows L s o); [exact A|exact O|split; [exact (I' ob I)|reflexivity]]|].
  intros lab' X. apply (agrees_shows L s' o' ob lab' A' O') in X. apply X.
Qed.

(** C97: the single label is that of the only observable; with several observables it is refused. *)
Theorem C97_single : forall s o, from_user s -> c_obs (ls_coords s) = Some o ->
  match o with
  | [ob] => exists lab, label s = Ok lab /\ shows s ob lab
  | _ => label s = Err ValueError
  end.
Proof.
  intros s o U O. destruct (user_agrees s U) as (L & o' & A & O' & _). assert (o' = o) by congruence. subst o'.
  assert (NE : o <> []).
  { destruct U as (c & o2 & l & O2 & NE & _ & H). unfold make_lspace in H. destruct (match l with Some _ => _ | None => _ end) in H; [discriminate H|].
    injection H as <-. cbn in O. congruence. }
  unfold label, n_obs. rewrite O, (agrees_labels L s o A O). destruct o as [|ob [|x o]]; [contradiction| |reflexivity].
  exists (L ob). split; [reflexivity|]. apply (agrees_shows L s [ob]); [exact A|exact O|]. split; [left; reflexivity|reflexivity].
Qed.

Lemma add_new_in (new : list string) : forall have x, In x (add_new String.eqb have new) <-> In x have \/ In x new.
Proof.
  induction new as [|y new IH]; intros have x; cbn [add_new]; [split; [left; assumption|intros [H|[]]; exact H]|].
  rewrite IH. destruct (mem String.eqb y have) eqn:M.
  - apply (mem_In _ string_eqb_ok) in M. split; intros [H|H]; [left; exact H|right; right; exact H|left; exact H|destruct H as [<-|H]; [left; exact M|right; exact H]].
  - rewrite in_app_iff. cbn. tauto.
Qed.
Lemma common_in (l : list (option (list string))) : forall have o x, common String.eqb have l = Some o ->
  (In x o <-> In x have \/ exists p, In (Some p) l /\ In x p).
Proof.
  induction l as [|[p|] l IH]; intros have o x H; cbn [common] in H; [injection H as <-; split; [left; assumption|intros [I|(p & [] & _)]; exact I]| |discriminate H].
  rewrite (IH _ _ x H), add_new_in. split.
  - intros [[I|I]|(p' & I & J)]; [left; exact I|right; exists p; split; [left; reflexivity|exact I]|right; exists p'; split; [right; exact I|exact J]].
  - intros [I|(p' & [E|I] & J)]; [left; left; exact I|left; right; congruence|right; exists p'; split; assumption].
Qed.

Definition from_map (L : string -> string) (m : list (string * string)) : Prop := forall k v, In (k, v) m -> v = L k.
Lemma lookup_from_map L m ob v : from_map L m -> lookup String.eqb ob m = Some v -> v = L ob.
Proof. intros F H. apply F. exact (lookup_in _ string_eqb_ok _ _ _ H). Qed.

(** A space of a user stores labels for its observables only. *)
Lemma user_stored s : from_user s -> exists o d, c_obs (ls_coords s) = Some o /\ ls_stored s = ByObs d /\ NoDup o
  /\ (forall k v, In (k, v) d -> In k o /\ shows s k v).
Proof.
  intros U. assert (U' := U). destruct U' as (c & o & l & O & _ & ND & H).
  destruct (user_agrees s U) as (L & o' & A & O' & _). assert (A' := A). destruct A' as (o2 & d & O2 & D & F).
  assert (K : exists t, d = combine o t /\ ls_coords s = c).
  { unfold make_lspace in H. rewrite O in H. destruct (match l with Some _ => _ | None => _ end) in H; [discriminate H|]. injection H as <-. cbn in D. injection D as <-. eexists. split; reflexivity. }
  destruct K as (t & -> & C). assert (o' = o) by congruence. assert (o2 = o) by congruence. subst o' o2.
  exists o, (combine o t). split; [exact O'|]. split; [exact D|]. split; [exact ND|]. intros k v I. assert (J := in_combine_l _ _ _ _ I). split; [exact J|].
  apply (agrees_shows L s o k v A O'). split; [exact J|].
  assert (X : lookup String.eqb k (combine o t) = Some v).
  { clear - ND I. revert t I. induction o as [|x o IH]; intros [|y t] I; try destruct I; inversion ND; subst; cbn.
    - injection H as -> ->. rewrite String.eqb_refl. reflexivity.
    - destruct (String.eqb k x) eqn:E; [apply String.eqb_eq in E; subst; apply in_combine_l in H; contradiction|]. apply IH; assumption. }
  specialize (F k J). congruence.
Qed.

Lemma all_labels_ok l : forall m r, Forall from_user l -> all_labels m l = Ok r ->
  (forall k v, In (k, v) r -> In (k, v) m \/ exists s, In s l /\ shows s k v).
Proof.
  induction l as [|s l IH]; intros m r F H k v I; cbn [all_labels] in H; [injection H as <-; left; exact I|]. inversion F; subst.
  destruct (user_stored s) as (o & d & _ & D & _ & K); [assumption|]. rewrite D in H.
  destruct (IH _ _ ltac:(assumption) H k v I) as [J|(s' & J & X)]; [|right; exists s'; split; [right; exact J|exact X]].
  apply in_app_iff in J. destruct J as [J|J]; [|left; exact J]. right. exists s. split; [left; reflexivity|]. apply K. exact J.
Qed.

(** C97 (partial): a combination shows for each observable the label it has in one of the spaces, in particular the
    common one if they agree. Missing: if they do not agree a label given by the user is preferred. *)
Theorem C97_combine_partial : forall l s, l <> [] -> Forall from_user l -> combine_spaces l = Ok s ->
  (forall ob lab, shows s ob lab -> exists t, In t l /\ shows t ob lab)
  /\ (forall t ob lab, In t l -> shows t ob lab -> (forall t' lab', In t' l -> shows t' ob lab' -> lab' = lab) -> shows s ob lab).
Proof.
  intros l s N F H. unfold combine_spaces in H. destruct (all_labels [] l) as [m|] eqn:M; [|discriminate H]. cbn [bind] in H.
  assert (K := all_labels_ok l [] m F M).
  destruct (common String.eqb [] (map (fun s => c_obs (ls_coords s)) l)) as [[|ob0 o0]|] eqn:C.
  2: { set (o := ob0 :: o0) in *. destruct (labels_for (ByObs m) o) as [lab0|] eqn:E; [|discriminate H]. cbn [bind] in H.
    destruct (make_coords (Some o) None) as [c|] eqn:Mc; [|discriminate H]. cbn [bind] in H. apply make_coords_obs in Mc.
    assert (G : forall ob, In ob o -> lookup String.eqb ob m = Some (fun_of m ob)).
    { intros ob I. unfold fun_of. destruct (lookup String.eqb ob m) eqn:Lk; [reflexivity|]. exfalso.
      unfold labels_for in E. apply mapM_ok in E. destruct (Forall2_In_l _ _ _ ob E I) as (b & _ & Q). cbn in Q. rewrite Lk in Q. discriminate Q. }
    rewrite (labels_for_agrees (fun_of m) m o G) in E. injection E as <-.
    destruct (make_agrees (fun_of m) c o s Mc H) as (A & O).
    assert (P1 : forall ob lab, shows s ob lab -> exists t, In t l /\ shows t ob lab).
    { intros ob lab X. apply (agrees_shows _ s o ob lab A O) in X. destruct X as (I & ->). specialize (G ob I). apply (lookup_in _ string_eqb_ok) in G.
      destruct (K _ _ G) as [[]|Q]. exact Q. }
    split; [exact P1|]. intros t ob lab I X U.
    assert (Io : In ob o).
    { apply (common_in _ [] o ob C). right. destruct X as (p & q & k & P & _ & Kk & _). exists p. split; [|exact (nth_error_In _ _ Kk)].
      apply in_map_iff. exists t. split; [exact P|exact I]. }
    assert (Y : shows s ob (fun_of m ob)) by (apply (agrees_shows _ s o ob _ A O); split; [exact Io|reflexivity]).
    destruct (P1 _ _ Y) as (t' & I' & X'). rewrite <- (U t' _ I' X'). exact Y. }
  - exfalso. destruct l as [|t l]; [contradiction|]. inversion F as [|? ? (c & o & lb & O & NE & ND & Hc) F']; subst.
    assert (Ct : ls_coords t = c) by (unfold make_lspace in Hc; destruct (match lb with Some _ => _ | None => _ end) in Hc; [discriminate Hc|]; injection Hc as <-; reflexivity).
    destruct o as [|ob o]; [contradiction|].
    assert (B : In ob []); [|destruct B]. apply (common_in _ [] [] ob C). right. exists (ob :: o). split; [|left; reflexivity]. left. rewrite Ct. exact O.
  - exfalso. clear - F C. revert C. generalize (@nil string). induction F as [|t l U F IH]; intros h C; [discriminate C|].
    destruct (user_agrees t U) as (L & o & _ & O & _). cbn [map] in C. rewrite O in C. exact (IH _ C).
Qed.

Lemma lookup_app (a b : list (string * string)) k : lookup String.eqb k (a ++ b) = match lookup String.eqb k a with Some v => Some v | None => lookup String.eqb k b end.
Proof. induction a as [|(x & y) a IH]; [reflexivity|]. cbn. destruct (String.eqb k x); [reflexivity|exact IH]. Qed.
Lemma user_lookup s o d ob : from_user s -> c_obs (ls_coords s) = Some o -> ls_stored s = ByObs d ->
  (forall lab, shows s ob lab <-> lookup String.eqb ob d = Some lab) /\ (In ob o <-> exists lab, lookup String.eqb ob d = Some lab).
Proof.
  intros U O D. destruct (user_agrees s U) as (L & o' & A & O' & _). assert (o' = o) by congruence. subst o'.
  destruct (user_stored s U) as (o2 & d2 & O2 & D2 & _ & K). assert (o2 = o) by congruence. assert (d2 = d) by congruence. subst o2 d2.
  assert (A' := A). destruct A' as (o3 & d3 & O3 & D3 & F). assert (o3 = o) by congruence. assert (d3 = d) by congruence. subst o3 d3.
  split.
  - intros lab. split.
    + intros X. apply (agrees_shows L s o ob lab A O) in X. destruct X as (I & ->). exact (F ob I).
    + intros X. apply (lookup_in _ string_eqb_ok) in X. apply K in X. apply X.
  - split; [intros I; eexists; exact (F ob I)|]. intros (lab & X). apply (lookup_in _ string_eqb_ok) in X. apply K in X. apply X.
Qed.
Lemma all_labels_total l : forall m, Forall from_user l -> exists r, all_labels m l = Ok r
  /\ (forall ob, (forall t o, In t l -> c_obs (ls_coords t) = Some o -> ~ In ob o) -> lookup String.eqb ob r = lookup String.eqb ob m)
  /\ (forall t l1 l2 ob lab, l = l1 ++ t :: l2 -> shows t ob lab -> (forall t' o, In t' l2 -> c_obs (ls_coords t') = Some o -> ~ In ob o) ->
        lookup String.eqb ob r = Some lab)
  /\ (forall ob, (exists v, lookup String.eqb ob m = Some v) \/ (exists t o, In t l /\ c_obs (ls_coords t) = Some o /\ In ob o) -> exists v, lookup String.eqb ob r = Some v).
Proof.
  induction l as [|s l IH]; intros m F; cbn [all_labels].
  - exists m. split; [reflexivity|]. split; [reflexivity|]. split; [intros t [|? ?] l2 ob lab E; discriminate E|].
    intros ob [H|(t & o & [] & _)]. exact H.
  - inversion F as [|? ? U F']; subst. destruct (user_stored s U) as (o & d & O & D & _ & _). rewrite D.
    destruct (IH (d ++ m) F') as (r & R & R1 & R2 & R3). exists r. split; [exact R|]. split; [|split].
    + intros ob N. rewrite R1 by (intros t p I; apply N; right; exact I). rewrite lookup_app.
      destruct (lookup String.eqb ob d) eqn:E; [|reflexivity]. exfalso. apply (N s o (or_introl eq_refl) O).
      apply (user_lookup s o d ob U O D). eexists. exact E.
    + intros t [|s' l1] l2 ob lab E X N; cbn in E; injection E as -> ->.
      * rewrite R1 by exact N. rewrite lookup_app. rewrite (proj1 (proj1 (user_lookup t o d ob U O D) lab) X). reflexivity.
      * exact (R2 t l1 l2 ob lab eq_refl X N).
    + intros ob H. apply R3. rewrite lookup_app. destruct H as [(v & V)|(t & p & [<-|I] & P & J)].
      * left. destruct (lookup String.eqb ob d); [eexists; reflexivity|exists v; exact V].
      * left. assert (p = o) by congruence. subst p. apply (user_lookup s o d ob U O D) in J. destruct J as (v & ->). eexists. reflexivity.
      * right. exists t, p. split; [exact I|]. split; [exact P|exact J].
Qed.
Lemma common_total (l : list lspace) : Forall from_user l -> forall h, exists o, common String.eqb h (map (fun s => c_obs (ls_coords s)) l) = Some o.
Proof.
  induction 1 as [|t l U F IH]; intros h; [eexists; reflexivity|]. destruct (user_agrees t U) as (L & o & _ & O & _). cbn [map common]. rewrite O. apply IH.
Qed.

(** C97: spaces with observables can always be combined as far as labels are concerned, and what an observable shows
    is its label in the last of the spaces that have it. *)
Theorem C97_combine_last : forall l, l <> [] -> Forall from_user l -> exists s, combine_spaces l = Ok s
  /\ forall l1 t l2 ob lab, l = l1 ++ t :: l2 -> shows t ob lab -> (forall t' o, In t' l2 -> c_obs (ls_coords t') = Some o -> ~ In ob o) -> shows s ob lab.
Proof.
  intros l N F. destruct (all_labels_total l [] F) as (m & M & _ & Last & All). destruct (common_total l F []) as (o & C).
  assert (NE : o <> []).
  { destruct l as [|t l]; [contradiction|]. inversion F as [|? ? U F']; subst. destruct U as (c & p & lb & P & NE & _ & H).
    assert (Ct : ls_coords t = c) by (unfold make_lspace in H; destruct (match lb with Some _ => _ | None => _ end) in H; [discriminate H|]; injection H as <-; reflexivity).
    destruct p as [|x p]; [contradiction|]. intros ->. assert (B : In x []); [|destruct B]. apply (common_in _ [] [] x C). right. exists (x :: p).
    split; [left; rewrite Ct; exact P|left; reflexivity]. }
  assert (G : forall ob, In ob o -> lookup String.eqb ob m = Some (fun_of m ob)).
  { intros ob I. unfold fun_of. destruct (All ob) as (v & ->); [|reflexivity]. right. apply (common_in _ [] o ob C) in I. destruct I as [[]|(p & I & J)].
    apply in_map_iff in I. destruct I as (t & P & I). exists t, p. split; [exact I|]. split; [exact P|exact J]. }
  unfold combine_spaces. rewrite M, C. cbn [bind]. destruct o as [|x o]; [contradiction|]. rewrite (labels_for_agrees (fun_of m) m (x :: o) G). cbn [bind].
  assert (Mc : make_coords (Some (x :: o)) None = Ok (mkCoords (Some (x :: o)) None)) by reflexivity. rewrite Mc. cbn [bind].
  destruct (make_lspace (mkCoords (Some (x :: o)) None) (Some (map (fun_of m) (x :: o)))) as [s|] eqn:H.
  - exists s. split; [reflexivity|]. destruct (make_agrees (fun_of m) (mkCoords (Some (x :: o)) None) (x :: o) s eq_refl H) as (A & O). intros l1 t l2 ob lab E X Q.
    apply (agrees_shows _ s (x :: o) ob lab A O). assert (K := Last t l1 l2 ob lab E X Q). split; [|unfold fun_of; rewrite K; reflexivity].
    apply (common_in _ [] (x :: o) ob C). right. destruct X as (p & q & k & P & _ & Kk & _). exists p. split; [|exact (nth_error_In _ _ Kk)].
    apply in_map_iff. exists t. split; [exact P|]. rewrite E. apply in_or_app. right. left. reflexivity.
  - exfalso. unfold make_lspace, n_obs in H. cbn [c_obs] in H. rewrite map_length, Nat.eqb_refl in H. discriminate H.
Qed.

Definition cx : coords := mkCoords (Some ["m"; "t"]) (Some [0%Z; 1%Z]).
Definition sx : lspace := LSpace cx (ByObs [("m", "mass"); ("t", "time")]).
Lemma sx_user : from_user sx.
Proof.
  exists cx, ["m"; "t"], (Some ["mass"; "time"]). split; [reflexivity|]. split; [discriminate|]. split; [|reflexivity].
  constructor; [intros [E|[]]; discriminate E|]. constructor; [intros []|constructor].
Qed.
Example C97_history_applies : from_user sx /\ exists s', history sx [Limits; Observables ["t"; "m"] false false; Axes (Some [0%Z; 1%Z]) true true; PartByAxes [1%Z]; Axes None true true] = Ok s' /\ shows s' "t" "time".
Proof. split; [exact sx_user|]. eexists. split; [reflexivity|]. exists ["t"], ["time"], 0. repeat split. Qed.

Definition sm : lspace := LSpace (mkCoords (Some ["m"]) None) (ByObs [("m", "m")]).
Lemma sm_user : from_user sm.
Proof. exists (mkCoords (Some ["m"]) None), ["m"], None. split; [reflexivity|]. split; [discriminate|]. split; [|reflexivity]. constructor; [intros []|constructor]. Qed.
Example C97_single_applies : label sm = Ok "m" /\ label sx = Err ValueError.
Proof. split; reflexivity. Qed.
Example C97_combine_applies : exists s, combine_spaces [sx; sx] = Ok s /\ shows s "m" "mass".
Proof. eexists. split; [reflexivity|]. exists ["m"; "t"], ["mass"; "time"], 0. repeat split. Qed.

(** REFUTED: "a label that was given is kept in combinations". The last space wins, even if it was made without labels. *)
Theorem C97_combine_refuted : exists s, from_user sx /\ from_user sm /\ make_lspace (mkCoords (Some ["m"]) None) None = Ok sm
  /\ shows sx "m" "mass" /\ combine_spaces [sx; sm] = Ok s /\ shows s "m" "m".
Proof.
  eexists. split; [exact sx_user|]. split; [exact sm_user|]. split; [reflexivity|]. split; [exists ["m"; "t"], ["mass"; "time"], 0; repeat split|].
  split; [reflexivity|]. exists ["m"; "t"], ["m"; "time"], 0. repeat split.
Qed.

(** REFUTED: "the labels are kept if the observables are taken away and given again". They are kept inside but not used;
    and a space with axes only that has been given labels can not be combined with any space. *)
Theorem C97_dropped_refuted : exists s t, space_with_obs sx None true true = Ok s /\ space_with_obs s (Some ["m"; "t"]) true true = Ok t
  /\ shows sx "m" "mass" /\ shows t "m" "m"
  /\ (forall l, combine_spaces (s :: l) = Err ValueError)
  /\ label (LSpace (mkCoords None (Some [0%Z])) (Loose ["mass"])) = Err TypeError.
Proof.
  eexists. eexists. split; [reflexivity|]. split; [reflexivity|]. split; [exists ["m"; "t"], ["mass"; "time"], 0; repeat split|].
  split; [exists ["m"; "t"], ["m"; "t"], 0; repeat split|]. split; [intros l; reflexivity|reflexivity].
Qed.

(** C97: without observables there are no labels, and the observables given later are their own labels. *)
Theorem C97_axes_only : forall s a o sup sub, c_obs (ls_coords s) = None -> c_axes (ls_coords s) = Some a -> o <> [] -> length o = length a ->
  labels s = Ok None /\ exists t, space_with_obs s (Some o) sup sub = Ok t /\ forall ob, In ob o -> shows t ob ob.
Proof.
  intros s a o sup sub O A NE E. unfold labels. rewrite O. split; [reflexivity|]. unfold space_with_obs, with_obs. rewrite O, A.
  assert (M : make_coords (Some o) (Some a) = Ok (mkCoords (Some o) (Some a))).
  { unfold make_coords. rewrite E, Nat.eqb_refl. cbn [negb]. destruct o; [contradiction|reflexivity]. }
  rewrite M. cbn [bind]. unfold new_labels, labels. rewrite O. cbn [bind].
  eexists. split; [reflexivity|]. intros ob I.
  assert (G : agrees (fun x => x) (LSpace (mkCoords (Some o) (Some a)) (ByObs (combine o o)))).
  { exists o, (combine o o). split; [reflexivity|]. split; [reflexivity|]. intros x J. assert (Q := lookup_combine_map (fun x => x) o x J). rewrite map_id in Q. exact Q. }
  apply (agrees_shows (fun x => x) _ o ob ob G eq_refl). split; [exact I|reflexivity].
Qed.
