(** Reordering of binned data, continued: contents by name. *)
From Verif Require Import Base BaseLemmas Hist_Model Hist_Spec Hist_Proofs.
From Coq Require Import Sorted Permutation.

Lemma order_in_same own req : NoDup req -> incl own req ->
  NoDup (order_in own req) /\ forall o, In o own <-> In o (order_in own req).
Proof.
  intros N I. split; [apply NoDup_filter, N|]. intros o. unfold order_in. rewrite filter_In.
  rewrite (mem_In String.eqb string_eqb_ok). split; [|tauto]. intros H. split; [apply I, H|exact H].
Qed.

Lemma all_some_map_total {A B} (f : A -> option B) l :
  (forall x, In x l -> exists y, f x = Some y) -> exists r, all_some (map f l) = Some r.
Proof.
  induction l as [|x l IH]; intros H; [exists []; reflexivity|].
  destruct (H x) as [y Hy]; [left; reflexivity|].
  destruct IH as [r Hr]; [intros z Hz; apply H; right; exact Hz|].
  exists (y :: r). cbn. rewrite Hy, Hr. reflexivity.
Qed.

Lemma all_some_map_nth {A B} (f : A -> option B) l r k x :
  all_some (map f l) = Some r -> nth_error l k = Some x -> nth_error r k = f x.
Proof.
  revert r k. induction l as [|a l IH]; intros r k H E; [destruct k; discriminate|].
  cbn in H. destruct (f a) as [b|] eqn:Ea; [|discriminate].
  destruct (all_some (map f l)) as [r'|] eqn:Er; [|discriminate]. injection H as H. subst r.
  destruct k as [|k]; cbn in *; [congruence|]. apply IH; [reflexivity|exact E].
Qed.

Lemma all_some_map_length {A B} (f : A -> option B) l r :
  all_some (map f l) = Some r -> length r = length l.
Proof.
  intros H. apply all_some_forall2, Forall2_length' in H. rewrite map_length in H. congruence.
Qed.

Lemma space_with_obs s req :
  space_ok s -> NoDup req -> (exists o, In o (b_obs s) /\ In o req) ->
  exists sg es, positions (b_obs s) (order_in (b_obs s) req) sg /\
    length es = length (order_in (b_obs s) req) /\
    (forall i j, nth_error sg i = Some j -> nth_error es i = nth_error (b_edges s) j) /\
    bspace_with_obs s req = Ok (BSpace (order_in (b_obs s) req) es).
Proof.
  intros [N LE] NR [o [Ho1 Ho2]]. unfold bspace_with_obs.
  replace (intersectsb String.eqb req (b_obs s)) with true
    by (symmetry; apply (intersectsb_iff String.eqb string_eqb_ok); exists o; split; assumption).
  cbn [negb]. fold (order_in (b_obs s) req). set (new := order_in (b_obs s) req).
  assert (IN : incl new (b_obs s)).
  { intros x Hx. unfold new, order_in in Hx. apply filter_In in Hx. destruct Hx as [_ Hx].
    apply (mem_In String.eqb string_eqb_ok) in Hx. exact Hx. }
  destruct (positions_total _ _ IN) as [sg P].
  assert (KF : map fst (combine (b_obs s) (b_edges s)) = b_obs s) by (apply combine_fst; congruence).
  destruct (all_some_map_total (fun o => lookup String.eqb o (combine (b_obs s) (b_edges s))) new) as [es E].
  { intros x Hx. apply (lookup_some_key String.eqb string_eqb_ok). rewrite KF. apply IN, Hx. }
  exists sg, es. rewrite E. split; [exact P|split; [apply (all_some_map_length _ _ _ E)|split; [|reflexivity]]].
  intros i j Hij.
  assert (Hl : i < length new) by (rewrite <- (positions_length _ _ _ P); apply nth_error_Some; congruence).
  destruct (nth_error new i) as [x|] eqn:Ex; [|apply nth_error_None in Ex; lia].
  rewrite (all_some_map_nth _ _ _ _ _ E Ex).
  destruct (positions_nth _ _ _ _ _ P Ex) as [j' [Hj1 Hj2]].
  assert (j' = j) by congruence. subst j'.
  destruct (nth_error (b_edges s) j) as [e|] eqn:Ee.
  - apply (lookup_nodup String.eqb string_eqb_ok).
    + rewrite KF. exact N.
    + apply nth_error_In with j. apply combine_nth_error2; assumption.
  - apply nth_error_None in Ee. rewrite LE in Ee.
    assert (j < length (b_obs s)) by (apply nth_error_Some; congruence). lia.
Qed.

Lemma holder_rank h : holder_ok h -> length (t_shape (h_values h)) = length (b_obs (h_space h)).
Proof. intros [[_ L] [S _]]. rewrite S, map_length. exact L. Qed.

Lemma order_in_length own req : NoDup own -> NoDup req -> incl own req ->
  length (order_in own req) = length own.
Proof.
  intros N1 N2 I. destruct (order_in_same own req N2 I) as [N S].
  apply Permutation_length, NoDup_Permutation; [exact N|exact N1|]. intros o. symmetry. apply S.
Qed.

Definition mvar (n : nat) (sg : list nat) (var : option tensor) : option tensor :=
  match var with None => None | Some w => Some (moveaxis w (seq 0 n) sg) end.

Lemma with_obs_form h req :
  holder_ok h -> NoDup req -> incl (b_obs (h_space h)) req -> b_obs (h_space h) <> [] ->
  let own := b_obs (h_space h) in let n := length own in
  exists sg es, positions own (order_in own req) sg /\ is_perm n sg /\
    length es = n /\
    (forall i j, nth_error sg i = Some j -> nth_error es i = nth_error (b_edges (h_space h)) j) /\
    holder_with_obs h req
    = make_holder (BSpace (order_in own req) es) (moveaxis (h_values h) (seq 0 n) sg) (mvar n sg (h_variances h)).
Proof.
  intros OK N I NE own n. destruct OK as [SO [SH SV]].
  assert (EX : exists o, In o own /\ In o req).
  { subst own. destruct (b_obs (h_space h)) as [|o r] eqn:E; [congruence|].
    exists o. split; [left; reflexivity|]. apply I. left. reflexivity. }
  destruct (space_with_obs (h_space h) req SO N EX) as [sg [es [P [LE [HE W]]]]].
  destruct SO as [NO LO].
  destruct (order_in_same own req N I) as [N2 S2].
  exists sg, es. split; [exact P|split; [apply (positions_perm own _ sg NO N2 S2 P)|]].
  pose proof (order_in_length own req NO N I) as LL. fold own in LE.
  split; [unfold n; congruence|split; [exact HE|]].
  unfold holder_with_obs. rewrite W. cbn [bind b_obs]. unfold move_axis_obs.
  fold own. fold own in P. unfold positions in P. rewrite P. cbn [bind opt_result fst snd].
  rewrite LL. reflexivity.
Qed.

Lemma mvar_shape h sg :
  holder_ok h -> is_perm (length (b_obs (h_space h))) sg ->
  forall w, mvar (length (b_obs (h_space h))) sg (h_variances h) = Some w ->
  t_shape w = t_shape (moveaxis (h_values h) (seq 0 (length (b_obs (h_space h)))) sg).
Proof.
  intros OK P w H. destruct OK as [SO [SH SV]]. unfold mvar in H.
  destruct (h_variances h) as [v|] eqn:E; [|discriminate]. injection H as H. subst w.
  unfold moveaxis, transpose. cbn [t_shape]. rewrite (SV _ eq_refl). reflexivity.
Qed.

(** What the shape check of the constructor compares. *)
Lemma shape_condition h sg es :
  holder_ok h -> is_perm (length (b_obs (h_space h))) sg -> length es = length (b_obs (h_space h)) ->
  (forall i j, nth_error sg i = Some j -> nth_error es i = nth_error (b_edges (h_space h)) j) ->
  map (fun e => length e - 1) es = t_shape (moveaxis (h_values h) (seq 0 (length (b_obs (h_space h)))) sg)
  <-> forall i j k, nth_error sg i = Some j -> nth_error sg j = Some k ->
        nth_error (t_shape (h_values h)) i = nth_error (t_shape (h_values h)) k.
Proof.
  intros OK P LE HE. pose proof (holder_rank h OK) as R. destruct OK as [SO [SH SV]].
  set (n := length (b_obs (h_space h))) in *. set (t := h_values h) in *.
  assert (PT : is_perm (length (t_shape t)) sg) by (rewrite R; exact P).
  assert (E1 : forall j k, nth_error sg j = Some k ->
             nth_error (map (fun e => length e - 1) es) j = nth_error (t_shape t) k).
  { intros j k H. rewrite nth_error_map, (HE _ _ H), SH, nth_error_map. reflexivity. }
  assert (E2 : forall i j, nth_error sg i = Some j ->
             nth_error (t_shape (moveaxis t (seq 0 n) sg)) j = nth_error (t_shape t) i).
  { intros i j H. rewrite <- R. apply moveaxis_shape; assumption. }
  split.
  - intros E i j k H1 H2. rewrite <- (E1 _ _ H2), E, (E2 _ _ H1). reflexivity.
  - intros C. apply nth_error_ext. intros j.
    destruct (Nat.lt_ge_cases j n) as [Hj|Hj].
    + destruct (is_perm_onto n sg j P Hj) as [i Hi].
      destruct (nth_error sg j) as [k|] eqn:Ek; [|apply nth_error_None in Ek; rewrite (is_perm_length _ _ P) in Ek; lia].
      rewrite (E1 _ _ Ek), (E2 _ _ Hi). symmetry. apply (C _ _ _ Hi Ek).
    + rewrite (proj2 (nth_error_None _ j)) by (rewrite map_length, LE; exact Hj).
      symmetry. apply nth_error_None. rewrite <- R, moveaxis_shape_length by exact PT. rewrite R. exact Hj.
Qed.

(** [sg] is its own inverse exactly for an exchange of places. *)
Lemma trades_involution own new sg :
  NoDup own -> NoDup new -> (forall o, In o own <-> In o new) -> positions own new sg ->
  trades_places own new ->
  forall i j, nth_error sg i = Some j -> nth_error sg j = Some i.
Proof.
  intros N1 N2 S P T i j H. pose proof (positions_perm own new sg N1 N2 S P) as PP.
  assert (LL : length new = length own) by (rewrite <- (positions_length _ _ _ P); apply (is_perm_length _ _ PP)).
  assert (Hi : i < length new) by (rewrite <- (positions_length _ _ _ P); apply nth_error_Some; congruence).
  destruct (nth_error new i) as [o|] eqn:Eo; [|apply nth_error_None in Eo; lia].
  destruct (positions_nth _ _ _ _ _ P Eo) as [j' [Hj1 Hj2]].
  assert (j' = j) by congruence. subst j'.
  (* o is at j in own and at i in new *)
  assert (Hj : j < length own) by (apply nth_error_Some; congruence).
  destruct (nth_error own i) as [o'|] eqn:Eo'; [|apply nth_error_None in Eo'; lia].
  pose proof (T j i o o' Hj2 Eo Eo') as Q.
  destruct (positions_nth _ _ _ _ _ P Q) as [i' [Hi1 Hi2]].
  assert (i' = i); [|congruence].
  apply (proj1 (NoDup_nth_error own) N1); [apply nth_error_Some; congruence|congruence].
Qed.

(** Contents after a reordering: general description. *)
Lemma moved_content own new sg t f :
  NoDup own -> NoDup new -> (forall o, In o own <-> In o new) -> positions own new sg ->
  length (t_shape t) = length own ->
  content new (moveaxis t (seq 0 (length own)) sg) f = t_get t (map (fun j => f (nth j new ""%string)) sg).
Proof.
  intros N1 N2 S P R. unfold content. pose proof (positions_perm own new sg N1 N2 S P) as PP.
  rewrite <- R in *. rewrite moveaxis_get by exact PP. f_equal. apply map_ext_in. intros j Hj.
  assert (LL : length new = length (t_shape t)) by (rewrite <- (positions_length _ _ _ P); apply (is_perm_length _ _ PP)).
  pose proof (is_perm_lt _ _ _ PP Hj) as Hlt.
  rewrite (nth_indep _ 0 (f ""%string)) by (rewrite map_length, LL; exact Hlt).
  apply map_nth.
Qed.

Lemma traded_content own new sg t f :
  NoDup own -> NoDup new -> (forall o, In o own <-> In o new) -> positions own new sg ->
  length (t_shape t) = length own -> trades_places own new ->
  content new (moveaxis t (seq 0 (length own)) sg) f = content own t f.
Proof.
  intros N1 N2 S P R T. rewrite (moved_content own new sg t f N1 N2 S P R). unfold content. f_equal.
  pose proof (positions_perm own new sg N1 N2 S P) as PP.
  apply nth_error_ext. intros i. rewrite !nth_error_map.
  destruct (nth_error sg i) as [j|] eqn:Ej.
  - pose proof (trades_involution own new sg N1 N2 S P T i j Ej) as Ji.
    assert (Hi : i < length new) by (rewrite <- (positions_length _ _ _ P); apply nth_error_Some; congruence).
    assert (Hj : j < length new) by (rewrite <- (positions_length _ _ _ P); apply nth_error_Some; congruence).
    destruct (nth_error new j) as [o|] eqn:Eo; [|apply nth_error_None in Eo; lia].
    destruct (positions_nth _ _ _ _ _ P Eo) as [i' [Hi1 Hi2]].
    assert (i' = i) by congruence. subst i'. rewrite Hi2. cbn.
    rewrite (nth_error_nth _ _ _ Eo). reflexivity.
  - apply nth_error_None in Ej. rewrite (is_perm_length _ _ PP) in Ej.
    rewrite (proj2 (nth_error_None own i) Ej). reflexivity.
Qed.

Lemma edges_kept own edges new es sg :
  NoDup own -> length edges = length own -> positions own new sg -> length es = length new ->
  (forall i j, nth_error sg i = Some j -> nth_error es i = nth_error edges j) ->
  (forall o, In o own <-> In o new) -> NoDup new ->
  forall o e, edges_of (BSpace own edges) o e <-> edges_of (BSpace new es) o e.
Proof.
  intros N L P LE HE S N2 o e. unfold edges_of. cbn. split; intros [k [H1 H2]].
  - assert (I : In o new) by (apply S; apply nth_error_In with k; exact H1).
    apply In_nth_error in I. destruct I as [i Hi].
    destruct (positions_nth _ _ _ _ _ P Hi) as [j [Hj1 Hj2]].
    assert (j = k).
    { apply (proj1 (NoDup_nth_error own) N); [apply nth_error_Some; congruence|congruence]. }
    subst j. exists i. split; [exact Hi|]. rewrite (HE _ _ Hj1). exact H2.
  - destruct (positions_nth _ _ _ _ _ P H1) as [j [Hj1 Hj2]].
    exists j. split; [exact Hj2|]. rewrite <- (HE _ _ Hj1). exact H2.
Qed.

(** ** Results *)
Lemma with_obs_trades h req :
  holder_ok h -> NoDup req -> incl (b_obs (h_space h)) req -> b_obs (h_space h) <> [] ->
  trades_places (b_obs (h_space h)) (order_in (b_obs (h_space h)) req) ->
  exists h', holder_with_obs h req = Ok h' /\ holder_ok h' /\
    b_obs (h_space h') = order_in (b_obs (h_space h)) req /\
    (forall o e, edges_of (h_space h) o e <-> edges_of (h_space h') o e) /\
    (forall f, content (b_obs (h_space h')) (h_values h') f = content (b_obs (h_space h)) (h_values h) f) /\
    (forall f, var_content (b_obs (h_space h')) (h_variances h') f
               = var_content (b_obs (h_space h)) (h_variances h) f).
Proof.
  intros OK N I NE T. pose proof (holder_rank h OK) as R.
  destruct (with_obs_form h req OK N I NE) as [sg [es [P [PP [LE [HE W]]]]]].
  assert (SO : space_ok (h_space h)) by (destruct OK; assumption). destruct SO as [NO LO].
  destruct (order_in_same _ req N I) as [N2 S2].
  set (own := b_obs (h_space h)) in *. set (new := order_in own req) in *.
  assert (LL : length new = length own) by (rewrite <- (positions_length _ _ _ P); apply (is_perm_length _ _ PP)).
  assert (C : map (fun e => length e - 1) es = t_shape (moveaxis (h_values h) (seq 0 (length own)) sg)).
  { apply shape_condition; try assumption. intros i j k H1 H2.
    pose proof (trades_involution own new sg NO N2 S2 P T i j H1). congruence. }
  assert (MV : forall w, mvar (length own) sg (h_variances h) = Some w ->
            t_shape w = t_shape (moveaxis (h_values h) (seq 0 (length own)) sg))
    by (apply mvar_shape; assumption).
  eexists. split; [rewrite W; apply make_holder_ok; [exact MV|exact C]|].
  cbn [h_space h_values h_variances b_obs].
  split; [split; [|split]|].
  - split; cbn [h_space b_obs b_edges]; [exact N2|congruence].
  - cbn. symmetry. exact C.
  - cbn. exact MV.
  - split; [reflexivity|split; [|split]].
    + replace (h_space h) with (BSpace own (b_edges (h_space h))) by (unfold own; destruct (h_space h); reflexivity).
      apply edges_kept with (sg := sg); try assumption; congruence.
    + intros f. apply traded_content; assumption.
    + intros f. unfold mvar. destruct OK as [_ [_ SV]]. destruct (h_variances h) as [w|] eqn:Ew; [|reflexivity].
      cbn. f_equal. apply traded_content; try assumption. rewrite (SV _ eq_refl). exact R.
Qed.

(** One or two observables can only trade places. *)
Lemma two_trade own new :
  NoDup own -> NoDup new -> (forall o, In o own <-> In o new) -> length own <= 2 -> trades_places own new.
Proof.
  intros N1 N2 S L.
  assert (LL : length new = length own)
    by (apply Permutation_length, NoDup_Permutation; [exact N2|exact N1|intros o; symmetry; apply S]).
  intros i j o o' H1 H2 H3.
  destruct (Nat.eq_dec i j) as [E|E]; [subst j; congruence|].
  assert (Hi : i < length own) by (apply nth_error_Some; congruence).
  assert (Hj : j < length own) by (apply nth_error_Some; congruence).
  assert (I : In o' new) by (apply S; apply nth_error_In with j; exact H3).
  apply In_nth_error in I. destruct I as [k Hk].
  assert (Hkl : k < length new) by (apply nth_error_Some; congruence).
  assert (k = i); [|congruence].
  assert (k <> j); [|lia]. intros Ek. subst k.
  assert (o = o') by congruence. subst o'. apply E.
  apply (proj1 (NoDup_nth_error own) N1); [exact Hi|congruence].
Qed.

(** A reordering is accepted exactly when the bin numbers of the moved axes fit. *)
Lemma position_iff own new sg i j :
  NoDup own -> NoDup new -> (forall o, In o own <-> In o new) -> positions own new sg ->
  nth_error sg i = Some j <-> (i < length own /\ nth_error new i = nth_error own j).
Proof.
  intros N1 N2 S P. pose proof (positions_perm own new sg N1 N2 S P) as PP.
  assert (LL : length new = length own) by (rewrite <- (positions_length _ _ _ P); apply (is_perm_length _ _ PP)).
  split.
  - intros H. assert (Hi : i < length new) by (rewrite <- (positions_length _ _ _ P); apply nth_error_Some; congruence).
    split; [lia|]. destruct (nth_error new i) as [o|] eqn:Eo; [|apply nth_error_None in Eo; lia].
    destruct (positions_nth _ _ _ _ _ P Eo) as [j' [Hj1 Hj2]]. congruence.
  - intros [Hi E]. destruct (nth_error new i) as [o|] eqn:Eo; [|apply nth_error_None in Eo; lia].
    destruct (positions_nth _ _ _ _ _ P Eo) as [j' [Hj1 Hj2]].
    assert (j' = j); [|congruence].
    apply (proj1 (NoDup_nth_error own) N1); [apply nth_error_Some; congruence|congruence].
Qed.

Lemma with_obs_accepted h req :
  holder_ok h -> NoDup req -> incl (b_obs (h_space h)) req -> b_obs (h_space h) <> [] ->
  let own := b_obs (h_space h) in let new := order_in own req in
  ((exists h', holder_with_obs h req = Ok h') <-> fits own new (t_shape (h_values h))) /\
  (~ fits own new (t_shape (h_values h)) -> holder_with_obs h req = Err InvalidArgumentError).
Proof.
  intros OK N I NE own new. pose proof (holder_rank h OK) as R.
  destruct (with_obs_form h req OK N I NE) as [sg [es [P [PP [LE [HE W]]]]]].
  fold own in W, P, PP, LE. fold new in W, P.
  assert (SO : space_ok (h_space h)) by (destruct OK; assumption). destruct SO as [NO LO].
  destruct (order_in_same _ req N I) as [N2 S2]. fold own in N2, S2. fold new in N2, S2.
  assert (MV : forall w, mvar (length own) sg (h_variances h) = Some w ->
            t_shape w = t_shape (moveaxis (h_values h) (seq 0 (length own)) sg))
    by (apply mvar_shape; assumption).
  assert (SC : map (fun e => length e - 1) es = t_shape (moveaxis (h_values h) (seq 0 (length own)) sg)
               <-> fits own new (t_shape (h_values h))).
  { etransitivity; [apply shape_condition; assumption|]. unfold fits. split.
    - intros H i j k Hi Hj E1 E2. apply (H i j k).
      + apply (position_iff own new sg i j NO N2 S2 P). auto.
      + apply (position_iff own new sg j k NO N2 S2 P). auto.
    - intros H i j k E1 E2. apply (position_iff own new sg i j NO N2 S2 P) in E1.
      apply (position_iff own new sg j k NO N2 S2 P) in E2. destruct E1, E2. apply (H i j k); assumption. }
  split; [split|].
  - intros [h' E]. rewrite W in E. apply make_holder_inv in E. apply SC. apply E.
  - intros F. eexists. rewrite W. apply make_holder_ok; [exact MV|]. apply SC. exact F.
  - intros F. rewrite W. apply make_holder_shape_err; [exact MV| |intros E; apply F, SC, E].
    cbn [b_edges]. rewrite LE. unfold own. rewrite <- R, moveaxis_shape_length; [reflexivity|].
    rewrite R. exact PP.
Qed.

(** What is found in the bin [f] after any accepted reordering: the content of the bin whose
    number along the observable at place [i] is that of the observable which, in the new
    order, is at the former place of the new [i]-th one. *)
Lemma with_obs_content h req h' :
  holder_ok h -> NoDup req -> incl (b_obs (h_space h)) req -> b_obs (h_space h) <> [] ->
  holder_with_obs h req = Ok h' ->
  let own := b_obs (h_space h) in let new := order_in own req in
  b_obs (h_space h') = new /\
  (forall o e, edges_of (h_space h) o e <-> edges_of (h_space h') o e) /\
  forall f, exists idx, length idx = length own /\
    content new (h_values h') f = t_get (h_values h) idx /\
    forall i j o, nth_error new i = nth_error own j -> i < length own -> nth_error new j = Some o ->
      nth_error idx i = Some (f o).
Proof.
  intros OK N I NE E own new. pose proof (holder_rank h OK) as R.
  destruct (with_obs_form h req OK N I NE) as [sg [es [P [PP [LE [HE W]]]]]].
  fold own in W, P, PP, LE. fold new in W, P.
  assert (SO : space_ok (h_space h)) by (destruct OK; assumption). destruct SO as [NO LO].
  destruct (order_in_same _ req N I) as [N2 S2]. fold own in N2, S2. fold new in N2, S2.
  assert (LL : length new = length own) by (rewrite <- (positions_length _ _ _ P); apply (is_perm_length _ _ PP)).
  rewrite W in E. apply make_holder_inv in E. destruct E as [E _]. subst h'. cbn [h_space b_obs h_values].
  split; [reflexivity|split].
  - replace (h_space h) with (BSpace own (b_edges (h_space h))) by (unfold own; destruct (h_space h); reflexivity).
    apply edges_kept with (sg := sg); try assumption; congruence.
  - intros f. exists (map (fun j => f (nth j new ""%string)) sg).
    split; [rewrite map_length; apply (is_perm_length _ _ PP)|split].
    + apply moved_content; assumption.
    + intros i j o E1 Hi E2. rewrite nth_error_map.
      rewrite (proj2 (position_iff own new sg i j NO N2 S2 P)) by auto. cbn.
      rewrite (nth_error_nth _ _ _ E2). reflexivity.
Qed.

(** ** Round trip *)
Lemma moved_twice t sg1 sg2 :
  is_perm (length (t_shape t)) sg1 -> is_perm (length (t_shape t)) sg2 ->
  (forall i j, nth_error sg1 i = Some j -> nth_error sg2 j = Some i) ->
  same_tensor (moveaxis (moveaxis t (seq 0 (length (t_shape t))) sg1) (seq 0 (length (t_shape t))) sg2) t.
Proof.
  intros P1 P2 H. pose proof (moveaxis_shape_length t sg1 P1) as L1.
  set (t1 := moveaxis t (seq 0 (length (t_shape t))) sg1) in *.
  assert (P2' : is_perm (length (t_shape t1)) sg2) by (rewrite L1; exact P2).
  pose proof (moveaxis_shape_length t1 sg2 P2') as L2. rewrite L1 in L2 at 1.
  assert (INV : forall i, i < length (t_shape t) -> exists j, nth_error sg1 i = Some j /\ nth_error sg2 j = Some i /\ j < length (t_shape t)).
  { intros i Hi. destruct (nth_error sg1 i) as [j|] eqn:E.
    - exists j. split; [reflexivity|split; [apply H, E|]]. apply (is_perm_lt _ _ _ P1). apply nth_error_In with i. exact E.
    - apply nth_error_None in E. rewrite (is_perm_length _ _ P1) in E. lia. }
  assert (SH : t_shape (moveaxis t1 (seq 0 (length (t_shape t))) sg2) = t_shape t).
  { apply nth_error_ext. intros i. destruct (Nat.lt_ge_cases i (length (t_shape t))) as [Hi|Hi].
    - destruct (INV i Hi) as [j [E1 [E2 Hj]]]. rewrite <- L1.
      rewrite (moveaxis_shape t1 sg2 j i P2' E2). apply (moveaxis_shape t sg1 i j P1 E1).
    - rewrite (proj2 (nth_error_None (t_shape t) i)) by exact Hi. apply nth_error_None.
      rewrite L2, L1. exact Hi. }
  split; [exact SH|]. intros idx Hidx. rewrite SH in Hidx.
  rewrite <- L1 at 1. rewrite moveaxis_get by exact P2'. unfold t1. rewrite moveaxis_get by exact P1.
  f_equal. apply nth_error_ext. intros i. rewrite nth_error_map.
  apply Forall2_length' in Hidx.
  destruct (Nat.lt_ge_cases i (length (t_shape t))) as [Hi|Hi].
  - destruct (INV i Hi) as [j [E1 [E2 Hj]]]. rewrite E1. cbn.
    assert (Hx : nth_error (map (fun j0 => nth j0 idx 0) sg2) j = Some (nth i idx 0)) by (rewrite nth_error_map, E2; reflexivity).
    rewrite (nth_error_nth _ _ _ Hx). symmetry. apply nth_error_nth'. lia.
  - rewrite (proj2 (nth_error_None idx i)) by lia.
    rewrite (proj2 (nth_error_None sg1 i)) by (rewrite (is_perm_length _ _ P1); exact Hi). reflexivity.
Qed.

Lemma with_obs_ok h req h' :
  holder_ok h -> NoDup req -> incl (b_obs (h_space h)) req -> b_obs (h_space h) <> [] ->
  holder_with_obs h req = Ok h' -> holder_ok h'.
Proof.
  intros OK N I NE E.
  destruct (with_obs_form h req OK N I NE) as [sg [es [P [PP [LE [HE W]]]]]].
  assert (SO : space_ok (h_space h)) by (destruct OK; assumption). destruct SO as [NO LO].
  destruct (order_in_same _ req N I) as [N2 S2].
  rewrite W in E. apply make_holder_inv in E. destruct E as [E [EV ES]]. subst h'.
  split; [|split].
  - split; cbn [h_space b_obs b_edges]; [exact N2|]. rewrite LE, <- (positions_length _ _ _ P).
    symmetry. apply (is_perm_length _ _ PP).
  - symmetry. exact ES.
  - exact EV.
Qed.

Lemma order_in_own own new : NoDup own -> (forall o, In o own <-> In o new) -> order_in new own = own.
Proof.
  intros N S. unfold order_in. assert (A : forall l, incl l own -> filter (fun o => mem String.eqb o new) l = l).
  { induction l as [|o l IH]; intros Hl; [reflexivity|]. cbn.
    rewrite (proj2 (mem_In String.eqb string_eqb_ok o new)) by (apply S, Hl; left; reflexivity).
    f_equal. apply IH. intros x Hx. apply Hl. right. exact Hx. }
  apply A. apply incl_refl.
Qed.

Lemma with_obs_round_trip h req h1 :
  holder_ok h -> NoDup req -> incl (b_obs (h_space h)) req -> b_obs (h_space h) <> [] ->
  holder_with_obs h req = Ok h1 ->
  exists h2, holder_with_obs h1 (b_obs (h_space h)) = Ok h2 /\
    h_space h2 = h_space h /\ same_tensor (h_values h2) (h_values h) /\
    same_var (h_variances h2) (h_variances h).
Proof.
  intros OK N I NE E. pose proof (with_obs_ok h req h1 OK N I NE E) as OK1.
  pose proof (holder_rank h OK) as R. pose proof (holder_rank h1 OK1) as R1.
  destruct (with_obs_form h req OK N I NE) as [sg [es [P [PP [LE [HE W]]]]]].
  assert (SO : space_ok (h_space h)) by (destruct OK; assumption). destruct SO as [NO LO].
  destruct (order_in_same _ req N I) as [N2 S2].
  rewrite W in E. apply make_holder_inv in E. destruct E as [E [EV ES]]. subst h1. cbn [h_space b_obs] in *.
  set (own := b_obs (h_space h)) in *. set (new := order_in own req) in *.
  assert (LL : length new = length own) by (rewrite <- (positions_length _ _ _ P); apply (is_perm_length _ _ PP)).
  set (h1 := Holder (BSpace new es) (moveaxis (h_values h) (seq 0 (length own)) sg) (mvar (length own) sg (h_variances h))) in *.
  destruct (with_obs_form h1 own OK1 NO) as [sg2 [es2 [P2 [PP2 [LE2 [HE2 W2]]]]]].
  { cbn. intros o Ho. apply S2. exact Ho. }
  { cbn. intros Hn. apply NE. destruct own as [|o own']; [reflexivity|].
    assert (X : In o new) by (apply S2; left; reflexivity). rewrite Hn in X. destruct X. }
  cbn [h_space b_obs h1] in P2, PP2, LE2, HE2, W2.
  rewrite (order_in_own own new NO S2) in P2, W2. rewrite LL in PP2, LE2, W2.
  assert (INV : forall i j, nth_error sg i = Some j -> nth_error sg2 j = Some i).
  { intros i j Hij. apply (position_iff own new sg i j NO N2 S2 P) in Hij. destruct Hij as [Hi Ei].
    apply (position_iff new own sg2 j i N2 NO (fun o => iff_sym (S2 o)) P2).
    split; [|symmetry; exact Ei]. rewrite LL.
    apply nth_error_Some. rewrite <- Ei. apply nth_error_Some. lia. }
  assert (ES2 : es2 = b_edges (h_space h)).
  { apply nth_error_ext. intros j. destruct (Nat.lt_ge_cases j (length own)) as [Hj|Hj].
    - destruct (is_perm_onto _ sg j PP Hj) as [i Hi]. rewrite (HE2 _ _ (INV _ _ Hi)). cbn. apply HE. exact Hi.
    - rewrite !(proj2 (nth_error_None _ j)); [reflexivity| |]; [rewrite LO|rewrite LE2]; exact Hj. }
  assert (TW : same_tensor (moveaxis (moveaxis (h_values h) (seq 0 (length own)) sg) (seq 0 (length own)) sg2) (h_values h)).
  { rewrite <- R in *. apply moved_twice; assumption. }
  assert (TV : same_var (mvar (length own) sg2 (mvar (length own) sg (h_variances h))) (h_variances h)).
  { destruct OK as [_ [_ SV]]. destruct (h_variances h) as [w|] eqn:Ew; [|exact I0 || exact Logic.I].
    cbn. assert (Rw : length (t_shape w) = length own) by (rewrite (SV _ eq_refl); exact R).
    rewrite <- Rw in *. apply moved_twice; assumption. }
  eexists. split; [rewrite W2; apply make_holder_ok|].
  - intros w Hw. pose proof (mvar_shape h1 sg2 OK1) as M. cbn [h1 h_space b_obs] in M.
    rewrite LL in M. apply (M PP2 w Hw).
  - cbn [b_edges h_values h1]. rewrite ES2. destruct OK as [_ [SH _]]. rewrite <- SH. symmetry. apply TW.
  - cbn [h_space h_values h_variances h1]. split; [|split; [exact TW|exact TV]].
    unfold own. rewrite ES2. destruct (h_space h). reflexivity.
Qed.

(** ** Fewer observables *)
Lemma filter_length_split {A} (f : A -> bool) l :
  length (filter f l) + length (filter (fun x => negb (f x)) l) = length l.
Proof. induction l as [|x l IH]; [reflexivity|]. cbn. destruct (f x); cbn; lia. Qed.

Lemma seq_not_below n m : m <= n ->
  length (filter (fun k => negb (mem Nat.eqb k (seq 0 m))) (seq 0 n)) = n - m.
Proof.
  intros H. replace n with (m + (n - m)) at 1 by lia. rewrite seq_app, filter_app, app_length.
  rewrite filter_none.
  - assert (A : forall l, (forall x, In x l -> m <= x) -> filter (fun k => negb (mem Nat.eqb k (seq 0 m))) l = l).
    { induction l as [|x l IH]; intros Hl; [reflexivity|]. cbn [filter].
      rewrite (proj2 (mem_false Nat.eqb nat_eqb_ok x (seq 0 m))).
      - cbn [negb]. f_equal. apply IH. intros y Hy. apply Hl. right. exact Hy.
      - intros Hx. apply in_seq in Hx. specialize (Hl x (or_introl eq_refl)). lia. }
    rewrite A; [rewrite seq_length; reflexivity|]. intros x Hx. apply in_seq in Hx. lia.
  - intros x Hx. apply negb_false_iff. apply (mem_In Nat.eqb nat_eqb_ok). exact Hx.
Qed.

Lemma moveaxis_rank t m sg : length sg = m -> m <= length (t_shape t) ->
  length (t_shape (moveaxis t (seq 0 m) sg)) = length (t_shape t).
Proof.
  intros L H. unfold moveaxis, transpose, moveaxis_order. cbn [t_shape].
  rewrite map_length, inserts_length, (Permutation_length (sort_pairs_perm _)), combine_length, seq_length, L.
  rewrite Nat.min_id, seq_not_below by exact H. lia.
Qed.

Lemma order_in_lt own req o : NoDup req -> NoDup own -> In o own -> ~ In o req ->
  length (order_in own req) < length own.
Proof.
  intros N NO H1 H2.
  assert (L : length (o :: order_in own req) <= length own).
  { apply NoDup_incl_length.
    - constructor; [|apply NoDup_filter, N]. intros H. apply filter_In in H. tauto.
    - intros x [Hx|Hx]; [subst; exact H1|]. apply filter_In in Hx. destruct Hx as [_ Hx].
      apply (mem_In String.eqb string_eqb_ok) in Hx. exact Hx. }
  cbn in L. lia.
Qed.

Lemma with_obs_subset h req o :
  holder_ok h -> NoDup req -> (exists x, In x (b_obs (h_space h)) /\ In x req) ->
  In o (b_obs (h_space h)) -> ~ In o req ->
  holder_with_obs h req = Err ShapeIncompatibleError.
Proof.
  intros OK N EX H1 H2. pose proof (holder_rank h OK) as R. destruct OK as [SO [SH SV]].
  destruct (space_with_obs (h_space h) req SO N EX) as [sg [es [P [LE [HE W]]]]].
  assert (LT := order_in_lt _ req o N (proj1 SO) H1 H2).
  unfold holder_with_obs. rewrite W. cbn [bind b_obs]. unfold move_axis_obs.
  unfold positions in P. rewrite P. cbn [bind opt_result fst snd].
  pose proof (positions_length _ _ _ P) as LP.
  apply make_holder_rank_err.
  - intros w Hw. destruct (h_variances h) as [v|] eqn:Ev; [|discriminate]. injection Hw as Hw. subst w.
    unfold moveaxis, transpose. cbn [t_shape]. rewrite (SV _ eq_refl). reflexivity.
  - cbn [b_edges]. rewrite moveaxis_rank; [|exact LP|rewrite R; lia]. rewrite LE, R. lia.
Qed.
