(** Proofs about binned samples. *)
From Coq Require Import Lia.
From Verif Require Import Base BaseLemmas Hist_Model Hist_Spec Hist_Proofs Hist_Proofs2 BSamp_Model BSamp_Spec.
From Verif Require Data_Model Data_Proofs6.
Open Scope list_scope.

(** ** updates *)
Section Update.
Context (digest : tensor -> option tensor -> Z).

Definition frame (s s' : bsampler) : Prop :=
  bs_space s' = bs_space s /\ bs_n s' = bs_n s /\ bs_params s' = bs_params s /\ bs_func s' = bs_func s
  /\ (bs_variances s' = None <-> bs_variances s = None).

Lemma frame_refl s : frame s s.
Proof. unfold frame. tauto. Qed.

Lemma frame_trans a b c : frame a b -> frame b c -> frame a c.
Proof. intros (A & B & C & D & E) (A' & B' & C' & D' & E'). unfold frame. rewrite A', B', C', D'. tauto. Qed.

Lemma update_frame h s x : frame s (fst (b_update digest h s x)).
Proof.
  unfold b_update. destruct (contents_of x) as [[t w]|e]; [|apply frame_refl].
  destruct (rank_ok _ _); [|apply frame_refl]. unfold assign_variances, update_hash. cbn [bs_variances set_values bs_space].
  destruct w as [w|], (bs_variances s) as [w'|] eqn:E; cbn [fst].
  - destruct (rank_ok _ _); [|unfold frame; cbn; rewrite E; tauto]. destruct h; unfold frame; cbn; rewrite E; (repeat split; try reflexivity; discriminate).
  - unfold frame; cbn; rewrite E; tauto.
  - unfold frame; cbn; rewrite E; tauto.
  - destruct h; unfold frame; cbn; rewrite E; tauto.
Qed.

Lemma resample_frame h now seed s n ps pv : frame s (fst (b_resample digest h now seed s n ps pv)).
Proof.
  unfold b_resample.
  assert (G : forall g, frame s (fst (match bs_func s now seed match n with Some n => n | None => bs_n s end (Data_Model.pupdate (bs_params s) g) with
                                      | Ok (t, w) => b_update digest h s (NewArray t w) | Err e => (s, Err e) end))).
  { intros g. destruct (bs_func _ _ _ _ _) as [[t w]|e]; [apply update_frame|apply frame_refl]. }
  destruct ps, pv; try apply G. apply frame_refl.
Qed.

Lemma after_frame h l : forall s, frame s (after digest h s l).
Proof.
  induction l as [|o l IH]; intros s; [apply frame_refl|]. cbn [after]. eapply frame_trans; [|apply IH].
  destruct o; [apply update_frame|apply resample_frame].
Qed.

Lemma update_ok h s x s' : b_update digest h s x = (s', Ok tt) ->
  exists t w, contents_of x = Ok (t, w) /\ bs_values s' = t /\ bs_variances s' = w /\ bs_hash s' = hashint digest t w
  /\ h = true /\ length (t_shape t) = length (b_obs (bs_space s)).
Proof.
  unfold b_update. destruct (contents_of x) as [[t w]|e]; [|discriminate].
  destruct (rank_ok (bs_space s) t) eqn:R; [|discriminate]. apply Nat.eqb_eq in R.
  unfold assign_variances, update_hash. cbn [bs_variances set_values bs_space].
  destruct w as [w|], (bs_variances s) as [w'|] eqn:E; intros H; try discriminate.
  - destruct (rank_ok _ _); [|discriminate]. destruct h; [|discriminate]. injection H as <-. exists t, (Some w). cbn. auto 8.
  - destruct h; [|discriminate]. injection H as <-. exists t, None. cbn. rewrite E. auto 8.
Qed.

Lemma update_accepted h s t w : h = true -> length (t_shape t) = length (b_obs (bs_space s)) ->
  (forall v, w = Some v -> length (t_shape v) = length (b_obs (bs_space s))) ->
  (w = None <-> bs_variances s = None) -> exists s', b_update digest h s (NewArray t w) = (s', Ok tt).
Proof.
  intros -> R V N. unfold b_update. cbn [contents_of]. unfold rank_ok. rewrite R, Nat.eqb_refl.
  unfold assign_variances, update_hash, rank_ok. cbn [bs_variances set_values bs_space].
  destruct w as [w|], (bs_variances s) as [w'|]; [|pose proof (proj2 N eq_refl); discriminate
   |pose proof (proj1 N eq_refl); discriminate|].
  - rewrite (V w eq_refl), Nat.eqb_refl. eauto.
  - eauto.
Qed.

Lemma resample_ok h now seed s n ps pv s' : b_resample digest h now seed s n ps pv = (s', Ok tt) ->
  exists t w given,
    given = match pv with Some p => p | None => match ps with Some p => p | None => [] end end
    /\ (ps = None \/ pv = None)
    /\ bs_func s now seed match n with Some n => n | None => bs_n s end (Data_Model.pupdate (bs_params s) given) = Ok (t, w)
    /\ bs_values s' = t /\ bs_variances s' = w /\ bs_hash s' = hashint digest t w.
Proof.
  unfold b_resample. intros H.
  assert (G : forall g, match bs_func s now seed match n with Some n => n | None => bs_n s end (Data_Model.pupdate (bs_params s) g) with
                         | Ok (t, w) => b_update digest h s (NewArray t w) | Err e => (s, Err e) end = (s', Ok tt) ->
     exists t w, bs_func s now seed match n with Some n => n | None => bs_n s end (Data_Model.pupdate (bs_params s) g) = Ok (t, w)
       /\ bs_values s' = t /\ bs_variances s' = w /\ bs_hash s' = hashint digest t w).
  { intros g. clear H. destruct (bs_func s now seed _ (Data_Model.pupdate (bs_params s) g)) as [[t w]|e]; intros U; [|discriminate U]. apply update_ok in U as (t' & w' & C & A & B & D & _).
    injection C as <- <-. eauto 7. }
  destruct ps as [ps|], pv as [pv|]; [discriminate| | |];
    apply G in H as (t & w & A & B & C & D); exists t, w; eexists; (split; [reflexivity|]); (split; [auto|]); auto.
Qed.
End Update.

(** ** reordering to the same order *)
Lemma nth_seq_id (idx : list nat) n : length idx = n -> map (fun j => nth j idx 0%nat) (seq 0 n) = idx.
Proof.
  revert n. induction idx as [|x idx IH]; intros n L; cbn in L; subst n; [reflexivity|]. cbn [seq map nth]. f_equal.
  rewrite <- seq_shift, map_map. cbn [nth]. now apply IH.
Qed.

Lemma positions_self own sg : NoDup own -> positions own own sg -> sg = seq 0 (length own).
Proof.
  intros N P. apply nth_error_ext. intros i. destruct (nth_error own i) as [o|] eqn:E.
  - destruct (positions_nth own own sg i o P E) as (j & A & B). rewrite A. symmetry.
    assert (i = j) as <-. { apply (proj1 (NoDup_nth_error own) N); [apply nth_error_Some; congruence|congruence]. }
    apply nth_error_seq0. apply nth_error_Some. congruence.
  - apply nth_error_None in E. rewrite !(proj2 (nth_error_None _ i)); [reflexivity|rewrite seq_length; exact E|].
    now rewrite (positions_length _ _ _ P).
Qed.

Lemma move_self t n : length (t_shape t) = n -> is_perm n (seq 0 n) -> same_tensor (moveaxis t (seq 0 n) (seq 0 n)) t.
Proof.
  intros R P. subst n. split.
  - apply nth_error_ext. intros i. destruct (Nat.lt_ge_cases i (length (t_shape t))) as [L|L].
    + apply (moveaxis_shape t _ i i P). now apply nth_error_seq0.
    + rewrite !(proj2 (nth_error_None _ i)); [reflexivity|exact L|]. now rewrite (moveaxis_shape_length t _ P).
  - intros idx H. rewrite (moveaxis_get t _ idx P). f_equal. apply nth_seq_id.
    unfold in_shape in H. apply Forall2_length' in H. rewrite H. apply (moveaxis_shape_length t _ P).
Qed.

Lemma with_obs_same h : holder_ok h -> b_obs (h_space h) <> [] ->
  exists h', holder_with_obs h (b_obs (h_space h)) = Ok h' /\ h_space h' = h_space h
    /\ same_tensor (h_values h') (h_values h) /\ (h_variances h = None -> h_variances h' = None)
    /\ (forall v, h_variances h = Some v -> exists v', h_variances h' = Some v' /\ same_tensor v' v).
Proof.
  intros OK NE. pose proof OK as OK'. destruct OK' as [[N LE] [SH SV]].
  destruct (with_obs_form h (b_obs (h_space h)) OK N (incl_refl _) NE) as (sg & es & P & PP & L & ES & E).
  rewrite (order_in_own (b_obs (h_space h)) (b_obs (h_space h)) N (fun o => iff_refl _)) in P, E.
  apply (positions_self _ _ N) in P as ->.
  assert (EE : es = b_edges (h_space h)).
  { apply nth_error_ext. intros i. destruct (Nat.lt_ge_cases i (length (b_obs (h_space h)))) as [H|H].
    - apply ES. now apply nth_error_seq0.
    - rewrite !(proj2 (nth_error_None _ i)); [reflexivity| |]; lia. }
  subst es. assert (R : length (t_shape (h_values h)) = length (b_obs (h_space h))) by now apply holder_rank.
  pose proof (move_self _ _ R PP) as ST.
  rewrite make_holder_ok in E.
  - rewrite E. eexists. split; [reflexivity|]. cbn [h_space h_values h_variances]. split; [now destruct (h_space h)|].
    split; [exact ST|]. split; [intros ->; reflexivity|]. intros v V. unfold mvar. rewrite V. eexists. split; [reflexivity|].
    apply move_self; [now rewrite (SV v V)|exact PP].
  - intros w W. unfold mvar in W. destruct (h_variances h) as [v|] eqn:V; [|discriminate]. injection W as <-.
    rewrite (proj1 ST). assert (RV : length (t_shape v) = length (b_obs (h_space h))) by now rewrite (SV v eq_refl).
    rewrite (proj1 (move_self v _ RV PP)). now apply SV.
  - cbn [b_edges]. rewrite (proj1 ST). now symmetry.
Qed.

(** ** totals *)
Lemma indices_in shape : forall idx, In idx (indices shape) -> in_shape idx shape.
Proof.
  induction shape as [|n r IH]; intros idx I; cbn in I.
  - destruct I as [<-|[]]. constructor.
  - apply in_flat_map in I as (k & K & I). apply in_map_iff in I as (j & <- & J).
    constructor; [apply in_seq in K; lia|now apply IH].
Qed.

Lemma same_total a b : same_tensor a b -> total a = total b.
Proof.
  intros [S G]. unfold total, flatten. rewrite <- S. f_equal. apply map_ext_in. intros i I. apply G. now apply indices_in.
Qed.

(** ** values of parameters *)
Lemma value_of_some now g name v : lookup String.eqb name g = Some v -> value_of now g name = v.
Proof. unfold value_of. now intros ->. Qed.

Lemma lookup_all p now g name : In name (p_names p) -> exists v, lookup String.eqb name (all_values p now g) = Some v.
Proof.
  unfold all_values. induction (p_names p) as [|m ms IH]; [easy|]. cbn [map In lookup].
  intros [-> |I]; [exists (value_of now g name); now rewrite String.eqb_refl|].
  destruct (String.eqb name m); [eauto|]. now apply IH.
Qed.

Lemma lookup_all_eq p now g name : In name (p_names p) -> lookup String.eqb name (all_values p now g) = Some (value_of now g name).
Proof.
  unfold all_values. induction (p_names p) as [|m ms IH]; [easy|]. cbn [map In lookup].
  intros I. destruct (String.eqb name m) eqn:E; [apply String.eqb_eq in E as ->; reflexivity|].
  destruct I as [-> |I]; [now rewrite String.eqb_refl in E|]. now apply IH.
Qed.

Lemma lookup_pset_some f k v name : (exists u, lookup String.eqb name f = Some u) ->
  exists u, lookup String.eqb name (Data_Model.pset f k v) = Some u.
Proof. intros [u U]. rewrite Data_Proofs6.lookup_pset. destruct (String.eqb name k); eauto. Qed.

Lemma lookup_pupdate_some g : forall f name, (exists u, lookup String.eqb name f = Some u) ->
  exists u, lookup String.eqb name (Data_Model.pupdate f g) = Some u.
Proof.
  induction g as [|[k v] g IH]; intros f name H; [exact H|]. unfold Data_Model.pupdate. cbn [fold_left].
  apply (IH (Data_Model.pset f k v)). now apply lookup_pset_some.
Qed.

Lemma all_values_covered p now1 now2 g :
  (forall name, In name (p_names p) -> exists v, lookup String.eqb name g = Some v) ->
  all_values p now1 g = all_values p now2 g.
Proof.
  intros C. unfold all_values. apply map_ext_in. intros name I. destruct (C name I) as [v V].
  now rewrite !(value_of_some _ _ _ _ V).
Qed.

(** ** the sample of a PDF *)
Section Sample.
Context (poisson : nat -> Q -> nat) (multinomial : nat -> nat -> tensor -> tensor).

Lemma sample_inv p now seed n limits given h :
  p_sample poisson multinomial p now seed n limits given = Ok h ->
  exists k t, number poisson p now seed n = Ok k /\ check_params p given = Ok tt
    /\ call_sample multinomial p (all_values p now given) seed k (match limits with Some l => l | None => p_space p end) = Ok t
    /\ fits_space (match limits with Some l => l | None => p_space p end) t
    /\ (limits = None -> h = Holder (p_space p) t None)
    /\ (forall l, limits = Some l -> holder_with_obs (Holder l t None) (b_obs l) = Ok h).
Proof.
  unfold p_sample. destruct (number poisson p now seed n) as [k|e]; [|discriminate]. cbn [bind].
  destruct (check_params p given) as [[]|e]; [|discriminate]. cbn [bind].
  destruct (call_sample _ _ _ _ _ _) as [t|e] eqn:C; [|discriminate]. cbn [bind].
  destruct (make_holder _ t None) as [h1|e] eqn:M; [|discriminate]. cbn [bind].
  apply make_holder_inv in M as (-> & _ & S). intros H. exists k, t. split; [reflexivity|]. split; [reflexivity|].
  split; [exact C|]. split; [now symmetry|]. split.
  - intros ->. now injection H as <-.
  - intros l ->. exact H.
Qed.
End Sample.

Section Create.
Context (digest : tensor -> option tensor -> Z).
Context (poisson : nat -> Q -> nat) (multinomial : nat -> nat -> tensor -> tensor).

Lemma sample_total p now seed n limits given h : is_multinomial multinomial -> spaces_ok p limits ->
  p_sample poisson multinomial p now seed n limits given = Ok h ->
  exists k t, number poisson p now seed n = Ok k
    /\ call_sample multinomial p (all_values p now given) seed k (match limits with Some l => l | None => p_space p end) = Ok t
    /\ h_space h = match limits with Some l => l | None => p_space p end
    /\ same_tensor (h_values h) t /\ h_variances h = None
    /\ (total (h_values h) == inject_Z (Z.of_nat k))%Q.
Proof.
  intros M (SO1 & SO2 & NE & EL) H. assert (SO := conj SO1 SO2). destruct (sample_inv poisson multinomial p now seed n limits given h H) as (k & t & N & _ & C & F & L0 & L1).
  exists k, t. split; [exact N|]. split; [exact C|].
  assert (T : (total t == inject_Z (Z.of_nat k))%Q).
  { unfold call_sample in C. destruct (same_space _ _); [|discriminate]. cbn [negb] in C.
    destruct (move_axis_obs _ _ _ _) as [pr|e]; [|discriminate]. cbn [bind] in C. injection C as <-. destruct (M seed k (fst pr)) as [SH TT].
    apply TT. rewrite <- SH, F. apply Forall_forall. intros x I. apply in_map_iff in I as (e & <- & I).
    apply (proj1 (Forall_forall _ _) EL) in I. lia. }
  destruct limits as [l|].
  - destruct (with_obs_same (Holder l t None)) as (h' & E & S & ST & V & _).
    + split; [exact SO|]. split; [exact F|]. discriminate.
    + exact NE.
    + cbn [h_space] in E, S. rewrite (L1 l eq_refl) in E. injection E as <-.
      split; [exact S|]. split; [exact ST|]. split; [now apply V|]. cbn [h_values] in ST. now rewrite (same_total _ _ ST).
  - rewrite (L0 eq_refl). cbn. do 2 (split; [repeat split; reflexivity|]). split; [reflexivity|exact T].
Qed.

Definition drawer (p : bpdf) (lim : bspace) : list (string * Q) -> nat -> nat -> list (string * Q) -> result (tensor * option tensor) :=
  fun now seed n ps => let* h := p_sample poisson multinomial p now seed (Some n) (Some lim) ps in Ok (h_values h, h_variances h).

Lemma from_sampler_inv hashing now seed f n obs params s :
  b_from_sampler digest hashing now seed None (Some f) n obs params = Ok s ->
  exists t w, f now seed n params = Ok (t, w) /\ bs_values s = t /\ bs_variances s = w /\ bs_space s = obs /\ bs_n s = n
    /\ bs_params s = params /\ bs_func s = f /\ bs_hash s = hashint digest t w /\ fits_space obs t
    /\ (forall v, w = Some v -> t_shape v = t_shape t) /\ hashing = true.
Proof.
  unfold b_from_sampler. cbn [bind]. destruct (f now seed n params) as [[t w]|e] eqn:F; [|discriminate]. cbn [bind fst snd].
  destruct (negb _); [discriminate|]. destruct (make_holder obs t w) as [h|e] eqn:M; [|discriminate]. cbn [bind].
  apply make_holder_inv in M as (_ & SV & SH).
  destruct (b_update digest hashing _ _) as [s1 [[]|e]] eqn:U; [|discriminate]. intros H. injection H as <-.
  pose proof (update_frame digest hashing (mkB obs t w n params 0 f) (NewArray t w)) as (A & B & C & D & _). rewrite U in A, B, C, D.
  apply update_ok in U as (t' & w' & E & V & W & HH & HT & _). cbn [contents_of] in E. injection E as <- <-.
  exists t, w. cbn [fst bs_space bs_n bs_params bs_func] in *. split; [reflexivity|]. do 7 (split; [assumption|]). split; [now symmetry|]. split; [exact SV|exact HT].
Qed.

Definition given_of (now : list (string * Q)) (params : option (list (string * Q))) (fix_ : fixed) : list (string * Q) :=
  match params with
  | Some ps => ps
  | None => match fix_ with FList l => map (fun name => (name, value_of now [] name)) l | _ => [] end
  end.

Lemma create_inv hashing p now seed n limits params fix_ s :
  create_sampler digest poisson multinomial hashing p now seed n limits params fix_ = Ok s ->
  let lim := match limits with Some l => l | None => p_space p end in
  exists k t w, number poisson p now seed n = Ok k
    /\ (params = None \/ fix_ = FNone)
    /\ drawer p lim now seed k (all_values p now (given_of now params fix_)) = Ok (t, w)
    /\ bs_values s = t /\ bs_variances s = w /\ bs_space s = lim /\ bs_n s = k
    /\ bs_params s = all_values p now (given_of now params fix_) /\ bs_func s = drawer p lim
    /\ bs_hash s = hashint digest t w.
Proof.
  cbv zeta. unfold create_sampler. destruct (number poisson p now seed n) as [k|e]; [|discriminate]. cbn [bind].
  intros H.
  assert (G : exists g, g = given_of now params fix_ /\ (params = None \/ fix_ = FNone)
    /\ (let* _ := check_params p g in
        b_from_sampler digest hashing now seed None (Some (drawer p (match limits with Some l => l | None => p_space p end))) k
          (match limits with Some l => l | None => p_space p end) (all_values p now g)) = Ok s).
  { destruct fix_, params; cbn [bind] in H; try discriminate; eexists; (split; [reflexivity|]); (split; [auto|]); exact H. }
  destruct G as (g & -> & PF & G). destruct (check_params p _) as [[]|e]; [|discriminate]. cbn [bind] in G.
  apply from_sampler_inv in G as (t & w & A & B & C & D & E & F & I & J & _).
  exists k, t, w. split; [reflexivity|]. do 8 (split; [assumption|]). exact J.
Qed.

(** the sampler of a PDF draws with the values it has been made with *)
Lemma drawer_now p lim now1 now2 seed n ps :
  (forall name, In name (p_names p) -> exists v, lookup String.eqb name ps = Some v) ->
  drawer p lim now1 seed n ps = drawer p lim now2 seed n ps.
Proof.
  intros C. unfold drawer, p_sample. cbn [number bind]. now rewrite (all_values_covered p now1 now2 ps C).
Qed.

Lemma all_values_fixed p now l : all_values p now (map (fun name => (name, value_of now [] name)) l) = all_values p now [].
Proof.
  unfold all_values. apply map_ext. intros name. f_equal. unfold value_of at 1.
  destruct (lookup String.eqb name (map _ l)) as [v|] eqn:E; [|reflexivity].
  induction l as [|m l IH]; [discriminate|]. cbn [map lookup] in E.
  destruct (String.eqb name m) eqn:EM; [apply String.eqb_eq in EM as ->; now injection E as <-|]. now apply IH.
Qed.
End Create.
