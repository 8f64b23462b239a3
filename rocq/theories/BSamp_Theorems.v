(** C88: binned samples. *)
From Coq Require Import Lia Lqa ListDec.
From Verif Require Import Base BaseLemmas Hist_Model Hist_Spec Hist_Proofs Hist_Proofs2 BSamp_Model BSamp_Spec BSamp_Proofs.
From Verif Require Data_Model Data_Proofs6.
Open Scope string_scope.
Open Scope list_scope.

(** ** The sampler *)

(** C88: a sampler that is created holds what its function has drawn for the number of events and the parameters given to it,
    one content for each bin, and the hash of that. *)
Theorem C88_created digest hashing now seed f n obs params s :
  b_from_sampler digest hashing now seed None (Some f) n obs params = Ok s ->
  exists t w, f now seed n params = Ok (t, w) /\ bs_values s = t /\ bs_variances s = w
    /\ bs_space s = obs /\ bs_n s = n /\ bs_params s = params /\ bs_func s = f
    /\ bs_hash s = hashint digest t w
    /\ fits_space obs t /\ (forall v, w = Some v -> t_shape v = t_shape t).
Proof.
  intros H. apply from_sampler_inv in H as (t & w & A & B & C & D & E & F & G & I & J & K & _).
  exists t, w. do 9 (split; [assumption|]). exact K.
Qed.

(** C88: a function that gives no variances makes a sampler without variances; exactly one function must be given. *)
Theorem C88_functions digest hashing now seed f g n obs params :
  b_from_sampler digest hashing now seed (Some f) (Some g) n obs params = Err ValueError
  /\ b_from_sampler digest hashing now seed None None n obs params = Err ValueError
  /\ forall s, b_from_sampler digest hashing now seed (Some f) None n obs params = Ok s ->
       bs_variances s = None /\ f now seed n params = Ok (bs_values s).
Proof.
  split; [reflexivity|]. split; [reflexivity|]. intros s H.
  assert (E : b_from_sampler digest hashing now seed None (Some (without_variances f)) n obs params = Ok s) by exact H.
  apply from_sampler_inv in E as (t & w & A & B & C & _). unfold without_variances in A.
  destruct (f now seed n params) as [t'|e]; [|discriminate]. cbn [bind] in A. injection A as <- <-. now rewrite B, C.
Qed.

(** C88: after an update the sampler holds exactly what has been given to it, and the hash of that; the space, the number of events and
    the parameters stay. *)
Theorem C88_update digest hashing s x s' : b_update digest hashing s x = (s', Ok tt) ->
  match x with
  | NewArray t w => bs_values s' = t /\ bs_variances s' = w
  | NewHist h w => bs_values s' = h_values h /\ bs_variances s' = h_variances h /\ w = None
  end
  /\ bs_hash s' = hashint digest (bs_values s') (bs_variances s')
  /\ bs_space s' = bs_space s /\ bs_n s' = bs_n s /\ bs_params s' = bs_params s.
Proof.
  intros H. pose proof (update_frame digest hashing s x) as (A & B & C & _). rewrite H in A, B, C. cbn [fst] in A, B, C.
  apply update_ok in H as (t & w & X & V & W & HH & _). rewrite V, W.
  split; [|auto]. destruct x as [t0 w0|h [w0|]]; cbn [contents_of] in X; try discriminate; injection X as <- <-; auto.
Qed.

(** C88: the hash after an update is that of the contents and the variances, so an update to contents with another hash is seen. *)
Theorem C88_hash digest hashing s x s' : b_update digest hashing s x = (s', Ok tt) ->
  bs_hash s' = hash_of digest (bs_values s') (bs_variances s').
Proof. intros H. apply C88_update in H as (_ & -> & _). unfold hashint, hash_of. now rewrite Z.mod_mod. Qed.

(** C88: as data with the observables in the same order, a sampler has its contents and variances. *)
Theorem C88_with_obs s : space_ok (bs_space s) -> b_obs (bs_space s) <> [] -> fits_space (bs_space s) (bs_values s) ->
  (forall v, bs_variances s = Some v -> t_shape v = t_shape (bs_values s)) ->
  exists h, b_with_obs s (b_obs (bs_space s)) = Ok h /\ h_space h = bs_space s /\ same_tensor (h_values h) (bs_values s)
    /\ (forall v, bs_variances s = Some v -> exists v', h_variances h = Some v' /\ same_tensor v' v)
    /\ (bs_variances s = None -> h_variances h = None).
Proof.
  intros SO NE F V. destruct (with_obs_same (Holder (bs_space s) (bs_values s) (bs_variances s))) as (h & E & S & ST & VN & VS).
  - split; [exact SO|]. split; [exact F|]. exact V.
  - exact NE.
  - exists h. cbn [h_space h_values h_variances] in *. split; [exact E|]. split; [exact S|]. split; [exact ST|]. now split.
Qed.

(** C88: an array of the right rank is accepted, with variances exactly if the sampler has some. *)
Theorem C88_accepted digest s t w : length (t_shape t) = length (b_obs (bs_space s)) ->
  (forall v, w = Some v -> t_shape v = t_shape t) ->
  (w = None <-> bs_variances s = None) -> exists s', b_update digest true s (NewArray t w) = (s', Ok tt).
Proof. intros R V N. apply update_accepted; try assumption; [reflexivity|]. intros v E. now rewrite (V v E). Qed.

(** C88: a resampling draws the number of events that is given, else the one of the creation; the parameters that are given have these values, the
    others those of the creation. Neither the number nor the parameters of the sampler change, so the next resampling is not influenced. *)
Theorem C88_resample digest hashing now seed s n given s' : NoDup (map fst given) ->
  b_resample digest hashing now seed s n (Some given) None = (s', Ok tt) ->
  exists t w ps, bs_func s now seed (match n with Some k => k | None => bs_n s end) ps = Ok (t, w)
    /\ (forall name, lookup String.eqb name ps
                     = match lookup String.eqb name given with Some v => Some v | None => lookup String.eqb name (bs_params s) end)
    /\ bs_values s' = t /\ bs_variances s' = w /\ bs_hash s' = hashint digest t w
    /\ bs_n s' = bs_n s /\ bs_params s' = bs_params s /\ bs_space s' = bs_space s.
Proof.
  intros N H. pose proof (resample_frame digest hashing now seed s n (Some given) None) as (A & B & C & _).
  rewrite H in A, B, C. cbn [fst] in A, B, C.
  apply resample_ok in H as (t & w & g & -> & _ & F & V & W & HH). exists t, w. eexists. split; [exact F|].
  split; [|auto 8]. intros name. now apply Data_Proofs6.lookup_pupdate.
Qed.

(** C88: the same with nothing given, and with the values under the old name of the argument; both names at once are refused. *)
Theorem C88_resample_arguments digest hashing now seed s n given :
  b_resample digest hashing now seed s n None (Some given) = b_resample digest hashing now seed s n (Some given) None
  /\ b_resample digest hashing now seed s n None None = b_resample digest hashing now seed s n (Some []) None
  /\ b_resample digest hashing now seed s n (Some given) (Some given) = (s, Err ValueError).
Proof. repeat split; reflexivity. Qed.

(** C88: whatever happens to a sampler, also calls that raise: its space, number of events and parameters stay, and it has variances exactly
    if it had some at the beginning. *)
Theorem C88_history digest hashing s ops : let s' := after digest hashing s ops in
  bs_space s' = bs_space s /\ bs_n s' = bs_n s /\ bs_params s' = bs_params s /\ (bs_variances s' = None <-> bs_variances s = None).
Proof. cbv zeta. destruct (after_frame digest hashing ops s) as (A & B & C & _ & D). auto. Qed.

Definition one_bin : bspace := BSpace ["x"] [[0; 1]%Q].
Definition two_bins : bspace := BSpace ["x"] [[0; 1; 2]%Q].
Definition plane : bspace := BSpace ["x"; "y"] [[0; 1; 2]%Q; [0; 1; 2]%Q].
Definition flip : bspace := BSpace ["y"; "x"] [[0; 1; 2]%Q; [0; 1; 2]%Q].
Definition constant (shape : list nat) (v : Q) : tensor := Tensor shape (fun _ => v).
Definition still (t : tensor) : list (string * Q) -> nat -> nat -> list (string * Q) -> result (tensor * option tensor) :=
  fun _ _ _ _ => Ok (t, None).

(** C88: "an update that raises changes nothing": false; if variances are given but the sampler has none, the contents are replaced nevertheless,
    and the hash is still that of the old ones. *)
Theorem C88_failed_refuted : forall digest, exists s x s',
  bs_hash s = hashint digest (bs_values s) (bs_variances s)
  /\ b_update digest true s x = (s', Err ValueError)
  /\ ~ (t_get (bs_values s') [0%nat] == t_get (bs_values s) [0%nat])%Q
  /\ bs_hash s' = bs_hash s /\ bs_hash s' = hashint digest (bs_values s) None.
Proof.
  intros digest. pose (t := constant [1%nat] 1%Q). pose (u := constant [1%nat] 2%Q).
  exists (mkB one_bin t None 1 [] (hashint digest t None) (still t)), (NewArray u (Some u)). eexists.
  split; [reflexivity|]. split; [reflexivity|]. cbn. split; [discriminate|]. split; reflexivity.
Qed.

(** C88: "different contents have different hashes" (so that a loss can see that its data have changed): false for every digest, there are
    only 4096 hashes. *)
Lemma collide {A} (f : A -> Z) (l : list A) : ~ NoDup (map f l) -> NoDup l -> exists a b, a <> b /\ f a = f b.
Proof.
  induction l as [|a l IH]; intros N D; [now destruct N; constructor|]. inversion D as [|? ? DA DL]; subst.
  destruct (in_dec Z.eq_dec (f a) (map f l)) as [I|I].
  - apply in_map_iff in I as (b & E & B). exists a, b. split; [intros ->; contradiction|now symmetry].
  - apply IH; [|exact DL]. intros X. apply N. cbn. now constructor.
Qed.
(** C88: "other contents have another hash": false for every digest, there are fewer hashes than contents. *)
Theorem C88_collision_refuted : forall digest, exists a b,
  fits_space one_bin a /\ fits_space one_bin b /\ ~ (t_get a [0%nat] == t_get b [0%nat])%Q
  /\ hashint digest a None = hashint digest b None.
Proof.
  intros digest. pose (f := fun k : nat => hashint digest (constant [1%nat] (inject_Z (Z.of_nat k))) None).
  destruct (collide f (seq 0 (Z.to_nat 4097))) as (i & j & N & E).
  - intros D. apply NoDup_incl_length with (l' := map Z.of_nat (seq 0 (Z.to_nat 4096))) in D.
    + rewrite !map_length, !seq_length in D. lia.
    + intros z I. apply in_map_iff in I as (k & <- & _). unfold f, hashint.
      assert (B := Z.mod_pos_bound (digest (constant [1%nat] (inject_Z (Z.of_nat k))) None mod 4096) 4096 eq_refl).
      apply in_map_iff. exists (Z.to_nat ((digest (constant [1%nat] (inject_Z (Z.of_nat k))) None mod 4096) mod 4096)).
      split; [apply Z2Nat.id; lia|]. apply in_seq. lia.
  - apply seq_NoDup.
  - exists (constant [1%nat] (inject_Z (Z.of_nat i))), (constant [1%nat] (inject_Z (Z.of_nat j))).
    split; [reflexivity|]. split; [reflexivity|]. split; [|exact E]. cbn [constant t_get]. intros H. apply N.
    unfold Qeq in H. cbn in H. lia.
Qed.

(** C88: "the contents always fit to the bins of the sampler": false; an update with another number of bins is accepted, although
    no binned data could be made of it. *)
Theorem C88_bins_refuted : forall digest, exists s t s', fits_space (bs_space s) (bs_values s)
  /\ b_update digest true s (NewArray t None) = (s', Ok tt) /\ ~ fits_space (bs_space s') (bs_values s')
  /\ make_holder (bs_space s') (bs_values s') (bs_variances s') = Err InvalidArgumentError.
Proof.
  intros digest. exists (mkB two_bins (constant [2%nat] 1%Q) None 1 [] 0%Z (still (constant [2%nat] 1%Q))), (constant [3%nat] 1%Q).
  eexists. split; [reflexivity|]. split; [reflexivity|]. split; [discriminate|reflexivity].
Qed.

(** C88: "a histogram with the observables in another order is put into the order of the sampler": false; its array is taken as it is, so
    that contents are found in other bins. *)
Theorem C88_order_refuted : forall digest, exists s h s' f,
  holder_ok h /\ same_space (h_space h) (bs_space s) = true
  /\ b_update digest true s (NewHist h None) = (s', Ok tt)
  /\ bin_of (bs_space s) f
  /\ ~ (content (b_obs (bs_space s')) (bs_values s') f == content (b_obs (h_space h)) (h_values h) f)%Q.
Proof.
  intros digest.
  pose (t := Tensor [2%nat; 2%nat] (fun i => match i with [a; b] => inject_Z (Z.of_nat (10 * a + b)) | _ => 0%Q end)).
  exists (mkB plane t None 1 [] 0%Z (still t)), (Holder flip t None). eexists. exists (fun o => if String.eqb o "x" then 1%nat else 0%nat).
  split; [split; [split; [repeat constructor; cbn; intuition discriminate|reflexivity]|split; [reflexivity|discriminate]]|].
  split; [reflexivity|]. split; [reflexivity|]. split.
  - intros o n (k & e & A & B & ->). destruct k as [|[|k]]; cbn in A, B;
      [injection A as <-; injection B as <-; cbn; lia|injection A as <-; injection B as <-; cbn; lia|now destruct k].
  - vm_compute. discriminate.
Qed.

(** C88: in the order of the sampler the contents of a histogram keep their bins. *)
Theorem C88_order digest s h s' : b_obs (h_space h) = b_obs (bs_space s) ->
  b_update digest true s (NewHist h None) = (s', Ok tt) ->
  forall f, content (b_obs (bs_space s')) (bs_values s') f = content (b_obs (h_space h)) (h_values h) f.
Proof.
  intros E H f. apply C88_update in H as ((V & _) & _ & S & _). unfold content. now rewrite V, S, E.
Qed.

(** C88: "data that come from a sampler follow it": false for the data in another (or the same) order of the observables, these hold
    the contents of the moment. *)
Theorem C88_with_obs_refuted : forall digest, exists s h x s' h',
  b_with_obs s ["y"; "x"] = Ok h /\ b_update digest true s x = (s', Ok tt) /\ b_with_obs s' ["y"; "x"] = Ok h'
  /\ ~ (t_get (h_values h') [0%nat; 0%nat] == t_get (h_values h) [0%nat; 0%nat])%Q.
Proof.
  intros digest. exists (mkB plane (constant [2%nat; 2%nat] 1%Q) None 1 [] 0%Z (still (constant [2%nat; 2%nat] 1%Q))). eexists.
  exists (NewArray (constant [2%nat; 2%nat] 2%Q) None). eexists. eexists. split; [reflexivity|]. split; [reflexivity|]. split; [reflexivity|].
  vm_compute. discriminate.
Qed.

(** C88: "hashing can be switched off": false for samplers, none can be made or updated any more. *)
Theorem C88_hashing_refuted digest now seed sample_func both_func n obs params :
  (exists e, b_from_sampler digest false now seed sample_func both_func n obs params = Err e)
  /\ (forall s x s', b_update digest false s x <> (s', Ok tt)).
Proof.
  assert (U : forall s x s', b_update digest false s x <> (s', Ok tt)).
  { intros s x s' H. apply update_ok in H as (_ & _ & _ & _ & _ & _ & D & _). discriminate. }
  split; [|exact U]. destruct (b_from_sampler digest false now seed sample_func both_func n obs params) as [s|e] eqn:E; [|eauto].
  exfalso. unfold b_from_sampler in E. destruct (match sample_func with Some _ => _ | None => _ end) as [f|e]; [|discriminate]. cbn [bind] in E.
  destruct (f now seed n params) as [tw|e]; [|discriminate]. cbn [bind] in E. destruct (negb _); [discriminate|].
  destruct (make_holder _ _ _) as [h|e]; [|discriminate]. cbn [bind] in E.
  destruct (b_update digest false _ _) as [s1 [[]|e]] eqn:UE; [|discriminate]. now apply U in UE.
Qed.

(** ** Samples of binned PDFs *)
Section Pdf.
Context (poisson : nat -> Q -> nat) (multinomial : nat -> nat -> tensor -> tensor).
Hypothesis MULT : is_multinomial multinomial.

(** C88: a sample is drawn from the relative counts at the present values of the parameters, except for those that are given. It has the space that was asked for, its
    contents sum to the number of events, and it has no variances. *)
Theorem C88_sample p now seed n limits given h : spaces_ok p limits ->
  p_sample poisson multinomial p now seed (Some n) limits given = Ok h ->
  let lim := match limits with Some l => l | None => p_space p end in
  h_space h = lim /\ (total (h_values h) == inject_Z (Z.of_nat n))%Q /\ h_variances h = None
  /\ exists probs, move_axis_obs (b_obs (p_space p)) (b_obs lim) (p_rel p (all_values p now given)) None = Ok probs
     /\ same_tensor (h_values h) (multinomial seed n (fst probs)).
Proof.
  intros SO H. destruct (sample_total poisson multinomial p now seed (Some n) limits given h MULT SO H) as (k & t & N & C & S & ST & V & T).
  injection N as <-. cbv zeta. split; [exact S|]. split; [exact T|]. split; [exact V|].
  unfold call_sample in C. destruct (same_space _ _); [|discriminate]. cbn [negb] in C.
  destruct (move_axis_obs _ _ _ _) as [pr|e]; [|discriminate]. cbn [bind] in C. injection C as <-. eauto.
Qed.

(** C88: the relative counts belong to the bins of the space that was asked for, if its order trades places with the one of the PDF. *)
Theorem C88_sample_bins own new t pr : NoDup own -> NoDup new -> (forall o, In o own <-> In o new) ->
  length (t_shape t) = length own -> trades_places own new ->
  move_axis_obs own new t None = Ok pr -> forall f, content new (fst pr) f = content own t f.
Proof.
  intros N1 N2 S R T H f. unfold move_axis_obs in H.
  destruct (all_some _) as [sg|] eqn:P; [|discriminate]. cbn [opt_result bind] in H. injection H as <-. cbn [fst].
  replace (length new) with (length own).
  - now apply traded_content.
  - apply Permutation.Permutation_length. now apply Permutation.NoDup_Permutation.
Qed.

(** C88: without a number of events, that of an extended PDF is drawn; a PDF that is not extended needs it. Other limits than those of the PDF are refused. *)
Theorem C88_number p now seed limits given :
  (p_yield p = None -> p_sample poisson multinomial p now seed None limits given = Err ValueError)
  /\ (forall y h, p_yield p = Some y -> spaces_ok p limits -> p_sample poisson multinomial p now seed None limits given = Ok h ->
        (total (h_values h) == inject_Z (Z.of_nat (poisson seed (y (all_values p now [])))))%Q)
  /\ (forall n l, same_space l (p_space p) = false -> check_params p given = Ok tt ->
        p_sample poisson multinomial p now seed (Some n) (Some l) given = Err WorkInProgressError).
Proof.
  split; [intros Y; unfold p_sample, number; now rewrite Y|]. split.
  - intros y h Y SO H. destruct (sample_total poisson multinomial p now seed None limits given h MULT SO H) as (k & t & N & _ & _ & _ & _ & T).
    unfold number in N. rewrite Y in N. now injection N as <-.
  - intros n l S C. unfold p_sample. cbn [number bind]. rewrite C. cbn [bind]. unfold call_sample. now rewrite S.
Qed.

(** C88: values for parameters that the PDF does not have are refused. *)
Theorem C88_unknown p now seed n limits given name v : In (name, v) given -> ~ In name (p_names p) ->
  p_sample poisson multinomial p now seed (Some n) limits given = Err ValueError.
Proof.
  intros I NI. unfold p_sample. cbn [number bind]. unfold check_params.
  destruct (forallb _ given) eqn:F; [|reflexivity]. exfalso. apply NI. apply (mem_In _ string_eqb_ok).
  exact (proj1 (forallb_forall _ _) F _ I).
Qed.

(** C88: the space that is asked for must have exactly the observables of the PDF. *)
Theorem C88_limits p now seed n l given h : p_sample poisson multinomial p now seed n (Some l) given = Ok h ->
  forall o, In o (b_obs l) <-> In o (b_obs (p_space p)).
Proof.
  unfold p_sample. destruct (number _ _ _ _ _) as [k|e]; [|discriminate]. cbn [bind]. destruct (check_params _ _); [|discriminate]. cbn [bind].
  unfold call_sample. destruct (same_space l (p_space p)) eqn:S; [|discriminate]. intros _.
  unfold same_space in S. apply andb_true_iff in S as (S & _). now apply (set_eqb_iff _ string_eqb_ok).
Qed.

(** C88: "what a binned PDF implements as [_sample] is used": false, the result is dropped. *)
Theorem C88_own_sample_refuted p own now seed n limits given :
  p_sample poisson multinomial (mkP (p_space p) (p_names p) (p_yield p) (p_rel p) own) now seed n limits given
  = p_sample poisson multinomial p now seed n limits given.
Proof. reflexivity. Qed.

(** ** Samplers of binned PDFs *)
Section Created.
Context (digest : tensor -> option tensor -> Z) (hashing : bool).
Context (p : bpdf) (now : list (string * Q)) (seed : nat) (n : option nat) (limits : option bspace) (s : bsampler).

(** C88: a sampler of a PDF remembers the values of all its parameters at its creation. *)
Theorem C88_create : create_sampler digest poisson multinomial hashing p now seed n limits None FTrue = Ok s ->
  (forall name, In name (p_names p) -> lookup String.eqb name (bs_params s) = Some (value_of now [] name))
  /\ number poisson p now seed n = Ok (bs_n s)
  /\ bs_space s = match limits with Some l => l | None => p_space p end
  /\ bs_hash s = hashint digest (bs_values s) (bs_variances s).
Proof.
  intros H. apply create_inv in H as (k & t & w & N & _ & _ & V & W & S & K & P & _ & HH).
  split; [intros name I; rewrite P; now apply lookup_all_eq|]. rewrite K, V, W. auto.
Qed.

(** C88: later changes of the parameters do not influence it, nor do values that were given for earlier resamplings: after any history, a resampling
    does the same whatever the present values are. *)
Theorem C88_fixed fix_ params ops now1 now2 seed' n' ps : 
  create_sampler digest poisson multinomial hashing p now seed n limits params fix_ = Ok s ->
  let s' := after digest hashing s ops in
  b_resample digest hashing now1 seed' s' n' ps None = b_resample digest hashing now2 seed' s' n' ps None.
Proof.
  intros H. cbv zeta. apply create_inv in H as (k & t & w & N & _ & _ & _ & _ & _ & _ & P & F & _).
  destruct (after_frame digest hashing ops s) as (_ & _ & PA & FA & _). unfold b_resample. rewrite FA, F, PA, P.
  assert (C : forall m g, drawer poisson multinomial p (match limits with Some l => l | None => p_space p end) now1 seed' m
      (Data_Model.pupdate (all_values p now (given_of now params fix_)) g)
    = drawer poisson multinomial p (match limits with Some l => l | None => p_space p end) now2 seed' m
      (Data_Model.pupdate (all_values p now (given_of now params fix_)) g)).
  { intros m g. apply drawer_now. intros name I. apply lookup_pupdate_some. now apply lookup_all. }
  destruct ps as [g|]; now rewrite C.
Qed.

(** C88: every resampling without a number draws as many events as the first sample. For an extended PDF this number is drawn once, not again:
    "the number of events of an extended PDF fluctuates in each sample" is false. *)
Theorem C88_same_number_refuted fix_ params ops now' seed' s2 : spaces_ok p limits ->
  create_sampler digest poisson multinomial hashing p now seed n limits params fix_ = Ok s ->
  b_resample digest hashing now' seed' (after digest hashing s ops) None None None = (s2, Ok tt) ->
  (total (bs_values s2) == total (bs_values s))%Q /\ (total (bs_values s) == inject_Z (Z.of_nat (bs_n s)))%Q.
Proof.
  intros SO H R. apply create_inv in H as (k & t & w & N & _ & D & V & _ & _ & K & P & F & _).
  destruct (after_frame digest hashing ops s) as (_ & NA & PA & FA & _).
  apply resample_ok in R as (t2 & w2 & g & -> & _ & D2 & V2 & _). rewrite FA, F, NA, K in D2. rewrite V, V2, K.
  assert (SO' : spaces_ok p (Some (match limits with Some l => l | None => p_space p end))) by exact SO.
  assert (G : forall now seed ps t w, drawer poisson multinomial p (match limits with Some l => l | None => p_space p end) now seed k ps = Ok (t, w) ->
    (total t == inject_Z (Z.of_nat k))%Q).
  { intros nw sd ps t0 w0 E. unfold drawer in E. destruct (p_sample _ _ _ _ _ _ _ _) as [h|e] eqn:PS; [|discriminate]. cbn [bind] in E.
    injection E as <- <-. destruct (sample_total poisson multinomial p nw sd (Some k) _ ps h MULT SO' PS) as (k' & t' & NK & _ & _ & _ & _ & T).
    injection NK as <-. exact T. }
  split; [|now apply (G _ _ _ _ _ D)]. now rewrite (G _ _ _ _ _ D), (G _ _ _ _ _ D2).
Qed.
End Created.

(** C88: "values for the parameters can be given when a sampler is created": false, unless the old argument is set to None at the same time. *)
Theorem C88_create_params_refuted digest hashing p now seed n limits ps :
  create_sampler digest poisson multinomial hashing p now seed n limits (Some ps) FTrue = Err ValueError.
Proof.
  unfold create_sampler, number. destruct n as [n|]; [reflexivity|]. now destruct (p_yield p).
Qed.

(** C88: with the old argument set to None, the values that are given are used. *)
Theorem C88_create_params digest hashing p now seed n limits ps s :
  create_sampler digest poisson multinomial hashing p now seed n limits (Some ps) FNone = Ok s ->
  forall name, In name (p_names p) -> lookup String.eqb name (bs_params s) = Some (value_of now ps name).
Proof.
  intros H name I. apply create_inv in H as (k & t & w & _ & _ & _ & _ & _ & _ & _ & P & _). rewrite P. now apply lookup_all_eq.
Qed.

(** C88: "parameters that are not in the list of fixed parameters follow their present values": false, the list does not matter. *)
Theorem C88_fixed_list_refuted digest hashing p now seed n limits l : incl l (p_names p) ->
  create_sampler digest poisson multinomial hashing p now seed n limits None (FList l)
  = create_sampler digest poisson multinomial hashing p now seed n limits None FTrue.
Proof.
  intros I. unfold create_sampler. destruct (number _ _ _ _ _) as [k|e]; [|reflexivity]. cbn [bind].
  rewrite all_values_fixed. assert (C : check_params p (map (fun name => (name, value_of now [] name)) l) = Ok tt).
  { unfold check_params. rewrite (proj2 (forallb_forall _ _)); [reflexivity|]. intros g G. apply in_map_iff in G as (m & <- & M).
    apply (mem_In _ string_eqb_ok). now apply I. }
  rewrite C. reflexivity.
Qed.
End Pdf.

(** C88: "an extended PDF that is sampled with another yield gives as many events": false, the number is drawn for the present yield. *)
Definition extended_pdf : bpdf :=
  mkP two_bins ["yield"] (Some (fun v => value_of [] v "yield")) (fun _ => constant [2%nat] (1 # 2)) None.
Theorem C88_yield_refuted : forall poisson multinomial seed h, is_multinomial multinomial ->
  p_sample poisson multinomial extended_pdf [("yield", 10%Q)] seed None None [("yield", 20%Q)] = Ok h ->
  (total (h_values h) == inject_Z (Z.of_nat (poisson seed 10%Q)))%Q
  /\ all_values extended_pdf [("yield", 10%Q)] [("yield", 20%Q)] = [("yield", 20%Q)].
Proof.
  intros poisson multinomial seed h M H. split; [|reflexivity].
  destruct (C88_number poisson multinomial M extended_pdf [("yield", 10%Q)] seed None [("yield", 20%Q)]) as (_ & T & _).
  apply (T _ h eq_refl); [|exact H]. split; [repeat constructor; cbn; intuition discriminate|]. split; [reflexivity|].
  split; [discriminate|]. repeat constructor.
Qed.

(** C88: "variances=True gives the variances of a Poisson distribution" (which are the values): false, they are the square roots. *)
Theorem C88_poisson_variances_refuted : forall root, (forall q, (q == 4)%Q -> (root q == 2)%Q) ->
  forall space t h idx, from_tensor_true root space t = Ok h -> (t_get t idx == 4)%Q ->
  exists w, h_variances h = Some w /\ (t_get w idx == 2)%Q.
Proof.
  intros root R space t h idx H V. unfold from_tensor_true in H. apply make_holder_inv in H as (-> & _). cbn [h_variances].
  eexists. split; [reflexivity|]. cbn [t_get]. now apply R.
Qed.
Example ex_variances : exists h, from_tensor_true (fun q => if Qeq_bool q 4 then 2%Q else q) two_bins (constant [2%nat] 4%Q) = Ok h.
Proof. eexists. reflexivity. Qed.

(** ** Examples *)
(** all events in the first bin *)
Definition all_first (seed n : nat) (t : tensor) : tensor :=
  Tensor (t_shape t) (fun i => if forallb (Nat.eqb 0) i then inject_Z (Z.of_nat n) else 0%Q).
Lemma indices_first shape : Forall (fun k => (0 < k)%nat) shape ->
  exists rest, indices shape = map (fun _ => 0%nat) shape :: rest /\ Forall (fun i => forallb (Nat.eqb 0) i = false) rest.
Proof.
  induction 1 as [|k shape K F (rest & E & R)]; [exists []; split; [reflexivity|constructor]|].
  destruct k as [|k]; [lia|]. cbn [indices seq flat_map map]. rewrite E. cbn [map app]. eexists. split; [reflexivity|].
  apply Forall_app. split.
  - apply Forall_forall. intros i I. apply in_map_iff in I as (j & <- & J). cbn. now apply (proj1 (Forall_forall _ _) R).
  - apply Forall_forall. intros i I. apply in_flat_map in I as (a & A & I). apply in_seq in A.
    destruct a as [|a]; [lia|]. destruct I as [<-|I]; [reflexivity|]. apply in_map_iff in I as (j & <- & _). reflexivity.
Qed.
(** there is a multinomial distribution as the theorems assume it *)
Example C88_multinomial_exists : is_multinomial all_first.
Proof.
  intros seed n t. split; [reflexivity|]. intros P. unfold total, flatten. cbn [all_first t_shape t_get].
  destruct (indices_first _ P) as (rest & -> & R). cbn [map qsum fold_right].
  assert (Z : forallb (Nat.eqb 0) (map (fun _ => 0%nat) (t_shape t)) = true).
  { apply forallb_forall. intros x I. apply in_map_iff in I as (k & <- & _). reflexivity. }
  rewrite Z. assert (S : (qsum (map (fun i => if forallb (Nat.eqb 0) i then inject_Z (Z.of_nat n) else 0%Q) rest) == 0)%Q).
  { induction R as [|i rest I R IH]; [reflexivity|]. cbn [map qsum fold_right]. rewrite I. unfold qsum in IH. rewrite IH. reflexivity. }
  unfold qsum in S. rewrite S. apply Qplus_0_r.
Qed.
Definition ex_poisson (seed : nat) (mean : Q) : nat := (10 + seed)%nat.
Definition slope_pdf : bpdf :=
  mkP two_bins ["a"; "b"] None (fun v => Tensor [2%nat] (fun i => match i with [0%nat] => value_of [] v "a" | _ => value_of [] v "b" end)) None.
Definition ex_digest (t : tensor) (_ : option tensor) : Z := Qnum (t_get t [0%nat]).
Definition ex_now : list (string * Q) := [("a", 1 # 4); ("b", 3 # 4)]%Q.

(** a sampler, resampled after the parameters have changed, with another number and with a value *)
Example ex_created : exists s, create_sampler ex_digest ex_poisson all_first true slope_pdf ex_now 0 (Some 7%nat) None None FTrue = Ok s
  /\ bs_params s = ex_now /\ bs_hash s = 7%Z
  /\ (forall now, snd (b_resample ex_digest true now 1 s (Some 5%nat) (Some [("b", 1%Q)]) None) = Ok tt
                  /\ bs_hash (fst (b_resample ex_digest true now 1 s (Some 5%nat) (Some [("b", 1%Q)]) None)) = 5%Z)
  /\ snd (b_resample ex_digest true [] 1 s None (Some [("c", 1%Q)]) None) = Err ValueError.
Proof. eexists. split; [reflexivity|]. split; [reflexivity|]. split; [reflexivity|]. split; [intros now; split; reflexivity|reflexivity]. Qed.

Example ex_sample : exists h, p_sample ex_poisson all_first slope_pdf ex_now 0 (Some 7%nat) (Some two_bins) [("a", 1%Q)] = Ok h
  /\ (total (h_values h) == 7)%Q.
Proof. eexists. split; reflexivity. Qed.
Example ex_extended : exists h, p_sample ex_poisson all_first extended_pdf [("yield", 10%Q)] 3 None None [("yield", 20%Q)] = Ok h
  /\ (total (h_values h) == 13)%Q.
Proof. eexists. split; reflexivity. Qed.
Example ex_spaces_ok : spaces_ok slope_pdf (Some two_bins).
Proof. split; [repeat constructor; cbn; intuition discriminate|]. split; [reflexivity|]. split; [discriminate|]. repeat constructor. Qed.
