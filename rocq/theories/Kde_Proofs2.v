(** Proofs for Kde_Theorems.v: the padding. *)
From Verif Require Import Base BaseLemmas Hist_Model Hist_Spec Hist_Proofs Hist_Proofs3 Hist_Proofs5 Conv_Model Kde_Model Kde_Spec Kde_Proofs.
From Coq Require Import Qabs Lqa Permutation.
#[local] Open Scope nat_scope.

(** The entries of [l] where the data satisfies [p] *)
Definition select {A} (p : Q -> bool) (data : list Q) (l : list A) : list A :=
  map snd (filter (fun e => p (fst e)) (combine data l)).
Lemma where_cons p x data : where_ p (x :: data) = (if p x then [0] else []) ++ map S (where_ p data).
Proof.
  unfold where_. cbn [length seq]. rewrite <- seq_shift. cbn [filter nth].
  assert (E : forall l, filter (fun i => p (nth i (x :: data) 0%Q)) (map S l) = map S (filter (fun i => p (nth i data 0%Q)) l)).
  { induction l as [|i l IH]; [reflexivity|]. cbn [map filter]. change (nth (S i) (x :: data) 0%Q) with (nth i data 0%Q).
    destruct (p (nth i data 0%Q)); cbn [map]; rewrite IH; reflexivity. }
  rewrite E. destruct (p x); reflexivity.
Qed.
Lemma gather_shift {A} (y : A) l idx : gather (y :: l) (map S idx) = gather l idx.
Proof. unfold gather. rewrite map_map. reflexivity. Qed.
Lemma gather_select {A} p data : forall (l : list A), length l = length data -> gather l (where_ p data) = Some (select p data l).
Proof.
  induction data as [|x data IH]; intros [|y l] L; try discriminate; [reflexivity|]. rewrite where_cons.
  assert (IHl := IH l ltac:(injection L; auto)). unfold select in *. cbn [combine filter fst]. destruct (p x); cbn [app].
  - unfold gather. cbn [map nth_error all_some]. fold (gather (y :: l) (map S (where_ p data))). rewrite gather_shift, IHl. reflexivity.
  - rewrite gather_shift, IHl. reflexivity.
Qed.
Lemma select_self p data : select p data data = filter p data.
Proof. unfold select. induction data as [|x data IH]; [reflexivity|]. cbn. destruct (p x); cbn; rewrite IH; reflexivity. Qed.
Lemma select_length {A} p data : forall (l : list A), length l = length data -> length (select p data l) = length (filter p data).
Proof.
  induction data as [|x data IH]; intros [|y l] L; try discriminate; [reflexivity|]. unfold select in *. cbn. destruct (p x); cbn; rewrite IH; auto.
Qed.
Lemma image_select p c data : forall l, length l = length data ->
  combine (map (fun x => - x + 2 * c)%Q (filter p data)) (select p data l) = map (image c) (filter (fun e => p (fst e)) (combine data l)).
Proof.
  unfold select, image. induction data as [|x data IH]; intros [|y l] L; try discriminate; [reflexivity|].
  cbn [filter combine fst]. destruct (p x); cbn [map combine fst snd]; [f_equal|]; apply IH; injection L; auto.
Qed.
Lemma image_ones p c data :
  map (fun x => (x, 1%Q)) (map (fun x => - x + 2 * c)%Q (filter p data)) = map (image c) (filter (fun e => p (fst e)) (map (fun x => (x, 1%Q)) data)).
Proof. unfold image. induction data as [|x data IH]; [reflexivity|]. cbn [filter map fst]. destruct (p x); cbn [map fst snd]; rewrite IH; reflexivity. Qed.

Lemma mirror_ok data weights hs area at_ : (forall w, weights = Some w -> length w = length data) ->
  (forall h, hs = Some h -> length h = length data) ->
  mirror data weights hs area at_ =
  Ok (map (fun x => - x + 2 * at_)%Q (filter area data), option_map (select area data) weights, option_map (select area data) hs).
Proof.
  intros W H. unfold mirror, tf_gather. rewrite gather_select by reflexivity. rewrite select_self. cbn [bind].
  assert (O : forall o : option (list Q), (forall l, o = Some l -> length l = length data) ->
    opt_gather o (where_ area data) = Ok (option_map (select area data) o)).
  { intros [l|] L; [|reflexivity]. cbn. unfold tf_gather. rewrite gather_select by (apply L; reflexivity). reflexivity. }
  rewrite (O weights W). cbn [bind]. rewrite (O hs H). reflexivity.
Qed.

(** One side as a list of events, of [l] next to the positions *)
Definition side_low (lo : Q) (d : option Q) (evs : list event) : list event :=
  match d with Some d => map (image lo) (filter (below (lo + d)) evs) | None => [] end.
Definition side_high (hi : Q) (u : option Q) (evs : list event) : list event :=
  match u with Some u => map (image hi) (filter (above (hi - u)) evs) | None => [] end.
Lemma mirrored_sides lo hi d u evs : mirrored lo hi d u evs = side_low lo d evs ++ evs ++ side_high hi u evs.
Proof. reflexivity. Qed.

Lemma combine_app3 {A B} (a1 a2 a3 : list A) (b1 b2 b3 : list B) : length a1 = length b1 -> length a2 = length b2 ->
  combine (a1 ++ a2 ++ a3) (b1 ++ b2 ++ b3) = combine a1 b1 ++ combine a2 b2 ++ combine a3 b3.
Proof.
  intros L1 L2. assert (G : forall (x y : list A) (u v : list B), length x = length u -> combine (x ++ y) (u ++ v) = combine x u ++ combine y v).
  { induction x as [|p x IH]; intros y [|q u] v L; try discriminate; [reflexivity|]. cbn. f_equal. apply IH. injection L; auto. }
  rewrite G by exact L1. rewrite G by exact L2. reflexivity.
Qed.

Section Reflect.
Variables (data : list Q) (weights : option (list Q)) (bw : bw_arg) (lo hi : Q) (d u : option Q) (mode : list (string * option Q)).
Hypothesis HW : forall w, weights = Some w -> length w = length data.
Hypothesis HB : forall h, arraylike bw = Some h -> length h = length data.
Hypothesis Hkeys : existsb (fun e => negb (mem String.eqb (fst e) ["lowermirror"; "uppermirror"]%string)) mode = false.
Hypothesis Hd : d = match lookup String.eqb "lowermirror"%string mode with Some v => v | None => None end.
Hypothesis Hu : u = match lookup String.eqb "uppermirror"%string mode with Some v => v | None => None end.

Definition low_area (x : Q) : bool := match d with Some f => Qlt_bool x (lo + (hi - lo) * f) | None => false end.
Definition high_area (x : Q) : bool := match u with Some f => Qlt_bool (hi - (hi - lo) * f) x | None => false end.
Definition padded (l : list Q) : list Q := select low_area data l ++ l ++ select high_area data l.
Definition padded_data : list Q :=
  map (fun x => - x + 2 * lo)%Q (filter low_area data) ++ data ++ map (fun x => - x + 2 * hi)%Q (filter high_area data).

Lemma filter_false {A} (l : list A) : filter (fun _ => false) l = [].
Proof. induction l; auto. Qed.
Lemma select_none {A} (l : list A) : select (fun _ => false) data l = [].
Proof. unfold select. rewrite filter_false. reflexivity. Qed.

Lemma padreflect_ok : padreflect data mode weights (Some (lo, hi)) bw =
  Ok (padded_data, option_map padded weights,
      match arraylike bw with Some hs => BwValue (Local (padded hs)) | None => bw end).
Proof.
  unfold padreflect. rewrite Hkeys. cbn [fst snd].
  assert (A : forall key o area at_ p, o = match lookup String.eqb key mode with Some v => v | None => None end ->
     (forall x, p x = match o with Some f => area ((hi - lo) * f)%Q x | None => false end) ->
     match lookup String.eqb key mode with
      | Some (Some frac) => mirror data weights (arraylike bw) (area ((hi - lo) * frac)%Q) at_
      | _ => Ok ([], match weights with Some _ => Some [] | None => None end, match arraylike bw with Some _ => Some [] | None => None end)
      end = Ok (map (fun x => - x + 2 * at_)%Q (filter p data), option_map (select p data) weights, option_map (select p data) (arraylike bw))).
  { intros key o area at_ p Eo Ep.
    assert (None_case : o = None -> (Ok ([], match weights with Some _ => Some [] | None => None end, match arraylike bw with Some _ => Some [] | None => None end)
       : result (list Q * option (list Q) * option (list Q))) =
       Ok (map (fun x => - x + 2 * at_)%Q (filter p data), option_map (select p data) weights, option_map (select p data) (arraylike bw))).
    { intros ->. assert (F : filter p data = []) by (rewrite (filter_ext p (fun _ => false)) by exact Ep; apply filter_false).
      assert (S : forall l : list Q, select p data l = []).
      { intros l. unfold select. rewrite (filter_ext _ (fun _ => false)) by (intros e; apply Ep). rewrite filter_false. reflexivity. }
      rewrite F. destruct weights, (arraylike bw); cbn; rewrite ?S; reflexivity. }
    destruct (lookup String.eqb key mode) as [[f|]|] eqn:E; [|apply None_case; exact Eo|apply None_case; exact Eo].
    subst o. rewrite mirror_ok by assumption.
    assert (F : filter (area ((hi - lo) * f)%Q) data = filter p data) by (apply filter_ext; intros x; symmetry; apply Ep).
    assert (S : forall l : list Q, select (area ((hi - lo) * f)%Q) data l = select p data l).
    { intros l. unfold select. f_equal. apply filter_ext. intros e. symmetry. apply Ep. }
    rewrite F. destruct weights, (arraylike bw); cbn; rewrite ?S; reflexivity. }
  rewrite (A "lowermirror"%string d (fun dx x => Qlt_bool x (lo + dx)) lo low_area Hd) by reflexivity. cbn [bind].
  rewrite (A "uppermirror"%string u (fun dx x => Qlt_bool (hi - dx) x) hi high_area Hu) by reflexivity. cbn [bind fst snd].
  destruct weights as [w|], (arraylike bw) as [hs|]; cbn [option_map opt_app]; reflexivity.
Qed.

Lemma combine_padded l : length l = length data ->
  combine padded_data (padded l) = mirrored lo hi (of_range lo hi d) (of_range lo hi u) (combine data l).
Proof.
  clear Hd Hu. intros L. unfold padded_data, padded. rewrite combine_app3; [|rewrite map_length; symmetry; apply select_length; exact L|symmetry; exact L].
  rewrite !image_select by exact L. rewrite mirrored_sides. f_equal; [|f_equal].
  - unfold low_area, side_low, of_range. destruct d as [f|]; [reflexivity|]. rewrite filter_false. reflexivity.
  - unfold high_area, side_high, of_range. destruct u as [f|]; [reflexivity|]. rewrite filter_false. reflexivity.
Qed.
Lemma ones_padded : map (fun x => (x, 1%Q)) padded_data = mirrored lo hi (of_range lo hi d) (of_range lo hi u) (map (fun x => (x, 1%Q)) data).
Proof.
  clear Hd Hu. unfold padded_data. rewrite !map_app, !image_ones, mirrored_sides. f_equal; [|f_equal].
  - unfold low_area, side_low, of_range. destruct d as [f|]; [reflexivity|]. rewrite filter_false. reflexivity.
  - unfold high_area, side_high, of_range. destruct u as [f|]; [reflexivity|]. rewrite filter_false. reflexivity.
Qed.
Lemma padded_length l : length l = length data -> length (padded l) = length padded_data.
Proof.
  intros L. unfold padded, padded_data. rewrite !app_length, !map_length, !select_length by exact L. rewrite L. reflexivity.
Qed.
Lemma events_padded : with_weights padded_data (option_map padded weights) = mirrored lo hi (of_range lo hi d) (of_range lo hi u) (with_weights data weights).
Proof. destruct weights as [w|]; cbn [option_map with_weights]; [apply combine_padded; apply HW; reflexivity|apply ones_padded]. Qed.
Lemma lengths_padded w : option_map padded weights = Some w -> length w = length padded_data.
Proof. destruct weights as [v|]; cbn; [|discriminate]. intros [= <-]. apply padded_length. apply HW. reflexivity. Qed.
End Reflect.

(** All paddings that are not callables *)
Lemma fractions_dict d a b : fractions (PadDict d) = Some (a, b) ->
  existsb (fun e => negb (mem String.eqb (fst e) ["lowermirror"; "uppermirror"]%string)) d = false /\
  a = match lookup String.eqb "lowermirror"%string d with Some v => v | None => None end /\
  b = match lookup String.eqb "uppermirror"%string d with Some v => v | None => None end.
Proof.
  cbn [fractions]. destruct (forallb _ d) eqn:E; [|discriminate]. intros [= <- <-]. split; [|split; reflexivity].
  rewrite forallb_forall in E. destruct (existsb _ d) eqn:X; [|reflexivity]. apply existsb_exists in X. destruct X as [e [I N]].
  specialize (E e I). cbn in N. rewrite orb_false_r in N.
  exfalso. destruct (String.eqb (fst e) "lowermirror"), (String.eqb (fst e) "uppermirror"); cbn in *; discriminate.
Qed.
Lemma mirrored_none lo hi evs : mirrored lo hi None None evs = evs.
Proof. unfold mirrored. cbn. apply app_nil_r. Qed.

Lemma convert_padded xs weights pad lo hi bw a b : (forall w, weights = Some w -> length w = length xs) ->
  (forall h, arraylike bw = Some h -> length h = length xs) -> fractions pad = Some (a, b) ->
  exists d' w' bw', convert_init (Array xs) weights pad (Some (lo, hi)) bw = Ok (d', w', bw') /\
    (forall w, w' = Some w -> length w = length d') /\
    with_weights d' w' = mirrored lo hi (of_range lo hi a) (of_range lo hi b) (with_weights xs weights) /\
    match arraylike bw with
    | None => bw' = bw
    | Some hs => exists hs', bw' = BwValue (Local hs') /\ length hs' = length d' /\
                   combine d' hs' = mirrored lo hi (of_range lo hi a) (of_range lo hi b) (combine xs hs)
    end.
Proof.
  intros W H F. unfold convert_init. cbn [bind fst snd].
  assert (G : forall mode, existsb (fun e => negb (mem String.eqb (fst e) ["lowermirror"; "uppermirror"]%string)) mode = false ->
     a = match lookup String.eqb "lowermirror"%string mode with Some v => v | None => None end ->
     b = match lookup String.eqb "uppermirror"%string mode with Some v => v | None => None end ->
     exists d' w' bw', padreflect xs mode weights (Some (lo, hi)) bw = Ok (d', w', bw') /\
    (forall w, w' = Some w -> length w = length d') /\
    with_weights d' w' = mirrored lo hi (of_range lo hi a) (of_range lo hi b) (with_weights xs weights) /\
    match arraylike bw with
    | None => bw' = bw
    | Some hs => exists hs', bw' = BwValue (Local hs') /\ length hs' = length d' /\
                   combine d' hs' = mirrored lo hi (of_range lo hi a) (of_range lo hi b) (combine xs hs)
    end).
  { intros mode K A B. rewrite (padreflect_ok xs weights bw lo hi a b mode W H K A B).
    eexists _, _, _. split; [reflexivity|]. split; [apply lengths_padded; exact W|]. split; [apply events_padded; exact W|].
    destruct (arraylike bw) as [hs|] eqn:E; [|reflexivity]. exists (padded xs lo hi a b hs).
    split; [reflexivity|]. split; [apply padded_length; apply H; reflexivity|apply combine_padded; apply H; reflexivity]. }
  destruct pad as [| |q|d|f].
  - cbn in F. injection F as <- <-. exists xs, weights, bw. split; [reflexivity|]. split; [exact W|]. cbn [of_range].
    rewrite mirrored_none. split; [reflexivity|]. destruct (arraylike bw) as [hs|] eqn:E; [|reflexivity]. exists hs. rewrite mirrored_none.
    split; [|split; [apply H; reflexivity|reflexivity]]. destruct bw as [| |[|l]|]; try discriminate. unfold arraylike in E.
    destruct (Nat.ltb 1 (length l)); [congruence|discriminate].
  - cbn in F. injection F as <- <-. apply G; reflexivity.
  - cbn in F. injection F as <- <-. apply G; reflexivity.
  - destruct (fractions_dict _ _ _ F) as [K [A B]]. apply G; assumption.
  - discriminate.
Qed.
Lemma convert_bad_key xs weights d limits bw : fractions (PadDict d) = None ->
  convert_init (Array xs) weights (PadDict d) limits bw = Err ValueError.
Proof.
  cbn [fractions]. destruct (forallb _ d) eqn:E; [discriminate|]. intros _. unfold convert_init. cbn [bind fst snd]. unfold padreflect.
  destruct (existsb _ d) eqn:X; [reflexivity|]. exfalso. assert (T : forallb (fun e => String.eqb (fst e) "lowermirror" || String.eqb (fst e) "uppermirror") d = true).
  { apply forallb_forall. intros e I. destruct (String.eqb (fst e) "lowermirror" || String.eqb (fst e) "uppermirror") eqn:Y; [reflexivity|].
    exfalso. assert (Z : existsb (fun e => negb (mem String.eqb (fst e) ["lowermirror"; "uppermirror"]%string)) d = true).
    { apply existsb_exists. exists e. split; [exact I|]. cbn. rewrite orb_false_r.
      apply orb_false_iff in Y. destruct Y as [Y1 Y2]. rewrite Y1, Y2. reflexivity. }
    rewrite X in Z. discriminate. }
  rewrite T in E. discriminate.
Qed.

(** ** Sums over the mirrored events *)
Lemma sum_mirrored (f : Q -> Q) lo hi d u evs :
  (qsum (map (fun e => snd e * f (fst e)) (mirrored lo hi (Some d) (Some u) evs)) ==
   qsum (map (fun e => snd e * (f (fst e) + (if below (lo + d) e then f (- fst e + 2 * lo) else 0) + (if above (hi - u) e then f (- fst e + 2 * hi) else 0))) evs))%Q.
Proof.
  unfold mirrored. rewrite !map_app, !qsum_app, !map_map. cbn [image fst snd].
  rewrite !qsum_filter. rewrite <- !qsum_map_add. apply qsum_ext. intros e _.
  destruct (below (lo + d) e), (above (hi - u) e); ring.
Qed.
Lemma below_t c e : below c e = true <-> (fst e < c)%Q.
Proof. unfold below. rewrite negb_true_iff. destruct (Qle_bool c (fst e)) eqn:E; [apply Qle_bool_iff in E|]; split; intros; try discriminate; try lra; auto.
  apply Qnot_le_lt. intros L. apply Qle_bool_iff in L. congruence. Qed.
Lemma below_f c e : below c e = false <-> (c <= fst e)%Q.
Proof. unfold below. rewrite negb_false_iff. apply Qle_bool_iff. Qed.
Lemma above_t c e : above c e = true <-> (c < fst e)%Q.
Proof. unfold above. rewrite negb_true_iff. destruct (Qle_bool (fst e) c) eqn:E; [apply Qle_bool_iff in E|]; split; intros; try discriminate; try lra; auto.
  apply Qnot_le_lt. intros L. apply Qle_bool_iff in L. congruence. Qed.
Lemma above_f c e : above c e = false <-> (fst e <= c)%Q.
Proof. unfold above. rewrite negb_false_iff. apply Qle_bool_iff. Qed.

Lemma mirrored_mass C h r lo hi d u evs : symmetric_cdf C h r -> (0 <= r)%Q -> (r <= d)%Q -> (r <= u)%Q -> (r <= hi - lo)%Q -> inside lo hi evs ->
  (qsum (map (fun e => snd e * (C (fst e) h hi - C (fst e) h lo)) (mirrored lo hi (Some d) (Some u) evs)) == weight_of evs)%Q.
Proof.
  intros HC R D U W I. rewrite (sum_mirrored (fun x => C x h hi - C x h lo)%Q). unfold weight_of. apply qsum_ext. intros e Ie. destruct (I e Ie) as [A B].
  set (x := fst e) in *.
  assert (L : ((if below (lo + d) e then C (- x + 2 * lo) h hi - C (- x + 2 * lo) h lo else 0) == C x h lo)%Q).
  { destruct (below (lo + d) e) eqn:E.
    - destruct (HC (- x + 2 * lo) hi)%Q as [H1 _]. destruct (HC x lo) as [_ [_ H2]]. rewrite H1 by (fold x in B; lra). rewrite H2. ring.
    - apply below_f in E. fold x in E. destruct (HC x lo) as [_ [H2 _]]. rewrite H2 by lra. reflexivity. }
  assert (H : ((if above (hi - u) e then C (- x + 2 * hi) h hi - C (- x + 2 * hi) h lo else 0) == 1 - C x h hi)%Q).
  { destruct (above (hi - u) e) eqn:E.
    - destruct (HC (- x + 2 * hi) lo)%Q as [_ [H1 _]]. destruct (HC x hi) as [_ [_ H2]]. rewrite H1 by lra. rewrite H2. ring.
    - apply above_f in E. fold x in E. destruct (HC x hi) as [H2 _]. rewrite H2 by lra. ring. }
  rewrite L, H. ring.
Qed.

Lemma kernel_t K x h t t' : kernel_ok K -> (t == t')%Q -> (K x h t == K x h t')%Q.
Proof. intros H E. apply H; [reflexivity|reflexivity|exact E]. Qed.
Lemma mirrored_even K h r lo hi d u evs s : kernel_ok K -> symmetric_kernel K h -> reaches K h r -> inside lo hi evs ->
  (0 <= r)%Q -> (0 <= s)%Q -> (s + r <= d)%Q -> (s + r <= hi - lo)%Q ->
  (estimate K h (mirrored lo hi (Some d) (Some u) evs) (lo - s) == estimate K h (mirrored lo hi (Some d) (Some u) evs) (lo + s))%Q.
Proof.
  intros OK HS HR I R S D W. unfold estimate, average.
  assert (E : (qsum (map (fun e => snd e * K (fst e) h (lo - s)) (mirrored lo hi (Some d) (Some u) evs)) ==
               qsum (map (fun e => snd e * K (fst e) h (lo + s)) (mirrored lo hi (Some d) (Some u) evs)))%Q).
  { rewrite (sum_mirrored (fun x => K x h (lo - s))%Q), (sum_mirrored (fun x => K x h (lo + s))%Q). apply qsum_ext. intros e Ie.
    destruct (I e Ie) as [A B]. set (x := fst e) in *.
    assert (HH : forall t, (t <= hi - r -> (if above (hi - u) e then K (- x + 2 * hi) h t else 0) == 0)%Q).
    { intros t T. destruct (above (hi - u) e); [|reflexivity]. apply HR. rewrite Qabs_pos; lra. }
    rewrite !HH by lra.
    destruct (below (lo + d) e) eqn:Eb.
    - rewrite (HS x lo (lo - s)%Q), (HS x lo (lo + s)%Q).
      rewrite (kernel_t K x h (- (lo - s) + 2 * lo)%Q (lo + s)%Q OK) by ring.
      rewrite (kernel_t K x h (- (lo + s) + 2 * lo)%Q (lo - s)%Q OK) by ring. ring.
    - apply below_f in Eb. fold x in Eb. assert (Z1 : (K x h (lo - s) == 0)%Q) by (apply HR; rewrite Qabs_pos; lra).
      assert (Z2 : (K x h (lo + s) == 0)%Q) by (apply HR; rewrite Qabs_pos; lra). rewrite Z1, Z2. reflexivity. }
  rewrite E. reflexivity.
Qed.
Lemma mirrored_even_up K h r lo hi d u evs s : kernel_ok K -> symmetric_kernel K h -> reaches K h r -> inside lo hi evs ->
  (0 <= r)%Q -> (0 <= s)%Q -> (s + r <= u)%Q -> (s + r <= hi - lo)%Q ->
  (estimate K h (mirrored lo hi (Some d) (Some u) evs) (hi - s) == estimate K h (mirrored lo hi (Some d) (Some u) evs) (hi + s))%Q.
Proof.
  intros OK HS HR I R S D W. unfold estimate, average.
  assert (E : (qsum (map (fun e => snd e * K (fst e) h (hi - s)) (mirrored lo hi (Some d) (Some u) evs)) ==
               qsum (map (fun e => snd e * K (fst e) h (hi + s)) (mirrored lo hi (Some d) (Some u) evs)))%Q).
  { rewrite (sum_mirrored (fun x => K x h (hi - s))%Q), (sum_mirrored (fun x => K x h (hi + s))%Q). apply qsum_ext. intros e Ie.
    destruct (I e Ie) as [A B]. set (x := fst e) in *.
    assert (HH : forall t, (lo + r <= t -> (if below (lo + d) e then K (- x + 2 * lo) h t else 0) == 0)%Q).
    { intros t T. destruct (below (lo + d) e); [|reflexivity]. apply HR. rewrite Qabs_neg; lra. }
    rewrite !HH by lra.
    destruct (above (hi - u) e) eqn:Eb.
    - rewrite (HS x hi (hi - s)%Q), (HS x hi (hi + s)%Q).
      rewrite (kernel_t K x h (- (hi - s) + 2 * hi)%Q (hi + s)%Q OK) by ring.
      rewrite (kernel_t K x h (- (hi + s) + 2 * hi)%Q (hi - s)%Q OK) by ring. ring.
    - apply above_f in Eb. fold x in Eb. assert (Z1 : (K x h (hi - s) == 0)%Q) by (apply HR; rewrite Qabs_neg; lra).
      assert (Z2 : (K x h (hi + s) == 0)%Q) by (apply HR; rewrite Qabs_neg; lra). rewrite Z1, Z2. reflexivity. }
  rewrite E. reflexivity.
Qed.
(** Further inside than the reach of the kernel the mirrored events are not seen. *)
Lemma mirrored_inside K h r lo hi d u evs t : reaches K h r -> inside lo hi evs ->
  (0 <= r)%Q -> (lo + r <= t)%Q -> (t <= hi - r)%Q -> ~ (weight_of evs == 0)%Q -> ~ (weight_of (mirrored lo hi (Some d) (Some u) evs) == 0)%Q ->
  (weight_of (mirrored lo hi (Some d) (Some u) evs) * estimate K h (mirrored lo hi (Some d) (Some u) evs) t == weight_of evs * estimate K h evs t)%Q.
Proof.
  intros HR I R L H N1 N2. unfold estimate, average.
  assert (E : (qsum (map (fun e => snd e * K (fst e) h t) (mirrored lo hi (Some d) (Some u) evs)) == qsum (map (fun e => snd e * K (fst e) h t) evs))%Q).
  { rewrite (sum_mirrored (fun x => K x h t)%Q). apply qsum_ext. intros e Ie. destruct (I e Ie) as [A B]. set (x := fst e) in *.
    assert (H1 : ((if below (lo + d) e then K (- x + 2 * lo) h t else 0) == 0)%Q).
    { destruct (below (lo + d) e); [|reflexivity]. apply HR. rewrite Qabs_neg; lra. }
    assert (H2 : ((if above (hi - u) e then K (- x + 2 * hi) h t else 0) == 0)%Q).
    { destruct (above (hi - u) e); [|reflexivity]. apply HR. rewrite Qabs_pos; lra. }
    rewrite H1, H2. ring. }
  rewrite E. field. split; assumption.
Qed.
