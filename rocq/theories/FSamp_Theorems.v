(** Sampling from combined PDFs (C46, C59, C60). *)
From Verif Require Import Base FSamp_Model FSamp_Spec FSamp_Proofs FSamp_Proofs2.
From Coq Require Import Permutation Lqa Lia.
#[local] Open Scope nat_scope.
Open Scope string_scope. Open Scope list_scope.

(** C46: a sample of n events, of any combination of sums, products and truncated PDFs (with their observables in order), has exactly n rows,
    whatever the random numbers; it fails only if the direct sampling of some PDF fails. *)
Theorem C46_number multinomial shuffle draw poisson integral eager :
  good_random multinomial shuffle draw ->
  forall t n b s, ordered t ->
    match public_sample multinomial shuffle draw poisson integral eager t (Given n) b s with
    | Ok rows => length rows = n
    | Err e => draw_fails draw e
    end.
Proof.
  intros G t n b s HO. pose proof (sample_good _ _ _ integral eager G t HO n b s) as H. cbn.
  destruct (sample _ _ _ _ _ t n b s); [apply H|exact H].
Qed.

(** C46: the sample of a sum is made of samples of its components, of sizes that add up to the number asked for; no event is lost or added. *)
Theorem C46_sum_split multinomial shuffle draw integral eager :
  good_random multinomial shuffle draw ->
  forall o y fracs pdfs n b s rows, ordered (SumT o y fracs pdfs) ->
    sample multinomial shuffle draw integral eager (SumT o y fracs pdfs) n b s = Ok rows ->
    exists counts parts, length counts = length pdfs /\ length parts = length pdfs /\ sum_nat counts = n /\ counts = multinomial s n fracs /\
      (forall k p c, nth_error pdfs k = Some p -> nth_error counts k = Some c ->
         exists part, nth_error parts k = Some part /\ length part = c /\
                      sample multinomial shuffle draw integral eager p c b (k :: s) = Ok part) /\
      Permutation (concat parts) rows.
Proof.
  intros G o y fs ps n b s rows HO ES.
  destruct (sample_fine _ _ _ integral eager G _ HO n b s rows ES) as (E & _).
  destruct HO as (HL & NE & HA). rewrite tensor_sum in E.
  destruct (sum_go _ _ _ _ _ b s 0 ps (multinomial s n fs)) as [rowss|] eqn:EG; [|discriminate]. cbn [bind] in E.
  assert (LC : length (multinomial s n fs) = length ps) by now rewrite (g_length _ _ _ G).
  destruct (sum_go_samples _ _ _ _ _ b s ps _ 0 rowss LC EG) as [LR N].
  exists (multinomial s n fs), rowss. split; [exact LC|]. split; [exact LR|]. split; [apply (g_sum _ _ _ G); intros ->; now destruct ps|].
  split; [reflexivity|]. split.
  - intros k p c HP HC. destruct (N k p c HP HC) as (r & HN & HS). exists r. split; [assumption|]. cbn [plus] in HS. split; [|exact HS].
    assert (HOp : ordered p).
    { apply nth_error_In in HP. clear - HA HP. induction ps as [|q ps IH]; [easy|]. destruct HP as [->|HP]; [apply HA|apply IH; [apply HA|assumption]]. }
    destruct (sample_fine _ _ _ integral eager G p HOp c b (k :: s) r HS) as (_ & L & _). exact L.
  - unfold concat_rows in E. destruct (map (fun p => length (t_obs p)) ps) as [|w ws]; [discriminate|].
    destruct (forallb (Nat.eqb w) ws); [|discriminate]. cbn [bind] in E. injection E as <-. apply (g_shuffle _ _ _ G).
Qed.

(** C46: a row of the sample of a product consists of a row of the sample of each factor: seen in the observables of a factor that shares none of
    them, the sample is a sample of that factor, of the same number of events. *)
Theorem C46_product multinomial shuffle draw integral eager :
  good_random multinomial shuffle draw ->
  forall o y l1 p l2 n b s rows, ordered (ProdT o y (l1 ++ p :: l2)) ->
    (forall q x, In q (l1 ++ l2) -> In x (t_obs p) -> ~ In x (t_obs q)) -> NoDup (t_obs p) ->
    sample multinomial shuffle draw integral eager (ProdT o y (l1 ++ p :: l2)) n b s = Ok rows ->
    sample multinomial shuffle draw integral eager p n b (length l1 :: s) = Ok (map (project (t_obs p)) rows).
Proof.
  intros G o y l1 p l2 n b s rows HO HD ND ES. eapply product_project; eauto.
  unfold overlaps. destruct (existsb (shared (l1 ++ p :: l2)) (t_obs p)) eqn:E; [|reflexivity]. exfalso.
  apply existsb_exists in E as (x & HX & E). unfold shared in E. apply Nat.ltb_lt in E.
  rewrite flat_map_app in E. cbn in E. rewrite !filter_app, !app_length in E.
  assert (Z : forall l, (forall q, In q l -> In q (l1 ++ l2)) -> filter (String.eqb x) (flat_map t_obs l) = []).
  { intros l HL. destruct (filter (String.eqb x) (flat_map t_obs l)) as [|a r] eqn:EF; [reflexivity|]. exfalso.
    assert (In a (filter (String.eqb x) (flat_map t_obs l))) as HI by (rewrite EF; now left).
    apply filter_In in HI as [HI EA]. apply String.eqb_eq in EA as <-. apply in_flat_map in HI as (q & HQ & HI). exact (HD q x (HL q HQ) HX HI). }
  rewrite (Z l1), (Z l2) in E by (intros q HQ; apply in_app_iff; auto). cbn in E.
  assert (length (filter (String.eqb x) (t_obs p)) <= 1).
  { clear - ND. induction ND as [|a l HN ND IH]; cbn; [lia|]. destruct (String.eqb x a) eqn:E; [|exact IH]. apply String.eqb_eq in E as <-. cbn.
    destruct (filter (String.eqb x) l) as [|c r] eqn:EF; [cbn; lia|]. exfalso. assert (In c (filter (String.eqb x) l)) as HI by (rewrite EF; now left).
    apply filter_In in HI as [HI EA]. apply String.eqb_eq in EA as <-. contradiction. }
  lia.
Qed.

(** C59: the columns of a sample are those of the PDF, each under its own name, and each value is within the limits asked for (if the observables of
    sums and products are in the order of their parts). *)
Theorem C59_columns_partial multinomial shuffle draw poisson integral eager :
  good_random multinomial shuffle draw ->
  forall t n b s rows, ordered t ->
    public_sample multinomial shuffle draw poisson integral eager t (Given n) b s = Ok rows ->
    Forall (columns (t_obs t)) rows /\ Forall (within b) rows.
Proof.
  intros G t n b s rows HO E. destruct (sample_fine _ _ _ integral eager G t HO n b s rows E) as (_ & _ & C & W). auto.
Qed.
(** C59: the events of a truncated PDF lie within its limits, in eager mode and in a graph. *)
Theorem C59_truncated multinomial shuffle draw poisson integral eager :
  good_random multinomial shuffle draw ->
  forall o y sp limits p n b s rows, ordered (TruncT o y sp limits p) ->
    public_sample multinomial shuffle draw poisson integral eager (TruncT o y sp limits p) (Given n) b s = Ok rows ->
    Forall (in_limits o limits) rows.
Proof. intros G o y sp ls p n b s rows HO E. eapply trunc_limits; eauto. Qed.

(** C60: sampling an extended PDF without a number: the PDFs found in it have yields that add up to its yield, and the sample is the concatenation of
    their samples, each with its own Poisson number of events. *)
Theorem C60_extended_partial multinomial shuffle draw poisson integral eager :
  good_random multinomial shuffle draw ->
  forall t b s, ordered t -> additive t -> exists ps,
    extract t = Ok ps /\ (fold_right (fun p a => yield_of p + a) 0 ps == yield_of t)%Q /\
    match public_sample multinomial shuffle draw poisson integral eager t NoNumber b s with
    | Ok rows =>
      length rows = sum_nat (poisson_numbers poisson s ps) /\ Forall (columns (t_obs t)) rows /\ Forall (within b) rows /\
      exists parts, rows = concat parts /\ length parts = length ps /\
        forall k p, nth_error ps k = Some p -> exists part, nth_error parts k = Some part /\
          sample multinomial shuffle draw integral eager p (poisson (k :: s) (yield_of p)) b (k :: s) = Ok part
    | Err e => draw_fails draw e
    end.
Proof.
  intros G t b s HO HA. destruct (extract_yields t HA) as (ps & E & EY).
  destruct (extended_good _ _ _ poisson integral eager G t b s HO HA) as (ps' & E' & H).
  rewrite E in E'. injection E' as <-. exists ps. split; [exact E|]. split; [exact EY|]. pose proof (extract_extended t ps E) as HE.
  destruct (public_sample _ _ _ _ _ _ t NoNumber b s) as [rows|e]; [|exact H].
  destruct H as ((L & C & W) & parts & EC & LP & N). rewrite (counts_numbers poisson s ps HE) in L, N.
  repeat (split; [assumption|]). exists parts. repeat (split; [assumption|]). intros k p HP. eapply N; [exact HP|].
  unfold poisson_numbers. assert (HK : k < length ps) by (apply nth_error_Some; congruence).
  rewrite nth_error_map, (nth_error_nth' _ 0) by now rewrite seq_length. rewrite seq_nth by assumption. cbn.
  now rewrite (nth_error_nth ps k (Leaf 0 [] None) HP).
Qed.
(** C60: a PDF without a yield needs a number; any text counts as no number at all. *)
Theorem C60_needs_number multinomial shuffle draw poisson integral eager t b s :
  t_extended t = false -> public_sample multinomial shuffle draw poisson integral eager t NoNumber b s = Err ValueError.
Proof. intros H. unfold public_sample. now rewrite H. Qed.
Theorem C60_any_text multinomial shuffle draw poisson integral eager t w b s :
  public_sample multinomial shuffle draw poisson integral eager t (Text w) b s =
  public_sample multinomial shuffle draw poisson integral eager t NoNumber b s.
Proof. reflexivity. Qed.

(** Random numbers for the examples: the first component gets half of the events, the last the rest; samples are reversed; every value is the lower limit
    (for a truncated PDF, the lower end of the first of its limits). *)
Fixpoint last_gets (n : nat) (fs : list Q) : list nat := match fs with [] => [] | [_] => [n] | _ :: fs => 0 :: last_gets n fs end.
Definition ex_multinomial (s : list nat) (n : nat) (fs : list Q) : list nat :=
  match fs with [] => [] | [_] => [n] | _ :: fs => Nat.div2 n :: last_gets (n - Nat.div2 n) fs end.
Definition low (b : box) (o : string) : Q := match lookup String.eqb o b with Some (lo, _) => lo | None => 0 end.
Definition feasible (b : box) (r : row) : bool := forallb (fun c => inside_box b (fst c) (snd c)) r.
Definition ex_row (t : tree) (b : box) : row :=
  match t with
  | TruncT o _ _ (l :: _) _ => [(o, fst l)]
  | _ => map (fun o => (o, low b o)) (t_obs t)
  end.
Definition ex_ok (t : tree) : bool := match t with TruncT _ _ _ [] _ => false | TruncT _ _ _ (l :: _) _ => Qle_bool (fst l) (snd l) | _ => true end.
Definition ex_draw (s : list nat) (t : tree) (n : nat) (b : box) : result (list row) :=
  if ex_ok t && feasible b (ex_row t b) then Ok (repeat (ex_row t b) n) else Err (UserError 0).
Definition ex_shuffle (s : list nat) (rows : list row) : list row := rev rows.
Definition ex_poisson (s : list nat) (y : Q) : nat := Z.to_nat (Qnum y).
Definition ex_integral (t : tree) (l : Q * Q) : Q := (snd l - fst l)%Q.
Example ex_good : good_random ex_multinomial ex_shuffle ex_draw.
Proof.
  assert (L1 : forall fs n, length (last_gets n fs) = length fs).
  { induction fs as [|f [|f' fs] IH]; intros n; cbn in *; auto. }
  assert (L2 : forall fs n, fs <> [] -> sum_nat (last_gets n fs) = n).
  { induction fs as [|f [|f' fs] IH]; intros n H; cbn in *; [easy|lia|]. apply IH. discriminate. }
  assert (IR : forall n (r r' : row), In r' (repeat r n) -> r' = r) by (intros; eapply repeat_spec; eauto).
  constructor.
  - intros s n [|f [|f' fs]]; [reflexivity..|]. cbn [ex_multinomial length]. now rewrite L1.
  - intros s n [|f [|f' fs]] H; [easy|cbn; lia|]. cbn [ex_multinomial]. change (Nat.div2 n + sum_nat (last_gets (n - Nat.div2 n) (f' :: fs)) = n).
    rewrite L2 by discriminate. pose proof (Nat.div2_decr n (S n)). destruct n; [reflexivity|]. pose proof (Nat.lt_div2 (S n)). lia.
  - intros s rows. apply Permutation_rev.
  - intros s t n b rows E. unfold ex_draw in E. destruct (ex_ok t && feasible b (ex_row t b)) eqn:EF; [|discriminate]. injection E as <-.
    apply andb_true_iff in EF as [EO EF]. split; [apply repeat_length|]. split; apply Forall_forall; intros r HI; apply IR in HI as ->.
    + unfold ex_row, columns. destruct t as [? ? ?|? ? ? ?|? ? ?|? ? ? [|l ls] ?]; cbn; try rewrite map_map; try apply map_id; reflexivity.
    + intros o v lo hi HI HL. unfold feasible in EF. rewrite forallb_forall in EF. specialize (EF _ HI). cbn in EF. unfold inside_box in EF.
      rewrite HL in EF. apply andb_true_iff in EF as [E1 E2]. now apply Qle_bool_iff in E1, E2.
  - intros s o y sp ls p n b rows E. unfold ex_draw in E. destruct (ex_ok _ && _) eqn:EF; [|discriminate]. injection E as <-.
    apply andb_true_iff in EF as [EO _]. cbn in EO. destruct ls as [|l ls]; [discriminate|]. apply Qle_bool_iff in EO.
    apply Forall_forall; intros r HI; apply IR in HI as ->. exists (fst l), l. split; [reflexivity|]. split; [now left|]. split; [apply Qle_refl|assumption].
Qed.
Notation ex_sample := (public_sample ex_multinomial ex_shuffle ex_draw ex_poisson ex_integral true).

Definition ex_box : box := [("x", (0, 1)); ("y", (10, 11))]%Q.
Definition ex_a := Leaf 0 ["x"] None.
Definition ex_b := Leaf 1 ["y"] None.
Definition ex_sum := SumT ["x"; "y"] None [0.5; 0.5]%Q [ProdT ["x"; "y"] None [ex_a; ex_b]; Leaf 2 ["x"; "y"] None].
Example ex_ordered : ordered ex_sum.
Proof. cbn. repeat split; try discriminate. right. repeat split. Qed.
Example ex_sum_sample : ex_sample ex_sum (Given 3) ex_box [] = Ok (repeat [("x", 0); ("y", 10)]%Q 3).
Proof. reflexivity. Qed.
Definition ex_trunc := TruncT "x" None (0, 10)%Q [(1, 2); (5, 7)]%Q ex_a.
Example ex_trunc_ordered : ordered ex_trunc.
Proof. cbn. repeat split; try discriminate. repeat constructor; discriminate. Qed.
Example ex_trunc_sample : ex_sample ex_trunc (Given 3) [("x", (0, 10))]%Q [] = Ok [[("x", 1)]; [("x", 5)]; [("x", 5)]]%Q.
Proof. reflexivity. Qed.
Definition ex_ext := SumT ["x"] (Some 5)%Q [0.4; 0.6]%Q [Leaf 0 ["x"] (Some 2)%Q; SumT ["x"] (Some 3)%Q [1/3; 2/3]%Q [Leaf 1 ["x"] (Some 1)%Q; Leaf 2 ["x"] (Some 2)%Q]].
Example ex_ext_ok : ordered ex_ext /\ additive ex_ext.
Proof.
  split; [cbn; repeat split; discriminate|]. cbn. split; [discriminate|]. right. split; [unfold yield_of; cbn; lra|].
  repeat split; try discriminate. right. split; [unfold yield_of; cbn; lra|]. repeat split; discriminate.
Qed.
(** a sum with a yield of its own and parts without yields is sampled as a whole *)
Example ex_own : additive (SumT ["x"] (Some 4)%Q [0.4; 0.6]%Q [ex_a; ex_trunc]) /\
  ex_sample (SumT ["x"] (Some 4)%Q [0.4; 0.6]%Q [ex_a; ex_trunc]) NoNumber [("x", (0, 10))]%Q [] = Ok [[("x", 5)]; [("x", 1)]; [("x", 0)]; [("x", 0)]]%Q.
Proof.
  split; [|reflexivity]. cbn. split; [discriminate|]. left. split; [discriminate|]. intros p [<-|[<-|[]]]; reflexivity.
Qed.
Example ex_ext_sample : ex_sample ex_ext NoNumber [("x", (0, 1))]%Q [] = Ok (repeat [("x", 0)]%Q 5).
Proof. reflexivity. Qed.

(** C59: with the components of a sum in different orders, events are lost, and values stand under the wrong name. Both PDFs have the observables x and y;
    the sample of two events has one; in the second sample, the value of y is called x. *)
Definition mixed_sum := SumT ["x"; "y"] None [0.5; 0.5]%Q [Leaf 0 ["x"; "y"] None; Leaf 1 ["y"; "x"] None].
Theorem C59_sum_order_refuted :
  (exists rows, ex_sample mixed_sum (Given 2) ex_box [] = Ok rows /\ length rows = 1) /\
  (exists rows, ex_sample mixed_sum (Given 2) [("x", (1, 10)); ("y", (1, 9))]%Q [] = Ok rows /\ ~ Forall (columns ["x"; "y"]) rows).
Proof.
  split.
  - eexists. split; reflexivity.
  - eexists. split; [reflexivity|]. intros H. inversion H as [|? ? C ?]. discriminate C.
Qed.
(** C59: a product whose observables are given in another order, or whose overlapping factors come first, has the columns of its sample under the wrong names. *)
Theorem C59_product_order_refuted :
  (exists rows, ex_sample (ProdT ["y"; "x"] None [ex_a; ex_b]) (Given 2) ex_box [] = Ok rows /\ rows = []) /\
  (exists rows, ex_sample (ProdT ["x"; "y"; "z"] None [Leaf 0 ["x"; "y"] None; Leaf 1 ["y"] None; Leaf 2 ["z"] None]) (Given 2)
                  [("x", (1, 8)); ("y", (1, 9)); ("z", (1, 10))]%Q [] = Ok rows /\
                length rows = 2 /\ Forall (columns ["z"; "x"; "y"]) rows).
Proof.
  split; eexists; (split; [reflexivity|]); [reflexivity|]. split; [reflexivity|]. repeat constructor.
Qed.
(** C60: a truncated PDF of an extended PDF is sampled as if it were not truncated: with the yield of the whole, also outside its limits. *)
Theorem C60_truncated_refuted : let t := TruncT "x" (Some 2)%Q (0, 10)%Q [(1, 3)]%Q (Leaf 0 ["x"] (Some 10)%Q) in
  ordered t /\ exists rows, ex_sample t NoNumber [("x", (0, 10))]%Q [] = Ok rows /\ length rows = ex_poisson [0] 10 /\
    ~ Exists (in_limits "x" [(1, 3)]%Q) rows.
Proof.
  split; [cbn; repeat split; [discriminate|repeat constructor; discriminate]|]. eexists. split; [reflexivity|]. split; [reflexivity|].
  intros H. apply Exists_exists in H as (r & HI & v & l & -> & HL & H1 & H2). destruct HL as [<-|[]].
  cbn in HI. repeat destruct HI as [HI|HI]; try contradiction; injection HI as <-; apply H1; reflexivity.
Qed.
(** C60: a sum with a yield of its own over extended PDFs is sampled with the yields of these. *)
Theorem C60_own_yield_refuted : exists ps, extract (SumT ["x"] (Some 100)%Q [0.5; 0.5]%Q [Leaf 0 ["x"] (Some 1)%Q; Leaf 1 ["x"] (Some 2)%Q]) = Ok ps /\
  (fold_right (fun p a => yield_of p + a) 0 ps == 3)%Q.
Proof. eexists. split; reflexivity. Qed.
(** C60: an extended product of extended PDFs is not sampled as a product: events of different observables are put in one column. *)
Theorem C60_product_refuted : exists rows,
  ex_sample (ProdT ["x"; "y"] (Some 2)%Q [Leaf 0 ["x"] (Some 1)%Q; Leaf 1 ["y"] (Some 1)%Q]) NoNumber [("x", (0, 10)); ("y", (0, 10))]%Q [] = Ok rows /\
  rows = [[("x", 0)]; [("y", 0)]]%Q.
Proof. eexists. split; reflexivity. Qed.
(** C60: an extended PDF with some parts extended and others not cannot be sampled without a number. *)
Theorem C60_mixed_refuted multinomial shuffle draw poisson integral eager o y fs ps b s :
  existsb t_extended ps = true -> forallb t_extended ps = false ->
  public_sample multinomial shuffle draw poisson integral eager (SumT o (Some y) fs ps) NoNumber b s = Err AssertionError.
Proof.
  intros H1 H2. unfold public_sample, extended_sampling.
  assert (extract (SumT o (Some y) fs ps) = Err AssertionError) as ->; [|reflexivity].
  transitivity (if forallb t_extended ps then (fix go (ps0 : list tree) : result (list tree) :=
                   match ps0 with [] => Ok [] | p :: ps' => let* a := extract p in let* r := go ps' in Ok (a ++ r) end) ps
                   else if negb (existsb t_extended ps) then Ok [SumT o (Some y) fs ps] else Err AssertionError); [reflexivity|].
  now rewrite H1, H2.
Qed.
Print Assumptions C46_number.
Print Assumptions C46_sum_split.
Print Assumptions C46_product.
Print Assumptions C59_columns_partial.
Print Assumptions C59_truncated.
Print Assumptions C60_extended_partial.
Print Assumptions C60_needs_number.
Print Assumptions C60_any_text.
Print Assumptions C59_sum_order_refuted.
Print Assumptions C59_product_order_refuted.
Print Assumptions C60_truncated_refuted.
Print Assumptions C60_own_yield_refuted.
Print Assumptions C60_product_refuted.
Print Assumptions C60_mixed_refuted.
