(** C84: copies of PDFs and extended copies. *)
From Verif Require Import Base BaseLemmas PGraph_Proofs Copy_Model Copy_Spec Copy_Proofs Copy_Proofs2 Copy_Proofs3.
Open Scope string_scope.
Open Scope list_scope.

(** A copy of a PDF has the same class, daughters, name and normalisation range, and the same
    density for all values of the parameters, now and later (the parameters are shared; only the
    last fraction of a sum is a new one). Its space is the normalisation range, its label the name,
    and it is not extended. *)
Theorem C84_copy_partial : forall e p,
  (exists e0 c kw, construct e0 c kw = Ok p) -> copyable p ->
  exists q, copy e p [] = Ok q
    /\ p_cls q = p_cls p /\ p_daughters q = p_daughters p
    /\ p_norm q = p_norm p /\ p_name q = p_name p
    /\ map fst (p_params q) = map fst (p_params p)
    /\ (p_cls p <> SumPDF -> p_params q = p_params p)
    /\ same_density p q
    /\ p_space q = p_norm p /\ p_label q = p_name p /\ p_yield q = None.
Proof.
  intros e p H C. destruct (copy_ok e p None H C) as (q & A & B). exists q. cbn [ov] in A. split; [exact A|].
  cbn [new_name] in B. tauto.
Qed.

(** An extended copy has the given yield and name (else the name with "_ext") and the same
    density. *)
Theorem C84_create_extended_partial : forall e p y name,
  (exists e0 c kw, construct e0 c kw = Ok p) -> copyable p -> p_yield p = None ->
  exists q, create_extended e p y name = Ok q
    /\ p_yield q = Some y
    /\ p_name q = match name with Some n => n | None => (p_name p ++ "_ext")%string end
    /\ p_cls q = p_cls p /\ p_daughters q = p_daughters p /\ p_norm q = p_norm p
    /\ (p_cls p <> SumPDF -> p_params q = p_params p)
    /\ same_density p q.
Proof.
  intros e p y name H C Y.
  set (n := match name with Some n => n | None => (p_name p ++ "_ext")%string end).
  destruct (copy_ok e p (Some n) H C) as (q & A & Q1 & Q2 & Q3 & Q4 & Q5 & Q6 & Q7 & Q8 & Q9 & Q10 & Q11).
  unfold create_extended. fold n. unfold is_extended. rewrite Y. cbn [ov] in A. rewrite A.
  destruct q as [c ps ex ds sp nm na la yl]. cbn in *. subst yl. cbn.
  eexists. split; [reflexivity|]. cbn. do 5 (split; [assumption || reflexivity|]). split; [exact Q11|].
  intros sh fsh int OK e' normed x. specialize (Q10 sh fsh int OK e' normed x). exact Q10.
Qed.

(** The copies of all PDFs of the library with one argument per parameter, and of products. *)
Example C84_copy_ex :
  (exists e0 c kw p, construct e0 c kw = Ok p /\ copyable p /\ p_params p = [("mu", P 0); ("sigma", P 1)])
  /\ (exists e0 c kw p, construct e0 c kw = Ok p /\ copyable p /\ p_cls p = Plain Exponential)
  /\ (exists e0 c kw p, construct e0 c kw = Ok p /\ copyable p /\ p_cls p = Poly Chebyshev
        /\ length (p_params p) = 3)
  /\ (exists e0 c kw p, construct e0 c kw = Ok p /\ copyable p /\ p_cls p = SumPDF
        /\ length (p_daughters p) = 3)
  /\ (exists e0 c kw p, construct e0 c kw = Ok p /\ copyable p /\ p_cls p = SimplePDF
        /\ length (p_params p) = 2).
Proof.
  set (e0 := fun _ : nat => 1%Q). set (s := (0, 1)%Q : space).
  set (g := mkPdf (Plain Gauss) [("mu", P 0); ("sigma", P 1)] NoExtra [] s s "g" "g" None).
  split; [|split; [|split; [|split]]].
  - exists e0, (Plain Gauss), [("mu", APar (P 0)); ("sigma", APar (P 1)); ("obs", ASpace s)].
    eexists. split; [reflexivity|]. split; [exact I|reflexivity].
  - exists e0, (Plain Exponential), [("lam", APar (P 0)); ("obs", ASpace s)].
    eexists. split; [reflexivity|]. split; [exact I|reflexivity].
  - exists e0, (Poly Chebyshev), [("coeffs", APars [P 0; P 1]); ("obs", ASpace s)].
    eexists. split; [reflexivity|]. split; [split; reflexivity|split; reflexivity].
  - exists e0, SumPDF, [("pdfs", APdfs [g; g; g]); ("fracs", APars [P 0; P 1])].
    eexists. split; [reflexivity|]. split; [|split; reflexivity].
    right. intros e. unfold total. cbn. ring.
  - exists e0, SimplePDF, [("obs", ASpace s); ("func", AFunc 7); ("a", APar (P 0)); ("b", APar (P 1))].
    eexists. split; [reflexivity|]. split; [|split; reflexivity].
    split; [cbn; repeat constructor; cbn; intuition discriminate|].
    cbn. intros n [<-|[<-|[]]]; intuition discriminate.
Qed.

(** A PDF that has a yield cannot be extended. *)
Theorem C84_already_extended : forall e p y y' name,
  p_yield p = Some y -> create_extended e p y' name = Err AlreadyExtended /\ set_yield p y' = Err AlreadyExtended.
Proof. intros e p y y' name H. unfold create_extended, set_yield, is_extended. now rewrite H. Qed.

(** A parameter given to [copy] replaces the one of the PDF, and no other. *)
Theorem C84_override : forall e p k n v,
  (exists e0 kw, construct e0 (Plain k) kw = Ok p) -> (forall l, k <> User l) -> k <> Exponential ->
  In n (map fst (p_params p)) ->
  exists q, copy e p [(n, APar v)] = Ok q
    /\ p_params q = map (fun np => if String.eqb (fst np) n then (n, v) else np) (p_params p)
    /\ p_cls q = p_cls p /\ p_norm q = p_norm p /\ p_name q = p_name p.
Proof.
  intros e p k n v (e0 & kw & H) NU NE I.
  destruct (constructed_plain _ _ _ _ H) as (EC & EX & ED & EN & _). clear H.
  destruct p as [c ps ex ds sp nm na la y]. cbn in EC, EX, ED, EN, I. subst c ex ds.
  destruct k; try (exfalso; now apply NE); try (exfalso; eapply NU; reflexivity); cbn in EN;
    repeat match goal with
    | E : map fst ?l = _ :: _ |- _ => destruct l as [|[? ?] l]; [discriminate E|];
        cbn in E; injection E as -> E
    | E : map fst ?l = [] |- _ => destruct l; [clear E|discriminate E]
    end; cbn in I; repeat (destruct I as [<-|I]; [eexists; repeat split; reflexivity|]); destruct I.
Qed.
Example C84_override_ex :
  let s := (0, 1)%Q : space in
  let p := mkPdf (Plain Gauss) [("mu", P 0); ("sigma", P 1)] NoExtra [] s s "g" "g" None in
  exists q, copy (fun _ => 1%Q) p [("sigma", APar (P 2))] = Ok q
    /\ p_params q = [("mu", P 0); ("sigma", P 2)].
Proof. eexists. split; reflexivity. Qed.

(** Copies, and extended copies, fail for these classes, whatever the arguments they were made
    with: Bernstein polynomials, kernel density estimates, truncated, convolved, cached, unbinned
    and spline PDFs, and conditional PDFs. *)
Theorem C84_fails_refuted : forall e p,
  (exists e0 c kw, construct e0 c kw = Ok p) ->
  match p_cls p with Bernstein | Kde _ | Wrap _ | ConditionalPDF => True | _ => False end ->
  (exists er, copy e p [] = Err er)
  /\ (p_yield p = None -> forall y name, create_extended e p y name = Err RuntimeError).
Proof.
  intros e p (e0 & c & kw & H) C.
  assert (W : forall n, exists er, copy e p (ov n) = Err er).
  { assert (EC : p_cls p = c).
    { unfold construct in H. destruct (check_call c kw) as [[]|]; [|discriminate]. cbn [bind] in H.
      destruct c as [k|k| |k| | | | | |k|];
      repeat match goal with
      | H : match ?x with _ => _ end = Ok _ |- _ => destruct x; try discriminate
      | H : bind ?x _ = Ok _ |- _ => destruct x; [cbn [bind] in H|discriminate]
      end; injection H as <-; reflexivity. }
    intros n. rewrite EC in C. destruct c as [k|k| |k| | | | | |k|]; try destruct C.
    - assert (EP : exists cs, p_params p = enumerate "c_" cs /\ p_ext p <> Func 0 /\ p_cls p = Bernstein).
      { unfold construct in H. destruct (check_call _ kw) as [[]|]; [|discriminate]. cbn [bind] in H.
        destruct (get_space "obs" kw); [|discriminate]. injection H as <-.
        eexists. split; [reflexivity|]. split; [discriminate|reflexivity]. }
      destruct EP as (cs & EP & _ & _).
      assert (NL : forall s, (forall i, numbered "c_" i <> s) -> lookup String.eqb s (p_params p) = None).
      { intros s D. rewrite EP. apply lookup_none. intros I.
        unfold enumerate in I. apply in_map_iff in I. destruct I as ([m v] & <- & I). apply in_combine_l in I.
        apply in_map_iff in I. destruct I as (i & E & _). exact (D i E). }
      assert (A : copy_args p = pars_of (p_params p)).
      { unfold copy_args. rewrite EC. cbn [is_functor]. fold (pars_of (p_params p)).
        rewrite get_pars_of, NL by (intros i; discriminate). destruct (p_ext p); reflexivity. }
      destruct (copy_construct e p n) as (kw' & -> & G & _).
      + now rewrite EC.
      + rewrite A, get_pars_of, NL by (intros i; discriminate). reflexivity.
      + rewrite EC. unfold construct. rewrite (check_call_missing Bernstein kw' "coeffs").
        * now exists TypeError.
        * cbn. tauto.
        * intros I. apply keys_get in I. apply I. rewrite G. unfold arg_of. cbn [String.eqb].
          change (get "coeffs" (copy_args p) = None).
          rewrite A, get_pars_of, NL by (intros i; discriminate). reflexivity.
    - unfold construct in H. destruct (check_call _ kw) as [[]|]; [|discriminate]. cbn [bind] in H.
      destruct (get_space "obs" kw) as [s|]; [|discriminate]. injection H as <-.
      destruct k, (get_par "bandwidth" kw), n; eexists; reflexivity.
    - unfold construct in H. destruct (check_call _ kw) as [[]|]; [|discriminate]. cbn [bind] in H.
      destruct (match get_space "obs" kw with Some s => Some s | None => of_pdfs (the_pdfs kw) end); [|discriminate].
      injection H as <-. destruct k, n; eexists; reflexivity.
    - unfold copy. rewrite EC. eexists. reflexivity. }
  split; [exact (W None)|].
  intros Y y name. unfold create_extended, is_extended. rewrite Y.
  destruct (W (Some match name with Some n => n | None => (p_name p ++ "_ext")%string end)) as (er & E).
  cbn [ov] in E. now rewrite E.
Qed.
Example C84_fails_ex :
  exists e0 c kw p, construct e0 c kw = Ok p /\ p_cls p = Bernstein /\ length (p_params p) = 3 /\ p_yield p = None.
Proof.
  exists (fun _ => 1%Q), Bernstein, [("obs", ASpace (0, 1)%Q); ("coeffs", APars [P 0; P 1; P 2])].
  eexists. split; [reflexivity|]. now repeat split.
Qed.

(** A polynomial of degree one; the integral is exact for it. *)
Definition line (c : cls) (ex : extra) (s : option space) (vals : list (string * Q)) (x : Q) : Q :=
  let z := match s with Some (a, b) => (2 * x - a - b) / (b - a) | None => x end%Q in
  (match lookup String.eqb (numbered "c_" 0) vals, lookup String.eqb (numbered "c_" 1) vals with
   | Some c0, Some c1 => c0 + c1 * z | _, _ => 1 + x end)%Q.
Definition no_functor (c : cls) (ex : extra) (vals : list (string * Q)) (ds : list (Q -> Q)) (x : Q) : Q :=
  (1 + sumQ (map snd vals) * x)%Q.
Definition trapezium (f : Q -> Q) (s : space) : Q :=
  ((snd s - fst s) * (f (fst s) + f (snd s)) / 2)%Q.
Lemma trapezium_ok : integral_ok trapezium.
Proof. intros f g s H. unfold trapezium. now rewrite !H. Qed.
Ltac differ x e :=
  intros D; specialize (D line no_functor trapezium trapezium_ok e true x); vm_compute in D; discriminate D.

(** A polynomial without scaling, and one that is normalised over less than its space, has another
    density after a copy. *)
Theorem C84_poly_refuted :
  (exists e kw p q, construct e (Poly Legendre) kw = Ok p /\ p_norm p = p_space p /\ copy e p [] = Ok q
     /\ ~ same_density p q)
  /\ (exists e kw p q, construct e (Poly Legendre) kw = Ok p /\ p_ext p = Scaling true /\ copy e p [] = Ok q
     /\ ~ same_density p q).
Proof.
  split.
  - exists (fun _ => 1%Q), [("obs", ASpace (0, 1)%Q); ("coeffs", APars [Const (1 # 2)]); ("apply_scaling", ABool false)].
    do 2 eexists. do 3 (split; [reflexivity|]). differ 1%Q (fun _ : nat => 1%Q).
  - exists (fun _ => 1%Q), [("obs", ASpace (0, 1)%Q); ("coeffs", APars [Const (1 # 2)]); ("norm", ASpace (0, 1 # 2)%Q)].
    do 2 eexists. do 3 (split; [reflexivity|]). differ 0%Q (fun _ : nat => 1%Q).
Qed.

(** A first coefficient given as a parameter is replaced by its current value when the polynomial
    is made: a change of that parameter has no effect on the polynomial. *)
Theorem C84_coeff0_refuted : forall e k kw p i,
  construct e (Poly k) kw = Ok p -> get "coeff0" kw = Some (APar (P i)) ->
  lookup String.eqb (numbered "c_" 0) (p_params p) = Some (Const (e i)).
Proof.
  intros e k kw p i H G. unfold construct in H. destruct (check_call _ kw) as [[]|]; [|discriminate]. cbn [bind] in H.
  destruct (get_space "obs" kw) as [s|]; [|discriminate]. injection H as <-.
  unfold get_par. rewrite G. reflexivity.
Qed.
Example C84_coeff0_ex : exists p,
  construct (fun _ => 3%Q) (Poly Hermite) [("obs", ASpace (0, 1)%Q); ("coeffs", APars [P 1]); ("coeff0", APar (P 0))] = Ok p.
Proof. eexists. reflexivity. Qed.

(** A sum whose fractions are all given and do not add up to one has another density after a
    copy: the last fraction is replaced by the remainder. *)
Theorem C84_sum_refuted :
  exists e kw p q, construct e SumPDF kw = Ok p /\ copy e p [] = Ok q
    /\ map (fun np => val e (snd np)) (p_params p) = [1 # 2; 1 # 4]%Q
    /\ map (fun np => val e (snd np)) (p_params q) = [1 # 2; 1 # 2]%Q
    /\ ~ same_density p q.
Proof.
  set (s := (0, 1)%Q : space).
  set (g := mkPdf (Plain Gauss) [("mu", P 0); ("sigma", P 1)] NoExtra [] s s "g" "g" None).
  exists (fun _ => 1%Q), [("pdfs", APdfs [g; g]); ("fracs", APars [Const (1 # 2); Const (1 # 4)])].
  do 2 eexists. do 2 (split; [reflexivity|]). split; [reflexivity|]. split; [vm_compute; reflexivity|].
  differ 1%Q (fun _ : nat => 1%Q).
Qed.

(** A simple functor loses its parameters, a wrapped distribution its further arguments, and one
    with a function of the parameters cannot be copied. *)
Theorem C84_arguments_refuted :
  (forall e0 kw p e, construct e0 SimpleFunctorPDF kw = Ok p ->
     exists q, copy e p [] = Ok q /\ p_params q = [])
  /\ (forall e0 kw p e, construct e0 WrapDistribution kw = Ok p ->
        match p_ext p with
        | Dist d DMap _ => exists q, copy e p [] = Ok q /\ p_ext q = Dist d DMap 0
        | _ => exists er, copy e p [] = Err er
        end)
  /\ (exists e0 kw p q, construct e0 SimpleFunctorPDF kw = Ok p /\ copy e0 p [] = Ok q /\ ~ same_density p q).
Proof.
  split; [|split].
  - intros e0 kw p e H. unfold construct in H. destruct (check_call _ kw) as [[]|]; [|discriminate]. cbn [bind] in H.
    destruct (get_space "obs" kw) as [s|]; [|discriminate].
    destruct (mapM _ _) as [ps|]; [|discriminate]. cbn [bind] in H. injection H as <-.
    eexists. split; [apply (copy_sfunctor e _ _ _ _ _ _ _ _ None)|reflexivity].
  - intros e0 kw p e H. unfold construct in H. destruct (check_call _ kw) as [[]|]; [|discriminate]. cbn [bind] in H.
    destruct (get_space "obs" kw) as [s|]; [|discriminate].
    destruct (get "dist_params" kw) as [[| | | | | |f|l|]|]; try discriminate;
      destruct (get "params" kw) as [[| | | | | |g|l'|]|]; try discriminate; injection H as <-; cbn [p_ext base_init].
    + eexists. reflexivity.
    + eexists. split; reflexivity.
  - set (s := (0, 1)%Q : space).
    set (g := mkPdf (Plain Gauss) [("mu", P 0); ("sigma", P 1)] NoExtra [] s s "g" "g" None).
    exists (fun _ => 1%Q), [("obs", ASpace s); ("pdfs", APdfs [g]); ("func", AFunc 3); ("a", APar (P 0))].
    do 2 eexists. do 2 (split; [reflexivity|]). differ 1%Q (fun _ : nat => 1%Q).
Qed.

(** A copy is not extended, whatever the PDF, its space is no longer the one of the PDF (where
    samples are drawn by default), and its label is lost. *)
Theorem C84_lost_refuted :
  exists e c kw p q, construct e c kw = Ok p /\ copyable p /\ copy e p [] = Ok q
    /\ is_extended p = true /\ is_extended q = false
    /\ p_space p = (0, 1)%Q /\ p_space q = (0, 1 # 2)%Q
    /\ p_label p = "signal" /\ p_label q = p_name p.
Proof.
  exists (fun _ => 1%Q), (Plain Gauss),
    [("mu", APar (P 0)); ("sigma", APar (P 1)); ("obs", ASpace (0, 1)%Q); ("norm", ASpace (0, 1 # 2)%Q);
     ("extended", APar (P 2)); ("label", AStr "signal")].
  do 2 eexists. split; [reflexivity|]. split; [exact I|]. now repeat split.
Qed.

(** C84: the yield of a sum is the one given; without one it is the sum of the yields of the PDFs if no fractions are
    given, and there is none with fractions or if it is not to be extended. *)
Theorem C84_sum_extended : forall e kw p, construct e SumPDF kw = Ok p ->
  (forall y, get "extended" kw = Some (APar y) -> p_yield p = Some y)
  /\ (get "extended" kw = Some (ABool false) -> p_yield p = None)
  /\ (get "extended" kw = None -> get_pars "fracs" kw <> [] -> p_yield p = None)
  /\ (get "extended" kw = None -> get_pars "fracs" kw = [] ->
        exists y ys, p_yield p = Some y /\ Forall2 (fun d z => p_yield d = Some z) (p_daughters p) ys
          /\ forall e', (val e' y == fold_right Qplus 0 (map (val e') ys))%Q).
Proof.
  intros e kw p H. unfold construct in H. destruct (check_call _ kw) as [[]|]; [|discriminate]. cbn [bind] in H.
  destruct (sum_fracs (get_pars "fracs" kw) (the_pdfs kw)) as [fr|] eqn:F; [|discriminate]. cbn [bind] in H.
  destruct (match get_space "obs" kw with Some s => Some s | None => of_pdfs (the_pdfs kw) end) as [s|]; [|discriminate].
  injection H as <-. unfold base_init. cbn [p_yield p_daughters]. unfold sum_yield.
  split; [intros y ->; reflexivity|]. split; [intros ->; reflexivity|]. split.
  - intros -> N. destruct (get_pars "fracs" kw); [contradiction|reflexivity].
  - intros -> E. rewrite E in *. unfold sum_fracs in F. destruct (Nat.ltb _ _); [discriminate|].
    destruct (all_some (map p_yield (the_pdfs kw))) as [ys|] eqn:A; [|discriminate].
    exists (SumOf ys), ys. split; [reflexivity|]. split; [|intros e'; reflexivity].
    apply BaseLemmas.all_some_forall2 in A. apply BaseLemmas.Forall2_map_l in A. exact A.
Qed.
Example C84_sum_extended_ex :
  let g y := mkPdf (Plain Gauss) [("mu", P 0); ("sigma", P 1)] NoExtra [] (0, 1)%Q (0, 1)%Q "g" "g" (Some y) in
  exists p, construct (fun _ => 1%Q) SumPDF [("pdfs", APdfs [g (P 2); g (P 3)])] = Ok p /\ p_yield p = Some (SumOf [P 2; P 3]).
Proof. eexists. split; reflexivity. Qed.
