(** Property theorems for composed and complex parameters and the conversion of numbers (C70). *)
From Coq Require Import Reals Lra Permutation.
From Verif Require Import Base BaseLemmas Compo_Model Compo_Spec Compo_Proofs Compo_Proofs2.
Open Scope string_scope.
Open Scope list_scope.
Open Scope nat_scope.
Open Scope R_scope.

(** C70: a composed parameter of a list of parameters has, at any time, the value of its function for the
    current values of the parameters, in the order given; a function that needs more arguments than there
    are parameters raises when the value is asked for. *)
Theorem C70_value_in_order : forall f l p e vs, ~ takes_all f (length l) -> composed f None (PList l) = Ok p ->
  Forall2 (fun q v => value e q = Ok v) l vs ->
  ((f_required f <= length l <= length (f_names f))%nat ->
     value e p = Ok (f_body f (map (fun v => Some (AVal v)) vs ++ repeat None (length (f_names f) - length l))))
  /\ ((length l < f_required f)%nat -> value e p = Err TypeError).
Proof. exact value_in_order. Qed.
Print Assumptions C70_value_in_order.

(** C70: of a dict of parameters, each argument gets the current value of the parameter with its name;
    names that are no arguments, and missing ones, raise when the value is asked for. *)
Theorem C70_value_by_name : forall f d p e vs,
  ~ takes_all f (length d) -> (length d <= length (f_names f))%nat -> composed f None (PDict d) = Ok p ->
  Forall2 (fun q v => fst v = fst q /\ value e (snd q) = Ok (snd v)) d vs ->
  (incl (map fst d) (f_names f) -> incl (firstn (f_required f) (f_names f)) (map fst d) ->
     value e p = Ok (f_body f (map (fun n => option_map AVal (lookup String.eqb n vs)) (f_names f))))
  /\ (~ (incl (map fst d) (f_names f) /\ incl (firstn (f_required f) (f_names f)) (map fst d)) -> value e p = Err TypeError).
Proof. exact value_by_name. Qed.
Print Assumptions C70_value_by_name.

(** C70: so the order of the dict does not matter. *)
Theorem C70_dict_order_irrelevant : forall f u d d' p p' e v,
  ~ takes_all f (length d) -> u <> Some false -> Permutation d d' -> NoDup (map fst d) ->
  composed f u (PDict d) = Ok p -> composed f u (PDict d') = Ok p' -> value e p = Ok v -> value e p' = Ok v.
Proof. exact dict_order. Qed.
Print Assumptions C70_dict_order_irrelevant.

(** C70: a function with one argument for several parameters, or with an argument called params, gets all
    values at once, as a tuple in the order given or as a dict with the names given. *)
Theorem C70_value_all_at_once : forall f ps p e,
  takes_all f (params_len ps) -> composed f None ps = Ok p -> (f_required f <= 1 <= length (f_names f))%nat ->
  (forall l vs, ps = PList l -> Forall2 (fun q v => value e q = Ok v) l vs ->
     value e p = Ok (f_body f (Some (ATuple vs) :: repeat None (length (f_names f) - 1))))
  /\ (forall d vs, ps = PDict d -> Forall2 (fun q v => fst v = fst q /\ value e (snd q) = Ok (snd v)) d vs ->
     value e p = Ok (f_body f (Some (ADict vs) :: repeat None (length (f_names f) - 1)))).
Proof. exact value_whole. Qed.
Print Assumptions C70_value_all_at_once.

(** C70: a function with several arguments, but fewer than there are parameters, is refused when the
    parameter is created; how it is called can always be said explicitly. *)
Theorem C70_ambiguous_refused :
  (forall f ps, ~ takes_all f (params_len ps) -> f_names f <> [] -> (length (f_names f) < params_len ps)%nat ->
     composed f None ps = Err ValueError)
  /\ (forall f ps b, exists p, composed f (Some b) ps = Ok p).
Proof.
  split.
  - intros f ps Ht Hn Hl. unfold composed. rewrite choose_amb by assumption. reflexivity.
  - intros f ps [|]; eexists; reflexivity.
Qed.
Print Assumptions C70_ambiguous_refused.

(** a * b + c, with the default 3 for c *)
Definition t_body (l : list (option arg)) : C :=
  match l with
  | [Some (AVal a); Some (AVal b); c] => real_value (fst a * fst b + match c with Some (AVal c) => fst c | _ => 3 end)
  | _ => real_value 0
  end.
Definition t_f : func := Func ["a"; "b"; "c"] 2 t_body.
Definition t_all : func := Func ["ps"] 1 (fun l => match l with [Some (ATuple [a; b])] => real_value (fst a - fst b) | _ => real_value 0 end).
Lemma t_not_all n : ~ takes_all t_f n.
Proof. intros [[H _]|[H|[H|[H|[]]]]]; discriminate. Qed.
Example C70_value_nonvacuous :
  (exists p, composed t_f None (PList [Indep 0; Indep 1]) = Ok p /\ (2 <= length [Indep 0; Indep 1] <= 3)%nat
     /\ forall e, value e p = Ok (real_value (e 0%nat * e 1%nat + 3)))
  /\ (exists p, composed t_f None (PDict [("b", Indep 0); ("c", Const (real_value 7)); ("a", Indep 1)]) = Ok p
     /\ forall e, value e p = Ok (real_value (e 1%nat * e 0%nat + 7)))
  /\ (exists p, composed t_all None (PList [Indep 0; Indep 1]) = Ok p /\ takes_all t_all 2
     /\ forall e, value e p = Ok (real_value (e 0%nat - e 1%nat)))
  /\ (~ takes_all t_f 4 /\ f_names t_f <> [] /\ (length (f_names t_f) < 4)%nat).
Proof.
  split; [|split; [|split]].
  - eexists. split; [reflexivity|]. split; [cbn; lia|]. intros e. reflexivity.
  - eexists. split; [reflexivity|]. intros e. reflexivity.
  - eexists. split; [reflexivity|]. split; [left; split; [reflexivity|lia]|]. intros e. reflexivity.
  - split; [apply t_not_all|]. split; [discriminate|]. cbn. lia.
Qed.

(** C70, false: a function with one argument that takes a dict works for a dict of any size. For two and
    more entries it gets the dict; for one entry the parameter is created, but the value raises, because
    the key is passed as the name of an argument. *)
Theorem C70_single_entry_dict_refused_refuted :
  exists f p1 p2, (exists a, f_names f = [a]) /\ f_required f = 1%nat
    /\ composed f None (PDict [("a", Indep 0); ("b", Indep 1)]) = Ok p2 /\ (forall e, exists v, value e p2 = Ok v)
    /\ composed f None (PDict [("a", Indep 0)]) = Ok p1 /\ (forall e, value e p1 = Err TypeError).
Proof.
  exists (Func ["d"] 1 (fun _ => real_value 1)). do 2 eexists. split; [eexists; reflexivity|]. split; [reflexivity|].
  split; [reflexivity|]. split; [intros e; eexists; reflexivity|]. split; [reflexivity|]. intros e. reflexivity.
Qed.
Print Assumptions C70_single_entry_dict_refused_refuted.

(** C70: what [get_params] returns is what the parameters that were given depend on. For a dict always; for
    a list unless the function takes no arguments. A variable depends on itself, a constant on nothing. *)
Theorem C70_dependencies_partial :
  (forall i j, In j (get_params (Indep i)) <-> j = i)
  /\ (forall v j, ~ In j (get_params (Const v)))
  /\ (forall f u d p, composed f u (PDict d) = Ok p ->
     forall i, In i (get_params p) <-> exists q, In q (map snd d) /\ In i (get_params q))
  /\ (forall f u l p, (u <> None \/ f_names f <> []) -> composed f u (PList l) = Ok p ->
     forall i, In i (get_params p) <-> exists q, In q l /\ In i (get_params q)).
Proof.
  split; [intros i j; cbn; intuition congruence|]. split; [intros v j H; exact H|].
  split; [exact composed_params_dict|exact composed_params_list].
Qed.
Print Assumptions C70_dependencies_partial.

(** C70, false in general: the list of parameters given together with a function without arguments is
    forgotten, so the composed parameter depends on nothing; of a dict it is kept. *)
Theorem C70_dependencies_forgotten_refuted : forall f l, f_names f = [] -> l <> [] ->
  exists p, composed f None (PList l) = Ok p /\ get_params p = [].
Proof.
  intros f l Hf Hl. destruct l as [|q l]; [congruence|].
  assert (exists p, composed f None (PList (q :: l)) = Ok p) as [p E].
  { unfold composed, choose_style. cbn [params_len]. rewrite Hf. cbn. eexists. reflexivity. }
  exists p. split; [exact E|]. exact (composed_params_noargs _ _ _ Hf E).
Qed.
Print Assumptions C70_dependencies_forgotten_refuted.

(** C70: the value depends on nothing but the values of the parameters that [get_params] returns, if no
    conjugate takes part. *)
Theorem C70_value_depends_on_params_partial : forall p, no_conj p ->
  forall e e', (forall i, In i (get_params p) -> e i = e' i) -> value e p = value e' p.
Proof. exact local_value. Qed.
Print Assumptions C70_value_depends_on_params_partial.

Definition t_sum : param := Composed t_f Unpack (PList [Indep 4; Composed t_f Unpack (PList [Indep 7; Indep 4])]).
Example C70_dependencies_nonvacuous : no_conj t_sum /\ get_params t_sum = [7; 4]%nat
  /\ composed t_f None (PList [Indep 4; Composed t_f Unpack (PList [Indep 7; Indep 4])]) = Ok t_sum.
Proof. split; [repeat constructor|]. split; reflexivity. Qed.

(** C70, false: the conjugate of a complex parameter depends on what the parameter depends on. It changes
    with the parameters, but [get_params] returns nothing for it. *)
Theorem C70_conjugate_without_dependencies_refuted : exists p q,
  from_cartesian (Indep 0) (Indep 1) = Ok p /\ conj_of p = Ok q /\ get_params p = [0; 1]%nat /\ get_params q = []
  /\ exists e e', value e q <> value e' q.
Proof.
  do 2 eexists. split; [reflexivity|]. split; [reflexivity|]. split; [reflexivity|]. split; [reflexivity|].
  exists (fun _ => 0), (fun _ => 1). cbn. intros H. injection H as H _. lra.
Qed.
Print Assumptions C70_conjugate_without_dependencies_refuted.

(** C70: a complex parameter made of two parameters has at any time their current values as real and
    imaginary part, and the modulus that belongs to them. *)
Theorem C70_cartesian : forall re im p e x y, from_cartesian re im = Ok p ->
  value e re = Ok (real_value x) -> value e im = Ok (real_value y) ->
  c_real e p = Ok x /\ c_imag e p = Ok y /\ c_mod e p = Ok (sqrt (x ^ 2 + y ^ 2)).
Proof.
  intros re im p e x y H Hx Hy. unfold c_real, c_imag, c_mod. rewrite (cartesian_value _ _ _ _ _ _ H Hx Hy). auto.
Qed.
Print Assumptions C70_cartesian.

(** C70: one made of modulus and angle has the real and imaginary part that belong to them, and gives them
    back if the modulus is positive and the angle is in (-pi, pi]. *)
Theorem C70_polar_partial : forall angle md ar p e m a, angle_of angle -> from_polar md ar = Ok p ->
  value e md = Ok (real_value m) -> value e ar = Ok (real_value a) ->
  c_real e p = Ok (m * cos a) /\ c_imag e p = Ok (m * sin a) /\ c_mod e p = Ok (Rabs m)
  /\ (0 < m -> - PI < a <= PI -> c_mod e p = Ok m /\ c_arg angle e p = Ok a).
Proof.
  intros angle md ar p e m a Ho H Hm Ha. unfold c_real, c_imag, c_mod, c_arg. rewrite (polar_value _ _ _ _ _ _ H Hm Ha). cbn [bind].
  split; [reflexivity|]. split; [reflexivity|]. rewrite abs_polar. split; [reflexivity|]. intros H0 Hr.
  rewrite Rabs_pos_eq by lra. rewrite polar_arg by assumption. auto.
Qed.
Print Assumptions C70_polar_partial.

Example C70_complex_nonvacuous : angle_of an_angle
  /\ (exists p, from_cartesian (Indep 0) (Const (real_value 2)) = Ok p)
  /\ (exists p, from_polar (Indep 0) (Indep 1) = Ok p)
  /\ (0 < 2 /\ - PI < PI / 2 <= PI).
Proof.
  split; [exact an_angle_ok|]. split; [eexists; reflexivity|]. split; [eexists; reflexivity|]. pose proof PI_RGT_0. lra.
Qed.

(** C70, false in general: modulus and angle given are those that come back. With a negative modulus both
    differ; with an angle outside (-pi, pi] the angle does. Neither is refused. *)
Theorem C70_polar_not_returned_refuted : forall angle, angle_of angle ->
  (exists p, from_polar (Const (real_value (-1))) (Const (real_value 0)) = Ok p /\ forall e,
     c_mod e p = Ok 1 /\ c_arg angle e p <> Ok 0)
  /\ (exists p, from_polar (Const (real_value 1)) (Const (real_value (2 * PI))) = Ok p /\ forall e, c_arg angle e p = Ok 0).
Proof.
  intros angle Ho. pose proof PI_RGT_0 as HP. split.
  - eexists. split; [reflexivity|]. intros e. unfold c_mod, c_arg. rewrite (polar_value (Const (real_value (-1))) (Const (real_value 0)) _ e (-1) 0 eq_refl eq_refl eq_refl).
    cbn [bind]. rewrite abs_polar. split; [f_equal; rewrite Rabs_left by lra; lra|].
    intros H. injection H as H. destruct (Ho (-1 * cos 0, -1 * sin 0)) as [_ E]; [rewrite abs_polar, Rabs_left by lra; lra|].
    rewrite H, abs_polar, Rabs_left, cos_0 in E by lra. injection E as E _. lra.
  - eexists. split; [reflexivity|]. intros e. unfold c_arg. rewrite (polar_value (Const (real_value 1)) (Const (real_value (2 * PI))) _ e 1 (2 * PI) eq_refl eq_refl eq_refl).
    cbn [bind]. f_equal. replace (cos (2 * PI)) with (cos 0) by (rewrite cos_2PI, cos_0; reflexivity).
    replace (sin (2 * PI)) with (sin 0) by (rewrite sin_2PI, sin_0; reflexivity). apply polar_arg; [exact Ho|lra|lra].
Qed.
Print Assumptions C70_polar_not_returned_refuted.

(** C70: the conjugate has at any time the conjugate value; the conjugate of the conjugate the value. *)
Theorem C70_conjugate : forall p q r e v, conj_of p = Ok q -> conj_of q = Ok r -> value e p = Ok v ->
  value e q = Ok (fst v, - snd v) /\ value e r = Ok v.
Proof.
  intros p q r e v Hq Hr Hv.
  assert (G : forall a b w, conj_of a = Ok b -> value e a = Ok w -> value e b = Ok (c_conj w)).
  { intros a b w H Hw. unfold conj_of in H. destruct (choose_style _ _ _) as [s|]; [cbn [bind] in H|discriminate].
    injection H as <-. cbn [value]. rewrite Hw. reflexivity. }
  split; [exact (G _ _ _ Hq Hv)|]. rewrite (G _ _ _ Hr (G _ _ _ Hq Hv)). unfold c_conj. cbn [fst snd]. rewrite Ropp_involutive.
  destruct v; reflexivity.
Qed.
Print Assumptions C70_conjugate.

Example C70_conjugate_nonvacuous : exists p q r, from_cartesian (Indep 0) (Indep 1) = Ok p /\ conj_of p = Ok q /\ conj_of q = Ok r.
Proof. do 3 eexists. split; [reflexivity|]. split; reflexivity. Qed.

(** C70: what is a parameter already is returned as it is, alone or in a list. *)
Theorem C70_existing_returned :
  (forall a k n p name pc ps lo up st, convert_to_parameter a k (RParam n p) name pc ps lo up st = Ok (NExisting n p, k))
  /\ (forall a k l names pc lo up st, convert_to_parameters a k (map (fun x => RParam (fst x) (snd x)) l) names pc lo up st
        = Ok (map (fun x => NExisting (fst x) (snd x)) l, k)).
Proof.
  split; [reflexivity|]. intros. unfold convert_to_parameters.
  assert (E : forallb is_param (map (fun x => RParam (fst x) (snd x)) l) = true) by (induction l; [reflexivity|assumption]).
  rewrite E, map_map. reflexivity.
Qed.
Print Assumptions C70_existing_returned.

(** C70: a list of numbers becomes a list of parameters in the same order, constants or variables as asked
    for, with the values, and with the names, limits and step sizes at the same places if they are given. *)
Theorem C70_numbers_converted : forall k vs names pc lo up st rs k', existsb is_param vs = false ->
  convert_to_parameters true k vs names pc lo up st = Ok (rs, k') ->
  length rs = length vs
  /\ (forall j x, nth_error vs j = Some (RReal x) -> exists n, (forall g, opt_nth names j = Some g -> n = g)
       /\ nth_error rs j = Some (if pc then NConstant n x else NVariable n x (opt_nth lo j) (opt_nth up j) (opt_nth st j)))
  /\ (forall j z, nth_error vs j = Some (RComplex z) -> exists n, (forall g, opt_nth names j = Some g -> n = g)
       /\ nth_error rs j = Some (NComplex n
            (if pc then NConstant (n ++ "_REALPART")%string (fst z) else NVariable (n ++ "_REALPART")%string (fst z) None None None)
            (if pc then NConstant (n ++ "_IMAGPART")%string (snd z) else NVariable (n ++ "_IMAGPART")%string (snd z) None None None))).
Proof. exact numbers_converted. Qed.
Print Assumptions C70_numbers_converted.

(** C70: a list is converted exactly if it consists of parameters only, or of numbers only with names,
    limits and step sizes that are not given or are as many; otherwise it is refused. *)
Theorem C70_converted_exactly_if : forall k vs names pc lo up st, vs <> [] ->
  ((exists r, convert_to_parameters true k vs names pc lo up st = Ok r)
   <-> (forall v, In v vs -> is_param v = true)
       \/ ((forall v, In v vs -> is_param v = false) /\ (forall f, ~ In (RFunc f) vs)
           /\ fits names (length vs) /\ fits lo (length vs) /\ fits up (length vs) /\ fits st (length vs)))
  /\ ((forall r, convert_to_parameters true k vs names pc lo up st <> Ok r) -> convert_to_parameters true k vs names pc lo up st = Err ValueError).
Proof. exact parameters_succeed. Qed.
Print Assumptions C70_converted_exactly_if.

(** C70: the names that are made up are never the same, neither within a conversion nor in a later one. *)
Theorem C70_automatic_names : forall k vs pc lo up st rs k' m ws pc2 lo2 up2 st2 rs2 m',
  existsb is_param vs = false -> existsb is_param ws = false ->
  convert_to_parameters true k vs None pc lo up st = Ok (rs, k') ->
  (k' <= m)%nat -> convert_to_parameters true m ws None pc2 lo2 up2 st2 = Ok (rs2, m') ->
  (k <= k')%nat /\ NoDup (flat_map new_names rs ++ flat_map new_names rs2).
Proof.
  intros * Hv Hw E1 Hm E2. destruct (auto_names_unique _ _ _ _ _ _ _ _ Hv E1) as [L1 [N1 F1]].
  destruct (auto_names_unique _ _ _ _ _ _ _ _ Hw E2) as [L2 [N2 F2]]. split; [exact L1|].
  apply nodup_app; [exact N1|exact N2|]. intros n H1 H2. exact (range_disjoint _ _ _ _ _ Hm (F1 _ H1) (F2 _ H2)).
Qed.
Print Assumptions C70_automatic_names.

Example C70_conversion_nonvacuous :
  (exists r, convert_to_parameters true 9 [RReal 1; RComplex (1, 2); RReal 4] None false None None None = Ok (r, 12%nat)
     /\ flat_map new_names r = ["autoparam_9"; "FIXED_complex_autoparam_10"; "FIXED_complex_autoparam_10_REALPART";
          "FIXED_complex_autoparam_10_IMAGPART"; "autoparam_11"])
  /\ convert_to_parameters true 0 [RReal 1; RReal 4] (Some ["a"; "b"]) false (Some [0; 0]) None None
     = Ok ([NVariable "a" 1 (Some 0) None None; NVariable "b" 4 (Some 0) None None], 0%nat)
  /\ existsb is_param [RReal 1; RComplex (1, 2); RReal 4] = false.
Proof. split; [eexists; split; reflexivity|]. split; reflexivity. Qed.

(** C70, false: a name given for a function is the name of the composed parameter that comes out. It is
    ignored, and so are the limits given for a complex number. *)
Theorem C70_given_name_ignored_refuted :
  (forall k f ps g pc lo up st r k', convert_to_parameter true k (RFunc f) (Some g) pc (Some ps) lo up st = Ok (r, k') ->
     new_names r = ["Composed_autoparam_" ++ digits k]%string)
  /\ exists k f ps g r k', convert_to_parameter true k (RFunc f) (Some g) true (Some ps) None None None = Ok (r, k') /\ new_names r <> [g].
Proof.
  split.
  - intros * H. cbn [convert_to_parameter] in H. destruct (composed f None ps); [cbn [bind] in H|discriminate]. injection H as <- _. reflexivity.
  - exists 0%nat, (Func ["a"] 1 (fun _ => real_value 0)), (PList [Indep 0]), "ratio". do 2 eexists. split; [reflexivity|]. discriminate.
Qed.
Print Assumptions C70_given_name_ignored_refuted.
