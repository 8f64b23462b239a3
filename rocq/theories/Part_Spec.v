(** What the properties about partial integrals and projections say. *)
From Verif Require Import Base Part_Model.
Open Scope string_scope.
Open Scope list_scope.

(** An integral: equal functions have equal integrals, it is linear, and the order of two
    integrals does not matter. *)
Definition integral_ok (I : interval -> (Q -> Q) -> Q) : Prop :=
  (forall l f g, (forall t, f t == g t) -> I l f == I l g)%Q
  /\ (forall l f g, I l (fun t => f t + g t) == I l f + I l g)%Q
  /\ (forall l c f, I l (fun t => c * f t) == c * I l f)%Q
  /\ (forall l m f, I l (fun s => I m (fun t => f s t)) == I m (fun t => I l (fun s => f s t)))%Q.

(** A function of these observables only. *)
Definition depends (obs : list string) (f : point -> Q) : Prop :=
  forall x y, (forall o, In o obs -> x o == y o)%Q -> (f x == f y)%Q.

(** A range: one box in exactly these observables. *)
Definition is_range (obs : list string) (bs : list box) : Prop :=
  exists b, bs = [b] /\ NoDup (box_obs b) /\ forall o, In o (box_obs b) <-> In o obs.

Fixpoint all (P : pdf -> Prop) (l : list pdf) : Prop :=
  match l with [] => True | d :: l => P d /\ all P l end.

(** A PDF that can be made: functions of their observables, daughters of a sum with the
    observables of the sum, daughters of a product with all of them together. *)
Fixpoint wf (p : pdf) : Prop :=
  match p with
  | Leaf obs f nm _ => NoDup obs /\ obs <> [] /\ is_range obs nm /\ depends obs f
  | Sum obs _ ds nm =>
      NoDup obs /\ obs <> [] /\ is_range obs nm
      /\ (fix go l := match l with [] => True
          | d :: l => (wf d /\ forall o, In o (p_obs d) <-> In o obs) /\ go l end) ds
  | Prod obs ds nm snm =>
      NoDup obs /\ obs <> [] /\ is_range obs nm
      /\ (filter (overlaps ds) ds <> [] -> is_range (all_obs (filter (overlaps ds) ds)) snm)
      /\ (forall o, In o obs <-> exists d, In d ds /\ In o (p_obs d))
      /\ (fix go l := match l with [] => True | d :: l => wf d /\ go l end) ds
  end.

(** The normalisation ranges of the factors of every product are those of the product, in the
    observables of the factor. *)
Definition same_range (obs : list string) (bs cs : list box) : Prop :=
  map (sub obs) bs = map (sub obs) cs.
Fixpoint consistent (p : pdf) : Prop :=
  match p with
  | Leaf _ _ _ _ => True
  | Sum _ _ ds _ => (fix go l := match l with [] => True | d :: l => consistent d /\ go l end) ds
  | Prod _ ds nm snm =>
      (filter (overlaps ds) ds <> [] -> same_range (all_obs (filter (overlaps ds) ds)) nm snm)
      /\ (fix go l := match l with [] => True
          | d :: l => (consistent d /\ same_range (p_obs d) nm (p_nm d)) /\ go l end) ds
  end.

(** The limits and the data have together all the observables, and none in common. *)
Definition splits (obs have : list string) (b : box) : Prop :=
  NoDup (box_obs b)
  /\ forall o, In o obs -> (In o have /\ ~ In o (box_obs b)) \/ (~ In o have /\ In o (box_obs b)).

(** No factor of the product has observables both in the limits and in the data. *)
Definition straddles (obs have : list string) (b : box) : Prop :=
  (exists o, In o obs /\ In o have) /\ (exists o, In o obs /\ In o (box_obs b)).
Definition separate (p : pdf) (have : list string) (b : box) : Prop :=
  match p with
  | Prod _ ds _ _ =>
      (forall d, In d ds -> overlaps ds d = true)
      \/ ((forall d, In d ds -> overlaps ds d = false -> ~ straddles (p_obs d) have b)
          /\ ~ straddles (all_obs (filter (overlaps ds) ds)) have b)
  | _ => True
  end.

(** The normalisation asked for: none, or one range in the observables. *)
Definition nrm_ok (obs : list string) (n : nrm) : Prop :=
  match n with NFalse => True | N bs => is_range obs bs end.

(** The factors of the product can be normalised. *)
Definition normalisable (I : interval -> (Q -> Q) -> Q) (p : pdf) : Prop :=
  match p with
  | Prod _ ds _ snm =>
      (filter (overlaps ds) ds <> [] ->
       forall x, ~ Ints I snm (fun y => prodQ (map (fun d => unnorm I d y) (filter (overlaps ds) ds))) x == 0)%Q
      /\ Forall (fun d => forall x, ~ Ints I (p_nm d) (unnorm I d) x == 0)%Q ds
  | _ => True
  end.

Definition value (r : result Q) : Q := match r with Ok v => v | Err _ => 0%Q end.

(** The arguments of a projection: observables of the PDF, with or without limits; some are left. *)
Definition part_of (obs : list string) (s : spc) : Prop :=
  NoDup (spc_obs s) /\ (forall o, In o (spc_obs s) -> In o obs) /\ exists o, In o obs /\ ~ In o (spc_obs s).
