(** Model of accept-reject sampling (core/sample.py:23-66 and 141-496). Not modelled: EventSpace and limits that differ from event to event,
    functional limits, floating point rounding. *)
From Verif Require Import Base.
From Coq Require Import Qround.
#[local] Open Scope nat_scope.

Definition point : Type := list Q.
Definition qmax (a b : Q) : Q := if Qle_bool a b then b else a.
Definition qltb (a b : Q) : bool := negb (Qle_bool b a).

(** A proposal of the sampler: the point, the uniform number of its threshold, and its weight (sample.py:371-377) *)
Record proposal := Prop_ { pr_row : point; pr_u : Q; pr_w : Q }.

(** The loop variables (sample.py:462-473): the array (written or not), how many are produced and drawn, the efficiency, the scaling and
    the running maxima. *)
Record state := State {
  st_arr : list (option point); st_np : nat; st_drawn : Z; st_eff : Q; st_scaling : Q; st_wmax : Q; st_pmax : Q }.

Section AcceptReject.
Variable prob : point -> Q.
Variable inside : point -> bool.               (* the limits *)
Variable n : nat.
Variable numeric_checks : bool.
(** [prob_max], and the maximum of the weights that the sampler returns, if any *)
Variable prob_max : option Q.
Variable weights_max : option Q.
(** The random numbers: the proposals of an iteration, for the number asked for; the binomial number; the final shuffle *)
Variable propose : nat -> Z -> list proposal.
Variable binomial : nat -> nat -> Q -> nat.
Variable shuffle : list (option point) -> list (option point).
Variable multiple_limits : bool.

(** sample.py:192-197 *)
Definition n_min : Z := match prob_max with None => 3000 | Some _ => 0 end.
Definition overestimate : Q := match prob_max with None => 1.25 | Some _ => 1.001 end.

(** sample.py:274 and 296-315: how many are proposed: what is missing, over the efficiency (in units of 1/100), at least the minimum, at most
    800000. *)
Definition n_to_produce (s : state) : Z :=
  let eff := qmax (st_eff s) 0.000001 in
  let one_over := Qfloor (1 / eff * 1.01 * 100) in
  let m := ((Z.of_nat n - Z.of_nat (st_np s)) * one_over / 100)%Z in
  Z.min (Z.max m n_min) 800000.

(** sample.py:352-386: the scaling with this batch: the maximal ratio of probability and weight seen, where small weights are clipped, times
    the safety factor if it exceeds the scaling so far. *)
Definition new_wmax (s : state) (batch : list proposal) : Q := fold_right qmax (st_wmax s) (map pr_w batch).
Definition new_pmax (s : state) (batch : list proposal) : Q := fold_right qmax (st_pmax s) (map (fun p => prob (pr_row p)) batch).
Definition clipped (wmax : Q) (p : proposal) : Q := qmax (pr_w p) (wmax * 0.00001).
Definition max_ratio (s : state) (batch : list proposal) : Q :=
  let wmax := new_wmax s batch in
  fold_right qmax (new_pmax s batch / wmax)%Q (map (fun p => prob (pr_row p) / clipped wmax p)%Q batch).
Definition estimates : bool := match prob_max, weights_max with Some _, Some _ => false | _, _ => true end.
Definition rescaled (s : state) (batch : list proposal) : bool := estimates && qltb (st_scaling s) (max_ratio s batch).
Definition new_scaling (s : state) (batch : list proposal) : Q :=
  match prob_max, weights_max with
  | Some pm, Some wm => (pm / wm)%Q                                           (* 397-398 *)
  | _, _ => if qltb (st_scaling s) (max_ratio s batch) then (max_ratio s batch * overestimate)%Q else st_scaling s
  end.
(** sample.py:388-393: those already accepted are thinned, each kept with this probability: a binomial number of them, the first ones *)
Definition keep_prob (s : state) (batch : list proposal) : Q := (st_scaling s / new_scaling s batch)%Q.
Definition kept (it : nat) (s : state) (batch : list proposal) : nat :=
  if rescaled s batch then binomial it (st_np s) (keep_prob s batch) else st_np s.
(** sample.py:399-402 and 437-439: accepted if the probability exceeds the threshold *)
Definition accepted (scaling : Q) (p : proposal) : bool := qltb (pr_u p * (scaling * pr_w p)) (prob (pr_row p)).
(** sample.py:404-427: an assertion fails if a probability exceeds the scaled weight *)
Definition too_large (scaling : Q) (p : proposal) : bool := qltb (scaling * pr_w p) (prob (pr_row p)).
(** TensorArray.scatter at the indices from [k] on (sample.py:441-459) *)
Definition scatter (k : nat) (rows : list point) (arr : list (option point)) : list (option point) :=
  firstn k arr ++ map Some rows ++ skipn (k + length rows) arr.

(** sample.py:257-485 [sample_body] *)
Definition body (it : nat) (s : state) : result state :=
  let m := n_to_produce s in
  if (m <=? 0)%Z then Err InvalidArgumentError
  else
    let batch := propose it m in
    (* 345 [Data.from_tensor(obs=new_limits, ...)] cuts the proposals outside the limits; 351-355 the shapes have then to agree *)
    if negb (forallb (fun p => inside (pr_row p)) batch) then Err InvalidArgumentError
    else
      let sc := new_scaling s batch in
      let k := kept it s batch in
      if numeric_checks && existsb (too_large sc) batch then Err InvalidArgumentError
      else
        let rows := map pr_row (filter (accepted sc) batch) in
        let np := k + length rows in
        let drawn := (st_drawn s + m)%Z in
        let wmax := if estimates then new_wmax s batch else st_wmax s in
        let pmax := if estimates then new_pmax s batch else st_pmax s in
        Ok (State (scatter k rows (st_arr s)) np drawn
              (qmax (inject_Z (Z.of_nat np)) 0.5 / qmax (inject_Z drawn) 1)%Q sc wmax pmax).

(** sample.py:199, 222-238 and 445-473 *)
Definition start : state := State (repeat None n) 0 0 0.5 0 0 0.
(** [tf.while_loop] with [not_enough_produced] (sample.py:240-255); [None]: not finished with this much fuel *)
Fixpoint loop (fuel it : nat) (s : state) : result (option state) :=
  if Nat.leb n (st_np s) then Ok (Some s)
  else match fuel with
       | 0 => Ok None
       | S f => let* s' := body it s in loop f (S it) s'
       end.
(** sample.py:475-496: stack, shuffle if there are several limits, the first n *)
Definition accept_reject (fuel : nat) : result (option (list (option point))) :=
  let* r := loop fuel 0 start in
  Ok (match r with
      | None => None
      | Some s => Some (firstn n (if multiple_limits then shuffle (st_arr s) else st_arr s))
      end).

(** The state before iteration [k], as long as no error occurs and regardless of how many are needed *)
Fixpoint iterate (k : nat) : result state :=
  match k with 0 => Ok start | S k => let* s := iterate k in body k s end.
End AcceptReject.

(** sample.py:23-66 [UniformSampleAndWeights]: the number for each limit but the last is the truncated share of its volume, the rest is for the
    last. A limit is a list of intervals. *)
Definition limit : Type := list (Q * Q).
Definition volume (l : limit) : Q := fold_right (fun i a => (snd i - fst i) * a)%Q 1%Q l.
Definition total_volume (ls : list limit) : Q := fold_right (fun l a => volume l + a)%Q 0%Q ls.
Fixpoint split (m : Z) (tot : Q) (produced : Z) (ls : list limit) : list Z :=
  match ls with
  | [] => []
  | [_] => [(m - produced)%Z]
  | l :: ls => let k := Qfloor (inject_Z m * (volume l / tot)) in k :: split m tot (produced + k) ls
  end.
(** a point of the limit from uniform numbers *)
Definition scale_point (l : limit) (us : list Q) : point := map (fun iu => (snd iu * (snd (fst iu) - fst (fst iu)) + fst (fst iu))%Q) (combine l us).
(** proposals of the uniform sampler: [draws i] are the uniform numbers of limit [i]: for each event, those of the point and that of the threshold *)
Definition uniform_proposals (draws : nat -> Z -> list (list Q * Q)) (m : Z) (ls : list limit) : list proposal :=
  flat_map (fun x => map (fun d => Prop_ (scale_point (snd (fst x)) (fst d)) (snd d) 1) (draws (fst (fst x)) (snd x)))
           (combine (combine (seq 0 (length ls)) ls) (split m (total_volume ls) 0 ls)).
