(** Specification vocabulary for asymmetric errors. *)
From Verif Require Import Base Prof_Model.
From Coq Require Import QArith Qabs.
#[local] Open Scope nat_scope.

(** [v] is allowed by the limits [b]. *)
Definition allowed (b : bounds) (v : Q) : Prop :=
  (forall l, fst b = Some l -> (l <= v)%Q) /\ (forall u, snd b = Some u -> (v <= u)%Q).
(** A parameter with limits [b] that was set to [v] has the value [v], or the limit that [v] exceeds (with limits the wrong way round:
    the upper one). *)
Inductive takes (b : bounds) (v : Q) : Q -> Prop :=
| t_inside : allowed b v -> takes b v v
| t_above u : snd b = Some u -> (u < v)%Q -> takes b v u
| t_below l : fst b = Some l -> (v < l)%Q -> (forall u, snd b = Some u -> (l <= u)%Q) -> takes b v l
| t_reversed l u : fst b = Some l -> snd b = Some u -> (v < l)%Q -> (u < l)%Q -> takes b v u.
(** The parameters, set to [values], have the values [now]. *)
Definition have_values (S : setting) (values now : list Q) : Prop :=
  Forall2 (fun bv w => takes (fst bv) (snd bv) w) (combine (s_bounds S) values) now.
(** The loss where the parameters were set to [values]; if it can not be evaluated 9999999999 is used. *)
Definition loss_at (S : setting) (values : list Q) (l : Q) : Prop :=
  exists now, have_values S values now /\ ((exists g, s_loss S now = Ok (l, g)) \/ (s_loss S now = Err InvalidArgumentError /\ l = 9999999999%Q)).
(** On the side asked for: not above the fit value for the lower error, not below it for the upper one. *)
Definition on_side (upper : bool) (fit v : Q) : Prop := if upper then (fit <= v)%Q else (v <= fit)%Q.
(** [values] is a point where the loss is [errordef * sigma^2] above the minimum, within [tol]; or, on the other side of the fit value,
    a point where it is that much below the minimum. *)
Definition crossing (S : setting) (r : fitres) (sigma tol : Q) (poi : nat) (upper : bool) (values : list Q) : Prop :=
  exists now l, have_values S values now
    /\ ((exists g, s_loss S now = Ok (l, g)) \/ (s_loss S now = Err InvalidArgumentError /\ l = 9999999999%Q))
    /\ ((on_side upper (nth poi (f_vals r) 0) (nth poi now 0) /\ Qabs (l - f_min r - s_errordef S * (sigma * sigma)) < tol)
        \/ (~ on_side upper (nth poi (f_vals r) 0) (nth poi now 0) /\ Qabs (- (l - f_min r) - s_errordef S * (sigma * sigma)) < tol))%Q.
(** The points a solver asks for, in order, up to some moment. *)
Inductive visited : solver -> list (list Q) -> Prop :=
| v_stop t : visited t []
| v_eval x k out pts : visited (k out) pts -> visited (SEval x k) (x :: pts).
(** The level asked for: [sigma], or the one of the confidence level [cl], or 1. *)
Inductive asked_level (S : setting) : option Q -> option Q -> Q -> Prop :=
| al_default : asked_level S None None 1
| al_sigma s : asked_level S None (Some s) s
| al_cl c : asked_level S (Some c) None (s_sqrt S (s_quantile S c)).
(** [err] is the distance of the fit value to a point where the loss crosses the level. *)
Definition error_at_crossing (S : setting) (r : fitres) (sigma tol : Q) (poi : nat) (upper : bool) (err : Q) : Prop :=
  exists values, length values = length (f_vals r) /\ crossing S r sigma tol poi upper values
    /\ (err == nth poi values 0 - nth poi (f_vals r) 0)%Q.
(** [es] are the errors of the parameters [ps]; without a warning they lead to crossings. *)
Definition errors_of (S : setting) (r : fitres) (sigma tol : Q) (ps : list nat) (es : list perror) : Prop :=
  map e_param es = ps
  /\ forall e, In e es ->
       (e_lower_warned e = false -> error_at_crossing S r sigma tol (e_param e) false (e_lower e))
       /\ (e_upper_warned e = false -> error_at_crossing S r sigma tol (e_param e) true (e_upper e)).
Definition tolerance (rtol : option Q) : Q := match rtol with Some t => t | None => 3 # 1000 end.
(** The last five points of [pts] and [x], or [x] alone, are crossings. *)
Definition settled (cross : list Q -> Prop) (pts : list (list Q)) (x : list Q) : Prop :=
  cross x /\ (pts = [] \/ exists pre a b c d, pts = pre ++ [a; b; c; d] /\ cross a /\ cross b /\ cross c /\ cross d).
(** No point has a loss so low that its mirror image crosses the level. *)
Definition really_minimum (S : setting) (r : fitres) (sigma tol : Q) : Prop :=
  (forall now l g, s_loss S now = Ok (l, g) -> (f_min r - s_errordef S * (sigma * sigma) + tol <= l)%Q)
  /\ (f_min r - s_errordef S * (sigma * sigma) + tol <= 9999999999)%Q.

(** What the root finder is told about a point: how far the loss is above the level, and the gradient for the other parameters; both
    with the other sign of loss and gradient if the point is on the other side. *)
Definition answered (S : setting) (r : fitres) (sigma : Q) (poi : nat) (upper : bool) (values out : list Q) : Prop :=
  exists now l grad h rest, have_values S values now /\ out = h :: rest
    /\ ((s_loss S now = Ok (l, grad)
          /\ (poi < length grad -> exists before x after, grad = before ++ x :: after /\ length before = poi
               /\ ((on_side upper (nth poi (f_vals r) 0) (nth poi now 0) -> rest = before ++ after)
                    /\ (~ on_side upper (nth poi (f_vals r) 0) (nth poi now 0) -> rest = map Qopp (before ++ after)))%Q))
        \/ (s_loss S now = Err InvalidArgumentError /\ l = 9999999999%Q))
    /\ (on_side upper (nth poi (f_vals r) 0) (nth poi now 0) -> h == l - f_min r - s_errordef S * (sigma * sigma))%Q
    /\ (~ on_side upper (nth poi (f_vals r) 0) (nth poi now 0) -> h == - (l - f_min r) - s_errordef S * (sigma * sigma))%Q.
(** The root finder ends by itself with the point [x], being told the right things about all points it asked for. *)
Inductive ends (S : setting) (r : fitres) (sigma : Q) (poi : nat) (upper : bool) : solver -> list Q -> Prop :=
| e_done x : ends S r sigma poi upper (SDone x) x
| e_eval x k out y : answered S r sigma poi upper x out -> ends S r sigma poi upper (k out) y -> ends S r sigma poi upper (SEval x k) y.
