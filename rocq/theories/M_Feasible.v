(** Extra constraints of the optimal laptime problem and their bounds
    (src/core/vehicles/limebeer2014f1.h:232-281, src/core/vehicles/lot2016kart.h:193-211), over
    the reals. *)
From Coq Require Import Reals List.
From Verif Require Import M_Vec M_Tire.
Import ListNotations.
Local Open Scope R_scope.

(** models: the limit of the lateral slip of one tyre, limebeer2014f1.h:244-257: the larger of the
    slips of maximum force without load and with the weight of the car. *)
Definition slip_limit (t : simple_model) (mass g0 : R) : R :=
  Rmax (maximum_lambda t 0) (maximum_lambda t (mass * g0)).

(** models: optimal_laptime_extra_constraints_bounds of the f1, limebeer2014f1.h:232-264: lower
    and upper bounds. [wl] and [wr] are the track limits at the arclength of the point. *)
Definition f1_extra_bounds (fl fr rl rr : simple_model) (mass g0 wl wr : R) : list R * list R :=
  let l_fl := slip_limit fl mass g0 in let l_fr := slip_limit fr mass g0 in
  let l_rl := slip_limit rl mass g0 in let l_rr := slip_limit rr mass g0 in
  ([- l_fl; - l_fr; - l_rl; - l_rr; - wl; - wl], [l_fl; l_fr; l_rl; l_rr; wr; wr]).

(** models: optimal_laptime_extra_constraints of the f1, limebeer2014f1.h:266-281, from the lateral
    slips of the four tyres, the lateral displacement [n], the track heading angle [alpha] and the
    track of the front axle. *)
Definition f1_extra_constraints (fl fr rl rr n alpha front_track : R) : list R :=
  [fl; fr; rl; rr; n + 1 / 2 * front_track * cos alpha; n - 1 / 2 * front_track * cos alpha].

(** models: the bounds and the values of the kart, lot2016kart.h:193-211; the values from the
    longitudinal slips of the rear tyres and the lateral slips of the four. *)
Definition kart_extra_bounds (s : R) : list R * list R :=
  (repeat (- (11 / 100)) 6, repeat (11 / 100) 6).
Definition kart_extra_constraints (kappa_rl kappa_rr fl fr rl rr : R) : list R :=
  [kappa_rl; kappa_rr; fl; fr; rl; rr].
