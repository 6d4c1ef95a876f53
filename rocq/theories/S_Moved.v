(** What the theorems on circuits in another place say. *)
From Coq Require Import Reals List.
From Verif Require Import M_Vec M_Road M_F1 M_Kart6 M_KartCar M_RealLap M_RateLap.
Import ListNotations.
Local Open Scope R_scope.

(** The map of the ground that turns by [theta] about the vertical axis through the origin and then moves by [d]. *)
Definition moved_place (theta : R) (d r : vec) : vec :=
  V (cos theta * vx r - sin theta * vy r + vx d) (sin theta * vx r + cos theta * vy r + vy d) (vz r + vz d).
(** A circuit built elsewhere: the centreline is moved and its heading is turned; slopes, bankings and widths are the same. *)
Definition moved_frame (theta : R) (d : vec) (p : frenet) : frenet :=
  Frenet (moved_place theta d (fr_r p)) (Euler (yaw (fr_e p) + theta) (pitch (fr_e p)) (roll (fr_e p))) (fr_de p).
Definition moved_circuit (theta : R) (d : vec) (ci : circuit) : circuit :=
  Circuit (fun s => moved_frame theta d (ci_frame ci s)) (ci_left ci) (ci_right ci).
(** What matters of a problem and a lap: whether the lap satisfies the constraints, and its value; in the direct formulation and with rates of the controls. *)
Definition same_lap (lap lap' : list (R * point_eval)) : Prop := forall sigma dis restricted closed L,
  (lap_feasible sigma restricted closed L lap' <-> lap_feasible sigma restricted closed L lap) /\ lap_objective sigma dis closed L lap' = lap_objective sigma dis closed L lap.
Definition same_rated_lap (lap lap' : list (R * (point_eval * list R))) : Prop := forall meshed rate_lo rate_hi sigma dis restricted closed L,
  (rate_feasible meshed rate_lo rate_hi sigma restricted closed L lap' <-> rate_feasible meshed rate_lo rate_hi sigma restricted closed L lap) /\
  rate_objective meshed rate_lo rate_hi dis sigma closed L lap' = rate_objective meshed rate_lo rate_hi dis sigma closed L lap.
