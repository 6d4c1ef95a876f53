(** Model of the optimal laptime problem of a whole car with the rates of the controls as variables (the derivative formulation), in real numbers: what it adds to the direct formulation
    of M_RealLap, and the value that it minimises. The packing of the vector of the solver is the subject of M_Laptime. *)
From Coq Require Import Reals List.
From Verif Require Import M_Vec M_Tire M_Car M_F1 M_Kart6 M_KartCar M_RealLap.
Import ListNotations.
Local Open Scope R_scope.

(** [meshed]: the numbers of the controls that are optimised at each point of the mesh. The rates of a point are a list with one entry per control, of which those of [meshed] are used. *)
Section Rates.
Variables (meshed : list nat) (rate_lo rate_hi : list R).
(** models: a point of the derivative formulation, optimal_laptime.hpp:1481-1493 and 823-844: the rates are variables with their own bounds; each control of the mesh
    has an equation as those of the integrated states, with derivative rate times dtime/ds, 1572-1583 and 1631-1641. The rest is as in the direct formulation,
    1557-1570, 1585-1590 and 1615-1647. The order of the constraints and of the variables is not kept. *)
Definition with_rates (e : point_eval) (w : list R) : point_eval :=
  PointEval (e_dt e) (e_q e ++ map (item (e_u e)) meshed) (e_dq e ++ map (fun k => item w k * e_dt e) meshed) (e_alg e)
    (e_extra e) (e_lb e) (e_ub e)
    (e_x e ++ map (item w) meshed) (e_xlb e ++ map (item rate_lo) meshed) (e_xub e ++ map (item rate_hi) meshed)
    (e_u e) (e_int e).
Variable dis : list R.
(** models: the penalisation of an element with rates [v] and [w], optimal_laptime.hpp:1547-1555 and 1605-1613. *)
Definition rate_cost (v w : list R) (ds : R) : R :=
  total (map (fun k => 1 / 2 * item dis k * (item v k * item v k + item w k * item w k) * ds) meshed).
(** models: the penalisations of the loop: the left rates are those of the first point, dcontrols_dt[i-i], optimal_laptime.hpp:1553. *)
Fixpoint rate_costs (first : list R) (pts : list (R * list R)) : R :=
  match pts with
  | a :: ((b :: _) as rest) => rate_cost first (snd b) (fst b - fst a) + rate_costs first rest
  | _ => 0
  end.
Definition rate_penalty (closed : bool) (L : R) (pts : list (R * list R)) : R :=
  match pts with
  | a :: _ => rate_costs (snd a) pts + if closed then let z := last pts a in rate_cost (snd z) (snd a) (L - fst z) else 0
  | [] => 0
  end.
(** models: fg[0] of the derivative formulation: the time, optimal_laptime.hpp:1544 and 1602, and the penalisations; the order of the additions is not kept. *)
Definition rate_objective (sigma : R) (closed : bool) (L : R) (pts : list (R * (point_eval * list R))) : R :=
  lap_objective sigma [] closed L (map (fun p => (fst p, with_rates (fst (snd p)) (snd (snd p)))) pts) +
  rate_penalty closed L (map (fun p => (fst p, snd (snd p))) pts).
(** A point of the search space that the solver may return. *)
Definition rate_feasible (sigma : R) (restricted : list (nat * (R * R))) (closed : bool) (L : R) (pts : list (R * (point_eval * list R))) : Prop :=
  lap_feasible sigma restricted closed L (map (fun p => (fst p, with_rates (fst (snd p)) (snd (snd p)))) pts).
End Rates.

(** models: optimal_laptime_derivative_control_bounds of the f1, limebeer2014f1.h:227-230. There is none for the brake bias: the program reads outside the list if that one is of the mesh. *)
Definition f1_rate_lo : list R := [- (20) * DEG; - (10); - (10)].
Definition f1_rate_hi : list R := [20 * DEG; 10; 10].
(** models: optimal_laptime_derivative_control_bounds of the kart, lot2016kart.h:186-192. *)
Definition kart_rate_lo (direct_torque : bool) : list R := if direct_torque then [- (20) * DEG; - (4000)] else [- (20) * DEG; - (10)].
Definition kart_rate_hi (direct_torque : bool) : list R := if direct_torque then [20 * DEG; 4000] else [20 * DEG; 10].

(** models: the evaluations of a lap with rates. *)
Definition f1_rated (smooth_pos smooth_sign : R -> R -> R) (g0 : R) (c : f1) (ci : circuit) (elevated : bool) (lo hi : R -> f1_input * R)
  (pts : list (R * (f1_point * list R))) : list (R * (point_eval * list R)) :=
  map (fun p => (fst p, (f1_point_eval smooth_pos smooth_sign g0 c ci elevated lo hi (fst p) (fst (snd p)), snd (snd p)))) pts.
Definition kart_rated (smooth_pos smooth_sign : R -> R -> R) (linsolve : mat -> vec -> vec) (c : kart) (ci : circuit) (lo hi : R -> kart_input * R)
  (pts : list (R * (kart_point * list R))) : list (R * (point_eval * list R)) :=
  map (fun p => (fst p, (kart_point_eval smooth_pos smooth_sign linsolve c ci lo hi (fst p) (fst (snd p)), snd (snd p)))) pts.
