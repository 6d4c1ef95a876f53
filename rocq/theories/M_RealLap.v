(** Model of the optimal laptime problem of a whole car, in real numbers: the value that the solver minimises, the constraints and the bounds, for the
    direct formulation. The problem of any car first, from the evaluations at the points of the mesh; then the evaluations of the Formula 1
    car (M_F1) and of the kart (M_KartCar). The packing of the vector of the solver is the subject of M_Laptime. *)
From Coq Require Import Reals List.
From Verif Require Import M_Vec M_Tire M_Car M_Road M_F1 M_Kart6 M_KartCar M_Feasible.
Import ListNotations.
Local Open Scope R_scope.

(** What the problem takes from the car at a point of the mesh, optimal_laptime.hpp:1310-1318, 1325-1327, 1344-1352: derivative of the time; states
    and derivatives of the equations that are integrated; derivatives of those that are algebraic; extra constraints and their
    bounds, 434-440; variables and their bounds, 332-375; controls that are penalised, 1357-1368; integrands of the integral
    quantities, already multiplied by the derivative of the time, 1352. Derivatives are with respect to the arclength. *)
Record point_eval := PointEval {
  e_dt : R; e_q : list R; e_dq : list R; e_alg : list R;
  e_extra : list R; e_lb : list R; e_ub : list R;
  e_x : list R; e_xlb : list R; e_xub : list R;
  e_u : list R; e_int : list R }.

Definition item (l : list R) (k : nat) : R := nth k l 0.
Definition total (l : list R) : R := fold_right Rplus 0 l.
(** models: c_lb <= c <= c_ub of the solver, component by component. *)
Definition bounded (lb x ub : list R) : Prop :=
  length lb = length x /\ length ub = length x /\ forall k, (k < length x)%nat -> item lb k <= item x k <= item ub k.

(** An element of the mesh: its length, its left and its right end. *)
Definition mesh_element := (R * (point_eval * point_eval))%type.
(** models: the elements of the loop, optimal_laptime.hpp:1323-1331. The mesh is a list of arclengths and evaluations. *)
Fixpoint inner_elements (pts : list (R * point_eval)) : list mesh_element :=
  match pts with
  | a :: ((b :: _) as rest) => (fst b - fst a, (snd a, snd b)) :: inner_elements rest
  | _ => []
  end.
(** models: the periodic element, optimal_laptime.hpp:1370-1376. *)
Definition closing_element (L : R) (pts : list (R * point_eval)) : list mesh_element :=
  match pts with
  | a :: _ => let z := last pts a in [(L - fst z, (snd z, snd a))]
  | [] => []
  end.
Definition mesh_elements (closed : bool) (L : R) (pts : list (R * point_eval)) : list mesh_element :=
  inner_elements pts ++ if closed then closing_element L pts else [].

Section Problem.
(** [sigma]: options.sigma, [dis]: dissipations of the controls, 0 for those that are not of the full mesh; [restricted]: the integral quantities
    that are restricted, with their bounds. *)
Variables (sigma : R) (dis : list R) (restricted : list (nat * (R * R))).

(** models: optimal_laptime.hpp:1332 and 1377, with the penalisations 1364-1365 and 1401-1402. *)
Definition element_cost (e : mesh_element) : R :=
  let '(ds, (l, r)) := e in
  ds * ((1 - sigma) * e_dt l + sigma * e_dt r) +
  total (map (fun k => let derivative := (item (e_u r) k - item (e_u l) k) / ds in item dis k * (derivative * derivative) * ds) (seq 0 (length dis))).
(** models: fg[0]; the order of the additions is not kept. *)
Definition lap_objective (closed : bool) (L : R) (pts : list (R * point_eval)) : R :=
  total (map element_cost (mesh_elements closed L pts)).

(** models: optimal_laptime.hpp:1337-1338 and 1383-1384. *)
Definition residuals (e : mesh_element) : list R :=
  let '(ds, (l, r)) := e in
  map (fun k => item (e_q r) k - item (e_q l) k - ds * ((1 - sigma) * item (e_dq l) k + sigma * item (e_dq r) k)) (seq 0 (length (e_q r))).
(** models: optimal_laptime.hpp:1340-1341 and 1386-1387. *)
Definition algebraic_residuals (r : point_eval) : list R := map (fun d => d / e_dt r) (e_alg r).
(** models: the constraints of an element within their bounds, optimal_laptime.hpp:415-440 and 445-471. *)
Definition element_holds (e : mesh_element) : Prop :=
  Forall (fun x => x = 0) (residuals e) /\ Forall (fun x => x = 0) (algebraic_residuals (snd (snd e))) /\
  bounded (e_lb (snd (snd e))) (e_extra (snd (snd e))) (e_ub (snd (snd e))).
(** models: the variables within their bounds, optimal_laptime.hpp:332-375: the first point of an open lap is not a variable. *)
Definition variables_hold (closed : bool) (pts : list (R * point_eval)) : Prop :=
  Forall (fun p => bounded (e_xlb (snd p)) (e_x (snd p)) (e_xub (snd p))) (if closed then pts else tl pts).
(** models: an integral quantity, optimal_laptime.hpp:1353 and 1409. In the closing element the front has the weight 1 - sigma. *)
Definition lap_integral (closed : bool) (L : R) (k : nat) (pts : list (R * point_eval)) : R :=
  total (map (fun e : mesh_element => let '(ds, (l, r)) := e in ds * ((1 - sigma) * item (e_int l) k + sigma * item (e_int r) k)) (inner_elements pts)) +
  if closed
  then total (map (fun e : mesh_element => let '(ds, (l, r)) := e in ds * ((1 - sigma) * item (e_int r) k + sigma * item (e_int l) k)) (closing_element L pts))
  else 0.
(** A point of the search space that the solver may return; the integral constraints: optimal_laptime.hpp:472-482 and 1413-1417. *)
Definition lap_feasible (closed : bool) (L : R) (pts : list (R * point_eval)) : Prop :=
  Forall element_holds (mesh_elements closed L pts) /\ variables_hold closed pts /\
  Forall (fun q => fst (snd q) <= lap_integral closed L (fst q) pts <= snd (snd q)) restricted.
End Problem.

(** A circuit: its Frenet frames and its limits to the left and to the right at each arclength. *)
Record circuit := Circuit { ci_frame : R -> frenet; ci_left : R -> R; ci_right : R -> R }.

(** ** The Formula 1 car *)
(** The variables of a point: inputs and controls of the chassis, lateral displacement and heading angle with respect to the track. *)
Record f1_point := F1Point { fp_in : f1_input; fp_n : R; fp_alpha : R }.
(** models: the variables in the vector of the solver; their order is not kept. *)
Definition f1_variables (i : f1_input) (n alpha : R) : list R :=
  [i_fl i; i_fr i; i_rl i; i_rr i; i_u i; i_v i; i_yaw i; i_zfl i; i_zfr i; i_zrl i; i_zrr i; n; alpha; M_F1.i_delta i; i_boost i; M_F1.i_throttle i; i_bias i].

Section Smooth.
Variables smooth_pos smooth_sign : R -> R -> R.
Variable g0 : R.

(** models: classify_equations of the f1, limebeer2014f1.h:185-225: with elevation all the equations but that of the time are integrated; without it,
    vertical velocity, roll, pitch and roll balance are algebraic. *)
Definition f1_integrated (elevated : bool) (y : f1_vector) : list R :=
  [y_fl y; y_fr y; y_rl y; y_rr y; M_F1.y_u y; M_F1.y_v y; M_F1.y_yaw y] ++ (if elevated then [y_w y; y_roll y; y_pitch y; y_balance y] else []) ++
  [vy (M_F1.y_road y); vz (M_F1.y_road y)].
Definition f1_algebraic (elevated : bool) (y : f1_vector) : list R :=
  if elevated then [] else [y_w y; y_roll y; y_pitch y; y_balance y].

(** models: compute_integral_quantities of the f1, limebeer2014f1.h:293-311; the power of the engine, engine.hpp:42, with maximum power only
    (axle_car_3dof.hpp:97). *)
Definition f1_integrands (c : f1) (i : f1_input) (v : f1_eval) : list R :=
  [smooth_pos (M_F1.i_throttle i) (a_smooth (f_rear c)) * (e_max_power_kW (a_engine (f_rear c)) * 1000) / 10 ^ 6;
   - dissipation (w_R0 (f_fl c)) (v_fl v) / 10 ^ 6; - dissipation (w_R0 (f_fr c)) (v_fr v) / 10 ^ 6;
   - dissipation (w_R0 (f_rl c)) (v_rl v) / 10 ^ 6; - dissipation (w_R0 (f_rr c)) (v_rr v) / 10 ^ 6; i_boost i].

(** models: the evaluation of the f1 at arclength [s] of the circuit. [lo], [hi]: bounds of the inputs and controls and of the heading
    angle, optimal_laptime.hpp:332-375; a control that is not optimised has its values as bounds. The time is not a variable. Controls that are constant or given on a
    hypermesh are not modelled here. *)
Definition f1_point_eval (c : f1) (ci : circuit) (elevated : bool) (lo hi : R -> f1_input * R) (s : R) (p : f1_point) : point_eval :=
  let '(r, v) := track_eval smooth_pos smooth_sign g0 c (fp_in p) (ci_frame ci s) (fp_n p) (fp_alpha p) in
  let '(q, dq) := f1_on_track smooth_pos smooth_sign g0 c (fp_in p) (ci_frame ci s) 0 (fp_n p) (fp_alpha p) in
  let '(lb, ub) := f1_extra_bounds (w_model (f_fl c)) (w_model (f_fr c)) (w_model (f_rl c)) (w_model (f_rr c)) (c_mass (f_chassis c)) g0
                     (ci_left ci s) (ci_right ci s) in
  PointEval (vx (M_F1.y_road dq)) (f1_integrated elevated q) (f1_integrated elevated dq) (f1_algebraic elevated dq)
    (f1_extra_constraints (t_lambda (v_fl v)) (t_lambda (v_fr v)) (t_lambda (v_rl v)) (t_lambda (v_rr v)) (fp_n p) (fp_alpha p) (a_track (f_front c))) lb ub
    (f1_variables (fp_in p) (fp_n p) (fp_alpha p))
    (f1_variables (fst (lo s)) (- ci_left ci s) (snd (lo s))) (f1_variables (fst (hi s)) (ci_right ci s) (snd (hi s)))
    [M_F1.i_delta (fp_in p); i_boost (fp_in p); M_F1.i_throttle (fp_in p); i_bias (fp_in p)]
    (map (Rmult (vx (M_F1.y_road dq))) (f1_integrands c (fp_in p) v)).
Definition f1_lap (c : f1) (ci : circuit) (elevated : bool) (lo hi : R -> f1_input * R) (pts : list (R * f1_point)) : list (R * point_eval) :=
  map (fun p => (fst p, f1_point_eval c ci elevated lo hi (fst p) (snd p))) pts.
End Smooth.

(** ** The kart *)
Record kart_point := KartPoint { kp_in : kart_input; kp_n : R; kp_alpha : R }.
Definition kart_variables (i : kart_input) (n alpha : R) : list R :=
  let q := i_state i in
  [i_omega i; q_u q; q_v q; q_omega q; q_z q; q_phi q; q_mu q; q_dz q; q_dphi q; q_dmu q; n; alpha; M_KartCar.i_delta i; M_KartCar.i_throttle i].
(** models: the equations of the kart, all of them integrated but that of the time, dynamic_model_car.h:170-190. *)
Definition kart_integrated (y : kart_vector) : list R :=
  [M_KartCar.y_u y; M_KartCar.y_v y; M_KartCar.y_yaw y; y_z y; y_phi y; y_mu y; y_dz y; y_dphi y; y_dmu y; y_omega y;
   vy (M_KartCar.y_road y); vz (M_KartCar.y_road y)].

Section Kart.
Variables smooth_pos smooth_sign : R -> R -> R.
Variable linsolve : mat -> vec -> vec.
(** models: the evaluation of the kart at arclength [s]; it has no integral quantities, lot2016kart.h:213-227. *)
Definition kart_point_eval (c : kart) (ci : circuit) (lo hi : R -> kart_input * R) (s : R) (p : kart_point) : point_eval :=
  let '(r, v) := kart_track_eval smooth_pos smooth_sign linsolve c (kp_in p) (ci_frame ci s) (kp_n p) (kp_alpha p) in
  let '(q, dq) := kart_on_track smooth_pos smooth_sign linsolve c (kp_in p) (ci_frame ci s) 0 (kp_n p) (kp_alpha p) in
  let '(lb, ub) := kart_extra_bounds s in
  PointEval (vx (M_KartCar.y_road dq)) (kart_integrated q) (kart_integrated dq) []
    (kart_extra_constraints (t_kappa (x_left (n_rear v))) (t_kappa (x_right (n_rear v))) (t_lambda (x_left (n_front v))) (t_lambda (x_right (n_front v)))
       (t_lambda (x_left (n_rear v))) (t_lambda (x_right (n_rear v)))) lb ub
    (kart_variables (kp_in p) (kp_n p) (kp_alpha p))
    (kart_variables (fst (lo s)) (- ci_left ci s) (snd (lo s))) (kart_variables (fst (hi s)) (ci_right ci s) (snd (hi s)))
    [M_KartCar.i_delta (kp_in p); M_KartCar.i_throttle (kp_in p)] [].
Definition kart_lap_points (c : kart) (ci : circuit) (lo hi : R -> kart_input * R) (pts : list (R * kart_point)) : list (R * point_eval) :=
  map (fun p => (fst p, kart_point_eval c ci lo hi (fst p) (snd p))) pts.
End Kart.
