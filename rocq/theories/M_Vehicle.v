(** Model of the two car classes: layout of the vectors, steady-state equations, equation
    classification, default values (vehicles/limebeer2014f1.h, vehicles/lot2016kart.h,
    vehicles/dynamic_model_car.h, chassis/chassis.hpp, chassis/chassis_car_3dof.hpp,
    chassis/chassis_car_6dof.hpp). Real numbers instead of doubles and CppAD doubles. *)
From Coq Require Import Reals Lra.
From Coq Require Import Arith List.
From Verif Require Import M_Vec M_Road M_Car.
Import ListNotations.
Local Open Scope R_scope.

(** A std::array of scalars declared without initialiser: [None] is an entry that has not
    been written (to read it is undefined behaviour). *)
Definition array := list (option R).
Definition fresh (n : nat) : array := repeat None n.
Fixpoint set_entry (a : array) (i : nat) (v : R) : array :=
  match a, i with
  | [], _ => []
  | _ :: a', O => Some v :: a'
  | o :: a', S i' => o :: set_entry a' i' v
  end.
(** The assignments a[i] = v, in order. *)
Definition assign (ws : list (nat * R)) (a : array) : array := fold_left (fun a w => set_entry a (fst w) (snd w)) ws a.
Definition get (a : array) (i : nat) : option R := match nth_error a i with Some o => o | None => None end.
(** a vector built from reads: all the reads must be defined *)
Fixpoint collect (l : list (option R)) : option (list R) :=
  match l with
  | [] => Some []
  | o :: l' => match o, collect l' with Some v, Some r => Some (v :: r) | _, _ => None end
  end.
Definition read (f : R -> R) (a : array) (i : nat) : option R := option_map f (get a i).

(** lion's DEG and KMH (foundation/constants.h, not in the repository). *)
Definition DEG : R := PI / 180.
Definition KMH : R := 1 / 36 * 10.

(** ** Formula 1 car: positions, limebeer2014f1.h:16-31, tire_pacejka.h and the enums of the
    axles, the chassis and the road *)
Definition f1_KAPPA_FL : nat := 0.
Definition f1_KAPPA_FR : nat := 1.
Definition f1_KAPPA_RL : nat := 2.
Definition f1_KAPPA_RR : nat := 3.
Definition f1_velocity_x : nat := 4.
Definition f1_velocity_y : nat := 5.
Definition f1_yaw_rate : nat := 6.
Definition f1_force_z_fl : nat := 7.
Definition f1_force_z_fr : nat := 8.
Definition f1_force_z_rl : nat := 9.
Definition f1_force_z_rr : nat := 10.
Definition f1_X : nat := 11.
Definition f1_Y : nat := 12.
Definition f1_PSI : nat := 13.
Definition f1_number_of_inputs : nat := 14.
Definition f1_STEERING : nat := 0.
Definition f1_boost : nat := 1.
Definition f1_throttle : nat := 2.
Definition f1_brake_bias : nat := 3.
Definition f1_number_of_controls : nat := 4.
(** states: 0-3 angular momenta of the wheels, 4-6 velocities, then *)
Definition f1_com_velocity_z : nat := 7.
Definition f1_roll_momentum : nat := 8.
Definition f1_pitch_momentum : nat := 9.
Definition f1_roll_balance : nat := 10.
Definition f1_time : nat := 11.
Definition f1_number_of_states : nat := 14.

(** models: maximum_yaw, maximum_steering, limebeer2014f1.h:51-52. *)
Definition maximum_yaw : R := 10 * DEG.
Definition maximum_steering : R := 10 * DEG.

(** models: get_x, limebeer2014f1.h:84-101 (the argument v is not used). *)
Definition f1_get_x (q u : array) : option (list R) :=
  let id := fun r : R => r in
  collect [ read id q f1_KAPPA_FL; read id q f1_KAPPA_FR; read id q f1_KAPPA_RL; read id q f1_KAPPA_RR;
            read (fun r => r / maximum_yaw) q f1_PSI;
            read id q f1_force_z_fl; read id q f1_force_z_fr; read id q f1_force_z_rl; read id q f1_force_z_rr;
            read (fun r => r / maximum_steering) u f1_STEERING; read id u f1_throttle ].

(** models: the inputs and controls built by steady_state_equations,
    limebeer2014f1.h:114-150, from the eleven solver variables [x], the lateral acceleration
    [ay] in units of g0 and the speed [v]. *)
Definition f1_steady_inputs (g0 : R) (x : nat -> R) (ay v : R) : array :=
  let psi := maximum_yaw * x 4%nat in
  let omega := (ay * g0) / v in
  assign [ (f1_force_z_fl, x 5%nat); (f1_force_z_fr, x 6%nat); (f1_force_z_rl, x 7%nat); (f1_force_z_rr, x 8%nat);
           (f1_KAPPA_FL, x 0%nat); (f1_KAPPA_FR, x 1%nat); (f1_KAPPA_RL, x 2%nat); (f1_KAPPA_RR, x 3%nat);
           (f1_velocity_x, v * cos psi); (f1_velocity_y, - v * sin psi); (f1_yaw_rate, omega);
           (f1_X, 0); (f1_Y, 0); (f1_PSI, psi) ] (fresh f1_number_of_inputs).
Definition f1_steady_controls (u_def : list R) (x : nat -> R) : array :=
  assign [ (f1_STEERING, x 9%nat * maximum_steering); (f1_throttle, x 10%nat) ] (map Some u_def).

(** models: constraints 4 and 5, limebeer2014f1.h:159-163; [a] is the derivative of the
    velocity of the centre of mass, [ax] is in units of g0. On the cartesian road the
    derivatives are not rescaled (road.h: _dtimeds = 1). *)
Definition f1_constraint_4 (g0 psi : R) (a : vec) : R := (vx a * sin psi + vy a * cos psi) / g0.
Definition f1_constraint_5 (g0 ax psi : R) (a : vec) : R :=
  ax * g0 / g0 + (- vx a * cos psi + vy a * sin psi) / g0.

(** ** Kart: positions, lot2016kart.h:18-33 and the enums *)
Definition kart_OMEGA_AXLE : nat := 0.
Definition kart_velocity_x : nat := 1.
Definition kart_velocity_y : nat := 2.
Definition kart_yaw_rate : nat := 3.
Definition kart_Z : nat := 4.
Definition kart_PHI : nat := 5.
Definition kart_MU : nat := 6.
Definition kart_DZDT : nat := 7.
Definition kart_DPHIDT : nat := 8.
Definition kart_DMUDT : nat := 9.
Definition kart_X : nat := 10.
Definition kart_Y : nat := 11.
Definition kart_PSI : nat := 12.
Definition kart_number_of_inputs : nat := 13.
Definition kart_STEERING : nat := 0.
Definition kart_TORQUE : nat := 1.
Definition kart_number_of_controls : nat := 2.

Definition kart_radius : R := 139 / 1000.

(** models: get_x, lot2016kart.h:104-116. *)
Definition kart_get_x (q u : array) (v : R) : option (list R) :=
  let id := fun r : R => r in
  collect [ read (fun r => (r * kart_radius - v) / v) q kart_OMEGA_AXLE;
            read id q kart_Z; read id q kart_PHI; read id q kart_MU; read id q kart_PSI; read id u kart_STEERING ].

(** models: the inputs and controls built by steady_state_equations, lot2016kart.h:133-157. *)
Definition kart_steady_inputs (x : nat -> R) (ay v : R) : array :=
  let psi := x 4%nat in
  let omega := ay / v in
  assign [ (kart_OMEGA_AXLE, (x 0%nat + 1) * v / kart_radius);
           (kart_velocity_x, v * cos psi); (kart_velocity_y, - v * sin psi); (kart_yaw_rate, omega);
           (kart_Z, x 1%nat); (kart_PHI, x 2%nat); (kart_MU, x 3%nat);
           (kart_DZDT, 0); (kart_DPHIDT, 0); (kart_DMUDT, 0);
           (kart_X, 0); (kart_Y, 0); (kart_PSI, x 4%nat) ] (fresh kart_number_of_inputs).
Definition kart_steady_controls (x : nat -> R) : array :=
  assign [ (kart_STEERING, x 5%nat); (kart_TORQUE, 0) ] (fresh kart_number_of_controls).

(** models: constraints 4 and 5, lot2016kart.h:169-172. *)
Definition kart_constraint_4 (psi : R) (a : vec) : R := vx a * sin psi + vy a * cos psi.
Definition kart_constraint_5 (ax psi : R) (a : vec) : R := ax - vx a * cos psi + vy a * sin psi.

(** models: the Newton equations of the kart, chassis_car_6dof.hpp:137 and 158-166. *)
Definition newton6 (m : R) (F om vel : vec) : vec := vadd (vopp (cross om vel)) (vscale (/ m) F).

(** ** Steady_state<...>::solve: what the equations receive *)
(** models: the accelerations handed to the equations, steady_state.hpp:33-34 and 43 (scalar,
    last step: factor 1) and 87-91 (CppAD). *)
Inductive flavour := SCALAR | AUTODIFF.
Definition passed (f : flavour) (acceleration_units a : R) : R :=
  match f with SCALAR => a | AUTODIFF => a / acceleration_units end.

(** ** Equation classification *)
Inductive classified := Classified (time_derivative algebraic : list nat) | ClassifyThrow | ClassifyUB.
(** models: Dynamic_model_car::classify_equations, dynamic_model_car.h:162-186: [n] states,
    time at position [t]. The two for_each loops number the entries of a vector of n-1. *)
Definition classify (n t : nat) : classified :=
  if (n - 1 <? t)%nat then ClassifyUB else
  let first := map (fun k => k) (seq 0 t) in                       (* eq_id = equation_id++ *)
  let rest := map (fun k => S (t + k)) (seq 0 (n - 1 - t)) in      (* eq_id = ++equation_id *)
  let equation_id := (t + (n - 1 - t))%nat in
  if (equation_id =? n - 1)%nat then Classified (first ++ rest) [] else ClassifyThrow.

(** models: vector::erase(remove(...)) of one value. *)
Definition erase (i : nat) (l : list nat) : list nat := filter (fun k => negb (k =? i)%nat) l.
(** models: the override of the Formula 1 car, limebeer2014f1.h:185-225; [flat] is true on the
    cartesian road and on tracks without elevation. *)
Definition classify_with (ids : list nat) (flat : bool) (c : classified) : classified :=
  match c with
  | Classified td alg =>
      if flat then Classified (fold_left (fun l i => erase i l) ids td) (alg ++ ids) else Classified td alg
  | other => other
  end.
Definition f1_flat_ids : list nat := [f1_com_velocity_z; f1_roll_momentum; f1_pitch_momentum; f1_roll_balance].
Definition f1_classify (flat : bool) : classified := classify_with f1_flat_ids flat (classify f1_number_of_states f1_time).

(** models: the states 7-10 of the Formula 1 car, chassis_car_3dof.hpp:229-232. *)
Definition f1_flat_state (g0 : R) (c : chassis3) (mo : motion3) (i : nat) : R :=
  if (i =? f1_com_velocity_z)%nat then vz (mo_v mo) / g0
  else if (i =? f1_roll_momentum)%nat then mo_roll_momentum mo / (g0 * c_mass c)
  else if (i =? f1_pitch_momentum)%nat then mo_pitch_momentum mo / (g0 * c_mass c)
  else 0.

(** The angular velocity of the road frame in its own axes: that of the track frame turned by
    the track heading angle, plus the rate of that angle (lion's Frame is not in the
    repository). *)
Definition frame_omega (e de : euler) (dtime_ds alpha alpha_dot : R) : vec :=
  let k := curvature e de in
  V ((cos alpha * vx k + sin alpha * vy k) / dtime_ds)
    ((- sin alpha * vx k + cos alpha * vy k) / dtime_ds)
    (vz k / dtime_ds + alpha_dot).

(** ** Default values and bounds *)
Record range := MkRange { r_name : nat; r_def : R; r_lb : R; r_ub : R }.
Definition scalar_max : R := (2 - 1 / 2 ^ 52) * 2 ^ 1023.

(** models: set_state_and_control_upper_lower_and_default_values: tire_pacejka (kappa),
    chassis.hpp:400-425 called with the values of chassis_car_3dof.hpp:311-315,
    chassis_car_3dof.hpp:317-345, axle_car_3dof.hpp, road_curvilinear.hpp:61-82.
    [brake_bias_0] is the parameter of the car. *)
Definition f1_inputs_ranges : list range :=
  [ MkRange f1_KAPPA_FL 0 (-1) 1; MkRange f1_KAPPA_FR 0 (-1) 1; MkRange f1_KAPPA_RL 0 (-1) 1; MkRange f1_KAPPA_RR 0 (-1) 1;
    MkRange f1_velocity_x (50 * KMH) (50 * KMH) (380 * KMH); MkRange f1_velocity_y 0 (- (50 * KMH)) (50 * KMH);
    MkRange f1_yaw_rate 0 (-10) 10;
    MkRange f1_force_z_fl (1 / 4) (-3) (- (1 / 100)); MkRange f1_force_z_fr (1 / 4) (-3) (- (1 / 100));
    MkRange f1_force_z_rl (1 / 4) (-3) (- (1 / 100)); MkRange f1_force_z_rr (1 / 4) (-3) (- (1 / 100));
    MkRange f1_time 0 0 scalar_max; MkRange f1_Y 0 (- scalar_max) scalar_max; MkRange f1_PSI 0 (- 45 * DEG) (45 * DEG) ].
Definition f1_controls_ranges (brake_bias_0 : R) : list range :=
  [ MkRange f1_STEERING 0 (- 20 * DEG) (20 * DEG); MkRange f1_boost 0 0 1; MkRange f1_throttle 0 (-1) 1;
    MkRange f1_brake_bias brake_bias_0 0 1 ].
(** models: the same for the kart, axle_car_6dof.hpp, chassis_car_6dof.hpp:312-367. *)
Definition kart_inputs_ranges : list range :=
  [ MkRange kart_OMEGA_AXLE (10 * KMH / kart_radius) (10 * KMH / kart_radius) (200 * KMH / kart_radius);
    MkRange kart_velocity_x (10 * KMH) (10 * KMH) (200 * KMH); MkRange kart_velocity_y 0 (- (10 * KMH)) (10 * KMH);
    MkRange kart_yaw_rate 0 (-10) 10;
    MkRange kart_Z (1 / 100000) (1 / 100000) kart_radius; MkRange kart_PHI 0 (- 30 * DEG) (30 * DEG);
    MkRange kart_MU 0 (- 30 * DEG) (30 * DEG); MkRange kart_DZDT 0 (-10) 10; MkRange kart_DPHIDT 0 (-10) 10;
    MkRange kart_DMUDT 0 (-10) 10;
    MkRange kart_X 0 0 scalar_max; MkRange kart_Y 0 (- scalar_max) scalar_max; MkRange kart_PSI 0 (- 45 * DEG) (45 * DEG) ].
Definition kart_controls_ranges : list range :=
  [ MkRange kart_STEERING 0 (- 20 * DEG) (20 * DEG); MkRange kart_TORQUE 0 (-1) 1 ].

(** ** States and inputs of the kart *)
(** models: set_state_and_controls followed by get_state_and_state_derivative (states only):
    axle_car_6dof.hpp:246-320, chassis.hpp:340-400, chassis_car_6dof.hpp:217-310 and
    road_curvilinear / road_cartesian; every state is the member set from the input of the same
    quantity. Positions written by [states], then the positions they are read from. *)
Definition kart_states (q : array) : array :=
  let at_ i := match get q i with Some r => r | None => 0 end in
  assign [ (kart_OMEGA_AXLE, at_ kart_OMEGA_AXLE);
           (kart_velocity_x, at_ kart_velocity_x); (kart_velocity_y, at_ kart_velocity_y); (kart_yaw_rate, at_ kart_yaw_rate);
           (kart_Z, at_ kart_Z); (kart_PHI, at_ kart_PHI); (kart_MU, at_ kart_MU);
           (kart_DZDT, at_ kart_DZDT); (kart_DPHIDT, at_ kart_DPHIDT); (kart_DMUDT, at_ kart_DMUDT);
           (kart_X, at_ kart_X); (kart_Y, at_ kart_Y); (kart_PSI, at_ kart_PSI) ] (fresh kart_number_of_inputs).
(** models: transform_states_to_inputs, dynamic_model_car.hpp:7-20, chassis.hpp:191-209 and
    axle_car_6dof.h:168-171 (empty). *)
Definition kart_states_to_inputs (states : array) : array :=
  let at_ i := match get states i with Some r => r | None => 0 end in
  assign [ (kart_velocity_x, at_ kart_velocity_x); (kart_velocity_y, at_ kart_velocity_y) ] states.

(** ** Track limits of the Formula 1 car *)
(** models: the last two extra constraints, limebeer2014f1.h:266-281. *)
Definition limit_right (track n alpha : R) : R := n + 1 / 2 * track * cos alpha.
Definition limit_left (track n alpha : R) : R := n - 1 / 2 * track * cos alpha.

(** ** Understeer/oversteer indicator *)
(** models: get_understeer_oversteer_indicator, chassis.hpp:291-336: [track] and [wb] are the
    front track and the wheel base, [x_com] the distance from the rear axle to the centre of
    mass, [kappa] the yaw rate over the speed. *)
Definition ideal_inside (track x_com wb k : R) : R := atan (wb * k / (sqrt (1 - k * k * x_com * x_com) - 1 / 2 * track * k)).
Definition ideal_outside (track x_com wb k : R) : R := atan (wb * k / (sqrt (1 - k * k * x_com * x_com) + 1 / 2 * track * k)).
Definition indicator_of (d_in d_out : R) : R :=
  if Rle_dec (d_in * d_out) 0 then 0
  else if Rlt_dec 0 d_in then (if Rlt_dec d_out d_in then d_out else d_in)
  else (if Rlt_dec d_out d_in then d_in else d_out).
Definition indicator (track x_com wb kappa delta_left delta_right : R) : R :=
  let pos := if Rle_dec 0 kappa then true else false in
  let delta_in := if pos then delta_right else - delta_left in
  let delta_out := if pos then delta_left else - delta_right in
  let k := if pos then kappa else - kappa in
  indicator_of (ideal_inside track x_com wb k - delta_in) (ideal_outside track x_com wb k - delta_out).
