(** Model of a whole evaluation of the kart (lot2016kart: Dynamic_model_car over Chassis_car_6dof with two Axle_car_6dof
    and four tyres of the standard model), on the plane and on a track. The parts are those of M_Tire, M_Car, M_Kart6 and
    M_Road; here they are put together as operator() does. Real numbers.
    lion's Frame and linsolve are not in the repository: positions, velocities and rotations of the frames are those of rigid
    bodies, and linsolve is a parameter. *)
From Coq Require Import Reals.
From Verif Require Import M_Vec M_Tire M_Car M_Road M_F1 M_Kart6.
Local Open Scope R_scope.

(** models: the parameters of a tyre that an evaluation uses, tire.h:161-164, tire_pacejka.h:140-142, 242-272. *)
Record ktyre := KTyre { k_type : tire_type; k_R0 : R; k_kt : R; k_ct : R; k_ref2 : R; k_model : standard_model }.
(** models: lot2016kart.h:18-35. Both tyres of an axle are read from the same path of the database,
    chassis_car_6dof.hpp:55-66. [c_inertia] is the moment of inertia of the rear axle. *)
Record kart := Kart { c_body : chassis6; c_aero : aero_data; c_front : axle6; c_rear : axle6; c_tf : ktyre; c_tr : ktyre;
                      c_engine : engine_data; c_Tmax : R; c_smooth : R; c_inertia : R }.
(** models: the inputs and controls, chassis_car_6dof.hpp:262-330, axle_car_6dof.hpp:262-300, chassis.hpp:339-357. *)
Record kart_input := KartInput { i_state : state6; i_omega : R; i_delta : R; i_throttle : R }.

Section Smooth.
Variables smooth_pos smooth_sign : R -> R -> R.
Variable linsolve : mat -> vec -> vec.

(** models: Tire::update(x0, v0, omega), tire.hpp:43-75, and update_self, tire_pacejka.hpp:94-120. The frame of the tyre is at [x] of
    the road frame, moves with [rel] in it and is turned by [delta]. [h]: height coordinate of the road frame, [Q]: its
    rotation, [U], [Om]: its velocity and angular velocity in its axes. The rate of the steering angle is not given to the frame,
    axle_car_6dof.hpp:219-225. *)
Definition ktyre_w (t : ktyre) (h : R) (Q : mat) (x : vec) : R := h + vz (mapply Q (vadd x (V 0 0 (k_R0 t)))).
Definition ktyre_dw (t : ktyre) (Q : mat) (U Om x rel : vec) : R :=
  vz (mapply Q (vadd (vadd U (cross Om (vadd x (V 0 0 (k_R0 t))))) rel)).
Definition ktyre_velocity (t : ktyre) (w : R) (U Om x rel : vec) (delta : R) : vec :=
  mtapply (rot_z delta) (vadd (vadd U (cross Om (vadd x (contact_point (k_R0 t) w)))) rel).
Definition ktyre_at (t : ktyre) (h : R) (Q : mat) (U Om x rel : vec) (delta omega : R) : tire_state :=
  let w := ktyre_w t h Q x in
  tire_update smooth_pos (k_type t) (standard_force_x (k_model t)) (standard_force_y (k_model t)) (k_R0 t) (k_kt t) (k_ct t) (k_ref2 t)
    w (ktyre_dw t Q U Om x rel) (ktyre_velocity t w U Om x rel delta) omega.

(** models: Axle_car_6dof::update, axle_car_6dof.hpp:99-181, with get_tire_position and get_tire_velocity,
    axle_car_6dof.h:251-263. [x], [rel]: position and velocity of the axle in the road frame. The result: the tyres, and
    the force and the torque of the axle about its own origin. *)
Record axle_eval := AxleEval { x_left : tire_state; x_right : tire_state; x_F : vec; x_T : vec }.
Definition axle_update (mode : axle6_mode) (a : axle6) (t : ktyre) (h : R) (Q : mat) (U Om x rel : vec) (phi dphi delta omega : R) : axle_eval :=
  let z := h + vz (mapply Q x) in
  let dz := vz (mapply Q (vadd (vadd U (cross Om x)) rel)) in
  let s := axle6_deflection mode a (k_kt t) (k_R0 t) z phi delta in
  let ds := axle6_rates a (k_kt t) dz dphi in
  let ol := V 0 (- (1 / 2) * b_track a) (tire_z_left a s phi delta) in
  let or := V 0 (1 / 2 * b_track a) (tire_z_right a s phi delta) in
  let tl := ktyre_at t h Q U Om (vadd x ol) (vadd rel (V 0 0 (tire_dz_left a ds dphi))) delta omega in
  let tr := ktyre_at t h Q U Om (vadd x or) (vadd rel (V 0 0 (tire_dz_right a ds dphi))) delta omega in
  AxleEval tl tr (axle_force (rot_z delta) (rot_z delta) tl tr) (axle_torque (rot_z delta) (rot_z delta) ol or tl tr).

(** What a chassis holds after an update. [n_acc]: acceleration of the centre of mass, [n_ang]: second derivatives of roll, pitch
    and yaw. *)
Record kart_eval := KartEval { n_front : axle_eval; n_rear : axle_eval; n_Fa : vec; n_F : vec; n_T : vec;
                               n_acc : vec; n_ang : vec; n_domega : R }.

(** models: Chassis_car_6dof::update, chassis_car_6dof.hpp:91-155. The front axle has no shaft: its angular speed is never set and stays
    0, axle_car_6dof.hpp:59. The torque of the rear axle: axle_car_6dof.hpp:163-168, 186-206. *)
Definition kart_update (c : kart) (i : kart_input) (h : R) (e ed : euler) (alpha alphad w : R) : kart_eval :=
  let b := c_body c in
  let q := i_state i in
  let U := V (q_u q) (q_v q) w in
  let Om := frame_omega e ed alpha alphad in
  let Q := frame_matrix e alpha in
  let xf := axle_in_road b (k_front b) q in
  let xr := axle_in_road b (k_rear b) q in
  let f := axle_update STEERING_FREE_ROLL (c_front c) (c_tf c) h Q U Om xf (vadd (com_velocity q) (axle_velocity (k_front b) q))
             (q_phi q) (q_dphi q) (i_delta i) 0 in
  let r := axle_update POWERED_WITHOUT_DIFFERENTIAL (c_rear c) (c_tr c) h Q U Om xr (vadd (com_velocity q) (axle_velocity (k_rear b) q))
             (q_phi q) (q_dphi q) 0 (i_omega i) in
  let Fa := vadd (lift_force (c_aero c) Q U) (drag_force (c_aero c) Q U) in
  let F := total_force6 b (x_F f) (x_F r) Fa in
  let T := total_torque6 b q (x_F f) (x_T f) (x_F r) (x_T r) Fa in
  let acc := vadd (vopp (cross Om U)) (vscale (/ k_mass b) F) in
  let ang := linsolve (euler_m b q) (vadd (vopp (euler_lhs b q (vx acc) (vy acc))) T) in
  let torque := axle6_torque smooth_pos smooth_sign (c_engine c) (c_Tmax c) (c_smooth c) (i_throttle i) (i_omega i) in
  KartEval f r Fa F T acc ang
    ((torque + wheel_torque (k_R0 (c_tr c)) (x_left r) + wheel_torque (k_R0 (c_tr c)) (x_right r)) / c_inertia c).

(** The states of the model, or their derivatives. [y_road]: time, lateral displacement and heading angle on a track; x, y and
    heading on the plane. *)
Record kart_vector := KartVector { y_u : R; y_v : R; y_yaw : R; y_z : R; y_phi : R; y_mu : R; y_dz : R; y_dphi : R; y_dmu : R;
                                   y_omega : R; y_road : vec }.
(** models: get_state_and_state_derivative: chassis_car_6dof.hpp:216-250, chassis.hpp:382-402, axle_car_6dof.hpp:243-258. *)
Definition kart_states (i : kart_input) (road : vec) : kart_vector :=
  let q := i_state i in
  KartVector (q_u q) (q_v q) (q_omega q) (q_z q) (q_phi q) (q_mu q) (q_dz q) (q_dphi q) (q_dmu q) (i_omega i) road.
Definition kart_rates (i : kart_input) (v : kart_eval) (road : vec) : kart_vector :=
  let q := i_state i in
  KartVector (vx (n_acc v)) (vy (n_acc v)) (vz (n_ang v)) (q_dz q) (q_dphi q) (q_dmu q) (vz (n_acc v)) (vx (n_ang v)) (vy (n_ang v))
             (n_domega v) road.
(** models: the scaling from time to arclength, dynamic_model_car.hpp:103-104. *)
Definition kart_scaled (k : R) (y : kart_vector) : kart_vector :=
  KartVector (y_u y * k) (y_v y * k) (y_yaw y * k) (y_z y * k) (y_phi y * k) (y_mu y * k) (y_dz y * k) (y_dphi y * k) (y_dmu y * k)
             (y_omega y * k) (vscale k (y_road y)).

(** models: Dynamic_model_car::operator() on a track, dynamic_model_car.hpp:43-107, with Road_curvilinear::update and
    get_state_and_state_derivative, road_curvilinear.hpp:5-40. The kart only takes tracks without elevation, lot2016kart.h:44-54. *)
Definition kart_track_eval (c : kart) (i : kart_input) (p : frenet) (n alpha : R) : road_out * kart_eval :=
  let q := i_state i in
  let r := road_update (fr_r p) (fr_e p) (fr_de p) n alpha (q_u q) (q_v q) (q_omega q) in
  (r, kart_update c i (vz (ro_position r)) (fr_e p) (euler_dot (fr_de p) (ro_dtime_ds r)) alpha (ro_alpha_dot r) (ro_w r)).
Definition kart_on_track (c : kart) (i : kart_input) (p : frenet) (time n alpha : R) : kart_vector * kart_vector :=
  let '(r, v) := kart_track_eval c i p n alpha in
  (kart_states i (V time n alpha), kart_scaled (ro_dtime_ds r) (kart_rates i v (V 1 (ro_n_dot r) (ro_alpha_dot r)))).

(** models: the same on the plane, with Road_cartesian::update, road_cartesian.hpp:5-35; dtime/ds is 1. *)
Definition kart_plane_eval (c : kart) (i : kart_input) (psi : R) : kart_eval :=
  kart_update c i 0 (Euler 0 0 0) (Euler 0 0 0) psi (q_omega (i_state i)) 0.
Definition kart_on_plane (c : kart) (i : kart_input) (x y psi : R) : kart_vector * kart_vector :=
  let q := i_state i in
  let v := kart_plane_eval c i psi in
  let '(dx, dy, dpsi) := cartesian_update psi (q_u q) (q_v q) (q_omega q) in
  (kart_states i (V x y psi), kart_scaled 1 (kart_rates i v (V dx dy dpsi))).
End Smooth.
