(** Model of a whole evaluation of the Formula 1 car (limebeer2014f1: Dynamic_model_car over
    Chassis_car_3dof with two Axle_car_3dof and four tyres of the simple model), on the plane and on a track.
    The parts are those of M_Tire, M_Car and M_Road; here they are put together as operator() does. Real numbers.
    lion's Frame is not in the repository: positions, velocities and rotations of the frames are those of rigid bodies. *)
From Coq Require Import Reals.
From Verif Require Import M_Vec M_Tire M_Car M_Road.
Local Open Scope R_scope.

(** models: the parameters of a tyre that an evaluation uses, tire.h:203, tire_pacejka.h:296-321. *)
Record wheel := Wheel { w_R0 : R; w_model : simple_model }.
(** models: limebeer2014f1.h:20-30; the frames of the axles are at _x_front_axle and _x_rear_axle,
    chassis_car_3dof.h:151-154. *)
Record f1 := F1 { f_chassis : chassis3; f_aero : aero_data; f_xf : vec; f_xr : vec; f_front : axle3; f_rear : axle3;
                  f_fl : wheel; f_fr : wheel; f_rl : wheel; f_rr : wheel }.
(** models: the inputs and controls of the chassis, chassis_car_3dof.hpp:241-300, axle_car_3dof.hpp:330-362,
    chassis.hpp:339-357. *)
Record f1_input := F1Input { i_fl : R; i_fr : R; i_rl : R; i_rr : R; (* kappa / maximum_kappa *)
                             i_u : R; i_v : R; i_yaw : R;
                             i_zfl : R; i_zfr : R; i_zrl : R; i_zrr : R; (* vertical forces over the weight *)
                             i_delta : R; i_boost : R; i_throttle : R; i_bias : R }.

(** The angular velocity of the road frame in its own axes (get_omega_absolute_in_body of lion): the rates of the
    rotations about Z, Y, X and Z, chassis.hpp:10 and 119-131. *)
Definition frame_omega (e ed : euler) (alpha alphad : R) : vec :=
  vadd (mtapply (rot_z alpha) (curvature e ed)) (V 0 0 alphad).

Section Smooth.
Variables smooth_pos smooth_sign : R -> R -> R.
Variable g0 : R.

(** models: Tire_pacejka::update, tire_pacejka.hpp:66-73, with the frame of the tyre at [origin] of the road frame
    (axle and tyre, axle_car_3dof.h:202-210) and turned by [delta]. [U], [Om]: velocity and angular velocity of the road frame in its
    axes. The rate of the steering angle is not given to the frame, axle_car_3dof.hpp:352-353. *)
Definition tyre_w (R0 : R) (origin : vec) : R := vz origin + R0.
Definition tyre_velocity (R0 : R) (origin : vec) (delta : R) (U Om : vec) : vec :=
  mtapply (rot_z delta) (vadd U (cross Om (vadd origin (contact_point R0 (tyre_w R0 origin))))).
Definition tyre_at (t : wheel) (origin : vec) (delta : R) (U Om : vec) (Fz kn : R) : tire_state :=
  tire_update_from_kappa (maximum_kappa (w_model t)) (simple_force_x smooth_pos (w_model t)) (simple_force_y smooth_pos (w_model t))
    (w_R0 t) (tyre_w (w_R0 t) origin) (tyre_velocity (w_R0 t) origin delta U Om) Fz kn.

(** What a chassis holds after an update. *)
Record f1_eval := F1Eval { v_fl : tire_state; v_fr : tire_state; v_rl : tire_state; v_rr : tire_state;
                           v_torque_f : R * R; v_torque_r : R * R;
                           v_Ff : vec; v_Fr : vec; v_Fa : vec; v_F : vec; v_T : vec; v_motion : motion3; v_balance : R }.

(** models: Axle_car_3dof::update, axle_car_3dof.hpp:213-274: the origins of the tyres in the axle are (0, -+track/2, 0). *)
Definition left_of (a : axle3) : vec := V 0 (- (1 / 2) * a_track a) 0.
Definition right_of (a : axle3) : vec := V 0 (1 / 2 * a_track a) 0.

(** models: Chassis_car_3dof::set_state_and_controls, chassis_car_3dof.hpp:279-300. *)
Definition force_z (c : f1) (x : R) : R := x * g0 * c_mass (f_chassis c).

(** models: Chassis_car_3dof::update, chassis_car_3dof.hpp:116-204. [e], [ed], [alpha], [alphad]: angles of the road frame and their
    rates; [w]: vertical velocity of the ground. *)
Definition f1_update (c : f1) (i : f1_input) (e ed : euler) (alpha alphad w : R) : f1_eval :=
  let ch := f_chassis c in
  let U := V (i_u i) (i_v i) w in
  let Om := frame_omega e ed alpha alphad in
  let load x := tyre_load smooth_pos ch (force_z c x) in
  let tfl := tyre_at (f_fl c) (vadd (f_xf c) (left_of (f_front c))) (i_delta i) U Om (load (i_zfl i)) (i_fl i) in
  let tfr := tyre_at (f_fr c) (vadd (f_xf c) (right_of (f_front c))) (i_delta i) U Om (load (i_zfr i)) (i_fr i) in
  let trl := tyre_at (f_rl c) (vadd (f_xr c) (left_of (f_rear c))) 0 U Om (load (i_zrl i)) (i_rl i) in
  let trr := tyre_at (f_rr c) (vadd (f_xr c) (right_of (f_rear c))) 0 U Om (load (i_zrr i)) (i_rr i) in
  let qf := axle_torques smooth_pos smooth_sign STEERING (f_front c) (t_omega tfl) (t_omega tfr) (i_throttle i) 0 (i_bias i) in
  let qr := axle_torques smooth_pos smooth_sign POWERED (f_rear c) (t_omega trl) (t_omega trr) (i_throttle i) (i_boost i) (1 - i_bias i) in
  let Q := frame_matrix e alpha in
  let Fa := vadd (lift_force (f_aero c) Q U) (drag_force (f_aero c) Q U) in
  let Ff := axle_force (rot_z (i_delta i)) (rot_z (i_delta i)) tfl tfr in
  let Fr := axle_force (rot_z 0) (rot_z 0) trl trr in
  let Tf := axle_torque (rot_z (i_delta i)) (rot_z (i_delta i)) (left_of (f_front c)) (right_of (f_front c)) tfl tfr in
  let Tr := axle_torque (rot_z 0) (rot_z 0) (left_of (f_rear c)) (right_of (f_rear c)) trl trr in
  let T := total_torque3 ch (f_xf c) Ff Tf (f_xr c) Fr Tr Fa in
  let F := total_force3 Ff Fr Fa (gravity_force e alpha (c_mass ch) g0) in
  F1Eval tfl tfr trl trr qf qr Ff Fr Fa F T
    (equations3 ch F T (i_u i) (i_v i) w (V (vx Om) (vy Om) (i_yaw i)))
    (roll_balance ch (force_z c (i_zfl i)) (force_z c (i_zfr i)) (force_z c (i_zrl i)) (force_z c (i_zrr i))).

(** The states of the model, or their derivatives. [y_road]: time, lateral displacement and heading angle on a track; x, y and
    heading on the plane. *)
Record f1_vector := F1Vector { y_fl : R; y_fr : R; y_rl : R; y_rr : R; y_u : R; y_v : R; y_yaw : R;
                               y_w : R; y_roll : R; y_pitch : R; y_balance : R; y_road : vec }.

(** models: the scaling of the momenta of the wheels, axle_car_3dof.hpp:290-300. *)
Definition wheel_scaling (a : axle3) (mass : R) : R := if Rlt_dec (a_I a) (1 / 10 ^ 10) then 1 / mass else 1.

(** models: get_state_and_state_derivative: chassis_car_3dof.hpp:222-237, chassis.hpp:382-402, axle_car_3dof.hpp:283-301. *)
Definition f1_states (c : f1) (i : f1_input) (v : f1_eval) (road : vec) : f1_vector :=
  let mass := c_mass (f_chassis c) in
  let m := v_motion v in
  let sf := wheel_scaling (f_front c) mass in
  let sr := wheel_scaling (f_rear c) mass in
  F1Vector (t_omega (v_fl v) * a_I (f_front c) * sf) (t_omega (v_fr v) * a_I (f_front c) * sf)
           (t_omega (v_rl v) * a_I (f_rear c) * sr) (t_omega (v_rr v) * a_I (f_rear c) * sr)
           (vx (mo_v m)) (vy (mo_v m)) (i_yaw i) (vz (mo_v m) / g0)
           (mo_roll_momentum m / (g0 * mass)) (mo_pitch_momentum m / (g0 * mass)) 0 road.
Definition f1_rates (c : f1) (v : f1_eval) (road : vec) : f1_vector :=
  let mass := c_mass (f_chassis c) in
  let m := v_motion v in
  let sf := wheel_scaling (f_front c) mass in
  let sr := wheel_scaling (f_rear c) mass in
  F1Vector (wheel_momentum_rate (w_R0 (f_fl c)) (fst (v_torque_f v)) (v_fl v) * sf)
           (wheel_momentum_rate (w_R0 (f_fr c)) (snd (v_torque_f v)) (v_fr v) * sf)
           (wheel_momentum_rate (w_R0 (f_rl c)) (fst (v_torque_r v)) (v_rl v) * sr)
           (wheel_momentum_rate (w_R0 (f_rr c)) (snd (v_torque_r v)) (v_rr v) * sr)
           (vx (mo_a m)) (vy (mo_a m)) (mo_yaw_acceleration m) (vz (mo_a m) / g0)
           (mo_roll_rate m / (g0 * mass)) (mo_pitch_rate m / (g0 * mass)) (v_balance v / (g0 * mass)) road.
(** models: the scaling from time to arclength, dynamic_model_car.hpp:103-104. *)
Definition scaled (k : R) (y : f1_vector) : f1_vector :=
  F1Vector (y_fl y * k) (y_fr y * k) (y_rl y * k) (y_rr y * k) (y_u y * k) (y_v y * k) (y_yaw y * k) (y_w y * k)
           (y_roll y * k) (y_pitch y * k) (y_balance y * k) (vscale k (y_road y)).

(** A point of a track: the Frenet frame and the derivatives of its angles, track_by_polynomial.h:37-42. *)
Record frenet := Frenet { fr_r : vec; fr_e : euler; fr_de : euler }.

(** models: Dynamic_model_car::operator() on a track, dynamic_model_car.hpp:43-107, with Road_curvilinear::update and
    get_state_and_state_derivative, road_curvilinear.hpp:5-40. *)
Definition track_eval (c : f1) (i : f1_input) (p : frenet) (n alpha : R) : road_out * f1_eval :=
  let r := road_update (fr_r p) (fr_e p) (fr_de p) n alpha (i_u i) (i_v i) (i_yaw i) in
  (r, f1_update c i (fr_e p) (euler_dot (fr_de p) (ro_dtime_ds r)) alpha (ro_alpha_dot r) (ro_w r)).
Definition f1_on_track (c : f1) (i : f1_input) (p : frenet) (time n alpha : R) : f1_vector * f1_vector :=
  let '(r, v) := track_eval c i p n alpha in
  (f1_states c i v (V time n alpha), scaled (ro_dtime_ds r) (f1_rates c v (V 1 (ro_n_dot r) (ro_alpha_dot r)))).

(** models: the same on the plane, with Road_cartesian::update, road_cartesian.hpp:5-35; dtime/ds is 1. *)
Definition plane_eval (c : f1) (i : f1_input) (psi : R) : f1_eval :=
  f1_update c i (Euler 0 0 0) (Euler 0 0 0) psi (i_yaw i) 0.
Definition f1_on_plane (c : f1) (i : f1_input) (x y psi : R) : f1_vector * f1_vector :=
  let v := plane_eval c i psi in
  let '(dx, dy, dpsi) := cartesian_update psi (i_u i) (i_v i) (i_yaw i) in
  (f1_states c i v (V x y psi), scaled 1 (f1_rates c v (V dx dy dpsi))).
End Smooth.
