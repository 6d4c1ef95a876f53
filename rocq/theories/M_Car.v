(** Actuators, axles and chassis of the cars. Real numbers; smooth_pos and smooth_sign are
    functions of lion and are parameters. *)
From Coq Require Import Reals Lra.
From Verif Require Import M_Vec M_Tire.
Local Open Scope R_scope.

(** What is used of lion's smooth_sign. *)
Definition smooth_sign_function (s : R -> R -> R) : Prop := forall x e, 0 <= s x e * x.

(** ** Actuators *)

(** models: Brake::operator(), brake.h:47. *)
Definition brake (Tmax percentage : R) : R := percentage * Tmax.

(** models: the state of an Engine, engine.h:53-66. The power curve [e_p] is lion's
    sPolynomial on [e_left, e_right]. *)
Record engine_data := MkEngine { e_direct : bool; e_only_max : bool; e_max_power_kW : R; e_gear : R;
                                 e_left : R; e_right : R; e_p : R -> R }.

(** models: the power below and above the curve, engine.hpp:47-57. *)
Definition engine_power_curve (e : engine_data) (speed : R) : R :=
  let zero := 15000 / 14000 in
  if Rlt_dec speed (e_left e) then Rmax 0 (speed * e_p e (e_left e) / e_left e)
  else if Rlt_dec (e_right e) speed then Rmax 0 (e_p e (e_right e) * (zero - speed / e_right e) / (zero - 1))
  else e_p e speed.

(** models: Engine::operator(), engine.hpp:34-59. *)
Definition engine (e : engine_data) (throttle omega : R) : R :=
  if e_direct e then throttle
  else if e_only_max e then throttle * (e_max_power_kW e * 1000) / omega
  else throttle * engine_power_curve e (e_gear e * omega) / omega.

(** models: the same function with automatic differentiation, engine.hpp:47: the speed
    enters the curve through Value(), a number without derivatives. A dual number is a value
    and its derivative. *)
Definition dual := (R * R)%type.
Definition engine_dual (e : engine_data) (throttle omega : dual) : dual :=
  let power := if e_only_max e then e_max_power_kW e * 1000 else engine_power_curve e (e_gear e * fst omega) in
  if e_direct e then throttle
  else (fst throttle * power / fst omega,
        snd throttle * power / fst omega - fst throttle * power * snd omega / (fst omega * fst omega)).

(** ** Axle_car_3dof *)
Section Axle3.
Variables smooth_pos smooth_sign : R -> R -> R.

Record axle3 := MkAxle3 { a_track : R; a_I : R; a_diff : R; a_smooth : R; a_Tmax : R; a_engine : engine_data; a_boost_engine : engine_data }.
Inductive axle_mode := STEERING | POWERED.

(** models: the torques on the wheels, axle_car_3dof.hpp:233-257. *)
Definition axle_torques (mode : axle_mode) (a : axle3) (omega_l omega_r throttle boost brake_bias : R) : R * R :=
  let brake_percentage := smooth_pos (- throttle) (a_smooth a) in
  let tl := - smooth_sign omega_l 1 * brake (a_Tmax a) brake_percentage * brake_bias in
  let tr := - smooth_sign omega_r 1 * brake (a_Tmax a) brake_percentage * brake_bias in
  match mode with
  | STEERING => (tl, tr)
  | POWERED =>
      let throttle_percentage := smooth_pos throttle (a_smooth a) in
      let engine_torque := engine (a_engine a) throttle_percentage (1 / 2 * (omega_l + omega_r)) in
      let differential_torque := a_diff a * (omega_l - omega_r) in
      let boost_torque := engine (a_boost_engine a) (throttle_percentage * boost) (1 / 2 * (omega_l + omega_r)) in
      (tl + (1 / 2 * (engine_torque + boost_torque) - differential_torque),
       tr + (1 / 2 * (engine_torque + boost_torque) + differential_torque))
  end.

(** models: the rates of the angular momenta of the wheels, axle_car_3dof.hpp:259-261. *)
Definition wheel_momentum_rate (R0 torque : R) (t : tire_state) : R := torque + wheel_torque R0 t.

(** models: force and torque of the axle, axle_car_3dof.hpp:263-273 and
    axle_car_6dof.hpp:170-180. [ql], [qr] are the rotation matrices of the frames of the
    tyres and [ol], [or] their origins. *)
Definition axle_force (ql qr : mat) (tl tr : tire_state) : vec := vadd (mapply ql (t_F tl)) (mapply qr (t_F tr)).
Definition axle_torque (ql qr : mat) (ol or : vec) (tl tr : tire_state) : vec :=
  vadd (vadd (vadd (mapply ql (t_T tl)) (cross ol (mapply ql (t_F tl)))) (mapply qr (t_T tr))) (cross or (mapply qr (t_F tr))).
End Axle3.

(** ** Chassis *)

(** models: get_longitudinal_acceleration and get_lateral_acceleration, chassis.hpp:227-244. *)
Definition longitudinal_acceleration (u v m : R) (F : vec) : R := dot (V u v 0) (vscale (/ m) F) / norm (V u v 0).
Definition lateral_acceleration (u v m : R) (F : vec) : R := vz (cross (V u v 0) (vscale (/ m) F)) / norm (V u v 0).

(** models: get_aerodynamic_force, chassis.hpp:263-288. [Q] is the absolute rotation matrix
    of the road frame and [car] the velocity of the car in body axes. *)
Record aero_data := MkAero { ae_rho : R; ae_cd : R; ae_cl : R; ae_A : R; ae_north : R; ae_east : R }.
Definition wind_velocity (a : aero_data) (Q : mat) : vec := mtapply Q (V (ae_east a) (- ae_north a) 0).
Definition aerodynamic_velocity (a : aero_data) (Q : mat) (car : vec) : vec := vadd (vopp car) (wind_velocity a Q).
Definition aero_speed (va : vec) : R := sqrt (vx va * vx va + vy va * vy va).
Definition drag_force (a : aero_data) (Q : mat) (car : vec) : vec :=
  let va := aerodynamic_velocity a Q car in vscale (1 / 2 * ae_rho a * ae_cd a * ae_A a * aero_speed va) va.
Definition lift_force (a : aero_data) (Q : mat) (car : vec) : vec :=
  let va := aerodynamic_velocity a Q car in V 0 0 (1 / 2 * ae_rho a * ae_cl a * ae_A a * vx va * vx va).

(** models: get_understeer_oversteer_indicator, chassis.hpp:291-337. [x_com] is the distance
    from the rear axle to the centre of mass and [wb] the wheel base. *)
Definition understeer_indicator (yaw_rate u v track x_com wb delta_left delta_right : R) : R :=
  let kappa := yaw_rate / sqrt (u * u + v * v) in
  let delta_inside := if Rle_dec 0 kappa then delta_right else - delta_left in
  let delta_outside := if Rle_dec 0 kappa then delta_left else - delta_right in
  let k := if Rle_dec 0 kappa then kappa else - kappa in
  let ideal_inside := atan (wb * k / (sqrt (1 - k * k * x_com * x_com) - 1 / 2 * track * k)) in
  let ideal_outside := atan (wb * k / (sqrt (1 - k * k * x_com * x_com) + 1 / 2 * track * k)) in
  let d_in := ideal_inside - delta_inside in
  let d_out := ideal_outside - delta_outside in
  if Rle_dec (d_in * d_out) 0 then 0
  else if Rlt_dec 0 d_in then (if Rlt_dec d_out d_in then d_out else d_in)
  else (if Rlt_dec d_out d_in then d_in else d_out).

(** ** Chassis_car_3dof *)
Record chassis3 := MkChassis3 { c_mass : R; c_Ixx : R; c_Iyy : R; c_Izz : R; c_com : vec; c_aero_x : vec; c_roll_balance : R; c_ref2 : R }.

(** models: the loads passed to the tyres, chassis_car_3dof.hpp:131-134; the axle passes
    their opposite, axle_car_3dof.hpp:227-228. *)
Definition neg_force (smooth_pos : R -> R -> R) (c : chassis3) (F : R) : R := - smooth_pos (- F) (c_ref2 c).
Definition tyre_load (smooth_pos : R -> R -> R) (c : chassis3) (F : R) : R := - neg_force smooth_pos c F.

(** models: the sum of forces and torques, chassis_car_3dof.hpp:154-164. [xf], [xr] are the
    positions of the axles, [Tf], [Tr] the torques about their centres. *)
Definition contact_force (Ff Fr Fa : vec) : vec := vadd (vadd Ff Fr) Fa.
Definition total_torque3 (c : chassis3) (xf Ff Tf xr Fr Tr Fa : vec) : vec :=
  vadd (vadd (vadd (vadd (vadd Tf (cross xf Ff)) Tr) (cross xr Fr)) (cross (vsub (c_aero_x c) (c_com c)) Fa))
       (cross (c_com c) (vopp (contact_force Ff Fr Fa))).
Definition total_force3 (Ff Fr Fa gravity : vec) : vec := vadd (contact_force Ff Fr Fa) gravity.

(** models: the equations of motion, chassis_car_3dof.hpp:166-200. [w] is the vertical
    velocity of the ground point in body axes and [om] the absolute angular velocity; its
    third component is the yaw rate. *)
Record motion3 := MkMotion3 { mo_v : vec; mo_a : vec; mo_roll_momentum : R; mo_pitch_momentum : R;
                              mo_roll_rate : R; mo_pitch_rate : R; mo_yaw_acceleration : R }.
Definition equations3 (c : chassis3) (F T : vec) (u v w : R) (om : vec) : motion3 :=
  let h := - vz (c_com c) in
  MkMotion3 (V (u - h * vy om) (v + h * vx om) w)
    (V (vx F / c_mass c + (v + h * vx om) * vz om - w * vy om)
       (vy F / c_mass c - (u - h * vy om) * vz om + w * vx om)
       (vz F / c_mass c + (u - h * vy om) * vy om - (v + h * vx om) * vx om))
    (c_Ixx c * vx om) (c_Iyy c * vy om)
    (vx T + (c_Iyy c - c_Izz c) * vz om * vy om)
    (vy T + (c_Izz c - c_Ixx c) * vz om * vx om)
    ((vz T + (c_Ixx c - c_Iyy c) * vx om * vy om) / c_Izz c).

(** models: the roll balance, chassis_car_3dof.hpp:203. *)
Definition roll_balance (c : chassis3) (fl fr rl rr : R) : R :=
  (fr - fl) * (1 - c_roll_balance c) + (rl - rr) * c_roll_balance c.

(** ** Axle_car_6dof *)
Record axle6 := MkAxle6 { b_track : R; b_kchassis : R; b_kantiroll : R; b_beta_l : R; b_beta_r : R }.
Inductive axle6_mode := STEERING_FREE_ROLL | POWERED_WITHOUT_DIFFERENTIAL.

Record deflection := MkDefl { d_wl : R; d_wr : R; d_sl : R; d_sr : R }.
(** models: the displacements and deflections, axle_car_6dof.hpp:119-157. [z] is the height
    coordinate of the axle (downwards) and [R0] the radius of the left tyre. *)
Definition axle6_displacement (mode : axle6_mode) (a : axle6) (phi delta : R) : R :=
  1 / 2 * b_track a * phi + match mode with STEERING_FREE_ROLL => b_beta_r a * delta | _ => 0 end.
Definition axle6_solve (a : axle6) (k_tire : R) (ds da : R) : deflection :=
  let sym := 1 / (b_kchassis a + k_tire) in
  let assym := 2 * b_kantiroll a * k_tire * sym / (2 * b_kantiroll a + b_kchassis a + k_tire) in
  let wl := b_kchassis a * sym * (ds - da) - da * assym in
  let wr := b_kchassis a * sym * (ds + da) + da * assym in
  MkDefl wl wr (wl - ds + da) (wr - ds - da).
Definition axle6_deflection (mode : axle6_mode) (a : axle6) (k_tire R0 z phi delta : R) : deflection :=
  axle6_solve a k_tire (z + R0) (axle6_displacement mode a phi delta).
(** models: the velocities, axle_car_6dof.hpp:126-157. *)
Definition axle6_rates (a : axle6) (k_tire dz dphi : R) : deflection := axle6_solve a k_tire dz (1 / 2 * b_track a * dphi).

(** models: get_tire_position and get_tire_velocity, axle_car_6dof.h:251-263, vertical
    components. *)
Definition tire_z_left (a : axle6) (d : deflection) (phi delta : R) : R := d_sl d + phi * (- (1 / 2) * b_track a) + b_beta_l a * delta.
Definition tire_z_right (a : axle6) (d : deflection) (phi delta : R) : R := d_sr d + phi * (1 / 2 * b_track a) + b_beta_r a * delta.
Definition tire_dz_left (a : axle6) (d : deflection) (dphi : R) : R := d_sl d + dphi * (- (1 / 2) * b_track a).
Definition tire_dz_right (a : axle6) (d : deflection) (dphi : R) : R := d_sr d + dphi * (1 / 2 * b_track a).
(** models: the deflection seen by the tyre, the height of the point (0,0,R0) of the tyre's
    frame, tire.hpp:63-64, on a flat road with the frame of the axle parallel to it. *)
Definition seen (z tire_z R0 : R) : R := z + tire_z + R0.

(** models: the torque of the axle of the kart, axle_car_6dof.hpp:186-206, and its
    acceleration, 163-168. *)
Definition axle6_torque (smooth_pos smooth_sign : R -> R -> R) (e : engine_data) (Tmax smooth throttle omega : R) : R :=
  if e_direct e then throttle
  else engine e (smooth_pos throttle smooth) omega - smooth_sign omega 1 * brake Tmax (smooth_pos (- throttle) smooth).
