(** What the theorems on the energy of the Formula 1 car on any track say. *)
From Coq Require Import Reals.
From Coquelicot Require Import Coquelicot.
From Verif Require Import M_Vec M_Tire M_Car M_Road S_Road M_F1 S_F1 S_Newton.
Local Open Scope R_scope.

Section Energy.
Context (eval : f1 -> f1_input -> frenet -> R -> R -> f1_eval) (g0 : R) (c : f1) (track : R -> frenet) (l : lap).
(** The angular velocity of the car in its axes: its angular momenta over its inertias. *)
Definition spin (s : R) : vec :=
  let m := v_motion (held eval c track l s) in
  V (mo_roll_momentum m / c_Ixx (f_chassis c)) (mo_pitch_momentum m / c_Iyy (f_chassis c)) (i_yaw (l_input l s)).
(** The velocity, in the axes of the car, of the point [x] of it: that of the centre of mass and the turn about it. *)
Definition point_goes (s : R) (x : vec) : vec :=
  vadd (mo_v (v_motion (held eval c track l s))) (cross (spin s) (vsub x (c_com (f_chassis c)))).

(** The energy: of the centre of mass, of the turn of the car and of its wheels, and of the height (z points down). *)
Definition total_energy (s : R) : R :=
  let ch := f_chassis c in let v := held eval c track l s in let w := spin s in
  1 / 2 * c_mass ch * dot (mass_velocity eval c track l s) (mass_velocity eval c track l s) +
  1 / 2 * (c_Ixx ch * (vx w * vx w) + c_Iyy ch * (vy w * vy w) + c_Izz ch * (vz w * vz w)) +
  (wheel_energy (a_I (f_front c)) (t_omega (v_fl v)) + wheel_energy (a_I (f_front c)) (t_omega (v_fr v)) +
   (wheel_energy (a_I (f_rear c)) (t_omega (v_rl v)) + wheel_energy (a_I (f_rear c)) (t_omega (v_rr v)))) -
  c_mass ch * g0 * vz (mass_position c track l s).

(** The power of the loads of the wheels: each one times the velocity across the road of the point of the car above the contact. *)
Definition power_of_loads (s : R) : R :=
  let v := held eval c track l s in
  let up axle side := vz (point_goes s (patch axle side)) in
  vz (t_F (v_fl v)) * up (f_xf c) (- (a_track (f_front c) / 2)) + vz (t_F (v_fr v)) * up (f_xf c) (a_track (f_front c) / 2) +
  (vz (t_F (v_rl v)) * up (f_xr c) (- (a_track (f_rear c) / 2)) + vz (t_F (v_rr v)) * up (f_xr c) (a_track (f_rear c) / 2)).
(** The power of the air, at the centre of pressure. *)
Definition power_of_the_air (s : R) : R := dot (v_Fa (held eval c track l s)) (point_goes s (c_aero_x (f_chassis c))).
(** The power that the car gets from nowhere: the torque of the air is not about the centre of mass (C71). *)
Definition power_from_nowhere (s : R) : R := - dot (cross (c_com (f_chassis c)) (v_Fa (held eval c track l s))) (spin s).
End Energy.

(** The surface of the road is plane about its centreline, at whatever slope and bank: it does not bend but in its own plane. *)
Definition plane_surface (track : R -> frenet) (s : R) : Prop :=
  let k := curvature (fr_e (track s)) (fr_de (track s)) in vx k = 0 /\ vy k = 0.
