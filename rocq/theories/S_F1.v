(** What the theorems on the whole Formula 1 car say: mirror images, motions, energy. *)
From Coq Require Import Reals.
From Coquelicot Require Import Coquelicot.
From Verif Require Import M_Vec M_Tire M_Car M_Road M_F1.
Local Open Scope R_scope.

(** *** The mirror image in the vertical plane through the x axis *)
(** Of a position, velocity or force; and of an angular velocity or torque. *)
Definition mirror (a : vec) : vec := V (vx a) (- vy a) (vz a).
Definition mirror_turn (a : vec) : vec := V (- vx a) (vy a) (- vz a).
Definition mirror_angles (e : euler) : euler := Euler (- yaw e) (pitch e) (- roll e).

(** Of the car: left and right tyres change places, and what is off the plane goes to the other side; the wind blows in
    the mirror image of its direction (the y axis points south). *)
Definition mirror_chassis (c : chassis3) : chassis3 :=
  MkChassis3 (c_mass c) (c_Ixx c) (c_Iyy c) (c_Izz c) (mirror (c_com c)) (mirror (c_aero_x c)) (c_roll_balance c) (c_ref2 c).
Definition mirror_wind (a : aero_data) : aero_data := MkAero (ae_rho a) (ae_cd a) (ae_cl a) (ae_A a) (- ae_north a) (ae_east a).
Definition mirror_car (c : f1) : f1 :=
  F1 (mirror_chassis (f_chassis c)) (mirror_wind (f_aero c)) (mirror (f_xf c)) (mirror (f_xr c)) (f_front c) (f_rear c)
     (f_fr c) (f_fl c) (f_rr c) (f_rl c).
(** A car is symmetric when it is its own mirror image. *)
Definition symmetric (c : f1) : Prop :=
  f_fl c = f_fr c /\ f_rl c = f_rr c /\ vy (c_com (f_chassis c)) = 0 /\ vy (c_aero_x (f_chassis c)) = 0 /\
  vy (f_xf c) = 0 /\ vy (f_xr c) = 0 /\ ae_north (f_aero c) = 0.

(** Of what is put into the model, and of its states and derivatives. *)
Definition mirror_input (i : f1_input) : f1_input :=
  F1Input (i_fr i) (i_fl i) (i_rr i) (i_rl i) (i_u i) (- i_v i) (- i_yaw i) (i_zfr i) (i_zfl i) (i_zrr i) (i_zrl i)
          (- i_delta i) (i_boost i) (i_throttle i) (i_bias i).
Definition mirror_point (p : frenet) : frenet := Frenet (mirror (fr_r p)) (mirror_angles (fr_e p)) (mirror_angles (fr_de p)).
Definition mirror_vector (y : f1_vector) : f1_vector :=
  F1Vector (y_fr y) (y_fl y) (y_rr y) (y_rl y) (y_u y) (- y_v y) (- y_yaw y) (y_w y) (- y_roll y) (y_pitch y) (- y_balance y)
           (V (vx (y_road y)) (- vy (y_road y)) (- vz (y_road y))).

(** *** Motions *)
(** [f] has the derivative [d] at [t], component by component. *)
Definition vector_derive (f : R -> f1_vector) (t : R) (d : f1_vector) : Prop :=
  is_derive (fun s => y_fl (f s)) t (y_fl d) /\ is_derive (fun s => y_fr (f s)) t (y_fr d) /\
  is_derive (fun s => y_rl (f s)) t (y_rl d) /\ is_derive (fun s => y_rr (f s)) t (y_rr d) /\
  is_derive (fun s => y_u (f s)) t (y_u d) /\ is_derive (fun s => y_v (f s)) t (y_v d) /\
  is_derive (fun s => y_yaw (f s)) t (y_yaw d) /\ is_derive (fun s => y_w (f s)) t (y_w d) /\
  is_derive (fun s => y_roll (f s)) t (y_roll d) /\ is_derive (fun s => y_pitch (f s)) t (y_pitch d) /\
  is_derive (fun s => y_balance (f s)) t (y_balance d) /\
  is_derive (fun s => vx (y_road (f s))) t (vx (y_road d)) /\ is_derive (fun s => vy (y_road (f s))) t (vy (y_road d)) /\
  is_derive (fun s => vz (y_road (f s))) t (vz (y_road d)).

(** What the driver and the car do along a track, at each arclength: a motion of the model when the states have the derivatives
    that the model says. *)
Record lap := Lap { l_input : R -> f1_input; l_time : R -> R; l_n : R -> R; l_alpha : R -> R }.
Definition lap_motion (eval : f1 -> f1_input -> frenet -> R -> R -> R -> f1_vector * f1_vector)
  (c : f1) (track : R -> frenet) (l : lap) (s0 s1 : R) : Prop :=
  forall s, s0 < s < s1 ->
    vector_derive (fun x => fst (eval c (l_input l x) (track x) (l_time l x) (l_n l x) (l_alpha l x))) s
                  (snd (eval c (l_input l s) (track s) (l_time l s) (l_n l s) (l_alpha l s))).
Definition mirror_lap (l : lap) : lap :=
  Lap (fun s => mirror_input (l_input l s)) (l_time l) (fun s => - l_n l s) (fun s => - l_alpha l s).

(** A steady turn on the plane at speed [speed], with tangential acceleration [ax] and lateral acceleration [ay]: no equation but
    those of the velocity is out of balance. *)
Definition turn (eval : f1 -> f1_input -> R -> R -> R -> f1_vector * f1_vector) (c : f1) (speed ax ay : R) : Prop :=
  exists i psi, let d := snd (eval c i 0 0 psi) in
    i_u i = speed * cos psi /\ i_v i = - speed * sin psi /\ i_yaw i * speed = ay /\
    y_fl d = 0 /\ y_fr d = 0 /\ y_rl d = 0 /\ y_rr d = 0 /\ y_yaw d = 0 /\ y_w d = 0 /\ y_roll d = 0 /\ y_pitch d = 0 /\ y_balance d = 0 /\
    y_u d * cos psi - y_v d * sin psi = ax /\ y_u d * sin psi + y_v d * cos psi = 0.

(** *** Energy of the car on the plane *)
Definition wheel_energy (I omega : R) : R := 1 / 2 * I * (omega * omega).
Definition energy (c : f1) (u v yaw ofl ofr orl orr : R) : R :=
  1 / 2 * c_mass (f_chassis c) * (u * u + v * v) + 1 / 2 * c_Izz (f_chassis c) * (yaw * yaw) +
  wheel_energy (a_I (f_front c)) ofl + wheel_energy (a_I (f_front c)) ofr +
  wheel_energy (a_I (f_rear c)) orl + wheel_energy (a_I (f_rear c)) orr.

(** The centre of mass is above the origin of the car, and the axles are as high as the radius of their tyres. *)
Definition on_its_wheels (c : f1) : Prop :=
  vx (c_com (f_chassis c)) = 0 /\ vy (c_com (f_chassis c)) = 0 /\
  vz (f_xf c) + w_R0 (f_fl c) = 0 /\ vz (f_xf c) + w_R0 (f_fr c) = 0 /\
  vz (f_xr c) + w_R0 (f_rl c) = 0 /\ vz (f_xr c) + w_R0 (f_rr c) = 0.
(** The velocity of a point of the car on the plane. *)
Definition point_velocity (u v yaw : R) (x : vec) : vec := vadd (V u v 0) (cross (V 0 0 yaw) x).
(** The power given to the car: torques of the wheels times their spins, dissipation under the tyres, and the force of the air times the
    velocity of the point where it acts. *)
Definition power_of_wheels (v : f1_eval) : R :=
  fst (v_torque_f v) * t_omega (v_fl v) + snd (v_torque_f v) * t_omega (v_fr v) +
  (fst (v_torque_r v) * t_omega (v_rl v) + snd (v_torque_r v) * t_omega (v_rr v)).
Definition power_of_slip (c : f1) (v : f1_eval) : R :=
  dissipation (w_R0 (f_fl c)) (v_fl v) + dissipation (w_R0 (f_fr c)) (v_fr v) +
  dissipation (w_R0 (f_rl c)) (v_rl v) + dissipation (w_R0 (f_rr c)) (v_rr v).
Definition power_of_air (c : f1) (i : f1_input) (v : f1_eval) : R :=
  dot (v_Fa v) (point_velocity (i_u i) (i_v i) (i_yaw i) (c_aero_x (f_chassis c))).

(** A motion of the car on the plane. *)
Record motion := Motion { m_input : R -> f1_input; m_x : R -> R; m_y : R -> R; m_psi : R -> R }.
Definition plane_motion (eval : f1 -> f1_input -> R -> R -> R -> f1_vector * f1_vector) (c : f1) (m : motion) (t : R) : Prop :=
  vector_derive (fun s => fst (eval c (m_input m s) (m_x m s) (m_y m s) (m_psi m s))) t
                (snd (eval c (m_input m t) (m_x m t) (m_y m t) (m_psi m t))).
Definition energy_in (eval : f1 -> f1_input -> R -> f1_eval) (c : f1) (m : motion) (s : R) : R :=
  let i := m_input m s in let v := eval c i (m_psi m s) in
  energy c (i_u i) (i_v i) (i_yaw i) (t_omega (v_fl v)) (t_omega (v_fr v)) (t_omega (v_rl v)) (t_omega (v_rr v)).

(** Tyres within the range of their model: rolling forwards under a load for which the largest slips are positive (C48). *)
Definition tyre_in_range (w : wheel) (t : tire_state) : Prop :=
  w_R0 w <> 0 /\ 0 < vx (t_v t) /\ 0 < maximum_kappa (w_model w) (- vz (t_F t)) /\ 0 < maximum_lambda (w_model w) (- vz (t_F t)) /\
  0 < q_Qx (w_model w) <= 2 /\ 0 < q_Qy (w_model w) <= 2.
Definition tyres_in_range (c : f1) (v : f1_eval) : Prop :=
  tyre_in_range (f_fl c) (v_fl v) /\ tyre_in_range (f_fr c) (v_fr v) /\ tyre_in_range (f_rl c) (v_rl v) /\ tyre_in_range (f_rr c) (v_rr v).
(** Still air, and the centre of pressure does not move against the car. *)
Definition still_air (c : f1) (i : f1_input) : Prop :=
  ae_north (f_aero c) = 0 /\ ae_east (f_aero c) = 0 /\ 0 <= ae_rho (f_aero c) * ae_cd (f_aero c) * ae_A (f_aero c) /\
  0 <= dot (V (i_u i) (i_v i) 0) (point_velocity (i_u i) (i_v i) (i_yaw i) (c_aero_x (f_chassis c))).
Definition delivers (P : R) (e : engine_data) : Prop := e_direct e = false /\ e_only_max e = true /\ e_max_power_kW e = P.
(** A sound drivetrain: engines of constant power [P] and [Pb], brakes and a differential that oppose. *)
Definition sound_drivetrain (c : f1) (P Pb : R) : Prop :=
  delivers P (a_engine (f_rear c)) /\ delivers Pb (a_boost_engine (f_rear c)) /\
  0 <= a_smooth (f_front c) /\ 0 <= a_smooth (f_rear c) /\ 0 <= a_Tmax (f_front c) /\ 0 <= a_Tmax (f_rear c) /\ 0 <= a_diff (f_rear c) /\
  0 <= c_ref2 (f_chassis c).

(** *** Place and representation *)
(** The states or derivatives other than those of the road. *)
Definition without_road (y : f1_vector) : f1_vector :=
  F1Vector (y_fl y) (y_fr y) (y_rl y) (y_rr y) (y_u y) (y_v y) (y_yaw y) (y_w y) (y_roll y) (y_pitch y) (y_balance y) (V 0 0 0).
(** Rates per unit of length from rates per unit of time; [dt]: time per unit of length. *)
Definition per_length (dt : R) (y : f1_vector) : f1_vector :=
  F1Vector (dt * y_fl y) (dt * y_fr y) (dt * y_rl y) (dt * y_rr y) (dt * y_u y) (dt * y_v y) (dt * y_yaw y) (dt * y_w y) (dt * y_roll y)
           (dt * y_pitch y) (dt * y_balance y) (V 0 0 0).
(** The same car in a wind turned by [theta]; the vector of the wind is (east, -north), chassis.hpp:269-271. *)
Definition turn_wind (theta : R) (a : aero_data) : aero_data :=
  MkAero (ae_rho a) (ae_cd a) (ae_cl a) (ae_A a)
         (- (sin theta * ae_east a + cos theta * - ae_north a)) (cos theta * ae_east a - sin theta * - ae_north a).
Definition in_turned_wind (theta : R) (c : f1) : f1 :=
  F1 (f_chassis c) (turn_wind theta (f_aero c)) (f_xf c) (f_xr c) (f_front c) (f_rear c) (f_fl c) (f_fr c) (f_rl c) (f_rr c).
(** A point of a flat track: heading [th], turning by [dth] per unit of length. *)
Definition flat_point (r : vec) (th dth : R) : frenet := Frenet r (Euler th 0 0) (Euler dth 0 0).
