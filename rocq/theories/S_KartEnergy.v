(** What the theorems on the energy of the kart say. *)
From Coq Require Import Reals List.
From Verif Require Import M_Vec M_Tire M_Car M_F1 M_Kart6 M_KartCar S_KartCar S_KartGrip.
Local Open Scope R_scope.

(** The energy of the motion in the plane: of the centre of mass, of the turn, and of the rear axle. *)
Definition kart_energy (c : kart) (i : kart_input) : R :=
  let q := i_state i in
  1 / 2 * k_mass (c_body c) * (q_u q * q_u q + q_v q * q_v q) + 1 / 2 * k_Izz (c_body c) * (q_omega q * q_omega q) +
  1 / 2 * c_inertia c * (i_omega i * i_omega i).
(** Its rate when the states change as [d] says. *)
Definition kart_energy_rate (c : kart) (i : kart_input) (d : kart_vector) : R :=
  let q := i_state i in
  k_mass (c_body c) * (q_u q * y_u d + q_v q * y_v d) + k_Izz (c_body c) * (q_omega q * y_yaw d) + c_inertia c * (i_omega i * y_omega d).

(** The power of a torque on the rear axle. *)
Definition kart_shaft_power (torque : R) (i : kart_input) : R := torque * i_omega i.
(** The power lost by the slip of the four wheels (C48). *)
Definition kart_slip_power (c : kart) (v : kart_eval) : R :=
  dissipation (k_R0 (c_tf c)) (x_left (n_front v)) + dissipation (k_R0 (c_tf c)) (x_right (n_front v)) +
  (dissipation (k_R0 (c_tr c)) (x_left (n_rear v)) + dissipation (k_R0 (c_tr c)) (x_right (n_rear v))).
(** The power of the air, at the centre of mass. *)
Definition kart_air_power (c : kart) (i : kart_input) (v : kart_eval) : R :=
  let q := i_state i in
  vx (n_Fa v) * (q_u q - q_omega q * vy (k_com (c_body c))) + vy (n_Fa v) * (q_v q + q_omega q * vx (k_com (c_body c))).
(** What roll and pitch give to the turn through the product of inertia. *)
Definition kart_attitude_power (c : kart) (i : kart_input) (d : kart_vector) : R :=
  let q := i_state i in
  q_omega q * (k_Ixz (c_body c) * y_dphi d - 2 * k_Ixz (c_body c) * q_mu q * y_yaw d - 2 * k_Izx (c_body c) * q_dmu q * q_omega q).
(** What the kart gets from nowhere: a tyre pressed by [w] has the arm R0 - w for its axle and R0 for its slip. *)
Definition kart_free_power (i : kart_input) (v : kart_eval) : R :=
  i_omega i * (vx (t_F (x_left (n_rear v))) * t_w (x_left (n_rear v)) + vx (t_F (x_right (n_rear v))) * t_w (x_right (n_rear v))).

(** Front wheels without shaft, rear wheels on it. *)
Definition kart_drive (c : kart) : Prop := k_type (c_tf c) = ONLY_LATERAL /\ k_R0 (c_tf c) <> 0 /\ k_type (c_tr c) = NORMAL.
(** A tyre within the range of its model, rolling forwards: what C48 asks. *)
Definition good_tyre (t : ktyre) (w : tire_state) : Prop :=
  let m := k_model t in
  0 <= k_ref2 t /\ k_R0 t <> 0 /\ 0 < vx (t_v w) /\ 0 <= p_pDx1 m /\ 0 <= p_pDy1 m /\ 0 <= p_pCx1 m <= 2 /\ 0 <= p_pCy1 m <= 2 /\
  p_pEx1 m <= 1 /\ p_pEy1 m <= 1 /\ 0 <= p_rCx1 m <= 1 /\ 0 <= p_rCy1 m <= 1 /\
  0 <= stiffness_x m (- vz (t_F w)) /\ 0 <= stiffness_y m (- vz (t_F w)).
Definition kart_tyres_good (c : kart) (v : kart_eval) : Prop :=
  good_tyre (c_tf c) (x_left (n_front v)) /\ good_tyre (c_tf c) (x_right (n_front v)) /\
  good_tyre (c_tr c) (x_left (n_rear v)) /\ good_tyre (c_tr c) (x_right (n_rear v)).
(** Still air that drags, at a centre of mass above the origin. *)
Definition kart_still (c : kart) : Prop :=
  kart_no_wind c /\ 0 <= kart_drag c /\ vx (k_com (c_body c)) = 0 /\ vy (k_com (c_body c)) = 0.
(** A steady turn (kart_turn) with the inputs [i] and the heading [psi]. *)
Definition kart_turn_with (eval : kart -> kart_input -> R -> R -> R -> kart_vector * kart_vector) (c : kart) (speed ax ay : R) (i : kart_input) (psi : R) : Prop :=
  let q := i_state i in let d := snd (eval c i 0 0 psi) in
    q_u q = speed * cos psi /\ q_v q = - speed * sin psi /\ q_omega q * speed = ay /\ determined (c_body c) q /\
    y_yaw d = 0 /\ y_z d = 0 /\ y_phi d = 0 /\ y_mu d = 0 /\ y_dz d = 0 /\ y_dphi d = 0 /\ y_dmu d = 0 /\ y_omega d = 0 /\
    y_u d * cos psi - y_v d * sin psi = ax /\ y_u d * sin psi + y_v d * cos psi = 0.
