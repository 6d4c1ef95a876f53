(** What the theorems on the whole kart say: mirror images, motions, equations of motion. *)
From Coq Require Import Reals List.
From Coquelicot Require Import Coquelicot.
From Verif Require Import M_Vec M_Tire M_Car M_Road M_F1 M_Kart6 M_KartCar S_Kart6 S_F1.
Local Open Scope R_scope.

(** What is asked of lion's linsolve: it solves every linear system whose determinant is not 0. *)
Definition det (M : mat) : R := dot (col1 M) (cross (col2 M) (col3 M)).
Definition solves (linsolve : mat -> vec -> vec) : Prop := forall M b, det M <> 0 -> mapply M (linsolve M b) = b.
(** The equations of roll, pitch and yaw have just one solution (C110). *)
Definition determined (b : chassis6) (q : state6) : Prop :=
  k_Iyy b <> 0 /\ k_Ixx b * k_Izz b - k_Ixz b * k_Ixz b + q_mu q * k_Ixz b * (k_Ixx b + k_Izz b) <> 0.

(** *** The mirror image in the vertical plane through the x axis *)
(** Of the kart: the wheels change sides, and with them the heights they take when steering: the left wheel of the image goes up
    when steering to a side as much as the right wheel of the kart when steering to the other. *)
Definition mirror_axle6 (a : axle6) : axle6 :=
  MkAxle6 (b_track a) (b_kchassis a) (b_kantiroll a) (- b_beta_r a) (- b_beta_l a).
Definition mirror_body (b : chassis6) : chassis6 :=
  MkChassis6 (k_mass b) (k_Ixx b) (k_Iyy b) (k_Izz b) (k_Ixz b) (k_Izx b) (mirror (k_com b)) (mirror (k_front b)) (mirror (k_rear b)).
Definition mirror_kart (c : kart) : kart :=
  Kart (mirror_body (c_body c)) (mirror_wind (c_aero c)) (mirror_axle6 (c_front c)) (mirror_axle6 (c_rear c)) (c_tf c) (c_tr c)
       (c_engine c) (c_Tmax c) (c_smooth c) (c_inertia c).
(** A kart is symmetric when it is its own mirror image. *)
Definition symmetric_kart (c : kart) : Prop :=
  vy (k_com (c_body c)) = 0 /\ vy (k_front (c_body c)) = 0 /\ vy (k_rear (c_body c)) = 0 /\ ae_north (c_aero c) = 0 /\
  b_beta_l (c_front c) = - b_beta_r (c_front c) /\ b_beta_l (c_rear c) = - b_beta_r (c_rear c).
(** Steering raises one wheel as much as it lowers the other. *)
Definition even_steering (c : kart) : Prop := b_beta_l (c_front c) = - b_beta_r (c_front c).

Definition mirror_state6 (q : state6) : state6 :=
  MkState6 (q_u q) (- q_v q) (- q_omega q) (q_z q) (q_dz q) (q_mu q) (q_dmu q) (- q_phi q) (- q_dphi q).
Definition mirror_kart_input (i : kart_input) : kart_input :=
  KartInput (mirror_state6 (i_state i)) (i_omega i) (- i_delta i) (i_throttle i).
Definition mirror_kart_vector (y : kart_vector) : kart_vector :=
  KartVector (y_u y) (- y_v y) (- y_yaw y) (y_z y) (- y_phi y) (y_mu y) (y_dz y) (- y_dphi y) (y_dmu y) (y_omega y)
             (V (vx (y_road y)) (- vy (y_road y)) (- vz (y_road y))).

(** *** Motions *)
Definition kart_derive (f : R -> kart_vector) (t : R) (d : kart_vector) : Prop :=
  is_derive (fun s => y_u (f s)) t (y_u d) /\ is_derive (fun s => y_v (f s)) t (y_v d) /\ is_derive (fun s => y_yaw (f s)) t (y_yaw d) /\
  is_derive (fun s => y_z (f s)) t (y_z d) /\ is_derive (fun s => y_phi (f s)) t (y_phi d) /\ is_derive (fun s => y_mu (f s)) t (y_mu d) /\
  is_derive (fun s => y_dz (f s)) t (y_dz d) /\ is_derive (fun s => y_dphi (f s)) t (y_dphi d) /\ is_derive (fun s => y_dmu (f s)) t (y_dmu d) /\
  is_derive (fun s => y_omega (f s)) t (y_omega d) /\
  is_derive (fun s => vx (y_road (f s))) t (vx (y_road d)) /\ is_derive (fun s => vy (y_road (f s))) t (vy (y_road d)) /\
  is_derive (fun s => vz (y_road (f s))) t (vz (y_road d)).
Record kart_lap := KartLap { kl_input : R -> kart_input; kl_time : R -> R; kl_n : R -> R; kl_alpha : R -> R }.
Definition kart_lap_motion (eval : kart -> kart_input -> frenet -> R -> R -> R -> kart_vector * kart_vector)
  (c : kart) (track : R -> frenet) (l : kart_lap) (s0 s1 : R) : Prop :=
  forall s, s0 < s < s1 ->
    kart_derive (fun x => fst (eval c (kl_input l x) (track x) (kl_time l x) (kl_n l x) (kl_alpha l x))) s
                (snd (eval c (kl_input l s) (track s) (kl_time l s) (kl_n l s) (kl_alpha l s))).
Definition mirror_kart_lap (l : kart_lap) : kart_lap :=
  KartLap (fun s => mirror_kart_input (kl_input l s)) (kl_time l) (fun s => - kl_n l s) (fun s => - kl_alpha l s).

(** A steady turn on the plane: nothing changes but the heading, the speed along the path and the spin of the axle. *)
Definition kart_turn (eval : kart -> kart_input -> R -> R -> R -> kart_vector * kart_vector) (c : kart) (speed ax ay : R) : Prop :=
  exists i psi, let q := i_state i in let d := snd (eval c i 0 0 psi) in
    q_u q = speed * cos psi /\ q_v q = - speed * sin psi /\ q_omega q * speed = ay /\ determined (c_body c) q /\
    y_yaw d = 0 /\ y_z d = 0 /\ y_phi d = 0 /\ y_mu d = 0 /\ y_dz d = 0 /\ y_dphi d = 0 /\ y_dmu d = 0 /\ y_omega d = 0 /\
    y_u d * cos psi - y_v d * sin psi = ax /\ y_u d * sin psi + y_v d * cos psi = 0.

(** *** Place and representation *)
Definition kart_without_road (y : kart_vector) : kart_vector :=
  KartVector (y_u y) (y_v y) (y_yaw y) (y_z y) (y_phi y) (y_mu y) (y_dz y) (y_dphi y) (y_dmu y) (y_omega y) (V 0 0 0).
(** Rates per unit of length from rates per unit of time; [dt]: time per unit of length. *)
Definition kart_per_length (dt : R) (y : kart_vector) : kart_vector :=
  KartVector (dt * y_u y) (dt * y_v y) (dt * y_yaw y) (dt * y_z y) (dt * y_phi y) (dt * y_mu y) (dt * y_dz y) (dt * y_dphi y) (dt * y_dmu y)
             (dt * y_omega y) (V 0 0 0).
Definition kart_in_turned_wind (theta : R) (c : kart) : kart :=
  Kart (c_body c) (turn_wind theta (c_aero c)) (c_front c) (c_rear c) (c_tf c) (c_tr c) (c_engine c) (c_Tmax c) (c_smooth c) (c_inertia c).

(** *** Equations of motion on the plane *)
(** What the driver and the kart do on the plane, at each time. *)
Record kart_motion := KartMotion { km_input : R -> kart_input; km_x : R -> R; km_y : R -> R; km_psi : R -> R }.
Definition kart_plane_motion (eval : kart -> kart_input -> R -> R -> R -> kart_vector * kart_vector) (c : kart) (m : kart_motion) : Prop :=
  forall t, kart_derive (fun s => fst (eval c (km_input m s) (km_x m s) (km_y m s) (km_psi m s))) t
                        (snd (eval c (km_input m t) (km_x m t) (km_y m t) (km_psi m t))).
(** The rigid body that it moves as. *)
Definition body_motion (m : kart_motion) : S_Kart6.motion :=
  S_Kart6.MkMotion (km_x m) (km_y m) (km_psi m) (fun s => q_z (i_state (km_input m s))) (fun s => q_mu (i_state (km_input m s)))
           (fun s => q_phi (i_state (km_input m s))).

(** The force of a wheel turned by [delta] on the kart, and its moment about a point: [x] is the centre of the wheel seen from it. *)
Definition kart_wheel_force (delta : R) (t : tire_state) : vec := mapply (rot_z delta) (t_F t).
(** The wheels of a kart with their steering angles. *)
Definition kart_wheels (i : kart_input) (v : kart_eval) : list (R * tire_state) :=
  (i_delta i, x_left (n_front v)) :: (i_delta i, x_right (n_front v)) :: (0, x_left (n_rear v)) :: (0, x_right (n_rear v)) :: nil.
Definition forces_on (m : R) (i : kart_input) (v : kart_eval) : vec :=
  fold_right vadd (vadd (V 0 0 (m * g0)) (n_Fa v)) (map (fun w => kart_wheel_force (fst w) (snd w)) (kart_wheels i v)).
(** The points of the road below the wheels, seen from the point below the kart. *)
Definition kart_patches (c : kart) : list vec :=
  let at_axle x track := V (vx (k_com (c_body c)) + vx x) (vy (k_com (c_body c)) + vy x + track) 0 in
  at_axle (k_front (c_body c)) (- (b_track (c_front c) / 2)) :: at_axle (k_front (c_body c)) (b_track (c_front c) / 2) ::
  at_axle (k_rear (c_body c)) (- (b_track (c_rear c) / 2)) :: at_axle (k_rear (c_body c)) (b_track (c_rear c) / 2) :: nil.
(** The moment about that point of the forces of the wheels, applied there, and of the air, applied at the centre of mass. *)
Definition moment_on (c : kart) (i : kart_input) (v : kart_eval) : vec :=
  moment_sum ((com_position (c_body c) (i_state i), n_Fa v) ::
              combine (kart_patches c) (map (fun w => kart_wheel_force (fst w) (snd w)) (kart_wheels i v))) nil.

(** A wheel whose point of the road is at [p] in the kart, turned by [delta], with a shaft at the spin [shaft]: its slips are those of the
    velocity of the kart at that point, and its forces those of the tyre model at these slips and under its load. *)
Definition rolls_at (q : state6) (t : ktyre) (p : vec) (delta shaft : R) (w : tire_state) : Prop :=
  let v := mtapply (rot_z delta) (vadd (V (q_u q) (q_v q) 0) (cross (V 0 0 (q_omega q)) p)) in
  vx (t_v w) = vx v /\ vy (t_v w) = vy v /\
  t_omega w = match k_type t with NORMAL => shaft | ONLY_LATERAL => vx v / k_R0 t end /\
  t_kappa w = (t_omega w * k_R0 t - vx v) / vx v /\ t_lambda w = - vy v / vx v /\
  vx (t_F w) = standard_force_x (k_model t) (t_kappa w) (t_lambda w) (- vz (t_F w)) /\
  vy (t_F w) = standard_force_y (k_model t) (t_kappa w) (t_lambda w) (- vz (t_F w)).
(** The height of the lowest point of a tyre of a kart below the road: the centre of mass, the pitch, the roll, the steering, and the
    deflection [s] of the chassis at that wheel. [side] is -1 on the left and 1 on the right. *)
Definition tyre_depth (c : kart) (q : state6) (x : vec) (a : axle6) (t : ktyre) (side beta delta s : R) : R :=
  vz (k_com (c_body c)) + q_z q + vz x - q_mu q * vx x + q_phi q * (side * (b_track a / 2)) + beta * delta + s + k_R0 t.
(** Each tyre pushes as the chassis spring and the antiroll bar of its side do. *)
Definition springs_balance (a : axle6) (t : ktyre) (wl wr sl sr : R) : Prop :=
  k_kt t * wl = - b_kchassis a * sl + b_kantiroll a * (sr - sl) /\ k_kt t * wr = - b_kchassis a * sr + b_kantiroll a * (sl - sr).
Definition stiff (a : axle6) (t : ktyre) : Prop := 0 < k_kt t /\ 0 <= b_kchassis a /\ 0 <= b_kantiroll a.
(** The load of a tyre at [t]: the spring of its depth and the damper of the rate of its depth. *)
Definition carries (smooth_pos : R -> R -> R) (y : ktyre) (w : R -> tire_state) (t : R) : Prop :=
  exists dw, is_derive (fun s => t_w (w s)) t dw /\
    - vz (t_F (w t)) = smooth_pos (k_kt y * t_w (w t) + k_ct y * dw) (k_ref2 y).
