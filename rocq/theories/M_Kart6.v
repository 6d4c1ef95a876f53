(** Attitude equations of the kart: the chassis with small roll and pitch angles. Real
    numbers. *)
From Coq Require Import Reals.
From Verif Require Import M_Vec.
Local Open Scope R_scope.

(** models: the parameters of a Chassis_car_6dof, chassis_car_6dof.h:233-256 and the mass and
    inertia of its base. [k_Ixz] is used where the code writes I.xz() and [k_Izx] where it
    writes I.zx(). *)
Record chassis6 := MkChassis6 { k_mass : R; k_Ixx : R; k_Iyy : R; k_Izz : R; k_Ixz : R; k_Izx : R;
                                k_com : vec; k_front : vec; k_rear : vec }.

(** models: the state given to set_state, chassis_car_6dof.hpp:70-86. *)
Record state6 := MkState6 { q_u : R; q_v : R; q_omega : R; q_z : R; q_dz : R; q_mu : R; q_dmu : R; q_phi : R; q_dphi : R }.

(** models: get_com_position and get_com_velocity, chassis_car_6dof.h:143-147, the origin given
    to the chassis frame in update, chassis_car_6dof.hpp:106. *)
Definition com_position (c : chassis6) (q : state6) : vec := vadd (k_com c) (V 0 0 (q_z q)).
Definition com_velocity (q : state6) : vec := V 0 0 (q_dz q).

(** models: get_front_axle_position and the three functions like it,
    chassis_car_6dof.h:152-169; [x] is the parameter of the axle. Coordinates in the chassis
    frame. *)
Definition axle_position (x : vec) (q : state6) : vec := vadd x (V 0 0 (- q_mu q * vx x)).
Definition axle_velocity (x : vec) (q : state6) : vec := V 0 0 (- q_dmu q * vx x).

(** models: the position of an axle in the road frame, chassis_car_6dof.hpp:116-117. The
    chassis frame has no rotations. *)
Definition axle_in_road (c : chassis6) (x : vec) (q : state6) : vec := vadd (com_position c q) (axle_position x q).

(** models: a contact patch of an axle of the kart, get_tire_position, axle_car_6dof.h:253-254,
    without the steering term. *)
Definition tire_in_axle (y s : R) (q : state6) : vec := V 0 y (s + q_phi q * y).
(** models: get_tire_velocity, axle_car_6dof.h:262-263. *)
Definition tire_velocity (y ds : R) (q : state6) : vec := V 0 0 (ds + q_dphi q * y).

(** models: the total force and torque, chassis_car_6dof.hpp:119-136. The axle frames are
    parallel to the road frame, so the rotations are the identity. *)
Definition g0 : R := 980665 / 100000.
Definition total_force6 (c : chassis6) (Ff Fr Fa : vec) : vec :=
  vadd (vadd (vadd Ff Fr) (V 0 0 (k_mass c * g0))) Fa.
Definition total_torque6 (c : chassis6) (q : state6) (Ff Tf Fr Tr Fa : vec) : vec :=
  vadd (vadd (vadd (vadd Tf (cross (axle_in_road c (k_front c) q) Ff)) Tr) (cross (axle_in_road c (k_rear c) q) Fr))
       (cross (com_position c q) Fa).

(** models: Newton_lhs and the accelerations, chassis_car_6dof.hpp:139-146, 155-165. The
    absolute velocity and angular velocity of the road frame in its axes are those of a flat
    road. *)
Definition newton_lhs (q : state6) : vec := cross (V 0 0 (q_omega q)) (V (q_u q) (q_v q) 0).
Definition newton6 (c : chassis6) (q : state6) (F : vec) : vec :=
  vadd (vopp (newton_lhs q)) (vscale (/ k_mass c) F).

(** models: Euler_lhs, chassis_car_6dof.hpp:168-188. [du], [dv] are the accelerations just
    stored. *)
Definition euler_lhs (c : chassis6) (q : state6) (du dv : R) : vec :=
  let h := - vz (k_com c) in
  V (k_mass c * (dv * h + (h - q_z q) * q_omega q * q_u q) - (k_Iyy c - k_Izz c + k_Ixx c) * q_omega q * q_dmu q
     - (k_Iyy c - k_Izz c) * q_omega q * q_omega q * q_phi q)
    (k_mass c * ((q_z q - h) * du + h * q_omega q * q_v q) + (k_Iyy c - k_Izz c + k_Ixx c) * q_omega q * q_dphi q
     - ((k_Ixx c - k_Izz c) * q_mu q + k_Ixz c) * q_omega q * q_omega q)
    (2 * k_Izx c * q_dmu q * q_omega q).

(** models: Euler_m, chassis_car_6dof.hpp:191-200, by its columns. *)
Definition euler_m (c : chassis6) (q : state6) : mat :=
  M3 (V (k_Ixx c) 0 (- k_Ixz c))
     (V 0 (k_Iyy c) 0)
     (V (- (k_Ixx c - k_Izz c) * q_mu q - k_Ixz c) ((k_Iyy c - k_Izz c) * q_phi q) (k_Izz c + 2 * k_Ixz c * q_mu q)).

(** models: the angular accelerations, chassis_car_6dof.hpp:148-153. lion's linsolve returns a
    solution of the linear system. *)
Definition euler6 (c : chassis6) (q : state6) (du dv : R) (T acc : vec) : Prop :=
  mapply (euler_m c q) acc = vadd (vopp (euler_lhs c q du dv)) T.

(** The moment the equations above ask for: what Euler_m, Euler_lhs and the accelerations add
    up to. *)
Definition euler_moment (c : chassis6) (q : state6) (du dv : R) (acc : vec) : vec :=
  vadd (mapply (euler_m c q) acc) (euler_lhs c q du dv).
