(** Model of the curvilinear road (src/core/vehicles/road_curvilinear.h, .hpp), of the
    cartesian road, and of the boundary points of the circuit preprocessor. Real numbers
    instead of doubles. *)
From Coq Require Import Reals.
From Verif Require Import M_Vec.
Local Open Scope R_scope.

(** models: Euler_angles (yaw, pitch, roll) of lion as used in Frenet_frame,
    track_by_polynomial.h:37-42. *)
Record euler := Euler { yaw : R; pitch : R; roll : R }.

(** models: the frame vectors of Road_curvilinear::update_track, road_curvilinear.hpp:121-131. *)
Definition tangent (e : euler) : vec :=
  V (cos (yaw e) * cos (pitch e)) (sin (yaw e) * cos (pitch e)) (- sin (pitch e)).
Definition normal (e : euler) : vec :=
  V (cos (yaw e) * sin (pitch e) * sin (roll e) - sin (yaw e) * cos (roll e))
    (sin (yaw e) * sin (pitch e) * sin (roll e) + cos (yaw e) * cos (roll e))
    (cos (pitch e) * sin (roll e)).
Definition binormal (e : euler) : vec :=
  V (cos (yaw e) * sin (pitch e) * cos (roll e) + sin (yaw e) * sin (roll e))
    (sin (yaw e) * sin (pitch e) * cos (roll e) - cos (yaw e) * sin (roll e))
    (cos (pitch e) * cos (roll e)).

(** models: Road_curvilinear::curvature, road_curvilinear.h:49-60. *)
Definition curvature (e de : euler) : vec :=
  V (roll de - sin (pitch e) * yaw de)
    (cos (roll e) * pitch de + cos (pitch e) * sin (roll e) * yaw de)
    (- sin (roll e) * pitch de + cos (pitch e) * cos (roll e) * yaw de).

(** models: Road_curvilinear::update, road_curvilinear.hpp:5-22. *)
Record road_out := RoadOut {
  ro_dtime_ds : R;          (** dtime/ds *)
  ro_n_dot : R;             (** lateral displacement time derivative *)
  ro_alpha_dot : R;         (** track heading angle time derivative *)
  ro_position : vec;        (** position of the car *)
  ro_psi : R;               (** heading angle *)
  ro_w : R }.               (** ground vertical velocity *)
Definition road_update (r : vec) (e de : euler) (n alpha u v yaw_rate : R) : road_out :=
  let kappa := curvature e de in
  let dtime_ds := (1 - n * vz kappa) / (u * cos alpha - v * sin alpha) in
  RoadOut dtime_ds
          (u * sin alpha + v * cos alpha)
          (yaw_rate - vz kappa / dtime_ds)
          (vadd r (vscale n (normal e)))
          (alpha + yaw e)
          (n * vx kappa / dtime_ds).

(** models: get_euler_angles_dot, road_curvilinear.h:81. *)
Definition euler_dot (de : euler) (dtime_ds : R) : euler :=
  Euler (yaw de / dtime_ds) (pitch de / dtime_ds) (roll de / dtime_ds).

(** models: Road_cartesian::update, road_cartesian.hpp:5-15: derivatives of x, y and psi. *)
Definition cartesian_update (psi u v omega : R) : R * R * R :=
  (u * cos psi - v * sin psi, u * sin psi + v * cos psi, omega).

(** models: the road frame of the chassis, rotations about Z, Y, X and Z by yaw, pitch, roll
    and track heading angle, chassis.hpp:10 and chassis.hpp:119-131. The rotation matrix of
    lion's Frame is not in the repository: product of the elementary rotations. *)
Definition frame_matrix (e : euler) (alpha : R) : mat :=
  mmul (mmul (mmul (rot_z (yaw e)) (rot_y (pitch e))) (rot_x (roll e))) (rot_z alpha).

(** models: FG::get_coordinates, circuit_preprocessor.h:316-337, flat and with elevation. *)
Definition coordinates_flat (x y yaw n : R) : vec := V (x - sin yaw * n) (y + cos yaw * n) 0.
Definition coordinates (r : vec) (e : euler) (n : R) : vec :=
  V (vx r + vx (normal e) * n) (vy r + vy (normal e) * n) (vz r + vz (normal e) * n).

(** models: the direction of the centreline in FG::equations, circuit_preprocessor.h:291-314
    (first three equations). *)
Definition direction_flat (yaw : R) : vec := V (cos yaw) (sin yaw) 0.
Definition direction (e : euler) : vec :=
  V (cos (yaw e) * cos (pitch e)) (sin (yaw e) * cos (pitch e)) (- sin (pitch e)).

(** models: the boundary points stored by compute, circuit_preprocessor.hpp:654-656: left at
    -nl, right at nr. *)
Definition left_point (r : vec) (e : euler) (nl : R) : vec := coordinates r e (- nl).
Definition right_point (r : vec) (e : euler) (nr : R) : vec := coordinates r e nr.
Definition left_point_flat (x y yaw nl : R) : vec := coordinates_flat x y yaw (- nl).
Definition right_point_flat (x y yaw nr : R) : vec := coordinates_flat x y yaw nr.

(** models: Chassis::get_gravity_force, chassis.hpp:248-260. The weight is mass times g0. *)
Definition gravity_force (e : euler) (alpha mass g0 : R) : vec :=
  V (mass * g0 * (sin alpha * sin (roll e) * cos (pitch e) - cos alpha * sin (pitch e)))
    (mass * g0 * (sin alpha * sin (pitch e) + cos alpha * sin (roll e) * cos (pitch e)))
    (mass * g0 * cos (roll e) * cos (pitch e)).
