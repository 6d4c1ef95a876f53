(** What the theorems on Newton's and Euler's laws on a track say. *)
From Coq Require Import Reals.
From Coquelicot Require Import Coquelicot.
From Verif Require Import M_Vec M_Tire M_Car M_Road S_Road M_F1 S_F1.
Local Open Scope R_scope.

(** A centreline measured by its length: it moves along its tangent, and its angles have the derivatives it says. *)
Definition centreline (track : R -> frenet) (s : R) : Prop :=
  vderive (fun x => fr_r (track x)) s (tangent (fr_e (track s))) /\
  is_derive (fun x => yaw (fr_e (track x))) s (yaw (fr_de (track s))) /\
  is_derive (fun x => pitch (fr_e (track x))) s (pitch (fr_de (track s))) /\
  is_derive (fun x => roll (fr_e (track x))) s (roll (fr_de (track s))).

(** The code takes the centre of mass above the origin of the car: chassis_car_3dof.hpp:166-200 uses its height only. *)
Definition mass_above (c : f1) : Prop := vx (c_com (f_chassis c)) = 0 /\ vy (c_com (f_chassis c)) = 0.
(** The car advances along the centreline, and time passes: [dt] is the time per unit of length. *)
Definition advances (l : lap) (s dt : R) : Prop :=
  i_u (l_input l s) * cos (l_alpha l s) - i_v (l_input l s) * sin (l_alpha l s) <> 0 /\ is_derive (l_time l) s dt /\ dt <> 0.

Section Laws.
Context (eval : f1 -> f1_input -> frenet -> R -> R -> f1_eval) (c : f1) (track : R -> frenet) (l : lap).
(** The axes of the car in fixed axes (z points down), and what the model holds, at arclength [s]. *)
Definition axes (s : R) : mat := frame_matrix (fr_e (track s)) (l_alpha l s).
Definition held (s : R) : f1_eval := eval c (l_input l s) (track s) (l_n l s) (l_alpha l s).

(** The centre of mass: from the point of the road at the distance n of the centreline. *)
Definition mass_position (s : R) : vec :=
  vadd (vadd (fr_r (track s)) (vscale (l_n l s) (normal (fr_e (track s))))) (mapply (axes s) (c_com (f_chassis c))).
(** Its velocity: the velocities reported as states, in fixed axes. *)
Definition mass_velocity (s : R) : vec := mapply (axes s) (mo_v (v_motion (held s))).
(** The angular momentum, in fixed axes. *)
Definition angular_momentum (s : R) : vec :=
  mapply (axes s) (V (mo_roll_momentum (v_motion (held s))) (mo_pitch_momentum (v_motion (held s))) (c_Izz (f_chassis c) * i_yaw (l_input l s))).

(** Forces of the tyres in the axes of the car, and the points of the ground under them. *)
Definition wheel_force (delta : R) (t : tire_state) : vec := mapply (rot_z delta) (t_F t).
Definition patch (axle : vec) (side : R) : vec := V (vx axle) (vy axle + side) 0.
Definition tyre_forces (s : R) : vec :=
  let d := i_delta (l_input l s) in let v := held s in
  vadd (vadd (wheel_force d (v_fl v)) (wheel_force d (v_fr v))) (vadd (wheel_force 0 (v_rl v)) (wheel_force 0 (v_rr v))).
Definition moment (at_ : vec) (F : vec) : vec := cross (vsub at_ (c_com (f_chassis c))) F.
Definition tyre_moments (s : R) : vec :=
  let d := i_delta (l_input l s) in let v := held s in
  vadd (vadd (moment (patch (f_xf c) (- (a_track (f_front c) / 2))) (wheel_force d (v_fl v)))
             (moment (patch (f_xf c) (a_track (f_front c) / 2)) (wheel_force d (v_fr v))))
       (vadd (moment (patch (f_xr c) (- (a_track (f_rear c) / 2))) (wheel_force 0 (v_rl v)))
             (moment (patch (f_xr c) (a_track (f_rear c) / 2)) (wheel_force 0 (v_rr v)))).

(** The angular momentum of a wheel, and the torque on it: that of the shaft, and the longitudinal force at the height of the axle. *)
Definition wheel_momentum (inertia : R) (t : tire_state) : R := inertia * t_omega t.
Definition wheel_moment (axle : vec) (torque : R) (t : tire_state) : R := torque + vx (t_F t) * vz axle.
(** The lateral transfer of load on an axle: of the vertical forces given (over the weight). *)
Definition front_transfer (i : f1_input) : R := i_zfr i - i_zfl i.
Definition rear_transfer (i : f1_input) : R := i_zrr i - i_zrl i.
End Laws.
