(** The derivatives of a lap with respect to the parameters of the car
    (Optimal_laptime::compute_direct and compute_derivative), the change of variable from time
    to arclength made by Dynamic_model_car::operator(), and the Jacobians and Hessians of
    Dynamic_model_car::equations. Real numbers instead of doubles. *)
From Coq Require Import Reals.
From Verif Require Import M_Vec M_Road.
From Coq Require Import List.
Import ListNotations.
Local Open Scope R_scope.

(** What the computation of the time uses of one point of the mesh: arclength, curvature of the
    road, lateral displacement, velocity and heading of the car with respect to the road. *)
Record point := Point { pt_s : R; pt_kappa : R; pt_n : R; pt_u : R; pt_v : R; pt_alpha : R }.

(** models: dtime_ds of Road_curvilinear::update, road_curvilinear.hpp:9, where [_curvature.z()]
    is the curvature; returned, multiplied by one, as the derivative of the time state
    (road_curvilinear.hpp:31, dynamic_model_car.hpp:104-105). *)
Definition dtimeds (q : point) : R :=
  (1 - pt_n q * pt_kappa q) / (pt_u q * cos (pt_alpha q) - pt_v q * sin (pt_alpha q)).

(** models: the times of the points and the lap time, optimal_laptime.hpp:605-634 and
    1095-1124. [t] is the time of the previous point; the rest of the mesh is traversed. The
    first point [q0] is kept for the closing element of a closed track of length [L]. *)
Fixpoint times_from (sigma : R) (rate : point -> R) (t : R) (prev : point) (rest : list point) : list R :=
  match rest with
  | [] => []
  | q :: rest' =>
      let t' := t + (pt_s q - pt_s prev) * (sigma * rate q + (1 - sigma) * rate prev) in
      t' :: times_from sigma rate t' q rest'
  end.
Definition export_times (sigma t0 : R) (q0 : point) (rest : list point) : list R :=
  t0 :: times_from sigma dtimeds t0 q0 rest.
Definition laptime (closed : bool) (sigma L t0 : R) (q0 : point) (rest : list point) : R :=
  let tl := last (export_times sigma t0 q0 rest) t0 in
  let ql := last rest q0 in
  if closed then tl + (L - pt_s ql) * ((1 - sigma) * dtimeds ql + sigma * dtimeds q0) else tl.

(** The derivatives of the inputs with respect to one parameter at one point of the mesh:
    [dinputs_dp[i][j]], of which four entries are used. *)
Record dpoint := DPoint { d_n : R; d_u : R; d_v : R; d_alpha : R }.

(** models: the lambda d2timedsdp, optimal_laptime.hpp:687-695 and 1177-1185. *)
Definition d2timedsdp (q : point) (d : dpoint) : R :=
  let u_n := pt_u q * cos (pt_alpha q) - pt_v q * sin (pt_alpha q) in
  let r := 1 - pt_kappa q * pt_n q in
  - pt_kappa q * d_n d / u_n - cos (pt_alpha q) * r / (u_n * u_n) * d_u d
  + sin (pt_alpha q) * r / (u_n * u_n) * d_v d
  + r * (pt_v q * cos (pt_alpha q) + pt_u q * sin (pt_alpha q)) / (u_n * u_n) * d_alpha d.

(** models: the derivatives of the times and of the lap time, optimal_laptime.hpp:672-727 and
    1162-1217. [dt0] is the derivative of the time of the first point as exported. *)
Fixpoint dtimes_from (sigma t : R) (prev : point * dpoint) (rest : list (point * dpoint)) : list R :=
  match rest with
  | [] => []
  | q :: rest' =>
      let t' := t + (pt_s (fst q) - pt_s (fst prev))
                    * (sigma * d2timedsdp (fst q) (snd q) + (1 - sigma) * d2timedsdp (fst prev) (snd prev)) in
      t' :: dtimes_from sigma t' q rest'
  end.
Definition export_dtimes (sigma dt0 : R) (q0 : point * dpoint) (rest : list (point * dpoint)) : list R :=
  dt0 :: dtimes_from sigma dt0 q0 rest.
Definition dlaptime (closed : bool) (sigma L dt0 : R) (q0 : point * dpoint) (rest : list (point * dpoint)) : R :=
  let tl := last (export_dtimes sigma dt0 q0 rest) dt0 in
  let ql := last rest q0 in
  if closed
  then tl + (L - pt_s (fst ql)) * ((1 - sigma) * d2timedsdp (fst ql) (snd ql) + sigma * d2timedsdp (fst q0) (snd q0))
  else tl.

(** ** From time to arclength *)

(** models: Dynamic_model_car::operator() from the update of the road on,
    dynamic_model_car.hpp:69-107, with Road_curvilinear::update and
    get_state_and_state_derivative (road_curvilinear.hpp:5-39). [chassis] are the time
    derivatives of the states of the chassis, computed from what the road hands over (ground
    position, Euler angles and their derivatives, heading angle and its derivative, vertical
    velocity of the ground); the road has the states time, lateral displacement and heading
    angle. Every derivative is multiplied by dtime/ds. *)
Record road_input := RoadInput {
  in_position : vec; in_euler : euler; in_euler_dot : euler;
  in_heading : R; in_heading_dot : R; in_w : R }.
Definition curvilinear_model (chassis : road_input -> list R) (r : vec) (e de : euler)
    (n alpha u v yaw_rate : R) : list R * (R * R * R) :=
  let o := road_update r e de n alpha u v yaw_rate in
  let given := RoadInput (ro_position o) e (euler_dot de (ro_dtime_ds o)) alpha (ro_alpha_dot o) (ro_w o) in
  (map (fun x => x * ro_dtime_ds o) (chassis given),
   (1 * ro_dtime_ds o, ro_n_dot o * ro_dtime_ds o, ro_alpha_dot o * ro_dtime_ds o)).

(** models: the same on the road without a track: dtime/ds keeps its initial value 1
    (road.h:52), the Euler angles are 0, the ground does not move (road.h:55), and the heading is
    the yaw angle (dynamic_model_car.hpp:87-93, road_cartesian.hpp:5-33). *)
Definition cartesian_model (chassis : road_input -> list R) (x y psi u v yaw_rate : R)
  : list R * (R * R * R) :=
  let '(dx, dy, dpsi) := cartesian_update psi u v yaw_rate in
  let given := RoadInput (V x y 0) (Euler 0 0 0) (Euler 0 0 0) psi yaw_rate 0 in
  (map (fun x => x * 1) (chassis given), (dx * 1, dy * 1, dpsi * 1)).

(** ** Jacobians and Hessians *)

(** models: Dynamic_model_car::equations, dynamic_model_car.hpp:111-212. [op time x] is
    operator(): the states and their derivatives as functions of the inputs followed by the
    controls. [values], [jacobian] and [hessian] are Forward, Jacobian and Hessian of CppAD for
    the recorded function: flat arrays, row by row. [n] is the number of states and [nt] the
    number of inputs and controls. The assertions on the symmetry of the Hessians are not
    modelled. *)
Record equations_out := EquationsOut {
  eq_states : list R; eq_dstates : list R;
  eq_jac_states : nat -> nat -> R; eq_jac_dstates : nat -> nat -> R;
  eq_hess_states : nat -> nat -> nat -> R; eq_hess_dstates : nat -> nat -> nat -> R }.
Definition equations (values : (list R -> list R) -> list R -> list R)
    (jacobian : (list R -> list R) -> list R -> list R)
    (hessian : (list R -> list R) -> list R -> nat -> list R)
    (op : R -> list R -> list R * list R) (n nt : nat) (inputs controls : list R) (time : R)
  : equations_out :=
  let x := inputs ++ controls in
  (* operator() is recorded with 0.0 as third argument, dynamic_model_car.hpp:133 *)
  let f := fun x => let '(st, dst) := op 0 x in st ++ dst in
  let y := values f x in
  let jac := jacobian f x in
  EquationsOut (firstn n y) (firstn n (skipn n y))
    (fun i j => nth (j + nt * i) jac 0)
    (fun i j => nth (j + nt * (i + n)) jac 0)
    (fun var i j => nth (j + nt * i) (hessian f x var) 0)
    (fun var i j => nth (j + nt * i) (hessian f x (var + n)%nat) 0).
