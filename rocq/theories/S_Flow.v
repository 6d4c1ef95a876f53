(** Specification: what a user gives to a car, what they get from an evaluation, and what the
    results may depend on. *)
From Coq Require Import String Bool List.
From Verif Require Import M_Flow.
Import ListNotations.
Local Open Scope string_scope.
Local Open Scope list_scope.

(** *** What a user gets *)
Definition road_states (r : road) : list string :=
  match r with
  | Curvilinear => ["time"; "lateral_displacement"; "track_heading_angle"]
  | Cartesian => ["X"; "Y"; "PSI"]
  end.
Definition chassis_states : list string := ["com_velocity_x_mps"; "com_velocity_y_mps"; "yaw_rate_radps"].
Definition vehicle_states (v : vehicle) : list string :=
  match v with
  | F1 _ =>
    ["front angular_momentum_left"; "front angular_momentum_right"; "rear angular_momentum_left";
     "rear angular_momentum_right"; "com_velocity_z_mps"; "roll_angular_momentum_Nms";
     "pitch_angular_momentum_Nms"; "roll_balance_equation_g"]
  | Kart _ _ _ => ["OMEGA_AXLE"; "Z"; "PHI"; "MU"; "DZDT"; "DPHIDT"; "DMUDT"]
  end.
(** The elements of the arrays of states and of derivatives. *)
Definition states (v : vehicle) (r : road) : list string := vehicle_states v ++ chassis_states ++ road_states r.

Definition tire_keys : list string :=
  [".position.x"; ".position.y"; ".position.z"; ".velocity.x"; ".velocity.y"; ".velocity.z";
   ".velocity.car_frame.x"; ".velocity.car_frame.y"; ".velocity.car_frame.z"; ".lambda"; ".true_kappa";
   ".dissipation"; ".force.x"; ".force.y"; ".force.z"; ".force.inertial.x"; ".force.inertial.y";
   ".force.inertial.z"; ".omega"].
Definition chassis_keys : list string :=
  [".acceleration.x"; ".acceleration.y"; ".force.x"; ".force.y"; ".force.z"; ".torque.x"; ".torque.y"; ".torque.z";
   ".acceleration.yaw"; ".position.x"; ".position.y"; ".attitude.yaw"; ".understeer_oversteer_indicator";
   ".aerodynamics.cd"; ".aerodynamics.lift"; ".aerodynamics.drag"; ".aerodynamics.drag.x"; ".aerodynamics.drag.y";
   ".aerodynamics.wind_velocity_body.x"; ".aerodynamics.wind_velocity_body.y";
   ".aerodynamics.aerodynamic_velocity.x"; ".aerodynamics.aerodynamic_velocity.y"].
(** The keys of the map of outputs, the same for the four models. *)
Definition output_keys : list string :=
  map (fun k => String.append "chassis" k) chassis_keys
  ++ flat_map (fun t => map (fun k => String.append t k) tire_keys)
       ["front-axle.left-tire"; "front-axle.right-tire"; "rear-axle.left-tire"; "rear-axle.right-tire"].
(** On a track, the constraints of the optimal laptime problem and the integral quantities. *)
Definition lap_keys (v : vehicle) (r : road) : list string :=
  match r with
  | Cartesian => []
  | Curvilinear =>
      ["constraint 0"; "constraint 1"; "constraint 2"; "constraint 3"; "constraint 4"; "constraint 5"]
      ++ match v with
         | F1 _ => ["engine-energy"; "tire-fl-energy"; "tire-fr-energy"; "tire-rl-energy"; "tire-rr-energy"; "boost-time"]
         | Kart _ _ _ => []
         end
  end.
Definition results (v : vehicle) (r : road) : list name :=
  map State (states v r) ++ map Derivative (states v r) ++ map Output (output_keys ++ lap_keys v r).

(** *** What the results may depend on, besides the arguments of the call *)
(** The parameters: those of the f1 are the paths of S_Tree.all_paths. *)
Definition both_axles (f : string -> list string) : list string := f "front" ++ f "rear".
Definition tire_paths (model : list string) : list string :=
  both_axles (fun a => map (fun p => String.append "vehicle/" (String.append a (String.append "-tire/" p)))
    (["radius"; "radial-stiffness"; "radial-damping"; "Fz-max-ref2"] ++ model)).
Definition f1_tire_model : list string :=
  ["reference-load-1"; "reference-load-2"; "mu-x-max-1"; "mu-x-max-2"; "mu-y-max-1"; "mu-y-max-2";
   "kappa-max-1"; "kappa-max-2"; "lambda-max-1"; "lambda-max-2"; "Qx"; "Qy"].
Definition kart_tire_model : list string :=
  ["nominal-vertical-load"; "lambdaFz0"; "longitudinal/pure/pCx1"; "longitudinal/pure/pDx1"; "longitudinal/pure/pEx1";
   "longitudinal/pure/pKx1"; "longitudinal/pure/pKx2"; "longitudinal/pure/pKx3"; "lateral/pure/pCy1";
   "lateral/pure/pDy1"; "lateral/pure/pEy1"; "lateral/pure/pKy1"; "lateral/pure/pKy2"; "lateral/pure/pKy4";
   "longitudinal/combined/rBx1"; "longitudinal/combined/rCx1"; "lateral/combined/rBy1"; "lateral/combined/rCy1"].
Definition chassis_paths : list string :=
  map (fun p => String.append "vehicle/chassis/" p)
  ["mass"; "inertia/Ixx"; "inertia/Ixy"; "inertia/Ixz"; "inertia/Iyx"; "inertia/Iyy"; "inertia/Iyz"; "inertia/Izx";
   "inertia/Izy"; "inertia/Izz"; "aerodynamics/rho"; "aerodynamics/cd"; "aerodynamics/cl"; "aerodynamics/area";
   "aerodynamics/wind_velocity/northward"; "aerodynamics/wind_velocity/eastward"].
Definition f1_paths : list string :=
  map (fun p => String.append "vehicle/chassis/" p)
  ["com/x"; "com/y"; "com/z"; "front_axle/x"; "front_axle/y"; "front_axle/z"; "rear_axle/x"; "rear_axle/y"; "rear_axle/z";
   "pressure_center/x"; "pressure_center/y"; "pressure_center/z"; "brake_bias"; "roll_balance_coefficient"; "Fz_max_ref2"]
  ++ both_axles (fun a => map (fun p => String.append "vehicle/" (String.append a (String.append "-axle/" p)))
       ["track"; "inertia"; "smooth_throttle_coeff"; "brakes/max_torque"])
  ++ map (fun p => String.append "vehicle/rear-axle/" p)
       ["differential_stiffness"; "engine/maximum-power"; "boost/maximum-power"].
Definition paths (v : vehicle) : list string :=
  chassis_paths ++ match v with
                   | F1 _ => f1_paths ++ tire_paths f1_tire_model
                   | Kart _ _ _ => tire_paths kart_tire_model
                   end.

(** Members that are given a value when the car is built or put on a track and that nothing
    changes afterwards. *)
Definition fixed_members (v : vehicle) (r : road) : list string :=
  match r with
  | Curvilinear => ["road track"]
  | Cartesian => ["road dtimeds"; "road ground velocity"]
  end
  ++ ["front left frame rate"; "front right frame rate"; "rear left frame rate"; "rear right frame rate";
      "rear left frame angle"; "rear right frame angle"]
  ++ match v with
     | F1 _ => ["chassis frame origin"; "chassis frame velocity"; "front frame velocity"; "rear frame velocity";
                "front left frame velocity"; "front right frame velocity"; "rear left frame velocity"; "rear right frame velocity"]
     | Kart _ _ _ =>
         ["x_com"; "x_front_axle"; "x_rear_axle"; "front omega"; "rear delta"; "rear inertia"; "rear smooth throttle";
          "rear maximum power"; "rear maximum brake torque"]
         ++ both_axles (fun a => map (fun p => String.append a p) [" track"; " k_chassis"; " k_antiroll"; " y_tire"; " beta"])
     end.

(** Two cars prepared in the same way: built alike, with the same values of the parameters that
    were not declared and of the schedules of those that were. Whatever else they hold,
    in particular the results of earlier evaluations, may differ. *)
Definition prepared_alike {V} (v : vehicle) (r : road) (declared : list string) (s1 s2 : name -> V) : Prop :=
  (forall p, In p (paths v) -> ~ In p declared -> s1 (Param p) = s2 (Param p)) /\
  (forall p, In p declared -> s1 (Schedule p) = s2 (Schedule p)) /\
  (forall m, In m (fixed_members v r) -> s1 (Member m) = s2 (Member m)).

(** *** Histories *)
(** The value last given to a parameter by a history. *)
Fixpoint last_set {V} (us : list (@use V)) (p : string) : option V :=
  match us with
  | [] => None
  | Evaluate _ :: rest => last_set rest p
  | SetParameter q x :: rest =>
      match last_set rest p with
      | Some y => Some y
      | None => if String.eqb q p then Some x else None
      end
  end.
(** A car on which the parameters [change] gives a value to were set, and nothing else done. *)
Definition reset_car {V} (fn : string -> list V -> V) (declared : list string) (change : string -> option V)
    (s : name -> V) : name -> V :=
  fun x => match x with
           | Param p => match change p with Some y => y | None => s (Param p) end
           | Schedule p => match change p with
                           | Some y => if existsb (String.eqb p) declared then fn "dynamic_model_car.hpp:46" [y] else s (Schedule p)
                           | None => s (Schedule p)
                           end
           | _ => s x
           end.
