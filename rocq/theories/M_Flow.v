(** Model of what an evaluation of a vehicle reads and writes.  A car is an object with members
    that keep their values from one call to the next; operator() of the vehicle stores the
    inputs in some of them, computes others from them, and reads its results back.  Here every
    statement of that computation is kept as the member it writes and the members, parameters
    and arguments it reads; the function it computes is left open (one function per line of
    code), so that the theorems hold for whatever the formulas are.

    Simplifications, all of them in the safe direction (a statement may be given more reads than
    the code has, never fewer):
    - a query of a frame (lion, not modelled) is a function of the origin, the velocity, the
      rotation angles and their rates last given to that frame and to its parents up to the
      inertial frame;
    - vectors are one member unless the code assigns their components one by one;
    - the members of the f1 that set_parameter computes from the parameters (_y_tire, origins of
      the frames of the axles and of the tyres, constants of the tyre model) are read as the
      parameters they come from: C121 shows that they are always up to date;
    - const local variables are inlined in the statement that uses them, or are members called
      [local ...] when they are used often. *)
From Coq Require Import String Bool List.
Import ListNotations.
Local Open Scope string_scope.

(** What can be read or written. A parameter is called by its path, an element of the arrays of
    inputs, controls, states and derivatives by its enumerator, an output by its key. *)
Inductive name :=
| Param (path : string)      (* a parameter of the car, set_parameter *)
| Schedule (path : string)   (* values of a declared parameter along the track, add_parameter *)
| Member (m : string)        (* any other member *)
| Input (i : string)
| Control (i : string)
| Time                       (* the third argument: time, or arclength on a track *)
| State (i : string)
| Derivative (i : string)
| Output (key : string).

Definition name_eqb (a b : name) : bool :=
  match a, b with
  | Param p, Param q | Schedule p, Schedule q | Member p, Member q | Input p, Input q
  | Control p, Control q | State p, State q | Derivative p, Derivative q
  | Output p, Output q => String.eqb p q
  | Time, Time => true
  | _, _ => false
  end.

(** [target = function(reads)]; the function is named by the line of the code. *)
Record statement := Set_ { target : name; line : string; reads : list name }.
Definition program := list statement.
Local Open Scope list_scope.

Section Run.
Context {V : Type} (fn : string -> list V -> V).
Definition store := name -> V.
Definition update (s : store) (x : name) (v : V) : store := fun y => if name_eqb y x then v else s y.
Definition step (s : store) (i : statement) : store := update s (target i) (fn (line i) (map s (reads i))).
Definition run (p : program) (s : store) : store := fold_left step p s.
End Run.

(** *** Frames *)
(** models: the road frame built in chassis/chassis.hpp:10, four rotations. *)
Definition road_frame : list name :=
  [Member "road frame origin"; Member "road frame velocity";
   Member "road frame angle 0"; Member "road frame rate 0"; Member "road frame angle 1"; Member "road frame rate 1";
   Member "road frame angle 2"; Member "road frame rate 2"; Member "road frame angle 3"; Member "road frame rate 3"].
(** models: the chassis frame, chassis/chassis.hpp:11: no rotations, its parent is the road frame. *)
Definition chassis_frame : list name :=
  Member "chassis frame origin" :: Member "chassis frame velocity" :: road_frame.
(** models: the frame of an axle, chassis/axle.h, whose parent is the chassis frame
    (chassis/chassis.hpp:20-21). [origin] is what the origin is read from. *)
Definition axle_frame (origin : list name) (a : string) : list name :=
  (origin ++ [Member (a ++ " frame velocity")] ++ chassis_frame)%list.
(** models: the frame of a tyre, tire/tire.h:163, whose parent is the frame of the axle; one
    rotation for the steered tyres (chassis/axle_car_3dof.hpp:52-53, chassis/axle_car_6dof.hpp:90-91). *)
Definition tire_frame (origin axle : list name) (t : string) : list name :=
  (origin ++ [Member (t ++ " frame velocity"); Member (t ++ " frame angle"); Member (t ++ " frame rate")] ++ axle)%list.

(** *** Tyres *)
Local Open Scope string_scope.
(** models: Pacejka_simple_model::get_parameters, tire/tire_pacejka.h:324-337. *)
Definition simple_model (path : string) : list name :=
  map (fun p => Param (path ++ p))
      ["reference-load-1"; "reference-load-2"; "mu-x-max-1"; "mu-x-max-2"; "mu-y-max-1"; "mu-y-max-2";
       "kappa-max-1"; "kappa-max-2"; "lambda-max-1"; "lambda-max-2"; "Qx"; "Qy"].
(** models: Pacejka_standard_model::get_parameters, tire/tire_pacejka.h:219-238. *)
Definition standard_model (path : string) : list name :=
  map (fun p => Param (path ++ p))
      ["nominal-vertical-load"; "lambdaFz0"; "longitudinal/pure/pCx1"; "longitudinal/pure/pDx1";
       "longitudinal/pure/pEx1"; "longitudinal/pure/pKx1"; "longitudinal/pure/pKx2"; "longitudinal/pure/pKx3";
       "lateral/pure/pCy1"; "lateral/pure/pDy1"; "lateral/pure/pEy1"; "lateral/pure/pKy1"; "lateral/pure/pKy2";
       "lateral/pure/pKy4"; "longitudinal/combined/rBx1"; "longitudinal/combined/rCx1";
       "lateral/combined/rBy1"; "lateral/combined/rCy1"].
(** The radius of a tyre, tire/tire.h:164-168. *)
Definition radius (path : string) : name := Param (path ++ "radius").

(** models: Tire_pacejka::update_self(Fz), tire/tire_pacejka.hpp:106-120. [fz] is what the load
    comes from. *)
Definition tire_update_self (model : list name) (path t : string) (fz : list name) : program :=
  [Set_ (Member (t ++ " Smagic")) "tire_pacejka.hpp:111" (model ++ [Member (t ++ " kappa"); Member (t ++ " lambda")] ++ fz)%list;
   Set_ (Member (t ++ " Fmagic")) "tire_pacejka.hpp:112" (model ++ [Member (t ++ " kappa"); Member (t ++ " lambda")] ++ fz)%list;
   Set_ (Member (t ++ " F.x")) "tire_pacejka.hpp:114" [Member (t ++ " Smagic")];
   Set_ (Member (t ++ " F.y")) "tire_pacejka.hpp:115" [Member (t ++ " Fmagic")];
   Set_ (Member (t ++ " F.z")) "tire_pacejka.hpp:116" fz;
   Set_ (Member (t ++ " T")) "tire_pacejka.hpp:119"
        [radius path; Member (t ++ " w"); Member (t ++ " F.x"); Member (t ++ " F.y"); Member (t ++ " F.z")]].
(** models: Tire::update_from_kappa, tire/tire.hpp:78-103, reached from Tire_pacejka::update(Fz,
    kappa_dimensionless, road_frame), tire/tire_pacejka.hpp:66-73. [lateral]: the type of the tyre
    is ONLY_LATERAL. *)
Definition tire_update_from_kappa (lateral : bool) (model frame : list name) (path t : string)
    (fz kappa_n : list name) : program :=
  ([Set_ (Member (t ++ " kappa")) "tire.hpp:81" (kappa_n ++ model ++ fz);
    Set_ (Member (t ++ " w")) "tire.hpp:86" (radius path :: frame);
    Set_ (Member (t ++ " dw")) "tire.hpp:87" (radius path :: frame);
    Set_ (Member (t ++ " w")) "tire.hpp:91" (radius path :: frame);
    Set_ (Member (t ++ " dw")) "tire.hpp:92" (radius path :: frame);
    Set_ (Member (t ++ " v")) "tire.hpp:95" (radius path :: Member (t ++ " w") :: frame)]
   ++ (if lateral then [Set_ (Member (t ++ " omega")) "tire.hpp:98" [Member (t ++ " v"); radius path]] else [])
   ++ [Set_ (Member (t ++ " lambda")) "tire.hpp:101" [Member (t ++ " v")];
       Set_ (Member (t ++ " omega")) "tire.hpp:102" [Member (t ++ " kappa"); Member (t ++ " v"); radius path]]
   ++ tire_update_self model path t fz)%list.
(** models: Tire::update(x0,v0,omega), tire/tire.hpp:44-75, and Tire_pacejka::update, 76-103:
    the load comes from the deformation. *)
Definition tire_update (lateral : bool) (model axle : list name) (path t : string)
    (x0 v0 omega : list name) : program :=
  let frame := tire_frame [Member (t ++ " frame origin")] axle t in
  ([Set_ (Member (t ++ " frame origin")) "tire.hpp:49 x0" x0;
    Set_ (Member (t ++ " frame velocity")) "tire.hpp:49 v0" v0;
    Set_ (Member (t ++ " omega")) "tire.hpp:58" omega;
    Set_ (Member (t ++ " w")) "tire.hpp:63" (radius path :: frame);
    Set_ (Member (t ++ " dw")) "tire.hpp:64" (radius path :: frame);
    Set_ (Member (t ++ " v")) "tire.hpp:67" (radius path :: Member (t ++ " w") :: frame)]
   ++ (if lateral then [Set_ (Member (t ++ " omega")) "tire.hpp:70" [Member (t ++ " v"); radius path]] else [])
   ++ [Set_ (Member (t ++ " kappa")) "tire.hpp:73" [Member (t ++ " omega"); radius path; Member (t ++ " v")];
       Set_ (Member (t ++ " lambda")) "tire.hpp:74" [Member (t ++ " v")]]
   ++ tire_update_self model path t
        [Param (path ++ "radial-stiffness"); Param (path ++ "radial-damping"); Param (path ++ "Fz-max-ref2");
         Member (t ++ " w"); Member (t ++ " dw")])%list.

(** models: Tire::get_outputs_map_self, tire/tire.h:170-197, with the getters 92-133. [key] is the
    name of the tyre. *)
Definition tire_outputs (frame : list name) (path t key : string) : program :=
  let out k l r := Set_ (Output (key ++ k)) l r in
  [out ".position.x" "tire.h:177" frame; out ".position.y" "tire.h:178" frame; out ".position.z" "tire.h:179" frame;
   out ".velocity.x" "tire.h:180" [Member (t ++ " v")]; out ".velocity.y" "tire.h:181" [Member (t ++ " v")];
   out ".velocity.z" "tire.h:182" [Member (t ++ " v")];
   out ".velocity.car_frame.x" "tire.h:183" (Member (t ++ " v") :: frame);
   out ".velocity.car_frame.y" "tire.h:184" (Member (t ++ " v") :: frame);
   out ".velocity.car_frame.z" "tire.h:185" (Member (t ++ " v") :: frame);
   out ".lambda" "tire.h:186" [Member (t ++ " lambda")];
   out ".true_kappa" "tire.h:187" [Member (t ++ " kappa")];
   out ".dissipation" "tire.h:188" [Member (t ++ " F.x"); Member (t ++ " F.y"); Member (t ++ " v"); Member (t ++ " omega"); radius path];
   out ".force.x" "tire.h:189" [Member (t ++ " F.x")]; out ".force.y" "tire.h:190" [Member (t ++ " F.y")];
   out ".force.z" "tire.h:191" [Member (t ++ " F.z")];
   out ".force.inertial.x" "tire.h:192" (Member (t ++ " F.x") :: Member (t ++ " F.y") :: Member (t ++ " F.z") :: frame);
   out ".force.inertial.y" "tire.h:193" (Member (t ++ " F.x") :: Member (t ++ " F.y") :: Member (t ++ " F.z") :: frame);
   out ".force.inertial.z" "tire.h:194" (Member (t ++ " F.x") :: Member (t ++ " F.y") :: Member (t ++ " F.z") :: frame);
   out ".omega" "tire.h:195" [Member (t ++ " omega")]].

(** *** Road *)
Inductive road := Curvilinear | Cartesian.
(** models: Road_curvilinear::update_track and set_state_and_controls,
    vehicles/road_curvilinear.hpp:45-59, 102-135; Road_cartesian::set_state_and_controls,
    vehicles/road_cartesian.hpp:37-52. The track is the member _track of the road, set when the
    car is put on a track. *)
Definition road_set (r : road) : program :=
  match r with
  | Curvilinear =>
    [Set_ (Member "road centerline") "road_curvilinear.hpp:110" [Member "road track"; Time];
     Set_ (Member "road theta") "road_curvilinear.hpp:113" [Member "road track"; Time];
     Set_ (Member "road mu") "road_curvilinear.hpp:114" [Member "road track"; Time];
     Set_ (Member "road phi") "road_curvilinear.hpp:115" [Member "road track"; Time];
     Set_ (Member "road dtheta_ds") "road_curvilinear.hpp:118" [Member "road track"; Time];
     Set_ (Member "road dmu_ds") "road_curvilinear.hpp:119" [Member "road track"; Time];
     Set_ (Member "road dphi_ds") "road_curvilinear.hpp:120" [Member "road track"; Time];
     Set_ (Member "road tangent") "road_curvilinear.hpp:123" [Member "road theta"; Member "road mu"];
     Set_ (Member "road normal") "road_curvilinear.hpp:125" [Member "road theta"; Member "road mu"; Member "road phi"];
     Set_ (Member "road binormal") "road_curvilinear.hpp:129" [Member "road theta"; Member "road mu"; Member "road phi"];
     Set_ (Member "road curvature") "road_curvilinear.hpp:134" [Member "road track"; Time];
     Set_ (Member "road time") "road_curvilinear.hpp:51" [Input "time"];
     Set_ (Member "road lateral displacement") "road_curvilinear.hpp:54" [Input "lateral_displacement"];
     Set_ (Member "road heading angle") "road_curvilinear.hpp:57" [Input "track_heading_angle"]]
  | Cartesian =>
    [Set_ (Member "road position x") "road_cartesian.hpp:43" [Input "X"];
     Set_ (Member "road position y") "road_cartesian.hpp:46" [Input "Y"];
     Set_ (Member "road position z") "road_cartesian.hpp:48" [];
     Set_ (Member "road psi") "road_cartesian.hpp:51" [Input "PSI"]]
  end.
(** models: Road_curvilinear::update, vehicles/road_curvilinear.hpp:4-21, and
    Road_cartesian::update, vehicles/road_cartesian.hpp:4-15, called with the velocities of the
    chassis (vehicles/dynamic_model_car.hpp:72). *)
Definition road_update (r : road) : program :=
  match r with
  | Curvilinear =>
    [Set_ (Member "road dtimeds") "road_curvilinear.hpp:9"
          [Member "road lateral displacement"; Member "road curvature"; Member "velocity x"; Member "velocity y"; Member "road heading angle"];
     Set_ (Member "road lateral displacement dot") "road_curvilinear.hpp:12"
          [Member "velocity x"; Member "velocity y"; Member "road heading angle"];
     Set_ (Member "road heading angle dot") "road_curvilinear.hpp:15" [Member "yaw rate"; Member "road curvature"; Member "road dtimeds"];
     Set_ (Member "road position x") "road_curvilinear.hpp:18 x"
          [Member "road centerline"; Member "road lateral displacement"; Member "road normal"];
     Set_ (Member "road position y") "road_curvilinear.hpp:18 y"
          [Member "road centerline"; Member "road lateral displacement"; Member "road normal"];
     Set_ (Member "road position z") "road_curvilinear.hpp:18 z"
          [Member "road centerline"; Member "road lateral displacement"; Member "road normal"];
     Set_ (Member "road psi") "road_curvilinear.hpp:19" [Member "road heading angle"; Member "road theta"];
     Set_ (Member "road ground velocity") "road_curvilinear.hpp:20"
          [Member "road lateral displacement"; Member "road curvature"; Member "road dtimeds"]]
  | Cartesian =>
    [Set_ (Member "road dx") "road_cartesian.hpp:8" [Member "velocity x"; Member "velocity y"; Member "road psi"];
     Set_ (Member "road dy") "road_cartesian.hpp:11" [Member "velocity x"; Member "velocity y"; Member "road psi"];
     Set_ (Member "road dpsi") "road_cartesian.hpp:14" [Member "yaw rate"]]
  end.
(** models: get_state_and_state_derivative of the roads, vehicles/road_curvilinear.hpp:24-40 and
    vehicles/road_cartesian.hpp:18-34. *)
Definition road_get (r : road) : program :=
  match r with
  | Curvilinear =>
    [Set_ (State "time") "road_curvilinear.hpp:30" [Member "road time"];
     Set_ (Derivative "time") "road_curvilinear.hpp:31" [];
     Set_ (State "lateral_displacement") "road_curvilinear.hpp:34" [Member "road lateral displacement"];
     Set_ (Derivative "lateral_displacement") "road_curvilinear.hpp:35" [Member "road lateral displacement dot"];
     Set_ (State "track_heading_angle") "road_curvilinear.hpp:38" [Member "road heading angle"];
     Set_ (Derivative "track_heading_angle") "road_curvilinear.hpp:39" [Member "road heading angle dot"]]
  | Cartesian =>
    [Set_ (State "X") "road_cartesian.hpp:24" [Member "road position x"];
     Set_ (Derivative "X") "road_cartesian.hpp:25" [Member "road dx"];
     Set_ (State "Y") "road_cartesian.hpp:28" [Member "road position y"];
     Set_ (Derivative "Y") "road_cartesian.hpp:29" [Member "road dy"];
     Set_ (State "PSI") "road_cartesian.hpp:32" [Member "road psi"];
     Set_ (Derivative "PSI") "road_cartesian.hpp:33" [Member "road dpsi"]]
  end.

(** *** What the two chassis share *)
(** models: Chassis::update, chassis/chassis.hpp:118-131, with the arguments built in
    vehicles/dynamic_model_car.hpp:75-97 (get_euler_angles and get_euler_angles_dot,
    vehicles/road_curvilinear.h:78-80). *)
Definition chassis_base_update (r : road) : program :=
  let angle l x := match r with Curvilinear => Set_ (Member l) "dynamic_model_car.hpp:84" [Member x]
                              | Cartesian => Set_ (Member l) "dynamic_model_car.hpp:91" [] end in
  let rate l x := match r with Curvilinear => Set_ (Member l) "dynamic_model_car.hpp:85" [Member x; Member "road dtimeds"]
                             | Cartesian => Set_ (Member l) "dynamic_model_car.hpp:92" [] end in
  ([Set_ (Member "road frame origin") "chassis.hpp:124 x" [Member "road position x"; Member "road position y"; Member "road position z"];
    Set_ (Member "road frame velocity") "chassis.hpp:124 v" [Member "velocity x"; Member "velocity y"; Member "road ground velocity"];
    angle "road frame angle 0" "road theta"; rate "road frame rate 0" "road dtheta_ds";
    angle "road frame angle 1" "road mu"; rate "road frame rate 1" "road dmu_ds";
    angle "road frame angle 2" "road phi"; rate "road frame rate 2" "road dphi_ds"]
   ++ match r with
      | Curvilinear => [Set_ (Member "road frame angle 3") "dynamic_model_car.hpp:86" [Member "road heading angle"];
                        Set_ (Member "road frame rate 3") "dynamic_model_car.hpp:87" [Member "road heading angle dot"]]
      | Cartesian => [Set_ (Member "road frame angle 3") "dynamic_model_car.hpp:93" [Member "road psi"];
                      Set_ (Member "road frame rate 3") "dynamic_model_car.hpp:94" [Member "yaw rate"]]
      end)%list.
(** models: the last part of Chassis::set_state_and_controls, chassis/chassis.hpp:347-354. *)
Definition chassis_base_set : program :=
  [Set_ (Member "velocity x") "chassis.hpp:348" [Input "velocity_x_mps"];
   Set_ (Member "velocity y") "chassis.hpp:351" [Input "velocity_y_mps"];
   Set_ (Member "yaw rate") "chassis.hpp:354" [Input "yaw_rate_radps"]].
(** models: the last part of Chassis::get_state_and_state_derivative, chassis/chassis.hpp:385-395. *)
Definition chassis_base_get : program :=
  [Set_ (State "com_velocity_x_mps") "chassis.hpp:386" [Member "com velocity x"];
   Set_ (Derivative "com_velocity_x_mps") "chassis.hpp:387" [Member "com velocity x dot"];
   Set_ (State "com_velocity_y_mps") "chassis.hpp:390" [Member "com velocity y"];
   Set_ (Derivative "com_velocity_y_mps") "chassis.hpp:391" [Member "com velocity y dot"];
   Set_ (State "yaw_rate_radps") "chassis.hpp:394" [Member "yaw rate"];
   Set_ (Derivative "yaw_rate_radps") "chassis.hpp:395" [Member "yaw rate dot"]].
(** models: what get_aerodynamic_force reads, chassis/chassis.hpp:263-288. *)
Definition aerodynamic : list name :=
  (map (fun p => Param ("vehicle/chassis/aerodynamics/" ++ p))
      ["rho"; "cd"; "cl"; "area"; "wind_velocity/northward"; "wind_velocity/eastward"] ++ road_frame)%list.
Definition mass : name := Param "vehicle/chassis/mass".
(** models: what get_gravity_force reads, chassis/chassis.hpp:247-260. *)
Definition gravity : list name :=
  [mass; Member "road frame angle 1"; Member "road frame angle 2"; Member "road frame angle 3"].
(** models: get_inertia, the nine entries of chassis/chassis.h:257-265. *)
Definition inertia : list name :=
  map (fun p => Param ("vehicle/chassis/inertia/" ++ p))
      ["Ixx"; "Ixy"; "Ixz"; "Iyx"; "Iyy"; "Iyz"; "Izx"; "Izy"; "Izz"].
(** models: Chassis::get_outputs_map_self, chassis/chassis.h:282-309, with the accelerations of
    chassis/chassis.hpp:227-244 and the indicator of 291-337. *)
Definition chassis_outputs (front_axle_frame rear_axle_frame : list name) (front_track : list name) : program :=
  let out k l r := Set_ (Output ("chassis" ++ k)) l r in
  let acceleration := [Member "velocity x"; Member "velocity y"; Member "total force"; mass] in
  [out ".acceleration.x" "chassis.h:286" acceleration; out ".acceleration.y" "chassis.h:287" acceleration;
   out ".force.x" "chassis.h:288" [Member "total force"]; out ".force.y" "chassis.h:289" [Member "total force"];
   out ".force.z" "chassis.h:290" [Member "total force"];
   out ".torque.x" "chassis.h:291" [Member "total torque"]; out ".torque.y" "chassis.h:292" [Member "total torque"];
   out ".torque.z" "chassis.h:293" [Member "total torque"];
   out ".acceleration.yaw" "chassis.h:294" [Member "yaw rate dot"];
   out ".position.x" "chassis.h:295" [Member "road frame origin"]; out ".position.y" "chassis.h:296" [Member "road frame origin"];
   out ".attitude.yaw" "chassis.h:297" [Member "road frame angle 0"; Member "road frame angle 3"];
   out ".understeer_oversteer_indicator" "chassis.h:298"
       ([Member "yaw rate"; Member "velocity x"; Member "velocity y"] ++ front_track
        ++ rear_axle_frame ++ front_axle_frame ++ [Member "front left frame angle"; Member "front right frame angle"])%list;
   out ".aerodynamics.cd" "chassis.h:299" [Param "vehicle/chassis/aerodynamics/cd"];
   out ".aerodynamics.lift" "chassis.h:300" aerodynamic; out ".aerodynamics.drag" "chassis.h:301" aerodynamic;
   out ".aerodynamics.drag.x" "chassis.h:302" aerodynamic; out ".aerodynamics.drag.y" "chassis.h:303" aerodynamic;
   out ".aerodynamics.wind_velocity_body.x" "chassis.h:304" aerodynamic;
   out ".aerodynamics.wind_velocity_body.y" "chassis.h:305" aerodynamic;
   out ".aerodynamics.aerodynamic_velocity.x" "chassis.h:306" aerodynamic;
   out ".aerodynamics.aerodynamic_velocity.y" "chassis.h:307" aerodynamic].

(** *** The f1 *)
(** models: get_front_axle_position and get_rear_axle_position, chassis/chassis_car_3dof.h:151-154. *)
Definition f1_axle_origin (a : string) : list name :=
  map (fun c => Param ("vehicle/chassis/" ++ a ++ "_axle/" ++ c)) ["x"; "y"; "z"].
Definition f1_axle_frame (a : string) : list name := axle_frame (f1_axle_origin a) a.
(** models: get_tire_position of the f1, chassis/axle_car_3dof.h:202. *)
Definition f1_tire_frame (a side : string) : list name :=
  tire_frame [Param ("vehicle/" ++ a ++ "-axle/track")] (f1_axle_frame a) (a ++ " " ++ side).

(** models: Engine::operator() when neither _direct_torque nor a polynomial is used,
    actuators/engine.hpp:34-44. The engines of the f1 are built with only_max_power
    (chassis/axle_car_3dof.hpp:40-41, 97-98), which sets _direct_torque to false (actuators/engine.h:23,
    actuators/engine.hpp:30). [out] receives the torque. *)
Definition max_power_engine (path e out : string) (throttle speed : list name) : program :=
  [Set_ (Member (e ++ " power")) "engine.hpp:42" (throttle ++ [Param (path ++ "maximum-power")])%list;
   Set_ (Member out) "engine.hpp:43" (Member (e ++ " power") :: speed)].

(** models: Axle_car_3dof::update, chassis/axle_car_3dof.hpp:218-274, called from
    chassis/chassis_car_3dof.hpp:137-138. [powered]: the mode is POWERED. *)
Definition f1_axle_update (powered lateral : bool) (a : string) : program :=
  let tire_path := "vehicle/" ++ a ++ "-tire/" in
  let path := "vehicle/" ++ a ++ "-axle/" in
  let l := a ++ " left" in let r := a ++ " right" in
  let brake o := [o; Member "throttle"; Param (path ++ "smooth_throttle_coeff");
                  Param (path ++ "brakes/max_torque"); Member "brake bias"] in
  let omegas := [Member (l ++ " omega"); Member (r ++ " omega")] in
  let throttle := [Member "throttle"; Param (path ++ "smooth_throttle_coeff")] in
  let forces := [Member (l ++ " F.x"); Member (l ++ " F.y"); Member (l ++ " F.z");
                 Member (r ++ " F.x"); Member (r ++ " F.y"); Member (r ++ " F.z")] in
  (tire_update_from_kappa lateral (simple_model tire_path) (f1_tire_frame a "left") tire_path l
     [Member ("negative force z " ++ l)] [Member (a ++ " kappa left")]
   ++ tire_update_from_kappa lateral (simple_model tire_path) (f1_tire_frame a "right") tire_path r
     [Member ("negative force z " ++ r)] [Member (a ++ " kappa right")]
   ++ [Set_ (Member (a ++ " torque left")) "axle_car_3dof.hpp:237" (brake (Member (l ++ " omega")));
       Set_ (Member (a ++ " torque right")) "axle_car_3dof.hpp:238" (brake (Member (r ++ " omega")))]
   ++ (if powered then
         max_power_engine (path ++ "engine/") (a ++ " engine") (a ++ " local engine torque") throttle omegas
         ++ [Set_ (Member (a ++ " local differential torque")) "axle_car_3dof.hpp:252"
                  (Param (path ++ "differential_stiffness") :: omegas)]
         ++ max_power_engine (path ++ "boost/") (a ++ " boost engine") (a ++ " local boost torque")
                  (Member (a ++ " boost") :: throttle) omegas
         ++ [Set_ (Member (a ++ " torque left")) "axle_car_3dof.hpp:255"
                  [Member (a ++ " torque left"); Member (a ++ " local engine torque");
                   Member (a ++ " local boost torque"); Member (a ++ " local differential torque")];
             Set_ (Member (a ++ " torque right")) "axle_car_3dof.hpp:256"
                  [Member (a ++ " torque right"); Member (a ++ " local engine torque");
                   Member (a ++ " local boost torque"); Member (a ++ " local differential torque")]]
       else [])
   ++ [Set_ (Member (a ++ " momentum dot left")) "axle_car_3dof.hpp:260"
            [Member (a ++ " torque left"); Member (l ++ " F.x"); radius tire_path; Member (l ++ " w")];
       Set_ (Member (a ++ " momentum dot right")) "axle_car_3dof.hpp:261"
            [Member (a ++ " torque right"); Member (r ++ " F.x"); radius tire_path; Member (r ++ " w")];
       Set_ (Member (a ++ " F")) "axle_car_3dof.hpp:270" (forces ++ f1_tire_frame a "left" ++ f1_tire_frame a "right");
       Set_ (Member (a ++ " T")) "axle_car_3dof.hpp:272"
            (Member (l ++ " T") :: Member (r ++ " T") :: forces ++ f1_tire_frame a "left" ++ f1_tire_frame a "right")])%list.
(** models: Axle_car_3dof::set_state_and_controls, chassis/axle_car_3dof.hpp:333-361. *)
Definition f1_axle_set (powered : bool) (a : string) : program :=
  ([Set_ (Member (a ++ " kappa left")) "axle_car_3dof.hpp:341" [Input (a ++ " KAPPA_LEFT")];
    Set_ (Member (a ++ " kappa right")) "axle_car_3dof.hpp:344" [Input (a ++ " KAPPA_RIGHT")]]
   ++ (if powered then [Set_ (Member (a ++ " boost")) "axle_car_3dof.hpp:359" [Control "boost"]]
       else [Set_ (Member (a ++ " delta")) "axle_car_3dof.hpp:349" [Control "STEERING"];
             Set_ (Member (a ++ " left frame angle")) "axle_car_3dof.hpp:352" [Member (a ++ " delta")];
             Set_ (Member (a ++ " right frame angle")) "axle_car_3dof.hpp:353" [Member (a ++ " delta")]]))%list.
(** models: Axle_car_3dof::get_state_and_state_derivative, chassis/axle_car_3dof.hpp:286-303. *)
Definition f1_axle_get (a : string) : program :=
  let scaling := [Param ("vehicle/" ++ a ++ "-axle/inertia"); mass] in
  [Set_ (State (a ++ " angular_momentum_left")) "axle_car_3dof.hpp:297" (Member (a ++ " left omega") :: scaling);
   Set_ (Derivative (a ++ " angular_momentum_left")) "axle_car_3dof.hpp:298" (Member (a ++ " momentum dot left") :: scaling);
   Set_ (State (a ++ " angular_momentum_right")) "axle_car_3dof.hpp:301" (Member (a ++ " right omega") :: scaling);
   Set_ (Derivative (a ++ " angular_momentum_right")) "axle_car_3dof.hpp:302" (Member (a ++ " momentum dot right") :: scaling)].
(** models: Chassis_car_3dof::set_state_and_controls, chassis/chassis_car_3dof.hpp:270-301, which
    calls Chassis::set_state_and_controls, chassis/chassis.hpp:339-355. *)
Definition f1_chassis_set : program :=
  (f1_axle_set false "front" ++ f1_axle_set true "rear" ++ chassis_base_set
   ++ [Set_ (Member "throttle") "chassis_car_3dof.hpp:283" [Control "throttle"];
       Set_ (Member "brake bias") "chassis_car_3dof.hpp:286" [Control "brake_bias"];
       Set_ (Member "force z front left") "chassis_car_3dof.hpp:291" [Input "force_z_fl_g"; mass];
       Set_ (Member "force z front right") "chassis_car_3dof.hpp:294" [Input "force_z_fr_g"; mass];
       Set_ (Member "force z rear left") "chassis_car_3dof.hpp:297" [Input "force_z_rl_g"; mass];
       Set_ (Member "force z rear right") "chassis_car_3dof.hpp:300" [Input "force_z_rr_g"; mass]])%list.
(** models: Chassis_car_3dof::update, chassis/chassis_car_3dof.hpp:116-204. *)
Definition f1_chassis_update (r : road) (lateral : bool) : program :=
  let com := map (fun c => Param ("vehicle/chassis/com/" ++ c)) ["x"; "y"; "z"] in
  let aero := map (fun c => Param ("vehicle/chassis/pressure_center/" ++ c)) ["x"; "y"; "z"] in
  let force_ref := Param "vehicle/chassis/Fz_max_ref2" in
  let axles := (Member "front F" :: Member "rear F" :: f1_axle_frame "front" ++ f1_axle_frame "rear")%list in
  let rates := (Member "yaw rate" :: Member "velocity x" :: Member "velocity y" :: com ++ road_frame)%list in
  (chassis_base_update r
   ++ map (fun t => Set_ (Member ("negative force z " ++ t)) "chassis_car_3dof.hpp:131-134" [Member ("force z " ++ t); force_ref])
          ["front left"; "front right"; "rear left"; "rear right"]
   ++ f1_axle_update false lateral "front" ++ f1_axle_update true lateral "rear"
   ++ [Set_ (Member "total force") "chassis_car_3dof.hpp:155" (axles ++ aerodynamic);
       Set_ (Member "total torque") "chassis_car_3dof.hpp:157"
            (Member "front T" :: Member "rear T" :: axles ++ aerodynamic ++ aero ++ com);
       Set_ (Member "total torque") "chassis_car_3dof.hpp:161" (Member "total torque" :: Member "total force" :: com);
       Set_ (Member "total force") "chassis_car_3dof.hpp:164" (Member "total force" :: gravity);
       Set_ (Member "com velocity x dot") "chassis_car_3dof.hpp:186" (Member "total force" :: mass :: Member "road ground velocity" :: rates);
       Set_ (Member "com velocity y dot") "chassis_car_3dof.hpp:187" (Member "total force" :: mass :: Member "road ground velocity" :: rates);
       Set_ (Member "com velocity z dot") "chassis_car_3dof.hpp:188" (Member "total force" :: mass :: rates);
       Set_ (Member "com velocity x") "chassis_car_3dof.hpp:190" rates;
       Set_ (Member "com velocity y") "chassis_car_3dof.hpp:191" rates;
       Set_ (Member "com velocity z") "chassis_car_3dof.hpp:192" [Member "road ground velocity"];
       Set_ (Member "roll momentum dot") "chassis_car_3dof.hpp:195" (Member "total torque" :: inertia ++ rates);
       Set_ (Member "pitch momentum dot") "chassis_car_3dof.hpp:196" (Member "total torque" :: inertia ++ rates);
       Set_ (Member "yaw rate dot") "chassis_car_3dof.hpp:197" (Member "total torque" :: inertia ++ rates);
       Set_ (Member "roll momentum") "chassis_car_3dof.hpp:199" (inertia ++ rates);
       Set_ (Member "pitch momentum") "chassis_car_3dof.hpp:200" (inertia ++ rates);
       Set_ (Member "roll balance") "chassis_car_3dof.hpp:203"
            [Member "force z front left"; Member "force z front right"; Member "force z rear left";
             Member "force z rear right"; Param "vehicle/chassis/roll_balance_coefficient"]])%list.
(** models: Chassis_car_3dof::get_state_and_state_derivative, chassis/chassis_car_3dof.hpp:219-239,
    which calls Chassis::get_state_and_state_derivative, chassis/chassis.hpp:377-396. *)
Definition f1_chassis_get : program :=
  (f1_axle_get "front" ++ f1_axle_get "rear" ++ chassis_base_get
   ++ [Set_ (State "com_velocity_z_mps") "chassis_car_3dof.hpp:229" [Member "com velocity z"];
       Set_ (State "roll_angular_momentum_Nms") "chassis_car_3dof.hpp:230" [Member "roll momentum"; mass];
       Set_ (State "pitch_angular_momentum_Nms") "chassis_car_3dof.hpp:231" [Member "pitch momentum"; mass];
       Set_ (State "roll_balance_equation_g") "chassis_car_3dof.hpp:232" [];
       Set_ (Derivative "com_velocity_z_mps") "chassis_car_3dof.hpp:235" [Member "com velocity z dot"];
       Set_ (Derivative "roll_angular_momentum_Nms") "chassis_car_3dof.hpp:236" [Member "roll momentum dot"; mass];
       Set_ (Derivative "pitch_angular_momentum_Nms") "chassis_car_3dof.hpp:237" [Member "pitch momentum dot"; mass];
       Set_ (Derivative "roll_balance_equation_g") "chassis_car_3dof.hpp:238" [Member "roll balance"; mass]])%list.
(** models: get_outputs_map of the f1: chassis/chassis_car_3dof.h:228-236, chassis/chassis.h:242-252,
    chassis/axle_car_3dof.h:262-270, chassis/axle.h:120-134. *)
Definition f1_outputs : program :=
  (chassis_outputs (f1_axle_frame "front") (f1_axle_frame "rear") [Param "vehicle/front-axle/track"]
   ++ tire_outputs (f1_tire_frame "front" "left") "vehicle/front-tire/" "front left" "front-axle.left-tire"
   ++ tire_outputs (f1_tire_frame "front" "right") "vehicle/front-tire/" "front right" "front-axle.right-tire"
   ++ tire_outputs (f1_tire_frame "rear" "left") "vehicle/rear-tire/" "rear left" "rear-axle.left-tire"
   ++ tire_outputs (f1_tire_frame "rear" "right") "vehicle/rear-tire/" "rear right" "rear-axle.right-tire")%list.
(** models: optimal_laptime_extra_constraints and compute_integral_quantities of the f1,
    vehicles/limebeer2014f1.h:266-281, 293-310: only for the car on a track. *)
Definition f1_lap_quantities : program :=
  let limit := [Member "road lateral displacement"; Param "vehicle/front-axle/track"; Member "road heading angle"] in
  let dissipation t p := [Member (t ++ " F.x"); Member (t ++ " F.y"); Member (t ++ " v"); Member (t ++ " omega"); radius p] in
  [Set_ (Output "constraint 0") "limebeer2014f1.h:274" [Member "front left lambda"];
   Set_ (Output "constraint 1") "limebeer2014f1.h:275" [Member "front right lambda"];
   Set_ (Output "constraint 2") "limebeer2014f1.h:276" [Member "rear left lambda"];
   Set_ (Output "constraint 3") "limebeer2014f1.h:277" [Member "rear right lambda"];
   Set_ (Output "constraint 4") "limebeer2014f1.h:278" limit;
   Set_ (Output "constraint 5") "limebeer2014f1.h:279" limit;
   Set_ (Output "engine-energy") "limebeer2014f1.h:297" [Member "rear engine power"];
   Set_ (Output "tire-fl-energy") "limebeer2014f1.h:299" (dissipation "front left" "vehicle/front-tire/");
   Set_ (Output "tire-fr-energy") "limebeer2014f1.h:301" (dissipation "front right" "vehicle/front-tire/");
   Set_ (Output "tire-rl-energy") "limebeer2014f1.h:303" (dissipation "rear left" "vehicle/rear-tire/");
   Set_ (Output "tire-rr-energy") "limebeer2014f1.h:305" (dissipation "rear right" "vehicle/rear-tire/");
   Set_ (Output "boost-time") "limebeer2014f1.h:307" [Member "rear boost"]].

(** *** The kart *)
Definition kart_axle_frame (a : string) : list name := axle_frame [Member (a ++ " frame origin")] a.
Definition kart_tire_frame (a side : string) : list name :=
  tire_frame [Member (a ++ " " ++ side ++ " frame origin")] (kart_axle_frame a) (a ++ " " ++ side).
(** models: Axle_car_6dof::update, chassis/axle_car_6dof.hpp:99-181. The track of the axle, the
    positions of its tyres, its stiffnesses and _beta are read from the file by the constructor and
    have no setter. *)
Definition kart_axle_update (powered lateral : bool) (a : string) (x0 v0 : list name) : program :=
  let path := "vehicle/" ++ a ++ "-tire/" in
  let geometry := [Member (a ++ " track"); Member (a ++ " k_chassis"); Member (a ++ " k_antiroll");
                   Param (path ++ "radial-stiffness")] in
  let displacement := ((radius path :: Member (a ++ " phi") :: Member (a ++ " beta")
                        :: Member (a ++ " delta") :: geometry) ++ kart_axle_frame a)%list in
  let speed := ((Member (a ++ " dphi") :: geometry) ++ kart_axle_frame a)%list in
  let position s := [Member (a ++ " y_tire"); Member (a ++ " s " ++ s); Member (a ++ " phi");
                     Member (a ++ " beta"); Member (a ++ " delta")] in
  let velocity s := [Member (a ++ " ds " ++ s); Member (a ++ " dphi"); Member (a ++ " y_tire")] in
  let l := a ++ " left" in let r := a ++ " right" in
  let forces := [Member (l ++ " F.x"); Member (l ++ " F.y"); Member (l ++ " F.z");
                 Member (r ++ " F.x"); Member (r ++ " F.y"); Member (r ++ " F.z")] in
  ([Set_ (Member (a ++ " frame origin")) "axle_car_6dof.hpp:102 x" x0;
    Set_ (Member (a ++ " frame velocity")) "axle_car_6dof.hpp:102 v" v0;
    Set_ (Member (a ++ " phi")) "axle_car_6dof.hpp:116" [Member "phi"];
    Set_ (Member (a ++ " dphi")) "axle_car_6dof.hpp:117" [Member "dphi"];
    Set_ (Member (a ++ " s left")) "axle_car_6dof.hpp:153" displacement;
    Set_ (Member (a ++ " s right")) "axle_car_6dof.hpp:154" displacement;
    Set_ (Member (a ++ " ds left")) "axle_car_6dof.hpp:156" speed;
    Set_ (Member (a ++ " ds right")) "axle_car_6dof.hpp:157" speed]
   ++ tire_update lateral (standard_model path) (kart_axle_frame a) path l (position "left") (velocity "left") [Member (a ++ " omega")]
   ++ tire_update lateral (standard_model path) (kart_axle_frame a) path r (position "right") (velocity "right") [Member (a ++ " omega")]
   ++ (if powered then
         [Set_ (Member (a ++ " domega")) "axle_car_6dof.hpp:166"
               [Member (a ++ " T_ax"); Member (l ++ " F.x"); Member (l ++ " w"); Member (r ++ " F.x"); Member (r ++ " w");
                radius path; Member (a ++ " inertia")]]
       else [])
   ++ [Set_ (Member (a ++ " F")) "axle_car_6dof.hpp:177" (forces ++ kart_tire_frame a "left" ++ kart_tire_frame a "right");
       Set_ (Member (a ++ " T")) "axle_car_6dof.hpp:179"
            (Member (l ++ " T") :: Member (r ++ " T") :: forces ++ kart_tire_frame a "left" ++ kart_tire_frame a "right")])%list.
(** models: set_throttle_and_omega and set_steering_angle, chassis/axle_car_6dof.hpp:184-206, 218-225,
    called from set_state_and_controls, 284-305. [direct]: the engine gives the torque directly
    (a kart whose file has no engine, or enable_direct_torque); otherwise it is an engine with only
    a maximum power (76). The parameters of the actuators of the kart have no setter. *)
Definition kart_axle_set (powered direct : bool) (a : string) : program :=
  (if powered then
    [Set_ (Member (a ++ " omega")) "axle_car_6dof.hpp:188" [Input "OMEGA_AXLE"];
     Set_ (Member (a ++ " throttle")) "axle_car_6dof.hpp:189" [Control "TORQUE"]]
    ++ (if direct then [Set_ (Member (a ++ " T_ax")) "axle_car_6dof.hpp:204" [Control "TORQUE"]]
        else [Set_ (Member (a ++ " engine power")) "engine.hpp:42"
                   [Control "TORQUE"; Member (a ++ " smooth throttle"); Member (a ++ " maximum power")];
              Set_ (Member (a ++ " T_ax")) "axle_car_6dof.hpp:198" [Member (a ++ " engine power"); Input "OMEGA_AXLE"];
              Set_ (Member (a ++ " T_ax")) "axle_car_6dof.hpp:201"
                   [Member (a ++ " T_ax"); Input "OMEGA_AXLE"; Control "TORQUE"; Member (a ++ " smooth throttle");
                    Member (a ++ " maximum brake torque")]])
  else
    [Set_ (Member (a ++ " delta")) "axle_car_6dof.hpp:222" [Control "STEERING"];
     Set_ (Member (a ++ " left frame angle")) "axle_car_6dof.hpp:223" [Control "STEERING"];
     Set_ (Member (a ++ " right frame angle")) "axle_car_6dof.hpp:224" [Control "STEERING"]])%list.
(** models: Axle_car_6dof::get_state_and_state_derivative, chassis/axle_car_6dof.hpp:243-258. *)
Definition kart_axle_get (powered : bool) (a : string) : program :=
  if powered then
    [Set_ (State "OMEGA_AXLE") "axle_car_6dof.hpp:255" [Member (a ++ " omega")];
     Set_ (Derivative "OMEGA_AXLE") "axle_car_6dof.hpp:256" [Member (a ++ " domega")]]
  else [].
(** models: Chassis_car_6dof::set_state_and_controls, chassis/chassis_car_6dof.hpp:283-312. *)
Definition kart_chassis_set (direct : bool) : program :=
  (kart_axle_set false direct "front" ++ kart_axle_set true direct "rear" ++ chassis_base_set
   ++ [Set_ (Member "z") "chassis_car_6dof.hpp:294" [Input "Z"];
       Set_ (Member "phi") "chassis_car_6dof.hpp:297" [Input "PHI"];
       Set_ (Member "mu") "chassis_car_6dof.hpp:300" [Input "MU"];
       Set_ (Member "dz") "chassis_car_6dof.hpp:305" [Input "DZDT"];
       Set_ (Member "dphi") "chassis_car_6dof.hpp:308" [Input "DPHIDT"];
       Set_ (Member "dmu") "chassis_car_6dof.hpp:311" [Input "DMUDT"]])%list.
(** models: Chassis_car_6dof::update, Newton_lhs, Euler_lhs and Euler_m,
    chassis/chassis_car_6dof.hpp:90-200; the position of the centre of mass and of the axles are
    read from the file by the constructor and have no setter. *)
Definition kart_chassis_update (r : road) (lateral_front lateral_rear : bool) : program :=
  let axles := (Member "front F" :: Member "rear F" :: kart_axle_frame "front" ++ kart_axle_frame "rear")%list in
  let euler := (Member "total torque" :: Member "yaw rate" :: Member "velocity x" :: Member "velocity y" :: mass
                :: Member "x_com" :: Member "com velocity x dot" :: Member "com velocity y dot" :: Member "z"
                :: Member "phi" :: Member "dphi" :: Member "mu" :: Member "dmu" :: inertia)%list in
  (chassis_base_update r
   ++ [Set_ (Member "chassis frame origin") "chassis_car_6dof.hpp:106 x" [Member "x_com"; Member "z"];
       Set_ (Member "chassis frame velocity") "chassis_car_6dof.hpp:106 v" [Member "dz"]]
   ++ kart_axle_update false lateral_front "front" [Member "x_front_axle"; Member "mu"] [Member "x_front_axle"; Member "dmu"]
   ++ kart_axle_update true lateral_rear "rear" [Member "x_rear_axle"; Member "mu"] [Member "x_rear_axle"; Member "dmu"]
   ++ [Set_ (Member "total force") "chassis_car_6dof.hpp:125" axles;
       Set_ (Member "total force") "chassis_car_6dof.hpp:127" [Member "total force"; mass];
       Set_ (Member "total torque") "chassis_car_6dof.hpp:129" (Member "front T" :: Member "rear T" :: axles);
       Set_ (Member "total force") "chassis_car_6dof.hpp:135" (Member "total force" :: aerodynamic);
       Set_ (Member "total torque") "chassis_car_6dof.hpp:136" (Member "total torque" :: Member "chassis frame origin" :: aerodynamic);
       Set_ (Member "com velocity x") "chassis_car_6dof.hpp:141" [Member "velocity x"];
       Set_ (Member "com velocity y") "chassis_car_6dof.hpp:142" [Member "velocity y"];
       Set_ (Member "com velocity x dot") "chassis_car_6dof.hpp:144" (Member "total force" :: mass :: road_frame);
       Set_ (Member "com velocity y dot") "chassis_car_6dof.hpp:145" (Member "total force" :: mass :: road_frame);
       Set_ (Member "d2z") "chassis_car_6dof.hpp:146" (Member "total force" :: mass :: road_frame);
       Set_ (Member "d2phi") "chassis_car_6dof.hpp:151" euler;
       Set_ (Member "d2mu") "chassis_car_6dof.hpp:152" euler;
       Set_ (Member "yaw rate dot") "chassis_car_6dof.hpp:153" euler])%list.
(** models: Chassis_car_6dof::get_state_and_state_derivative, chassis/chassis_car_6dof.hpp:216-250. *)
Definition kart_chassis_get : program :=
  (kart_axle_get false "front" ++ kart_axle_get true "rear" ++ chassis_base_get
   ++ [Set_ (State "Z") "chassis_car_6dof.hpp:226" [Member "z"]; Set_ (Derivative "Z") "chassis_car_6dof.hpp:227" [Member "dz"];
       Set_ (State "PHI") "chassis_car_6dof.hpp:230" [Member "phi"]; Set_ (Derivative "PHI") "chassis_car_6dof.hpp:231" [Member "dphi"];
       Set_ (State "MU") "chassis_car_6dof.hpp:234" [Member "mu"]; Set_ (Derivative "MU") "chassis_car_6dof.hpp:235" [Member "dmu"];
       Set_ (State "DZDT") "chassis_car_6dof.hpp:240" [Member "dz"]; Set_ (Derivative "DZDT") "chassis_car_6dof.hpp:241" [Member "d2z"];
       Set_ (State "DPHIDT") "chassis_car_6dof.hpp:244" [Member "dphi"]; Set_ (Derivative "DPHIDT") "chassis_car_6dof.hpp:245" [Member "d2phi"];
       Set_ (State "DMUDT") "chassis_car_6dof.hpp:248" [Member "dmu"]; Set_ (Derivative "DMUDT") "chassis_car_6dof.hpp:249" [Member "d2mu"]])%list.
(** models: get_outputs_map of the kart: chassis/chassis_car_6dof.h:211-219, chassis/chassis.h:242-252. *)
Definition kart_outputs : program :=
  (chassis_outputs (kart_axle_frame "front") (kart_axle_frame "rear") [Member "front track"]
   ++ tire_outputs (kart_tire_frame "front" "left") "vehicle/front-tire/" "front left" "front-axle.left-tire"
   ++ tire_outputs (kart_tire_frame "front" "right") "vehicle/front-tire/" "front right" "front-axle.right-tire"
   ++ tire_outputs (kart_tire_frame "rear" "left") "vehicle/rear-tire/" "rear left" "rear-axle.left-tire"
   ++ tire_outputs (kart_tire_frame "rear" "right") "vehicle/rear-tire/" "rear right" "rear-axle.right-tire")%list.
(** models: optimal_laptime_extra_constraints of the kart, vehicles/lot2016kart.h:200-211; it has no
    integral quantities. *)
Definition kart_lap_quantities : program :=
  [Set_ (Output "constraint 0") "lot2016kart.h:204" [Member "rear left kappa"];
   Set_ (Output "constraint 1") "lot2016kart.h:205" [Member "rear right kappa"];
   Set_ (Output "constraint 2") "lot2016kart.h:206" [Member "front left lambda"];
   Set_ (Output "constraint 3") "lot2016kart.h:207" [Member "front right lambda"];
   Set_ (Output "constraint 4") "lot2016kart.h:208" [Member "rear left lambda"];
   Set_ (Output "constraint 5") "lot2016kart.h:209" [Member "rear right lambda"]].

(** *** The vehicles *)
(** The vehicle and what is fixed when it is built: the type of its tyres, and for the kart
    whether the engine gives the torque directly. *)
Inductive vehicle := F1 (lateral : bool) | Kart (lateral_front lateral_rear direct : bool).

(** models: lines (3)-(5) of Dynamic_model_car::operator(), vehicles/dynamic_model_car.hpp:65-101. *)
Definition dynamics (v : vehicle) (r : road) : program :=
  match v with
  | F1 lateral =>
      f1_chassis_set ++ road_set r ++ road_update r ++ f1_chassis_update r lateral
      ++ f1_chassis_get ++ road_get r
  | Kart lf lr direct =>
      kart_chassis_set direct ++ road_set r ++ road_update r ++ kart_chassis_update r lf lr
      ++ kart_chassis_get ++ road_get r
  end%list.
(** models: the loop (6) of operator(), vehicles/dynamic_model_car.hpp:103-105, over the elements of
    the array of derivatives. *)
Definition scale_derivatives (p : program) : program :=
  flat_map (fun i => match target i with
                     | Derivative d => [Set_ (Derivative d) "dynamic_model_car.hpp:105" [Derivative d; Member "road dtimeds"]]
                     | _ => []
                     end) p.
(** models: what is read from the car after an evaluation: get_outputs_map
    (vehicles/dynamic_model_car.h:162) and, on a track, the quantities of the lap. *)
Definition readings (v : vehicle) (r : road) : program :=
  (match v with F1 _ => f1_outputs | Kart _ _ _ => kart_outputs end
   ++ match r, v with
      | Curvilinear, F1 _ => f1_lap_quantities
      | Curvilinear, Kart _ _ _ => kart_lap_quantities
      | Cartesian, _ => []
      end)%list.
Definition body (v : vehicle) (r : road) : program :=
  (dynamics v r ++ scale_derivatives (dynamics v r) ++ readings v r)%list.
(** models: the loop (2) of operator() over the declared parameters, vehicles/dynamic_model_car.hpp:61-63. *)
Definition set_declared (declared : list string) : program :=
  map (fun p => Set_ (Param p) "dynamic_model_car.hpp:63" [Schedule p; Time]) declared.

Section Use.
Context {V : Type} (fn : string -> list V -> V).
(** The arguments of a call. *)
Record arguments := MkArguments { arg_input : string -> V; arg_control : string -> V; arg_time : V }.
(** The arguments are visible to the call only. *)
Definition with_arguments (a : arguments) (s : store) : store :=
  fun x => match x with
           | Input i => arg_input a i
           | Control i => arg_control a i
           | Time => arg_time a
           | _ => s x
           end.
(** models: Dynamic_model_car::operator(), vehicles/dynamic_model_car.hpp:51-108, followed by the
    readings. The arrays of the results are new in every call and not initialised (line 56): they
    keep here whatever is in the store. *)
Definition evaluate (v : vehicle) (r : road) (declared : list string) (a : arguments) (s : store) : store :=
  run fn (body v r) (run fn (set_declared declared) (with_arguments a s)).
(** models: Dynamic_model_car::set_parameter, vehicles/dynamic_model_car.hpp:33-48: the member, and
    all the values of the parameter when it was declared. *)
Definition set_parameter (declared : list string) (p : string) (x : V) (s : store) : store :=
  let s := update s (Param p) x in
  if existsb (String.eqb p) declared then update s (Schedule p) (fn "dynamic_model_car.hpp:46" [x]) else s.
(** What a user does with a car. *)
Inductive use := Evaluate (a : arguments) | SetParameter (p : string) (x : V).
Definition use_step (v : vehicle) (r : road) (declared : list string) (s : store) (u : use) : store :=
  match u with
  | Evaluate a => evaluate v r declared a s
  | SetParameter p x => set_parameter declared p x s
  end.
Definition uses (v : vehicle) (r : road) (declared : list string) (us : list use) (s : store) : store :=
  fold_left (use_step v r declared) us s.
End Use.
