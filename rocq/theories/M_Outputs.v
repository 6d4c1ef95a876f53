(** Model of the names of a vehicle: the map of its outputs (tire/tire.h, chassis/axle.h, chassis/chassis.h and their
    subclasses), the names of its inputs and controls and the quantities that are set from them, and the calls of the C library
    that publish them (main/c/fastestlapc.cpp). Real numbers instead of doubles. *)
From Coq Require Import Reals String Arith List Permutation QArith.
From Verif Require Import M_Vec M_Tire M_Car M_Vehicle M_Controls M_Options.
Import ListNotations.
Local Open Scope string_scope.
Local Open Scope list_scope.

(** ** Maps *)

(** models: std::unordered_map<std::string,Timeseries_t>, as the list of its entries. The order of iteration is not specified:
    the calls below take any permutation of the entries. *)
Definition out_map := list (string * R).
Definition find (m : out_map) (name : string) : option R :=
  option_map snd (List.find (fun e => String.eqb (fst e) name) m).
(** models: insert of one entry: an entry with the same key is kept. *)
Definition insert1 (m : out_map) (e : string * R) : out_map :=
  match find m (fst e) with Some _ => m | None => m ++ [e] end.
(** models: insert of a range; construction from a list of entries. *)
Definition insert (m : out_map) (l : list (string * R)) : out_map := fold_left insert1 l m.
Definition of_list (l : list (string * R)) : out_map := insert [] l.

(** ** Vehicle *)

(** What a tyre reads from its frame and its members for its outputs: position and rotation matrices of its frame, radius and
    the state of M_Tire. *)
Record tyre := Tyre { y_position : vec; y_rotation : mat; y_absolute : mat; y_radius : R; y_state : tire_state }.

(** The same for the chassis. [h_yaw], [h_pitch], [h_roll] and [h_heading] are the four angles of the frame of the road, [h_Q] its
    absolute rotation matrix, [h_velocity] its absolute velocity in body axes. *)
Record body := Body {
  h_u : R; h_v : R; h_mass : R; h_force : vec; h_torque : vec; h_yaw_acceleration : R; h_origin : vec;
  h_yaw : R; h_pitch : R; h_roll : R; h_heading : R; h_indicator : R; h_aero : aero_data; h_Q : mat; h_velocity : vec
}.

Record vehicle := Vehicle { v_body : body; v_fl : tyre; v_fr : tyre; v_rl : tyre; v_rr : tyre }.

(** models: the angles of _road_frame, chassis.hpp:10 and 127-130. *)
Definition road_angles (b : body) : list R := [h_yaw b; h_pitch b; h_roll b; h_heading b].

(** models: Tire::get_outputs_map_self, tire.h:170-196. *)
Definition tire_outputs_self (name : string) (t : tyre) : out_map :=
  let absolute_force := mapply (y_absolute t) (t_F (y_state t)) in
  let car_body_velocity := mapply (y_rotation t) (t_v (y_state t)) in
  of_list
  [ (name ++ ".position.x", vx (y_position t));
    (name ++ ".position.y", vy (y_position t));
    (name ++ ".position.z", vz (y_position t));
    (name ++ ".velocity.x", vx (t_v (y_state t)));
    (name ++ ".velocity.y", vy (t_v (y_state t)));
    (name ++ ".velocity.z", vz (t_v (y_state t)));
    (name ++ ".velocity.car_frame.x", vx car_body_velocity);
    (name ++ ".velocity.car_frame.y", vy car_body_velocity);
    (name ++ ".velocity.car_frame.z", vz car_body_velocity);
    (name ++ ".lambda", t_lambda (y_state t));
    (name ++ ".true_kappa", t_kappa (y_state t));
    (name ++ ".dissipation", dissipation (y_radius t) (y_state t));
    (name ++ ".force.x", vx (t_F (y_state t)));
    (name ++ ".force.y", vy (t_F (y_state t)));
    (name ++ ".force.z", vz (t_F (y_state t)));
    (name ++ ".force.inertial.x", vx absolute_force);
    (name ++ ".force.inertial.y", vy absolute_force);
    (name ++ ".force.inertial.z", vz absolute_force);
    (name ++ ".omega", t_omega (y_state t)) ]%string.

(** models: Tire_pacejka::get_outputs_map, tire_pacejka.h:120-128, with its own empty map, 154-159. *)
Definition tire_outputs (name : string) (t : tyre) : out_map := insert (of_list []) (tire_outputs_self name t).

(** models: Axle::get_outputs_map, axle.h:120-134 and 142-147, with two tyres. *)
Definition axle_outputs (n0 n1 : string) (t0 t1 : tyre) : out_map :=
  insert (insert (of_list []) (tire_outputs n0 t0)) (tire_outputs n1 t1).

(** models: get_outputs_map of the axles of the cars, axle_car_3dof.h:262-270 and axle_car_6dof.h:311-319, whose own maps are
    empty. *)
Definition axle_car_outputs (n0 n1 : string) (t0 t1 : tyre) : out_map := insert (of_list []) (axle_outputs n0 n1 t0 t1).

(** models: get_name, chassis.h:239. *)
Definition chassis_name : string := "chassis".

(** models: Chassis::get_outputs_map_self, chassis.h:282-309. *)
Definition chassis_outputs_self (b : body) : out_map :=
  let name := chassis_name in
  let drag := drag_force (h_aero b) (h_Q b) (h_velocity b) in
  let lift := lift_force (h_aero b) (h_Q b) (h_velocity b) in
  let wind := wind_velocity (h_aero b) (h_Q b) in
  let aero := aerodynamic_velocity (h_aero b) (h_Q b) (h_velocity b) in
  of_list
  [ (name ++ ".acceleration.x", longitudinal_acceleration (h_u b) (h_v b) (h_mass b) (h_force b));
    (name ++ ".acceleration.y", lateral_acceleration (h_u b) (h_v b) (h_mass b) (h_force b));
    (name ++ ".force.x", vx (h_force b));
    (name ++ ".force.y", vy (h_force b));
    (name ++ ".force.z", vz (h_force b));
    (name ++ ".torque.x", vx (h_torque b));
    (name ++ ".torque.y", vy (h_torque b));
    (name ++ ".torque.z", vz (h_torque b));
    (name ++ ".acceleration.yaw", h_yaw_acceleration b);
    (name ++ ".position.x", vx (h_origin b));
    (name ++ ".position.y", vy (h_origin b));
    (name ++ ".attitude.yaw", (hd 0 (road_angles b) + last (road_angles b) 0)%R);
    (name ++ ".understeer_oversteer_indicator", h_indicator b);
    (name ++ ".aerodynamics.cd", ae_cd (h_aero b));
    (name ++ ".aerodynamics.lift", vz lift);
    (name ++ ".aerodynamics.drag", norm drag);
    (name ++ ".aerodynamics.drag.x", vx drag);
    (name ++ ".aerodynamics.drag.y", vy drag);
    (name ++ ".aerodynamics.wind_velocity_body.x", vx wind);
    (name ++ ".aerodynamics.wind_velocity_body.y", vy wind);
    (name ++ ".aerodynamics.aerodynamic_velocity.x", vx aero);
    (name ++ ".aerodynamics.aerodynamic_velocity.y", vy aero) ]%string.

(** The names of the tyres. *)
Record tyre_names := TyreNames { n_fl : string; n_fr : string; n_rl : string; n_rr : string }.

(** models: Chassis::get_outputs_map, chassis.h:242-252. *)
Definition chassis_outputs (n : tyre_names) (v : vehicle) : out_map :=
  insert (insert (chassis_outputs_self (v_body v)) (axle_car_outputs (n_fl n) (n_fr n) (v_fl v) (v_fr v)))
         (axle_car_outputs (n_rl n) (n_rr n) (v_rl v) (v_rr v)).

(** models: get_outputs_map of the chassis of the cars, chassis_car_3dof.h:228-236 and chassis_car_6dof.h:211-219, whose own maps
    are empty, and of the vehicle, dynamic_model_car.h:162. *)
Definition outputs_map (n : tyre_names) (v : vehicle) : out_map := insert (of_list []) (chassis_outputs n v).

(** The constructors: of each class of vehicle, without and with a database. *)
Inductive built := Default3 | Database3 | Default6 | Database6.
(** models: chassis_car_3dof.hpp:5-15 and 44-57, chassis_car_6dof.hpp:7-17 and 54-66. *)
Definition names_of (k : built) : tyre_names :=
  match k with
  | Default3 => TyreNames "front-axle.left-tire" "front-axle.right-tire" "rear-axle.left-tire" "rear-axle.right-tire"
  | Database3 => TyreNames "front-axle.left-tire" "front-axle.right-tire" "rear-axle.left-tire" "rear-axle.right-tire"
  | Default6 => TyreNames "front-axle.left-tire" "front-axle.right-tire" "rear-axle.left-tire" "rear-axle.right-tire"
  | Database6 => TyreNames "front-axle.left-tire" "front-axle.right-tire" "rear-axle.left-tire" "rear-axle.right-tire"
  end.

(** ** Calls *)

(** models: vehicle_get_property_generic, fastestlapc.cpp:390-410, after the evaluation of the vehicle; [m] is its map. *)
Definition get_output (m : out_map) (name : string) : res R :=
  match find m name with Some x => Ok x | None => Throw end.

(** models: the number of outputs of vehicle_type_get_sizes, fastestlapc.cpp:696-719. *)
Definition number_of_outputs (m : out_map) : nat := length m.
(** models: the names of the outputs, in the order of iteration, fastestlapc.cpp:744-751 and 1223-1225. *)
Definition output_names (m : out_map) : list string := map fst m.

(** ** Inputs and controls *)

(** models: std::array<std::string,n>, of empty strings until assigned; assignments in order. *)
Definition name_array (n : nat) (ws : list (nat * string)) : list string :=
  fold_left (fun a w => set_at a (fst w) (snd w)) ws (repeat "" n).

(** models: the names given by Axle_car_3dof, axle_car_3dof.hpp:308-330: positions of the kappas, and of the steering of a
    steering axle or of the boost of a powered one. *)
Definition axle3_inputs (axle : string) (left right : nat) : list (nat * string) :=
  [(left, axle ++ ".left-tire.kappa"); (right, axle ++ ".right-tire.kappa")]%string.
Definition steering_name (axle : string) : string := axle ++ ".steering-angle".
Definition boost_name (axle : string) : string := axle ++ ".boost".
(** models: the names given by Axle_car_6dof, axle_car_6dof.hpp:262-282. *)
Definition axle6_inputs (axle : string) (omega : nat) : list (nat * string) := [(omega, axle ++ ".omega")]%string.
Definition throttle_name (axle : string) : string := axle ++ ".throttle".
(** models: the names given by Chassis, chassis.hpp:359-373. *)
Definition chassis_inputs (u v w : nat) : list (nat * string) :=
  [(u, chassis_name ++ ".velocity.x"); (v, chassis_name ++ ".velocity.y"); (w, chassis_name ++ ".omega.z")]%string.
(** models: the names given by Chassis_car_3dof, chassis_car_3dof.hpp:253-267. *)
Definition chassis3_inputs : list (nat * string) :=
  [(f1_force_z_fl, chassis_name ++ ".force_z_fl_g"); (f1_force_z_fr, chassis_name ++ ".force_z_fr_g");
   (f1_force_z_rl, chassis_name ++ ".force_z_rl_g"); (f1_force_z_rr, chassis_name ++ ".force_z_rr_g")]%string.
Definition chassis3_controls : list (nat * string) :=
  [(f1_throttle, chassis_name ++ ".throttle"); (f1_brake_bias, chassis_name ++ ".brake-bias")]%string.
(** models: the names given by Chassis_car_6dof, chassis_car_6dof.hpp:261-278. *)
Definition chassis6_inputs : list (nat * string) :=
  [(kart_Z, "chassis.position.z"); (kart_PHI, "chassis.attitude.phi"); (kart_MU, "chassis.attitude.mu");
   (kart_DZDT, "chassis.velocity.z"); (kart_DPHIDT, "chassis.omega.x"); (kart_DMUDT, "chassis.omega.y")].
(** models: the names given by Road_curvilinear, road_curvilinear.hpp:86-99, with the key. *)
Definition road_key : string := "road.arclength".
Definition road_inputs (t n alpha : nat) : list (nat * string) :=
  [(t, "time"); (n, "road.lateral-displacement"); (alpha, "road.track-heading-angle")].

(** models: get_state_and_control_names, dynamic_model_car.hpp:206-216: the road, then the chassis: axles, chassis, chassis of
    the car. *)
Definition f1_input_names : list string :=
  name_array f1_number_of_inputs
    (road_inputs f1_X f1_Y f1_PSI ++ axle3_inputs "front-axle" f1_KAPPA_FL f1_KAPPA_FR ++
     axle3_inputs "rear-axle" f1_KAPPA_RL f1_KAPPA_RR ++ chassis_inputs f1_velocity_x f1_velocity_y f1_yaw_rate ++
     chassis3_inputs).
Definition f1_control_names : list string :=
  name_array f1_number_of_controls
    ((f1_STEERING, steering_name "front-axle") :: (f1_boost, boost_name "rear-axle") :: chassis3_controls).
Definition kart_input_names : list string :=
  name_array kart_number_of_inputs
    (road_inputs kart_X kart_Y kart_PSI ++ axle6_inputs "rear-axle" kart_OMEGA_AXLE ++
     chassis_inputs kart_velocity_x kart_velocity_y kart_yaw_rate ++ chassis6_inputs).
Definition kart_control_names : list string :=
  name_array kart_number_of_controls
    [(kart_STEERING, steering_name "front-axle"); (kart_TORQUE, throttle_name "rear-axle")].

(** What an evaluation takes from its inputs and its controls. The loads and the slips are scaled afterwards (M_Car). *)
Record f1_set := F1Set {
  f_kappa_fl : option R; f_kappa_fr : option R; f_kappa_rl : option R; f_kappa_rr : option R;
  f_u : option R; f_v : option R; f_yaw_rate : option R;
  f_load_fl : option R; f_load_fr : option R; f_load_rl : option R; f_load_rr : option R;
  f_time : option R; f_displacement : option R; f_heading : option R;
  f_steering : option R; f_boost_control : option R; f_throttle_control : option R; f_bias : option R
}.
(** models: set_state_and_controls of the road, road_curvilinear.hpp:48-58, of the axles, axle_car_3dof.hpp:341-359, of the
    chassis, chassis.hpp:348-354, and of the chassis of the car, chassis_car_3dof.hpp:283-300. *)
Definition f1_set_state (q u : list R) : f1_set :=
  {| f_time := nth_error q f1_X; f_displacement := nth_error q f1_Y; f_heading := nth_error q f1_PSI;
     f_kappa_fl := nth_error q f1_KAPPA_FL; f_kappa_fr := nth_error q f1_KAPPA_FR;
     f_kappa_rl := nth_error q f1_KAPPA_RL; f_kappa_rr := nth_error q f1_KAPPA_RR;
     f_steering := nth_error u f1_STEERING; f_boost_control := nth_error u f1_boost;
     f_u := nth_error q f1_velocity_x; f_v := nth_error q f1_velocity_y; f_yaw_rate := nth_error q f1_yaw_rate;
     f_throttle_control := nth_error u f1_throttle; f_bias := nth_error u f1_brake_bias;
     f_load_fl := nth_error q f1_force_z_fl; f_load_fr := nth_error q f1_force_z_fr;
     f_load_rl := nth_error q f1_force_z_rl; f_load_rr := nth_error q f1_force_z_rr |}.

Record kart_set := KartSet {
  k_axle_speed : option R; k_u : option R; k_v : option R; k_yaw_rate : option R;
  k_z : option R; k_phi : option R; k_mu : option R; k_dz : option R; k_dphi : option R; k_dmu : option R;
  k_time : option R; k_displacement : option R; k_heading : option R; k_steering : option R; k_throttle : option R
}.
(** models: the same for the kart, axle_car_6dof.hpp:288-304 and chassis_car_6dof.hpp:294-311. *)
Definition kart_set_state (q u : list R) : kart_set :=
  {| k_time := nth_error q kart_X; k_displacement := nth_error q kart_Y; k_heading := nth_error q kart_PSI;
     k_throttle := nth_error u kart_TORQUE; k_axle_speed := nth_error q kart_OMEGA_AXLE; k_steering := nth_error u kart_STEERING;
     k_u := nth_error q kart_velocity_x; k_v := nth_error q kart_velocity_y; k_yaw_rate := nth_error q kart_yaw_rate;
     k_z := nth_error q kart_Z; k_phi := nth_error q kart_PHI; k_mu := nth_error q kart_MU;
     k_dz := nth_error q kart_DZDT; k_dphi := nth_error q kart_DPHIDT; k_dmu := nth_error q kart_DMUDT |}.

(** models: the names of the kart (curvilinear) with the defaults of fastestlapc.cpp:1414-1440 and the integral quantities of
    lot2016kart.h:214-219; see f1_info of M_Options. *)
Definition kart_info (outputs : list string) (ql qu ul uu : list Q) : vehicle_info :=
  VehicleInfo road_key kart_input_names kart_control_names outputs [] false ["full-mesh"; "full-mesh"]
    [1#100; 4#1000000]%Q ql qu ul uu.
