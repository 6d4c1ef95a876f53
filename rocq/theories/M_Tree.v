(** Model of the parameter tree of the f1 car: routing of set_parameter through the
    chassis, axles, tyres, brakes and engines, the "used" flags behind is_ready, the
    xml dump and load, and the four copies of a car kept by the C API.
    Parameter values are exact rationals; the physics is in other files.  Side effects
    of set_parameter on derived quantities (frame origins, tyre position, initialise())
    are in M_Derived. *)
From Coq Require Import String QArith Bool Arith List.
From Verif Require Import M_Param.
Import ListNotations.
Local Open Scope string_scope.

(** One entry of a DECLARE_PARAMS list together with its entry of __used_parameters. *)
Record slot := MkSlot { sl_name : string; sl_value : Q; sl_used : bool }.
(** models: the parameters of one class, e.g. chassis/chassis.h:255-270. *)
Definition group := list slot.

(** models: lion ::set_parameter(get_parameters(), __used_parameters, parameter, path, value)
    as called in chassis/chassis.hpp:143 (lion is third party: assumed to write and flag the
    first entry with path + name == parameter and to return whether there is one). *)
Fixpoint lion_set (g : group) (path parameter : string) (value : Q) : group * bool :=
  match g with
  | [] => ([], false)
  | s :: rest =>
      if String.eqb (path ++ sl_name s) parameter
      then (MkSlot (sl_name s) value true :: rest, true)
      else let '(rest', found) := lion_set rest path parameter value in (s :: rest', found)
  end.

(** models: std::string::find(prefix) == 0. *)
Definition starts_with (pre s : string) : bool := String.prefix pre s.

(** models: actuators/brake.h:10-55 (parameters only). *)
Record brake := MkBrake { br_path : string; br_params : group }.
(** models: Brake::set_parameter, actuators/brake.h:32-40; [None] when it throws. *)
Definition brake_set (b : brake) (p : string) (v : Q) : option brake :=
  let '(g, found) := lion_set (br_params b) (br_path b) p v in
  if found then Some (MkBrake (br_path b) g) else None.

(** models: actuators/engine.h:10-67 (parameters only). *)
Record engine := MkEngine { en_path : string; en_params : group }.
(** models: Engine::set_parameter, actuators/engine.h:27-35; [None] when it throws. *)
Definition engine_set (e : engine) (p : string) (v : Q) : option engine :=
  let '(g, found) := lion_set (en_params e) (en_path e) p v in
  if found then Some (MkEngine (en_path e) g) else None.

(** models: the members of Tire, Tire_pacejka and Pacejka_simple_model holding parameters
    (tire/tire.h:166, tire/tire_pacejka.h:148 and 324) and Tire::_type (tire/tire.h:39). *)
Record tire := MkTire { ti_path : string; ti_only_lateral : bool;
                        ti_own : group; ti_model : group; ti_base : group }.
(** models: Tire::set_parameter, tire/tire.hpp:28-41. *)
Definition tire_base_set (t : tire) (p : string) (v : Q) : option tire :=
  if starts_with (ti_path t) p then
    let '(g, found) := lion_set (ti_base t) (ti_path t) p v in
    if found then Some (MkTire (ti_path t) (ti_only_lateral t) (ti_own t) (ti_model t) g) else None
  else None.
(** models: Tire_pacejka::set_parameter, tire/tire_pacejka.hpp:29-49. *)
Definition tire_set (t : tire) (p : string) (v : Q) : option tire :=
  if starts_with (ti_path t) p then
    let '(g, found) := lion_set (ti_own t) (ti_path t) p v in
    if found then Some (MkTire (ti_path t) (ti_only_lateral t) g (ti_model t) (ti_base t))
    else let '(g, found) := lion_set (ti_model t) (ti_path t) p v in
         if found then Some (MkTire (ti_path t) (ti_only_lateral t) (ti_own t) g (ti_base t))
         else tire_base_set t p v
  else None.

(** models: the members of Axle and Axle_car_3dof holding parameters (chassis/axle.h,
    chassis/axle_car_3dof.h:270-347). [ax_engines]: engine and boost of a POWERED axle,
    [None] for a STEERING one. *)
Record axle := MkAxle { ax_path : string; ax_own : group; ax_brakes : brake;
                        ax_engines : option (engine * engine); ax_left : tire; ax_right : tire }.
(** models: Axle::set_parameter, chassis/axle.hpp:113-140. Outer [None]: throws; the
    boolean is the returned "found". *)
Definition axle_base_set (a : axle) (p : string) (v : Q) : option (axle * bool) :=
  if negb (String.eqb (ti_path (ax_left a)) (ti_path (ax_right a))) then None
  else if starts_with (ti_path (ax_left a)) p then
    match tire_set (ax_left a) p v with
    | None => None
    | Some l =>
        match tire_set (ax_right a) p v with
        | None => None
        | Some r => Some (MkAxle (ax_path a) (ax_own a) (ax_brakes a) (ax_engines a) l r, true)
        end
    end
  else Some (a, false).
(** models: Axle_car_3dof::set_parameter, chassis/axle_car_3dof.hpp:118-174. *)
Definition axle_set (a : axle) (p : string) (v : Q) : option (axle * bool) :=
  if starts_with (ax_path a) p then
    let '(g, found) := lion_set (ax_own a) (ax_path a) p v in
    if found then Some (MkAxle (ax_path a) g (ax_brakes a) (ax_engines a) (ax_left a) (ax_right a), true)
    else if starts_with (ax_path a ++ "brakes/") p then
      option_map (fun b => (MkAxle (ax_path a) (ax_own a) b (ax_engines a) (ax_left a) (ax_right a), true))
                 (brake_set (ax_brakes a) p v)
    else match ax_engines a with
         | Some (e, b) =>
             if starts_with (ax_path a ++ "engine/") p then
               option_map (fun e' => (MkAxle (ax_path a) (ax_own a) (ax_brakes a) (Some (e', b))
                                             (ax_left a) (ax_right a), true)) (engine_set e p v)
             else if starts_with (ax_path a ++ "boost/") p then
               option_map (fun b' => (MkAxle (ax_path a) (ax_own a) (ax_brakes a) (Some (e, b'))
                                             (ax_left a) (ax_right a), true)) (engine_set b p v)
             else axle_base_set a p v
         | None => axle_base_set a p v
         end
  else axle_base_set a p v.

(** models: the members of Chassis and Chassis_car_3dof holding parameters
    (chassis/chassis.h:255-280, chassis/chassis_car_3dof.h:282-298). *)
Record chassis := MkChassis { ch_own : group; ch_base : group;
                              ch_north : Q; ch_east : Q; ch_front : axle; ch_rear : axle }.
Definition wind_north_path := "vehicle/chassis/aerodynamics/wind_velocity/northward".
Definition wind_east_path := "vehicle/chassis/aerodynamics/wind_velocity/eastward".
(** models: Chassis::set_parameter, chassis/chassis.hpp:135-173, with
    get_extra_parameters_map of chassis/chassis.h:272-279. *)
Definition chassis_base_set (c : chassis) (p : string) (v : Q) : option chassis :=
  if starts_with "vehicle/chassis/" p then
    let '(g, found) := lion_set (ch_base c) "vehicle/chassis/" p v in
    if found then Some (MkChassis (ch_own c) g (ch_north c) (ch_east c) (ch_front c) (ch_rear c))
    else if String.eqb p wind_north_path then
      Some (MkChassis (ch_own c) (ch_base c) v (ch_east c) (ch_front c) (ch_rear c))
    else if String.eqb p wind_east_path then
      Some (MkChassis (ch_own c) (ch_base c) (ch_north c) v (ch_front c) (ch_rear c))
    else None
  else
    match axle_set (ch_front c) p v with
    | None => None
    | Some (f, true) => Some (MkChassis (ch_own c) (ch_base c) (ch_north c) (ch_east c) f (ch_rear c))
    | Some (_, false) =>
        match axle_set (ch_rear c) p v with
        | None => None
        | Some (r, true) => Some (MkChassis (ch_own c) (ch_base c) (ch_north c) (ch_east c) (ch_front c) r)
        | Some (_, false) => None
        end
    end.
(** models: Chassis_car_3dof::set_parameter, chassis/chassis_car_3dof.hpp:69-95. *)
Definition chassis_set (c : chassis) (p : string) (v : Q) : option chassis :=
  if starts_with "vehicle/chassis/" p then
    let '(g, found) := lion_set (ch_own c) "vehicle/chassis/" p v in
    if found then Some (MkChassis g (ch_base c) (ch_north c) (ch_east c) (ch_front c) (ch_rear c))
    else chassis_base_set c p v
  else chassis_base_set c p v.

(** *** is_ready *)
(** models: std::all_of(__used_parameters...). *)
Definition all_used (g : group) : bool := forallb sl_used g.
(** models: tire/tire_pacejka.h:116-118 and tire/tire.h:142. *)
Definition tire_ready (t : tire) : bool :=
  all_used (ti_base t) && all_used (ti_own t) && all_used (ti_model t).
(** models: chassis/axle_car_3dof.h:255-256 and chassis/axle.hpp:151-162 (Axle itself has
    no parameters, chassis/axle.h:140). *)
Definition axle_ready (a : axle) : bool :=
  tire_ready (ax_left a) && tire_ready (ax_right a) && all_used (ax_own a).
(** models: chassis/chassis_car_3dof.h:223-224 and chassis/chassis.h:234-235. *)
Definition chassis_ready (c : chassis) : bool :=
  axle_ready (ch_front c) && axle_ready (ch_rear c) && all_used (ch_base c) && all_used (ch_own c).

(** *** Construction *)
(** models: chassis/chassis_car_3dof.h:282-298. *)
Definition names_chassis_own : list string :=
  ["com/x"; "com/y"; "com/z"; "front_axle/x"; "front_axle/y"; "front_axle/z";
   "rear_axle/x"; "rear_axle/y"; "rear_axle/z"; "pressure_center/x"; "pressure_center/y";
   "pressure_center/z"; "brake_bias"; "roll_balance_coefficient"; "Fz_max_ref2"].
(** models: chassis/chassis.h:255-270. *)
Definition names_chassis_base : list string :=
  ["mass"; "inertia/Ixx"; "inertia/Ixy"; "inertia/Ixz"; "inertia/Iyx"; "inertia/Iyy"; "inertia/Iyz";
   "inertia/Izx"; "inertia/Izy"; "inertia/Izz"; "aerodynamics/rho"; "aerodynamics/cd";
   "aerodynamics/cl"; "aerodynamics/area"].
(** models: chassis/axle_car_3dof.h:330-346. *)
Definition names_steering : list string := ["track"; "inertia"; "smooth_throttle_coeff"].
(** models: chassis/axle_car_3dof.h:310-328. *)
Definition names_powered : list string :=
  ["track"; "inertia"; "smooth_throttle_coeff"; "differential_stiffness"].
(** models: tire/tire_pacejka.h:148-152. *)
Definition names_tire_own : list string := ["radial-stiffness"; "radial-damping"; "Fz-max-ref2"].
(** models: tire/tire_pacejka.h:324-337. *)
Definition names_tire_model : list string :=
  ["reference-load-1"; "reference-load-2"; "mu-x-max-1"; "mu-x-max-2"; "mu-y-max-1"; "mu-y-max-2";
   "kappa-max-1"; "kappa-max-2"; "lambda-max-1"; "lambda-max-2"; "Qx"; "Qy"].
(** models: tire/tire.h:166-168. *)
Definition names_tire_base : list string := ["radius"].
(** models: actuators/brake.h:54. *)
Definition names_brake : list string := ["max_torque"].
(** models: actuators/engine.h:67. *)
Definition names_engine : list string := ["maximum-power"].

(** A group as it is before any parameter is given. [junk] supplies the initial contents of
    the members (0 for the initialised ones, unspecified for the others). *)
Definition empty_group (junk : string -> Q) (path : string) (names : list string) : group :=
  map (fun n => MkSlot n (junk (path ++ n)) false) names.
(** models: Tire_pacejka(name, path) and Tire(name, path), tire/tire.h:47-48. *)
Definition empty_tire (junk : string -> Q) (path : string) : tire :=
  MkTire path false (empty_group junk path names_tire_own) (empty_group junk path names_tire_model)
         (empty_group junk path names_tire_base).
(** models: chassis/axle_car_3dof.hpp:6-58 with STEERING. *)
Definition empty_steering (junk : string -> Q) (path tpath : string) : axle :=
  MkAxle path (empty_group junk path names_steering)
         (MkBrake (path ++ "brakes/") (empty_group junk (path ++ "brakes/") names_brake)) None
         (empty_tire junk tpath) (empty_tire junk tpath).
(** models: chassis/axle_car_3dof.hpp:6-58 with POWERED. *)
Definition empty_powered (junk : string -> Q) (path tpath : string) : axle :=
  MkAxle path (empty_group junk path names_powered)
         (MkBrake (path ++ "brakes/") (empty_group junk (path ++ "brakes/") names_brake))
         (Some (MkEngine (path ++ "engine/") (empty_group junk (path ++ "engine/") names_engine),
                MkEngine (path ++ "boost/") (empty_group junk (path ++ "boost/") names_engine)))
         (empty_tire junk tpath) (empty_tire junk tpath).
(** models: Chassis_car_3dof(), chassis/chassis_car_3dof.hpp:5-23 (create_vehicle_empty). The
    wind members are initialised to 0, chassis/chassis.h. *)
Definition empty_f1 (junk : string -> Q) : chassis :=
  MkChassis (empty_group junk "vehicle/chassis/" names_chassis_own)
            (empty_group junk "vehicle/chassis/" names_chassis_base) 0 0
            (empty_steering junk "vehicle/front-axle/" "vehicle/front-tire/")
            (empty_powered junk "vehicle/rear-axle/" "vehicle/rear-tire/").

(** *** Xml *)
(** A vehicle file: attributes of elements (element path, attribute name, text) and numeric
    elements. lion's Xml_document reduced to what is read and written here; numbers are
    written and parsed exactly. *)
Record xml := MkXml { xml_attributes : list (string * string * string);
                      xml_values : list (string * Q) }.
Fixpoint assoc {A} (l : list (string * A)) (k : string) : option A :=
  match l with
  | [] => None
  | (k', a) :: rest => if String.eqb k' k then Some a else assoc rest k
  end.
Fixpoint attribute (l : list (string * string * string)) (e a : string) : option string :=
  match l with
  | [] => None
  | (e', a', t) :: rest => if String.eqb e' e && String.eqb a' a then Some t else attribute rest e a
  end.

(** models: lion ::write_parameters(doc, path, get_parameters()). *)
Definition write_group (path : string) (g : group) : list (string * Q) :=
  map (fun s => (path ++ sl_name s, sl_value s)) g.
(** models: Tire_pacejka::fill_xml, tire/tire_pacejka.hpp:53-63 and tire/tire.h:62-65. *)
Definition tire_xml (t : tire) : list (string * Q) :=
  (write_group (ti_path t) (ti_base t) ++ write_group (ti_path t) (ti_own t)
   ++ write_group (ti_path t) (ti_model t))%list.
(** models: Axle_car_3dof::fill_xml, chassis/axle_car_3dof.hpp:178-195 and Axle::fill_xml,
    chassis/axle.hpp:143-147 (first tyre only). *)
Definition axle_xml (a : axle) : list (string * Q) :=
  (tire_xml (ax_left a) ++ write_group (br_path (ax_brakes a)) (br_params (ax_brakes a))
   ++ match ax_engines a with
      | Some (e, b) => write_group (en_path e) (en_params e) ++ write_group (en_path b) (en_params b)
      | None => []
      end
   ++ write_group (ax_path a) (ax_own a))%list.
(** models: Chassis_car_3dof::fill_xml, chassis/chassis_car_3dof.hpp:98-105 and
    Chassis::fill_xml, chassis/chassis.hpp:177-185. *)
Definition chassis_xml (c : chassis) : list (string * Q) :=
  (write_group "vehicle/chassis/" (ch_base c) ++ axle_xml (ch_front c) ++ axle_xml (ch_rear c)
   ++ write_group "vehicle/chassis/" (ch_own c))%list.
(** models: Dynamic_model_car::xml, vehicles/dynamic_model_car.h:150-158: the root element
    "vehicle" gets no attribute and neither do the others. *)
Definition save_xml (c : chassis) : xml := MkXml [] (chassis_xml c).

(** models: lion read_parameters(database, path, get_parameters(), __used_parameters):
    throws ([None]) when an element is missing. *)
Fixpoint read_group (d : xml) (path : string) (names : list string) : option group :=
  match names with
  | [] => Some []
  | n :: rest =>
      match assoc (xml_values d) (path ++ n), read_group d path rest with
      | Some v, Some g => Some (MkSlot n v true :: g)
      | _, _ => None
      end
  end.
(** models: Tire_pacejka(name, database, path), tire/tire_pacejka.hpp:8-27 and
    Tire(name, database, path), tire/tire.hpp:8-25. lion's get_attribute throws for a missing
    attribute. *)
Definition read_tire (d : xml) (path : string) : option tire :=
  match attribute (xml_attributes d) path "type" with
  | None => None
  | Some ty =>
      match read_group d path names_tire_base, read_group d path names_tire_own,
            read_group d path names_tire_model with
      | Some b, Some o, Some m => Some (MkTire path (String.eqb ty "only lateral") o m b)
      | _, _, _ => None
      end
  end.
Definition read_brake (d : xml) (path : string) : option brake :=
  option_map (MkBrake path) (read_group d path names_brake).
(** models: Engine(database, path, true), actuators/engine.hpp:6-15. *)
Definition read_engine (d : xml) (path : string) : option engine :=
  option_map (MkEngine path) (read_group d path names_engine).
(** models: Axle_car_3dof(name, l, r, database, path), chassis/axle_car_3dof.hpp:61-115. *)
Definition read_steering (d : xml) (path tpath : string) : option axle :=
  match read_tire d tpath, read_group d path names_steering, read_brake d (path ++ "brakes/") with
  | Some t, Some o, Some b => Some (MkAxle path o b None t t)
  | _, _, _ => None
  end.
Definition read_powered (d : xml) (path tpath : string) : option axle :=
  match read_tire d tpath, read_group d path names_powered, read_brake d (path ++ "brakes/"),
        read_engine d (path ++ "engine/"), read_engine d (path ++ "boost/") with
  | Some t, Some o, Some b, Some e, Some s => Some (MkAxle path o b (Some (e, s)) t t)
  | _, _, _, _, _ => None
  end.
(** models: Chassis_car_3dof(database), chassis/chassis_car_3dof.hpp:25-59. *)
Definition read_f1 (d : xml) : option chassis :=
  match read_steering d "vehicle/front-axle/" "vehicle/front-tire/",
        read_powered d "vehicle/rear-axle/" "vehicle/rear-tire/",
        read_group d "vehicle/chassis/" names_chassis_base,
        read_group d "vehicle/chassis/" names_chassis_own with
  | Some f, Some r, Some b, Some o => Some (MkChassis o b 0 0 f r)
  | _, _, _, _ => None
  end.
(** models: create_vehicle_from_xml, main/c/fastestlapc.cpp:103-142, for the f1: the type
    attribute of the root must be "f1-3dof". *)
Definition create_f1_from_xml (d : xml) : option chassis :=
  match attribute (xml_attributes d) "vehicle/" "type" with
  | Some ty => if String.eqb ty "f1-3dof" then read_f1 d else None
  | None => None
  end.

(** *** One representation of a car *)
(** models: Dynamic_model_car: the chassis and the declared parameters
    (vehicles/dynamic_model_car.h, vehicles/dynamic_model.h). *)
Record car := MkCar { car_chassis : chassis; car_params : list parameter }.

(** models: std::fill on the first declared parameter with that path,
    vehicles/dynamic_model_car.hpp:43-46. *)
Fixpoint fill_param (ps : list parameter) (p : string) (v : Q) : list parameter :=
  match ps with
  | [] => []
  | q :: rest =>
      if String.eqb (par_path q) p then with_values q (map (fun _ => v) (par_values q)) :: rest
      else q :: fill_param rest p v
  end.
(** models: Dynamic_model_car::set_parameter, vehicles/dynamic_model_car.hpp:33-48. *)
Definition car_set (c : car) (p : string) (v : Q) : option car :=
  match chassis_set (car_chassis c) p v with
  | None => None
  | Some ch => Some (MkCar ch (fill_param (car_params c) p v))
  end.
(** models: Dynamic_model::add_parameter, vehicles/dynamic_model.h:15-25. *)
Definition car_add (c : car) (a : add_call) : option car :=
  option_map (MkCar (car_chassis c)) (add_parameter (car_params c) (call_path a) (call_make a)).

(** models: the loop of Dynamic_model_car::operator(), vehicles/dynamic_model_car.hpp:59-61: the
    declared parameters, evaluated at [s], overwrite the parameters of the chassis. The
    boolean tells whether the loop completed (false: it threw part way). *)
Fixpoint apply_params (ch : chassis) (ps : list parameter) (s : Q) : chassis * bool :=
  match ps with
  | [] => (ch, true)
  | q :: rest =>
      match par_eval q s with
      | None => (ch, false)
      | Some v => match chassis_set ch (par_path q) v with
                  | None => (ch, false)
                  | Some ch' => apply_params ch' rest s
                  end
      end
  end.
Definition car_evaluate (c : car) (s : Q) : car * bool :=
  let '(ch, ok) := apply_params (car_chassis c) (car_params c) s in (MkCar ch (car_params c), ok).

(** *** The four representations *)
(** models: struct limebeer2014f1_all, vehicles/limebeer2014f1.h:326-377. *)
Record f1_all := MkF1 { cartesian_scalar : car; curvilinear_scalar : car;
                        cartesian_ad : car; curvilinear_ad : car }.
(** Run the four updates one after the other; an exception keeps the ones already made. *)
Definition all_four (f : car -> option car) (a : f1_all) : f1_all :=
  match f (cartesian_scalar a) with
  | None => a
  | Some c1 =>
      match f (curvilinear_scalar a) with
      | None => MkF1 c1 (curvilinear_scalar a) (cartesian_ad a) (curvilinear_ad a)
      | Some c2 =>
          match f (cartesian_ad a) with
          | None => MkF1 c1 c2 (cartesian_ad a) (curvilinear_ad a)
          | Some c3 =>
              match f (curvilinear_ad a) with
              | None => MkF1 c1 c2 c3 (curvilinear_ad a)
              | Some c4 => MkF1 c1 c2 c3 c4
              end
          end
      end
  end.
Inductive which := CartesianScalar | CurvilinearScalar | CartesianAd | CurvilinearAd.
Definition get_rep (a : f1_all) (w : which) : car :=
  match w with
  | CartesianScalar => cartesian_scalar a | CurvilinearScalar => curvilinear_scalar a
  | CartesianAd => cartesian_ad a | CurvilinearAd => curvilinear_ad a
  end.
Definition set_rep (a : f1_all) (w : which) (c : car) : f1_all :=
  match w with
  | CartesianScalar => MkF1 c (curvilinear_scalar a) (cartesian_ad a) (curvilinear_ad a)
  | CurvilinearScalar => MkF1 (cartesian_scalar a) c (cartesian_ad a) (curvilinear_ad a)
  | CartesianAd => MkF1 (cartesian_scalar a) (curvilinear_scalar a) c (curvilinear_ad a)
  | CurvilinearAd => MkF1 (cartesian_scalar a) (curvilinear_scalar a) (cartesian_ad a) c
  end.
(** What a caller can do to a vehicle of the table: vehicle_set_parameter
    (fastestlapc.cpp:907-926), vehicle_declare_new_*_parameter (928-984), or any computation
    that evaluates one of the representations. Exceptions are caught by the API. *)
Inductive f1_op :=
| SetParameter (p : string) (v : Q)
| Declare (a : add_call)
| Evaluate (w : which) (s : Q).
Definition f1_step (a : f1_all) (o : f1_op) : f1_all :=
  match o with
  | SetParameter p v => all_four (fun c => car_set c p v) a
  | Declare d => all_four (fun c => car_add c d) a
  | Evaluate w s => set_rep a w (fst (car_evaluate (get_rep a w) s))
  end.
Definition f1_run (a : f1_all) (os : list f1_op) : f1_all := fold_left f1_step os a.
(** A freshly created vehicle: four times the same car without declared parameters. *)
Definition f1_new (ch : chassis) : f1_all :=
  MkF1 (MkCar ch []) (MkCar ch []) (MkCar ch []) (MkCar ch []).
