(** Model of the parameter tree of the kart: reading a vehicle file, set_parameter as
    inherited from the base classes, the "used" flags behind is_ready, the xml dump, and the
    four copies kept by the C API.  The f1 is in M_Tree, whose groups, tyres, brakes, engines
    and files are shared.  Parameter values are exact rationals; the physics is in other files. *)
From Coq Require Import String QArith Bool Arith List.
From Verif Require Import M_Param M_Tree.
Import ListNotations.
Local Open Scope string_scope.

(** models: Vector3d parameters of DECLARE_PARAMS, chassis/chassis_car_6dof.h. *)
Definition vector : Set := Q * Q * Q.
(** One vector entry of a DECLARE_PARAMS list with its entry of __used_parameters. *)
Record vslot := MkVslot { vs_name : string; vs_value : vector; vs_used : bool }.
(** A kart file: the elements with one number and the attributes, as for the f1, and the
    elements holding three numbers, such as <com>0.0 0.0 -0.25</com>. *)
Record kart_file := MkKartFile { kf_xml : xml; kf_vectors : list (string * vector) }.

(** models: lion Xml_document::has_element(path) (third party: assumed to tell whether there
    is such an element).  Simplified: an element is present when a number is given below it or
    an attribute on it; an empty element without attributes is not represented. *)
Definition has_element (d : xml) (path : string) : bool :=
  existsb (fun e => starts_with path (fst e)) (xml_values d)
  || existsb (fun a => String.eqb (fst (fst a)) path) (xml_attributes d).

(** models: chassis/axle_car_6dof.h:366-375, STEERING_FREE_ROLL. *)
Definition names_kart_front : list string :=
  ["track"; "stiffness/chassis"; "stiffness/antiroll"; "beta-steering/left"; "beta-steering/right"].
(** models: chassis/axle_car_6dof.h:354-364, POWERED_WITHOUT_DIFFERENTIAL. *)
Definition names_kart_rear : list string :=
  ["track"; "stiffness/chassis"; "stiffness/antiroll"; "inertia"; "smooth_throttle_coeff"].
(** models: Pacejka_standard_model, tire/tire_pacejka.h:219-238. *)
Definition names_kart_model : list string :=
  ["nominal-vertical-load"; "lambdaFz0"; "longitudinal/pure/pCx1"; "longitudinal/pure/pDx1";
   "longitudinal/pure/pEx1"; "longitudinal/pure/pKx1"; "longitudinal/pure/pKx2"; "longitudinal/pure/pKx3";
   "lateral/pure/pCy1"; "lateral/pure/pDy1"; "lateral/pure/pEy1"; "lateral/pure/pKy1"; "lateral/pure/pKy2";
   "lateral/pure/pKy4"; "longitudinal/combined/rBx1"; "longitudinal/combined/rCx1";
   "lateral/combined/rBy1"; "lateral/combined/rCy1"].
(** models: DECLARE_PARAMS of chassis/chassis_car_6dof.h. *)
Definition names_kart_chassis : list string := ["com"; "front_axle"; "rear_axle"].

(** models: the members of Axle and Axle_car_6dof holding parameters (chassis/axle.h,
    chassis/axle_car_6dof.h:330-375).  [kx_engine] and [kx_brakes]: [None] while the member is
    default-constructed (always so for the front axle). *)
Record kart_axle := MkKartAxle { kx_path : string; kx_own : group; kx_engine : option engine;
                                 kx_brakes : option brake; kx_left : tire; kx_right : tire }.
(** models: the members of Chassis and Chassis_car_6dof holding parameters
    (chassis/chassis.h:255-280, chassis/chassis_car_6dof.h). *)
Record kart := MkKart { kt_own : list vslot; kt_base : group; kt_north : Q; kt_east : Q;
                        kt_front : kart_axle; kt_rear : kart_axle }.

(** *** Reading *)
(** models: Tire_pacejka(name, database, path), tire/tire_pacejka.hpp:8-27 and
    Tire(name, database, path), tire/tire.hpp:8-25, with Pacejka_standard_model. *)
Definition read_kart_tire (d : xml) (path : string) : option tire :=
  match attribute (xml_attributes d) path "type" with
  | None => None
  | Some ty =>
      match read_group d path names_tire_base, read_group d path names_tire_own,
            read_group d path names_kart_model with
      | Some b, Some o, Some m => Some (MkTire path (String.eqb ty "only lateral") o m b)
      | _, _, _ => None
      end
  end.
(** models: Axle_car_6dof(name, l, r, database, path) with STEERING_FREE_ROLL,
    chassis/axle_car_6dof.hpp:49-98. *)
Definition read_kart_front (d : xml) (path tpath : string) : option kart_axle :=
  match read_kart_tire d tpath, read_group d path names_kart_front with
  | Some t, Some o => Some (MkKartAxle path o None None t t)
  | _, _ => None
  end.
(** models: "if ( database.has_element(path) ) member = Member(database, path)" of
    chassis/axle_car_6dof.hpp:75-79.  Outer [None]: the constructor of the member throws. *)
Definition read_if_present {A} (d : xml) (path : string) (read : xml -> string -> option A)
  : option (option A) :=
  if has_element d path then
    match read d path with Some a => Some (Some a) | None => None end
  else Some None.
(** models: the same constructor with POWERED_WITHOUT_DIFFERENTIAL. *)
Definition read_kart_rear (d : xml) (path tpath : string) : option kart_axle :=
  match read_kart_tire d tpath, read_group d path names_kart_rear,
        read_if_present d (path ++ "engine/") read_engine,
        read_if_present d (path ++ "brakes/") read_brake with
  | Some t, Some o, Some e, Some b => Some (MkKartAxle path o e b t t)
  | _, _, _, _ => None
  end.
(** models: lion read_parameters on vector parameters; throws ([None]) when one is missing. *)
Fixpoint read_vectors (d : list (string * vector)) (path : string) (names : list string)
  : option (list vslot) :=
  match names with
  | [] => Some []
  | n :: rest =>
      match assoc d (path ++ n), read_vectors d path rest with
      | Some v, Some g => Some (MkVslot n v true :: g)
      | _, _ => None
      end
  end.
(** models: Chassis_car_6dof(database), chassis/chassis_car_6dof.hpp:31-66, and the base
    constructor (chassis/chassis.hpp); the wind members start at 0, chassis/chassis.h. *)
Definition read_kart (d : kart_file) : option kart :=
  match read_kart_front (kf_xml d) "vehicle/front-axle/" "vehicle/front-tire/",
        read_kart_rear (kf_xml d) "vehicle/rear-axle/" "vehicle/rear-tire/",
        read_group (kf_xml d) "vehicle/chassis/" names_chassis_base,
        read_vectors (kf_vectors d) "vehicle/chassis/" names_kart_chassis with
  | Some f, Some r, Some b, Some o => Some (MkKart o b 0 0 f r)
  | _, _, _, _ => None
  end.
(** models: create_vehicle_from_xml, main/c/fastestlapc.cpp:103-142, for the kart. *)
Definition create_kart_from_xml (d : kart_file) : option kart :=
  match attribute (xml_attributes (kf_xml d)) "vehicle/" "type" with
  | Some ty => if String.eqb ty "kart-6dof" then read_kart d else None
  | None => None
  end.

(** *** is_ready *)
(** models: chassis/axle_car_6dof.h:308-309 and chassis/axle.hpp:151-162. *)
Definition kart_axle_ready (a : kart_axle) : bool :=
  tire_ready (kx_left a) && tire_ready (kx_right a) && all_used (kx_own a).
(** models: chassis/chassis_car_6dof.h:206-207 and chassis/chassis.h:234-235. *)
Definition kart_ready (k : kart) : bool :=
  kart_axle_ready (kt_front k) && kart_axle_ready (kt_rear k) && all_used (kt_base k)
  && forallb vs_used (kt_own k).

(** *** The engine *)
(** models: Engine::operator(), actuators/engine.hpp:35-62: a default-constructed engine has
    _direct_torque set (actuators/engine.h), one read from a file has only_max_power.  The
    power curve (only_max_power = false) is not reachable from the axles. *)
Definition engine_torque (e : option engine) (throttle speed : Q) : Q :=
  match e with
  | None => throttle
  | Some e =>
      let power := match en_params e with s :: _ => sl_value s | [] => 0%Q end in
      throttle * (power * 1000) / speed
  end.

(** *** set_parameter *)
(** models: Axle::set_parameter, chassis/axle.hpp:113-140 (Axle_car_6dof has none of its own).
    Outer [None]: throws; the boolean is the returned "found". *)
Definition kart_axle_set (a : kart_axle) (p : string) (v : Q) : option (kart_axle * bool) :=
  if negb (String.eqb (ti_path (kx_left a)) (ti_path (kx_right a))) then None
  else if starts_with (ti_path (kx_left a)) p then
    match tire_set (kx_left a) p v with
    | None => None
    | Some l =>
        match tire_set (kx_right a) p v with
        | None => None
        | Some r => Some (MkKartAxle (kx_path a) (kx_own a) (kx_engine a) (kx_brakes a) l r, true)
        end
    end
  else Some (a, false).
(** models: Chassis::set_parameter, chassis/chassis.hpp:135-173 (Chassis_car_6dof has none of
    its own), with get_extra_parameters_map of chassis/chassis.h:272-279. *)
Definition kart_set (k : kart) (p : string) (v : Q) : option kart :=
  if starts_with "vehicle/chassis/" p then
    let '(g, found) := lion_set (kt_base k) "vehicle/chassis/" p v in
    if found then Some (MkKart (kt_own k) g (kt_north k) (kt_east k) (kt_front k) (kt_rear k))
    else if String.eqb p wind_north_path then
      Some (MkKart (kt_own k) (kt_base k) v (kt_east k) (kt_front k) (kt_rear k))
    else if String.eqb p wind_east_path then
      Some (MkKart (kt_own k) (kt_base k) (kt_north k) v (kt_front k) (kt_rear k))
    else None
  else
    match kart_axle_set (kt_front k) p v with
    | None => None
    | Some (f, true) => Some (MkKart (kt_own k) (kt_base k) (kt_north k) (kt_east k) f (kt_rear k))
    | Some (_, false) =>
        match kart_axle_set (kt_rear k) p v with
        | None => None
        | Some (r, true) => Some (MkKart (kt_own k) (kt_base k) (kt_north k) (kt_east k) (kt_front k) r)
        | Some (_, false) => None
        end
    end.

(** *** Saving *)
(** models: Chassis::fill_xml, chassis/chassis.hpp:177-185, and Axle::fill_xml,
    chassis/axle.hpp:143-147 (first tyre only): the kart classes override neither. *)
Definition kart_xml (k : kart) : list (string * Q) :=
  (write_group "vehicle/chassis/" (kt_base k) ++ tire_xml (kx_left (kt_front k))
   ++ tire_xml (kx_left (kt_rear k)))%list.
(** models: Dynamic_model_car::xml, vehicles/dynamic_model_car.h:150-158: no attributes. *)
Definition save_kart (k : kart) : kart_file := MkKartFile (MkXml [] (kart_xml k)) [].

(** *** One representation, and the four of them *)
(** models: Dynamic_model_car: the chassis and the declared parameters. *)
Record kart_car := MkKartCar { kc_kart : kart; kc_params : list parameter }.
(** models: Dynamic_model::add_parameter, vehicles/dynamic_model.h:15-25. *)
Definition kart_car_add (c : kart_car) (a : add_call) : option kart_car :=
  option_map (MkKartCar (kc_kart c)) (add_parameter (kc_params c) (call_path a) (call_make a)).
(** models: the loop of Dynamic_model_car::operator(), vehicles/dynamic_model_car.hpp:59-61. The
    boolean tells whether the loop completed (false: it threw part way). *)
Fixpoint kart_apply (k : kart) (ps : list parameter) (s : Q) : kart * bool :=
  match ps with
  | [] => (k, true)
  | q :: rest =>
      match par_eval q s with
      | None => (k, false)
      | Some v => match kart_set k (par_path q) v with
                  | None => (k, false)
                  | Some k' => kart_apply k' rest s
                  end
      end
  end.
Definition kart_evaluate (c : kart_car) (s : Q) : kart_car * bool :=
  let '(k, ok) := kart_apply (kc_kart c) (kc_params c) s in (MkKartCar k (kc_params c), ok).

(** models: struct lot2016kart_all, vehicles/lot2016kart.h:239-271: the four representations in
    the order in which they are updated (cartesian and curvilinear scalar, then AD). *)
Definition kart_all : Type := list kart_car.
(** Four times the same kart without declared parameters. *)
Definition kart_new (k : kart) : kart_all := repeat (MkKartCar k []) 4.
(** Run the updates one after the other; an exception keeps the ones already made. *)
Fixpoint one_by_one (f : kart_car -> option kart_car) (a : kart_all) : kart_all :=
  match a with
  | [] => []
  | c :: rest => match f c with None => c :: rest | Some c' => c' :: one_by_one f rest end
  end.
Fixpoint update_nth (a : kart_all) (i : nat) (f : kart_car -> kart_car) : kart_all :=
  match a, i with
  | [], _ => []
  | c :: rest, O => f c :: rest
  | c :: rest, S j => c :: update_nth rest j f
  end.
(** What a caller can do to a kart of the table: vehicle_declare_new_*_parameter
    (fastestlapc.cpp:928-984), or any computation that evaluates one of the representations.
    vehicle_set_parameter does nothing for a kart (fastestlapc.cpp:907-918).  Exceptions are
    caught by the API. *)
Inductive kart_op :=
| KSetParameter (p : string) (v : Q)
| KDeclare (a : add_call)
| KEvaluate (i : nat) (s : Q).
Definition kart_step (a : kart_all) (o : kart_op) : kart_all :=
  match o with
  | KSetParameter _ _ => a
  | KDeclare d => one_by_one (fun c => kart_car_add c d) a
  | KEvaluate i s => update_nth a i (fun c => fst (kart_evaluate c s))
  end.
Definition kart_run (a : kart_all) (os : list kart_op) : kart_all := fold_left kart_step os a.
