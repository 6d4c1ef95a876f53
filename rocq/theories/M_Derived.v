(** Model of the members of the f1 that are computed from its parameters and kept: the
    positions of the tyres in their axle, the origins of the frames of the axles and of the
    tyres, the constants of the tyre model.  They are computed when the car is built and by
    some of the branches of set_parameter.  The parameters themselves, the routing of
    set_parameter and the declared parameters are those of M_Tree. *)
From Coq Require Import String QArith Reals Qreals Bool List.
From Verif Require Import M_Param M_Tree.
Import ListNotations.
Local Open Scope string_scope.

(** The member bound to an entry of a DECLARE_PARAMS list. *)
Fixpoint member (g : group) (n : string) : Q :=
  match g with
  | [] => 0
  | s :: rest => if String.eqb (sl_name s) n then sl_value s else member rest n
  end.

(** An origin of a frame in its parent. *)
Record point := MkPoint { px : Q; py : Q; pz : Q }.

(** models: _lambda_max1, _lambda_max2, _Sx, _Sy of Pacejka_simple_model,
    tire/tire_pacejka.h:312-319. *)
Record constants := MkConstants { k_lambda1 : R; k_lambda2 : R; k_sx : R; k_sy : R }.
(** models: the default member initialisers, tire/tire_pacejka.h:312-319. *)
Definition no_constants : constants := MkConstants 0 0 0 0.
(** models: Pacejka_simple_model::initialise, tire/tire_pacejka.hpp:182-192. DEG is pi/180
    (lion). Division by zero is left to the reals: the values are meant for shape factors
    that are not zero. *)
Definition initialise (m : group) : constants :=
  MkConstants (Q2R (member m "lambda-max-1") * (PI / 180)) (Q2R (member m "lambda-max-2") * (PI / 180))
              (PI / (2 * atan (Q2R (member m "Qx")))) (PI / (2 * atan (Q2R (member m "Qy")))).

(** The computed members of one axle: Axle_car_3dof::_y_tire (chassis/axle_car_3dof.h:275), the
    origins of the frames of its tyres, and the constants of their models. *)
Record axle_kept := MkAxleKept { ka_y : Q * Q; ka_left : point; ka_right : point;
                                 ka_left_k : constants; ka_right_k : constants }.
(** The computed members of the chassis: the origins of the frames of the axles. *)
Record kept := MkKept { kp_front_origin : point; kp_rear_origin : point;
                        kp_front : axle_kept; kp_rear : axle_kept }.

(** models: get_tire_position, chassis/axle_car_3dof.h:202. *)
Definition tire_position (y : Q) : point := MkPoint 0 y 0.
(** models: _y_tire = {-0.5*_track, 0.5*_track} followed by the two set_origin,
    chassis/axle_car_3dof.hpp:132-134; the same statements are at 31, 55-56 and 88, 112-113. *)
Definition place_tires (own : group) (k : axle_kept) : axle_kept :=
  let y := ((-(1#2)) * member own "track", (1#2) * member own "track")%Q in
  MkAxleKept y (tire_position (fst y)) (tire_position (snd y)) (ka_left_k k) (ka_right_k k).
(** models: get_front_axle_position and get_rear_axle_position with the two set_origin,
    chassis/chassis_car_3dof.h:151-154 and chassis/chassis_car_3dof.hpp:82-83; the same
    statements are at 21-22 and 40-41. *)
Definition place_axles (own : group) (k : kept) : kept :=
  MkKept (MkPoint (member own "front_axle/x") (member own "front_axle/y") (member own "front_axle/z"))
         (MkPoint (member own "rear_axle/x") (member own "rear_axle/y") (member own "rear_axle/z"))
         (kp_front k) (kp_rear k).

(** models: Tire_pacejka::set_parameter, tire/tire_pacejka.hpp:29-49: the three searches are
    those of M_Tree; initialise is reached unless the last one throws. *)
Definition tire_set_k (t : tire) (p : string) (v : Q) : option (tire * constants) :=
  match tire_set t p v with
  | None => None
  | Some t' => Some (t', initialise (ti_model t'))
  end.

(** models: Axle::set_parameter, chassis/axle.hpp:113-140. As in M_Tree an exception of the
    second tyre after the first was changed is not represented (the tyres have the same path
    and the same parameters, so that it cannot happen). *)
Definition axle_base_set_k (a : axle) (k : axle_kept) (p : string) (v : Q)
  : option (axle * axle_kept * bool) :=
  if negb (String.eqb (ti_path (ax_left a)) (ti_path (ax_right a))) then None
  else if starts_with (ti_path (ax_left a)) p then
    match tire_set_k (ax_left a) p v with
    | None => None
    | Some (l, kl) =>
        match tire_set_k (ax_right a) p v with
        | None => None
        | Some (r, kr) =>
            Some (MkAxle (ax_path a) (ax_own a) (ax_brakes a) (ax_engines a) l r,
                  MkAxleKept (ka_y k) (ka_left k) (ka_right k) kl kr, true)
        end
    end
  else Some (a, k, false).
(** models: Axle_car_3dof::set_parameter, chassis/axle_car_3dof.hpp:118-174. *)
Definition axle_set_k (a : axle) (k : axle_kept) (p : string) (v : Q)
  : option (axle * axle_kept * bool) :=
  if starts_with (ax_path a) p then
    let '(g, found) := lion_set (ax_own a) (ax_path a) p v in
    if found then Some (MkAxle (ax_path a) g (ax_brakes a) (ax_engines a) (ax_left a) (ax_right a),
                        place_tires g k, true)
    else if starts_with (ax_path a ++ "brakes/") p then
      option_map (fun b => (MkAxle (ax_path a) (ax_own a) b (ax_engines a) (ax_left a) (ax_right a), k, true))
                 (brake_set (ax_brakes a) p v)
    else match ax_engines a with
         | Some (e, b) =>
             if starts_with (ax_path a ++ "engine/") p then
               option_map (fun e' => (MkAxle (ax_path a) (ax_own a) (ax_brakes a) (Some (e', b))
                                             (ax_left a) (ax_right a), k, true)) (engine_set e p v)
             else if starts_with (ax_path a ++ "boost/") p then
               option_map (fun b' => (MkAxle (ax_path a) (ax_own a) (ax_brakes a) (Some (e, b'))
                                             (ax_left a) (ax_right a), k, true)) (engine_set b p v)
             else axle_base_set_k a k p v
         | None => axle_base_set_k a k p v
         end
  else axle_base_set_k a k p v.

(** models: Chassis::set_parameter, chassis/chassis.hpp:135-173. *)
Definition chassis_base_set_k (c : chassis) (k : kept) (p : string) (v : Q) : option (chassis * kept) :=
  if starts_with "vehicle/chassis/" p then
    let '(g, found) := lion_set (ch_base c) "vehicle/chassis/" p v in
    if found then Some (MkChassis (ch_own c) g (ch_north c) (ch_east c) (ch_front c) (ch_rear c), k)
    else if String.eqb p wind_north_path then
      Some (MkChassis (ch_own c) (ch_base c) v (ch_east c) (ch_front c) (ch_rear c), k)
    else if String.eqb p wind_east_path then
      Some (MkChassis (ch_own c) (ch_base c) (ch_north c) v (ch_front c) (ch_rear c), k)
    else None
  else
    match axle_set_k (ch_front c) (kp_front k) p v with
    | None => None
    | Some (f, kf, true) =>
        Some (MkChassis (ch_own c) (ch_base c) (ch_north c) (ch_east c) f (ch_rear c),
              MkKept (kp_front_origin k) (kp_rear_origin k) kf (kp_rear k))
    | Some (_, _, false) =>
        match axle_set_k (ch_rear c) (kp_rear k) p v with
        | None => None
        | Some (r, kr, true) =>
            Some (MkChassis (ch_own c) (ch_base c) (ch_north c) (ch_east c) (ch_front c) r,
                  MkKept (kp_front_origin k) (kp_rear_origin k) (kp_front k) kr)
        | Some (_, _, false) => None
        end
    end.
(** models: Chassis_car_3dof::set_parameter, chassis/chassis_car_3dof.hpp:69-95. *)
Definition chassis_set_k (c : chassis) (k : kept) (p : string) (v : Q) : option (chassis * kept) :=
  if starts_with "vehicle/chassis/" p then
    let '(g, found) := lion_set (ch_own c) "vehicle/chassis/" p v in
    if found then Some (MkChassis g (ch_base c) (ch_north c) (ch_east c) (ch_front c) (ch_rear c),
                        place_axles g k)
    else chassis_base_set_k c k p v
  else chassis_base_set_k c k p v.

(** *** Construction *)
Definition origin : point := MkPoint 0 0 0.
(** models: the construction of an axle around two tyres whose constants are [k],
    chassis/axle_car_3dof.hpp:5-58 and 61-115: the frames start at the origin. *)
Definition build_axle (a : axle) (kl kr : constants) : axle_kept :=
  place_tires (ax_own a) (MkAxleKept (0, 0)%Q origin origin kl kr).
(** models: the bodies of the constructors of the chassis, chassis/chassis_car_3dof.hpp:5-42. *)
Definition build_chassis (c : chassis) (f r : axle_kept) : kept :=
  place_axles (ch_own c) (MkKept origin origin f r).
(** models: Chassis_car_3dof(), chassis/chassis_car_3dof.hpp:5-23 with the constructor of a tyre
    from a name and a path (tire/tire_pacejka.h:37-38), which does not call initialise. *)
Definition empty_kept (junk : string -> Q) : kept :=
  let c := empty_f1 junk in
  build_chassis c (build_axle (ch_front c) no_constants no_constants)
                  (build_axle (ch_rear c) no_constants no_constants).
(** models: Chassis_car_3dof(database), chassis/chassis_car_3dof.hpp:45-59 with the constructor of
    a tyre from a file, tire/tire_pacejka.hpp:8-27. [c] is the car read from the file. *)
Definition file_kept (c : chassis) : kept :=
  let of a := build_axle a (initialise (ti_model (ax_left a))) (initialise (ti_model (ax_right a))) in
  build_chassis c (of (ch_front c)) (of (ch_rear c)).

(** *** One car *)
(** models: Dynamic_model_car: the chassis with its computed members and the declared
    parameters. *)
Record dcar := MkDCar { dc_chassis : chassis; dc_kept : kept; dc_params : list parameter }.
(** models: Dynamic_model_car::set_parameter, vehicles/dynamic_model_car.hpp:33-48. *)
Definition dcar_set (c : dcar) (p : string) (v : Q) : option dcar :=
  match chassis_set_k (dc_chassis c) (dc_kept c) p v with
  | None => None
  | Some (ch, k) => Some (MkDCar ch k (fill_param (dc_params c) p v))
  end.
(** models: Dynamic_model::add_parameter, vehicles/dynamic_model.h:15-25. *)
Definition dcar_add (c : dcar) (a : add_call) : option dcar :=
  option_map (MkDCar (dc_chassis c) (dc_kept c)) (add_parameter (dc_params c) (call_path a) (call_make a)).
(** models: the loop of Dynamic_model_car::operator(), vehicles/dynamic_model_car.hpp:61-63. *)
Fixpoint apply_params_k (ch : chassis) (k : kept) (ps : list parameter) (s : Q) : chassis * kept :=
  match ps with
  | [] => (ch, k)
  | q :: rest =>
      match par_eval q s with
      | None => (ch, k)
      | Some v => match chassis_set_k ch k (par_path q) v with
                  | None => (ch, k)
                  | Some (ch', k') => apply_params_k ch' k' rest s
                  end
      end
  end.
(** What happens to one representation of a car, exceptions caught by the API: the three
    constructors of M_Tree. *)
Inductive dop :=
| DSet (p : string) (v : Q)
| DDeclare (a : add_call)
| DEvaluate (s : Q).
Definition dstep (c : dcar) (o : dop) : dcar :=
  match o with
  | DSet p v => match dcar_set c p v with Some c' => c' | None => c end
  | DDeclare a => match dcar_add c a with Some c' => c' | None => c end
  | DEvaluate s => let '(ch, k) := apply_params_k (dc_chassis c) (dc_kept c) (dc_params c) s in
                   MkDCar ch k (dc_params c)
  end.
Definition drun (c : dcar) (os : list dop) : dcar := fold_left dstep os c.
(** models: create_vehicle_empty and create_vehicle_from_xml for the f1,
    main/c/fastestlapc.cpp:56-142. *)
Definition dcar_empty (junk : string -> Q) : dcar := MkDCar (empty_f1 junk) (empty_kept junk) [].
Definition dcar_file (d : xml) : option dcar :=
  option_map (fun c => MkDCar c (file_kept c) []) (create_f1_from_xml d).
