(** Specification of the parameter tree of the f1: the documented paths, and every stored
    number with the path under which a user reaches it. *)
From Coq Require Import String QArith List.
From Verif Require Import M_Param M_Tree.
Import ListNotations.
Local Open Scope string_scope.

(** The paths a user can set, as they appear in the vehicle files
    (database/vehicles/f1/limebeer-2014-f1.xml) plus the two wind components. *)
Definition checked_paths : list string :=
  ["vehicle/chassis/com/x"; "vehicle/chassis/com/y"; "vehicle/chassis/com/z";
   "vehicle/chassis/front_axle/x"; "vehicle/chassis/front_axle/y"; "vehicle/chassis/front_axle/z";
   "vehicle/chassis/rear_axle/x"; "vehicle/chassis/rear_axle/y"; "vehicle/chassis/rear_axle/z";
   "vehicle/chassis/pressure_center/x"; "vehicle/chassis/pressure_center/y";
   "vehicle/chassis/pressure_center/z"; "vehicle/chassis/brake_bias";
   "vehicle/chassis/roll_balance_coefficient"; "vehicle/chassis/Fz_max_ref2";
   "vehicle/chassis/mass"; "vehicle/chassis/inertia/Ixx"; "vehicle/chassis/inertia/Ixy";
   "vehicle/chassis/inertia/Ixz"; "vehicle/chassis/inertia/Iyx"; "vehicle/chassis/inertia/Iyy";
   "vehicle/chassis/inertia/Iyz"; "vehicle/chassis/inertia/Izx"; "vehicle/chassis/inertia/Izy";
   "vehicle/chassis/inertia/Izz"; "vehicle/chassis/aerodynamics/rho";
   "vehicle/chassis/aerodynamics/cd"; "vehicle/chassis/aerodynamics/cl";
   "vehicle/chassis/aerodynamics/area";
   "vehicle/front-axle/track"; "vehicle/front-axle/inertia"; "vehicle/front-axle/smooth_throttle_coeff";
   "vehicle/front-tire/radial-stiffness"; "vehicle/front-tire/radial-damping";
   "vehicle/front-tire/Fz-max-ref2"; "vehicle/front-tire/reference-load-1";
   "vehicle/front-tire/reference-load-2"; "vehicle/front-tire/mu-x-max-1"; "vehicle/front-tire/mu-x-max-2";
   "vehicle/front-tire/mu-y-max-1"; "vehicle/front-tire/mu-y-max-2"; "vehicle/front-tire/kappa-max-1";
   "vehicle/front-tire/kappa-max-2"; "vehicle/front-tire/lambda-max-1"; "vehicle/front-tire/lambda-max-2";
   "vehicle/front-tire/Qx"; "vehicle/front-tire/Qy"; "vehicle/front-tire/radius";
   "vehicle/rear-axle/track"; "vehicle/rear-axle/inertia"; "vehicle/rear-axle/smooth_throttle_coeff";
   "vehicle/rear-axle/differential_stiffness";
   "vehicle/rear-tire/radial-stiffness"; "vehicle/rear-tire/radial-damping";
   "vehicle/rear-tire/Fz-max-ref2"; "vehicle/rear-tire/reference-load-1";
   "vehicle/rear-tire/reference-load-2"; "vehicle/rear-tire/mu-x-max-1"; "vehicle/rear-tire/mu-x-max-2";
   "vehicle/rear-tire/mu-y-max-1"; "vehicle/rear-tire/mu-y-max-2"; "vehicle/rear-tire/kappa-max-1";
   "vehicle/rear-tire/kappa-max-2"; "vehicle/rear-tire/lambda-max-1"; "vehicle/rear-tire/lambda-max-2";
   "vehicle/rear-tire/Qx"; "vehicle/rear-tire/Qy"; "vehicle/rear-tire/radius"].
Definition actuator_paths : list string :=
  ["vehicle/front-axle/brakes/max_torque"; "vehicle/rear-axle/brakes/max_torque";
   "vehicle/rear-axle/engine/maximum-power"; "vehicle/rear-axle/boost/maximum-power"].
Definition wind_paths : list string :=
  ["vehicle/chassis/aerodynamics/wind_velocity/northward";
   "vehicle/chassis/aerodynamics/wind_velocity/eastward"].
(** What a vehicle file must contain, and everything that can be set. *)
Definition file_paths : list string := (checked_paths ++ actuator_paths)%list.
Definition all_paths : list string := (file_paths ++ wind_paths)%list.

(** Every number stored in the car, with its path; the tyres of an axle are stored twice. *)
Definition stored_group (path : string) (g : group) : list (string * Q) :=
  map (fun s => (path ++ sl_name s, sl_value s)) g.
Definition stored_tire (t : tire) : list (string * Q) :=
  (stored_group (ti_path t) (ti_own t) ++ stored_group (ti_path t) (ti_model t)
   ++ stored_group (ti_path t) (ti_base t))%list.
Definition stored_axle (a : axle) : list (string * Q) :=
  (stored_group (ax_path a) (ax_own a)
   ++ stored_group (br_path (ax_brakes a)) (br_params (ax_brakes a))
   ++ match ax_engines a with
      | Some (e, b) => stored_group (en_path e) (en_params e) ++ stored_group (en_path b) (en_params b)
      | None => []
      end
   ++ stored_tire (ax_left a) ++ stored_tire (ax_right a))%list.
Definition stored (c : chassis) : list (string * Q) :=
  (stored_group "vehicle/chassis/" (ch_own c) ++ stored_group "vehicle/chassis/" (ch_base c)
   ++ [("vehicle/chassis/aerodynamics/wind_velocity/northward", ch_north c);
       ("vehicle/chassis/aerodynamics/wind_velocity/eastward", ch_east c)]
   ++ stored_axle (ch_front c) ++ stored_axle (ch_rear c))%list.

(** Every entry with path [p] becomes [v], the others are kept. *)
Definition overwrite (p : string) (v : Q) (l : list (string * Q)) : list (string * Q) :=
  map (fun e => if String.eqb (fst e) p then (fst e, v) else e) l.

(** A sequence of set_parameter calls with exceptions caught. *)
Definition set_all_of (c : chassis) (calls : list (string * Q)) : chassis :=
  fold_left (fun c pv => match chassis_set c (fst pv) (snd pv) with Some c' => c' | None => c end) calls c.

(** The cars a user can have: created empty or from a file, then modified. *)
Inductive obtainable : chassis -> Prop :=
| from_empty : forall junk, obtainable (empty_f1 junk)
| from_file : forall d c, create_f1_from_xml d = Some c -> obtainable c
| after_set : forall c p v c', obtainable c -> chassis_set c p v = Some c' -> obtainable c'.

(** What an evaluation of the car at [s] works with: the stored numbers after the declared
    parameters have been applied, or an exception. *)
Definition effective (c : car) (s : Q) : option (list (string * Q)) :=
  let '(c', ok) := car_evaluate c s in if ok then Some (stored (car_chassis c')) else None.

(** The saved file with the missing attributes written by hand. *)
Definition add_types (front rear : string) (d : xml) : xml :=
  MkXml ([("vehicle/", "type", "f1-3dof"); ("vehicle/front-tire/", "type", front);
          ("vehicle/rear-tire/", "type", rear)] ++ xml_attributes d)%list (xml_values d).
