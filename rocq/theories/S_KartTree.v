(** Specification of the parameter tree of the kart: the paths of the vehicle files
    (database/vehicles/kart/roberto-lot-kart-2016.xml) and every stored number and vector with the path
    under which the file gives it. *)
From Coq Require Import String QArith List.
From Verif Require Import M_Param M_Tree S_Tree M_KartTree.
Import ListNotations.
Local Open Scope string_scope.

(** One number each, in the part of the tree shared with every chassis. *)
Definition kart_chassis_paths : list string :=
  ["vehicle/chassis/mass"; "vehicle/chassis/inertia/Ixx"; "vehicle/chassis/inertia/Ixy";
   "vehicle/chassis/inertia/Ixz"; "vehicle/chassis/inertia/Iyx"; "vehicle/chassis/inertia/Iyy";
   "vehicle/chassis/inertia/Iyz"; "vehicle/chassis/inertia/Izx"; "vehicle/chassis/inertia/Izy";
   "vehicle/chassis/inertia/Izz"; "vehicle/chassis/aerodynamics/rho";
   "vehicle/chassis/aerodynamics/cd"; "vehicle/chassis/aerodynamics/cl";
   "vehicle/chassis/aerodynamics/area"].
Definition kart_tire_paths (tire : string) : list string :=
  map (append tire)
    ["radius"; "radial-stiffness"; "radial-damping"; "Fz-max-ref2"; "nominal-vertical-load"; "lambdaFz0";
     "longitudinal/pure/pCx1"; "longitudinal/pure/pDx1"; "longitudinal/pure/pEx1";
     "longitudinal/pure/pKx1"; "longitudinal/pure/pKx2"; "longitudinal/pure/pKx3";
     "lateral/pure/pCy1"; "lateral/pure/pDy1"; "lateral/pure/pEy1"; "lateral/pure/pKy1";
     "lateral/pure/pKy2"; "lateral/pure/pKy4"; "longitudinal/combined/rBx1";
     "longitudinal/combined/rCx1"; "lateral/combined/rBy1"; "lateral/combined/rCy1"].
Definition kart_axle_paths : list string :=
  ["vehicle/front-axle/track"; "vehicle/front-axle/stiffness/chassis"; "vehicle/front-axle/stiffness/antiroll";
   "vehicle/front-axle/beta-steering/left"; "vehicle/front-axle/beta-steering/right";
   "vehicle/rear-axle/track"; "vehicle/rear-axle/stiffness/chassis"; "vehicle/rear-axle/stiffness/antiroll";
   "vehicle/rear-axle/inertia"; "vehicle/rear-axle/smooth_throttle_coeff"].
Definition kart_engine_path : string := "vehicle/rear-axle/engine/maximum-power".
Definition kart_brakes_path : string := "vehicle/rear-axle/brakes/max_torque".
(** Three numbers each. *)
Definition kart_vector_paths : list string :=
  ["vehicle/chassis/com"; "vehicle/chassis/front_axle"; "vehicle/chassis/rear_axle"].

(** What a file must hold to be accepted. *)
Definition kart_required_paths : list string :=
  (kart_chassis_paths ++ kart_tire_paths "vehicle/front-tire/" ++ kart_tire_paths "vehicle/rear-tire/"
   ++ kart_axle_paths)%list.
(** Every number of a kart file. *)
Definition kart_file_paths : list string :=
  (kart_required_paths ++ [kart_engine_path; kart_brakes_path])%list.
(** What can be changed in a kart once it exists. *)
Definition kart_settable_paths : list string :=
  (kart_chassis_paths ++ wind_paths ++ kart_tire_paths "vehicle/front-tire/"
   ++ kart_tire_paths "vehicle/rear-tire/")%list.

(** Every number stored in the kart, with its path; the tyres of an axle are stored twice. *)
Definition stored_kart_axle (a : kart_axle) : list (string * Q) :=
  (stored_group (kx_path a) (kx_own a)
   ++ match kx_engine a with Some e => stored_group (en_path e) (en_params e) | None => [] end
   ++ match kx_brakes a with Some b => stored_group (br_path b) (br_params b) | None => [] end
   ++ stored_tire (kx_left a) ++ stored_tire (kx_right a))%list.
Definition stored_kart (k : kart) : list (string * Q) :=
  (stored_group "vehicle/chassis/" (kt_base k)
   ++ [("vehicle/chassis/aerodynamics/wind_velocity/northward", kt_north k);
       ("vehicle/chassis/aerodynamics/wind_velocity/eastward", kt_east k)]
   ++ stored_kart_axle (kt_front k) ++ stored_kart_axle (kt_rear k))%list.
Definition stored_vectors (k : kart) : list (string * vector) :=
  map (fun s => ("vehicle/chassis/" ++ vs_name s, vs_value s)) (kt_own k).

(** The karts a user can have: read from a file, then modified by set_parameter. *)
Inductive obtainable_kart : kart -> Prop :=
| kart_from_file : forall d k, create_kart_from_xml d = Some k -> obtainable_kart k
| kart_after_set : forall k p v k', obtainable_kart k -> kart_set k p v = Some k' -> obtainable_kart k'.

(** What an evaluation at [s] works with: the stored numbers after the declared parameters
    have been applied, or an exception. *)
Definition kart_effective (c : kart_car) (s : Q) : option (list (string * Q)) :=
  let '(c', ok) := kart_evaluate c s in if ok then Some (stored_kart (kc_kart c')) else None.

(** The declarations among the calls of a history, in order. *)
Definition declarations (os : list kart_op) : list add_call :=
  flat_map (fun o => match o with KDeclare a => [a] | _ => [] end) os.
(** The number under path [p] when the file says [x] and [ps] have been declared. *)
Definition declared_value (ps : list parameter) (s : Q) (p : string) (x : Q) : Q :=
  match find (fun q => String.eqb (par_path q) p) ps with
  | Some q => match par_eval q s with Some v => v | None => x end
  | None => x
  end.
