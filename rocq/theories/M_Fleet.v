(** The four copies of a car that the C interface keeps per vehicle, as objects of the
    variable store (M_Store).
    [M] is what a copy knows besides its track (its parameters), [T] a track and
    [N] a number. Parameters are set and declared by functions that either throw and leave
    the copy as it is, or succeed (Dynamic_model_car::set_parameter dynamic_model_car.h,
    Dynamic_model::add_parameter dynamic_model.h:15-25; modelled in M_Tree and M_Param). *)
From stdpp Require Import base strings gmap list.
From Verif Require Import M_Store.

(** What is not modelled here: functions of a copy and of a track. *)
Record parts (M T N : Type) := Parts {
  p_default : M;
  p_default_track : T;
  p_set : M -> string -> N -> option M;
  p_add : M -> string -> string -> N -> option M;
  p_addv : M -> string -> list string -> list N -> list (N * nat) -> option M;
  (* Track_by_polynomial::has_elevation, track_by_polynomial.h *)
  p_elevated : T -> bool;
  p_limit : T -> bool -> list N -> list N -> T * bool;
  p_length : T -> N;
  p_points : T -> nat;
  p_data : T -> string -> option (list N)
}.
Arguments Parts {_ _ _}.
Arguments p_default {_ _ _}.
Arguments p_default_track {_ _ _}.
Arguments p_set {_ _ _}.
Arguments p_add {_ _ _}.
Arguments p_addv {_ _ _}.
Arguments p_elevated {_ _ _}.
Arguments p_limit {_ _ _}.
Arguments p_length {_ _ _}.
Arguments p_points {_ _ _}.
Arguments p_data {_ _ _}.

Section Fleet.
Context {M T N : Type}.

(** models: limebeer2014f1_all and lot2016kart_all, limebeer2014f1.h:325-375,
    lot2016kart.h:239-271; the two curvilinear copies hold a track by value
    (road_curvilinear.h:37). *)
Record vehicle := Vehicle {
  cartesian_scalar : M;
  curvilinear_scalar : M;
  cartesian_ad : M;
  curvilinear_ad : M;
  track_scalar : T;
  track_ad : T
}.

(** models: the constructors from a database (limebeer2014f1.h:327-332) and the default
    ones (334-339): four times the same constructor. *)
Definition new_vehicle (m : M) (t : T) : vehicle := Vehicle m m m m t t.

(** models: set_parameter and add_parameter of the four copies, limebeer2014f1.h:350-368,
    lot2016kart.h:257-265, in this order; stops at the first that throws. *)
Definition on_all (f : M -> option M) (v : vehicle) : vehicle * bool :=
  match f (cartesian_scalar v) with
  | None => (v, false)
  | Some m1 =>
  let v1 := Vehicle m1 (curvilinear_scalar v) (cartesian_ad v) (curvilinear_ad v) (track_scalar v) (track_ad v) in
  match f (curvilinear_scalar v1) with
  | None => (v1, false)
  | Some m2 =>
  let v2 := Vehicle m1 m2 (cartesian_ad v) (curvilinear_ad v) (track_scalar v) (track_ad v) in
  match f (cartesian_ad v2) with
  | None => (v2, false)
  | Some m3 =>
  let v3 := Vehicle m1 m2 m3 (curvilinear_ad v) (track_scalar v) (track_ad v) in
  match f (curvilinear_ad v3) with
  | None => (v3, false)
  | Some m4 => (Vehicle m1 m2 m3 m4 (track_scalar v) (track_ad v), true)
  end end end end.

Definition with_track_ad (v : vehicle) (t : T) : vehicle :=
  Vehicle (cartesian_scalar v) (curvilinear_scalar v) (cartesian_ad v) (curvilinear_ad v) (track_scalar v) t.
Definition with_track_scalar (v : vehicle) (t : T) : vehicle :=
  Vehicle (cartesian_scalar v) (curvilinear_scalar v) (cartesian_ad v) (curvilinear_ad v) t (track_ad v).

(** models: change_track of the F1 (dynamic_model_car.h:149), first on the AD copy and then on the
    scalar one (fastestlapc.cpp:1504-1505, 1051-1052, 1752-1753). *)
Definition f1_change_track (v : vehicle) (t : T) : vehicle * bool :=
  (with_track_scalar (with_track_ad v t) t, true).

(** models: the same for the kart: change_track first stores the track and then throws if
    the stored track has elevation (lot2016kart.h:57-69; fastestlapc.cpp:1038-1039, 1747-1748). *)
Definition kart_change_track (p : parts M T N) (v : vehicle) (t : T) : vehicle * bool :=
  let v1 := with_track_ad v t in
  if p_elevated p (track_ad v1) then (v1, false)
  else let v2 := with_track_scalar v1 t in
       if p_elevated p (track_scalar v2) then (v2, false) else (v2, true).

(** The objects of the store. *)
Definition fleet_env (p : parts M T N) : env vehicle vehicle T N :=
  Env (new_vehicle (p_default p) (p_default_track p))
      (fun v q x => on_all (fun m => p_set p m q x) v)
      (fun v q a x => on_all (fun m => p_add p m q a x) v)
      (fun v q a x => on_all (fun m => p_add p m q a x) v)
      (fun v q a x g => on_all (fun m => p_addv p m q a x g) v)
      (fun v q a x g => on_all (fun m => p_addv p m q a x g) v)
      f1_change_track (kart_change_track p) (p_limit p) (p_length p) (p_points p) (p_data p).

End Fleet.
Arguments vehicle : clear implicits.
