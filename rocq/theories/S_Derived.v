(** Specification: what the members computed from the parameters must be, from the values of
    the parameters by path. *)
From Coq Require Import String QArith Reals Qreals List.
From Verif Require Import M_Param M_Tree S_Tree M_Derived.
Import ListNotations.
Local Open Scope string_scope.

(** The value of the parameter with path [p] in a car. *)
Definition parameter_value (c : dcar) (p : string) : Q :=
  match find (fun e => String.eqb (fst e) p) (stored (dc_chassis c)) with
  | Some e => snd e
  | None => 0
  end.

(** The centre of each axle in the chassis is where the parameters put it and its wheels are half
    a track to the left (negative) and half a track to the right. *)
Record geometry_agrees (v : string -> Q) (k : kept) : Prop := {
  front_centre : kp_front_origin k =
    MkPoint (v "vehicle/chassis/front_axle/x") (v "vehicle/chassis/front_axle/y") (v "vehicle/chassis/front_axle/z");
  rear_centre : kp_rear_origin k =
    MkPoint (v "vehicle/chassis/rear_axle/x") (v "vehicle/chassis/rear_axle/y") (v "vehicle/chassis/rear_axle/z");
  front_left : (px (ka_left (kp_front k)) == 0 /\ py (ka_left (kp_front k)) == - (v "vehicle/front-axle/track" / 2)
                /\ pz (ka_left (kp_front k)) == 0)%Q;
  front_right : (px (ka_right (kp_front k)) == 0 /\ py (ka_right (kp_front k)) == v "vehicle/front-axle/track" / 2
                 /\ pz (ka_right (kp_front k)) == 0)%Q;
  rear_left : (px (ka_left (kp_rear k)) == 0 /\ py (ka_left (kp_rear k)) == - (v "vehicle/rear-axle/track" / 2)
               /\ pz (ka_left (kp_rear k)) == 0)%Q;
  rear_right : (px (ka_right (kp_rear k)) == 0 /\ py (ka_right (kp_rear k)) == v "vehicle/rear-axle/track" / 2
                /\ pz (ka_right (kp_rear k)) == 0)%Q;
  (* the lateral positions used in the balance of the axles *)
  front_y : (fst (ka_y (kp_front k)) == - (v "vehicle/front-axle/track" / 2)
             /\ snd (ka_y (kp_front k)) == v "vehicle/front-axle/track" / 2)%Q;
  rear_y : (fst (ka_y (kp_rear k)) == - (v "vehicle/rear-axle/track" / 2)
            /\ snd (ka_y (kp_rear k)) == v "vehicle/rear-axle/track" / 2)%Q }.

(** The slip angles of the friction peaks in radians and the two factors pi/(2 atan Q), from the
    parameters under [path]. *)
Definition constants_agree (v : string -> Q) (path : string) (k : constants) : Prop :=
  k_lambda1 k = (Q2R (v (path ++ "lambda-max-1")) * PI / 180)%R /\
  k_lambda2 k = (Q2R (v (path ++ "lambda-max-2")) * PI / 180)%R /\
  k_sx k = (PI / (2 * atan (Q2R (v (path ++ "Qx")))))%R /\
  k_sy k = (PI / (2 * atan (Q2R (v (path ++ "Qy")))))%R.
Definition tires_agree (v : string -> Q) (k : kept) : Prop :=
  constants_agree v "vehicle/front-tire/" (ka_left_k (kp_front k)) /\
  constants_agree v "vehicle/front-tire/" (ka_right_k (kp_front k)) /\
  constants_agree v "vehicle/rear-tire/" (ka_left_k (kp_rear k)) /\
  constants_agree v "vehicle/rear-tire/" (ka_right_k (kp_rear k)).

(** The cars a user can have, with everything that can happen to them. *)
Inductive created : dcar -> Prop :=
| created_empty : forall junk, created (dcar_empty junk)
| created_file : forall d c, dcar_file d = Some c -> created c.
