(** What a frame is worth to a user: its pose with respect to the inertial frame. *)
From Coq Require Import List.
From Verif Require Import M_Frames.

Section Spec.
Context {A : Type} (compose : A -> A -> A).

(** Following the pointers from a frame to a frame without parent; there is no value if a pointer
    leads to a place where nothing is alive. *)
Inductive absolute (m : mem A) : addr -> A -> Prop :=
| absolute_root a f : m a = Some f -> parent f = None -> absolute m a (pose f)
| absolute_child a f b x : m a = Some f -> parent f = Some b -> absolute m b x -> absolute m a (compose x (pose f)).

(** The frames of a vehicle: inertial frame, road, chassis, axles, tyres, each with respect to
    the one before. *)
Definition carried_by (s : slot) : option slot :=
  match s with
  | Inertial => None | Road => Some Inertial | Chassis => Some Road
  | FrontAxle | RearAxle => Some Chassis
  | FrontLeft | FrontRight => Some FrontAxle | RearLeft | RearRight => Some RearAxle
  end.
(** Pose of a frame of a vehicle in the inertial frame, given the poses of its own frames. *)
Definition pose_of_car (own : slot -> A) (s : slot) : A :=
  let road := compose (own Inertial) (own Road) in
  let chassis := compose road (own Chassis) in
  let front := compose chassis (own FrontAxle) in
  let rear := compose chassis (own RearAxle) in
  match s with
  | Inertial => own Inertial | Road => road | Chassis => chassis | FrontAxle => front | RearAxle => rear
  | FrontLeft => compose front (own FrontLeft) | FrontRight => compose front (own FrontRight)
  | RearLeft => compose rear (own RearLeft) | RearRight => compose rear (own RearRight)
  end.

(** The vehicle [id] is alive and its own poses are [own]. *)
Definition has_poses (m : mem A) (id : nat) (own : slot -> A) : Prop :=
  forall s, exists f, m (id, s) = Some f /\ pose f = own s.

(** The program does not write, replace or destroy vehicle [id] (it may copy it). *)
Definition leaves_alone (id : nat) (o : op A) : Prop :=
  match o with
  | New i _ _ | CopyNew i _ | Assign i _ | Destroy i | Write i _ _ => i <> id
  end.
End Spec.
