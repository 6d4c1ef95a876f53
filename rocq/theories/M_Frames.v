(** The frames of a vehicle and the pointers between them, through construction, copy,
    assignment and destruction of vehicles. A frame of lion holds its own pose (origin, velocity
    and rotations with respect to its parent) and a pointer to its parent; copying a frame copies
    both. Everything else that vehicles hold is a plain value. *)
From Coq Require Import Arith Bool.
From Coq Require Import List.
From Verif Require Import M_Controls.
Import ListNotations.

(** models: the frames of one vehicle: _inertial_frame, _road_frame and _chassis_frame of the
    chassis (chassis.h:319-322), _frame of the two axles (axle.h:145) and of their tyres
    (tire.h:163). *)
Inductive slot := Inertial | Road | Chassis | FrontAxle | FrontLeft | FrontRight | RearAxle | RearLeft | RearRight.
Definition slot_eqb (a b : slot) : bool :=
  match a, b with
  | Inertial, Inertial | Road, Road | Chassis, Chassis | FrontAxle, FrontAxle | FrontLeft, FrontLeft
  | FrontRight, FrontRight | RearAxle, RearAxle | RearLeft, RearLeft | RearRight, RearRight => true
  | _, _ => false
  end.

(** An address: the object and the member. *)
Definition addr := (nat * slot)%type.

Section Frames.
Context {A : Type}.
(** Pose of a frame just built without arguments. *)
Context (origin : A).

Record frame := MkFrame { pose : A; parent : option addr }.
(** [None]: nothing is alive at the address. *)
Definition mem := addr -> option frame.
Definition addr_eqb (a b : addr) : bool := Nat.eqb (fst a) (fst b) && slot_eqb (snd a) (snd b).
Definition store (m : mem) (a : addr) (f : frame) : mem := fun b => if addr_eqb a b then Some f else m b.
Definition load (m : mem) (a : addr) : res frame := match m a with Some f => Ok f | None => UB end.

(** Single effects on the frames. *)
Inductive stmt :=
| NewFrame (a : addr) (p : A) (up : option addr)
| CopyFrame (dst src : addr)
| SetParent (a up : addr).
Definition exec (m : mem) (c : stmt) : res mem :=
  match c with
  | NewFrame a p up => Ok (store m a (MkFrame p up))
  | CopyFrame dst src => bind (load m src) (fun f => Ok (store m dst f))
  | SetParent a up => bind (load m a) (fun f => Ok (store m a (MkFrame (pose f) (Some up))))
  end.
Fixpoint execs (m : mem) (cs : list stmt) : res mem :=
  match cs with [] => Ok m | c :: cs' => bind (exec m c) (fun m' => execs m' cs') end.

(** models: Axle(name, tires), axle.hpp:7-23: the tyres are copied from free ones, whose frames
    have no parent. *)
Definition axle_ctor (id : nat) (ax l r : slot) (p : slot -> A) : list stmt :=
  [ NewFrame (id, ax) (p ax) None; NewFrame (id, l) (p l) None; NewFrame (id, r) (p r) None;
    SetParent (id, l) (id, ax); SetParent (id, r) (id, ax) ].

(** models: Axle(const Axle&), axle.hpp:27-43, and operator=, axle.hpp:47-65. *)
Definition axle_copy (id src : nat) (ax l r : slot) : list stmt :=
  [ CopyFrame (id, ax) (src, ax); CopyFrame (id, l) (src, l); CopyFrame (id, r) (src, r);
    SetParent (id, l) (id, ax); SetParent (id, r) (id, ax) ].

(** models: Chassis(front_axle, rear_axle, path), chassis.hpp:7-22, called with two axles built
    for the purpose (chassis_car_3dof.hpp:5-13, limebeer2014f1.h and lot2016kart.h); [tmp] is
    where these live during the call. Later writes of the constructors of the derived classes
    (positions of the axles) are taken into the initial poses [p]. *)
Definition car_ctor (id tmp : nat) (p : slot -> A) : list stmt :=
  axle_ctor tmp FrontAxle FrontLeft FrontRight p ++ axle_ctor tmp RearAxle RearLeft RearRight p ++
  [ NewFrame (id, Inertial) origin None;
    NewFrame (id, Road) (p Road) (Some (id, Inertial));
    NewFrame (id, Chassis) (p Chassis) (Some (id, Road)) ] ++
  axle_copy id tmp FrontAxle FrontLeft FrontRight ++ axle_copy id tmp RearAxle RearLeft RearRight ++
  [ SetParent (id, FrontAxle) (id, Chassis); SetParent (id, RearAxle) (id, Chassis) ].

(** models: Chassis(const Chassis&), chassis.hpp:36-71, and operator=, chassis.hpp:75-115: the
    same effects on the frames, in the same order. The derived classes and Dynamic_model_car
    have no copy operations of their own. *)
Definition car_copy (id src : nat) : list stmt :=
  [ NewFrame (id, Inertial) origin None; CopyFrame (id, Road) (src, Road); CopyFrame (id, Chassis) (src, Chassis) ] ++
  axle_copy id src FrontAxle FrontLeft FrontRight ++ axle_copy id src RearAxle RearLeft RearRight ++
  [ SetParent (id, Road) (id, Inertial); SetParent (id, Chassis) (id, Road);
    SetParent (id, FrontAxle) (id, Chassis); SetParent (id, RearAxle) (id, Chassis) ].

(** models: Dynamic_model_powered_axle(Fz, database), dynamic_model_powered_axle.hpp:5-25: one
    axle, then an inertial frame, made the parent of the axle. *)
Definition single_ctor (id : nat) (p : slot -> A) : list stmt :=
  axle_ctor id RearAxle RearLeft RearRight p ++
  [ NewFrame (id, Inertial) origin None; SetParent (id, RearAxle) (id, Inertial) ].
(** models: the copy operations the compiler generates for it: member by member. *)
Definition single_copy (id src : nat) : list stmt :=
  axle_copy id src RearAxle RearLeft RearRight ++ [ CopyFrame (id, Inertial) (src, Inertial) ].

Definition kill (m : mem) (id : nat) : mem := fun b => if Nat.eqb id (fst b) then None else m b.
Definition fresh (m : mem) (id : nat) : Prop := forall s, m (id, s) = None.
Definition freshb (m : mem) (id : nat) : bool :=
  forallb (fun s => match m (id, s) with None => true | Some _ => false end)
    [Inertial; Road; Chassis; FrontAxle; FrontLeft; FrontRight; RearAxle; RearLeft; RearRight].
Definition livingb (m : mem) (id : nat) : bool :=
  match m (id, RearAxle) with Some _ => true | None => false end.

(** What a program does with its vehicles. Memory is handed out unused; the program names living
    vehicles only ([Throw] otherwise: such a program is excluded). [Write] stands for set_origin,
    set_rotation_angle, ... on a frame other than the inertial one, of those the vehicle has. *)
Inductive op := New (id tmp : nat) (p : slot -> A) | CopyNew (id src : nat) | Assign (id src : nat)
| Destroy (id : nat) | Write (id : nat) (s : slot) (p : A).
Definition guard {B} (b : bool) (k : res B) : res B := if b then k else Throw.
Definition step (ctor : nat -> nat -> (slot -> A) -> list stmt) (copy : nat -> nat -> list stmt) (m : mem) (o : op) : res mem :=
  match o with
  | New id tmp p => guard (freshb m id && freshb m tmp && negb (Nat.eqb id tmp))
                      (bind (execs m (ctor id tmp p)) (fun m' => Ok (kill m' tmp)))
  | CopyNew id src => guard (freshb m id && livingb m src) (execs m (copy id src))
  | Assign id src => guard (livingb m id && livingb m src) (execs m (copy id src))
  | Destroy id => guard (livingb m id) (Ok (kill m id))
  | Write id s p => guard (livingb m id && negb (slot_eqb s Inertial) && match m (id, s) with Some _ => true | None => false end)
                      (bind (load m (id, s)) (fun f => Ok (store m (id, s) (MkFrame p (parent f)))))
  end.
Fixpoint run ctor copy (m : mem) (ops : list op) : res mem :=
  match ops with [] => Ok m | o :: ops' => bind (step ctor copy m o) (fun m' => run ctor copy m' ops') end.
Definition nothing : mem := fun _ => None.
Definition run_cars := run car_ctor car_copy.
Definition run_singles := run (fun id _ p => single_ctor id p) single_copy.

End Frames.
Arguments frame : clear implicits.
Arguments mem : clear implicits.
Arguments op : clear implicits.
Arguments stmt : clear implicits.
