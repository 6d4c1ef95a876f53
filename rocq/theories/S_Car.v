(** What the properties of the cars say. *)
From Coq Require Import Reals.
From Coquelicot Require Import Coquelicot.
From Verif Require Import M_Vec.
Local Open Scope R_scope.

(** The moment of forces about a point: pairs of point of application and force, plus free
    torques. *)
Definition moment_about (c : vec) (p F : vec) : vec := cross (vsub p c) F.

(** Kinetic energy of a rigid body with principal axes. *)
Definition kinetic_energy (m Ixx Iyy Izz : R) (v om : vec) : R :=
  1 / 2 * m * dot v v + 1 / 2 * (Ixx * vx om * vx om + Iyy * vy om * vy om + Izz * vz om * vz om).
Definition angular_momentum (Ixx Iyy Izz : R) (om : vec) : vec := V (Ixx * vx om) (Iyy * vy om) (Izz * vz om).

(** Two vectors point the same way. *)
Definition along (a b : vec) : Prop := exists k, 0 <= k /\ a = vscale k b.
