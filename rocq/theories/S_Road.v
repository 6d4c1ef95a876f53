(** Specification side of the road. *)
From Coq Require Import Reals.
From Coquelicot Require Import Coquelicot.
From Verif Require Import M_Vec.
Local Open Scope R_scope.

(** Orthonormal and right-handed. *)
Definition right_handed (t n b : vec) : Prop :=
  dot t t = 1 /\ dot n n = 1 /\ dot b b = 1 /\ dot t n = 0 /\ dot n b = 0 /\ dot t b = 0 /\ cross t n = b.
Definition rotation (m : mat) : Prop := right_handed (col1 m) (col2 m) (col3 m).

(** Derivative of a moving vector. *)
Definition vderive (f : R -> vec) (t : R) (d : vec) : Prop :=
  is_derive (fun x => vx (f x)) t (vx d) /\ is_derive (fun x => vy (f x)) t (vy d) /\ is_derive (fun x => vz (f x)) t (vz d).
