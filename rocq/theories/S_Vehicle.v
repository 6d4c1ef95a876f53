(** Specification side for the cars. *)
From Coq Require Import Reals.
From Coq Require Import Permutation List.
From Verif Require Import M_Vec M_Vehicle.
Import ListNotations.
Local Open Scope R_scope.

(** Every entry of the array has been written. *)
Definition initialised (a : array) : Prop := forall o, In o a -> o <> None.
(** The entry [i] holds the value [v]. *)
Definition holds (a : array) (i : nat) (v : R) : Prop := nth_error a i = Some (Some v).

(** The indices below [n] other than [t], each exactly once, in the two lists. *)
Definition covers_once (n t : nat) (l1 l2 : list nat) : Prop :=
  NoDup (l1 ++ l2) /\ forall i, In i (l1 ++ l2) <-> (i < n /\ i <> t)%nat.

(** A default value inside its bounds. *)
Definition in_range (r : range) : Prop := r_lb r <= r_def r <= r_ub r.

(** Lateral position, across the track, of the point of the car at [x] ahead and [y] to the
    right of the centre of mass. *)
Definition lateral_position (n alpha x y : R) : R := n + x * sin alpha + y * cos alpha.
