(** Specification side of the kerbs of a computed circuit. *)
From Coq Require Import QArith Bool Arith List.
From Verif Require Import M_Controls M_Kerb M_CircuitKerbs.
Import ListNotations.
Local Open Scope nat_scope.

Definition no_point : cpoint := CPoint 0 0 0 0 0.
Definition point_at (ps : list cpoint) (i : nat) : cpoint := nth i ps no_point.
Definition s_at (ps : list cpoint) (i : nat) : Q := c_s (point_at ps i).

(** The path is nearer to a boundary than a fifth of the width of the track. The left boundary is at -nl and the right one at nr. *)
Definition near_left (p : cpoint) : Prop := (c_n p - - c_nl p < (1 # 5) * (c_nl p + c_nr p))%Q.
Definition near_right (p : cpoint) : Prop := (c_nr p - c_n p < (1 # 5) * (c_nl p + c_nr p))%Q.
(** The path is in the left or in the right half of the track. *)
Definition left_half (p : cpoint) : Prop := (c_n p - - c_nl p <= (1 # 2) * (c_nl p + c_nr p))%Q.
Definition right_half (p : cpoint) : Prop := (c_nr p - c_n p <= (1 # 2) * (c_nl p + c_nr p))%Q.

(** The points [i..j-1], two at least, are as [P] says, and neither the one before nor the one after them is. *)
Definition stretch (P : cpoint -> Prop) (ps : list cpoint) (i j : nat) : Prop :=
  i + 2 <= j /\ j <= length ps /\ (forall k, i <= k < j -> P (point_at ps k)) /\
  (0 < i -> ~ P (point_at ps (i - 1))) /\ (j < length ps -> ~ P (point_at ps j)).

Definition wide (ps : list cpoint) : Prop := forall i, i < length ps -> (0 < c_nl (point_at ps i) + c_nr (point_at ps i))%Q.
Definition arclength_increases (ps : list cpoint) : Prop := forall i, S i < length ps -> (s_at ps i < s_at ps (S i))%Q.

(** A kerb of the width the user gave, inwards or outwards, from the point [i] to the point [j]. *)
Definition kerb_between (width : Q) (use : bool) (ext : Q) (ps : list cpoint) (i j : nat) (k : kerb) : Prop :=
  k_start k = s_at ps i /\ k_finish k = s_at ps j /\
  (((k_width k == width)%Q /\ k_used k = false) \/ ((k_width k == ext * width)%Q /\ k_used k = use)).

(** The circuit seen in a mirror: left and right are exchanged, and so is the sign of the curvature. *)
Definition mirror_point (p : cpoint) : cpoint := CPoint (c_s p) (- c_n p) (c_nr p) (c_nl p) (- c_k p).
