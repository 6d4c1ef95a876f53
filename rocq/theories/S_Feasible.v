(** Specification side for the extra constraints. *)
From Coq Require Import Reals List.
From Verif Require Import M_Vec M_Road.
Import ListNotations.
Local Open Scope R_scope.

(** Every value between its two bounds, one to one. *)
Definition within_bounds (b : list R * list R) (v : list R) : Prop :=
  length (fst b) = length v /\ length (snd b) = length v /\
  forall i, (i < length v)%nat -> nth i (fst b) 0 <= nth i v 0 <= nth i (snd b) 0.

(** The place of a point of the car: [x] forward and [y] to the right of its reference point, which is at the
    displacement [n] of the centreline point [r], in the frame of the road turned by [alpha]. *)
Definition point_of_the_car (r : vec) (e : euler) (n alpha x y : R) : vec :=
  vadd (vadd r (vscale n (normal e))) (mapply (frame_matrix e alpha) (V x y 0)).

(** A point is between the limits of the track at that arclength: its coordinate along the
    normal is between those of the two boundary points. *)
Definition between_limits (r : vec) (e : euler) (wl wr : R) (p : vec) : Prop :=
  dot (vsub (left_point r e wl) r) (normal e) <= dot (vsub p r) (normal e)
  <= dot (vsub (right_point r e wr) r) (normal e).
