(** The arrays of a track, by name. *)
From stdpp Require Import base strings gmap list.
From Verif Require Import M_PyTrack.

Definition coordinate {N} (axis : N * N * N -> N) (l : list (N * N * N)) : list N := map axis l.
Definition first {N} (p : N * N * N) : N := let '(x, _, _) := p in x.
Definition second {N} (p : N * N * N) : N := let '(_, y, _) := p in y.
(** [track_array p name l]: the documentation lists [name], and [l] is what it says of the track. *)
Inductive track_array {N} (p : survey N) : string -> list N -> Prop :=
| a_s : track_array p "arclength" (p_s p)
| a_yaw : track_array p "heading-angle" (p_yaw p)
| a_curvature : track_array p "curvature" (p_yaw_dot p)
| a_nl : track_array p "distance-left-boundary" (p_nl p)
| a_nr : track_array p "distance-right-boundary" (p_nr p)
| a_cx : track_array p "centerline.x" (coordinate first (p_centre p))
| a_cy : track_array p "centerline.y" (coordinate second (p_centre p))
| a_lx : track_array p "left.x" (coordinate first (p_left p))
| a_ly : track_array p "left.y" (coordinate second (p_left p))
| a_rx : track_array p "right.x" (coordinate first (p_right p))
| a_ry : track_array p "right.y" (coordinate second (p_right p)).
(** Every array has one element for each point; the points can be counted with an int. *)
Definition surveyed {N} (p : survey N) : Prop :=
  (Z.of_nat (p_n p) < 2 ^ 31)%Z /\ length (p_s p) = p_n p /\ length (p_yaw p) = p_n p /\ length (p_yaw_dot p) = p_n p /\
  length (p_nl p) = p_n p /\ length (p_nr p) = p_n p /\ length (p_centre p) = p_n p /\ length (p_left p) = p_n p /\ length (p_right p) = p_n p.
