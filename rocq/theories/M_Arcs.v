(** Tracks made of straights and corners (Track_by_arcs), over the reals. *)
From Coq Require Import Reals String List.
From Verif Require Import M_Vec M_Controls.
Import ListNotations.
Local Open Scope R_scope.

(** One child of the root node of the track file. A straight uses [n_length]; a corner
    uses [n_radius], [n_sweep] and [n_direction]. The attributes are taken as present
    (reading an absent attribute throws inside of lion). *)
Record node := MkNode { n_name : string; n_length : R; n_radius : R; n_sweep : R; n_direction : string }.

(** Entry [i] of starting_points, starting_directions, starting_arclength and curvature,
    track_by_arcs.h:71-74. *)
Record segment := MkSegment { g_point : vec; g_dir : vec; g_s : R; g_k : R }.

(** models: the data members, track_by_arcs.h:70-76. *)
Record arcs := MkArcs { a_segments : list segment; a_total : R; a_w : R }.

(** models: the vector {-d[1], d[0], 0.0} of track_by_arcs.hpp:48, 115-117, 140, 172 and 183. *)
Definition turned (d : vec) : vec := V (- vy d) (vx d) 0.

(** Division of a vector by a scalar (lion). *)
Definition vdiv (a : vec) (k : R) : vec := vscale (/ k) a.

(** models: the curvature read from a corner, track_by_arcs.hpp:38-47 and 79-87. *)
Definition corner_curvature (scale : R) (c : node) : R :=
  let k := 1 / (scale * n_radius c) in
  if String.eqb (n_direction c) "left" then - k else k.

(** models: the loop of the constructor and the last segment, track_by_arcs.hpp:23-90.
    The vectors are filled from the front, so that the entries of segment [i+1] are
    passed on to the next turn: [p], [d], [s] are the starting point, direction and
    arclength of the current segment and [total] is total_length so far. [first] is
    starting_points.front(). The name of the last child is not checked. *)
Fixpoint lay (scale : R) (closed : bool) (first : vec) (p d : vec) (s total : R) (children : list node)
  : res (list segment * R) :=
  match children with
  | [] => UB
  | [c] =>
      if String.eqb (n_name c) "straight" then
        if closed then Ok ([MkSegment p d s 0], total + norm (vsub p first))
        else Ok ([MkSegment p d s 0], total + scale * n_length c)
      else if String.eqb (n_name c) "corner" then
        Ok ([MkSegment p d s (corner_curvature scale c)], total + scale * n_radius c * n_sweep c)
      else Ok ([MkSegment p d s 0], total)
  | c :: rest =>
      if String.eqb (n_name c) "straight" then
        let L := scale * n_length c in
        bind (lay scale closed first (vadd p (vscale L d)) d (s + L) (total + L) rest) (fun r =>
        Ok (MkSegment p d s 0 :: fst r, snd r))
      else if String.eqb (n_name c) "corner" then
        let rad := scale * n_radius c in
        let theta := n_sweep c in
        let k := corner_curvature scale c in
        let n := turned d in
        let center_to_start := vdiv (vopp n) k in
        let center := vsub p center_to_start in
        let d1 := vdiv center_to_start (norm center_to_start) in
        let d2 := vdiv d (norm d) in
        let center_to_end := vadd (vscale (cos theta) d1) (vscale (sin theta) d2) in
        bind (lay scale closed first (vadd center (vscale rad center_to_end))
                  (vsub (vscale (cos theta) d2) (vscale (sin theta) d1))
                  (s + rad * theta) (total + rad * theta) rest) (fun r =>
        Ok (MkSegment p d s k :: fst r, snd r))
      else Throw
  end.

(** models: Track_by_arcs::Track_by_arcs(doc, scale, closed), track_by_arcs.hpp:10-93.
    [width] is the attribute of the root node. *)
Definition build (scale width : R) (closed : bool) (children : list node) : res arcs :=
  bind (lay scale closed vzero vzero (V 1 0 0) 0 0 children) (fun r =>
  Ok (MkArcs (fst r) (snd r) ((1 / 2) * scale * width))).

(** models: the search for the segment, track_by_arcs.hpp:147-153. *)
Fixpoint find_segment (l : list segment) (s : R) : option segment :=
  match l with
  | [] => None
  | [g] => Some g
  | g :: ((g' :: _) as rest) => if Rlt_dec s (g_s g') then Some g else find_segment rest s
  end.

(** Position, velocity, acceleration and jerk. *)
Record motion := MkMotion { m_r : vec; m_dr : vec; m_d2r : vec; m_d3r : vec }.

(** models: the evaluation within a segment, track_by_arcs.hpp:155-186. *)
Definition segment_at (g : segment) (s : R) : motion :=
  let s0 := s - g_s g in
  if Rlt_dec (Rabs (g_k g)) (1 / 10 ^ 10) then
    MkMotion (vadd (g_point g) (vscale s0 (g_dir g))) (g_dir g) vzero vzero
  else
    let theta := s0 * Rabs (g_k g) in
    let n := vdiv (turned (g_dir g)) (g_k g) in
    let center := vadd (g_point g) n in
    let d1 := vdiv (vopp n) (norm n) in
    let d2 := g_dir g in
    let center_to_end := vdiv (vadd (vscale (cos theta) d1) (vscale (sin theta) d2)) (Rabs (g_k g)) in
    let dr := vsub (vscale (cos theta) d2) (vscale (sin theta) d1) in
    MkMotion (vadd center center_to_end) dr (vscale (g_k g) (turned dr))
             (vopp (vscale (g_k g) (vscale (g_k g) dr))).

(** models: Track_by_arcs::at, track_by_arcs.hpp:134-187 (the assertion on [s] is not
    compiled in release builds). *)
Definition arcs_at (t : arcs) (s : R) : res motion :=
  match find_segment (a_segments t) s with
  | None => Throw
  | Some g => Ok (segment_at g s)
  end.

(** models: Track_by_arcs::position_at, track_by_arcs.hpp:106-119. *)
Definition position_at (t : arcs) (s w dw d2w : R) : res (vec * vec * vec) :=
  bind (arcs_at t s) (fun m =>
  Ok (vadd (m_r m) (vscale w (turned (m_dr m))),
      vadd (vadd (m_dr m) (vscale w (turned (m_d2r m)))) (vscale dw (turned (m_dr m))),
      vadd (vadd (vadd (m_d2r m) (vscale w (turned (m_d3r m)))) (vscale (2 * dw) (turned (m_d2r m))))
           (vscale d2w (turned (m_dr m))))).

(** The function atan2 of the C library. *)
Definition atan2 (y x : R) : R :=
  if Rlt_dec 0 x then atan (y / x)
  else if Rlt_dec x 0 then (if Rlt_dec y 0 then atan (y / x) - PI else atan (y / x) + PI)
  else if Rlt_dec 0 y then PI / 2 else if Rlt_dec y 0 then - (PI / 2) else 0.

(** models: Track_by_arcs::operator(), track_by_arcs.hpp:122-132: position, yaw and
    derivative of the yaw (the other angles are zero). *)
Definition frenet (t : arcs) (s : R) : res (vec * R * R) :=
  bind (arcs_at t s) (fun m =>
  Ok (m_r m, atan2 (vy (m_dr m)) (vx (m_dr m)), dot (turned (m_dr m)) (m_d2r m) / dot (m_dr m) (m_dr m))).

(** models: get_left_track_limit and get_right_track_limit, track_by_arcs.h:42-44. *)
Definition arcs_limit (t : arcs) (s : R) : R := a_w t.
