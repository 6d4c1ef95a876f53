(** The initial estimate of the circuit preprocessor
    (src/core/applications/circuit_preprocessor.hpp:290-464): frame of the road at every point,
    Euler angles, their first and second derivatives, distances to the limits and their
    derivatives. Real numbers instead of doubles; vectors that are divided by a null norm are not
    distinguished. The points are at least two. *)
From Coq Require Import Reals List.
From Verif Require Import M_Vec M_Road M_Preproc.
Import ListNotations.
Local Open Scope R_scope.

(** models: Vector3d::normalize of lion. *)
Definition unit_vector (a : vec) : vec := vscale (/ norm a) a.

(** models: the tangents of all points but the last, circuit_preprocessor.hpp:330. *)
Fixpoint segment_directions (r : list vec) : list vec :=
  match r with
  | a :: ((b :: _) as r') => unit_vector (vsub b a) :: segment_directions r'
  | _ => []
  end.
(** models: the tangents, circuit_preprocessor.hpp:330-335. *)
Definition tangents (closed : bool) (r : list vec) : list vec :=
  let d := segment_directions r in
  d ++ [if closed then unit_vector (vsub (hd vzero r) (last r vzero)) else last d vzero].

(** models: the binormal and the normal of one point, circuit_preprocessor.hpp:338-341; [right] is
    the vector from the centre to the right limit. *)
Definition binormal_of (t right : vec) : vec := unit_vector (cross t right).
Definition normal_of (t b : vec) : vec := unit_vector (cross b t).
(** models: the matrix handed to rotmat2ea, circuit_preprocessor.hpp:346: its columns are the three vectors. *)
Definition frame_of (t right : vec) : mat :=
  let b := binormal_of t right in M3 t (normal_of t b) b.

(** models: the first differences between consecutive points, circuit_preprocessor.hpp:378-387 and
    429-440. *)
Fixpoint differences (s v : list R) : list R :=
  match s, v with
  | s0 :: ((s1 :: _) as s'), v0 :: ((v1 :: _) as v') => (v1 - v0) / (s1 - s0) :: differences s' v'
  | _, _ => []
  end.
(** models: the derivative of one quantity at all the points: circuit_preprocessor.hpp:378-387 and
    389-408 for the angles, 429-440 and 442-464 for the others. [turn] is added to the first value
    when the track closes, [gap] is the distance between the last and the first point. *)
Definition rates (closed : bool) (turn gap : R) (s v : list R) : list R :=
  let d := differences s v in
  d ++ [if closed then (hd 0 v + turn - last v 0) / gap else last d 0].

(** models: norm(r_center.front() - r_center.back()), circuit_preprocessor.hpp:391 and following. *)
Definition gap_of (r : list vec) : R := norm (vsub (hd vzero r) (last r vzero)).

Section Estimate.
(** rotmat2ea and wrap_to_pi of lion. *)
Context (rotmat2ea : mat -> euler) (wrap_to_pi : R -> R).

(** The lists computed by the function. *)
Record estimate := Estimate {
  e_yaw : list R; e_pitch : list R; e_roll : list R;
  e_yaw_dot : list R; e_pitch_dot : list R; e_roll_dot : list R;
  e_nl : list R; e_nr : list R;
  e_dyaw_dot : list R; e_dpitch_dot : list R; e_droll_dot : list R; e_dnl : list R; e_dnr : list R;
  e_direction : R }.

(** models: the angles of all the points before the yaw is made continuous,
    circuit_preprocessor.hpp:325-352. *)
Definition raw_angles (closed : bool) (r right : list vec) : list euler :=
  map (fun p => rotmat2ea (frame_of (fst p) (snd p))) (combine (tangents closed r) right).

(** models: circuit_preprocessor.hpp:290-464 with elevation. The direction of an open track is
    not computed. *)
Definition estimate_elevation (closed : bool) (s : list R) (r right : list vec) : estimate :=
  let es := raw_angles closed r right in
  let yaws := unwrap wrap_to_pi (map yaw es) in
  let pitches := map pitch es in let rolls := map roll es in
  let dir := track_direction wrap_to_pi (map yaw es) in
  let turn := 2 * PI * dir in let gap := gap_of r in
  let yd := rates closed turn gap s yaws in
  let pd := rates closed 0 gap s pitches in
  let rd := rates closed 0 gap s rolls in
  let n := map norm right in
  Estimate yaws pitches rolls yd pd rd n n
    (rates closed 0 gap s yd) (rates closed 0 gap s pd) (rates closed 0 gap s rd)
    (rates closed 0 gap s n) (rates closed 0 gap s n) dir.

(** models: the yaw of the flat track before it is made continuous, circuit_preprocessor.hpp:355-364,
    with atan2 of the standard library. *)
Context (atan2 : R -> R -> R).
Definition heading (a b : vec) : R := atan2 (vy b - vy a) (vx b - vx a).
Fixpoint segment_headings (r : list vec) : list R :=
  match r with
  | a :: ((b :: _) as r') => heading a b :: segment_headings r'
  | _ => []
  end.
Definition raw_headings (closed : bool) (r : list vec) : list R :=
  let d := segment_headings r in
  d ++ [if closed then heading (last r vzero) (hd vzero r) else last d 0].

(** models: circuit_preprocessor.hpp:290-464 for the flat track. [dl] and [dr] are the squared
    distances of the points to the measured limits (lion's find_closest_point). *)
Definition estimate_flat (closed : bool) (s : list R) (r : list vec) (dl dr : list R) : estimate :=
  let raw := raw_headings closed r in
  let yaws := unwrap wrap_to_pi raw in
  let dir := track_direction wrap_to_pi raw in
  let turn := 2 * PI * dir in let gap := gap_of r in
  let z := map (fun _ => 0) r in
  let yd := rates closed turn gap s yaws in
  let nl := map sqrt dl in let nr := map sqrt dr in
  Estimate yaws z z yd z z nl nr
    (rates closed 0 gap s yd) z z (rates closed 0 gap s nl) (rates closed 0 gap s nr) dir.
End Estimate.

(** models: the values written to the start vector at point [i], circuit_preprocessor.hpp:315-323 for
    the coordinates (the z of a flat track stays null, 293) and 490-524. *)
Definition guess_at (el : bool) (r : list vec) (e : estimate) (i : nat) : guess :=
  let at_point l := nth i l 0 in
  let p := nth i r vzero in
  Guess (vx p) (vy p) (if el then vz p else 0) (at_point (e_yaw e)) (at_point (e_pitch e)) (at_point (e_roll e))
    (at_point (e_yaw_dot e)) (at_point (e_pitch_dot e)) (at_point (e_roll_dot e)) (at_point (e_nl e)) (at_point (e_nr e))
    (at_point (e_dyaw_dot e)) (at_point (e_dpitch_dot e)) (at_point (e_droll_dot e)) (at_point (e_dnl e)) (at_point (e_dnr e)).
Definition guesses (el : bool) (r : list vec) (e : estimate) : list guess := map (guess_at el r e) (seq 0 (length r)).
