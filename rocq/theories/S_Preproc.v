(** Specification side of the circuit preprocessor: what the returned circuit and the problem
    handed to the solver are expected to satisfy. *)
From Coq Require Import Reals ZArith.
From Coq Require Import List.
From Verif Require Import M_Vec M_Road M_Preproc.
Import ListNotations.
Local Open Scope R_scope.

(** [b] is [a] plus the integral of a rate over a length [ds] by the trapezoidal rule, up to
    [tol]. *)
Definition integrates (tol ds a b ra rb : R) : Prop := Rabs (b - a - ds / 2 * (ra + rb)) <= tol.

(** Two points, [ds] apart along the circuit, joined by the road: the centreline follows the unit
    tangent of the road frame, the angles their rates, the rates their derivatives, and the
    distances to the limits their slopes. [turn] is a heading gained between the two. *)
Definition road_element (tol ds turn : R) (p n : track_point) : Prop :=
  let ta := tangent (tp_angles p) in let tb := tangent (tp_angles n) in
  integrates tol ds (vx (tp_center p)) (vx (tp_center n)) (vx ta) (vx tb) /\
  integrates tol ds (vy (tp_center p)) (vy (tp_center n)) (vy ta) (vy tb) /\
  integrates tol ds (vz (tp_center p)) (vz (tp_center n)) (vz ta) (vz tb) /\
  integrates tol ds (yaw (tp_angles p)) (yaw (tp_angles n) + turn) (yaw (tp_rates p)) (yaw (tp_rates n)) /\
  integrates tol ds (pitch (tp_angles p)) (pitch (tp_angles n)) (pitch (tp_rates p)) (pitch (tp_rates n)) /\
  integrates tol ds (roll (tp_angles p)) (roll (tp_angles n)) (roll (tp_rates p)) (roll (tp_rates n)) /\
  integrates tol ds (yaw (tp_rates p)) (yaw (tp_rates n)) (yaw (tp_accel p)) (yaw (tp_accel n)) /\
  integrates tol ds (pitch (tp_rates p)) (pitch (tp_rates n)) (pitch (tp_accel p)) (pitch (tp_accel n)) /\
  integrates tol ds (roll (tp_rates p)) (roll (tp_rates n)) (roll (tp_accel p)) (roll (tp_accel n)) /\
  integrates tol ds (tp_nl p) (tp_nl n) (tp_dnl p) (tp_dnl n) /\
  integrates tol ds (tp_nr p) (tp_nr n) (tp_dnr p) (tp_dnr n).

(** Every pair of consecutive points is joined by the road; on a closed circuit the last point is
    joined to the first after [turns] full turns. *)
Definition is_road (tol : R) (closed : bool) (turns : R) (c : circuit_out) : Prop :=
  (forall i p n a b, nth_error (co_points c) i = Some p -> nth_error (co_points c) (S i) = Some n ->
     nth_error (co_s c) i = Some a -> nth_error (co_s c) (S i) = Some b -> road_element tol (b - a) 0 p n) /\
  (closed = true -> forall p n a, nth_error (co_points c) (length (co_points c) - 1) = Some p ->
     nth_error (co_points c) 0 = Some n -> nth_error (co_s c) (length (co_s c) - 1) = Some a ->
     road_element tol (co_length c - a) (2 * PI * turns) p n).

(** Seen from above, [p] is on the line through [l] and [r], up to [tol] times the squared width. *)
Definition on_line (tol : R) (l r p : vec) : Prop :=
  Rabs ((vx l - vx r) * (vy p - vy r) - (vy l - vy r) * (vx p - vx r)) <= tol * dot (vsub l r) (vsub l r).

(** The points of the mesh that carry the start (and, on an open circuit, the finish) line. *)
Definition starts_on_line (tol : R) (closed : bool) (left_curve right_curve : list vec) (c : circuit_out) : Prop :=
  (forall l r p, nth_error left_curve 0 = Some l -> nth_error right_curve 0 = Some r ->
     nth_error (co_points c) 0 = Some p -> on_line tol l r (tp_center p)) /\
  (closed = false -> forall l r p, nth_error left_curve (length left_curve - 1) = Some l ->
     nth_error right_curve (length right_curve - 1) = Some r ->
     nth_error (co_points c) (length (co_points c) - 1) = Some p -> on_line tol l r (tp_center p)).

(** What the documentation of the options promises to minimise at a point: squared distances to
    the limits and to the centreline, and the squared derivatives of the curvatures and of the
    track widths, each with its weight. *)
Definition density (el : bool) (w : weights) (n : node) : R :=
  eps_d w * (nd_left n + nd_right n) + eps_c w * nd_center n
  + eps_k w * (at_ (nu n) ct_dyaw_dot)^2
  + eps_n w * ((at_ (nu n) (ct_dnl el))^2 + (at_ (nu n) (ct_dnr el))^2)
  + (if el then eps_pitch w * (at_ (nu n) ct_dpitch_dot)^2 + eps_roll w * (at_ (nu n) ct_droll_dot)^2 else 0).

(** Trapezoidal integral of a density along consecutive points. *)
Fixpoint trapezoid (f : node -> R) (factor : R) (ds : list R) (ns : list node) : R :=
  match ds, ns with
  | d :: ds', p :: ((n :: _) as ns') => factor * d / 2 * (f p + f n) + trapezoid f factor ds' ns'
  | _, _ => 0
  end.

(** The same sum of squares, read on a point of the returned circuit: [d2] gives the squared
    distance of a point to a measured curve. The left edge counts against the left curve, the
    right edge against the right one. *)
Definition point_density (el : bool) (w : weights) (d2 : list vec -> vec -> R)
           (left_curve right_curve center_curve : list vec) (p : track_point) : R :=
  eps_d w * (d2 left_curve (tp_left p) + d2 right_curve (tp_right p)) + eps_c w * d2 center_curve (tp_center p)
  + eps_k w * (yaw (tp_accel p))^2 + eps_n w * ((tp_dnl p)^2 + (tp_dnr p)^2)
  + (if el then eps_pitch w * (pitch (tp_accel p))^2 + eps_roll w * (roll (tp_accel p))^2 else 0).
(** Trapezoidal integral of a density over points at given arclengths. *)
Fixpoint integral_along (f : track_point -> R) (s : list R) (ps : list track_point) : R :=
  match s, ps with
  | a :: ((b :: _) as s'), p :: ((n :: _) as ps') => (b - a) / 2 * (f p + f n) + integral_along f s' ps'
  | _, _ => 0
  end.

(** Strictly increasing list. *)
Definition increasing (l : list R) : Prop :=
  forall i a b, nth_error l i = Some a -> nth_error l (S i) = Some b -> a < b.

(** A vector is inside of its box. *)
Definition in_box (lb x ub : list R) : Prop :=
  length lb = length x /\ length ub = length x /\
  forall i a v b, nth_error lb i = Some a -> nth_error x i = Some v -> nth_error ub i = Some b -> a <= v <= b.

(** Place on the earth: longitudes that differ by full turns are the same. *)
Definition same_place (a b : coord) : Prop :=
  (exists k : Z, longitude a = longitude b + 360 * IZR k) /\ latitude a = latitude b /\ altitude a = altitude b.

(** [p] is a point of a polyline at least as close to [q] as any of its vertices. *)
Definition dist2 (a b : vec) : R := dot (vsub a b) (vsub a b).
Definition closest_vertex (curve : list vec) (q p : vec) : Prop :=
  In p curve /\ forall v, In v curve -> dist2 q p <= dist2 q v.

(** Slice [lo, hi) of a vector. *)
Definition slice {A} (l : list A) (lo hi : nat) : list A := firstn (hi - lo) (skipn lo l).

(** The nodes around a point of a boundary with [n] nodes: twice the same node, or the two ends
    of a segment. *)
Definition located (n : nat) (p : near) : Prop :=
  (near_j p = near_i p \/ near_j p = S (near_i p)) /\ (near_j p < n)%nat.
(** First node strictly after a point, first node not before it. *)
Definition node_after (p : near) : nat := S (near_i p).
Definition node_from (p : near) : nat := near_j p.

(** The difference of two angles is a whole number of turns. *)
Definition same_angle (a b : R) : Prop := exists k : Z, a = b + 2 * PI * IZR k.
