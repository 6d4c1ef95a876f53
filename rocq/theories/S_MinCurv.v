(** Specification side of the minimum curvature path. *)
From Coq Require Import Reals Arith.
From Coq Require Import List.
From Verif Require Import M_Vec M_Road M_Preproc S_Preproc M_MinCurv.
Import ListNotations.
Local Open Scope R_scope.

(** Seen from above, two points [ds] apart along the path follow the unit tangent of the frame
    given by the angles, and the angles follow their rates (trapezoidal rule, up to [tol]). *)
Definition plan_element (tol ds turn : R) (p q : path_point) : Prop :=
  let ta := tangent (pp_e p) in let tb := tangent (pp_e q) in
  integrates tol ds (vx (pp_r p)) (vx (pp_r q)) (vx ta) (vx tb) /\
  integrates tol ds (vy (pp_r p)) (vy (pp_r q)) (vy ta) (vy tb) /\
  integrates tol ds (yaw (pp_e p)) (yaw (pp_e q) + turn) (yaw (pp_de p)) (yaw (pp_de q)) /\
  integrates tol ds (pitch (pp_e p)) (pitch (pp_e q)) (pitch (pp_de p)) (pitch (pp_de q)) /\
  integrates tol ds (roll (pp_e p)) (roll (pp_e q)) (roll (pp_de p)) (roll (pp_de q)).
(** The same for the height. *)
Definition height_element (tol ds : R) (p q : path_point) : Prop :=
  integrates tol ds (vz (pp_r p)) (vz (pp_r q)) (vz (tangent (pp_e p))) (vz (tangent (pp_e q))).

(** A property of every element between consecutive points, and of the element from the last point
    back to the first. *)
Definition every_element (P : R -> path_point -> path_point -> Prop) (c : path) : Prop :=
  (forall i d p q, nth_error (pa_delta c) i = Some d -> nth_error (pa_points c) i = Some p ->
     nth_error (pa_points c) (S i) = Some q -> P d p q).
Definition closing_element (P : R -> path_point -> path_point -> Prop) (c : path) : Prop :=
  forall d p q, nth_error (pa_delta c) (length (pa_delta c) - 1) = Some d ->
    nth_error (pa_points c) (length (pa_points c) - 1) = Some p -> nth_error (pa_points c) 0 = Some q -> P d p q.

(** Squared curvature of the path: squared rotation rate of the frame per length. *)
Definition curvature2 (p : path_point) : R := dot (curvature (pp_e p) (pp_de p)) (curvature (pp_e p) (pp_de p)).
Fixpoint path_integral (f : path_point -> R) (ds : list R) (ps : list path_point) : R :=
  match ds, ps with
  | d :: ds', p :: ((q :: _) as ps') => d / 2 * (f p + f q) + path_integral f ds' ps'
  | _, _ => 0
  end.

Definition flat (p : path_point) : Prop :=
  pitch (pp_e p) = 0 /\ roll (pp_e p) = 0 /\ pitch (pp_de p) = 0 /\ roll (pp_de p) = 0.

(** Central differences on a ring of [n] values, [h] apart. *)
Definition ring_next (n i : nat) : nat := if (S i =? n)%nat then 0 else S i.
Definition ring_prev (n i : nat) : nat := match i with O => (n - 1)%nat | S k => k end.
Definition ring_d1 (n : nat) (h : R) (w : nat -> R) (i : nat) : R := (w (ring_next n i) - w (ring_prev n i)) / (2 * h).
Definition ring_d2 (n : nat) (h : R) (w : nat -> R) (i : nat) : R := (w (ring_next n i) + w (ring_prev n i) - 2 * w i) / (h * h).
