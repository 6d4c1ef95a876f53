(** Specification for the derivatives of a lap. *)
From Coq Require Import Reals.
From Coquelicot Require Import Coquelicot.
From Coq Require Import List.
Import ListNotations.
Local Open Scope R_scope.

(** A lap described without the code: at every point of the mesh (arclength, curvature) and,
    as functions of the parameter [p], lateral displacement, velocities and heading. *)
Record lap_point := LapPoint {
  lp_s : R; lp_kappa : R; lp_n : R -> R; lp_u : R -> R; lp_v : R -> R; lp_alpha : R -> R }.

(** Velocity along the road, and time spent per unit of arclength. *)
Definition along (q : lap_point) (p : R) : R :=
  lp_u q p * cos (lp_alpha q p) - lp_v q p * sin (lp_alpha q p).
Definition pace (q : lap_point) (p : R) : R := (1 - lp_kappa q * lp_n q p) / along q p.

(** Time of an element of the mesh: weights 1-sigma and sigma at its ends. *)
Definition element (sigma : R) (a : lap_point) (sb : R) (b : lap_point) (p : R) : R :=
  (sb - lp_s a) * ((1 - sigma) * pace a p + sigma * pace b p).
(** Time of the k-th point: sum over the elements before it. *)
Fixpoint time_at (sigma : R) (lap : list lap_point) (k : nat) (p : R) : R :=
  match lap, k with
  | a :: (b :: _) as rest, S k' => element sigma a (lp_s b) b p + time_at sigma rest k' p
  | _, _ => 0
  end.
(** Time of the whole lap; on a closed track of length [L] the last element goes from the last
    point of the mesh to the first one. *)
Definition lap_time (closed : bool) (sigma L : R) (first : lap_point) (rest : list lap_point) (p : R) : R :=
  time_at sigma (first :: rest) (length rest) p
  + if closed then element sigma (last rest first) L first p else 0.

Definition smooth_at (p : R) (q : lap_point) : Prop :=
  ex_derive (lp_n q) p /\ ex_derive (lp_u q) p /\ ex_derive (lp_v q) p /\ ex_derive (lp_alpha q) p.

(** [x] with its [j]-th entry replaced. *)
Fixpoint replace (j : nat) (a : R) (x : list R) : list R :=
  match x, j with
  | [], _ => []
  | _ :: x', O => a :: x'
  | b :: x', S j' => b :: replace j' a x'
  end.
Definition partial_derivative (f : list R -> R) (x : list R) (j : nat) : R :=
  Derive (fun a => f (replace j a x)) (nth j x 0).
