(** Specification side of the tracks made of arcs. *)
From Coq Require Import Reals String List.
From Coquelicot Require Import Coquelicot.
From Verif Require Import M_Vec M_Arcs.
Import ListNotations.
Local Open Scope R_scope.
Local Open Scope string_scope.

(** A segment a user may write: a straight of positive length, or a corner of positive
    radius and sweep. *)
Definition proper (scale : R) (c : node) : Prop :=
  n_name c = "straight" /\ 0 < scale * n_length c \/
  n_name c = "corner" /\ 0 < scale * n_radius c /\ 0 < n_sweep c.

(** The declared radius is within the range the track tells from a straight. *)
Definition not_huge (scale : R) (c : node) : Prop := n_name c = "corner" -> scale * n_radius c <= 10 ^ 10.

Definition declared_length (scale : R) (c : node) : R :=
  if String.eqb (n_name c) "straight" then scale * n_length c else scale * n_radius c * n_sweep c.

(** Signed curvature as declared: zero on straights, 1/R on corners, negative to the
    left. *)
Definition declared_curvature (scale : R) (c : node) : R :=
  if String.eqb (n_name c) "straight" then 0
  else if String.eqb (n_direction c) "left" then - (1 / (scale * n_radius c)) else 1 / (scale * n_radius c).

(** Arclength at which child [i] starts. *)
Definition start_of (scale : R) (children : list node) (i : nat) : R :=
  fold_right Rplus 0 (map (declared_length scale) (firstn i children)).

(** [s] is strictly inside of child [i]. The last child has no end: what is beyond the
    end of the track prolongs it, and what is before the start prolongs the first. *)
Definition inside (scale : R) (children : list node) (i : nat) (s : R) : Prop :=
  (i < length children)%nat /\ (i <> 0%nat -> start_of scale children i < s) /\
  (S i <> length children -> s < start_of scale children (S i)).

(** A moving vector is continuous at [s]. *)
Definition vcontinuous (f : R -> vec) (s : R) : Prop :=
  continuous (fun x => vx (f x)) s /\ continuous (fun x => vy (f x)) s /\ continuous (fun x => vz (f x)) s.

(** The reported position, velocity and so on, where the track answers. *)
Definition reported (f : motion -> vec) (t : arcs) (s : R) : vec :=
  match M_Arcs.arcs_at t s with M_Controls.Ok m => f m | _ => vzero end.
