(** Model of the kerbs of a computed circuit (src/core/applications/circuit_preprocessor.hpp:730-759). Exact rationals instead of doubles. *)
From Coq Require Import QArith Bool Arith List.
From Verif Require Import M_Controls M_Kerb.
Import ListNotations.
Local Open Scope Q_scope.

(** One point of the circuit: arclength, lateral displacement of the path of minimum curvature, distances to the two boundaries, curvature. The
    vectors s, minimum_curvature.n, nl, nr and yaw_dot have one entry for each point. *)
Record cpoint := CPoint { c_s : Q; c_n : Q; c_nl : Q; c_nr : Q; c_k : Q }.

(** models: lateral_displacement_percentage, circuit_preprocessor.hpp:739-741. *)
Definition percentage (p : cpoint) : Q := (c_n p + c_nl p) * (1 / (c_nr p + c_nl p)).

(** models: the arguments of the two tables, circuit_preprocessor.hpp:743-757; Side::left is -1 and Side::right is 1, kerb.h:17-21. *)
Definition left_samples (ps : list cpoint) : list sample := map (fun p => MkSample (c_s p) (1 - percentage p) (c_k p)) ps.
Definition right_samples (ps : list cpoint) : list sample := map (fun p => MkSample (c_s p) (percentage p) (c_k p)) ps.
Definition side_left : Q := - (1).
Definition side_right : Q := 1.

(** models: circuit_preprocessor.hpp:731-758. The problem of minimum curvature is solved before (C103-C106); [compute]: options.compute_kerbs. *)
Definition circuit_kerbs (compute : bool) (width : Q) (use : bool) (ext : Q) (ps : list cpoint) : res (list kerb * list kerb) :=
  if compute then
    bind (kerb_compute side_left width use ext (left_samples ps)) (fun l =>
    bind (kerb_compute side_right width use ext (right_samples ps)) (fun r => Ok (l, r)))
  else Ok ([], []).
