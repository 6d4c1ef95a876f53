(** Model of the boundary errors reported by the circuit preprocessor
    (src/core/applications/circuit_preprocessor.hpp:643-646 and 680-728), for one boundary.
    Real numbers instead of doubles. *)
From Coq Require Import Reals List.
Import ListNotations.
Local Open Scope R_scope.

(** models: s[i] = s[i-1] + element_ds[i-1]*x[0], circuit_preprocessor.hpp:643-644, s[0] = 0.
    [ds] holds the lengths of the elements between consecutive points. *)
Fixpoint arclengths (s0 x0 : R) (ds : list R) : list R :=
  s0 :: match ds with [] => [] | d :: ds' => arclengths (s0 + d * x0) x0 ds' end.

(** State of the loop: maximum error, running L2 sum, previous error. *)
Record acc := Acc { a_max : R; a_sum : R; a_prev : R }.

(** models: body of the loop over the points, circuit_preprocessor.hpp:693-716: [s0], [s1] are
    s[i-1] and s[i], [e2] the squared distance of point i to the measured boundary returned by
    find_closest_point (lion). *)
Definition error_step (s0 s1 e2 : R) (a : acc) : acc :=
  let ds := s1 - s0 in
  let cur := sqrt e2 in
  Acc (Rmax cur (a_max a)) (a_sum a + 0.5 * ds * (a_prev a * a_prev a + cur * cur)) cur.

Fixpoint error_loop (s : list R) (e2 : list R) (a : acc) : acc :=
  match s, e2 with
  | s0 :: ((s1 :: _) as s'), e :: e2' => error_loop s' e2' (error_step s0 s1 e a)
  | _, _ => a
  end.

(** models: the whole computation, circuit_preprocessor.hpp:643-646 and 680-728. [first] is the
    squared distance of the first point, [rest] those of the other points, [ds] the lengths
    of the inner elements, [last_ds] that of the closing element. Returns the maximum error and
    the L2 error. *)
Definition boundary_errors (closed : bool) (x0 : R) (ds : list R) (last_ds first : R) (rest : list R) : R * R :=
  let s := arclengths 0 x0 ds in
  let s_back := last s 0 in
  let track_length := s_back + (if closed then last_ds * x0 else 0) in
  let e0 := sqrt first in
  let a := error_loop s rest (Acc e0 0 e0) in
  let sum := if closed
             then a_sum a + 0.5 * (track_length - s_back) * (a_prev a * a_prev a + sqrt first * sqrt first)
             else a_sum a in
  (a_max a, sqrt (sum / track_length)).
