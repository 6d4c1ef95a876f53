(** Model of the time of a lap in double precision: the times exported at the points of the mesh, the lap time and the value
    minimised by the solver. Every operation is rounded, as in M_Rounded: no overflow. The values of the automatic differentiation
    type are computed by the same operations. Accesses outside of a vector give 0 here; they are the subject of M_Laptime. *)
From Coq Require Import Reals List.
From Verif Require Import M_Rounded.
Import ListNotations.
Local Open Scope R_scope.

(** models: v[i], with 0 outside. *)
Definition at_ (v : list R) (i : nat) : R := nth i v 0.

(** models: a control of the full mesh: its dissipation, its values and its derivatives,
    detail/optimal_laptime_control_variable.h:18-45. *)
Record full_control := FullControl { f_dissipation : R; f_values : list R; f_rates : list R }.

Section Lap.
(** [sigma]: options.sigma, [L]: track_length(), [s]: the mesh, [d]: derivative of the time with respect to the arclength at the points. *)
Variables (sigma L : R) (s d : list R).

(** models: the time of the points, optimal_laptime.hpp:612-626 and 1102-1116. [t0]: time of the first point. *)
Fixpoint time_at (t0 : R) (i : nat) : R :=
  match i with
  | O => t0
  | S j => fadd (time_at t0 j)
             (fmul (fsub (at_ s i) (at_ s j)) (fadd (fmul sigma (at_ d i)) (fmul (fsub 1 sigma) (at_ d j))))
  end.
(** models: the last point of the mesh. *)
Definition last_ : nat := length s - 1.
(** models: inputs[i][time] of all the points. *)
Definition times_rounded (t0 : R) : list R := map (time_at t0) (seq 0 (length s)).
(** models: laptime, optimal_laptime.hpp:629-633 and 1119-1122. *)
Definition laptime_rounded (closed : bool) (t0 : R) : R :=
  let t := time_at t0 last_ in
  if closed
  then fadd t (fmul (fsub L (at_ s last_)) (fadd (fmul (fsub 1 sigma) (at_ d last_)) (fmul sigma (at_ d 0))))
  else t.

(** models: the contribution of the element between the points [l] and [r], of length [ds], to the objective,
    optimal_laptime.hpp:1332, 1377, 1544, 1602. The direct formulation adds the products of the closing element in the other
    order ([swap]). *)
Definition element (swap : bool) (l r : nat) (ds : R) : R :=
  let a := fmul (fsub 1 sigma) (at_ d l) in
  let b := fmul sigma (at_ d r) in
  fmul ds (if swap then fadd b a else fadd a b).
(** models: the penalisation of a control, optimal_laptime.hpp:1364-1365, 1401-1402. *)
Definition value_penalty (l r : nat) (ds : R) (c : full_control) : R :=
  let derivative := fdiv (fsub (at_ (f_values c) r) (at_ (f_values c) l)) ds in
  fmul (fmul (f_dissipation c) (fmul derivative derivative)) ds.
(** models: optimal_laptime.hpp:1553, 1611. *)
Definition rate_penalty (l r : nat) (ds : R) (c : full_control) : R :=
  let sq x := fmul x x in
  fmul (fmul (fmul (1 / 2) (f_dissipation c)) (fadd (sq (at_ (f_rates c) l)) (sq (at_ (f_rates c) r)))) ds.
(** models: fg[0] += ... for all the values of a list. *)
Definition add_all (x : R) (l : list R) : R := fold_left fadd l x.
(** models: the length of the element that ends at point [i]. *)
Definition step_ (i : nat) : R := fsub (at_ s i) (at_ s (i - 1)).

(** models: the objective of the direct formulation, optimal_laptime.hpp:1309-1404: the elements, the penalisation of every control at
    every element, and the closing element with its penalisations. *)
Definition objective_direct (closed : bool) (cs : list full_control) : R :=
  let n := length s in
  let elements := map (fun i => element false (i - 1) i (step_ i)) (seq 1 (n - 1)) in
  let penalties := flat_map (fun c => map (fun i => value_penalty (i - 1) i (step_ i) c) (seq 1 (n - 1))) cs in
  let ds := fsub L (at_ s last_) in
  let closing := if closed then element true last_ 0 ds :: map (value_penalty last_ 0 ds) cs else [] in
  add_all 0 (elements ++ penalties ++ closing).
(** models: that of the derivative formulation, optimal_laptime.hpp:1519-1613. The penalisation of the element [i] takes the derivatives at
    the points [i - i] and [i]. *)
Definition objective_derivative (closed : bool) (cs : list full_control) : R :=
  let n := length s in
  let elements := flat_map (fun i => element false (i - 1) i (step_ i) :: map (rate_penalty (i - i) i (step_ i)) cs) (seq 1 (n - 1)) in
  let ds := fsub L (at_ s last_) in
  let closing := if closed then element false last_ 0 ds :: map (rate_penalty last_ 0 ds) cs else [] in
  add_all 0 (elements ++ closing).
End Lap.
