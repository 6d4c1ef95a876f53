(** What the theorems on the value minimised in double precision say. *)
From Coq Require Import Reals List.
From Verif Require Import S_Rounded M_RoundedTime S_RoundedTime.
Import ListNotations.
Local Open Scope R_scope.

(** Zero, or not below [2 ^ -100] (about [10 ^ -30]). *)
Definition zero_or_large (x : R) : Prop := x = 0 \/ / 2 ^ 100 <= Rabs x.
(** A control with its penalisation, in doubles of which neither the rates nor the differences of the values are tiny. *)
Record fair_control (c : full_control) : Prop := {
  fc_doubles : is_double (f_dissipation c) /\ Forall is_double (f_values c) /\ Forall is_double (f_rates c);
  fc_dissipation : 0 <= f_dissipation c /\ zero_or_large (f_dissipation c);
  fc_rates : forall i, zero_or_large (entry (f_rates c) i);
  fc_values : forall i j, zero_or_large (entry (f_values c) i - entry (f_values c) j) }.
(** No element is longer than [2 ^ 100]. *)
Definition not_huge (closed : bool) (L : R) (s : list R) : Prop :=
  (forall i, (S i < length s)%nat -> entry s (S i) - entry s i <= 2 ^ 100) /\ (closed = true -> L - entry s (length s - 1) <= 2 ^ 100).

Definition sum (l : list R) : R := fold_right Rplus 0 l.
(** The penalisations of an element without rounding: of the slope of a control, and of its rates at both ends. *)
Definition slope_cost (dissipation length left right : R) : R := dissipation * ((right - left) / length) ^ 2 * length.
Definition rates_cost (dissipation length left right : R) : R := dissipation / 2 * (left ^ 2 + right ^ 2) * length.
(** The values that the two formulations minimise, without rounding: the lap time and the penalisations of all the controls. The derivative formulation
    takes the rate at the first point of the lap for the one at the left end of each element but the closing one. *)
Definition exact_direct (closed : bool) (sigma L : R) (s d : list R) (cs : list full_control) : R :=
  let last := (length s - 1)%nat in
  exact_laptime closed sigma L s d 0 +
  sum (map (fun c => let v := entry (f_values c) in
    sum (map (fun i => slope_cost (f_dissipation c) (entry s (S i) - entry s i) (v i) (v (S i))) (seq 0 last)) +
    if closed then slope_cost (f_dissipation c) (L - entry s last) (v last) (v 0%nat) else 0) cs).
Definition exact_derivative (closed : bool) (sigma L : R) (s d : list R) (cs : list full_control) : R :=
  let last := (length s - 1)%nat in
  exact_laptime closed sigma L s d 0 +
  sum (map (fun c => let w := entry (f_rates c) in
    sum (map (fun i => rates_cost (f_dissipation c) (entry s (S i) - entry s i) (w 0%nat) (w (S i))) (seq 0 last)) +
    if closed then rates_cost (f_dissipation c) (L - entry s last) (w last) (w 0%nat) else 0) cs).
