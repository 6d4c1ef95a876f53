(** Specification of the mean square error: trapezoidal rule. *)
From Coq Require Import Reals List.
Import ListNotations.
Local Open Scope R_scope.

(** Integral of the piecewise linear function through the points (position, value). *)
Fixpoint trapezoid (l : list (R * R)) : R :=
  match l with
  | p :: ((q :: _) as l') => (fst q - fst p) * (snd p + snd q) / 2 + trapezoid l'
  | _ => 0
  end.
