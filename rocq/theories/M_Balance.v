(** Bounds of the control rates of the Formula 1 car, and the roll balance of alternating
    points. *)
From Coq Require Import QArith Arith List.
From Verif Require Import M_Laptime.
Import ListNotations.
Local Open Scope nat_scope.

(** The roll balance is the equation of a quantity whose state is written as zero
    (chassis_car_3dof.hpp:232). On tracks with elevation it is listed among the differential
    equations (C58). [sign c i] is c at even points and -c at odd points. *)
Definition sign (c : Q) (i : nat) : Q := if Nat.even i then c else (- c)%Q.

(** models: optimal_laptime_derivative_control_bounds of the Formula 1 car,
    limebeer2014f1.h:227-230: three entries, for four controls ([deg] is lion's DEG). *)
Definition f1_rate_lb (deg : Q) : list Q := [(-(20) * deg)%Q; -(10); -(10)]%Q.
Definition f1_rate_ub (deg : Q) : list Q := [(20 * deg)%Q; 10; 10]%Q.
Definition f1_rates (deg : Q) (m : car) : Prop := n_controls m = 4 /\ rate_lb m = f1_rate_lb deg /\ rate_ub m = f1_rate_ub deg.

