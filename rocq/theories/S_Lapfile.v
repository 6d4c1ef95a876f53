(** Specification side of the lap as a file. *)
From Coq Require Import String QArith Arith List.
From Verif Require Import M_Controls M_Lapfile.
Import ListNotations.
Local Open Scope string_scope.

(** Two controls with the same optimisation, mesh, values and derivatives. *)
Definition same_control (c c' : control_variable) : Prop :=
  c_kind c' = c_kind c /\ c_hypermesh c' = c_hypermesh c /\ c_values c' = c_values c /\ c_rates c' = c_rates c.

(** Two laps with the same formulation, mesh, states, controls, trajectory and multipliers. *)
Definition same_solution (l l' : lap) : Prop :=
  l_closed l' = l_closed l /\ l_direct l' = l_direct l /\ l_points l' = l_points l /\ l_s l' = l_s l /\
  l_inputs l' = l_inputs l /\ Forall2 same_control (l_controls l) (l_controls l') /\
  l_x l' = l_x l /\ l_y l' = l_y l /\ l_psi l' = l_psi l /\
  l_zl l' = l_zl l /\ l_zu l' = l_zu l /\ l_lambda l' = l_lambda l.

(** A control as the lap time computation leaves it, with [n] points. *)
Definition complete_control (direct : bool) (n : nat) (c : control_variable) : Prop :=
  match c_kind c with
  | DONT_OPTIMIZE => c_hypermesh c = [] /\ c_values c = [] /\ c_rates c = []
  | CONSTANT => c_hypermesh c = [] /\ length (c_values c) = 1%nat /\ c_rates c = []
  | HYPERMESH => c_hypermesh c <> [] /\ length (c_values c) = length (c_hypermesh c) /\ c_rates c = []
  | FULL_MESH => c_hypermesh c = [] /\ length (c_values c) = n /\ length (c_rates c) = (if direct then 0 else n)%nat
  end.

(** A computed lap: one state vector, position and heading for each point. *)
Definition complete_lap (nm : names) (l : lap) : Prop :=
  (1 <= l_points l)%nat /\ length (l_inputs l) = l_points l /\ Forall (fun row => length row = length (k_inputs nm)) (l_inputs l) /\
  length (l_s l) = l_points l /\ length (l_x l) = l_points l /\ length (l_y l) = l_points l /\ length (l_psi l) = l_points l /\
  length (l_controls l) = length (k_controls nm) /\ Forall (complete_control (l_direct l) (l_points l)) (l_controls l) /\
  l_iterations l <> None /\ l_zl l <> [] /\ l_zu l <> [] /\ l_lambda l <> [].

(** No two of the names written at the same place coincide. *)
Definition distinct_names (nm : names) : Prop :=
  NoDup ("laptime" :: k_key nm :: k_inputs nm ++ ["x"; "y"; "psi"]) /\ NoDup (k_controls nm).
