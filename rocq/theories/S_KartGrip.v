(** What the theorems on the grip of the kart say. *)
From Coq Require Import Reals.
From Verif Require Import M_Vec M_Tire M_Car M_F1 M_Kart6 M_KartCar.
Local Open Scope R_scope.

(** The coefficient of friction of a tyre, in every direction, is at most [mu]: of a wheel without a shaft only the lateral one counts. *)
Definition sticks (mu : R) (t : ktyre) : Prop :=
  0 <= mu /\ 0 <= k_ref2 t /\
  match k_type t with
  | NORMAL => p_pDx1 (k_model t) * p_pDx1 (k_model t) + p_pDy1 (k_model t) * p_pDy1 (k_model t) <= mu * mu
  | ONLY_LATERAL => k_R0 t <> 0 /\ p_pDy1 (k_model t) * p_pDy1 (k_model t) <= mu * mu
  end.
(** The loads of the four wheels, and the forces of the axles together. *)
Definition kart_loads (v : kart_eval) : R :=
  - vz (t_F (x_left (n_front v))) - vz (t_F (x_right (n_front v))) - vz (t_F (x_left (n_rear v))) - vz (t_F (x_right (n_rear v))).
Definition kart_grip (v : kart_eval) : vec := vadd (x_F (n_front v)) (x_F (n_rear v)).
Definition kart_no_wind (c : kart) : Prop := ae_north (c_aero c) = 0 /\ ae_east (c_aero c) = 0.
(** Drag and downforce per squared speed. *)
Definition kart_drag (c : kart) : R := 1 / 2 * ae_rho (c_aero c) * ae_cd (c_aero c) * ae_A (c_aero c).
Definition kart_downforce (c : kart) : R := 1 / 2 * ae_rho (c_aero c) * ae_cl (c_aero c) * ae_A (c_aero c).
