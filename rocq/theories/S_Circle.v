(** What the theorems on the laps of a circle say. *)
From Coq Require Import Reals List.
From Verif Require Import M_Vec M_Tire M_Car M_Road M_F1 M_Kart6 M_KartCar M_RealLap S_F1 S_LapLimits.
Import ListNotations.
Local Open Scope R_scope.

(** A flat road of constant curvature [k] on the ground, with constant limits [wl] and [wr]: a circle, or a straight if k is 0. *)
Definition circle (k wl wr : R) (ci : circuit) : Prop := forall s,
  (exists r th, vz r = 0 /\ ci_frame ci s = flat_point r th k) /\ ci_left ci s = wl /\ ci_right ci s = wr.
(** The lap that has the same variables at each point. *)
Definition round_lap {P : Type} (mesh : list R) (p : P) : list (R * P) := map (fun s => (s, p)) mesh.
(** The mesh has an element. *)
Definition has_element (closed : bool) (mesh : list R) : Prop := if closed then (1 <= length mesh)%nat else (2 <= length mesh)%nat.
(** No equation of the car on the plane is out of balance: it keeps its velocities, wheel speeds and loads. *)
Definition f1_steady (eval : f1 -> f1_input -> R -> R -> R -> f1_vector * f1_vector) (c : f1) (i : f1_input) : Prop :=
  let d := snd (eval c i 0 0 0) in
  Forall (fun x => x = 0) [y_fl d; y_fr d; y_rl d; y_rr d; M_F1.y_u d; M_F1.y_v d; M_F1.y_yaw d; y_w d; y_roll d; y_pitch d; y_balance d].
Definition kart_steady (eval : kart -> kart_input -> R -> R -> R -> kart_vector * kart_vector) (c : kart) (i : kart_input) : Prop :=
  let d := snd (eval c i 0 0 0) in
  Forall (fun x => x = 0) [M_KartCar.y_u d; M_KartCar.y_v d; M_KartCar.y_yaw d; y_z d; y_phi d; y_mu d; y_dz d; y_dphi d; y_dmu d; y_omega d].
(** At a distance [n] of the centreline and with the heading [alpha] with respect to it, the car neither leaves its distance nor turns with respect to the
    road: its velocity is along the road, and it turns as the road does. *)
Definition follows (k n alpha u v yaw : R) : Prop :=
  u * sin alpha + v * cos alpha = 0 /\ yaw * (1 - n * k) = k * (u * cos alpha - v * sin alpha).
(** What the problem allows at a point of the circle (C153). [v]: what the car does there. *)
Definition f1_allowed (g0 : R) (c : f1) (wl wr : R) (l h : f1_input * R) (p : f1_point) (v : f1_eval) : Prop :=
  let half := a_track (f_front c) / 2 * cos (fp_alpha p) in
  let weight := c_mass (f_chassis c) * g0 in
  f1_inputs_between (fst l) (fp_in p) (fst h) /\ between (snd l) (fp_alpha p) (snd h) /\
  between (- wl) (fp_n p) wr /\ between (- wl) (fp_n p - half) wr /\ between (- wl) (fp_n p + half) wr /\
  slips_little (f_fl c) weight (v_fl v) /\ slips_little (f_fr c) weight (v_fr v) /\ slips_little (f_rl c) weight (v_rl v) /\ slips_little (f_rr c) weight (v_rr v).
Definition kart_allowed (wl wr : R) (l h : kart_input * R) (p : kart_point) (v : kart_eval) : Prop :=
  kart_inputs_between (fst l) (kp_in p) (fst h) /\ between (snd l) (kp_alpha p) (snd h) /\ between (- wl) (kp_n p) wr /\
  Forall (fun x => Rabs x <= 11 / 100)
    [t_kappa (x_left (n_rear v)); t_kappa (x_right (n_rear v)); t_lambda (x_left (n_front v)); t_lambda (x_right (n_front v)); t_lambda (x_left (n_rear v)); t_lambda (x_right (n_rear v))].
