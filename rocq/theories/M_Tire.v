(** Tyres, over the reals (src/core/tire). *)
From Coq Require Import Reals String.
From Verif Require Import M_Vec.
Local Open Scope R_scope.

(** lion's smooth_pos is not in the repository. It is a parameter of the model; this is the
    only property of it that the theorems ask for. *)
Definition smooth_positive_part (f : R -> R -> R) : Prop := forall x e, 0 <= e -> 0 <= f x e /\ x <= f x e.

(** ** Pacejka_simple_model *)

(** models: the parameters of Pacejka_simple_model, tire_pacejka.h:296-321. [q_mu_min] is 1
    and is not read from the database. *)
Record simple_model := MkSimple {
  q_Fz1 : R; q_Fz2 : R; q_mu_x_max1 : R; q_mu_x_max2 : R; q_mu_y_max1 : R; q_mu_y_max2 : R;
  q_kappa_max1 : R; q_kappa_max2 : R; q_lambda_max1_deg : R; q_lambda_max2_deg : R; q_Qx : R; q_Qy : R }.
Definition mu_min : R := 1.

(** models: initialise, tire_pacejka.hpp:182-192. *)
Definition DEG : R := PI / 180.
Definition q_lambda_max1 (m : simple_model) : R := q_lambda_max1_deg m * DEG.
Definition q_lambda_max2 (m : simple_model) : R := q_lambda_max2_deg m * DEG.
Definition q_Sx (m : simple_model) : R := PI / (2 * atan (q_Qx m)).
Definition q_Sy (m : simple_model) : R := PI / (2 * atan (q_Qy m)).

(** models: maximum_kappa and maximum_lambda, tire_pacejka.h:290-294. *)
Definition maximum_kappa (m : simple_model) (Fz : R) : R :=
  (Fz - q_Fz1 m) * (q_kappa_max2 m - q_kappa_max1 m) / (q_Fz2 m - q_Fz1 m) + q_kappa_max1 m.
Definition maximum_lambda (m : simple_model) (Fz : R) : R :=
  (Fz - q_Fz1 m) * (q_lambda_max2 m - q_lambda_max1 m) / (q_Fz2 m - q_Fz1 m) + q_lambda_max1 m.

Section Smooth.
Variable smooth_pos : R -> R -> R.

(** models: mu_x_max and mu_y_max, tire_pacejka.hpp:198 and 215. *)
Definition mu_x_max (m : simple_model) (Fz : R) : R :=
  smooth_pos ((Fz - q_Fz1 m) * (q_mu_x_max2 m - q_mu_x_max1 m) / (q_Fz2 m - q_Fz1 m) + q_mu_x_max1 m - mu_min) (1 / 10 ^ 5) + mu_min.
Definition mu_y_max (m : simple_model) (Fz : R) : R :=
  smooth_pos ((Fz - q_Fz1 m) * (q_mu_y_max2 m - q_mu_y_max1 m) / (q_Fz2 m - q_Fz1 m) + q_mu_y_max1 m - mu_min) (1 / 10 ^ 5) + mu_min.

(** models: rho, tire_pacejka.hpp:202-204 and 219-221. *)
Definition combined_slip (m : simple_model) (kappa lambda Fz : R) : R :=
  let kn := kappa / maximum_kappa m Fz in
  let ln := lambda / maximum_lambda m Fz in
  sqrt (kn * kn + ln * ln + 1 / 10 ^ 12).

(** models: Pacejka_simple_model::force_combined_longitudinal_magic, tire_pacejka.hpp:195-209. *)
Definition simple_force_x (m : simple_model) (kappa lambda Fz : R) : R :=
  let rho := combined_slip m kappa lambda Fz in
  let mu_x := mu_x_max m Fz * sin (q_Qx m * atan (q_Sx m * rho)) in
  mu_x * Fz * (kappa / maximum_kappa m Fz) / rho.

(** models: Pacejka_simple_model::force_combined_lateral_magic, tire_pacejka.hpp:212-226. *)
Definition simple_force_y (m : simple_model) (kappa lambda Fz : R) : R :=
  let rho := combined_slip m kappa lambda Fz in
  let mu_y := mu_y_max m Fz * sin (q_Qy m * atan (q_Sy m * rho)) in
  mu_y * Fz * (lambda / maximum_lambda m Fz) / rho.
End Smooth.

(** ** Pacejka_standard_model *)

(** models: the parameters of Pacejka_standard_model, tire_pacejka.h:242-272. *)
Record standard_model := MkStandard {
  p_Fz0 : R; p_lambdaFz0 : R; p_pCx1 : R; p_pDx1 : R; p_pEx1 : R; p_pKx1 : R; p_pKx2 : R; p_pKx3 : R;
  p_pCy1 : R; p_pDy1 : R; p_pEy1 : R; p_pKy1 : R; p_pKy2 : R; p_pKy4 : R;
  p_rBx1 : R; p_rCx1 : R; p_rBy1 : R; p_rCy1 : R }.

(** models: initialise, tire_pacejka.hpp:123-126. *)
Definition p_Fz0prime (m : standard_model) : R := p_lambdaFz0 m * p_Fz0 m.

(** models: force_pure_longitudinal_magic, tire_pacejka.hpp:129-142. *)
Definition stiffness_x (m : standard_model) (Fz : R) : R :=
  let dfz := (Fz - p_Fz0prime m) / p_Fz0prime m in
  (p_pKx1 m + p_pKx2 m * dfz) * exp (p_pKx3 m * dfz) / (p_pCx1 m * p_pDx1 m).
Definition magic (D C B E slip : R) : R := D * sin (C * atan (B * slip - E * (B * slip - atan (B * slip)))).
Definition force_pure_x (m : standard_model) (kappa Fz : R) : R :=
  if Req_EM_T (p_pDx1 m) 0 then 0
  else magic (p_pDx1 m * Fz) (p_pCx1 m) (stiffness_x m Fz) (p_pEx1 m) kappa.

(** lion's constant eps (a small positive number). *)
Definition eps : R := 1 / 10 ^ 12.

(** models: force_pure_lateral_magic, tire_pacejka.hpp:145-159. *)
Definition stiffness_y (m : standard_model) (Fz : R) : R :=
  if Rlt_dec eps (Rabs Fz)
  then (p_pKy1 m * p_Fz0prime m * sin (p_pKy4 m * atan (Fz / (p_Fz0prime m * p_pKy2 m)))) / (p_pCy1 m * p_pDy1 m * Fz)
  else p_pKy1 m * p_pKy4 m / (p_pKy2 m * p_pCy1 m * p_pDy1 m).
Definition force_pure_y (m : standard_model) (lambda Fz : R) : R :=
  magic (p_pDy1 m * Fz) (p_pCy1 m) (stiffness_y m Fz) (p_pEy1 m) lambda.

(** models: force_combined_longitudinal_magic, tire_pacejka.hpp:162-169. *)
Definition standard_force_x (m : standard_model) (kappa lambda Fz : R) : R :=
  cos (p_rCx1 m * atan (p_rBx1 m * lambda)) * force_pure_x m kappa Fz.

(** models: force_combined_lateral_magic, tire_pacejka.hpp:172-179. *)
Definition standard_force_y (m : standard_model) (kappa lambda Fz : R) : R :=
  cos (p_rCy1 m * atan (p_rBy1 m * kappa)) * force_pure_y m lambda Fz.

(** ** The tyre *)

(** What a tyre holds after an update, tire.h:203-215. *)
Record tire_state := MkTire { t_omega : R; t_w : R; t_v : vec; t_kappa : R; t_lambda : R; t_F : vec; t_T : vec }.

Inductive tire_type := NORMAL | ONLY_LATERAL.

(** models: kappa() and lambda(), tire.h:153-157. *)
Definition slip_kappa (R0 omega : R) (v : vec) : R := (omega * R0 - vx v) / vx v.
Definition slip_lambda (v : vec) : R := - vy v / vx v.

(** models: get_contact_point, tire.h:108. *)
Definition contact_point (R0 w : R) : vec := V 0 0 (R0 - w).

(** models: update_self(Fz), tire_pacejka.hpp:107-120. [fx] and [fy] are the forces of the
    model in use as functions of kappa, lambda and Fz. *)
Definition tire_forces (fx fy : R -> R -> R -> R) (R0 omega w : R) (v : vec) (kappa lambda Fz : R) : tire_state :=
  let F := V (fx kappa lambda Fz) (fy kappa lambda Fz) (- Fz) in
  MkTire omega w v kappa lambda F (cross (contact_point R0 w) F).

(** models: Tire::update(omega), tire.hpp:56-75, followed by update_self(),
    tire_pacejka.hpp:94-103. The deformation [w], its rate [dw] and the velocity of the
    contact point [v] come from the frame (lion). *)
Definition tire_update (smooth_pos : R -> R -> R) (ty : tire_type) (fx fy : R -> R -> R -> R)
  (R0 kt ct ref2 : R) (w dw : R) (v : vec) (omega : R) : tire_state :=
  let omega := match ty with NORMAL => omega | ONLY_LATERAL => vx v / R0 end in
  tire_forces fx fy R0 omega w v (slip_kappa R0 omega v) (slip_lambda v) (smooth_pos (kt * w + ct * dw) ref2).

(** models: Tire::update_from_kappa, tire.hpp:79-103, called with
    kappa_dimensionless*maximum_kappa(Fz), and update_self(Fz), tire_pacejka.hpp:66-73. *)
Definition tire_update_from_kappa (kappa_max : R -> R) (fx fy : R -> R -> R -> R) (R0 : R) (w : R) (v : vec)
  (Fz kappa_dimensionless : R) : tire_state :=
  let kappa := kappa_dimensionless * kappa_max Fz in
  tire_forces fx fy R0 ((1 + kappa) * vx v / R0) w v kappa (slip_lambda v) Fz.

(** models: get_dissipation, tire.h:127. *)
Definition dissipation (R0 : R) (t : tire_state) : R :=
  vx (t_F t) * (vx (t_v t) - t_omega t * R0) + vy (t_F t) * vy (t_v t).

(** models: get_longitudinal_torque_at_wheel_center, tire.h:105. *)
Definition wheel_torque (R0 : R) (t : tire_state) : R := - vx (t_F t) * (R0 - t_w t).
