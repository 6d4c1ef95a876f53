(** What the theorems on the wheels of the Formula 1 car say: how they roll, what they carry, how far they grip. *)
From Coq Require Import Reals.
From Verif Require Import M_Vec M_Tire M_Car M_Road M_F1.
Local Open Scope R_scope.

(** What the car holds after an evaluation on the plane, or at a point of a track. *)
Definition evaluation (sp ss : R -> R -> R) (g0 : R) (c : f1) (i : f1_input) (v : f1_eval) : Prop :=
  (exists psi, v = plane_eval sp ss g0 c i psi) \/
  (exists p n alpha, ro_dtime_ds (road_update (fr_r p) (fr_e p) (fr_de p) n alpha (i_u i) (i_v i) (i_yaw i)) <> 0 /\ v = snd (track_eval sp ss g0 c i p n alpha)).

(** A wheel at half the track of its axle from the middle, on the side [side] (-1: left, 1: right), turned by [delta]. The car goes with the
    velocity ([i_u], [i_v]) and turns at [i_yaw]. The wheel takes the velocity of the car at the point of the road below it; its slip is the
    part [kn] of the largest one for its load; its spin, side slip and forces follow. The load is the vertical force [z] put in, over the weight. *)
Definition wheel_rolls (sp : R -> R -> R) (g0 : R) (c : f1) (i : f1_input) (t : wheel) (axle : vec) (a : axle3) (side delta kn z : R) (w : tire_state) : Prop :=
  let load := - vz (t_F w) in
  let px := vx axle in
  let py := vy axle + side * (a_track a / 2) in
  let cx := i_u i - i_yaw i * py in
  let cy := i_v i + i_yaw i * px in
  let forward := cos delta * cx + sin delta * cy in
  let sideways := - sin delta * cx + cos delta * cy in
  vx (t_v w) = forward /\ vy (t_v w) = sideways /\
  load = sp (- (z * g0 * c_mass (f_chassis c))) (c_ref2 (f_chassis c)) /\
  t_kappa w = kn * maximum_kappa (w_model t) load /\ t_omega w = (1 + t_kappa w) * forward / w_R0 t /\ t_lambda w = - sideways / forward /\
  vx (t_F w) = simple_force_x sp (w_model t) (t_kappa w) (t_lambda w) load /\ vy (t_F w) = simple_force_y sp (w_model t) (t_kappa w) (t_lambda w) load.
Definition wheels_roll (sp : R -> R -> R) (g0 : R) (c : f1) (i : f1_input) (v : f1_eval) : Prop :=
  wheel_rolls sp g0 c i (f_fl c) (f_xf c) (f_front c) (-1) (i_delta i) (i_fl i) (i_zfl i) (v_fl v) /\
  wheel_rolls sp g0 c i (f_fr c) (f_xf c) (f_front c) 1 (i_delta i) (i_fr i) (i_zfr i) (v_fr v) /\
  wheel_rolls sp g0 c i (f_rl c) (f_xr c) (f_rear c) (-1) 0 (i_rl i) (i_zrl i) (v_rl v) /\
  wheel_rolls sp g0 c i (f_rr c) (f_xr c) (f_rear c) 1 0 (i_rr i) (i_zrr i) (v_rr v).

(** No wheel has a coefficient of friction above [mu]. *)
Definition tyre_grips (sp : R -> R -> R) (mu : R) (t : wheel) : Prop :=
  forall Fz, 0 <= Fz -> mu_x_max sp (w_model t) Fz <= mu /\ mu_y_max sp (w_model t) Fz <= mu.
Definition grips (sp : R -> R -> R) (mu : R) (c : f1) : Prop :=
  tyre_grips sp mu (f_fl c) /\ tyre_grips sp mu (f_fr c) /\ tyre_grips sp mu (f_rl c) /\ tyre_grips sp mu (f_rr c).
(** The loads of the four wheels. *)
Definition loads (v : f1_eval) : R := - vz (t_F (v_fl v)) - vz (t_F (v_fr v)) - vz (t_F (v_rl v)) - vz (t_F (v_rr v)).
Definition no_wind (c : f1) : Prop := ae_north (f_aero c) = 0 /\ ae_east (f_aero c) = 0.
(** Drag and downforce per squared speed. *)
Definition drag_per (c : f1) : R := 1 / 2 * ae_rho (f_aero c) * ae_cd (f_aero c) * ae_A (f_aero c).
Definition downforce_per (c : f1) : R := 1 / 2 * ae_rho (f_aero c) * ae_cl (f_aero c) * ae_A (f_aero c).
