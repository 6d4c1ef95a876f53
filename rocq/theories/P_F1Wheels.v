(** C144: the wheels of the Formula 1 car: slips, loads, pedals and grip. *)
From Coq Require Import Reals Lra.
From Coquelicot Require Import Coquelicot.
From Verif Require Import M_Vec M_Tire M_Car M_Road M_F1 S_F1 S_F1Wheels L_F1 L_Tire P_Tire P_F1.
Local Open Scope R_scope.

Section Functions.
Context (sp ss : R -> R -> R) (g0 : R).

(** *** Slips and loads *)
Lemma rolls c i t axle a side delta kn z w (Om : vec) o :
  vz Om = i_yaw i -> vx o = 0 -> vy o = side * (a_track a / 2) ->
  wheel_rolls sp g0 c i t axle a side delta kn z
    (tyre_at sp t (vadd axle o) delta (V (i_u i) (i_v i) w) Om (tyre_load sp (f_chassis c) (force_z g0 c z)) kn).
Proof.
  intros Hz Hx Hy. unfold wheel_rolls, tyre_at, tire_update_from_kappa, tire_forces. cbv zeta. cbn [t_F t_v t_kappa t_lambda t_omega vx vy vz].
  set (load := tyre_load _ _ _). rewrite !Ropp_involutive.
  assert (E1 : vx (tyre_velocity (w_R0 t) (vadd axle o) delta (V (i_u i) (i_v i) w) Om) =
    cos delta * (i_u i - i_yaw i * (vy axle + side * (a_track a / 2))) + sin delta * (i_v i + i_yaw i * vx axle)).
  { rewrite <- Hz, <- Hy. destruct axle as [a1 a2 a3], o as [o1 o2 o3], Om as [m1 m2 m3]. cbn [vx] in Hx. subst o1.
    unfold tyre_velocity, tyre_w, contact_point, rot_z. cbv [vx vy vz vadd cross mtapply dot col1 col2 col3]. ring. }
  assert (E2 : vy (tyre_velocity (w_R0 t) (vadd axle o) delta (V (i_u i) (i_v i) w) Om) =
    - sin delta * (i_u i - i_yaw i * (vy axle + side * (a_track a / 2))) + cos delta * (i_v i + i_yaw i * vx axle)).
  { rewrite <- Hz, <- Hy. destruct axle as [a1 a2 a3], o as [o1 o2 o3], Om as [m1 m2 m3]. cbn [vx] in Hx. subst o1.
    unfold tyre_velocity, tyre_w, contact_point, rot_z. cbv [vx vy vz vadd cross mtapply dot col1 col2 col3]. ring. }
  unfold slip_lambda. rewrite E1, E2. repeat split. unfold load, tyre_load, neg_force, force_z. ring.
Qed.
Lemma update_rolls c i e ed alpha alphad w : vz (frame_omega e ed alpha alphad) = i_yaw i ->
  wheels_roll sp g0 c i (f1_update sp ss g0 c i e ed alpha alphad w).
Proof.
  intros H. unfold wheels_roll, f1_update. cbv zeta. cbn [v_fl v_fr v_rl v_rr].
  refine (conj _ (conj _ (conj _ _))); apply rolls; try exact H; cbn; try reflexivity; field.
Qed.
Theorem C144_slips c i v : evaluation sp ss g0 c i v -> wheels_roll sp g0 c i v.
Proof.
  intros [(psi & ->) | (p & n & alpha & H & ->)]; apply update_rolls.
  - rewrite plane_omega. reflexivity.
  - exact (C139_yaw_rate i p n alpha H).
Qed.
Lemma evaluated c i v : evaluation sp ss g0 c i v -> exists e ed alpha alphad w, v = f1_update sp ss g0 c i e ed alpha alphad w.
Proof. intros [(psi & ->) | (p & n & alpha & _ & ->)]; unfold plane_eval, track_eval; cbv zeta; cbn [snd]; eauto 8. Qed.

(** *** Pedals *)
Theorem C144_throttle c i v : evaluation sp ss g0 c i v -> (forall x e, sp x e = Rmax 0 x) -> 0 <= i_throttle i ->
  let speed := (t_omega (v_rl v) + t_omega (v_rr v)) / 2 in
  v_torque_f v = (0, 0) /\
  fst (v_torque_r v) + snd (v_torque_r v) = engine (a_engine (f_rear c)) (i_throttle i) speed + engine (a_boost_engine (f_rear c)) (i_throttle i * i_boost i) speed /\
  snd (v_torque_r v) - fst (v_torque_r v) = 2 * a_diff (f_rear c) * (t_omega (v_rl v) - t_omega (v_rr v)).
Proof.
  intros EV S T speed. destruct (evaluated c i v EV) as (e & ed & alpha & alphad & w & ->). unfold f1_update in *. cbv zeta in *. cbn [v_torque_f v_torque_r v_rl v_rr v_fl v_fr] in *.
  set (o1 := t_omega (tyre_at _ (f_fl c) _ _ _ _ _ _)). set (o2 := t_omega (tyre_at _ (f_fr c) _ _ _ _ _ _)).
  unfold axle_torques, brake. rewrite !S, (Rmax_left 0 (- i_throttle i)), (Rmax_right 0 (i_throttle i)) by lra. cbn [fst snd].
  replace (1 / 2 * (t_omega _ + t_omega _)) with speed by (unfold speed; field).
  set (e1 := engine _ _ _). set (e2 := engine _ _ _). clearbody e1 e2.
  split; [f_equal; ring|]. split; field.
Qed.
Theorem C144_brakes c i v : evaluation sp ss g0 c i v -> (forall x e, sp x e = Rmax 0 x) -> i_throttle i <= 0 ->
  e_direct (a_engine (f_rear c)) = false -> e_direct (a_boost_engine (f_rear c)) = false ->
  let pressed a := - i_throttle i * a_Tmax a in
  fst (v_torque_f v) = - ss (t_omega (v_fl v)) 1 * pressed (f_front c) * i_bias i /\
  snd (v_torque_f v) = - ss (t_omega (v_fr v)) 1 * pressed (f_front c) * i_bias i /\
  fst (v_torque_r v) = - ss (t_omega (v_rl v)) 1 * pressed (f_rear c) * (1 - i_bias i) - a_diff (f_rear c) * (t_omega (v_rl v) - t_omega (v_rr v)) /\
  snd (v_torque_r v) = - ss (t_omega (v_rr v)) 1 * pressed (f_rear c) * (1 - i_bias i) + a_diff (f_rear c) * (t_omega (v_rl v) - t_omega (v_rr v)).
Proof.
  intros EV S T D1 D2 pressed. destruct (evaluated c i v EV) as (e & ed & alpha & alphad & w & ->). unfold f1_update in *. cbv zeta in *. cbn [v_torque_f v_torque_r v_rl v_rr v_fl v_fr] in *.
  set (o1 := t_omega (tyre_at _ (f_fl c) _ _ _ _ _ _)). set (o2 := t_omega (tyre_at _ (f_fr c) _ _ _ _ _ _)).
  set (o3 := t_omega (tyre_at _ (f_rl c) _ _ _ _ _ _)). set (o4 := t_omega (tyre_at _ (f_rr c) _ _ _ _ _ _)).
  unfold axle_torques, brake, engine. rewrite !S, D1, D2, (Rmax_right 0 (- i_throttle i)), (Rmax_left 0 (i_throttle i)) by lra. cbn [fst snd].
  unfold pressed. rewrite !Rmult_0_l. unfold Rdiv. rewrite !Rmult_0_l.
  destruct (e_only_max _), (e_only_max _); repeat split; ring.
Qed.

(** *** Grip *)
(** A force within the ellipse of friction, in any direction. *)
Lemma grip_of_tyre t mu kappa lambda Fz a b : smooth_positive_part sp -> tyre_grips sp mu t -> 0 <= Fz -> a * a + b * b = 1 ->
  a * simple_force_x sp (w_model t) kappa lambda Fz + b * simple_force_y sp (w_model t) kappa lambda Fz <= mu * Fz.
Proof.
  intros S G HF U. destruct (G Fz HF) as [G1 G2]. destruct (C47_simple_ellipse sp (w_model t) kappa lambda Fz S) as [E _].
  destruct (mu_at_least sp S (w_model t) Fz) as [M1 M2].
  set (m1 := mu_x_max _ _ _) in *. set (m2 := mu_y_max _ _ _) in *. set (fx := simple_force_x _ _ _ _ _) in *. set (fy := simple_force_y _ _ _ _ _) in *.
  clearbody m1 m2 fx fy. set (p := fx / m1) in *. set (q := fy / m2) in *.
  assert (Ex : fx = m1 * p) by (unfold p; field; lra). assert (Ey : fy = m2 * q) by (unfold q; field; lra). clearbody p q. subst fx fy.
  assert (0 <= mu * Fz) by (apply Rmult_le_pos; lra).
  assert (Sq : (m1 * p) * (m1 * p) + (m2 * q) * (m2 * q) <= (mu * Fz) * (mu * Fz)).
  { assert (m1 * m1 <= mu * mu) by (apply Rmult_le_compat; lra). assert (m2 * m2 <= mu * mu) by (apply Rmult_le_compat; lra).
    assert (0 <= p * p) by apply Rle_0_sqr. assert (0 <= q * q) by apply Rle_0_sqr.
    apply Rle_trans with (mu * mu * (p * p + q * q)).
    - replace (m1 * p * (m1 * p) + m2 * q * (m2 * q)) with (m1 * m1 * (p * p) + m2 * m2 * (q * q)) by ring.
      rewrite Rmult_plus_distr_l. apply Rplus_le_compat; apply Rmult_le_compat_r; assumption.
    - replace (mu * Fz * (mu * Fz)) with (mu * mu * (Fz * Fz)) by ring. apply Rmult_le_compat_l; [apply Rle_0_sqr|]. cbn in E. lra. }
  set (X := m1 * p) in *. set (Y := m2 * q) in *. clearbody X Y. set (M := mu * Fz) in *. clearbody M.
  assert (C : (a * X + b * Y) * (a * X + b * Y) <= M * M).
  { assert (0 <= (a * Y - b * X) * (a * Y - b * X)) by apply Rle_0_sqr.
    assert (I : (a * X + b * Y) * (a * X + b * Y) + (a * Y - b * X) * (a * Y - b * X) = (a * a + b * b) * (X * X + Y * Y)) by ring.
    rewrite U in I. lra. }
  destruct (Rle_dec (a * X + b * Y) M) as [L|L]; [exact L|]. exfalso. apply Rnot_le_lt in L.
  assert (M * M < (a * X + b * Y) * (a * X + b * Y)) by (apply Rmult_le_0_lt_compat; lra). lra.
Qed.

(** What the tyres do to the car in a direction: [a], [b] in the axes of the car. *)
Lemma turned (a b delta : R) : a * a + b * b = 1 -> (a * cos delta + b * sin delta) * (a * cos delta + b * sin delta) + (b * cos delta - a * sin delta) * (b * cos delta - a * sin delta) = 1.
Proof. intros U. pose proof (sin2_cos2 delta) as E. unfold Rsqr in E. transitivity ((a * a + b * b) * (sin delta * sin delta + cos delta * cos delta)); [ring | rewrite U, E; ring]. Qed.
Theorem C144_grip c i v mu a b : evaluation sp ss g0 c i v -> smooth_positive_part sp -> 0 <= c_ref2 (f_chassis c) -> grips sp mu c -> a * a + b * b = 1 ->
  a * vx (vadd (v_Ff v) (v_Fr v)) + b * vy (vadd (v_Ff v) (v_Fr v)) <= mu * loads v.
Proof.
  intros EV S R2 (G1 & G2 & G3 & G4) U.
  assert (E1 : v_Ff v = axle_force (rot_z (i_delta i)) (rot_z (i_delta i)) (v_fl v) (v_fr v)) by (destruct (evaluated c i v EV) as (e & ed & alpha & alphad & w & ->); reflexivity).
  assert (E2 : v_Fr v = axle_force (rot_z 0) (rot_z 0) (v_rl v) (v_rr v)) by (destruct (evaluated c i v EV) as (e & ed & alpha & alphad & w & ->); reflexivity).
  destruct (C144_slips c i v EV) as (W1 & W2 & W3 & W4).
  assert (one : forall t axle ax side delta kn z w, tyre_grips sp mu t -> wheel_rolls sp g0 c i t axle ax side delta kn z w ->
    a * vx (mapply (rot_z delta) (t_F w)) + b * vy (mapply (rot_z delta) (t_F w)) <= mu * - vz (t_F w)).
  { intros t axle ax side delta kn z w G (_ & _ & L & _ & _ & _ & Fx & Fy).
    assert (P : 0 <= - vz (t_F w)) by (rewrite L; apply S; exact R2).
    pose proof (grip_of_tyre t mu (t_kappa w) (t_lambda w) (- vz (t_F w)) (a * cos delta + b * sin delta) (b * cos delta - a * sin delta) S G P (turned a b delta U)) as B.
    rewrite <- Fx, <- Fy in B. clear - B. destruct (t_F w) as [f1 f2 f3]. unfold rot_z. cbv [vx vy vz mapply vadd vscale col1 col2 col3] in *. lra. }
  pose proof (one _ _ _ _ _ _ _ _ G1 W1) as B1. pose proof (one _ _ _ _ _ _ _ _ G2 W2) as B2.
  pose proof (one _ _ _ _ _ _ _ _ G3 W3) as B3. pose proof (one _ _ _ _ _ _ _ _ G4 W4) as B4.
  rewrite E1, E2. unfold axle_force, loads. clear - B1 B2 B3 B4. cbn [vx vy vadd]. lra.
Qed.

(** *** The diagram of accelerations *)
Lemma plane_weight psi m : gravity_force (Euler 0 0 0) psi m g0 = V 0 0 (m * g0).
Proof. unfold gravity_force; cbn [pitch roll]. rewrite sin_0, cos_0. apply vec_eq; cbn; ring. Qed.
Lemma still_air_force c i psi : no_wind c ->
  v_Fa (plane_eval sp ss g0 c i psi) = V (- (drag_per c * sqrt (i_u i * i_u i + i_v i * i_v i)) * i_u i) (- (drag_per c * sqrt (i_u i * i_u i + i_v i * i_v i)) * i_v i)
    (downforce_per c * (i_u i * i_u i)).
Proof.
  intros [N E]. unfold plane_eval, f1_update. cbv zeta. cbn [v_Fa]. unfold lift_force, drag_force.
  assert (A : aerodynamic_velocity (f_aero c) (frame_matrix (Euler 0 0 0) psi) (V (i_u i) (i_v i) 0) = V (- i_u i) (- i_v i) 0).
  { unfold aerodynamic_velocity, wind_velocity. rewrite N, E. set (Q := frame_matrix _ _). clearbody Q. apply vec_eq; cbv [vx vy vz vadd vopp mtapply dot]; ring. }
  rewrite A. unfold aero_speed. cbn [vx vy]. replace (- i_u i * - i_u i + - i_v i * - i_v i) with (i_u i * i_u i + i_v i * i_v i) by ring.
  unfold drag_per, downforce_per. apply vec_eq; cbv [vx vy vz vadd vscale]; ring.
Qed.
Theorem C144_diagram c speed ax ay mu : smooth_positive_part sp -> 0 <= c_ref2 (f_chassis c) -> 0 < c_mass (f_chassis c) -> g0 <> 0 ->
  grips sp mu c -> 0 <= mu -> no_wind c -> 0 <= downforce_per c -> 0 <= speed ->
  turn (f1_on_plane sp ss g0) c speed ax ay ->
  let m := c_mass (f_chassis c) in
  (m * ax + drag_per c * (speed * speed)) ^ 2 + (m * ay) ^ 2 <= (mu * (m * g0 + downforce_per c * (speed * speed))) ^ 2.
Proof.
  intros S R2 Hm Hg G Mu W Dn Sp (i & psi & T) m.
  set (v := plane_eval sp ss g0 c i psi) in *.
  destruct T as (Hu & Hv & Hr & _ & _ & _ & _ & _ & Hw & _ & _ & _ & Hax & Hn).
  pose proof (sin2_cos2 psi) as P. unfold Rsqr in P.
  assert (Es : sqrt (i_u i * i_u i + i_v i * i_v i) = speed).
  { rewrite Hu, Hv. replace (speed * cos psi * (speed * cos psi) + - speed * sin psi * (- speed * sin psi)) with (speed * speed * (sin psi * sin psi + cos psi * cos psi)) by ring.
    rewrite P, Rmult_1_r. apply sqrt_square. exact Sp. }
  pose proof (still_air_force c i psi W) as Fa. fold v in Fa. rewrite Es in Fa.
  (* the equations of motion *)
  unfold f1_on_plane, cartesian_update in Hw, Hax, Hn. fold v in Hw, Hax, Hn. cbn [snd scaled f1_rates y_u y_v y_w] in Hw, Hax, Hn. rewrite !Rmult_1_r in *.
  assert (EM : v_motion v = equations3 (f_chassis c) (v_F v) (v_T v) (i_u i) (i_v i) 0 (V 0 0 (i_yaw i))).
  { unfold v, plane_eval, f1_update. rewrite plane_omega. reflexivity. }
  assert (EF : v_F v = vadd (vadd (vadd (v_Ff v) (v_Fr v)) (v_Fa v)) (V 0 0 (m * g0))).
  { rewrite <- (plane_weight psi). reflexivity. }
  rewrite EM in Hw, Hax, Hn. unfold equations3 in Hw, Hax, Hn. cbn [mo_a vx vy vz] in Hw, Hax, Hn. fold m in Hw, Hax, Hn.
  assert (EL : vz (vadd (v_Ff v) (v_Fr v)) = - loads v).
  { assert (E1 : v_Ff v = axle_force (rot_z (i_delta i)) (rot_z (i_delta i)) (v_fl v) (v_fr v)) by reflexivity.
    assert (E2 : v_Fr v = axle_force (rot_z 0) (rot_z 0) (v_rl v) (v_rr v)) by reflexivity.
    rewrite E1, E2. unfold loads, axle_force, rot_z. destruct (t_F (v_fl v)), (t_F (v_fr v)), (t_F (v_rl v)), (t_F (v_rr v)).
    cbv [M_Vec.vx M_Vec.vy M_Vec.vz mapply vadd vscale col1 col2 col3]. ring. }
  pose proof (fun a b U => C144_grip c i v mu a b (or_introl (ex_intro _ psi eq_refl)) S R2 G U) as Grip. cbv zeta in Grip.
  set (Ft := vadd (v_Ff v) (v_Fr v)) in *. rewrite EF, Fa in Hw, Hax, Hn. clear EF EM.
  set (L := loads v) in *. clearbody L Ft. clear v Fa. cbn [vadd vx vy vz] in Hw, Hax, Hn.
  fold m in Hm. clearbody m. set (d := drag_per c) in *. set (l := downforce_per c) in *. clearbody d l.
  destruct Ft as [fx fy fz]. cbn [vx vy vz] in *. subst fz.
  (* what the tyres carry *)
  assert (HL : L = m * g0 + l * (i_u i * i_u i)).
  { assert (Z : - L + l * (i_u i * i_u i) + m * g0 = 0); [|lra].
    transitivity (m * g0 * (((- L + l * (i_u i * i_u i) + m * g0) / m + (i_u i - - vz (c_com (f_chassis c)) * 0) * 0 - (i_v i + - vz (c_com (f_chassis c)) * 0) * 0) / g0)); [field; lra|].
    rewrite Hw. ring. }
  (* along and across the velocity *)
  assert (Along : fx * cos psi - fy * sin psi = m * ax + d * (speed * speed)).
  { rewrite <- Hax. rewrite Hu, Hv. 
    transitivity (fx * cos psi - fy * sin psi - d * speed * speed * (sin psi * sin psi + cos psi * cos psi) + d * (speed * speed)); [rewrite P; ring | field; lra]. }
  assert (Across : fx * sin psi + fy * cos psi = m * ay).
  { rewrite <- Hr.
    assert (Z : m * ((fx + - (d * speed) * i_u i + 0) / m + (i_v i + - vz (c_com (f_chassis c)) * 0) * i_yaw i - 0 * 0) * sin psi +
                m * ((fy + - (d * speed) * i_v i + 0) / m - (i_u i - - vz (c_com (f_chassis c)) * 0) * i_yaw i + 0 * 0) * cos psi = 0).
    { rewrite !Rmult_assoc, <- Rmult_plus_distr_l, Hn. ring. }
    rewrite Hu, Hv in Z.
    transitivity (m * (i_yaw i * speed) * (sin psi * sin psi + cos psi * cos psi)); [|rewrite P; ring].
    match type of Z with ?z = 0 => transitivity (m * (i_yaw i * speed) * (sin psi * sin psi + cos psi * cos psi) + z); [field; lra | rewrite Z; ring] end. }
  set (X := m * ax + d * (speed * speed)) in *. set (Y := m * ay) in *. clearbody X Y.
  assert (0 <= m * m) by apply Rle_0_sqr.
  assert (U2 : i_u i * i_u i <= speed * speed).
  { rewrite Hu. replace (speed * speed) with (speed * speed * (sin psi * sin psi + cos psi * cos psi)) by (rewrite P; ring).
    assert (0 <= speed * sin psi * (speed * sin psi)) by apply Rle_0_sqr. lra. }
  set (B := mu * (m * g0 + l * (speed * speed))).
  assert (HB : mu * L <= B). { unfold B. apply Rmult_le_compat_l; [exact Mu|]. rewrite HL. pose proof (Rmult_le_compat_l l _ _ Dn U2). lra. }
  destruct (Req_dec (X * X + Y * Y) 0) as [Z|Z].
  { replace (X ^ 2 + Y ^ 2) with (X * X + Y * Y) by ring. rewrite Z. apply pow2_ge_0. }
  assert (Pos : 0 < X * X + Y * Y) by (pose proof (Rle_0_sqr X); pose proof (Rle_0_sqr Y); unfold Rsqr in *; lra).
  set (r := sqrt (X * X + Y * Y)). assert (Hr2 : r * r = X * X + Y * Y) by (apply sqrt_sqrt; lra). assert (Rp : 0 < r) by (apply sqrt_lt_R0; exact Pos).
  (* the direction of the force of the tyres *)
  assert (Unit : (fx / r) * (fx / r) + (fy / r) * (fy / r) = 1).
  { assert (I : fx * fx + fy * fy = r * r). { rewrite Hr2, <- Along, <- Across. transitivity ((fx * fx + fy * fy) * (sin psi * sin psi + cos psi * cos psi)); [rewrite P; ring | ring]. }
    replace (fx / r * (fx / r) + fy / r * (fy / r)) with ((fx * fx + fy * fy) / (r * r)) by (field; lra). rewrite I. field. lra. }
  pose proof (Grip _ _ Unit) as Gr.
  assert (Er : fx / r * fx + fy / r * fy = r).
  { transitivity (r * (fx / r * (fx / r) + fy / r * (fy / r))); [field; lra | rewrite Unit; ring]. }
  rewrite Er in Gr. replace (X ^ 2 + Y ^ 2) with (r * r) by (rewrite Hr2; ring). replace (B ^ 2) with (B * B) by ring.
  apply Rmult_le_compat; lra.
Qed.
(** *** Power: drag and acceleration take no more than the engines give *)
Definition without_air (c : f1) : f1 :=
  F1 (f_chassis c) (MkAero 0 0 0 0 0 0) (f_xf c) (f_xr c) (f_front c) (f_rear c) (f_fl c) (f_fr c) (f_rl c) (f_rr c).
Theorem C144_power c i psi speed P Pb : smooth_positive_part sp -> smooth_sign_function ss -> sound_drivetrain c P Pb -> 0 <= i_bias i <= 1 ->
  on_its_wheels c -> c_mass (f_chassis c) <> 0 -> c_Izz (f_chassis c) <> 0 -> no_wind c -> 0 <= speed ->
  i_u i = speed * cos psi -> i_v i = - speed * sin psi ->
  i_yaw i = 0 \/ vx (c_aero_x (f_chassis c)) = 0 /\ vy (c_aero_x (f_chassis c)) = 0 ->
  let v := plane_eval sp ss g0 c i psi in
  let d := snd (f1_on_plane sp ss g0 c i 0 0 psi) in
  tyres_in_range c v -> t_omega (v_rl v) + t_omega (v_rr v) <> 0 ->
  y_fl d = 0 -> y_fr d = 0 -> y_rl d = 0 -> y_rr d = 0 -> y_yaw d = 0 ->
  let ax := y_u d * cos psi - y_v d * sin psi in
  c_mass (f_chassis c) * ax * speed + drag_per c * speed ^ 3 <= sp (i_throttle i) (a_smooth (f_rear c)) * (1000 * P + i_boost i * (1000 * Pb)).
Proof.
  intros S Sg Sd Hb W Hm Hz Nw Sp Hu Hv Hc v d Tr Ho D1 D2 D3 D4 D5 ax.
  pose proof (sin2_cos2 psi) as Py. unfold Rsqr in Py.
  pose proof (C138_power sp ss g0 c i 0 0 psi W Hm Hz) as Pw. cbv zeta in Pw. fold v d in Pw.
  assert (Z : forall a x, x * wheel_scaling a (c_mass (f_chassis c)) = 0 -> x = 0).
  { intros a x Hx. apply Rmult_integral in Hx. destruct Hx as [Hx|Hx]; [exact Hx | exfalso; exact (scaling_nonzero a _ Hm Hx)]. }
  unfold d, f1_on_plane, cartesian_update in D1, D2, D3, D4. fold v in D1, D2, D3, D4. cbn [snd scaled f1_rates y_fl y_fr y_rl y_rr] in D1, D2, D3, D4.
  rewrite Rmult_1_r in D1, D2, D3, D4. apply Z in D1, D2, D3, D4. rewrite D1, D2, D3, D4, D5 in Pw. rewrite !Rmult_0_r, !Rplus_0_r in Pw.
  assert (Eax : i_u i * y_u d + i_v i * y_v d = ax * speed) by (unfold ax; rewrite Hu, Hv; ring). rewrite Eax in Pw.
  assert (Es : sqrt (i_u i * i_u i + i_v i * i_v i) = speed).
  { rewrite Hu, Hv. replace (speed * cos psi * (speed * cos psi) + - speed * sin psi * (- speed * sin psi)) with (speed * speed * (sin psi * sin psi + cos psi * cos psi)) by ring.
    rewrite Py, Rmult_1_r. apply sqrt_square. exact Sp. }
  assert (S2 : i_u i * i_u i + i_v i * i_v i = speed * speed).
  { rewrite Hu, Hv. transitivity (speed * speed * (sin psi * sin psi + cos psi * cos psi)); [ring | rewrite Py; ring]. }
  assert (Ea : power_of_air c i v = - (drag_per c * speed ^ 3)).
  { unfold power_of_air. unfold v. rewrite still_air_force by exact Nw. rewrite Es. unfold point_velocity.
    destruct Hc as [Y | [X1 X2]].
    - rewrite Y. destruct (c_aero_x (f_chassis c)) as [x1 x2 x3]. cbv [dot vx vy vz vadd cross].
      transitivity (- (drag_per c * speed) * (i_u i * i_u i + i_v i * i_v i)); [ring | rewrite S2; ring].
    - destruct (c_aero_x (f_chassis c)) as [x1 x2 x3]. cbn [vx vy] in X1, X2. subst x1 x2. cbv [dot vx vy vz vadd cross].
      transitivity (- (drag_per c * speed) * (i_u i * i_u i + i_v i * i_v i)); [ring | rewrite S2; ring]. }
  assert (B : power_of_wheels v + power_of_slip c v <= sp (i_throttle i) (a_smooth (f_rear c)) * (1000 * P + i_boost i * (1000 * Pb))).
  { pose proof (C138_bound sp ss g0 (without_air c) i psi P Pb S Sg Sd Hb) as Q. cbv zeta in Q.
    assert (Q' : power_of_air (without_air c) i (plane_eval sp ss g0 (without_air c) i psi) = 0).
    { unfold power_of_air. rewrite still_air_force by (split; reflexivity).
      replace (drag_per (without_air c)) with 0 by (unfold drag_per; cbn; ring). replace (downforce_per (without_air c)) with 0 by (unfold downforce_per; cbn; ring).
      set (pv := point_velocity _ _ _ _). clearbody pv. destruct pv as [p1 p2 p3]. cbv [dot vx vy vz]. ring. }
    rewrite Q', Rplus_0_r in Q. apply Q; [exact Tr | | exact Ho].
    unfold still_air, without_air; cbn [f_aero ae_north ae_east ae_rho ae_cd ae_A f_chassis]. split; [reflexivity|]. split; [reflexivity|]. split; [lra|].
    unfold point_velocity. assert (0 <= speed * speed) by apply Rle_0_sqr.
    destruct Hc as [Y | [X1 X2]].
    - rewrite Y. destruct (c_aero_x (f_chassis c)) as [x1 x2 x3]. cbv [dot vx vy vz vadd cross]. lra.
    - destruct (c_aero_x (f_chassis c)) as [x1 x2 x3]. cbn [vx vy] in X1, X2. subst x1 x2. cbv [dot vx vy vz vadd cross]. lra. }
  clear - Pw Ea B. rewrite Ea in Pw. lra.
Qed.
End Functions.

Example C144_case : exists speed ax ay, smooth_positive_part positive_part /\ (forall x e, positive_part x e = Rmax 0 x) /\ 0 <= c_ref2 (f_chassis turning_car) /\
  0 < c_mass (f_chassis turning_car) /\ grips positive_part (5 / 4) turning_car /\ no_wind turning_car /\ 0 <= downforce_per turning_car /\
  0 < speed /\ 0 < ay /\ turn (f1_on_plane positive_part same_sign (981 / 100)) turning_car speed ax ay /\ ay <= 5 / 4 * (981 / 100) /\
  e_direct (a_engine (f_rear turning_car)) = false /\ e_direct (a_boost_engine (f_rear turning_car)) = false /\
  ro_dtime_ds (road_update (V 0 0 0) (Euler 1 0 0) (Euler (1 / 100) 0 0) 3 0 50 0 5) <> 0.
Proof.
  destruct C137_case as (speed & ax & ay & Sp & Ay & _ & T & _). exists speed, ax, ay.
  assert (G : grips positive_part (5 / 4) turning_car).
  { unfold grips, tyre_grips, turning_car, mu_x_max, mu_y_max, even_tyre, positive_part, mu_min; cbn [f_fl f_fr f_rl f_rr w_model q_mu_x_max1 q_mu_x_max2 q_mu_y_max1 q_mu_y_max2 q_Fz1 q_Fz2].
    repeat split; unfold Rmax; destruct (Rle_dec _ _); lra. }
  assert (Z : drag_per turning_car = 0 /\ downforce_per turning_car = 0) by (unfold drag_per, downforce_per, turning_car; cbn; split; ring). destruct Z as [Z1 Z2].
  assert (W : no_wind turning_car) by (split; reflexivity).
  pose proof (C144_diagram positive_part same_sign (981 / 100) turning_car speed ax ay (5 / 4) positive_part_ok ltac:(cbn; lra) ltac:(cbn; lra) ltac:(lra) G ltac:(lra) W ltac:(lra) ltac:(lra) T) as D.
  cbv zeta in D. rewrite Z1, Z2 in D. change (c_mass (f_chassis turning_car)) with 660 in D.
  split; [exact positive_part_ok|]. split; [reflexivity|]. split; [cbn; lra|]. split; [cbn; lra|]. split; [exact G|]. split; [exact W|]. split; [lra|].
  split; [exact Sp|]. split; [exact Ay|]. split; [exact T|]. split.
  { assert (0 <= (660 * ax + 0 * (speed * speed)) ^ 2) by apply pow2_ge_0. apply Rnot_lt_le. intros L.
    assert (Q : 5 / 4 * (981 / 100) * (5 / 4 * (981 / 100)) < ay * ay) by (apply Rmult_le_0_lt_compat; lra). cbn [pow] in D. lra. }
  split; [reflexivity|]. split; [reflexivity|].
  unfold road_update. cbn. rewrite ?sin_0, ?cos_0. cbn. match goal with |- ?x <> 0 => replace x with (97 / 100 / 50) by (cbn; field) end. lra.
Qed.
(** The car of C138 at 50 m/s, coasting. *)
Example C144_power_case : let i := coasting_input 50 in let v := plane_eval positive_part same_sign (981 / 100) coasting_car i 0 in
  let d := snd (f1_on_plane positive_part same_sign (981 / 100) coasting_car i 0 0 0) in
  sound_drivetrain coasting_car (735499 / 1000) 120 /\ 0 <= i_bias i <= 1 /\ on_its_wheels coasting_car /\ no_wind coasting_car /\
  i_u i = 50 * cos 0 /\ i_v i = - 50 * sin 0 /\ i_yaw i = 0 /\ tyres_in_range coasting_car v /\ t_omega (v_rl v) + t_omega (v_rr v) <> 0 /\
  y_fl d = 0 /\ y_fr d = 0 /\ y_rl d = 0 /\ y_rr d = 0 /\ y_yaw d = 0 /\ y_u d = - (5 / 2) /\ 0 < drag_per coasting_car.
Proof.
  destruct C138_case as (_ & _ & Sd & W & _ & _ & H & _). destruct (H 0 ltac:(lra)) as (_ & Hb & Rg & _ & Ho & _).
  assert (E : coasting 0 = 50) by (unfold coasting; field). unfold coast in *. cbn [m_input m_psi] in *. rewrite E in *.
  cbv zeta. rewrite coasting_on_plane by lra. cbn [snd y_fl y_fr y_rl y_rr y_yaw y_u].
  split; [exact Sd|]. split; [exact Hb|]. split; [exact W|]. split; [split; reflexivity|]. rewrite cos_0, sin_0. cbn [coasting_input i_u i_v i_yaw].
  split; [lra|]. split; [lra|]. split; [reflexivity|]. split; [exact Rg|]. split; [exact Ho|].
  unfold drag_per, coasting_car; cbn. repeat split; lra.
Qed.

Print Assumptions C144_slips.
Print Assumptions C144_throttle.
Print Assumptions C144_brakes.
Print Assumptions C144_grip.
Print Assumptions C144_diagram.
Print Assumptions C144_power.
