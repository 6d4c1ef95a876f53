(** Property theorems C148: the energy of the kart. *)
From Coq Require Import Reals Lra List.
From Coquelicot Require Import Coquelicot.
From Verif Require Import M_Vec M_Tire M_Car M_Road M_F1 M_Kart6 M_KartCar S_F1 S_Kart6 P_Kart6 S_KartCar S_KartGrip S_KartEnergy L_F1 P_Tire P_F1 P_F1Wheels P_KartCar P_KartGrip.
Local Open Scope R_scope.

Section Functions.
Context (sp ss : R -> R -> R) (linsolve : mat -> vec -> vec).

(** What a wheel does to the kart: its force at its point of the road. *)
Lemma wheel_power q t p delta shaft w : rolls_at q t p delta shaft w ->
  let F := kart_wheel_force delta w in
  vx F * (q_u q - q_omega q * vy p) + vy F * (q_v q + q_omega q * vx p) = vx (t_F w) * vx (t_v w) + vy (t_F w) * vy (t_v w).
Proof.
  intros (E1 & E2 & _) F. rewrite E1, E2. unfold F, kart_wheel_force. destruct (t_F w) as [f1 f2 f3], p as [p1 p2 p3]. unfold rot_z.
  cbv [vx vy vz mapply mtapply vadd vscale dot cross col1 col2 col3]. ring.
Qed.

(** ** C148 *)
Theorem C148_power_partial c i x y psi : solves linsolve -> determined (c_body c) (i_state i) -> k_mass (c_body c) <> 0 -> c_inertia c <> 0 -> kart_drive c ->
  let v := kart_plane_eval sp ss linsolve c i psi in
  let d := snd (kart_on_plane sp ss linsolve c i x y psi) in
  let torque := axle6_torque sp ss (c_engine c) (c_Tmax c) (c_smooth c) (i_throttle i) (i_omega i) in
  kart_energy_rate c i d =
  kart_shaft_power torque i + kart_slip_power c v + kart_air_power c i v + kart_attitude_power c i d + kart_free_power i v.
Proof.
  intros HS HD Hm HI (Ty & HR & Tr) v d torque.
  destruct (C142_slips sp ss linsolve c i psi) as (S1 & S2 & S3 & S4). fold v in S1, S2, S3, S4.
  pose proof (wheel_power _ _ _ _ _ _ S1) as W1. pose proof (wheel_power _ _ _ _ _ _ S2) as W2.
  pose proof (wheel_power _ _ _ _ _ _ S3) as W3. pose proof (wheel_power _ _ _ _ _ _ S4) as W4.
  pose proof (C147_front sp ss linsolve c i 0 (Euler 0 0 0) (Euler 0 0 0) psi (q_omega (i_state i)) 0 Ty HR) as Fr. cbv zeta in Fr.
  change (kart_update sp ss linsolve c i 0 (Euler 0 0 0) (Euler 0 0 0) psi (q_omega (i_state i)) 0) with v in Fr.
  destruct (Fr _ (or_introl eq_refl)) as (_ & F1 & _). destruct (Fr _ (or_intror eq_refl)) as (_ & F2 & _). clear Fr.
  destruct S3 as (_ & _ & O3 & _), S4 as (_ & _ & O4 & _). rewrite Tr in O3, O4. clear S1 S2.
  assert (ET : n_T v = moment_on c i v) by apply C142_moment.
  assert (EF : n_F v = forces_on (k_mass (c_body c)) i v).
  { assert (E0 : n_F v = total_force6 (c_body c) (axle_force (rot_z (i_delta i)) (rot_z (i_delta i)) (x_left (n_front v)) (x_right (n_front v)))
      (axle_force (rot_z 0) (rot_z 0) (x_left (n_rear v)) (x_right (n_rear v))) (n_Fa v)) by reflexivity.
    rewrite E0. unfold total_force6, axle_force, forces_on, kart_wheels, kart_wheel_force; cbn [map fold_right fst snd].
    generalize (mapply (rot_z (i_delta i)) (t_F (x_left (n_front v)))) (mapply (rot_z (i_delta i)) (t_F (x_right (n_front v))))
      (mapply (rot_z 0) (t_F (x_left (n_rear v)))) (mapply (rot_z 0) (t_F (x_right (n_rear v)))). intros. vring. }
  assert (EA : n_acc v = vadd (vopp (cross (V 0 0 (q_omega (i_state i))) (V (q_u (i_state i)) (q_v (i_state i)) 0))) (vscale (/ k_mass (c_body c)) (n_F v))).
  { rewrite <- (plane_omega psi (q_omega (i_state i))). reflexivity. }
  assert (EM : vz (mapply (euler_m (c_body c) (i_state i)) (n_ang v)) = vz (vadd (vopp (euler_lhs (c_body c) (i_state i) (vx (n_acc v)) (vy (n_acc v)))) (n_T v))).
  { f_equal. assert (E0 : n_ang v = linsolve (euler_m (c_body c) (i_state i)) (vadd (vopp (euler_lhs (c_body c) (i_state i) (vx (n_acc v)) (vy (n_acc v)))) (n_T v))) by reflexivity.
    rewrite E0. apply HS. apply determined_det. exact HD. }
  assert (EO : n_domega v = (torque + wheel_torque (k_R0 (c_tr c)) (x_left (n_rear v)) + wheel_torque (k_R0 (c_tr c)) (x_right (n_rear v))) / c_inertia c) by reflexivity.
  assert (Ed : y_u d = vx (n_acc v) /\ y_v d = vy (n_acc v) /\ y_yaw d = vz (n_ang v) /\ y_omega d = n_domega v /\ y_dphi d = vx (n_ang v)).
  { unfold d, kart_on_plane, cartesian_update. cbn [snd kart_scaled kart_rates y_u y_v y_yaw y_omega y_dphi]. fold v. repeat split; ring. }
  destruct Ed as (D1 & D2 & D3 & D4 & D5).
  unfold kart_energy_rate, kart_shaft_power, kart_slip_power, kart_air_power, kart_attitude_power, kart_free_power, dissipation.
  rewrite D1, D2, D3, D4, D5, EO. rewrite EF in EA. rewrite ET in EM. clear D1 D2 D3 D4 D5 EO ET EF.
  unfold wheel_torque. rewrite F1, F2, O3, O4. rewrite F1 in W1. rewrite F2 in W2. clear F1 F2 O3 O4 d HD HS Ty HR Tr.
  rewrite EA. unfold euler_m, euler_lhs in EM. rewrite EA in EM. clear EA.
  unfold forces_on, moment_on, moment_sum, kart_wheels, kart_patches in *. cbn [map combine fold_right fst snd nth] in *.
  set (F1 := kart_wheel_force (i_delta i) (x_left (n_front v))) in *. set (F2 := kart_wheel_force (i_delta i) (x_right (n_front v))) in *.
  set (F3 := kart_wheel_force 0 (x_left (n_rear v))) in *. set (F4 := kart_wheel_force 0 (x_right (n_rear v))) in *.
  set (t1 := x_left (n_front v)) in *. set (t2 := x_right (n_front v)) in *. set (t3 := x_left (n_rear v)) in *. set (t4 := x_right (n_rear v)) in *.
  unfold com_position in EM.
  destruct (n_ang v) as [a1 a2 a3], (n_Fa v) as [A1 A2 A3], F1 as [X1 Y1 Z1], F2 as [X2 Y2 Z2], F3 as [X3 Y3 Z3], F4 as [X4 Y4 Z4].
  clearbody t1 t2 t3 t4 torque. clear v.
  cbn [vx vy vz mapply vadd vopp vscale cross col1 col2 col3 vzero] in *. unfold vzero in *. cbn [vx vy vz] in *.
  set (u := q_u (i_state i)) in *. set (w := q_v (i_state i)) in *. set (r := q_omega (i_state i)) in *. set (m := k_mass (c_body c)) in *. set (J := c_inertia c) in *.
  clearbody u w m J.
  assert (Ez : k_Izz (c_body c) * (r * a3) = r * (k_Izz (c_body c) * a3)) by ring. rewrite Ez. clear Ez.
  match type of EM with ?l = ?rr => assert (Iz : k_Izz (c_body c) * a3 = rr + k_Ixz (c_body c) * a1 - 2 * k_Ixz (c_body c) * q_mu (i_state i) * a3) by (rewrite <- EM; ring) end.
  rewrite Iz. clear Iz EM.
  match goal with |- _ + ?JJ = _ => replace JJ with (i_omega i * (torque + - vx (t_F t3) * (k_R0 (c_tr c) - t_w t3) + - vx (t_F t4) * (k_R0 (c_tr c) - t_w t4))) by (field; exact HI) end.
  match goal with |- m * ?a + _ + _ = _ => replace (m * a) with (u * (X1 + X2 + X3 + X4 + A1) + w * (Y1 + Y2 + Y3 + Y4 + A2)) by (field; exact Hm) end.
  assert (Q1 : vy (t_F t1) * vy (t_v t1) = X1 * (u - r * (vy (k_com (c_body c)) + vy (k_front (c_body c)) + - (b_track (c_front c) / 2))) + Y1 * (w + r * (vx (k_com (c_body c)) + vx (k_front (c_body c))))) by (rewrite W1; ring).
  assert (Q2 : vy (t_F t2) * vy (t_v t2) = X2 * (u - r * (vy (k_com (c_body c)) + vy (k_front (c_body c)) + b_track (c_front c) / 2)) + Y2 * (w + r * (vx (k_com (c_body c)) + vx (k_front (c_body c))))) by (rewrite W2; ring).
  assert (Q3 : vy (t_F t3) * vy (t_v t3) = X3 * (u - r * (vy (k_com (c_body c)) + vy (k_rear (c_body c)) + - (b_track (c_rear c) / 2))) + Y3 * (w + r * (vx (k_com (c_body c)) + vx (k_rear (c_body c)))) - vx (t_F t3) * vx (t_v t3)) by (rewrite W3; ring).
  assert (Q4 : vy (t_F t4) * vy (t_v t4) = X4 * (u - r * (vy (k_com (c_body c)) + vy (k_rear (c_body c)) + b_track (c_rear c) / 2)) + Y4 * (w + r * (vx (k_com (c_body c)) + vx (k_rear (c_body c)))) - vx (t_F t4) * vx (t_v t4)) by (rewrite W4; ring).
  rewrite Q1, Q2, Q3, Q4. ring.
Qed.

(** Along any motion on the plane. *)
Theorem C148_energy_partial c m t : solves linsolve -> determined (c_body c) (i_state (km_input m t)) -> k_mass (c_body c) <> 0 -> c_inertia c <> 0 -> kart_drive c ->
  kart_plane_motion (kart_on_plane sp ss linsolve) c m ->
  let i := km_input m t in
  let v := kart_plane_eval sp ss linsolve c i (km_psi m t) in
  let d := snd (kart_on_plane sp ss linsolve c i (km_x m t) (km_y m t) (km_psi m t)) in
  let torque := axle6_torque sp ss (c_engine c) (c_Tmax c) (c_smooth c) (i_throttle i) (i_omega i) in
  is_derive (fun s => kart_energy c (km_input m s)) t
    (kart_shaft_power torque i + kart_slip_power c v + kart_air_power c i v + kart_attitude_power c i d + kart_free_power i v).
Proof.
  intros HS HD Hm HI HK H i v d torque. unfold torque, v, d. rewrite <- (C148_power_partial c i (km_x m t) (km_y m t) (km_psi m t) HS HD Hm HI HK). fold d.
  destruct (H t) as (H1 & H2 & H3 & _ & _ & _ & _ & _ & _ & H10 & _). fold i in H1, H2, H3, H10. fold d in H1, H2, H3, H10.
  change (is_derive (fun s => q_u (i_state (km_input m s))) t (y_u d)) in H1.
  change (is_derive (fun s => q_v (i_state (km_input m s))) t (y_v d)) in H2.
  change (is_derive (fun s => q_omega (i_state (km_input m s))) t (y_yaw d)) in H3.
  change (is_derive (fun s => i_omega (km_input m s)) t (y_omega d)) in H10.
  unfold kart_energy, kart_energy_rate, i. clearbody d.
  assert (G : forall f1 f2 f3 f4 d1 d2 d3 d4 a b e, is_derive f1 t d1 -> is_derive f2 t d2 -> is_derive f3 t d3 -> is_derive f4 t d4 ->
    is_derive (fun s : R => 1 / 2 * a * (f1 s * f1 s + f2 s * f2 s) + 1 / 2 * b * (f3 s * f3 s) + 1 / 2 * e * (f4 s * f4 s)) t
      (a * (f1 t * d1 + f2 t * d2) + b * (f3 t * d3) + e * (f4 t * d4))).
  { intros f1 f2 f3 f4 d1 d2 d3 d4 a b e G1 G2 G3 G4. auto_derive.
    - repeat split; try exact I; eexists; eassumption.
    - replace (Derive (fun x : R => f1 x) t) with d1 by (symmetry; apply is_derive_unique; exact G1).
      replace (Derive (fun x : R => f2 x) t) with d2 by (symmetry; apply is_derive_unique; exact G2).
      replace (Derive (fun x : R => f3 x) t) with d3 by (symmetry; apply is_derive_unique; exact G3).
      replace (Derive (fun x : R => f4 x) t) with d4 by (symmetry; apply is_derive_unique; exact G4). field. }
  exact (G _ _ _ _ _ _ _ _ _ _ _ H1 H2 H3 H10).
Qed.

(** No tyre gives energy but through its arm. *)
Lemma good_tyre_slips q t p delta shaft w : rolls_at q t p delta shaft w -> good_tyre t w -> 0 <= - vz (t_F w) -> dissipation (k_R0 t) w <= 0.
Proof.
  intros (E1 & E2 & _ & E4 & E5 & E6 & E7) (G1 & G2 & G3 & G4 & G5 & G6 & G7 & G8 & G9 & G10 & G11 & G12 & G13) HL.
  pose proof (C48_standard_partial positive_part (k_model t) NORMAL (k_R0 t) 1 0 (k_ref2 t) (- vz (t_F w)) 0 (V (vx (t_v w)) (vy (t_v w)) 0) (t_omega w)
    positive_part_ok G1 G2 G3) as C. cbv zeta in C.
  assert (EL : positive_part (1 * - vz (t_F w) + 0 * 0) (k_ref2 t) = - vz (t_F w)).
  { replace (1 * - vz (t_F w) + 0 * 0) with (- vz (t_F w)) by ring. unfold positive_part. apply Rmax_right. exact HL. }
  rewrite EL in C. specialize (C G4 G5 G6 G7 G8 G9 G10 G11 G12 G13). destruct C as [C _].
  unfold tire_update, tire_forces, dissipation in C. rewrite EL in C. cbn [t_F t_v t_omega vx vy] in C.
  unfold slip_kappa, slip_lambda in C. cbn [vx vy] in C. unfold dissipation. rewrite E6, E7.
  assert (K : t_kappa w = (t_omega w * k_R0 t - vx (t_v w)) / vx (t_v w)) by (rewrite E4, <- E1; reflexivity).
  assert (L : t_lambda w = - vy (t_v w) / vx (t_v w)) by (rewrite E5, <- E1, <- E2; reflexivity).
  rewrite K, L. exact C.
Qed.
Lemma load_not_negative t h Q U Om x rel delta omega : smooth_positive_part sp -> 0 <= k_ref2 t -> 0 <= - vz (t_F (ktyre_at sp t h Q U Om x rel delta omega)).
Proof. intros S R2. unfold ktyre_at, tire_update, tire_forces; cbv zeta; cbn [t_F vz]. rewrite Ropp_involutive. apply S. exact R2. Qed.

(** With tyres within the range of their models and in still air nothing but the torque on the axle gives energy to the motion in the
    plane, the product of inertia and the arms of the tyres aside. *)
Theorem C148_bound_partial c i x y psi : smooth_positive_part sp -> solves linsolve -> determined (c_body c) (i_state i) -> k_mass (c_body c) <> 0 -> c_inertia c <> 0 -> kart_drive c ->
  kart_still c -> kart_tyres_good c (kart_plane_eval sp ss linsolve c i psi) ->
  let v := kart_plane_eval sp ss linsolve c i psi in
  let d := snd (kart_on_plane sp ss linsolve c i x y psi) in
  let torque := axle6_torque sp ss (c_engine c) (c_Tmax c) (c_smooth c) (i_throttle i) (i_omega i) in
  let speed := sqrt (q_u (i_state i) * q_u (i_state i) + q_v (i_state i) * q_v (i_state i)) in
  kart_slip_power c v <= 0 /\ kart_air_power c i v = - (kart_drag c * speed ^ 3) /\
  kart_energy_rate c i d + kart_drag c * speed ^ 3 <= kart_shaft_power torque i + kart_attitude_power c i d + kart_free_power i v.
Proof.
  intros S HS HD Hm HI HK (W & Dr & X0 & Y0) (G1 & G2 & G3 & G4) v d torque speed. fold v in G1, G2, G3, G4.
  assert (Sl : kart_slip_power c v <= 0).
  { destruct (C142_slips sp ss linsolve c i psi) as (S1 & S2 & S3 & S4). fold v in S1, S2, S3, S4.
    assert (L1 : 0 <= - vz (t_F (x_left (n_front v)))) by (apply load_not_negative; [exact S | apply G1]).
    assert (L2 : 0 <= - vz (t_F (x_right (n_front v)))) by (apply load_not_negative; [exact S | apply G2]).
    assert (L3 : 0 <= - vz (t_F (x_left (n_rear v)))) by (apply load_not_negative; [exact S | apply G3]).
    assert (L4 : 0 <= - vz (t_F (x_right (n_rear v)))) by (apply load_not_negative; [exact S | apply G4]).
    pose proof (good_tyre_slips _ _ _ _ _ _ S1 G1 L1). pose proof (good_tyre_slips _ _ _ _ _ _ S2 G2 L2).
    pose proof (good_tyre_slips _ _ _ _ _ _ S3 G3 L3). pose proof (good_tyre_slips _ _ _ _ _ _ S4 G4 L4). unfold kart_slip_power. lra. }
  assert (Ai : kart_air_power c i v = - (kart_drag c * speed ^ 3)).
  { unfold kart_air_power. rewrite X0, Y0. unfold v. rewrite (kart_still_air sp ss linsolve c i psi W). cbn [vx vy]. fold speed.
    assert (E2 : speed * speed = q_u (i_state i) * q_u (i_state i) + q_v (i_state i) * q_v (i_state i)).
    { apply sqrt_sqrt. pose proof (Rle_0_sqr (q_u (i_state i))). pose proof (Rle_0_sqr (q_v (i_state i))). unfold Rsqr in *. lra. }
    transitivity (- (kart_drag c * (speed * (q_u (i_state i) * q_u (i_state i) + q_v (i_state i) * q_v (i_state i))))); [ring | rewrite <- E2; ring]. }
  split; [exact Sl|]. split; [exact Ai|].
  pose proof (C148_power_partial c i x y psi HS HD Hm HI HK) as P. cbv zeta in P. fold v in P. fold d in P. fold torque in P. lra.
Qed.

(** So in a steady turn, as those of the diagrams. *)
Lemma kart_turn_some eval c speed ax ay : kart_turn eval c speed ax ay <-> exists i psi, kart_turn_with eval c speed ax ay i psi.
Proof. reflexivity. Qed.
Theorem C148_turn_partial c speed ax ay i psi : smooth_positive_part sp -> solves linsolve -> k_mass (c_body c) <> 0 -> c_inertia c <> 0 -> kart_drive c -> kart_still c ->
  0 <= speed -> kart_turn_with (kart_on_plane sp ss linsolve) c speed ax ay i psi ->
  let v := kart_plane_eval sp ss linsolve c i psi in
  let power := kart_shaft_power (axle6_torque sp ss (c_engine c) (c_Tmax c) (c_smooth c) (i_throttle i) (i_omega i)) i in
  kart_tyres_good c v ->
  k_mass (c_body c) * ax * speed + kart_drag c * speed ^ 3 <= power + kart_free_power i v /\
  (** tyres that drive, pressed by no more than [w], give at most R0 / (R0 - w) of the power of the axle *)
  forall w, w < k_R0 (c_tr c) -> t_w (x_left (n_rear v)) <= w -> t_w (x_right (n_rear v)) <= w ->
    0 <= i_omega i -> 0 <= vx (t_F (x_left (n_rear v))) -> 0 <= vx (t_F (x_right (n_rear v))) -> 0 <= w ->
    k_mass (c_body c) * ax * speed + kart_drag c * speed ^ 3 <= power * (k_R0 (c_tr c) / (k_R0 (c_tr c) - w)).
Proof.
  intros S HS Hm HI HK St Sp T v power G. unfold kart_turn_with in T. cbv zeta in T. destruct T as (Hu & Hv & Hr & HD & T1 & _ & _ & T4 & _ & T6 & _ & T8 & T9 & T10).
  destruct (C148_bound_partial c i 0 0 psi S HS HD Hm HI HK St G) as (_ & _ & B). cbv zeta in B. fold v in B.
  pose proof (sin2_cos2 psi) as P. unfold Rsqr in P.
  assert (Es : sqrt (q_u (i_state i) * q_u (i_state i) + q_v (i_state i) * q_v (i_state i)) = speed).
  { rewrite Hu, Hv. replace (speed * cos psi * (speed * cos psi) + - speed * sin psi * (- speed * sin psi)) with (speed * speed * (sin psi * sin psi + cos psi * cos psi)) by ring.
    rewrite P, Rmult_1_r. apply sqrt_square. exact Sp. }
  rewrite Es in B. set (d := snd (kart_on_plane sp ss linsolve c i 0 0 psi)) in *.
  assert (Qm : q_dmu (i_state i) = 0) by (rewrite <- T4; unfold d, kart_on_plane, cartesian_update; cbn [snd kart_scaled kart_rates y_mu]; ring).
  unfold kart_energy_rate, kart_attitude_power in B. rewrite T1, T6, T8, Qm, Hu, Hv in B. fold power in B.
  assert (E : speed * cos psi * y_u d + - speed * sin psi * y_v d = ax * speed) by (rewrite <- T9; ring). rewrite E in B.
  assert (B' : k_mass (c_body c) * ax * speed + kart_drag c * speed ^ 3 <= power + kart_free_power i v) by lra. clear B.
  split; [exact B'|]. intros w Hw W1 W2 Ho F1 F2 W0. eapply Rle_trans; [exact B'|].
  assert (EO : y_omega d = (axle6_torque sp ss (c_engine c) (c_Tmax c) (c_smooth c) (i_throttle i) (i_omega i) +
    wheel_torque (k_R0 (c_tr c)) (x_left (n_rear v)) + wheel_torque (k_R0 (c_tr c)) (x_right (n_rear v))) / c_inertia c).
  { unfold d, kart_on_plane, cartesian_update. cbn [snd kart_scaled kart_rates y_omega]. rewrite Rmult_1_r. reflexivity. }
  rewrite T8 in EO. unfold wheel_torque in EO. unfold power, kart_shaft_power, kart_free_power. clear B' E T9 T10 power. set (torque := axle6_torque _ _ _ _ _ _ _) in *.
  set (R0 := k_R0 (c_tr c)) in *. set (f1 := vx (t_F (x_left (n_rear v)))) in *. set (f2 := vx (t_F (x_right (n_rear v)))) in *.
  set (w1 := t_w (x_left (n_rear v))) in *. set (w2 := t_w (x_right (n_rear v))) in *. clearbody torque R0 f1 f2 w1 w2.
  assert (ET : torque = f1 * (R0 - w1) + f2 * (R0 - w2)).
  { assert (Z : torque + - f1 * (R0 - w1) + - f2 * (R0 - w2) = 0); [|lra]. transitivity (c_inertia c * 0); [rewrite EO; field; exact HI | ring]. }
  assert (Hp : 0 < R0 - w) by lra. apply (Rmult_le_reg_r (R0 - w)); [exact Hp|].
  replace (torque * i_omega i * (R0 / (R0 - w)) * (R0 - w)) with (torque * i_omega i * R0) by (field; lra).
  rewrite ET.
  assert (K : (f1 * (R0 - w1) + f2 * (R0 - w2)) * i_omega i * R0 - ((f1 * (R0 - w1) + f2 * (R0 - w2)) * i_omega i + i_omega i * (f1 * w1 + f2 * w2)) * (R0 - w) =
    R0 * i_omega i * (f1 * (w - w1) + f2 * (w - w2))) by ring.
  assert (0 <= R0 * i_omega i * (f1 * (w - w1) + f2 * (w - w2))).
  { apply Rmult_le_pos; [apply Rmult_le_pos; lra|]. pose proof (Rmult_le_pos f1 (w - w1) F1 ltac:(lra)). pose proof (Rmult_le_pos f2 (w - w2) F2 ltac:(lra)). lra. }
  lra.
Qed.
Theorem C148_gain_partial c m t0 t1 P : smooth_positive_part sp -> solves linsolve -> k_mass (c_body c) <> 0 -> c_inertia c <> 0 -> kart_drive c -> kart_still c ->
  t0 <= t1 -> kart_plane_motion (kart_on_plane sp ss linsolve) c m ->
  (forall t, t0 <= t <= t1 -> let i := km_input m t in let v := kart_plane_eval sp ss linsolve c i (km_psi m t) in
     determined (c_body c) (i_state i) /\ kart_tyres_good c v /\
     kart_shaft_power (axle6_torque sp ss (c_engine c) (c_Tmax c) (c_smooth c) (i_throttle i) (i_omega i)) i +
     kart_attitude_power c i (snd (kart_on_plane sp ss linsolve c i (km_x m t) (km_y m t) (km_psi m t))) + kart_free_power i v <= P) ->
  kart_energy c (km_input m t1) - kart_energy c (km_input m t0) <= P * (t1 - t0).
Proof.
  intros S HS Hm HI HK St Ht M H.
  set (E := fun s => kart_energy c (km_input m s)).
  set (df := fun t => kart_energy_rate c (km_input m t) (snd (kart_on_plane sp ss linsolve c (km_input m t) (km_x m t) (km_y m t) (km_psi m t)))).
  assert (D : forall t, t0 <= t <= t1 -> is_derive E t (df t)).
  { intros t Hi. destruct (H t Hi) as (HD & _). pose proof (C148_energy_partial c m t HS HD Hm HI HK M) as X. cbv zeta in X.
    rewrite <- (C148_power_partial c (km_input m t) (km_x m t) (km_y m t) (km_psi m t) HS HD Hm HI HK) in X. exact X. }
  destruct (MVT_gen E t0 t1 df) as (t & Hi & X).
  - intros t. rewrite Rmin_left, Rmax_right by exact Ht. intros Hi. apply D. lra.
  - intros t. rewrite Rmin_left, Rmax_right by exact Ht. intros Hi. apply derivable_continuous_pt. exists (df t). apply is_derive_Reals, D, Hi.
  - rewrite Rmin_left, Rmax_right in Hi by exact Ht. change (E t1 - E t0 <= P * (t1 - t0)). rewrite X. apply Rmult_le_compat_r; [lra|].
    destruct (H t Hi) as (HD & G & B). destruct (C148_bound_partial c (km_input m t) (km_x m t) (km_y m t) (km_psi m t) S HS HD Hm HI HK St G) as (_ & _ & Q). cbv zeta in Q, B.
    unfold df. set (r := kart_energy_rate _ _ _) in *.
    assert (0 <= kart_drag c * sqrt (q_u (i_state (km_input m t)) * q_u (i_state (km_input m t)) + q_v (i_state (km_input m t)) * q_v (i_state (km_input m t))) ^ 3)
      by (apply Rmult_le_pos; [apply St | apply pow_le, sqrt_pos]). lra.
Qed.
End Functions.

(** The kart of C147 with its axle a little faster than its wheels need: without engine, brakes or air, its energy grows. *)
Definition spinning (om : R) : kart_input := KartInput (MkState6 10 0 0 (1 / 20) 0 0 0 0 0) om 0 0.

Lemma straight_axle mode bl br ty x0 om : let v := axle_update positive_part mode (square_axle bl br) (square_tyre grippy ty) 0 (frame_matrix (Euler 0 0 0) 0) (V 10 0 0) (V 0 0 0)
    (V x0 0 (- (3 / 40))) (V 0 0 0) 0 0 0 om in
  forall t, t = x_left v \/ t = x_right v -> t_w t = 1 / 40 /\ - vz (t_F t) = 10 * g0.
Proof.
  intros v. pose proof (axle_depths positive_part mode (square_axle bl br) (square_tyre grippy ty) 0 10 0 0 (V x0 0 (- (3 / 40))) (V 0 0 0) 0 0 0 om) as D. cbv zeta in D. fold v in D.
  assert (G : 0 < g0) by (unfold g0; lra).
  assert (S : forall ds d, axle6_solve (square_axle bl br) (400 * g0) ds d = MkDefl ((ds - d) / 2) ((ds + d) / 2) ((d - ds) / 2) (- (d + ds) / 2)).
  { intros ds d. unfold axle6_solve, square_axle; cbn [b_kchassis b_kantiroll]. f_equal; field; repeat split; lra. }
  change (k_kt (square_tyre grippy ty)) with (400 * g0) in D. change (k_R0 (square_tyre grippy ty)) with (1 / 8) in D. change (k_ct (square_tyre grippy ty)) with 1 in D.
  unfold axle6_rates, axle6_deflection in D. rewrite !S in D. unfold tire_dz_left, tire_dz_right, tire_z_left, tire_z_right, axle6_displacement in D.
  cbn [d_sl d_sr square_axle b_track b_beta_l b_beta_r vz] in D.
  assert (M : match mode with STEERING_FREE_ROLL => 1 / 2 * 1 * 0 + br * 0 | POWERED_WITHOUT_DIFFERENTIAL => 1 / 2 * 1 * 0 end = 0) by (destruct mode; ring).
  destruct D as (D1 & D2 & D3 & D4). 
  assert (P : forall x y, x = 10 * g0 -> positive_part x y = 10 * g0) by (intros x y ->; unfold positive_part; rewrite Rmax_right; lra).
  intros t [-> | ->].
  - rewrite D1, D3. split; [destruct mode; field | apply P; destruct mode; field].
  - rewrite D2, D4. split; [destruct mode; field | apply P; destruct mode; field].
Qed.
Lemma spinning_wheels om : let v := kart_plane_eval positive_part same_sign cramer gripping_kart (spinning om) 0 in
  forall t, t = x_left (n_front v) \/ t = x_right (n_front v) \/ t = x_left (n_rear v) \/ t = x_right (n_rear v) ->
    t_w t = 1 / 40 /\ - vz (t_F t) = 10 * g0 /\ vx (t_v t) = 10 /\ vy (t_v t) = 0.
Proof.
  intros v.
  assert (Q : forall x, vadd (com_velocity (i_state (spinning om))) (axle_velocity x (i_state (spinning om))) = V 0 0 0).
  { intros x. apply vec_eq; cbn; ring. }
  assert (Xf : axle_in_road (c_body gripping_kart) (k_front (c_body gripping_kart)) (i_state (spinning om)) = V (1 / 2) 0 (- (3 / 40))) by (apply vec_eq; cbn; field).
  assert (Xr : axle_in_road (c_body gripping_kart) (k_rear (c_body gripping_kart)) (i_state (spinning om)) = V (- (1 / 2)) 0 (- (3 / 40))) by (apply vec_eq; cbn; field).
  assert (Ef : n_front v = axle_update positive_part STEERING_FREE_ROLL (square_axle (- (1 / 20)) (1 / 20)) (square_tyre grippy ONLY_LATERAL) 0 (frame_matrix (Euler 0 0 0) 0) (V 10 0 0) (V 0 0 0)
    (V (1 / 2) 0 (- (3 / 40))) (V 0 0 0) 0 0 0 0).
  { unfold v, kart_plane_eval, kart_update. rewrite plane_omega. cbv zeta. cbn [n_front]. rewrite Xf, Q. reflexivity. }
  assert (Er : n_rear v = axle_update positive_part POWERED_WITHOUT_DIFFERENTIAL (square_axle 0 0) (square_tyre grippy NORMAL) 0 (frame_matrix (Euler 0 0 0) 0) (V 10 0 0) (V 0 0 0)
    (V (- (1 / 2)) 0 (- (3 / 40))) (V 0 0 0) 0 0 0 om).
  { unfold v, kart_plane_eval, kart_update. rewrite plane_omega. cbv zeta. cbn [n_rear]. rewrite Xr, Q. reflexivity. }
  destruct (C142_slips positive_part same_sign cramer gripping_kart (spinning om) 0) as (S1 & S2 & S3 & S4). fold v in S1, S2, S3, S4.
  assert (Vel : forall ty p shaft t, rolls_at (i_state (spinning om)) ty p 0 shaft t -> vx (t_v t) = 10 /\ vy (t_v t) = 0).
  { intros ty p shaft t (E1 & E2 & _). rewrite E1, E2. unfold rot_z. rewrite sin_0, cos_0. destruct p as [p1 p2 p3]. cbv [vx vy vz mtapply dot vadd cross col1 col2 col3 spinning i_state q_u q_v q_omega]. split; ring. }
  intros t Ht. pose proof (straight_axle STEERING_FREE_ROLL (- (1 / 20)) (1 / 20) ONLY_LATERAL (1 / 2) 0) as Af. pose proof (straight_axle POWERED_WITHOUT_DIFFERENTIAL 0 0 NORMAL (- (1 / 2)) om) as Ar.
  cbv zeta in Af, Ar. rewrite <- Ef in Af. rewrite <- Er in Ar.
  destruct Ht as [-> | [-> | [-> | ->]]].
  - destruct (Af _ (or_introl eq_refl)) as [A B]. exact (conj A (conj B (Vel _ _ _ _ S1))).
  - destruct (Af _ (or_intror eq_refl)) as [A B]. exact (conj A (conj B (Vel _ _ _ _ S2))).
  - destruct (Ar _ (or_introl eq_refl)) as [A B]. exact (conj A (conj B (Vel _ _ _ _ S3))).
  - destruct (Ar _ (or_intror eq_refl)) as [A B]. exact (conj A (conj B (Vel _ _ _ _ S4))).
Qed.
Lemma grippy_stiff : 0 < stiffness_x grippy (10 * g0) /\ 0 < stiffness_y grippy (10 * g0).
Proof.
  assert (G : 9 < g0) by (unfold g0; lra). unfold stiffness_x, stiffness_y, p_Fz0prime; cbn [grippy p_Fz0 p_lambdaFz0 p_pKx1 p_pKx2 p_pKx3 p_pCx1 p_pDx1 p_pKy1 p_pKy2 p_pKy4 p_pCy1 p_pDy1].
  split.
  - replace ((10 * g0 - 1 * 1) / (1 * 1)) with (10 * g0 - 1) by field. pose proof (exp_pos (1 * (10 * g0 - 1))).
    replace ((1 + 1 * (10 * g0 - 1)) * exp (1 * (10 * g0 - 1)) / (1 * 2)) with (10 * g0 * exp (1 * (10 * g0 - 1)) / 2) by field. apply Rdiv_lt_0_compat; [apply Rmult_lt_0_compat|]; lra.
  - destruct (Rlt_dec eps (Rabs (10 * g0))); [|lra]. replace (10 * g0 / (1 * 1 * 1)) with (10 * g0) by field. rewrite !Rmult_1_l.
    pose proof (atan_increasing 0 (10 * g0) ltac:(lra)) as A. rewrite atan_0 in A. pose proof (atan_bound (10 * g0)). pose proof PI_RGT_0.
    apply Rdiv_lt_0_compat; [apply sin_gt_0; lra | lra].
Qed.
Lemma grippy_drives : 0 < standard_force_x grippy (1 / 8) 0 (10 * g0).
Proof.
  assert (G : 9 < g0) by (unfold g0; lra). destruct grippy_stiff as [B _].
  unfold standard_force_x, force_pure_x. cbn [grippy p_rCx1 p_rBx1]. rewrite Rmult_0_r, atan_0, Rmult_0_r, cos_0, Rmult_1_l.
  destruct (Req_EM_T (p_pDx1 grippy) 0) as [E|_]; [cbn in E; lra|]. unfold magic. set (b := stiffness_x grippy (10 * g0) * (1 / 8)). assert (0 < b) by (unfold b; lra).
  cbn [grippy p_pDx1 p_pCx1 p_pEx1]. replace (b - 1 * (b - atan b)) with (atan b) by ring. rewrite Rmult_1_l.
  assert (T : forall z, 0 < z -> 0 < atan z) by (intros z Hz; rewrite <- atan_0; apply atan_increasing; exact Hz).
  pose proof (T _ (T b ltac:(lra))). pose proof (atan_bound (atan b)). pose proof PI_RGT_0. apply Rmult_lt_0_compat; [lra | apply sin_gt_0; lra].
Qed.

(** The hypotheses of the theorems hold of it. *)
Example C148_case om : let c := gripping_kart in let i := spinning om in let v := kart_plane_eval positive_part same_sign cramer c i 0 in
  smooth_positive_part positive_part /\ solves cramer /\ determined (c_body c) (i_state i) /\ k_mass (c_body c) <> 0 /\ c_inertia c <> 0 /\
  kart_drive c /\ kart_still c /\ kart_tyres_good c v /\ 0 < k_Ixz (c_body c).
Proof.
  intros c i v. refine (conj positive_part_ok (conj cramer_solves _)). split; [unfold determined; cbn; split; lra|]. split; [cbn; lra|]. split; [cbn; lra|].
  split; [repeat split; cbn; lra|]. split; [unfold kart_still, kart_no_wind, kart_drag; cbn; repeat split; lra|]. split; [|cbn; lra].
  assert (W : forall ty t, t = x_left (n_front v) \/ t = x_right (n_front v) \/ t = x_left (n_rear v) \/ t = x_right (n_rear v) -> good_tyre (square_tyre grippy ty) t).
  { intros ty t Ht. destruct (spinning_wheels om t Ht) as (_ & L & V1 & _). unfold good_tyre. rewrite L, V1. destruct grippy_stiff.
    change (k_model (square_tyre grippy ty)) with grippy. cbn [square_tyre k_ref2 k_R0]. repeat split; try lra; cbn [grippy p_pDx1 p_pDy1 p_pCx1 p_pCy1 p_pEx1 p_pEy1 p_rCx1 p_rCy1]; lra. }
  refine (conj (W ONLY_LATERAL _ _) (conj (W ONLY_LATERAL _ _) (conj (W NORMAL _ _) (W NORMAL _ _)))); tauto.
Qed.
Example C148_turn_case : let c := gripping_kart in let v := kart_plane_eval positive_part same_sign cramer c (spinning 80) 0 in
  kart_turn_with (kart_on_plane positive_part same_sign cramer) c 10 0 0 (spinning 80) 0 /\ kart_tyres_good c v /\
  t_w (x_left (n_rear v)) < k_R0 (c_tr c) /\
  kart_plane_motion (kart_on_plane positive_part same_sign cramer) c coasting_motion /\ km_input coasting_motion = (fun _ => spinning 80).
Proof.
  intros c v.
  destruct (coasting_rates grippy) as (E1 & E2 & E3 & E4 & E5 & E6 & E7 & E8 & E9 & E10). rewrite <- gripping_rates in E1, E2, E3, E4, E5, E6, E7, E8, E9, E10.
  change (coasting 0) with (spinning 80) in *.
  split.
  { unfold kart_turn_with, c. cbv zeta. rewrite E1, E2, E3, E4, E5, E6, E7, E8, E9, E10, sin_0, cos_0. cbn [spinning i_state q_u q_v q_omega].
    refine (conj _ (conj _ (conj _ (conj _ _)))); [lra | lra | lra | unfold determined; cbn; split; lra | repeat split; lra]. }
  split; [apply (C148_case 80)|].
  split; [pose proof (proj1 (spinning_wheels 80 (x_left (n_rear v)) (or_intror (or_intror (or_introl eq_refl))))) as W; rewrite W; cbn; lra|].
  split; [|reflexivity].
  intros t. unfold kart_derive. cbn [coasting_motion km_input km_x km_y km_psi]. change (coasting 0) with (spinning 80). fold c in E1, E2, E3, E4, E5, E6, E7, E8, E9, E10.
  unfold kart_on_plane, cartesian_update in *. cbn [fst snd kart_states kart_scaled kart_rates y_u y_v y_yaw y_z y_phi y_mu y_dz y_dphi y_dmu y_omega y_road vscale vx vy vz] in *.
  rewrite E1, E2, E3, E4, E5, E6, E7, E8, E9, E10.
  refine (conj _ (conj _ (conj _ (conj _ (conj _ (conj _ (conj _ (conj _ (conj _ (conj _ (conj _ (conj _ _))))))))))));
    cbn; auto_derive; first [exact I | rewrite ?cos_0, ?sin_0; ring].
Qed.
(** Spinning a little: no torque, no air, tyres that lose energy in their slip, and the energy of the kart grows. *)
Theorem C148_energy_refuted : exists c i,
  symmetric_kart c /\ kart_drive c /\ kart_still c /\ kart_drag c = 0 /\ 0 < k_R0 (c_tr c) /\
  let v := kart_plane_eval positive_part same_sign cramer c i 0 in
  kart_tyres_good c v /\ axle6_torque positive_part same_sign (c_engine c) (c_Tmax c) (c_smooth c) (i_throttle i) (i_omega i) = 0 /\ n_Fa v = V 0 0 0 /\
  kart_slip_power c v < 0 /\
  0 < kart_energy_rate c i (snd (kart_on_plane positive_part same_sign cramer c i 0 0 0)).
Proof.
  destruct (C148_case 90) as (_ & HS & HD & Hm & HI & HK & St & G & _). exists gripping_kart, (spinning 90).
  split; [unfold symmetric_kart; cbn; repeat split; lra|]. split; [exact HK|]. split; [exact St|]. split; [unfold kart_drag; cbn; lra|]. split; [cbn; lra|]. intros v.
  split; [exact G|].
  assert (T0 : axle6_torque positive_part same_sign (c_engine gripping_kart) (c_Tmax gripping_kart) (c_smooth gripping_kart) (i_throttle (spinning 90)) (i_omega (spinning 90)) = 0) by reflexivity.
  split; [exact T0|].
  assert (A0 : n_Fa v = V 0 0 0).
  { unfold v. rewrite (kart_still_air positive_part same_sign cramer gripping_kart (spinning 90) 0 (proj1 St)). apply vec_eq; unfold kart_drag, kart_downforce; cbn; ring. }
  split; [exact A0|].
  pose proof (fun t H => spinning_wheels 90 t H) as W. fold v in W.
  destruct (C142_slips positive_part same_sign cramer gripping_kart (spinning 90) 0) as (_ & _ & S3 & S4). fold v in S3, S4.
  pose proof (C147_front positive_part same_sign cramer gripping_kart (spinning 90) 0 (Euler 0 0 0) (Euler 0 0 0) 0 (q_omega (i_state (spinning 90))) 0 (proj1 HK) (proj1 (proj2 HK))) as Fr. cbv zeta in Fr.
  change (kart_update positive_part same_sign cramer gripping_kart (spinning 90) 0 (Euler 0 0 0) (Euler 0 0 0) 0 (q_omega (i_state (spinning 90))) 0) with v in Fr.
  assert (Rear : forall t p, rolls_at (i_state (spinning 90)) (c_tr gripping_kart) p 0 (i_omega (spinning 90)) t -> - vz (t_F t) = 10 * g0 -> vx (t_v t) = 10 -> vy (t_v t) = 0 ->
    vx (t_F t) = standard_force_x grippy (1 / 8) 0 (10 * g0) /\ t_omega t = 90).
  { intros t p (E1 & E2 & E3 & E4 & E5 & E6 & _) L V1 V2. rewrite <- E1, V1 in E4, E5. rewrite <- E2, V2 in E5. change (t_omega t = 90) in E3. split; [|exact E3]. rewrite E6, L, E4, E5, E3.
    change (k_model (c_tr gripping_kart)) with grippy. change (k_R0 (c_tr gripping_kart)) with (1 / 8). f_equal; field. }
  destruct (W _ (or_introl eq_refl)) as (_ & _ & _ & U1). destruct (W _ (or_intror (or_introl eq_refl))) as (_ & _ & _ & U2).
  destruct (W _ (or_intror (or_intror (or_introl eq_refl)))) as (D3 & L3 & V3 & U3). destruct (W _ (or_intror (or_intror (or_intror eq_refl)))) as (D4 & L4 & V4 & U4).
  destruct (Rear _ _ S3 L3 V3 U3) as [X3 O3]. destruct (Rear _ _ S4 L4 V4 U4) as [X4 O4].
  destruct (Fr _ (or_introl eq_refl)) as (_ & X1 & _). destruct (Fr _ (or_intror eq_refl)) as (_ & X2 & _). pose proof grippy_drives as Pos.
  set (F := standard_force_x grippy (1 / 8) 0 (10 * g0)) in *. clearbody F.
  assert (Sl : kart_slip_power gripping_kart v = - (5 / 2) * F).
  { unfold kart_slip_power, dissipation. rewrite X1, X2, X3, X4, U1, U2, U3, U4, V3, V4, O3, O4. change (k_R0 (c_tr gripping_kart)) with (1 / 8). field. }
  split; [lra|].
  pose proof (C148_power_partial positive_part same_sign cramer gripping_kart (spinning 90) 0 0 0 HS HD Hm HI HK) as P. cbv zeta in P. fold v in P. rewrite P, Sl, T0.
  unfold kart_shaft_power, kart_air_power, kart_attitude_power, kart_free_power. rewrite A0, X3, X4, D3, D4. cbn [spinning i_state q_omega i_omega vx vy]. lra.
Qed.

Print Assumptions C148_power_partial.
Print Assumptions C148_energy_partial.
Print Assumptions C148_bound_partial.
Print Assumptions C148_turn_partial.
Print Assumptions C148_gain_partial.
Print Assumptions C148_energy_refuted.
