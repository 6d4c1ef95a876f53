(** Actuators, axles and chassis. *)
From Coq Require Import Reals Lra Lia.
From Coquelicot Require Import Coquelicot.
From Verif Require Import M_Vec M_Tire M_Car S_Car S_Road L_Car P_Tire.
Local Open Scope R_scope.

(** ** C50: the differential *)

Definition only_power (P : R) (e : engine_data) : Prop := e_direct e = false /\ e_only_max e = true /\ e_max_power_kW e = P.

(** Power balance of the driven axle for all wheel speeds that do not cancel. *)
Theorem C50_power : forall sp ss a P Pb wl wr throttle boost bias, smooth_positive_part sp -> smooth_sign_function ss ->
  only_power P (a_engine a) -> only_power Pb (a_boost_engine a) -> 0 <= a_smooth a -> 0 <= a_Tmax a -> 0 <= bias -> wl + wr <> 0 ->
  let t := axle_torques sp ss POWERED a wl wr throttle boost bias in
  exists engine_power brake_power, fst t * wl + snd t * wr = engine_power - a_diff a * (wl - wr) ^ 2 - brake_power /\
    engine_power = sp throttle (a_smooth a) * (1000 * P + boost * (1000 * Pb)) /\
    0 <= brake_power /\ (sp (- throttle) (a_smooth a) = 0 -> brake_power = 0).
Proof.
  intros sp ss a P Pb wl wr throttle boost bias Hs Hg (E1 & E2 & E3) (B1 & B2 & B3) Hsm HT Hb Hw t.
  exists (sp throttle (a_smooth a) * (1000 * P + boost * (1000 * Pb))),
    (sp (- throttle) (a_smooth a) * a_Tmax a * bias * (ss wl 1 * wl + ss wr 1 * wr)).
  destruct (Hs (- throttle) (a_smooth a) Hsm) as [S0 _]. pose proof (Hg wl 1). pose proof (Hg wr 1).
  split; [|split; [reflexivity|]].
  - unfold t, axle_torques, engine, brake; cbn [fst snd]. rewrite E1, E2, E3, B1, B2, B3. field. lra.
  - split; [|intros Z; rewrite Z; ring]. apply Rmult_le_pos; [|lra]. apply Rmult_le_pos; [|lra]. now apply Rmult_le_pos.
Qed.
(** So the wheels never get more than the engine and the boost give. *)
Theorem C50_bound : forall sp ss a P Pb wl wr throttle boost bias, smooth_positive_part sp -> smooth_sign_function ss ->
  only_power P (a_engine a) -> only_power Pb (a_boost_engine a) -> 0 <= a_smooth a -> 0 <= a_Tmax a -> 0 <= a_diff a -> 0 <= bias -> wl + wr <> 0 ->
  let t := axle_torques sp ss POWERED a wl wr throttle boost bias in
  fst t * wl + snd t * wr <= sp throttle (a_smooth a) * (1000 * P + boost * (1000 * Pb)).
Proof.
  intros sp ss a P Pb wl wr throttle boost bias Hs Hg E B Hsm HT Hd Hb Hw t.
  destruct (C50_power sp ss a P Pb wl wr throttle boost bias Hs Hg E B Hsm HT Hb Hw) as (ep & bp & Eq & Ee & Hp & _).
  fold t in Eq. rewrite Eq, <- Ee. assert (0 <= a_diff a * (wl - wr) ^ 2) by (apply Rmult_le_pos; [exact Hd | apply pow2_ge_0]). lra.
Qed.
(** The brakes of the front axle only remove power. *)
Theorem C50_brakes : forall sp ss a wl wr throttle boost bias, smooth_positive_part sp -> smooth_sign_function ss ->
  0 <= a_smooth a -> 0 <= a_Tmax a -> 0 <= bias ->
  let t := axle_torques sp ss STEERING a wl wr throttle boost bias in fst t * wl <= 0 /\ snd t * wr <= 0.
Proof.
  intros sp ss a wl wr throttle boost bias Hs Hg Hsm HT Hb t. destruct (Hs (- throttle) (a_smooth a) Hsm) as [S0 _].
  unfold t, axle_torques, brake; cbn [fst snd].
  assert (K : 0 <= sp (- throttle) (a_smooth a) * a_Tmax a * bias) by (apply Rmult_le_pos; [apply Rmult_le_pos|]; lra).
  pose proof (Hg wl 1). pose proof (Hg wr 1). split; nra.
Qed.
(** The kart: one torque for the axle. *)
Theorem C50_kart : forall sp ss e P Tmax sm throttle omega, smooth_positive_part sp -> smooth_sign_function ss -> only_power P e ->
  0 <= sm -> 0 <= Tmax -> omega <> 0 ->
  exists brake_power, axle6_torque sp ss e Tmax sm throttle omega * omega = sp throttle sm * (1000 * P) - brake_power /\ 0 <= brake_power.
Proof.
  intros sp ss e P Tmax sm throttle omega Hs Hg (E1 & E2 & E3) Hsm HT Hw.
  exists (ss omega 1 * omega * (sp (- throttle) sm * Tmax)). destruct (Hs (- throttle) sm Hsm) as [S0 _]. pose proof (Hg omega 1). split.
  - unfold axle6_torque, engine, brake. rewrite E1, E2, E3. field. exact Hw.
  - apply Rmult_le_pos; [exact H | now apply Rmult_le_pos].
Qed.
(** The rear axle of the Formula 1 car, with the usual smooth functions. *)
Definition max_power (P : R) : engine_data := MkEngine false true P 1 0 0 (fun _ => 0).
Definition f1_rear_axle : axle3 := MkAxle3 (146 / 100) 0 (1047 / 100) (1 / 100000) 5000 (max_power (735499 / 1000)) (max_power 120).
Definition usual_smooth_sign (x e : R) : R := x / sqrt (x * x + e).
Example usual_smooth_sign_ok : forall x, 0 <= usual_smooth_sign x 1 * x.
Proof.
  intros x. unfold usual_smooth_sign. assert (0 < sqrt (x * x + 1)) by (apply sqrt_lt_R0; nra).
  replace (x / sqrt (x * x + 1) * x) with (x * x / sqrt (x * x + 1)) by (field; lra).
  apply Rmult_le_pos; [nra | left; now apply Rinv_0_lt_compat].
Qed.
Example C50_sample : only_power (735499 / 1000) (a_engine f1_rear_axle) /\ only_power 120 (a_boost_engine f1_rear_axle) /\
  0 <= a_smooth f1_rear_axle /\ 0 <= a_Tmax f1_rear_axle /\ 0 <= a_diff f1_rear_axle.
Proof. unfold only_power; cbn. split; [auto|]. split; [auto|]. lra. Qed.

(** ** C51: extrapolation of the engine curve *)

Definition curve_engine (e : engine_data) : Prop :=
  e_direct e = false /\ e_only_max e = false /\ 0 < e_gear e /\ 0 < e_left e <= e_right e /\
  0 <= e_p e (e_left e) /\ 0 <= e_p e (e_right e).

(** The torque is continuous at every positive speed, so in particular where the curve begins
    and ends. *)
Theorem C51_continuous : forall e throttle omega, curve_engine e ->
  (forall x, e_left e <= x <= e_right e -> continuous (e_p e) x) -> 0 < omega -> continuous (engine e throttle) omega.
Proof.
  intros e throttle omega (D & M & G & (L & LR) & Pl & Pr) C Ho.
  apply continuous_ext with (fun w => throttle * engine_power_curve e (e_gear e * w) * / w).
  { intros w. unfold engine. rewrite D, M. reflexivity. }
  apply (continuous_mult (K:=R_AbsRing) (fun w => throttle * engine_power_curve e (e_gear e * w)) Rinv).
  - apply (continuous_scal_r (V:=R_NormedModule) throttle (fun w => engine_power_curve e (e_gear e * w))).
    apply (continuous_comp (fun w => e_gear e * w) (engine_power_curve e)).
    + apply (continuous_scal_r (V:=R_NormedModule) (e_gear e) (fun w => w)). apply continuous_id.
    + now apply power_curve_continuous.
  - apply continuous_Rinv. lra.
Qed.
(** Outside of the curve the torque is never negative, whatever the direction of rotation. *)
Theorem C51_nonnegative : forall e throttle omega, curve_engine e -> 0 <= throttle -> omega <> 0 ->
  e_gear e * omega < e_left e \/ e_right e < e_gear e * omega -> 0 <= engine e throttle omega.
Proof.
  intros e throttle omega (D & M & G & (L & LR) & Pl & Pr) Ht Ho Hout. unfold engine. rewrite D, M.
  assert (Pos : 0 < omega -> 0 <= engine_power_curve e (e_gear e * omega) -> 0 <= throttle * engine_power_curve e (e_gear e * omega) / omega).
  { intros P Q. apply Rmult_le_pos; [now apply Rmult_le_pos | left; now apply Rinv_0_lt_compat]. }
  destruct (Rlt_dec 0 omega) as [P|N].
  - apply Pos; [exact P|]. unfold engine_power_curve. destruct (Rlt_dec _ _); [apply Rmax_l|]. destruct (Rlt_dec _ _); [apply Rmax_l|]. lra.
  - assert (Z : engine_power_curve e (e_gear e * omega) = 0).
    { assert (e_gear e * omega < 0) by nra. unfold engine_power_curve. destruct (Rlt_dec _ _) as [_|N2]; [|lra].
      apply Rmax_left. replace (e_gear e * omega * e_p e (e_left e) / e_left e) with (- (- (e_gear e * omega) * e_p e (e_left e) * / e_left e)) by (field; lra).
      assert (0 <= - (e_gear e * omega) * e_p e (e_left e) * / e_left e).
      { apply Rmult_le_pos; [apply Rmult_le_pos; lra | left; now apply Rinv_0_lt_compat]. }
      lra. }
    rewrite Z, Rmult_0_r. unfold Rdiv. rewrite Rmult_0_l. lra.
Qed.
(** Below the curve the torque is that of its first point, and above 15/14 of its last speed
    there is none. *)
Theorem C51_ends : forall e throttle omega, curve_engine e -> 0 < omega ->
  (e_gear e * omega < e_left e -> engine e throttle omega = engine e throttle (e_left e / e_gear e)) /\
  (15 / 14 * e_right e <= e_gear e * omega -> engine e throttle omega = 0).
Proof.
  intros e throttle omega (D & M & G & (L & LR) & Pl & Pr) Ho. unfold engine. rewrite D, M. split.
  - intros A. replace (e_gear e * (e_left e / e_gear e)) with (e_left e) by (field; lra). unfold engine_power_curve.
    destruct (Rlt_dec (e_gear e * omega) (e_left e)) as [_|N]; [|lra].
    destruct (Rlt_dec (e_left e) (e_left e)) as [N|_]; [lra|]. destruct (Rlt_dec (e_right e) (e_left e)) as [N|_]; [lra|].
    rewrite Rmax_right.
    + field. lra.
    + apply Rmult_le_pos; [|left; now apply Rinv_0_lt_compat]. apply Rmult_le_pos; [|exact Pl]. apply Rmult_le_pos; lra.
  - intros A. unfold engine_power_curve. destruct (Rlt_dec _ _) as [N|_]; [lra|]. destruct (Rlt_dec _ _) as [_|N]; [|lra].
    rewrite Rmax_left; [unfold Rdiv; ring|].
    assert (15 / 14 <= e_gear e * omega / e_right e).
    { apply Rmult_le_reg_r with (e_right e); [lra|]. unfold Rdiv at 2. rewrite Rmult_assoc, Rinv_l by lra. lra. }
    replace (e_p e (e_right e) * (15000 / 14000 - e_gear e * omega / e_right e) / (15000 / 14000 - 1))
      with (- (e_p e (e_right e) * ((e_gear e * omega / e_right e - 15 / 14) * 14))) by (field; lra).
    assert (0 <= e_p e (e_right e) * ((e_gear e * omega / e_right e - 15 / 14) * 14)) by (apply Rmult_le_pos; lra). lra.
Qed.
Definition sample_curve : engine_data := MkEngine false false 0 10 600 1500 (fun x => x * (3000 - x) / 100).
Example C51_sample : curve_engine sample_curve /\ (forall x, continuous (e_p sample_curve) x).
Proof.
  split; [unfold curve_engine; cbn; lra|]. intros x.
  apply (ex_derive_continuous (e_p sample_curve)). cbn. auto_derive. exact I.
Qed.

(** ** C80: the derivatives of the torque *)

(** With the maximum power the derivative carried along is the derivative. *)
Theorem C80_max_power_partial : forall e th om t dth dom, e_direct e = false -> e_only_max e = true -> om t <> 0 ->
  is_derive th t dth -> is_derive om t dom ->
  fst (engine_dual e (th t, dth) (om t, dom)) = engine e (th t) (om t) /\
  is_derive (fun s => engine e (th s) (om s)) t (snd (engine_dual e (th t, dth) (om t, dom))).
Proof.
  intros e th om t dth dom D M Ho Ht Hm. unfold engine, engine_dual. rewrite D, M. cbn [fst snd]. split; [reflexivity|].
  auto_derive.
  - split; [exists dth; exact Ht|]. split; [exists dom; exact Hm|]. split; [exact Ho | exact I].
  - replace (Derive (fun x : R => th x) t) with dth by (symmetry; now apply is_derive_unique).
    replace (Derive (fun x : R => om x) t) with dom by (symmetry; now apply is_derive_unique). field. exact Ho.
Qed.
(** With a power curve it is not: the slope of the curve is missing. *)
Theorem C80_refuted : exists e th om t dth dom, curve_engine e /\ 0 < om t /\ is_derive th t dth /\ is_derive om t dom /\
  fst (engine_dual e (th t, dth) (om t, dom)) = engine e (th t) (om t) /\
  ~ is_derive (fun s => engine e (th s) (om s)) t (snd (engine_dual e (th t, dth) (om t, dom))).
Proof.
  set (e := MkEngine false false 0 1 1 3 (fun x => x)).
  exists e, (fun _ => 1), (fun s => s), 2, 0, 1. split; [unfold curve_engine; cbn; lra|]. split; [lra|].
  split; [apply (is_derive_const (V:=R_NormedModule))|]. split; [apply (is_derive_id (K:=R_AbsRing))|].
  assert (C : forall x, 1 <= x <= 3 -> engine_power_curve e (1 * x) = x).
  { intros x Hx. unfold engine_power_curve; cbn. destruct (Rlt_dec _ _); [lra|]. destruct (Rlt_dec _ _); lra. }
  split; [unfold engine, engine_dual; cbn [e_direct e_only_max e fst snd]; reflexivity|].
  intros H. assert (Dv : snd (engine_dual e (1, 0) (2, 1)) = - (1 / 2)).
  { unfold engine_dual; cbn [e_direct e_only_max e fst snd e_gear]. rewrite C by lra. field. }
  change (is_derive (fun s => engine e 1 s) 2 (snd (engine_dual e (1, 0) (2, 1)))) in H. rewrite Dv in H.
  assert (K : is_derive (fun s => engine e 1 s) 2 0).
  { apply is_derive_ext_loc with (fun _ => 1).
    - exists (mkposreal (1 / 2) ltac:(lra)). intros y Hy. unfold ball in Hy; cbn in Hy. unfold AbsRing_ball, abs, minus, plus, opp in Hy; cbn in Hy.
      apply Rabs_lt_between in Hy. unfold engine; cbn [e_direct e_only_max e e_gear]. rewrite C by lra. change ((1 : R) = 1 * y / y). field. lra.
    - apply (is_derive_const (V:=R_NormedModule)). }
  apply is_derive_unique in H. apply is_derive_unique in K. rewrite K in H. lra.
Qed.

(** ** C52: equations of motion *)

Theorem C52_newton_euler : forall c F T u v w om, c_mass c <> 0 -> c_Izz c <> 0 ->
  let mo := equations3 c F T u v w om in
  let H := angular_momentum (c_Ixx c) (c_Iyy c) (c_Izz c) om in
  mo_a mo = vsub (vscale (/ c_mass c) F) (cross om (mo_v mo)) /\
  V (mo_roll_rate mo) (mo_pitch_rate mo) (c_Izz c * mo_yaw_acceleration mo) = vsub T (cross om H) /\
  mo_v mo = vadd (V u v w) (cross om (V 0 0 (vz (c_com c)))) /\
  mo_roll_momentum mo = vx H /\ mo_pitch_momentum mo = vy H.
Proof.
  intros c F T u v w om Hm Hz mo H. unfold mo, H, equations3, angular_momentum, cross, vsub, vadd, vscale; cbn.
  split; [f_equal; field; exact Hm|]. split; [f_equal; field; exact Hz|]. split; [f_equal; ring|]. split; reflexivity.
Qed.

(** Along every motion that follows the reported rates, the kinetic energy changes at the
    power of the forces and torques. *)
Theorem C52_energy : forall c (F T : R -> vec) (u v w : R -> R) (om : R -> vec) t,
  c_mass c <> 0 -> c_Ixx c <> 0 -> c_Iyy c <> 0 -> c_Izz c <> 0 ->
  let mo := fun s => equations3 c (F s) (T s) (u s) (v s) (w s) (om s) in
  is_derive (fun s => vx (mo_v (mo s))) t (vx (mo_a (mo t))) ->
  is_derive (fun s => vy (mo_v (mo s))) t (vy (mo_a (mo t))) ->
  is_derive (fun s => vz (mo_v (mo s))) t (vz (mo_a (mo t))) ->
  is_derive (fun s => mo_roll_momentum (mo s)) t (mo_roll_rate (mo t)) ->
  is_derive (fun s => mo_pitch_momentum (mo s)) t (mo_pitch_rate (mo t)) ->
  is_derive (fun s => vz (om s)) t (mo_yaw_acceleration (mo t)) ->
  is_derive (fun s => kinetic_energy (c_mass c) (c_Ixx c) (c_Iyy c) (c_Izz c) (mo_v (mo s)) (om s)) t
            (dot (F t) (mo_v (mo t)) + dot (T t) (om t)).
Proof.
  intros c F T u v w om t Hm Hx Hy Hz mo D1 D2 D3 D4 D5 D6.
  set (a := fun s => vx (mo_v (mo s))) in *. set (b := fun s => vy (mo_v (mo s))) in *. set (d := fun s => vz (mo_v (mo s))) in *.
  set (p := fun s => mo_roll_momentum (mo s)) in *. set (q := fun s => mo_pitch_momentum (mo s)) in *. set (r := fun s => vz (om s)) in *.
  apply is_derive_ext with (fun s => 1 / 2 * c_mass c * (a s * a s + b s * b s + d s * d s) +
    1 / 2 * (p s * p s / c_Ixx c + q s * q s / c_Iyy c + c_Izz c * r s * r s)).
  { intros s. unfold kinetic_energy, dot, a, b, d, p, q, r, mo, equations3; cbn. field. split; assumption. }
  auto_derive.
  - repeat (split; [first [eexists; eassumption | assumption]|]). exact I.
  - replace (Derive (fun x : R => a x) t) with (vx (mo_a (mo t))) by (symmetry; now apply is_derive_unique).
    replace (Derive (fun x : R => b x) t) with (vy (mo_a (mo t))) by (symmetry; now apply is_derive_unique).
    replace (Derive (fun x : R => d x) t) with (vz (mo_a (mo t))) by (symmetry; now apply is_derive_unique).
    replace (Derive (fun x : R => p x) t) with (mo_roll_rate (mo t)) by (symmetry; now apply is_derive_unique).
    replace (Derive (fun x : R => q x) t) with (mo_pitch_rate (mo t)) by (symmetry; now apply is_derive_unique).
    replace (Derive (fun x : R => r x) t) with (mo_yaw_acceleration (mo t)) by (symmetry; now apply is_derive_unique).
    unfold a, b, d, p, q, r, mo, equations3, dot; cbn. field. auto.
Qed.

(** A car in a circle, pushed along its path. *)
Definition on_circle (s : R) : vec := V 660 (660 * (10 + s)) 0.
Example C52_sample : let mo := fun s => equations3 (MkChassis3 660 (1125 / 10) 425 450 (V 0 0 (-3 / 10)) vzero (1 / 2) 1) (on_circle s) vzero (10 + s) 0 0 (V 0 0 1) in
  forall t, is_derive (fun s => vx (mo_v (mo s))) t (vx (mo_a (mo t))) /\ is_derive (fun s => vy (mo_v (mo s))) t (vy (mo_a (mo t))) /\
  is_derive (fun s => vz (mo_v (mo s))) t (vz (mo_a (mo t))) /\ is_derive (fun s => mo_roll_momentum (mo s)) t (mo_roll_rate (mo t)) /\
  is_derive (fun s => mo_pitch_momentum (mo s)) t (mo_pitch_rate (mo t)) /\ is_derive (fun s => vz (V 0 0 1)) t (mo_yaw_acceleration (mo t)).
Proof.
  intros mo t. unfold mo, equations3, on_circle; cbn. split; [|split; [|split; [|split; [|split]]]]; auto_derive; try exact I; field.
Qed.

(** ** C71: moments about the centre of mass *)

(** The moments of the axles are taken about the centre of mass. *)
Theorem C71_partial : forall c xf Ff Tf xr Fr Tr Fa,
  total_torque3 c xf Ff Tf xr Fr Tr Fa =
  vsub (vadd (vadd (vadd Tf (moment_about (c_com c) xf Ff)) (vadd Tr (moment_about (c_com c) xr Fr))) (moment_about (c_com c) (c_aero_x c) Fa))
       (cross (c_com c) Fa).
Proof.
  intros c xf Ff Tf xr Fr Tr Fa. unfold total_torque3, moment_about, contact_force. apply vec_eq; unfold cross, vsub, vadd, vopp; cbn; ring.
Qed.
(** That of the aerodynamic force is not: its arm is measured from twice the centre of mass.
    With the Formula 1 car a drag gives a moment as if applied at the ground. *)
Definition f1_chassis : chassis3 := MkChassis3 660 (1125 / 10) 425 450 (V 0 0 (-3 / 10)) (V (-1 / 10) 0 (-3 / 10)) (1 / 2) 1.
Theorem C71_refuted : exists Fa,
  total_torque3 f1_chassis vzero vzero vzero vzero vzero vzero Fa <> moment_about (c_com f1_chassis) (c_aero_x f1_chassis) Fa /\
  vy (total_torque3 f1_chassis vzero vzero vzero vzero vzero vzero Fa) = vy (moment_about (c_com f1_chassis) (V (-1 / 10) 0 0) Fa).
Proof.
  exists (V (-1000) 0 0). split.
  - intros H. apply (f_equal vy) in H. unfold total_torque3, moment_about, contact_force, cross, vsub, vadd, vopp, vzero in H; cbn in H. lra.
  - unfold total_torque3, moment_about, contact_force, cross, vsub, vadd, vopp, vzero; cbn. lra.
Qed.

(** ** C54: aerodynamics *)

(** The drag is along the velocity of the air relative to the car, seen from any frame: in
    inertial axes (east, south, down) that is the wind minus the velocity of the car. *)
Theorem C54_drag_along_wind : forall a Q car, rotation Q -> 0 <= ae_rho a -> 0 <= ae_cd a -> 0 <= ae_A a ->
  let relative := vsub (V (ae_east a) (- ae_north a) 0) (mapply Q car) in
  along (mapply Q (drag_force a Q car)) relative /\ (vz (aerodynamic_velocity a Q car) = 0 -> norm (drag_force a Q car) = 1 / 2 * ae_rho a * ae_cd a * ae_A a * norm relative ^ 2) /\
  along (drag_force a Q car) (aerodynamic_velocity a Q car) /\
  norm (aerodynamic_velocity a Q car) = norm relative.
Proof.
  intros a Q car HQ Hr Hc HA relative. set (W := V (ae_east a) (- ae_north a) 0) in *.
  assert (QW : mapply Q (wind_velocity a Q) = W) by (apply rotation_back; exact HQ).
  assert (QA : mapply Q (aerodynamic_velocity a Q car) = relative).
  { unfold aerodynamic_velocity, relative. rewrite mapply_add, mapply_opp, QW. apply vec_eq; cbn; ring. }
  set (k := 1 / 2 * ae_rho a * ae_cd a * ae_A a * aero_speed (aerodynamic_velocity a Q car)).
  assert (Hk : 0 <= k).
  { unfold k. apply Rmult_le_pos; [|apply sqrt_pos]. apply Rmult_le_pos; [|exact HA]. apply Rmult_le_pos; [lra | exact Hc]. }
  split; [|split; [|split]].
  - exists k. split; [exact Hk|]. unfold drag_force. fold k. now rewrite mapply_scale, QA.
  - intros Z. rewrite <- QA. rewrite rotation_norm by exact HQ. unfold drag_force. fold k. rewrite norm_scale by exact Hk.
    assert (E : aero_speed (aerodynamic_velocity a Q car) = norm (aerodynamic_velocity a Q car)) by (unfold aero_speed, norm, dot; rewrite Z; f_equal; ring).
    unfold k. rewrite E. ring.
  - exists k. split; [exact Hk | reflexivity].
  - rewrite <- QA. symmetry. now apply rotation_norm.
Qed.
(** In still air the drag never does positive work, and it grows with the square of the
    speed; the lift does not depend on which way the car goes. *)
Theorem C54_still_air : forall a Q car k, ae_north a = 0 -> ae_east a = 0 -> 0 <= ae_rho a -> 0 <= ae_cd a -> 0 <= ae_A a ->
  dot (drag_force a Q car) car <= 0 /\
  drag_force a Q (vscale k car) = vscale (k * Rabs k) (drag_force a Q car) /\
  lift_force a Q (vscale k car) = vscale (k * k) (lift_force a Q car) /\
  lift_force a Q (vopp car) = lift_force a Q car /\ vx (lift_force a Q car) = 0 /\ vy (lift_force a Q car) = 0.
Proof.
  intros a Q car k Hn He Hr Hc HA.
  assert (A0 : forall c, aerodynamic_velocity a Q c = vopp c).
  { intros c. unfold aerodynamic_velocity, wind_velocity. rewrite Hn, He. apply vec_eq; unfold mtapply, dot; cbn; ring. }
  set (c0 := 1 / 2 * ae_rho a * ae_cd a * ae_A a).
  assert (C0 : 0 <= c0) by (unfold c0; apply Rmult_le_pos; [apply Rmult_le_pos; [lra | exact Hc] | exact HA]).
  assert (Sp : 0 <= aero_speed (vopp car)) by apply sqrt_pos.
  split; [|split; [|split; [|split; [|split; reflexivity]]]].
  - unfold drag_force. rewrite A0. fold c0. set (s := aero_speed (vopp car)) in *. unfold dot, vscale, vopp; cbn.
    assert (0 <= c0 * s) by now apply Rmult_le_pos.
    pose proof (Rle_0_sqr (vx car)). pose proof (Rle_0_sqr (vy car)). pose proof (Rle_0_sqr (vz car)). unfold Rsqr in *. nra.
  - unfold drag_force. rewrite !A0. fold c0.
    assert (E : aero_speed (vopp (vscale k car)) = Rabs k * aero_speed (vopp car)).
    { unfold aero_speed, vopp, vscale; cbn. rewrite <- (sqrt_Rsqr_abs k). rewrite <- sqrt_mult_alt by apply Rle_0_sqr. f_equal. unfold Rsqr. ring. }
    rewrite E. apply vec_eq; unfold vscale, vopp; cbn; ring.
  - unfold lift_force. rewrite !A0. apply vec_eq; unfold vscale, vopp; cbn; ring.
  - unfold lift_force. rewrite !A0. apply vec_eq; unfold vscale, vopp; cbn; ring.
Qed.
(** Only the relative motion counts. *)
Theorem C54_relative : forall a b Q car V0, rotation Q -> vz V0 = 0 ->
  ae_rho b = ae_rho a -> ae_cd b = ae_cd a -> ae_cl b = ae_cl a -> ae_A b = ae_A a ->
  ae_east b = ae_east a + vx V0 -> ae_north b = ae_north a - vy V0 ->
  drag_force b Q (vadd car (mtapply Q V0)) = drag_force a Q car /\ lift_force b Q (vadd car (mtapply Q V0)) = lift_force a Q car.
Proof.
  intros a b Q car V0 HQ Z R1 R2 R3 R4 E N.
  assert (A : aerodynamic_velocity b Q (vadd car (mtapply Q V0)) = aerodynamic_velocity a Q car).
  { unfold aerodynamic_velocity, wind_velocity. rewrite E, N. apply vec_eq; unfold mtapply, dot; cbn; rewrite Z; ring. }
  unfold drag_force, lift_force. rewrite A, R1, R2, R3, R4. split; reflexivity.
Qed.
Example C54_sample : rotation (rot_z (1 / 2)) /\ 0 < ae_rho (MkAero (12 / 10) (9 / 10) 3 (15 / 10) 5 3).
Proof.
  split; [|cbn; lra]. pose proof (sin2_cos2 (1 / 2)) as E. unfold Rsqr in E.
  unfold rotation, right_handed, rot_z, dot, cross; cbn.
  repeat split; try ring; try lra. apply vec_eq; cbn; lra.
Qed.

(** ** C55: loads of the tyres *)
Theorem C55_roll_balance : forall c fl fr rl rr, roll_balance c fl fr rl rr = 0 <-> fr - fl = c_roll_balance c * (fr + rr - fl - rl).
Proof. intros. unfold roll_balance. split; intros; lra. Qed.
(** The load given to a tyre is compressive and at least the load in the input. *)
Theorem C55_compressive : forall sp c F, smooth_positive_part sp -> 0 <= c_ref2 c ->
  neg_force sp c F <= 0 /\ 0 <= tyre_load sp c F /\ - F <= tyre_load sp c F.
Proof.
  intros sp c F Hs Hr. destruct (Hs (- F) (c_ref2 c) Hr) as [A B]. unfold tyre_load, neg_force. lra.
Qed.
Example C55_sample : 0 <= c_ref2 f1_chassis /\ roll_balance f1_chassis (-2000) (-3000) (-2500) (-3500) = 0.
Proof. unfold roll_balance; cbn. lra. Qed.

(** ** C56: springs *)

(** The tyre, the chassis spring and the anti-roll bar balance on both sides. *)
Theorem C56_equilibrium : forall mode a kt R0 z phi delta, 0 < b_kchassis a + kt -> 0 < 2 * b_kantiroll a + b_kchassis a + kt ->
  let d := axle6_deflection mode a kt R0 z phi delta in
  kt * d_wl d + b_kchassis a * d_sl d + b_kantiroll a * (d_sl d - d_sr d) = 0 /\
  kt * d_wr d + b_kchassis a * d_sr d + b_kantiroll a * (d_sr d - d_sl d) = 0.
Proof.
  intros mode a kt R0 z phi delta H1 H2 d. unfold d, axle6_deflection, axle6_solve; cbn.
  split; field; lra.
Qed.
(** What the tyres see is the computed deflection and its rate. On the left of a steered axle
    this needs the two steering coefficients to be opposite. *)
Theorem C56_seen_partial : forall mode a kt R0 z phi delta dz dphi, 0 < b_kchassis a + kt -> 0 < 2 * b_kantiroll a + b_kchassis a + kt ->
  let d := axle6_deflection mode a kt R0 z phi delta in let r := axle6_rates a kt dz dphi in
  (mode = STEERING_FREE_ROLL -> seen z (tire_z_right a d phi delta) R0 = d_wr d) /\
  (mode = STEERING_FREE_ROLL -> b_beta_l a = - b_beta_r a -> seen z (tire_z_left a d phi delta) R0 = d_wl d) /\
  (mode = POWERED_WITHOUT_DIFFERENTIAL -> delta = 0 -> seen z (tire_z_left a d phi delta) R0 = d_wl d /\ seen z (tire_z_right a d phi delta) R0 = d_wr d) /\
  dz + tire_dz_left a r dphi = d_wl r /\ dz + tire_dz_right a r dphi = d_wr r.
Proof.
  intros mode a kt R0 z phi delta dz dphi H1 H2 d r.
  unfold d, r, axle6_deflection, axle6_rates, seen, tire_z_left, tire_z_right, tire_dz_left, tire_dz_right, axle6_displacement.
  set (da := 1 / 2 * b_track a * phi + match mode with STEERING_FREE_ROLL => b_beta_r a * delta | POWERED_WITHOUT_DIFFERENTIAL => 0 end).
  split; [|split; [|split; [|split]]].
  - intros ->. unfold axle6_solve; cbn. unfold da. ring.
  - intros -> ->. unfold axle6_solve; cbn. unfold da. ring.
  - intros -> ->. unfold axle6_solve; cbn. unfold da. split; ring.
  - unfold axle6_solve; cbn. ring.
  - unfold axle6_solve; cbn. ring.
Qed.
(** Otherwise it does not hold: the left coefficient can be set to anything. *)
Theorem C56_refuted : exists a kt R0 z phi delta, 0 < b_kchassis a + kt /\ 0 < 2 * b_kantiroll a + b_kchassis a + kt /\
  let d := axle6_deflection STEERING_FREE_ROLL a kt R0 z phi delta in seen z (tire_z_left a d phi delta) R0 <> d_wl d.
Proof.
  exists (MkAxle6 1 1000 0 (6 / 100) (6 / 100)), 1000, (1 / 10), 0, 0, 1. cbn. split; [lra|]. split; [lra|].
  unfold seen, tire_z_left, axle6_deflection, axle6_solve, axle6_displacement; cbn. 
  match goal with |- context [?w - (0 + 1 / 10) + _] => generalize w; intros w0 end. lra.
Qed.
Example C56_sample : let a := MkAxle6 (1055 / 1000) 17700 0 (-58 / 1000) (58 / 1000) in
  0 < b_kchassis a + 100000 /\ 0 < 2 * b_kantiroll a + b_kchassis a + 100000 /\ b_beta_l a = - b_beta_r a.
Proof. cbn. lra. Qed.

(** ** C77: reported accelerations *)

(** On a flat road they are the rate of the speed and the speed times the rate of turn of the
    path. *)
Theorem C77_accelerations : forall c (F T : R -> vec) (u v om : R -> R) t, c_mass c <> 0 -> 0 < u t ->
  let mo := fun s => equations3 c (F s) (T s) (u s) (v s) 0 (V 0 0 (om s)) in
  is_derive u t (vx (mo_a (mo t))) -> is_derive v t (vy (mo_a (mo t))) ->
  is_derive (fun s => sqrt (u s * u s + v s * v s)) t (longitudinal_acceleration (u t) (v t) (c_mass c) (F t)) /\
  exists rate, is_derive (fun s => atan (v s / u s)) t rate /\
    sqrt (u t * u t + v t * v t) * (om t + rate) = lateral_acceleration (u t) (v t) (c_mass c) (F t).
Proof.
  intros c F T u v om t Hm Hu mo Du Dv.
  assert (Q : 0 < u t * u t + v t * v t) by (pose proof (Rle_0_sqr (v t)); unfold Rsqr in *; nra).
  assert (S : 0 < sqrt (u t * u t + v t * v t)) by now apply sqrt_lt_R0.
  assert (SS : sqrt (u t * u t + v t * v t) * sqrt (u t * u t + v t * v t) = u t * u t + v t * v t) by (apply sqrt_sqrt; lra).
  assert (Nm : norm (V (u t) (v t) 0) = sqrt (u t * u t + v t * v t)) by (unfold norm, dot; cbn; f_equal; ring).
  split.
  - auto_derive.
    + repeat (split; [first [eexists; exact Du | eexists; exact Dv | exact Q]|]). exact I.
    + replace (Derive (fun x : R => u x) t) with (vx (mo_a (mo t))) by (symmetry; now apply is_derive_unique).
      replace (Derive (fun x : R => v x) t) with (vy (mo_a (mo t))) by (symmetry; now apply is_derive_unique).
      unfold longitudinal_acceleration. rewrite Nm. unfold mo, equations3, dot, vscale; cbn. field. split; [exact Hm | lra].
  - exists ((u t * vy (mo_a (mo t)) - v t * vx (mo_a (mo t))) / (u t * u t + v t * v t)). split.
    + auto_derive.
      * repeat (split; [first [eexists; exact Du | eexists; exact Dv | lra]|]). exact I.
      * replace (Derive (fun x : R => u x) t) with (vx (mo_a (mo t))) by (symmetry; now apply is_derive_unique).
        replace (Derive (fun x : R => v x) t) with (vy (mo_a (mo t))) by (symmetry; now apply is_derive_unique).
        field. repeat split; lra.
    + unfold lateral_acceleration. rewrite Nm. set (s := sqrt (u t * u t + v t * v t)) in *. rewrite <- SS.
      unfold mo, equations3, cross, vscale; cbn.
      replace (s * (om t + (u t * (vy (F t) / c_mass c - (u t - - vz (c_com c) * 0) * om t + 0 * 0) - v t * (vx (F t) / c_mass c + (v t + - vz (c_com c) * 0) * om t - 0 * 0)) / (s * s)))
        with ((om t * (s * s) + (u t * vy (F t) / c_mass c - v t * vx (F t) / c_mass c) - om t * (u t * u t + v t * v t)) / s) by (field; lra).
      rewrite SS. field. lra.
Qed.

Example C77_sample : let mo := fun s => equations3 f1_chassis (on_circle s) vzero (10 + s) 0 0 (V 0 0 1) in
  forall t, is_derive (fun s => 10 + s) t (vx (mo_a (mo t))) /\ is_derive (fun _ => 0) t (vy (mo_a (mo t))).
Proof. intros mo t. unfold mo, equations3, on_circle; cbn. split; auto_derive; try exact I; field. Qed.

(** ** C78: understeer indicator *)

(** A car and its mirror image have the same indicator, when they turn. *)
Theorem C78_mirror_partial : forall yaw u v track x wb dl dr, yaw <> 0 -> 0 < u * u + v * v ->
  understeer_indicator (- yaw) u (- v) track x wb (- dr) (- dl) = understeer_indicator yaw u v track x wb dl dr.
Proof.
  intros yaw u v track x wb dl dr Hy Hv. unfold understeer_indicator.
  replace (- v * - v) with (v * v) by ring. assert (S : 0 < sqrt (u * u + v * v)) by now apply sqrt_lt_R0.
  set (s := sqrt (u * u + v * v)) in *. set (k := yaw / s). replace (- yaw / s) with (- k) by (unfold k; field; lra).
  assert (Hk : k <> 0) by (unfold k; intros Z; apply Hy; apply Rmult_eq_reg_r with (/ s); [unfold Rdiv in Z; lra | apply Rinv_neq_0_compat; lra]).
  destruct (Rle_dec 0 (- k)) as [A|A], (Rle_dec 0 k) as [B|B]; try lra; rewrite ?Ropp_involutive; reflexivity.
Qed.
(** In a straight line they do not. *)
Theorem C78_refuted : exists u track x wb delta, 0 < u /\
  understeer_indicator (- 0) u (- 0) track x wb (- delta) (- delta) <> understeer_indicator 0 u 0 track x wb delta delta.
Proof.
  exists 50, (146 / 100), (16 / 10), (34 / 10), (1 / 10). split; [lra|]. rewrite !Ropp_0. unfold understeer_indicator.
  replace (0 / sqrt (50 * 50 + 0 * 0)) with 0 by (unfold Rdiv; ring).
  destruct (Rle_dec 0 0) as [_|N]; [|lra].
  assert (A : forall d, atan (34 / 10 * 0 / d) = 0) by (intros d; unfold Rdiv; rewrite Rmult_0_r, Rmult_0_l; apply atan_0).
  rewrite !A. repeat (destruct (Rle_dec _ _); try lra); repeat (destruct (Rlt_dec _ _); try lra).
Qed.
(** Where it is not zero both front wheels deviate from the ideal angles to the same side,
    and it is the smaller deviation. *)
Theorem C78_meaning : forall yaw u v track x wb dl dr, 0 < yaw -> 0 < u * u + v * v ->
  let k := yaw / sqrt (u * u + v * v) in
  let d_in := atan (wb * k / (sqrt (1 - k * k * x * x) - 1 / 2 * track * k)) - dr in
  let d_out := atan (wb * k / (sqrt (1 - k * k * x * x) + 1 / 2 * track * k)) - dl in
  let i := understeer_indicator yaw u v track x wb dl dr in
  (0 < i <-> 0 < d_in /\ 0 < d_out) /\ (i < 0 <-> d_in < 0 /\ d_out < 0) /\ (i <> 0 -> Rabs i = Rmin (Rabs d_in) (Rabs d_out)).
Proof.
  intros yaw u v track x wb dl dr Hy Hv k d_in d_out i.
  assert (S : 0 < sqrt (u * u + v * v)) by now apply sqrt_lt_R0.
  assert (K : 0 < k) by (unfold k; apply Rmult_lt_0_compat; [lra | now apply Rinv_0_lt_compat]).
  assert (E : i = if Rle_dec (d_in * d_out) 0 then 0
                  else if Rlt_dec 0 d_in then (if Rlt_dec d_out d_in then d_out else d_in)
                  else (if Rlt_dec d_out d_in then d_in else d_out)).
  { unfold i, understeer_indicator. fold k. destruct (Rle_dec 0 k) as [_|N]; [reflexivity | lra]. }
  clearbody d_in d_out. rewrite E. clear E i.
  unfold Rmin, Rabs.
  destruct (Rle_dec (d_in * d_out) 0) as [A|A].
  - assert (~ (0 < d_in /\ 0 < d_out)) by (intros [? ?]; nra). assert (~ (d_in < 0 /\ d_out < 0)) by (intros [? ?]; nra).
    split; [split; intros; [lra | tauto]|]. split; [split; intros; [lra | tauto]|]. intros; lra.
  - assert (C : (0 < d_in /\ 0 < d_out) \/ (d_in < 0 /\ d_out < 0)).
    { destruct (Rtotal_order d_in 0) as [P|[P|P]], (Rtotal_order d_out 0) as [Q|[Q|Q]]; subst; try (left; split; lra); try (right; split; lra); exfalso; nra. }
    destruct C as [[P Q]|[P Q]]; destruct (Rlt_dec 0 d_in); try lra; destruct (Rlt_dec d_out d_in);
      (split; [split; intros; lra|]); (split; [split; intros; lra|]); intros _;
      destruct (Rcase_abs d_in), (Rcase_abs d_out); try lra; destruct (Rle_dec _ _); lra.
Qed.
Example C78_sample : exists yaw u v, 0 < yaw /\ 0 < u * u + v * v.
Proof. exists 1, 50, 1. lra. Qed.

(** ** C79: power through a tyre *)

(** The power that the contact force gives to the car and to the wheel is the reported
    dissipation, up to the deflection of the tyre. *)
Theorem C79_power_partial : forall R0 t,
  vx (t_F t) * vx (t_v t) + vy (t_F t) * vy (t_v t) + wheel_torque R0 t * t_omega t = dissipation R0 t + vx (t_F t) * t_w t * t_omega t.
Proof. intros. unfold wheel_torque, dissipation. ring. Qed.
(** With a deflected tyre, as those of the kart, power appears or disappears. *)
Theorem C79_refuted : exists R0 t, 0 < t_w t < R0 /\
  vx (t_F t) * vx (t_v t) + vy (t_F t) * vy (t_v t) + wheel_torque R0 t * t_omega t <> dissipation R0 t.
Proof.
  exists (139 / 1000), (MkTire 100 (5 / 1000) (V 10 0 0) 0 0 (V 300 0 (-500)) (V 0 0 0)). cbn. split; [lra|].
  unfold wheel_torque, dissipation; cbn. lra.
Qed.

Print Assumptions C50_power.
Print Assumptions C50_bound.
Print Assumptions C50_brakes.
Print Assumptions C50_kart.
Print Assumptions C51_continuous.
Print Assumptions C51_nonnegative.
Print Assumptions C51_ends.
Print Assumptions C80_max_power_partial.
Print Assumptions C80_refuted.
Print Assumptions C52_newton_euler.
Print Assumptions C52_energy.
Print Assumptions C71_partial.
Print Assumptions C71_refuted.
Print Assumptions C54_drag_along_wind.
Print Assumptions C54_still_air.
Print Assumptions C54_relative.
Print Assumptions C55_roll_balance.
Print Assumptions C55_compressive.
Print Assumptions C56_equilibrium.
Print Assumptions C56_seen_partial.
Print Assumptions C56_refuted.
Print Assumptions C77_accelerations.
Print Assumptions C78_mirror_partial.
Print Assumptions C78_refuted.
Print Assumptions C78_meaning.
Print Assumptions C79_power_partial.
Print Assumptions C79_refuted.
