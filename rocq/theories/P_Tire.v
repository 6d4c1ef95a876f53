(** Tyre forces. *)
From Coq Require Import Reals Lra Lia.
From Coquelicot Require Import Coquelicot.
From Verif Require Import M_Vec M_Tire L_Tire.
Local Open Scope R_scope.

(** The usual smooth positive part has the property asked for. *)
Definition usual_smooth_pos (x e : R) : R := (x + sqrt (x * x + e)) / 2.
Example usual_smooth_pos_ok : smooth_positive_part usual_smooth_pos.
Proof.
  intros x e He. unfold usual_smooth_pos.
  assert (Rabs x <= sqrt (x * x + e)) by (rewrite <- (sqrt_Rsqr_abs x); apply sqrt_le_1_alt; unfold Rsqr; lra).
  pose proof (Rle_abs x). pose proof (Rle_abs (- x)). rewrite Rabs_Ropp in *. lra.
Qed.

(** Parameters of the tyres of database/vehicles/f1/limebeer-2014-f1.xml. *)
Definition limebeer_tire : simple_model :=
  MkSimple 2000 6000 (175 / 100) (140 / 100) (180 / 100) (145 / 100) (11 / 100) (10 / 100) 9 8 (19 / 10) (19 / 10).
(** Parameters of the rear tyres of database/vehicles/kart/roberto-lot-kart-2016.xml. *)
Definition kart_rear_tire : standard_model :=
  MkStandard 560 (16 / 10) (23 / 10) (9 / 10) (95 / 100) 20 1 (- (1 / 2)) (23 / 10) (15 / 10) (9 / 10) (376 / 10) (16 / 10) 2 14 1 12 (6 / 10).

(** C47. Whatever the slips, the load and the parameters, the force of the simple model is
    inside of the ellipse of the peak friction coefficients, which are at least the minimum
    friction. *)
Theorem C47_simple_ellipse : forall sp m kappa lambda Fz, smooth_positive_part sp ->
  (simple_force_x sp m kappa lambda Fz / mu_x_max sp m Fz) ^ 2 + (simple_force_y sp m kappa lambda Fz / mu_y_max sp m Fz) ^ 2 <= Fz ^ 2 /\
  mu_min <= mu_x_max sp m Fz /\ mu_min <= mu_y_max sp m Fz.
Proof.
  intros sp m kappa lambda Fz Hs. destruct (mu_at_least sp Hs m Fz) as [Mx My]. split; [|split; assumption].
  unfold simple_force_x, simple_force_y. cbv zeta.
  pose proof (rho_pos m kappa lambda Fz) as R0. pose proof (rho_sq m kappa lambda Fz) as R1.
  set (rho := combined_slip m kappa lambda Fz) in *. set (kn := kappa / maximum_kappa m Fz) in *. set (ln := lambda / maximum_lambda m Fz) in *.
  set (a := sin (q_Qx m * atan (q_Sx m * rho))). set (b := sin (q_Qy m * atan (q_Sy m * rho))).
  pose proof (sin_sq (q_Qx m * atan (q_Sx m * rho))) as A. pose proof (sin_sq (q_Qy m * atan (q_Sy m * rho))) as B. fold a in A. fold b in B.
  replace ((mu_x_max sp m Fz * a * Fz * kn / rho / mu_x_max sp m Fz) ^ 2 + (mu_y_max sp m Fz * b * Fz * ln / rho / mu_y_max sp m Fz) ^ 2)
    with (Fz * Fz * ((a * a * (kn * kn) + b * b * (ln * ln)) / (rho * rho))) by (field; lra).
  replace (Fz ^ 2) with (Fz * Fz * 1) by ring. apply Rmult_le_compat_l; [nra|].
  apply Rmult_le_reg_r with (rho * rho); [nra|]. unfold Rdiv. rewrite Rmult_assoc, Rinv_l, Rmult_1_r, Rmult_1_l by nra.
  pose proof (Rle_0_sqr kn) as K1. pose proof (Rle_0_sqr ln) as K2. unfold Rsqr in K1, K2.
  assert (a * a * (kn * kn) <= kn * kn) by nra. assert (b * b * (ln * ln) <= ln * ln) by nra. lra.
Qed.

(** C47. The standard model keeps each force below its own peak. *)
Theorem C47_standard_partial : forall m kappa lambda Fz,
  Rabs (standard_force_x m kappa lambda Fz) <= Rabs (p_pDx1 m * Fz) /\
  Rabs (standard_force_y m kappa lambda Fz) <= Rabs (p_pDy1 m * Fz).
Proof.
  intros m kappa lambda Fz. unfold standard_force_x, standard_force_y, force_pure_x, force_pure_y.
  assert (Cb : forall x, Rabs (cos x) <= 1) by (intros x; apply Rabs_le; pose proof (COS_bound x); lra).
  split.
  - destruct (Req_EM_T (p_pDx1 m) 0) as [E|E].
    + rewrite Rmult_0_r, Rabs_R0. apply Rabs_pos.
    + rewrite Rabs_mult. pose proof (Cb (p_rCx1 m * atan (p_rBx1 m * lambda))).
      pose proof (magic_bound (p_pDx1 m * Fz) (p_pCx1 m) (stiffness_x m Fz) (p_pEx1 m) kappa).
      pose proof (Rabs_pos (magic (p_pDx1 m * Fz) (p_pCx1 m) (stiffness_x m Fz) (p_pEx1 m) kappa)).
      pose proof (Rabs_pos (cos (p_rCx1 m * atan (p_rBx1 m * lambda)))). nra.
  - rewrite Rabs_mult. pose proof (Cb (p_rCy1 m * atan (p_rBy1 m * kappa))).
    pose proof (magic_bound (p_pDy1 m * Fz) (p_pCy1 m) (stiffness_y m Fz) (p_pEy1 m) lambda).
    pose proof (Rabs_pos (magic (p_pDy1 m * Fz) (p_pCy1 m) (stiffness_y m Fz) (p_pEy1 m) lambda)).
    pose proof (Rabs_pos (cos (p_rCy1 m * atan (p_rBy1 m * kappa)))). nra.
Qed.

(** C47 is false of the standard model: without combined-slip coefficients (as in the front
    tyre of the kart) both forces reach their peaks at once. *)
Theorem C47_standard_refuted : exists m kappa lambda Fz, 0 < Fz /\
  (standard_force_x m kappa lambda Fz / p_pDx1 m) ^ 2 + (standard_force_y m kappa lambda Fz / p_pDy1 m) ^ 2 > Fz ^ 2.
Proof.
  set (m := MkStandard 1000 1 1 1 0 1 0 0 1 1 0 1 1 2 0 0 0 0).
  exists m, 2, 2, 1000. split; [lra|].
  assert (Bx : stiffness_x m 1000 = 1).
  { unfold stiffness_x, p_Fz0prime. cbn. replace ((1000 - 1 * 1000) / (1 * 1000)) with 0 by field.
    rewrite !Rmult_0_r, exp_0. field. }
  assert (By : stiffness_y m 1000 = 1).
  { unfold stiffness_y, eps. rewrite Rabs_right by lra. destruct (Rlt_dec (1 / 10 ^ 12) 1000) as [_|N].
    - unfold p_Fz0prime; cbn. replace (1000 / (1 * 1000 * 1)) with 1 by field. rewrite atan_1.
      replace (2 * (PI / 4)) with (PI / 2) by field. rewrite sin_PI2. field.
    - exfalso. apply N. apply Rmult_lt_reg_r with (10 ^ 12); [apply pow_lt; lra|]. unfold Rdiv. rewrite Rmult_assoc, Rinv_l by (apply pow_nonzero; lra). simpl. lra. }
  unfold standard_force_x, standard_force_y, force_pure_x, force_pure_y. rewrite Bx, By.
  change (p_pDx1 m) with 1. change (p_pDy1 m) with 1. change (p_rCx1 m) with 0. change (p_rCy1 m) with 0.
  change (p_pCx1 m) with 1. change (p_pCy1 m) with 1. change (p_pEx1 m) with 0. change (p_pEy1 m) with 0.
  destruct (Req_EM_T 1 0) as [E|_]; [lra|].
  rewrite !Rmult_0_l, cos_0. unfold magic.
  replace (1 * atan (1 * 2 - 0 * (1 * 2 - atan (1 * 2)))) with (atan 2) by (rewrite Rmult_1_l; f_equal; ring).
  destruct (cos_sin_atan 2) as [_ S].
  assert (Q : sin (atan 2) * sin (atan 2) = 4 / 5).
  { rewrite S. replace (2 / sqrt (1 + 2 * 2) * (2 / sqrt (1 + 2 * 2))) with (4 / (sqrt (1 + 2 * 2) * sqrt (1 + 2 * 2))).
    - rewrite sqrt_sqrt by lra. field.
    - field. apply Rgt_not_eq, sqrt_lt_R0. lra. }
  replace ((1 * (1 * 1000 * sin (atan 2)) / 1) ^ 2) with (1000 * 1000 * (sin (atan 2) * sin (atan 2))) by field.
  rewrite Q. lra.
Qed.

(** C48. Simple model: for every forward speed, load and slip at which the slips of the
    friction peaks are positive, and shape factors up to 2, the forces oppose the slips and
    the tyre only dissipates energy. This covers both ways of updating a tyre. *)
Theorem C48_simple_partial : forall sp m R0 w v Fz kn, smooth_positive_part sp ->
  0 < vx v -> 0 <= Fz -> R0 <> 0 -> 0 < maximum_kappa m Fz -> 0 < maximum_lambda m Fz -> 0 < q_Qx m <= 2 -> 0 < q_Qy m <= 2 ->
  let t := tire_update_from_kappa (maximum_kappa m) (simple_force_x sp m) (simple_force_y sp m) R0 w v Fz kn in
  dissipation R0 t <= 0 /\ 0 <= vx (t_F t) * t_kappa t /\ vy (t_F t) * vy v <= 0 /\
  (kn = 0 -> vy v = 0 -> dissipation R0 t = 0 /\ vx (t_F t) = 0 /\ vy (t_F t) = 0).
Proof.
  intros sp m R0 w v Fz kn Hs Hv HF HR Hk Hl HQx HQy.
  unfold tire_update_from_kappa, tire_forces, dissipation; cbn [t_F t_v t_omega t_kappa vx vy].
  set (kappa := kn * maximum_kappa m Fz). set (lambda := slip_lambda v).
  destruct (mu_at_least sp Hs m Fz) as [Mx My].
  assert (Ey : vy v = - (lambda * vx v)) by (unfold lambda, slip_lambda; field; lra).
  assert (Eo : vx v - (1 + kappa) * vx v / R0 * R0 = - (kappa * vx v)) by (field; exact HR).
  assert (Fx : 0 <= simple_force_x sp m kappa lambda Fz * kappa).
  { unfold simple_force_x. cbv zeta. pose proof (rho_pos m kappa lambda Fz) as Rp. set (rho := combined_slip _ _ _ _) in *.
    assert (Sx : 0 <= sin (q_Qx m * atan (q_Sx m * rho))).
    { apply sin_atan_nonneg; [lra|]. pose proof (S_pos (q_Qx m) (proj1 HQx)). unfold q_Sx. nra. }
    replace (mu_x_max sp m Fz * sin (q_Qx m * atan (q_Sx m * rho)) * Fz * (kappa / maximum_kappa m Fz) / rho * kappa)
      with (mu_x_max sp m Fz * sin (q_Qx m * atan (q_Sx m * rho)) * Fz * (kappa * kappa) * (/ maximum_kappa m Fz * / rho)) by (field; lra).
    pose proof (Rinv_0_lt_compat _ Hk). pose proof (Rinv_0_lt_compat _ Rp).
    unfold mu_min in *. apply Rmult_le_pos; [|apply Rmult_le_pos; lra].
    apply Rmult_le_pos; [|nra]. apply Rmult_le_pos; [|lra]. apply Rmult_le_pos; lra. }
  assert (Fy : 0 <= simple_force_y sp m kappa lambda Fz * lambda).
  { unfold simple_force_y. cbv zeta. pose proof (rho_pos m kappa lambda Fz) as Rp. set (rho := combined_slip _ _ _ _) in *.
    assert (Sy : 0 <= sin (q_Qy m * atan (q_Sy m * rho))).
    { apply sin_atan_nonneg; [lra|]. pose proof (S_pos (q_Qy m) (proj1 HQy)). unfold q_Sy. nra. }
    replace (mu_y_max sp m Fz * sin (q_Qy m * atan (q_Sy m * rho)) * Fz * (lambda / maximum_lambda m Fz) / rho * lambda)
      with (mu_y_max sp m Fz * sin (q_Qy m * atan (q_Sy m * rho)) * Fz * (lambda * lambda) * (/ maximum_lambda m Fz * / rho)) by (field; lra).
    pose proof (Rinv_0_lt_compat _ Hl). pose proof (Rinv_0_lt_compat _ Rp).
    unfold mu_min in *. apply Rmult_le_pos; [|apply Rmult_le_pos; lra].
    apply Rmult_le_pos; [|nra]. apply Rmult_le_pos; [|lra]. apply Rmult_le_pos; lra. }
  rewrite Eo. assert (Py : simple_force_y sp m kappa lambda Fz * vy v <= 0) by (rewrite Ey; nra).
  split; [nra|]. split; [exact Fx|]. split; [exact Py|].
  intros Zk Zl. assert (K0 : kappa = 0) by (unfold kappa; rewrite Zk; ring).
  assert (L0 : lambda = 0) by (unfold lambda, slip_lambda; rewrite Zl; field; lra).
  rewrite K0, L0, Zl. split; [ring|]. unfold simple_force_x, simple_force_y; cbv zeta.
  pose proof (rho_pos m 0 0 Fz). split; field; lra.
Qed.

(** C48. The same, for the update from the angular speed of the wheel, with the load of the
    carcass spring. *)
Theorem C48_simple_spin_partial : forall sp m ty R0 kt ct ref2 w dw v omega, smooth_positive_part sp -> 0 <= ref2 -> R0 <> 0 ->
  0 < vx v -> 0 < maximum_kappa m (sp (kt * w + ct * dw) ref2) -> 0 < maximum_lambda m (sp (kt * w + ct * dw) ref2) ->
  0 < q_Qx m <= 2 -> 0 < q_Qy m <= 2 ->
  let t := tire_update sp ty (simple_force_x sp m) (simple_force_y sp m) R0 kt ct ref2 w dw v omega in
  dissipation R0 t <= 0 /\ 0 <= vx (t_F t) * t_kappa t /\ vy (t_F t) * vy v <= 0 /\ vz (t_F t) <= 0.
Proof.
  intros sp m ty R0 kt ct ref2 w dw v omega Hs He HR Hv Hk Hl HQx HQy.
  set (Fz := sp (kt * w + ct * dw) ref2) in *. destruct (Hs (kt * w + ct * dw) ref2 He) as [HF _]. fold Fz in HF.
  set (om := match ty with NORMAL => omega | ONLY_LATERAL => vx v / R0 end).
  pose proof (C48_simple_partial sp m R0 w v Fz (slip_kappa R0 om v / maximum_kappa m Fz) Hs Hv HF HR Hk Hl HQx HQy) as T.
  unfold tire_update. fold Fz. fold om. unfold tire_update_from_kappa in T.
  replace (slip_kappa R0 om v / maximum_kappa m Fz * maximum_kappa m Fz) with (slip_kappa R0 om v) in T by (field; lra).
  replace ((1 + slip_kappa R0 om v) * vx v / R0) with om in T by (unfold slip_kappa; field; lra).
  cbv zeta in T |- *. destruct T as (A & B & C & _). split; [exact A|]. split; [exact B|]. split; [exact C|]. cbn. lra.
Qed.

(** The tyres of the Formula 1 car meet the hypotheses for all loads up to 35 kN, which is
    beyond the bound of three times the weight (3 x 660 kg x 9.81 m/s2). *)
Example C48_limebeer : forall Fz, 0 <= Fz <= 35000 ->
  0 < maximum_kappa limebeer_tire Fz /\ 0 < maximum_lambda limebeer_tire Fz /\ 0 < q_Qx limebeer_tire <= 2 /\ 0 < q_Qy limebeer_tire <= 2.
Proof.
  intros Fz HF. pose proof PI_RGT_0. unfold maximum_kappa, maximum_lambda, q_lambda_max1, q_lambda_max2, DEG; cbn.
  split; [lra|]. split; [|lra].
  replace ((Fz - 2000) * (8 * (PI / 180) - 9 * (PI / 180)) / (6000 - 2000) + 9 * (PI / 180)) with (PI / 180 * (9 - (Fz - 2000) / 4000)) by field.
  apply Rmult_lt_0_compat; lra.
Qed.

(** C48 is false for larger loads: the slip of the friction peak becomes negative and the
    tyre pushes along its slip. *)
Theorem C48_simple_refuted : forall sp, smooth_positive_part sp -> exists Fz kn v R0, 0 < Fz /\ 0 < vx v /\ 0 < R0 /\
  dissipation R0 (tire_update_from_kappa (maximum_kappa limebeer_tire) (simple_force_x sp limebeer_tire) (simple_force_y sp limebeer_tire) R0 0 v Fz kn) > 0.
Proof.
  intros sp Hs. exists 50000, 1, (V 50 0 0), (33 / 100). split; [lra|]. split; [cbn; lra|]. split; [lra|].
  unfold tire_update_from_kappa, tire_forces, dissipation; cbn [t_F t_v t_omega vx vy].
  assert (Ek : maximum_kappa limebeer_tire 50000 = - (1 / 100)) by (unfold maximum_kappa; cbn; field).
  rewrite Ek, Rmult_0_r, Rplus_0_r. unfold simple_force_x; cbv zeta. rewrite Ek.
  pose proof (rho_pos limebeer_tire (1 * - (1 / 100)) (slip_lambda (V 50 0 0)) 50000) as Rp. set (rho := combined_slip _ _ _ _) in *.
  destruct (mu_at_least sp Hs limebeer_tire 50000) as [Mx _]. set (mu := mu_x_max sp limebeer_tire 50000) in *.
  assert (Sx : 0 < sin (q_Qx limebeer_tire * atan (q_Sx limebeer_tire * rho))).
  { apply sin_atan_pos; [cbn; lra|]. apply Rmult_lt_0_compat; [apply S_pos; cbn; lra | exact Rp]. }
  set (sn := sin (q_Qx limebeer_tire * atan (q_Sx limebeer_tire * rho))) in *.
  replace (mu * sn * 50000 * (1 * - (1 / 100) / - (1 / 100)) / rho * (50 - (1 + 1 * - (1 / 100)) * 50 / (33 / 100) * (33 / 100)))
    with (mu * sn * / rho * 25000) by (field; lra).
  pose proof (Rinv_0_lt_compat _ Rp). apply Rmult_lt_0_compat; [|lra]. apply Rmult_lt_0_compat; [|assumption]. nra.
Qed.

(** C48. Standard model, under the documented conditions (E at most 1) and shape factors up
    to 2, with combined factors up to 1. *)
Theorem C48_standard_partial : forall sp m ty R0 kt ct ref2 w dw v omega, smooth_positive_part sp -> 0 <= ref2 -> R0 <> 0 -> 0 < vx v ->
  let Fz := sp (kt * w + ct * dw) ref2 in
  0 <= p_pDx1 m -> 0 <= p_pDy1 m -> 0 <= p_pCx1 m <= 2 -> 0 <= p_pCy1 m <= 2 -> p_pEx1 m <= 1 -> p_pEy1 m <= 1 ->
  0 <= p_rCx1 m <= 1 -> 0 <= p_rCy1 m <= 1 -> 0 <= stiffness_x m Fz -> 0 <= stiffness_y m Fz ->
  let t := tire_update sp ty (standard_force_x m) (standard_force_y m) R0 kt ct ref2 w dw v omega in
  dissipation R0 t <= 0 /\ 0 <= vx (t_F t) * t_kappa t /\ vy (t_F t) * vy v <= 0 /\ vz (t_F t) <= 0.
Proof.
  intros sp m ty R0 kt ct ref2 w dw v omega Hs He HR Hv Fz HDx HDy HCx HCy HEx HEy HrCx HrCy HBx HBy.
  destruct (Hs (kt * w + ct * dw) ref2 He) as [HF _]. fold Fz in HF.
  unfold tire_update, tire_forces, dissipation; cbn [t_F t_v t_omega t_kappa vx vy vz]. fold Fz.
  set (om := match ty with NORMAL => omega | ONLY_LATERAL => vx v / R0 end).
  set (kappa := slip_kappa R0 om v). set (lambda := slip_lambda v).
  assert (Ey : vy v = - (lambda * vx v)) by (unfold lambda, slip_lambda; field; lra).
  assert (Eo : vx v - om * R0 = - (kappa * vx v)) by (unfold kappa, slip_kappa; field; lra).
  assert (Fx : 0 <= standard_force_x m kappa lambda Fz * kappa).
  { unfold standard_force_x, force_pure_x. destruct (Req_EM_T (p_pDx1 m) 0); [lra|].
    pose proof (magic_sign (p_pDx1 m * Fz) (p_pCx1 m) (stiffness_x m Fz) (p_pEx1 m) kappa ltac:(nra) HCx HBx HEx).
    pose proof (cos_atan_nonneg (p_rCx1 m) (p_rBx1 m * lambda) HrCx). nra. }
  assert (Fy : 0 <= standard_force_y m kappa lambda Fz * lambda).
  { unfold standard_force_y, force_pure_y.
    pose proof (magic_sign (p_pDy1 m * Fz) (p_pCy1 m) (stiffness_y m Fz) (p_pEy1 m) lambda ltac:(nra) HCy HBy HEy).
    pose proof (cos_atan_nonneg (p_rCy1 m) (p_rBy1 m * kappa) HrCy). nra. }
  rewrite Eo, Ey. split; [nra|]. split; [exact Fx|]. split; [nra | lra].
Qed.

(** C48 is false of the standard model with the parameters of the kart's rear tyres, whose
    shape factor is 2.3: at large spin the tyre brakes while it is driven... and gains
    energy. *)
Theorem C48_standard_refuted : exists kappa v R0 Fz, 0 < kappa /\ 0 < vx v /\ 0 < R0 /\ 0 < Fz /\
  dissipation R0 (tire_forces (standard_force_x kart_rear_tire) (standard_force_y kart_rear_tire) R0 ((1 + kappa) * vx v / R0) 0 v kappa (slip_lambda v) Fz) > 0.
Proof.
  exists 20, (V 10 0 0), (139 / 1000), 896. split; [lra|]. split; [cbn; lra|]. split; [lra|]. split; [lra|].
  unfold tire_forces, dissipation; cbn [t_F t_v t_omega vx vy]. rewrite Rmult_0_r, Rplus_0_r.
  replace (10 - (1 + 20) * 10 / (139 / 1000) * (139 / 1000)) with (-200) by field.
  assert (El : slip_lambda (V 10 0 0) = 0) by (unfold slip_lambda; cbn; field). rewrite El.
  unfold standard_force_x, force_pure_x. rewrite Rmult_0_r, atan_0, Rmult_0_r, cos_0, Rmult_1_l.
  destruct (Req_EM_T (p_pDx1 kart_rear_tire) 0) as [E|_]; [cbn in E; lra|].
  assert (Bx : stiffness_x kart_rear_tire 896 = 20 / (23 / 10 * (9 / 10))).
  { unfold stiffness_x, p_Fz0prime; cbn. replace ((896 - 16 / 10 * 560) / (16 / 10 * 560)) with 0 by field.
    rewrite !Rmult_0_r, exp_0. field. }
  rewrite Bx, magic_shape. change (p_pDx1 kart_rear_tire) with (9 / 10). change (p_pCx1 kart_rear_tire) with (23 / 10). change (p_pEx1 kart_rear_tire) with (95 / 100).
  set (x := 20 / (23 / 10 * (9 / 10)) * 20). assert (Hx : 193 < x) by (unfold x; lra).
  set (y := shape (95 / 100) x).
  assert (Hy : 9 < y) by (unfold y, shape; pose proof (atan_nonneg x ltac:(lra)); lra).
  pose proof (atan_bound y) as [_ Ub]. pose proof PI2_3_2 as P32.
  assert (Lb : PI / 2 - / 9 < atan y).
  { replace (atan y) with (PI / 2 - atan (/ y)) by (rewrite (atan_inv y ltac:(lra)); ring).
    assert (/ y < / 9) by (apply Rinv_lt_contravar; lra).
    pose proof (Rinv_0_lt_compat y ltac:(lra)). pose proof (atan_upper (/ y) ltac:(lra)). lra. }
  assert (sin (23 / 10 * atan y) < 0) by (apply sin_lt_0; lra). nra.
Qed.
(** A tyre that meets the hypotheses of the standard model: the kart's with a shape factor
    of 2, at its nominal load. *)
Example C48_standard_sample :
  let m := MkStandard 560 (16 / 10) 2 (9 / 10) (95 / 100) 20 1 (- (1 / 2)) 2 (15 / 10) (9 / 10) (376 / 10) (16 / 10) 2 14 1 12 (6 / 10) in
  0 <= stiffness_x m 896 /\ 0 <= stiffness_y m 896.
Proof.
  cbv zeta. split.
  - unfold stiffness_x, p_Fz0prime; cbn. replace ((896 - 16 / 10 * 560) / (16 / 10 * 560)) with 0 by field.
    rewrite !Rmult_0_r, exp_0. lra.
  - unfold stiffness_y. destruct (Rlt_dec _ _); cbn; [|lra].
    assert (0 <= sin (2 * atan (896 / (p_Fz0prime (MkStandard 560 (16 / 10) 2 (9 / 10) (95 / 100) 20 1 (- (1 / 2)) 2 (15 / 10) (9 / 10) (376 / 10) (16 / 10) 2 14 1 12 (6 / 10)) * (16 / 10))))).
    { apply sin_atan_nonneg; [lra|]. unfold p_Fz0prime; cbn. lra. }
    unfold p_Fz0prime in *; cbn in *. apply Rmult_le_pos; [|left; apply Rinv_0_lt_compat; lra]. nra.
Qed.

(** C49. Symmetries of the simple model. *)
Theorem C49_simple : forall sp m kappa lambda Fz,
  simple_force_x sp m (- kappa) lambda Fz = - simple_force_x sp m kappa lambda Fz /\
  simple_force_x sp m kappa (- lambda) Fz = simple_force_x sp m kappa lambda Fz /\
  simple_force_y sp m kappa (- lambda) Fz = - simple_force_y sp m kappa lambda Fz /\
  simple_force_y sp m (- kappa) lambda Fz = simple_force_y sp m kappa lambda Fz /\
  simple_force_x sp m 0 lambda Fz = 0 /\ simple_force_y sp m kappa 0 Fz = 0.
Proof.
  intros sp m kappa lambda Fz.
  assert (E1 : combined_slip m (- kappa) lambda Fz = combined_slip m kappa lambda Fz).
  { unfold combined_slip. f_equal. unfold Rdiv. ring. }
  assert (E2 : combined_slip m kappa (- lambda) Fz = combined_slip m kappa lambda Fz).
  { unfold combined_slip. f_equal. unfold Rdiv. ring. }
  unfold simple_force_x, simple_force_y; cbv zeta. rewrite E1, E2. unfold Rdiv.
  split; [|split; [|split; [|split; [|split]]]]; ring.
Qed.

(** C49. Symmetries of the standard model. *)
Theorem C49_standard : forall m kappa lambda Fz,
  standard_force_x m (- kappa) lambda Fz = - standard_force_x m kappa lambda Fz /\
  standard_force_x m kappa (- lambda) Fz = standard_force_x m kappa lambda Fz /\
  standard_force_y m kappa (- lambda) Fz = - standard_force_y m kappa lambda Fz /\
  standard_force_y m (- kappa) lambda Fz = standard_force_y m kappa lambda Fz /\
  standard_force_x m 0 lambda Fz = 0 /\ standard_force_y m kappa 0 Fz = 0.
Proof.
  intros m kappa lambda Fz.
  assert (E : forall C B x, cos (C * atan (B * - x)) = cos (C * atan (B * x))).
  { intros C B x. replace (B * - x) with (- (B * x)) by ring. rewrite atan_opp.
    replace (C * - atan (B * x)) with (- (C * atan (B * x))) by ring. apply cos_neg. }
  unfold standard_force_x, standard_force_y, force_pure_x, force_pure_y. rewrite !E, !magic_odd, !magic_zero.
  destruct (Req_EM_T (p_pDx1 m) 0); (split; [|split; [|split; [|split; [|split]]]]); ring.
Qed.

(** C76. The force at a slip is at most the peak friction times the load, and the whole of
    it is used where the combined slip is tan(pi/2Q)/S. *)
Theorem C76_peak_partial : forall sp m kappa lambda Fz, smooth_positive_part sp -> 0 <= Fz ->
  let rho := combined_slip m kappa lambda Fz in
  Rabs (simple_force_x sp m kappa lambda Fz) <= mu_x_max sp m Fz * Fz * Rabs (kappa / maximum_kappa m Fz) / rho /\
  (1 < q_Qx m -> rho = tan (PI / (2 * q_Qx m)) / q_Sx m ->
   Rabs (simple_force_x sp m kappa lambda Fz) = mu_x_max sp m Fz * Fz * Rabs (kappa / maximum_kappa m Fz) / rho).
Proof.
  intros sp m kappa lambda Fz Hs HF rho. destruct (mu_at_least sp Hs m Fz) as [Mx _].
  pose proof (rho_pos m kappa lambda Fz) as Rp. fold rho in Rp.
  unfold simple_force_x; cbv zeta. fold rho. set (kn := kappa / maximum_kappa m Fz). set (th := q_Qx m * atan (q_Sx m * rho)).
  assert (E : Rabs (mu_x_max sp m Fz * sin th * Fz * kn / rho) = Rabs (sin th) * (mu_x_max sp m Fz * Fz * Rabs kn / rho)).
  { replace (mu_x_max sp m Fz * sin th * Fz * kn / rho) with (sin th * (mu_x_max sp m Fz * Fz * kn / rho)) by (field; lra).
    rewrite Rabs_mult. f_equal. unfold Rdiv. rewrite !Rabs_mult, (Rabs_right (mu_x_max sp m Fz)), (Rabs_right Fz), (Rabs_right (/ rho)); [reflexivity | | lra | lra].
    apply Rle_ge, Rlt_le, Rinv_0_lt_compat, Rp. }
  rewrite E. split.
  - assert (Rabs (sin th) <= 1) by (apply Rabs_le; apply SIN_bound).
    assert (0 <= mu_x_max sp m Fz * Fz * Rabs kn / rho).
    { apply Rmult_le_pos; [|left; now apply Rinv_0_lt_compat]. apply Rmult_le_pos; [nra | apply Rabs_pos]. }
    nra.
  - intros HQ Hr. assert (T : th = PI / 2).
    { unfold th. rewrite Hr. pose proof (S_pos (q_Qx m) ltac:(lra)) as Sp. fold (q_Sx m) in Sp.
      replace (q_Sx m * (tan (PI / (2 * q_Qx m)) / q_Sx m)) with (tan (PI / (2 * q_Qx m))) by (field; lra).
      pose proof PI_RGT_0. rewrite atan_tan; [field; lra|].
      assert (A : PI / (2 * q_Qx m) = PI / 2 * / q_Qx m) by (field; lra). rewrite A.
      assert (0 < / q_Qx m < 1) by (split; [apply Rinv_0_lt_compat; lra | rewrite <- Rinv_1; apply Rinv_lt_contravar; lra]).
      split; nra. }
    rewrite T, sin_PI2, Rabs_R1. ring.
Qed.

(** C76 is false: with the parameters of the Formula 1 car the declared slip of the peak is
    not it. Another slip gives at least one percent more force, for every load. *)
Theorem C76_refuted : forall sp Fz, smooth_positive_part sp -> 0 < Fz <= 35000 ->
  exists kappa, simple_force_x sp limebeer_tire kappa 0 Fz > 101 / 100 * simple_force_x sp limebeer_tire (maximum_kappa limebeer_tire Fz) 0 Fz.
Proof.
  intros sp Fz Hs HF. set (m := limebeer_tire).
  destruct (C48_limebeer Fz ltac:(lra)) as (Hk & Hl & _). fold m in Hk, Hl.
  destruct (mu_at_least sp Hs m Fz) as [Mx _]. pose proof PI_RGT_0 as P0. pose proof PI2_3_2 as P32.
  assert (E12 : 0 < 1 / 10 ^ 12 < 1 / 100) by (simpl; lra).
  assert (A1 : atan (19 / 10) = PI / 4 + atan (9 / 29)).
  { rewrite (atan_quarter (19 / 10)) by lra. f_equal. f_equal. field. }
  pose proof (atan_upper (9 / 29) ltac:(lra)) as A2. pose proof (atan_pos (9 / 29) ltac:(lra)) as A3.
  assert (S1 : 14145 / 10000 < q_Sx m).
  { unfold q_Sx. change (q_Qx m) with (19 / 10). apply Rmult_lt_reg_r with (2 * atan (19 / 10)); [lra|].
    rewrite div_mul by lra. rewrite A1. lra. }
  assert (S2 : q_Sx m < 2).
  { unfold q_Sx. change (q_Qx m) with (19 / 10). apply Rmult_lt_reg_r with (2 * atan (19 / 10)); [lra|].
    rewrite div_mul by lra. rewrite A1. lra. }
  (* the slip of the peak *)
  set (th := PI / (2 * q_Qx m)). assert (Eth : th = PI * (5 / 19)) by (unfold th; change (q_Qx m) with (19 / 10); field).
  set (r0 := tan th / q_Sx m).
  assert (T1 : 1 < tan th) by (rewrite <- tan_PI4; apply tan_increasing; lra).
  assert (R1 : 1 / 2 < r0).
  { unfold r0. apply Rmult_lt_reg_r with (q_Sx m); [lra|]. rewrite div_mul by lra. lra. }
  set (k0 := sqrt (r0 * r0 - 1 / 10 ^ 12)).
  assert (K0 : k0 * k0 = r0 * r0 - 1 / 10 ^ 12) by (unfold k0; apply sqrt_sqrt; nra).
  assert (K1 : 0 <= k0) by apply sqrt_pos.
  exists (k0 * maximum_kappa m Fz).
  assert (Z0 : 0 / maximum_lambda m Fz = 0) by (field; lra).
  assert (Ra : combined_slip m (k0 * maximum_kappa m Fz) 0 Fz = r0).
  { unfold combined_slip. rewrite Z0. replace (k0 * maximum_kappa m Fz / maximum_kappa m Fz) with k0 by (field; lra).
    rewrite K0. replace (r0 * r0 - 1 / 10 ^ 12 + 0 * 0 + 1 / 10 ^ 12) with (r0 * r0) by ring. apply sqrt_square. lra. }
  assert (Fa : simple_force_x sp m (k0 * maximum_kappa m Fz) 0 Fz = mu_x_max sp m Fz * Fz * (k0 / r0)).
  { unfold simple_force_x; cbv zeta. rewrite Ra. replace (k0 * maximum_kappa m Fz / maximum_kappa m Fz) with k0 by (field; lra).
    unfold r0 at 1. replace (q_Sx m * (tan th / q_Sx m)) with (tan th) by (field; lra). rewrite atan_tan by lra.
    replace (q_Qx m * th) with (PI / 2) by (unfold th; change (q_Qx m) with (19 / 10); field). rewrite sin_PI2. field. lra. }
  rewrite Fa.
  (* the declared slip *)
  unfold simple_force_x; cbv zeta. set (r1 := combined_slip m (maximum_kappa m Fz) 0 Fz).
  replace (maximum_kappa m Fz / maximum_kappa m Fz) with 1 by (field; lra).
  assert (R2 : 1 <= r1).
  { unfold r1, combined_slip. rewrite Z0. replace (maximum_kappa m Fz / maximum_kappa m Fz) with 1 by (field; lra).
    rewrite <- sqrt_1 at 1. apply sqrt_le_1_alt. lra. }
  change (q_Qx m) with (19 / 10). set (t := 19 / 10 * atan (q_Sx m * r1)).
  assert (B1 : PI / 4 + atan (4145 / 24145) <= atan (q_Sx m * r1)).
  { replace (PI / 4 + atan (4145 / 24145)) with (atan (14145 / 10000)).
    - apply atan_le. nra.
    - rewrite (atan_quarter (14145 / 10000)) by lra. f_equal. f_equal. field. }
  assert (B2 : 16 / 100 < atan (4145 / 24145)).
  { pose proof (atan_lower (4145 / 24145) ltac:(lra)) as L.
    assert (sqrt (1 + 4145 / 24145 * (4145 / 24145)) <= 102 / 100) by (apply sqrt_le_of; lra).
    assert (0 < sqrt (1 + 4145 / 24145 * (4145 / 24145))) by (apply sqrt_lt_R0; lra).
    apply Rle_lt_trans with (2 := L). apply Rmult_le_reg_r with (sqrt (1 + 4145 / 24145 * (4145 / 24145))); [assumption|].
    rewrite div_mul by lra. lra. }
  pose proof (atan_bound (q_Sx m * r1)) as [_ B3].
  assert (P4 : PI <= 4) by apply PI_4.
  assert (T2 : 2 / 10 <= t - PI / 2 <= PI / 2) by (unfold t; lra).
  assert (Sn : sin t <= / sqrt (1 + 2 / 10 * (2 / 10))).
  { rewrite <- (proj1 (cos_sin_atan (2 / 10))). replace (sin t) with (cos (t - PI / 2)).
    - pose proof (atan_upper (2 / 10) ltac:(lra)). pose proof (atan_pos (2 / 10) ltac:(lra)). apply cos_decr_1; lra.
    - rewrite cos_minus, cos_PI2, sin_PI2. ring. }
  assert (S0 : 0 <= sin t) by (apply sin_ge_0; lra).
  assert (Sq : sin t * sin t <= 25 / 26).
  { assert (X : 0 < sqrt (1 + 2 / 10 * (2 / 10))) by (apply sqrt_lt_R0; lra).
    assert (Y : / sqrt (1 + 2 / 10 * (2 / 10)) * / sqrt (1 + 2 / 10 * (2 / 10)) = 25 / 26).
    { rewrite <- Rinv_mult_distr by lra. rewrite sqrt_sqrt by lra. field. }
    pose proof (Rinv_0_lt_compat _ X). nra. }
  set (b := sin t / r1). set (a := k0 / r0).
  assert (Ha : 0 <= a) by (unfold a; apply Rmult_le_pos; [lra | left; apply Rinv_0_lt_compat; lra]).
  assert (Ha2 : 99 / 100 <= a * a).
  { unfold a. replace (k0 / r0 * (k0 / r0)) with (k0 * k0 / (r0 * r0)) by (field; lra). rewrite K0.
    apply Rmult_le_reg_r with (r0 * r0); [nra|]. rewrite div_mul by nra.
    assert (1 / 10 ^ 12 <= 1 / 1000) by (simpl; lra). nra. }
  assert (Hb : b <= sin t).
  { unfold b. apply Rmult_le_reg_r with r1; [lra|]. unfold Rdiv. rewrite Rmult_assoc, Rinv_l by lra. nra. }
  assert (L : 101 / 100 * b < a) by nra.
  replace (101 / 100 * (mu_x_max sp m Fz * sin t * Fz * 1 / r1)) with (mu_x_max sp m Fz * Fz * (101 / 100 * b)) by (unfold b; field; lra).
  apply Rmult_lt_compat_l; [|exact L]. apply Rmult_lt_0_compat; lra.
Qed.

Print Assumptions C47_simple_ellipse.
Print Assumptions C47_standard_partial.
Print Assumptions C47_standard_refuted.
Print Assumptions C48_simple_partial.
Print Assumptions C48_simple_spin_partial.
Print Assumptions C48_simple_refuted.
Print Assumptions C48_standard_partial.
Print Assumptions C48_standard_refuted.
Print Assumptions C49_simple.
Print Assumptions C49_standard.
Print Assumptions C76_peak_partial.
Print Assumptions C76_refuted.
