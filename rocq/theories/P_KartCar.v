(** Property theorems C141, C142: the whole kart. *)
From Coq Require Import Reals Lra List.
From Coquelicot Require Import Coquelicot.
From Verif Require Import M_Vec M_Tire M_Car M_Road M_F1 M_Kart6 M_KartCar S_F1 S_Kart6 P_Kart6 S_KartCar L_F1 P_Tire P_F1.
Local Open Scope R_scope.

Lemma mapply_mul A B a : mapply (mmul A B) a = mapply A (mapply B a). Proof. vring. Qed.
Lemma rot_y_mirror t a : mapply (rot_y t) (mirror a) = mirror (mapply (rot_y t) a). Proof. vring. Qed.
Lemma rot_x_mirror t a : mapply (rot_x (- t)) (mirror a) = mirror (mapply (rot_x t) a).
Proof. unfold rot_x. rewrite sin_neg, cos_neg. vring. Qed.
Lemma frame_mirror' e alpha a :
  mapply (frame_matrix (mirror_angles e) (- alpha)) (mirror a) = mirror (mapply (frame_matrix e alpha) a).
Proof.
  unfold frame_matrix, mirror_angles; cbn [yaw pitch roll].
  rewrite !mapply_mul, rot_mirror, rot_x_mirror, rot_y_mirror, rot_mirror. reflexivity.
Qed.

Section Smooth.
Context (sp ss : R -> R -> R) (linsolve : mat -> vec -> vec).

(** *** C141: left and right *)
Definition mirrors (Q' Q : mat) : Prop := forall a, mapply Q' (mirror a) = mirror (mapply Q a).

Lemma ktyre_mirror t h Q' Q U Om x rel delta omega : mirrors Q' Q ->
  ktyre_at sp t h Q' (mirror U) (mirror_turn Om) (mirror x) (mirror rel) (- delta) omega =
  mirror_tire (ktyre_at sp t h Q U Om x rel delta omega).
Proof.
  intros HQ. unfold ktyre_at. cbv zeta.
  assert (Up : forall r, V 0 0 r = mirror (V 0 0 r)) by (intros; unfold mirror; cbn; rewrite Ropp_0; reflexivity).
  assert (Ew : ktyre_w t h Q' (mirror x) = ktyre_w t h Q x).
  { unfold ktyre_w. rewrite (Up (k_R0 t)), mirror_add, HQ. rewrite <- (Up (k_R0 t)). reflexivity. }
  assert (Ed : ktyre_dw t Q' (mirror U) (mirror_turn Om) (mirror x) (mirror rel) = ktyre_dw t Q U Om x rel).
  { unfold ktyre_dw. rewrite (Up (k_R0 t)) at 1. rewrite mirror_add, turn_cross, !mirror_add, HQ. reflexivity. }
  rewrite Ew, Ed. set (w := ktyre_w t h Q x). set (dw := ktyre_dw _ _ _ _ _ _).
  assert (Ev : ktyre_velocity t w (mirror U) (mirror_turn Om) (mirror x) (mirror rel) (- delta) = mirror (ktyre_velocity t w U Om x rel delta)).
  { unfold ktyre_velocity. rewrite <- (contact_mirror (k_R0 t) w) at 1. rewrite mirror_add, turn_cross, !mirror_add. apply rot_t_mirror. }
  rewrite Ev. set (v := ktyre_velocity _ _ _ _ _ _ _). clearbody v w dw. unfold tire_update. change (vx (mirror v)) with (vx v).
  set (om := match k_type t with NORMAL => omega | ONLY_LATERAL => vx v / k_R0 t end).
  change (slip_kappa (k_R0 t) om (mirror v)) with (slip_kappa (k_R0 t) om v).
  assert (L : slip_lambda (mirror v) = - slip_lambda v) by (unfold slip_lambda, Rdiv; cbn; ring).
  rewrite L. unfold tire_forces, mirror_tire; cbn [t_omega t_w t_v t_kappa t_lambda t_F t_T].
  set (k := slip_kappa _ _ _). set (l := slip_lambda v). set (Fz := sp _ _).
  destruct (C49_standard (k_model t) k l Fz) as (_ & A & B & _). rewrite A, B. f_equal. vring.
Qed.

Definition mirror_axle_eval (v : axle_eval) : axle_eval :=
  AxleEval (mirror_tire (x_right v)) (mirror_tire (x_left v)) (mirror (x_F v)) (mirror_turn (x_T v)).

Lemma torque_of_axle_mirror t ol or l r :
  axle_torque (rot_z (- t)) (rot_z (- t)) (mirror or) (mirror ol) (mirror_tire r) (mirror_tire l) =
  mirror_turn (axle_torque (rot_z t) (rot_z t) ol or l r).
Proof.
  unfold axle_torque, mirror_tire; cbn [t_F t_T]. rewrite !rot_mirror, !rot_turn, !mirror_cross, !turn_add. f_equal. vring.
Qed.

Lemma axle_mirror mode a t h Q' Q U Om x rel phi dphi delta omega : mirrors Q' Q -> b_beta_l a = - b_beta_r a \/ delta = 0 ->
  axle_update sp mode (mirror_axle6 a) t h Q' (mirror U) (mirror_turn Om) (mirror x) (mirror rel) (- phi) (- dphi) (- delta) omega =
  mirror_axle_eval (axle_update sp mode a t h Q U Om x rel phi dphi delta omega).
Proof.
  intros HQ HB. unfold axle_update. cbv zeta. rewrite HQ, turn_cross, !mirror_add, HQ. cbn [mirror_axle6 b_track].
  change (vz (mirror (mapply Q x))) with (vz (mapply Q x)).
  change (vz (mirror (mapply Q (vadd (vadd U (cross Om x)) rel)))) with (vz (mapply Q (vadd (vadd U (cross Om x)) rel))).
  set (z := h + _). set (dz := vz _).
  assert (Ss : forall ds da, axle6_solve (mirror_axle6 a) (k_kt t) ds (- da) =
    MkDefl (d_wr (axle6_solve a (k_kt t) ds da)) (d_wl (axle6_solve a (k_kt t) ds da)) (d_sr (axle6_solve a (k_kt t) ds da)) (d_sl (axle6_solve a (k_kt t) ds da))).
  { intros ds da. unfold axle6_solve, mirror_axle6; cbn [b_kchassis b_kantiroll d_wl d_wr d_sl d_sr]. f_equal; unfold Rdiv; ring. }
  assert (Es : axle6_deflection mode (mirror_axle6 a) (k_kt t) (k_R0 t) z (- phi) (- delta) =
    MkDefl (d_wr (axle6_deflection mode a (k_kt t) (k_R0 t) z phi delta)) (d_wl (axle6_deflection mode a (k_kt t) (k_R0 t) z phi delta))
           (d_sr (axle6_deflection mode a (k_kt t) (k_R0 t) z phi delta)) (d_sl (axle6_deflection mode a (k_kt t) (k_R0 t) z phi delta))).
  { unfold axle6_deflection. rewrite <- Ss. f_equal. unfold axle6_displacement; cbn [mirror_axle6 b_track b_beta_r].
    destruct mode; destruct HB as [HB|HB]; rewrite ?HB; ring. }
  assert (Er : axle6_rates (mirror_axle6 a) (k_kt t) dz (- dphi) =
    MkDefl (d_wr (axle6_rates a (k_kt t) dz dphi)) (d_wl (axle6_rates a (k_kt t) dz dphi))
           (d_sr (axle6_rates a (k_kt t) dz dphi)) (d_sl (axle6_rates a (k_kt t) dz dphi))).
  { unfold axle6_rates. rewrite <- Ss. f_equal. cbn [mirror_axle6 b_track]. ring. }
  rewrite Es, Er. set (s := axle6_deflection _ _ _ _ _ _ _). set (d := axle6_rates _ _ _ _). clearbody s d.
  assert (O1 : V 0 (- (1 / 2) * b_track a) (tire_z_left (mirror_axle6 a) (MkDefl (d_wr s) (d_wl s) (d_sr s) (d_sl s)) (- phi) (- delta)) =
    mirror (V 0 (1 / 2 * b_track a) (tire_z_right a s phi delta))).
  { unfold tire_z_left, tire_z_right, mirror; cbn. f_equal; ring. }
  assert (O2 : V 0 (1 / 2 * b_track a) (tire_z_right (mirror_axle6 a) (MkDefl (d_wr s) (d_wl s) (d_sr s) (d_sl s)) (- phi) (- delta)) =
    mirror (V 0 (- (1 / 2) * b_track a) (tire_z_left a s phi delta))).
  { unfold tire_z_left, tire_z_right, mirror; cbn. f_equal; ring. }
  assert (R1 : V 0 0 (tire_dz_left (mirror_axle6 a) (MkDefl (d_wr d) (d_wl d) (d_sr d) (d_sl d)) (- dphi)) = mirror (V 0 0 (tire_dz_right a d dphi))).
  { unfold tire_dz_left, tire_dz_right, mirror; cbn. f_equal; ring. }
  assert (R2 : V 0 0 (tire_dz_right (mirror_axle6 a) (MkDefl (d_wr d) (d_wl d) (d_sr d) (d_sl d)) (- dphi)) = mirror (V 0 0 (tire_dz_left a d dphi))).
  { unfold tire_dz_left, tire_dz_right, mirror; cbn. f_equal; ring. }
  rewrite O1, O2, R1, R2, !mirror_add, !(ktyre_mirror t h Q' Q) by exact HQ.
  rewrite axle_force_mirror, torque_of_axle_mirror. reflexivity.
Qed.

Definition mirror_kart_eval (v : kart_eval) : kart_eval :=
  KartEval (mirror_axle_eval (n_front v)) (mirror_axle_eval (n_rear v)) (mirror (n_Fa v)) (mirror (n_F v)) (mirror_turn (n_T v))
           (mirror (n_acc v)) (mirror_turn (n_ang v)) (n_domega v).

Lemma torque6_mirror b q Ff Tf Fr Tr Fa :
  total_torque6 (mirror_body b) (mirror_state6 q) (mirror Ff) (mirror_turn Tf) (mirror Fr) (mirror_turn Tr) (mirror Fa) =
  mirror_turn (total_torque6 b q Ff Tf Fr Tr Fa).
Proof.
  unfold total_torque6, axle_in_road, com_position, axle_position. destruct b as [m a1 a2 a3 a4 a5 [c1 c2 c3] [f1 f2 f3] [r1 r2 r3]].
  destruct Ff as [x1 x2 x3], Tf as [x4 x5 x6], Fr as [x7 x8 x9], Tr as [y1 y2 y3], Fa as [y4 y5 y6], q as [q1 q2 q3 q4 q5 q6 q7 q8 q9]. apply vec_eq; cbv [vx vy vz vadd cross mirror mirror_turn mirror_body mirror_state6 k_com k_front k_rear q_z q_mu]; ring.
Qed.

Lemma determined_det b q : determined b q -> det (euler_m b q) <> 0.
Proof.
  intros [Hy Hd]. replace (det (euler_m b q)) with (k_Iyy b * (k_Ixx b * k_Izz b - k_Ixz b * k_Ixz b + q_mu q * k_Ixz b * (k_Ixx b + k_Izz b)))
    by (unfold det, euler_m, dot, cross; cbn; ring).
  apply Rmult_integral_contrapositive_currified; assumption.
Qed.
Lemma euler_mirror b q M1 M2 rhs : solves linsolve -> M1 = euler_m (mirror_body b) (mirror_state6 q) -> M2 = euler_m b q -> determined b q ->
  linsolve M1 (mirror_turn rhs) = mirror_turn (linsolve M2 rhs).
Proof.
  intros HS -> -> [Hy Hd].
  assert (D : forall q' b', q_mu q' = q_mu q -> k_Ixx b' = k_Ixx b -> k_Iyy b' = k_Iyy b -> k_Izz b' = k_Izz b -> k_Ixz b' = k_Ixz b ->
     forall r, mapply (euler_m b' q') (linsolve (euler_m b' q') r) = r /\ forall x, mapply (euler_m b' q') x = r -> linsolve (euler_m b' q') r = x).
  { intros q' b' E E1 E2 E3 E4 r.
    assert (Y' : determined b' q') by (split; rewrite ?E, ?E1, ?E2, ?E3, ?E4; assumption).
    pose proof (HS _ r (determined_det b' q' Y')) as S1. split; [exact S1|]. intros x Hx.
    destruct (proj1 (C110_accelerations_determined b' q' 0 0 (vadd r (euler_lhs b' q' 0 0)) (proj1 Y')) (proj2 Y')) as (z & _ & Uz).
    assert (Rr : vadd (vopp (euler_lhs b' q' 0 0)) (vadd r (euler_lhs b' q' 0 0)) = r) by vring.
    unfold euler6 in Uz. rewrite Rr in Uz. rewrite <- (Uz _ S1). apply Uz, Hx. }
  destruct (D q b eq_refl eq_refl eq_refl eq_refl eq_refl rhs) as [S2 _].
  apply (D (mirror_state6 q) (mirror_body b) eq_refl eq_refl eq_refl eq_refl eq_refl (mirror_turn rhs)). clear D.
  transitivity (mirror_turn (mapply (euler_m b q) (linsolve (euler_m b q) rhs))); [|rewrite S2; reflexivity].
  set (y := linsolve _ _). clearbody y. destruct y as [y1 y2 y3], b as [b1 b2 b3 b4 b5 b6 b7 b8 b9], q as [q1 q2 q3 q4 q5 q6 q7 q8 q9].
  apply vec_eq; cbv [vx vy vz mapply euler_m col1 col2 col3 mirror_turn mirror_body mirror_state6 k_Ixx k_Iyy k_Izz k_Ixz q_mu q_phi vadd vscale]; ring.
Qed.

Lemma kart_update_mirror c i h e ed alpha alphad w : solves linsolve -> determined (c_body c) (i_state i) -> even_steering c ->
  kart_update sp ss linsolve (mirror_kart c) (mirror_kart_input i) h (mirror_angles e) (mirror_angles ed) (- alpha) (- alphad) w =
  mirror_kart_eval (kart_update sp ss linsolve c i h e ed alpha alphad w).
Proof.
  intros HS HD HB. unfold kart_update. cbv zeta. set (b := c_body c) in *. set (q := i_state i) in *.
  rewrite omega_mirror. change (V (q_u (i_state (mirror_kart_input i))) (q_v (i_state (mirror_kart_input i))) w) with (mirror (V (q_u q) (q_v q) w)).
  set (U := V (q_u q) (q_v q) w). set (Om := frame_omega e ed alpha alphad).
  assert (HQ : mirrors (frame_matrix (mirror_angles e) (- alpha)) (frame_matrix e alpha)) by (intros a; apply frame_mirror').
  cbn [mirror_kart c_body c_aero c_front c_rear c_tf c_tr c_engine c_Tmax c_smooth c_inertia mirror_kart_input i_state i_omega i_delta i_throttle].
  fold b q. change (q_phi (mirror_state6 q)) with (- q_phi q). change (q_dphi (mirror_state6 q)) with (- q_dphi q).
  assert (X : forall x, axle_in_road (mirror_body b) (mirror x) (mirror_state6 q) = mirror (axle_in_road b x q)).
  { intros x. unfold axle_in_road, com_position, axle_position. unfold mirror_body, mirror_state6, mirror, vadd; cbn. f_equal; ring. }
  assert (Vr : forall x, vadd (com_velocity (mirror_state6 q)) (axle_velocity (mirror x) (mirror_state6 q)) = mirror (vadd (com_velocity q) (axle_velocity x q))).
  { intros x. unfold com_velocity, axle_velocity, mirror, mirror_state6, vadd; cbn. f_equal; ring. }
  cbn [mirror_body k_front k_rear]. change (mirror_body b) with (mirror_body b).
  assert (K : k_front (mirror_body b) = mirror (k_front b) /\ k_rear (mirror_body b) = mirror (k_rear b)) by (split; reflexivity).
  rewrite !X, !Vr.
  rewrite (axle_mirror STEERING_FREE_ROLL (c_front c) (c_tf c) h _ _ U Om _ _ (q_phi q) (q_dphi q) (i_delta i) 0 HQ (or_introl HB)).
  pose proof (axle_mirror POWERED_WITHOUT_DIFFERENTIAL (c_rear c) (c_tr c) h _ _ U Om (axle_in_road b (k_rear b) q)
    (vadd (com_velocity q) (axle_velocity (k_rear b) q)) (q_phi q) (q_dphi q) 0 (i_omega i) HQ (or_intror eq_refl)) as Ar.
  rewrite Ropp_0 in Ar. rewrite Ar. clear Ar.
  set (f := axle_update _ STEERING_FREE_ROLL _ _ _ _ _ _ _ _ _ _ _ _). set (r := axle_update _ POWERED_WITHOUT_DIFFERENTIAL _ _ _ _ _ _ _ _ _ _ _ _).
  cbn [mirror_axle_eval x_left x_right x_F x_T].
  rewrite lift_mirror, drag_mirror, mirror_add, torque6_mirror.
  set (Fa := vadd (lift_force _ _ _) (drag_force _ _ _)). set (T := total_torque6 b q _ _ _ _ _).
  assert (EF : total_force6 (mirror_body b) (mirror (x_F f)) (mirror (x_F r)) (mirror Fa) = mirror (total_force6 b (x_F f) (x_F r) Fa)).
  { unfold total_force6, mirror, vadd; cbn [vx vy vz mirror_body k_mass]. f_equal; ring. }
  rewrite EF. set (F := total_force6 b _ _ _). cbn [mirror_body k_mass]. rewrite turn_cross, mirror_opp, mirror_scale, mirror_add.
  set (acc := vadd (vopp _) _).
  assert (EL : vadd (vopp (euler_lhs (mirror_body b) (mirror_state6 q) (vx (mirror acc)) (vy (mirror acc)))) (mirror_turn T) =
    mirror_turn (vadd (vopp (euler_lhs b q (vx acc) (vy acc))) T)).
  { clearbody acc T. destruct acc as [a1 a2 a3], T as [t1 t2 t3], b as [b1 b2 b3 b4 b5 b6 [b7 b8 b9] b10 b11], q as [q1 q2 q3 q4 q5 q6 q7 q8 q9]. apply vec_eq; cbv [vadd vopp euler_lhs mirror mirror_turn mirror_body mirror_state6 vx vy vz
      k_com k_mass k_Ixx k_Iyy k_Izz k_Ixz k_Izx q_u q_v q_omega q_z q_dz q_mu q_dmu q_phi q_dphi]; ring. }
  rewrite EL, (euler_mirror b q _ _ _ HS eq_refl eq_refl HD).
  unfold mirror_kart_eval; cbn [n_front n_rear n_Fa n_F n_T n_acc n_ang n_domega]. f_equal.
  unfold wheel_torque, mirror_tire; cbn [t_F t_w mirror vx]. unfold Rdiv. ring.
Qed.

Lemma kart_rates_mirror i v r : kart_rates (mirror_kart_input i) (mirror_kart_eval v) (V (vx r) (- vy r) (- vz r)) = mirror_kart_vector (kart_rates i v r).
Proof. reflexivity. Qed.
Lemma kart_scaled_mirror k y : kart_scaled k (mirror_kart_vector y) = mirror_kart_vector (kart_scaled k y).
Proof. unfold kart_scaled, mirror_kart_vector; cbn. f_equal; try ring. apply vec_eq; cbn; ring. Qed.

Theorem C141_track_partial c i p time n alpha : solves linsolve -> determined (c_body c) (i_state i) -> even_steering c ->
  let '(q, dq) := kart_on_track sp ss linsolve c i p time n alpha in
  kart_on_track sp ss linsolve (mirror_kart c) (mirror_kart_input i) (mirror_point p) time (- n) (- alpha) =
  (mirror_kart_vector q, mirror_kart_vector dq).
Proof.
  intros HS HD HB. unfold kart_on_track, kart_track_eval.
  pose proof (road_mirror p n alpha (q_u (i_state i)) (q_v (i_state i)) (q_omega (i_state i))) as RM. cbv zeta in RM.
  change (q_u (i_state (mirror_kart_input i))) with (q_u (i_state i)). change (q_v (i_state (mirror_kart_input i))) with (- q_v (i_state i)).
  change (q_omega (i_state (mirror_kart_input i))) with (- q_omega (i_state i)).
  rewrite RM. clear RM. set (r := road_update _ _ _ n alpha _ _ _). cbn [ro_dtime_ds ro_n_dot ro_alpha_dot ro_w ro_position mirror_point fr_e fr_de].
  assert (ED : euler_dot (mirror_angles (fr_de p)) (ro_dtime_ds r) = mirror_angles (euler_dot (fr_de p) (ro_dtime_ds r))).
  { unfold euler_dot, mirror_angles; cbn [yaw pitch roll]. f_equal; unfold Rdiv; ring. }
  rewrite ED. change (vz (mirror (ro_position r))) with (vz (ro_position r)). rewrite kart_update_mirror by assumption. f_equal.
  rewrite <- kart_scaled_mirror. f_equal.
Qed.

Theorem C141_plane_partial c i x y psi : solves linsolve -> determined (c_body c) (i_state i) -> even_steering c ->
  let '(q, dq) := kart_on_plane sp ss linsolve c i x y psi in
  kart_on_plane sp ss linsolve (mirror_kart c) (mirror_kart_input i) x (- y) (- psi) = (mirror_kart_vector q, mirror_kart_vector dq).
Proof.
  intros HS HD HB. unfold kart_on_plane, kart_plane_eval, cartesian_update.
  assert (E0 : Euler 0 0 0 = mirror_angles (Euler 0 0 0)) by (unfold mirror_angles; cbn; rewrite Ropp_0; reflexivity).
  pose proof (kart_update_mirror c i 0 (Euler 0 0 0) (Euler 0 0 0) psi (q_omega (i_state i)) 0 HS HD HB) as U. rewrite <- E0 in U.
  change (q_u (i_state (mirror_kart_input i))) with (q_u (i_state i)). change (q_v (i_state (mirror_kart_input i))) with (- q_v (i_state i)).
  change (q_omega (i_state (mirror_kart_input i))) with (- q_omega (i_state i)).
  rewrite U, sin_neg, cos_neg. f_equal.
  rewrite <- kart_scaled_mirror. f_equal. rewrite <- kart_rates_mirror. f_equal. apply vec_eq; cbn; ring.
Qed.

Lemma symmetric_kart_mirror c : symmetric_kart c -> mirror_kart c = c /\ even_steering c.
Proof.
  destruct c as [[m a1 a2 a3 a4 a5 [c1 c2 c3] [f1 f2 f3] [r1 r2 r3]] [rho cd cl A no ea] [ft fc fa bl br] [rt rc ra rbl rbr] t1 t2 en tm sm ine].
  unfold symmetric_kart, even_steering, mirror_kart, mirror_body, mirror_wind, mirror_axle6, mirror; cbn. intros (-> & -> & -> & -> & -> & ->).
  rewrite !Ropp_0, !Ropp_involutive. split; reflexivity.
Qed.

(** A symmetric kart turns left as it turns right. *)
Theorem C141_symmetric_kart c i p time n alpha : solves linsolve -> determined (c_body c) (i_state i) -> symmetric_kart c ->
  let '(q, dq) := kart_on_track sp ss linsolve c i p time n alpha in
  kart_on_track sp ss linsolve c (mirror_kart_input i) (mirror_point p) time (- n) (- alpha) = (mirror_kart_vector q, mirror_kart_vector dq).
Proof.
  intros HS HD S. destruct (symmetric_kart_mirror c S) as [E HB]. pose proof (C141_track_partial c i p time n alpha HS HD HB) as H.
  rewrite E in H. exact H.
Qed.

Lemma kart_derive_mirror f t d : kart_derive f t d -> kart_derive (fun s => mirror_kart_vector (f s)) t (mirror_kart_vector d).
Proof.
  unfold kart_derive, mirror_kart_vector; cbn.
  intros (H1 & H2 & H3 & H4 & H5 & H6 & H7 & H8 & H9 & H10 & H11 & H12 & H13).
  assert (N : forall (h : R -> R) x, is_derive h t x -> is_derive (fun s => - h s) t (- x)) by (intros h x Hh; apply (is_derive_opp h); exact Hh).
  refine (conj _ (conj _ (conj _ (conj _ (conj _ (conj _ (conj _ (conj _ (conj _ (conj _ (conj _ (conj _ _))))))))))));
    try assumption; apply N; assumption.
Qed.
Lemma kart_derive_ext f g t d : (forall s, f s = g s) -> kart_derive f t d -> kart_derive g t d.
Proof.
  intros E (H1 & H2 & H3 & H4 & H5 & H6 & H7 & H8 & H9 & H10 & H11 & H12 & H13). unfold kart_derive.
  repeat (split; [eapply is_derive_ext; [|eassumption]; intros; cbn; rewrite E; reflexivity|]).
  eapply is_derive_ext; [|eassumption]; intros; cbn; rewrite E; reflexivity.
Qed.

(** A lap of a kart is a lap of the mirrored kart on the mirrored track, in the same time. *)
Theorem C141_laps_partial c track l s0 s1 : solves linsolve -> even_steering c -> (forall s, determined (c_body c) (i_state (kl_input l s))) ->
  kart_lap_motion (kart_on_track sp ss linsolve) c track l s0 s1 ->
  kart_lap_motion (kart_on_track sp ss linsolve) (mirror_kart c) (fun s => mirror_point (track s)) (mirror_kart_lap l) s0 s1 /\
  kl_time (mirror_kart_lap l) = kl_time l.
Proof.
  intros HS HB HD H. split; [|reflexivity]. intros s Hs. specialize (H s Hs).
  assert (E : forall x, kart_on_track sp ss linsolve (mirror_kart c) (kl_input (mirror_kart_lap l) x) (mirror_point (track x)) (kl_time (mirror_kart_lap l) x)
      (kl_n (mirror_kart_lap l) x) (kl_alpha (mirror_kart_lap l) x) =
    (mirror_kart_vector (fst (kart_on_track sp ss linsolve c (kl_input l x) (track x) (kl_time l x) (kl_n l x) (kl_alpha l x))),
     mirror_kart_vector (snd (kart_on_track sp ss linsolve c (kl_input l x) (track x) (kl_time l x) (kl_n l x) (kl_alpha l x))))).
  { intros x. pose proof (C141_track_partial c (kl_input l x) (track x) (kl_time l x) (kl_n l x) (kl_alpha l x) HS (HD x) HB) as T.
    destruct (kart_on_track sp ss linsolve c (kl_input l x) (track x) (kl_time l x) (kl_n l x) (kl_alpha l x)) as [q dq]. exact T. }
  rewrite E. cbn [snd]. eapply kart_derive_ext; [|apply kart_derive_mirror, H]. intros x. cbn beta. rewrite E. reflexivity.
Qed.

(** The accelerations that a symmetric kart can hold are the same to the left and to the right. *)
Theorem C141_diagram c speed ax ay : solves linsolve -> symmetric_kart c ->
  kart_turn (kart_on_plane sp ss linsolve) c speed ax ay -> kart_turn (kart_on_plane sp ss linsolve) c speed ax (- ay).
Proof.
  intros HS S (i & psi & H). exists (mirror_kart_input i), (- psi).
  destruct (symmetric_kart_mirror c S) as [Ec HB]. cbv zeta in H. destruct H as (H1 & H2 & H3 & HD & H4 & H5 & H6 & H7 & H8 & H9 & H10 & H11 & H12 & H13).
  pose proof (C141_plane_partial c i 0 0 psi HS HD HB) as P. rewrite Ec, Ropp_0 in P.
  destruct (kart_on_plane sp ss linsolve c i 0 0 psi) as [q d]. rewrite P. clear P. cbn [snd] in *. rewrite sin_neg, cos_neg. cbv zeta.
  cbn [mirror_kart_input mirror_state6 i_state q_u q_v q_omega mirror_kart_vector y_u y_v y_yaw y_z y_phi y_mu y_dz y_dphi y_dmu y_omega].
  rewrite H2, H4, H5, H6, H7, H8, H9, H10, H11. refine (conj H1 (conj _ (conj _ (conj HD _)))); [lra | lra | repeat split; lra].
Qed.

(** A kart that goes straight goes on straight: nothing turns it, nor makes it lean. *)
Theorem C141_straight c i x : solves linsolve -> symmetric_kart c -> determined (c_body c) (i_state i) ->
  q_v (i_state i) = 0 -> q_omega (i_state i) = 0 -> q_phi (i_state i) = 0 -> q_dphi (i_state i) = 0 -> i_delta i = 0 ->
  let d := snd (kart_on_plane sp ss linsolve c i x 0 0) in
  y_v d = 0 /\ y_yaw d = 0 /\ y_phi d = 0 /\ y_dphi d = 0 /\ vy (y_road d) = 0 /\ vz (y_road d) = 0.
Proof.
  intros HS S HD E1 E2 E3 E4 E5. destruct (symmetric_kart_mirror c S) as [Ec HB].
  pose proof (C141_plane_partial c i x 0 0 HS HD HB) as P. rewrite Ec, Ropp_0 in P.
  assert (Ei : mirror_kart_input i = i).
  { destruct i as [[u v om z dz mu dmu phi dphi] o de th]. cbn in *. subst. unfold mirror_kart_input, mirror_state6; cbn. rewrite Ropp_0. reflexivity. }
  rewrite Ei in P. destruct (kart_on_plane sp ss linsolve c i x 0 0) as [q d]. cbn [snd]. apply (f_equal snd) in P. cbn [snd] in P.
  assert (Z : forall a : R, a = - a -> a = 0) by (intros; lra).
  repeat split; apply Z; [apply (f_equal y_v) in P | apply (f_equal y_yaw) in P | apply (f_equal y_phi) in P | apply (f_equal y_dphi) in P |
    apply (f_equal (fun d => vy (y_road d))) in P | apply (f_equal (fun d => vz (y_road d))) in P]; exact P.
Qed.

(** *** C142: place, representation and equations of motion *)
Lemma flat_height psi a : vz (mapply (frame_matrix (Euler 0 0 0) psi) a) = vz a.
Proof. unfold frame_matrix. rewrite !mapply_mul. cbn [yaw pitch roll]. unfold rot_x, rot_y, rot_z. rewrite sin_0, cos_0. destruct a as [a1 a2 a3]. cbv [mapply col1 col2 col3 vadd vscale vx vy vz]. ring. Qed.

Lemma axle_flat mode a t h Q Q' U Om x rel phi dphi delta omega : (forall b, vz (mapply Q' b) = vz (mapply Q b)) ->
  axle_update sp mode a t h Q' U Om x rel phi dphi delta omega = axle_update sp mode a t h Q U Om x rel phi dphi delta omega.
Proof. intros H. unfold axle_update, ktyre_at, ktyre_w, ktyre_dw. rewrite !H. reflexivity. Qed.

Theorem C142_anywhere c i x y x' y' psi theta :
  let '(q, d) := kart_on_plane sp ss linsolve c i x y psi in
  let '(q', d') := kart_on_plane sp ss linsolve (kart_in_turned_wind theta c) i x' y' (psi + theta) in
  kart_without_road q' = kart_without_road q /\ kart_without_road d' = kart_without_road d /\ y_road d' = mapply (rot_z theta) (y_road d).
Proof.
  unfold kart_on_plane, cartesian_update.
  assert (Wv : mtapply (frame_matrix (Euler 0 0 0) (psi + theta)) (V (ae_east (turn_wind theta (c_aero c))) (- ae_north (turn_wind theta (c_aero c))) 0) =
               mtapply (frame_matrix (Euler 0 0 0) psi) (V (ae_east (c_aero c)) (- ae_north (c_aero c)) 0)).
  { unfold frame_matrix. rewrite !mtapply_mul. cbn [yaw pitch roll turn_wind ae_east ae_north]. unfold rot_z, rot_y, rot_x.
    rewrite cos_plus, sin_plus, sin_0, cos_0. pose proof (sin2_cos2 theta) as T. unfold Rsqr in T.
    set (st := sin theta) in *. set (ct := cos theta) in *. set (E := ae_east (c_aero c)). set (N := ae_north (c_aero c)).
    apply vec_eq; cbv [vx vy vz mtapply dot col1 col2 col3].
    - transitivity ((st * st + ct * ct) * (cos psi * E - sin psi * N)); [ring | rewrite T; ring].
    - transitivity ((st * st + ct * ct) * (- sin psi * E - cos psi * N)); [ring | rewrite T; ring].
    - ring. }
  assert (P : kart_plane_eval sp ss linsolve (kart_in_turned_wind theta c) i (psi + theta) = kart_plane_eval sp ss linsolve c i psi).
  { unfold kart_plane_eval, kart_update. cbn [kart_in_turned_wind c_body c_aero c_front c_rear c_tf c_tr c_engine c_Tmax c_smooth c_inertia].
    unfold lift_force, drag_force, aerodynamic_velocity, wind_velocity. rewrite Wv, !plane_omega.
    rewrite !(fun mode a t U Om x rel phi dphi delta omega => axle_flat mode a t 0 (frame_matrix (Euler 0 0 0) psi) (frame_matrix (Euler 0 0 0) (psi + theta)) U Om x rel phi dphi delta omega
       (fun b => eq_trans (flat_height (psi + theta) b) (eq_sym (flat_height psi b)))).
    reflexivity. }
  rewrite P. split; [reflexivity|]. split; [reflexivity|].
  cbn [kart_scaled y_road kart_rates]. rewrite cos_plus, sin_plus. unfold rot_z. vring.
Qed.

Theorem C142_flat_track c i r th dth time n alpha x y : vz r = 0 ->
  1 - n * dth <> 0 -> q_u (i_state i) * cos alpha - q_v (i_state i) * sin alpha <> 0 ->
  let '(q, d) := kart_on_track sp ss linsolve c i (flat_point r th dth) time n alpha in
  let '(Q, D) := kart_on_plane sp ss linsolve c i x y (th + alpha) in
  let dt := vx (y_road d) in
  dt = (1 - n * dth) / (q_u (i_state i) * cos alpha - q_v (i_state i) * sin alpha) /\
  kart_without_road q = kart_without_road Q /\ kart_without_road d = kart_per_length dt D /\
  dth + vz (y_road d) = dt * vz (y_road D) /\
  cos th - (vy (y_road d) * sin th + n * (cos th * dth)) = dt * vx (y_road D) /\
  sin th + (vy (y_road d) * cos th - n * (sin th * dth)) = dt * vy (y_road D).
Proof.
  intros Hz Hn Hu. unfold kart_on_track, kart_track_eval, kart_on_plane, cartesian_update, flat_point; cbn [fr_r fr_e fr_de].
  set (q := i_state i) in *. set (o := road_update r (Euler th 0 0) (Euler dth 0 0) n alpha (q_u q) (q_v q) (q_omega q)).
  assert (K : curvature (Euler th 0 0) (Euler dth 0 0) = V 0 0 dth) by (unfold curvature; cbn; rewrite sin_0, cos_0; f_equal; ring).
  assert (Dt : ro_dtime_ds o = (1 - n * dth) / (q_u q * cos alpha - q_v q * sin alpha)) by (unfold o, road_update; rewrite K; reflexivity).
  assert (Nd : ro_n_dot o = q_u q * sin alpha + q_v q * cos alpha) by reflexivity.
  assert (Ad : ro_alpha_dot o = q_omega q - dth / ro_dtime_ds o) by (rewrite Dt; unfold o, road_update; rewrite K; reflexivity).
  assert (Wo : ro_w o = 0) by (unfold o, road_update; rewrite K; cbn; unfold Rdiv; ring).
  assert (Po : vz (ro_position o) = 0). { unfold o, road_update, normal; cbn. rewrite Hz, sin_0. ring. }
  assert (Nz : ro_dtime_ds o <> 0) by (rewrite Dt; apply Rmult_integral_contrapositive_currified; [exact Hn | apply Rinv_neq_0_compat, Hu]).
  clearbody o.
  assert (U : kart_update sp ss linsolve c i (vz (ro_position o)) (Euler th 0 0) (euler_dot (Euler dth 0 0) (ro_dtime_ds o)) alpha (ro_alpha_dot o) (ro_w o) =
              kart_plane_eval sp ss linsolve c i (th + alpha)).
  { rewrite Wo, Po. unfold kart_plane_eval, kart_update, euler_dot; cbn [yaw pitch roll]. fold q.
    assert (Om : frame_omega (Euler th 0 0) (Euler (dth / ro_dtime_ds o) (0 / ro_dtime_ds o) (0 / ro_dtime_ds o)) alpha (ro_alpha_dot o) = V 0 0 (q_omega q)).
    { unfold frame_omega, curvature; cbn [yaw pitch roll]. rewrite Ad, sin_0, cos_0. unfold Rdiv. rewrite Rmult_0_l. vring. }
    assert (Fm : frame_matrix (Euler th 0 0) alpha = frame_matrix (Euler 0 0 0) (th + alpha)).
    { unfold frame_matrix; cbn [yaw pitch roll]. unfold rot_z, rot_y, rot_x. rewrite sin_plus, cos_plus, sin_0, cos_0.
      unfold mmul, mapply; cbn [col1 col2 col3]. f_equal; vring. }
    rewrite Om, Fm, plane_omega. reflexivity. }
  rewrite U. set (v := kart_plane_eval sp ss linsolve c i (th + alpha)). clearbody v.
  cbn [kart_scaled y_road kart_rates kart_states]. cbn [vscale vx vy vz].
  split; [rewrite <- Dt; ring|]. split; [reflexivity|].
  split. { unfold kart_without_road, kart_per_length, kart_scaled, kart_rates; cbn. f_equal; ring. }
  rewrite Ad, Nd. fold q. split; [field; exact Nz|].
  assert (E1 : 1 - n * dth = ro_dtime_ds o * (q_u q * cos alpha - q_v q * sin alpha)) by (rewrite Dt; field; exact Hu).
  rewrite cos_plus, sin_plus. split.
  - transitivity ((1 - n * dth) * cos th - ro_dtime_ds o * (q_u q * sin alpha + q_v q * cos alpha) * sin th); [ring | rewrite E1; ring].
  - transitivity ((1 - n * dth) * sin th + ro_dtime_ds o * (q_u q * sin alpha + q_v q * cos alpha) * cos th); [ring | rewrite E1; ring].
Qed.

(** Newton's law along any motion on the plane: the forces of the wheels, the air and the weight are the mass times the acceleration of
    the centre of mass. *)
Theorem C142_newton c m t : k_mass (c_body c) <> 0 -> kart_plane_motion (kart_on_plane sp ss linsolve) c m ->
  let v := kart_plane_eval sp ss linsolve c (km_input m t) (km_psi m t) in
  forces_on (k_mass (c_body c)) (km_input m t) v =
  vscale (k_mass (c_body c)) (needed_acceleration (- vz (k_com (c_body c))) (body_motion m) t).
Proof.
  intros Hm H v.
  set (u := fun s => q_u (i_state (km_input m s))). set (w := fun s => q_v (i_state (km_input m s))).
  unfold kart_plane_motion, kart_on_plane, cartesian_update in H.
  assert (D : forall s, is_derive u s (vx (n_acc (kart_plane_eval sp ss linsolve c (km_input m s) (km_psi m s)))) /\
    is_derive w s (vy (n_acc (kart_plane_eval sp ss linsolve c (km_input m s) (km_psi m s)))) /\
    is_derive (fun s => q_dz (i_state (km_input m s))) s (vz (n_acc (kart_plane_eval sp ss linsolve c (km_input m s) (km_psi m s)))) /\
    is_derive (fun s => q_z (i_state (km_input m s))) s (q_dz (i_state (km_input m s))) /\
    is_derive (fun s => q_phi (i_state (km_input m s))) s (q_dphi (i_state (km_input m s))) /\
    is_derive (fun s => q_mu (i_state (km_input m s))) s (q_dmu (i_state (km_input m s))) /\
    is_derive (km_x m) s (u s * cos (km_psi m s) - w s * sin (km_psi m s)) /\
    is_derive (km_y m) s (u s * sin (km_psi m s) + w s * cos (km_psi m s)) /\
    is_derive (km_psi m) s (q_omega (i_state (km_input m s)))).
  { intros s. destruct (H s) as (H1 & H2 & H3 & H4 & H5 & H6 & H7 & H8 & H9 & H10 & H11 & H12 & H13).
    cbn [fst snd kart_states kart_scaled kart_rates y_u y_v y_yaw y_z y_phi y_mu y_dz y_dphi y_dmu y_omega y_road vscale vx vy vz] in *.
    rewrite ?Rmult_1_r, ?Rmult_1_l in *. unfold u, w. refine (conj H1 (conj H2 (conj H7 (conj H4 (conj H5 (conj H6 (conj H11 (conj H12 H13)))))))). }
  clear H.
  assert (Ro : rolls_on (body_motion m) u w) by (split; intros s; apply (D s)).
  destruct (D t) as (D1 & D2 & D3 & D4 & D5 & D6 & D7 & D8 & D9).
  assert (Es : state_of u w (body_motion m) t = i_state (km_input m t)).
  { unfold state_of, body_motion; cbn [S_Kart6.m_psi S_Kart6.m_z S_Kart6.m_mu S_Kart6.m_phi].
    assert (A1 : Derive (fun s : R => q_z (i_state (km_input m s))) t = q_dz (i_state (km_input m t))) by (apply is_derive_unique, D4).
    assert (A2 : Derive (fun s : R => q_phi (i_state (km_input m s))) t = q_dphi (i_state (km_input m t))) by (apply is_derive_unique, D5).
    assert (A3 : Derive (fun s : R => q_mu (i_state (km_input m s))) t = q_dmu (i_state (km_input m t))) by (apply is_derive_unique, D6).
    rewrite (is_derive_unique _ _ _ D9), A1, A2, A3. unfold u, w. destruct (i_state (km_input m t)); reflexivity. }
  assert (Ez : Derive (Derive (fun s => q_z (i_state (km_input m s)))) t = vz (n_acc v)).
  { rewrite (Derive_ext _ (fun s => q_dz (i_state (km_input m s)))) by (intros s; apply is_derive_unique; apply (D s)).
    apply is_derive_unique, D3. }
  apply (C110_newton_partial (c_body c) (body_motion m) u w t); [exact Ro | exact Hm | eexists; exact D9 | eexists; exact D1 | eexists; exact D2 |].
  rewrite Es. unfold body_motion at 1; cbn [S_Kart6.m_z]. rewrite (is_derive_unique _ _ _ D1), (is_derive_unique _ _ _ D2), Ez.
  fold v. destruct v as [f r Fa F T acc ang dom] eqn:Ev. subst v.
  unfold kart_plane_eval, kart_update in Ev. rewrite plane_omega in Ev. cbv zeta in Ev.
  assert (EA : acc = newton6 (c_body c) (i_state (km_input m t)) F).
  { transitivity (n_acc (KartEval f r Fa F T acc ang dom)); [reflexivity|]. rewrite <- Ev. cbn [n_acc].
    unfold newton6, newton_lhs. do 2 f_equal. transitivity (n_F (KartEval f r Fa F T acc ang dom)); [rewrite <- Ev; reflexivity | reflexivity]. }
  assert (EF : F = forces_on (k_mass (c_body c)) (km_input m t) (KartEval f r Fa F T acc ang dom)).
  { assert (F1 : F = total_force6 (c_body c) (x_F f) (x_F r) Fa).
    { transitivity (n_F (KartEval f r Fa F T acc ang dom)); [reflexivity|]. rewrite <- Ev. cbn [n_F].
      f_equal; [transitivity (x_F (n_front (KartEval f r Fa F T acc ang dom))) | transitivity (x_F (n_rear (KartEval f r Fa F T acc ang dom))) |
        transitivity (n_Fa (KartEval f r Fa F T acc ang dom))]; try (rewrite <- Ev; reflexivity); reflexivity. }
    assert (Ff : x_F f = axle_force (rot_z (i_delta (km_input m t))) (rot_z (i_delta (km_input m t))) (x_left f) (x_right f)).
    { change f with (n_front (KartEval f r Fa F T acc ang dom)). rewrite <- Ev. reflexivity. }
    assert (Fr : x_F r = axle_force (rot_z 0) (rot_z 0) (x_left r) (x_right r)).
    { change r with (n_rear (KartEval f r Fa F T acc ang dom)). rewrite <- Ev. reflexivity. }
    clear Ev EA. rewrite F1, Ff, Fr. unfold total_force6, axle_force, forces_on, kart_wheels, kart_wheel_force; cbn [map fold_right fst snd n_front n_rear n_Fa].
    generalize (mapply (rot_z (i_delta (km_input m t))) (t_F (x_left f))) (mapply (rot_z (i_delta (km_input m t))) (t_F (x_right f)))
      (mapply (rot_z 0) (t_F (x_left r))) (mapply (rot_z 0) (t_F (x_right r))). intros [a1 a2 a3] [b1 b2 b3] [c1 c2 c3] [d1 d2 d3]. destruct Fa as [e1 e2 e3].
    apply vec_eq; cbv [vadd mapply col1 col2 col3 vscale vx vy vz]; ring. }
  rewrite <- EF, EA. cbn [n_acc]. destruct (newton6 _ _ _); reflexivity.
Qed.

(** The moments of the wheels and the air about the point of the road below the kart. *)
Lemma axle_moment mode a t psi U Om x rel phi dphi delta omega :
  let v := axle_update sp mode a t 0 (frame_matrix (Euler 0 0 0) psi) U Om x rel phi dphi delta omega in
  vadd (x_T v) (cross x (x_F v)) =
  vadd (cross (V (vx x) (vy x + - (b_track a / 2)) 0) (kart_wheel_force delta (x_left v)))
       (cross (V (vx x) (vy x + b_track a / 2) 0) (kart_wheel_force delta (x_right v))).
Proof.
  intros v. unfold v, axle_update. cbv zeta. cbn [x_T x_F x_left x_right]. unfold axle_torque, axle_force, kart_wheel_force.
  set (zl := tire_z_left _ _ _ _). set (zr := tire_z_right _ _ _ _).
  assert (E : forall o rel', let s := ktyre_at sp t 0 (frame_matrix (Euler 0 0 0) psi) U Om (vadd x o) rel' delta omega in
    mapply (rot_z delta) (t_T s) = cross (V 0 0 (- (vz x + vz o))) (mapply (rot_z delta) (t_F s))).
  { intros o rel'. unfold ktyre_at, tire_update, tire_forces, ktyre_w. cbv zeta. cbn [t_T t_F].
    rewrite flat_height. set (F := V (standard_force_x _ _ _ _) _ _). clearbody F zl zr. destruct F as [f1 f2 f3], x as [x1 x2 x3], o as [o1 o2 o3]. unfold contact_point, rot_z.
    apply vec_eq; cbv [vx vy vz mapply cross vadd vscale col1 col2 col3]; ring. }
  rewrite !E. clear E. cbn [vz].
  generalize (mapply (rot_z delta) (t_F (ktyre_at sp t 0 (frame_matrix (Euler 0 0 0) psi) U Om (vadd x (V 0 (- (1 / 2) * b_track a) zl))
     (vadd rel (V 0 0 (tire_dz_left a (axle6_rates a (k_kt t) (vz (mapply (frame_matrix (Euler 0 0 0) psi) (vadd (vadd U (cross Om x)) rel))) dphi) dphi))) delta omega))).
  generalize (mapply (rot_z delta) (t_F (ktyre_at sp t 0 (frame_matrix (Euler 0 0 0) psi) U Om (vadd x (V 0 (1 / 2 * b_track a) zr))
     (vadd rel (V 0 0 (tire_dz_right a (axle6_rates a (k_kt t) (vz (mapply (frame_matrix (Euler 0 0 0) psi) (vadd (vadd U (cross Om x)) rel))) dphi) dphi))) delta omega))).
  intros [r1 r2 r3] [l1 l2 l3]. destruct x as [x1 x2 x3]. apply vec_eq; cbv [vadd cross vx vy vz]; field.
Qed.

Theorem C142_moment c i psi : let v := kart_plane_eval sp ss linsolve c i psi in n_T v = moment_on c i v.
Proof.
  intros v.
  assert (E : n_T v = vadd (vadd (vadd (x_T (n_front v)) (cross (axle_in_road (c_body c) (k_front (c_body c)) (i_state i)) (x_F (n_front v))))
    (vadd (x_T (n_rear v)) (cross (axle_in_road (c_body c) (k_rear (c_body c)) (i_state i)) (x_F (n_rear v)))))
    (cross (com_position (c_body c) (i_state i)) (n_Fa v))).
  { assert (E0 : n_T v = total_torque6 (c_body c) (i_state i) (x_F (n_front v)) (x_T (n_front v)) (x_F (n_rear v)) (x_T (n_rear v)) (n_Fa v)) by reflexivity.
    rewrite E0. unfold total_torque6. clearbody v.
    generalize (cross (axle_in_road (c_body c) (k_front (c_body c)) (i_state i)) (x_F (n_front v)))
      (cross (axle_in_road (c_body c) (k_rear (c_body c)) (i_state i)) (x_F (n_rear v))) (cross (com_position (c_body c) (i_state i)) (n_Fa v)).
    intros. vring. }
  rewrite E. clear E.
  set (xf := axle_in_road _ (k_front _) _). set (xr := axle_in_road _ (k_rear _) _).
  assert (Ef : vadd (x_T (n_front v)) (cross xf (x_F (n_front v))) =
    vadd (cross (V (vx xf) (vy xf + - (b_track (c_front c) / 2)) 0) (kart_wheel_force (i_delta i) (x_left (n_front v))))
         (cross (V (vx xf) (vy xf + b_track (c_front c) / 2) 0) (kart_wheel_force (i_delta i) (x_right (n_front v))))) by apply axle_moment.
  assert (Er : vadd (x_T (n_rear v)) (cross xr (x_F (n_rear v))) =
    vadd (cross (V (vx xr) (vy xr + - (b_track (c_rear c) / 2)) 0) (kart_wheel_force 0 (x_left (n_rear v))))
         (cross (V (vx xr) (vy xr + b_track (c_rear c) / 2) 0) (kart_wheel_force 0 (x_right (n_rear v))))) by apply axle_moment.
  rewrite Ef, Er. clear Ef Er. unfold moment_on, moment_sum, kart_patches, kart_wheels; cbn [map combine fold_right fst snd].
  assert (Xf : vx xf = vx (k_com (c_body c)) + vx (k_front (c_body c)) /\ vy xf = vy (k_com (c_body c)) + vy (k_front (c_body c)))
    by (unfold xf, axle_in_road, com_position, axle_position; cbn; split; ring).
  assert (Xr : vx xr = vx (k_com (c_body c)) + vx (k_rear (c_body c)) /\ vy xr = vy (k_com (c_body c)) + vy (k_rear (c_body c)))
    by (unfold xr, axle_in_road, com_position, axle_position; cbn; split; ring).
  destruct Xf as [-> ->], Xr as [-> ->]. clearbody v. unfold vzero. vring.
Qed.

(** Euler's equations of C110 hold along any motion on the plane, with that moment. *)
Theorem C142_euler c m t : solves linsolve -> determined (c_body c) (i_state (km_input m t)) ->
  kart_plane_motion (kart_on_plane sp ss linsolve) c m ->
  let q s := i_state (km_input m s) in
  euler6 (c_body c) (q t) (Derive (fun s => q_u (q s)) t) (Derive (fun s => q_v (q s)) t)
    (moment_on c (km_input m t) (kart_plane_eval sp ss linsolve c (km_input m t) (km_psi m t)))
    (V (Derive (fun s => Derive (fun r => q_phi (q r)) s) t) (Derive (fun s => Derive (fun r => q_mu (q r)) s) t)
       (Derive (fun s => Derive (km_psi m) s) t)).
Proof.
  intros HS HD H q. rewrite <- C142_moment. set (v := kart_plane_eval _ _ _ _ _ _).
  assert (D : forall s, let d := snd (kart_on_plane sp ss linsolve c (km_input m s) (km_x m s) (km_y m s) (km_psi m s)) in
    is_derive (fun s => q_u (q s)) s (y_u d) /\ is_derive (fun s => q_v (q s)) s (y_v d) /\ is_derive (fun s => q_omega (q s)) s (y_yaw d) /\
    is_derive (fun s => q_phi (q s)) s (q_dphi (q s)) /\ is_derive (fun s => q_mu (q s)) s (q_dmu (q s)) /\
    is_derive (fun s => q_dphi (q s)) s (y_dphi d) /\ is_derive (fun s => q_dmu (q s)) s (y_dmu d) /\ is_derive (km_psi m) s (q_omega (q s))).
  { intros s. destruct (H s) as (H1 & H2 & H3 & H4 & H5 & H6 & H7 & H8 & H9 & H10 & H11 & H12 & H13). cbv zeta.
    unfold kart_on_plane, cartesian_update in *.
    cbn [fst snd kart_states kart_scaled kart_rates y_u y_v y_yaw y_z y_phi y_mu y_dz y_dphi y_dmu y_omega y_road vscale vx vy vz] in *.
    rewrite ?Rmult_1_r, ?Rmult_1_l in *. unfold q. exact (conj H1 (conj H2 (conj H3 (conj H5 (conj H6 (conj H8 (conj H9 H13))))))). }
  destruct (D t) as (D1 & D2 & D3 & D4 & D5 & D6 & D7 & D8).
  assert (A1 : Derive (fun s => Derive (fun r => q_phi (q r)) s) t = vx (n_ang v)).
  { rewrite (Derive_ext _ (fun s => q_dphi (q s))) by (intros s; apply is_derive_unique; apply (D s)).
    apply is_derive_unique. rewrite <- (Rmult_1_r (vx (n_ang v))). exact D6. }
  assert (A2 : Derive (fun s => Derive (fun r => q_mu (q r)) s) t = vy (n_ang v)).
  { rewrite (Derive_ext _ (fun s => q_dmu (q s))) by (intros s; apply is_derive_unique; apply (D s)).
    apply is_derive_unique. rewrite <- (Rmult_1_r (vy (n_ang v))). exact D7. }
  assert (A3 : Derive (fun s => Derive (km_psi m) s) t = vz (n_ang v)).
  { rewrite (Derive_ext _ (fun s => q_omega (q s))) by (intros s; apply is_derive_unique; apply (D s)).
    apply is_derive_unique. rewrite <- (Rmult_1_r (vz (n_ang v))). exact D3. }
  assert (A4 : Derive (fun s => q_u (q s)) t = vx (n_acc v)).
  { apply is_derive_unique. rewrite <- (Rmult_1_r (vx (n_acc v))). exact D1. }
  assert (A5 : Derive (fun s => q_v (q s)) t = vy (n_acc v)).
  { apply is_derive_unique. rewrite <- (Rmult_1_r (vy (n_acc v))). exact D2. }
  rewrite A1, A2, A3, A4, A5. unfold euler6. fold (q t) in HD.
  assert (E : n_ang v = linsolve (euler_m (c_body c) (q t)) (vadd (vopp (euler_lhs (c_body c) (q t) (vx (n_acc v)) (vy (n_acc v)))) (n_T v))) by reflexivity.
  replace (V (vx (n_ang v)) (vy (n_ang v)) (vz (n_ang v))) with (n_ang v) by (destruct (n_ang v); reflexivity).
  rewrite E at 1. apply HS, determined_det, HD.
Qed.

(** The spin of the rear axle: its momentum changes with the torque of the engine or the brakes and with the moments of the forces of
    its two tyres about it. *)
Theorem C142_axle c m t : c_inertia c <> 0 -> kart_plane_motion (kart_on_plane sp ss linsolve) c m ->
  let i := km_input m t in let v := kart_plane_eval sp ss linsolve c i (km_psi m t) in
  let lever w := k_R0 (c_tr c) - t_w w in
  is_derive (fun s => c_inertia c * i_omega (km_input m s)) t
    (axle6_torque sp ss (c_engine c) (c_Tmax c) (c_smooth c) (i_throttle i) (i_omega i)
     - (vx (t_F (x_left (n_rear v))) * lever (x_left (n_rear v)) + vx (t_F (x_right (n_rear v))) * lever (x_right (n_rear v)))).
Proof.
  intros HI H i v lever. destruct (H t) as (H1 & H2 & H3 & H4 & H5 & H6 & H7 & H8 & H9 & H10 & _).
  apply (is_derive_scal _ _ (c_inertia c)) in H10. eapply is_derive_ext; [|eapply eq_ind; [exact H10|]].
  - intros s. reflexivity.
  - unfold kart_on_plane, cartesian_update. cbn [snd kart_scaled y_omega kart_rates]. fold i. fold v.
    assert (E : n_domega v = (axle6_torque sp ss (c_engine c) (c_Tmax c) (c_smooth c) (i_throttle i) (i_omega i) +
      wheel_torque (k_R0 (c_tr c)) (x_left (n_rear v)) + wheel_torque (k_R0 (c_tr c)) (x_right (n_rear v))) / c_inertia c) by reflexivity.
    rewrite E. unfold wheel_torque, lever. clearbody v. match goal with |- @eq _ ?a ?b => change (@eq R a b) end. field. exact HI.
Qed.

(** The slips of the wheels and the forces of their tyres. *)
Lemma axle_rolls mode a t psi u w om x rel phi dphi delta omega (q : state6) : vx rel = 0 -> vy rel = 0 -> q_u q = u -> q_v q = w -> q_omega q = om ->
  let v := axle_update sp mode a t 0 (frame_matrix (Euler 0 0 0) psi) (V u w 0) (V 0 0 om) x rel phi dphi delta omega in
  rolls_at q t (V (vx x) (vy x + - (b_track a / 2)) 0) delta omega (x_left v) /\
  rolls_at q t (V (vx x) (vy x + b_track a / 2) 0) delta omega (x_right v).
Proof.
  intros R1 R2 Hu Hv Ho v.
  assert (G : forall o rel', vx rel' = 0 -> vy rel' = 0 -> vx o = 0 ->
    rolls_at q t (V (vx x) (vy x + vy o) 0) delta omega (ktyre_at sp t 0 (frame_matrix (Euler 0 0 0) psi) (V u w 0) (V 0 0 om) (vadd x o) rel' delta omega)).
  { intros o rel' E1 E2 E3. unfold rolls_at, ktyre_at. cbv zeta. rewrite Hu, Hv, Ho.
    set (h := ktyre_w t 0 _ _). set (dh := ktyre_dw _ _ _ _ _ _).
    assert (Ev : ktyre_velocity t h (V u w 0) (V 0 0 om) (vadd x o) rel' delta =
      V (vx (mtapply (rot_z delta) (vadd (V u w 0) (cross (V 0 0 om) (V (vx x) (vy x + vy o) 0)))))
        (vy (mtapply (rot_z delta) (vadd (V u w 0) (cross (V 0 0 om) (V (vx x) (vy x + vy o) 0))))) (vz rel')).
    { unfold ktyre_velocity, rot_z, contact_point. destruct x as [x1 x2 x3], o as [o1 o2 o3], rel' as [r1 r2 r3]. cbn [vx vy] in E1, E2, E3. subst.
      apply vec_eq; cbv [vx vy vz mtapply dot vadd cross col1 col2 col3]; ring. }
    rewrite Ev. set (v1 := vx (mtapply _ _)). set (v2 := vy (mtapply _ _)). clearbody h dh v1 v2.
    unfold tire_update, tire_forces; cbn [t_v t_omega t_kappa t_lambda t_F vx vy vz]. unfold slip_kappa, slip_lambda; cbn [vx vy]. rewrite Ropp_involutive.
    repeat split; reflexivity. }
  unfold v, axle_update. cbv zeta. cbn [x_left x_right].
  match goal with |- context [vadd x (V 0 (- (1 / 2) * b_track a) ?z1)] => set (o1 := V 0 (- (1 / 2) * b_track a) z1) end.
  match goal with |- context [vadd x (V 0 (1 / 2 * b_track a) ?z1)] => set (o2 := V 0 (1 / 2 * b_track a) z1) end.
  split.
  - replace (vy x + - (b_track a / 2)) with (vy x + vy o1) by (cbn; field). apply G; cbn; rewrite ?R1, ?R2; ring.
  - replace (vy x + b_track a / 2) with (vy x + vy o2) by (cbn; field). apply G; cbn; rewrite ?R1, ?R2; ring.
Qed.

Theorem C142_slips c i psi : let v := kart_plane_eval sp ss linsolve c i psi in let q := i_state i in let p n := nth n (kart_patches c) vzero in
  rolls_at q (c_tf c) (p 0%nat) (i_delta i) 0 (x_left (n_front v)) /\ rolls_at q (c_tf c) (p 1%nat) (i_delta i) 0 (x_right (n_front v)) /\
  rolls_at q (c_tr c) (p 2%nat) 0 (i_omega i) (x_left (n_rear v)) /\ rolls_at q (c_tr c) (p 3%nat) 0 (i_omega i) (x_right (n_rear v)).
Proof.
  intros v q p. unfold p, kart_patches; cbn [nth].
  assert (Z : forall x, vx (vadd (com_velocity q) (axle_velocity x q)) = 0 /\ vy (vadd (com_velocity q) (axle_velocity x q)) = 0) by (intros; cbn; split; ring).
  assert (X : forall x, vx (axle_in_road (c_body c) x q) = vx (k_com (c_body c)) + vx x /\ vy (axle_in_road (c_body c) x q) = vy (k_com (c_body c)) + vy x)
    by (intros; unfold axle_in_road, com_position, axle_position; cbn; split; ring).
  pose proof (axle_rolls STEERING_FREE_ROLL (c_front c) (c_tf c) psi (q_u q) (q_v q) (q_omega q) (axle_in_road (c_body c) (k_front (c_body c)) q) _
    (q_phi q) (q_dphi q) (i_delta i) 0 q (proj1 (Z (k_front (c_body c)))) (proj2 (Z (k_front (c_body c)))) eq_refl eq_refl eq_refl) as A.
  pose proof (axle_rolls POWERED_WITHOUT_DIFFERENTIAL (c_rear c) (c_tr c) psi (q_u q) (q_v q) (q_omega q) (axle_in_road (c_body c) (k_rear (c_body c)) q) _
    (q_phi q) (q_dphi q) 0 (i_omega i) q (proj1 (Z (k_rear (c_body c)))) (proj2 (Z (k_rear (c_body c)))) eq_refl eq_refl eq_refl) as B.
  rewrite !(fun x => proj1 (X x)), !(fun x => proj2 (X x)) in A, B.
  unfold v, kart_plane_eval, kart_update. rewrite plane_omega. cbv zeta. cbn [n_front n_rear].
  exact (conj (proj1 A) (conj (proj2 A) B)).
Qed.

(** The depths of the tyres, and their loads. *)
Lemma axle_depths mode a t psi u w om x rel phi dphi delta omega :
  let v := axle_update sp mode a t 0 (frame_matrix (Euler 0 0 0) psi) (V u w 0) (V 0 0 om) x rel phi dphi delta omega in
  let d := axle6_deflection mode a (k_kt t) (k_R0 t) (vz x) phi delta in
  let r := axle6_rates a (k_kt t) (vz rel) dphi in
  let wl := vz x + tire_z_left a d phi delta + k_R0 t in
  let wr := vz x + tire_z_right a d phi delta + k_R0 t in
  t_w (x_left v) = wl /\ t_w (x_right v) = wr /\
  - vz (t_F (x_left v)) = sp (k_kt t * wl + k_ct t * (vz rel + tire_dz_left a r dphi)) (k_ref2 t) /\
  - vz (t_F (x_right v)) = sp (k_kt t * wr + k_ct t * (vz rel + tire_dz_right a r dphi)) (k_ref2 t).
Proof.
  intros v d r wl wr. unfold v, axle_update. cbv zeta. cbn [x_left x_right].
  rewrite !flat_height, Rplus_0_l.
  assert (E : vz (vadd (vadd (V u w 0) (cross (V 0 0 om) x)) rel) = vz rel) by (destruct x as [x1 x2 x3], rel as [r1 r2 r3]; cbn; ring).
  rewrite E. fold d r.
  unfold ktyre_at, tire_update, tire_forces, ktyre_w, ktyre_dw; cbn [t_w t_F vz]. rewrite !flat_height, !Ropp_involutive.
  destruct x as [x1 x2 x3], rel as [r1 r2 r3]. unfold wl, wr. clearbody d r. cbn [vx vy vz vadd cross].
  repeat split; try ring; f_equal; ring.
Qed.

Lemma springs mode a t z phi delta : stiff a t -> (mode = STEERING_FREE_ROLL /\ b_beta_l a = - b_beta_r a \/ mode = POWERED_WITHOUT_DIFFERENTIAL /\ delta = 0) ->
  let d := axle6_deflection mode a (k_kt t) (k_R0 t) z phi delta in
  springs_balance a t (z + tire_z_left a d phi delta + k_R0 t) (z + tire_z_right a d phi delta + k_R0 t) (d_sl d) (d_sr d).
Proof.
  intros (K1 & K2 & K3) Hb d.
  assert (Hb' : axle6_displacement mode a phi delta = 1 / 2 * b_track a * phi + b_beta_r a * delta /\ b_beta_l a * delta = - (b_beta_r a * delta)).
  { destruct Hb as [[-> E]|[-> ->]]; unfold axle6_displacement; [rewrite E|]; split; ring. }
  destruct Hb' as [E1 E2]. unfold springs_balance, tire_z_left, tire_z_right. rewrite E2.
  unfold d, axle6_deflection, axle6_solve. rewrite E1. cbn [d_sl d_sr]. split; field; lra.
Qed.

Theorem C142_depths c i psi : even_steering c -> stiff (c_front c) (c_tf c) -> stiff (c_rear c) (c_tr c) ->
  let v := kart_plane_eval sp ss linsolve c i psi in let q := i_state i in let b := c_body c in
  (exists sl sr, t_w (x_left (n_front v)) = tyre_depth c q (k_front b) (c_front c) (c_tf c) (- 1) (b_beta_l (c_front c)) (i_delta i) sl /\
     t_w (x_right (n_front v)) = tyre_depth c q (k_front b) (c_front c) (c_tf c) 1 (b_beta_r (c_front c)) (i_delta i) sr /\
     springs_balance (c_front c) (c_tf c) (t_w (x_left (n_front v))) (t_w (x_right (n_front v))) sl sr) /\
  (exists sl sr, t_w (x_left (n_rear v)) = tyre_depth c q (k_rear b) (c_rear c) (c_tr c) (- 1) 0 0 sl /\
     t_w (x_right (n_rear v)) = tyre_depth c q (k_rear b) (c_rear c) (c_tr c) 1 0 0 sr /\
     springs_balance (c_rear c) (c_tr c) (t_w (x_left (n_rear v))) (t_w (x_right (n_rear v))) sl sr).
Proof.
  intros He Sf Sr v q b.
  pose proof (axle_depths STEERING_FREE_ROLL (c_front c) (c_tf c) psi (q_u q) (q_v q) (q_omega q) (axle_in_road b (k_front b) q)
    (vadd (com_velocity q) (axle_velocity (k_front b) q)) (q_phi q) (q_dphi q) (i_delta i) 0) as A.
  pose proof (axle_depths POWERED_WITHOUT_DIFFERENTIAL (c_rear c) (c_tr c) psi (q_u q) (q_v q) (q_omega q) (axle_in_road b (k_rear b) q)
    (vadd (com_velocity q) (axle_velocity (k_rear b) q)) (q_phi q) (q_dphi q) 0 (i_omega i)) as B.
  cbv zeta in A, B. destruct A as (A1 & A2 & _), B as (B1 & B2 & _).
  pose proof (springs STEERING_FREE_ROLL (c_front c) (c_tf c) (vz (axle_in_road b (k_front b) q)) (q_phi q) (i_delta i) Sf (or_introl (conj eq_refl He))) as SA.
  pose proof (springs POWERED_WITHOUT_DIFFERENTIAL (c_rear c) (c_tr c) (vz (axle_in_road b (k_rear b) q)) (q_phi q) 0 Sr (or_intror (conj eq_refl eq_refl))) as SB.
  unfold v, kart_plane_eval, kart_update. rewrite plane_omega. cbv zeta. cbn [n_front n_rear].
  cbv zeta in SA, SB. fold q b. rewrite A1, A2, B1, B2. clear A1 A2 B1 B2. split.
  - exists (d_sl (axle6_deflection STEERING_FREE_ROLL (c_front c) (k_kt (c_tf c)) (k_R0 (c_tf c)) (vz (axle_in_road b (k_front b) q)) (q_phi q) (i_delta i))),
      (d_sr (axle6_deflection STEERING_FREE_ROLL (c_front c) (k_kt (c_tf c)) (k_R0 (c_tf c)) (vz (axle_in_road b (k_front b) q)) (q_phi q) (i_delta i))).
    split; [|split; [|exact SA]]; set (d := axle6_deflection _ _ _ _ _ _ _); clearbody d;
      unfold tyre_depth, tire_z_left, tire_z_right, axle_in_road, com_position, axle_position, b; cbn; field.
  - exists (d_sl (axle6_deflection POWERED_WITHOUT_DIFFERENTIAL (c_rear c) (k_kt (c_tr c)) (k_R0 (c_tr c)) (vz (axle_in_road b (k_rear b) q)) (q_phi q) 0)),
      (d_sr (axle6_deflection POWERED_WITHOUT_DIFFERENTIAL (c_rear c) (k_kt (c_tr c)) (k_R0 (c_tr c)) (vz (axle_in_road b (k_rear b) q)) (q_phi q) 0)).
    split; [|split; [|exact SB]]; set (d := axle6_deflection _ _ _ _ _ _ _); clearbody d;
      unfold tyre_depth, tire_z_left, tire_z_right, axle_in_road, com_position, axle_position, b; cbn; field.
Qed.

(** Along a motion, while the steering is held. *)
Lemma axle_carries mode a t (psi u w om x1 x2 x3 rz phi dphi delta omega : R -> R) s0 (f : R -> axle_eval) :
  (forall s, f s = axle_update sp mode a t 0 (frame_matrix (Euler 0 0 0) (psi s)) (V (u s) (w s) 0) (V 0 0 (om s)) (V (x1 s) (x2 s) (x3 s))
                     (V 0 0 (rz s)) (phi s) (dphi s) (delta s) (omega s)) ->
  is_derive x3 s0 (rz s0) -> is_derive phi s0 (dphi s0) -> is_derive delta s0 0 ->
  carries sp t (fun s => x_left (f s)) s0 /\ carries sp t (fun s => x_right (f s)) s0.
Proof.
  intros Hf Dx Dp Dd.
  assert (A : forall s, _) by (intros s; exact (axle_depths mode a t (psi s) (u s) (w s) (om s) (V (x1 s) (x2 s) (x3 s)) (V 0 0 (rz s)) (phi s) (dphi s) (delta s) (omega s))).
  cbv zeta in A. cbn [vz] in A.
  unfold carries. split.
  - exists (rz s0 + tire_dz_left a (axle6_rates a (k_kt t) (rz s0) (dphi s0)) (dphi s0)). split.
    + apply is_derive_ext with (f := fun s => x3 s + tire_z_left a (axle6_deflection mode a (k_kt t) (k_R0 t) (x3 s) (phi s) (delta s)) (phi s) (delta s) + k_R0 t).
      { intros s. rewrite Hf. symmetry. exact (proj1 (A s)). }
      unfold tire_z_left, tire_dz_left, axle6_deflection, axle6_rates, axle6_solve, axle6_displacement; cbn [d_sl].
      destruct mode; auto_derive; [repeat split; eexists; eassumption| |repeat split; eexists; eassumption|];
        replace (Derive (fun x => x3 x) s0) with (rz s0) by (symmetry; apply is_derive_unique; exact Dx);
        replace (Derive (fun x => phi x) s0) with (dphi s0) by (symmetry; apply is_derive_unique; exact Dp);
        replace (Derive (fun x => delta x) s0) with 0 by (symmetry; apply is_derive_unique; exact Dd);
        unfold Rdiv; ring.
    + rewrite Hf. rewrite (proj1 (A s0)). exact (proj1 (proj2 (proj2 (A s0)))).
  - exists (rz s0 + tire_dz_right a (axle6_rates a (k_kt t) (rz s0) (dphi s0)) (dphi s0)). split.
    + apply is_derive_ext with (f := fun s => x3 s + tire_z_right a (axle6_deflection mode a (k_kt t) (k_R0 t) (x3 s) (phi s) (delta s)) (phi s) (delta s) + k_R0 t).
      { intros s. rewrite Hf. symmetry. exact (proj1 (proj2 (A s))). }
      unfold tire_z_right, tire_dz_right, axle6_deflection, axle6_rates, axle6_solve, axle6_displacement; cbn [d_sr].
      destruct mode; auto_derive; [repeat split; eexists; eassumption| |repeat split; eexists; eassumption|];
        replace (Derive (fun x => x3 x) s0) with (rz s0) by (symmetry; apply is_derive_unique; exact Dx);
        replace (Derive (fun x => phi x) s0) with (dphi s0) by (symmetry; apply is_derive_unique; exact Dp);
        replace (Derive (fun x => delta x) s0) with 0 by (symmetry; apply is_derive_unique; exact Dd);
        unfold Rdiv; ring.
    + rewrite Hf. rewrite (proj1 (proj2 (A s0))). exact (proj2 (proj2 (proj2 (A s0)))).
Qed.

Theorem C142_loads c m t : kart_plane_motion (kart_on_plane sp ss linsolve) c m -> is_derive (fun s => i_delta (km_input m s)) t 0 ->
  let v s := kart_plane_eval sp ss linsolve c (km_input m s) (km_psi m s) in
  carries sp (c_tf c) (fun s => x_left (n_front (v s))) t /\ carries sp (c_tf c) (fun s => x_right (n_front (v s))) t /\
  carries sp (c_tr c) (fun s => x_left (n_rear (v s))) t /\ carries sp (c_tr c) (fun s => x_right (n_rear (v s))) t.
Proof.
  intros H Dd v.
  assert (D : is_derive (fun s => q_z (i_state (km_input m s))) t (q_dz (i_state (km_input m t))) /\
    is_derive (fun s => q_phi (i_state (km_input m s))) t (q_dphi (i_state (km_input m t))) /\
    is_derive (fun s => q_mu (i_state (km_input m s))) t (q_dmu (i_state (km_input m t)))).
  { destruct (H t) as (_ & _ & _ & Dz & Dp & Dm & _).
    unfold kart_on_plane, cartesian_update in Dz, Dp, Dm. cbn [fst snd kart_states kart_scaled kart_rates y_z y_phi y_mu] in Dz, Dp, Dm.
    rewrite Rmult_1_r in Dz, Dp, Dm. exact (conj Dz (conj Dp Dm)). }
  destruct D as (Dz & Dp & Dm).
  assert (X : forall x, is_derive (fun s => vz (axle_in_road (c_body c) x (i_state (km_input m s)))) t
     (vz (vadd (com_velocity (i_state (km_input m t))) (axle_velocity x (i_state (km_input m t)))))).
  { assert (G : forall Z M : R -> R, forall dz dm a b d, is_derive Z t dz -> is_derive M t dm -> is_derive (fun s => a + Z s + (b - M s * d)) t (dz - dm * d)).
    { intros Z M dz dm a b d D1 D2. auto_derive; [repeat split; eexists; eassumption|].
      replace (Derive (fun x => Z x) t) with dz by (symmetry; apply is_derive_unique; exact D1).
      replace (Derive (fun x => M x) t) with dm by (symmetry; apply is_derive_unique; exact D2). ring. }
    intros x. replace (vz (vadd (com_velocity (i_state (km_input m t))) (axle_velocity x (i_state (km_input m t)))))
      with (q_dz (i_state (km_input m t)) - q_dmu (i_state (km_input m t)) * vx x) by (cbn; ring).
    apply is_derive_ext with (f := fun s => vz (k_com (c_body c)) + q_z (i_state (km_input m s)) + (vz x - q_mu (i_state (km_input m s)) * vx x)).
    - intros s. cbn. ring.
    - apply (G (fun s => q_z (i_state (km_input m s))) (fun s => q_mu (i_state (km_input m s)))); assumption. }
  pose (q s := i_state (km_input m s)).
  destruct (axle_carries STEERING_FREE_ROLL (c_front c) (c_tf c) (km_psi m) (fun s => q_u (q s)) (fun s => q_v (q s)) (fun s => q_omega (q s))
    (fun s => vx (axle_in_road (c_body c) (k_front (c_body c)) (q s))) (fun s => vy (axle_in_road (c_body c) (k_front (c_body c)) (q s)))
    (fun s => vz (axle_in_road (c_body c) (k_front (c_body c)) (q s)))
    (fun s => vz (vadd (com_velocity (q s)) (axle_velocity (k_front (c_body c)) (q s)))) (fun s => q_phi (q s)) (fun s => q_dphi (q s))
    (fun s => i_delta (km_input m s)) (fun _ => 0) t (fun s => n_front (v s))) as [A1 A2]; [|apply X|exact Dp|exact Dd|].
  { intros s. unfold v, kart_plane_eval, kart_update. rewrite plane_omega. cbv zeta. cbn [n_front]. fold (q s).
    f_equal. apply vec_eq; cbn; ring. }
  destruct (axle_carries POWERED_WITHOUT_DIFFERENTIAL (c_rear c) (c_tr c) (km_psi m) (fun s => q_u (q s)) (fun s => q_v (q s)) (fun s => q_omega (q s))
    (fun s => vx (axle_in_road (c_body c) (k_rear (c_body c)) (q s))) (fun s => vy (axle_in_road (c_body c) (k_rear (c_body c)) (q s)))
    (fun s => vz (axle_in_road (c_body c) (k_rear (c_body c)) (q s)))
    (fun s => vz (vadd (com_velocity (q s)) (axle_velocity (k_rear (c_body c)) (q s)))) (fun s => q_phi (q s)) (fun s => q_dphi (q s))
    (fun _ => 0) (fun s => i_omega (km_input m s)) t (fun s => n_rear (v s))) as [B1 B2]; [|apply X|exact Dp|apply @is_derive_const|].
  { intros s. unfold v, kart_plane_eval, kart_update. rewrite plane_omega. cbv zeta. cbn [n_rear]. fold (q s).
    f_equal. apply vec_eq; cbn; ring. }
  exact (conj A1 (conj A2 (conj B1 B2))).
Qed.
End Smooth.

(** *** Cases *)
(** Cramer's rule is such a linsolve. *)
Definition cramer (M : mat) (b : vec) : vec :=
  V (det (M3 b (col2 M) (col3 M)) / det M) (det (M3 (col1 M) b (col3 M)) / det M) (det (M3 (col1 M) (col2 M) b) / det M).
Lemma cramer_solves : solves cramer.
Proof.
  intros [[a1 a2 a3] [b1 b2 b3] [c1 c2 c3]] [d1 d2 d3] H. unfold cramer. set (D := det _) in *.
  assert (ED : D = det (M3 (V a1 a2 a3) (V b1 b2 b3) (V c1 c2 c3))) by reflexivity.
  apply vec_eq; unfold mapply, det, dot, cross, vadd, vscale in *; cbn in *; field_simplify_eq; try exact H; rewrite ED; ring.
Qed.

(** A kart of 40 kg with the wheels at the corners of a square, in a wind along x as fast as it goes. *)
Definition square_tyre (m : standard_model) (ty : tire_type) : ktyre := KTyre ty (1 / 8) (400 * g0) 1 1 m.
Definition square_axle (bl br : R) : axle6 := MkAxle6 1 (400 * g0) 0 bl br.
Definition square_kart (m : standard_model) (Ixz bl br : R) : kart :=
  Kart (MkChassis6 40 1 1 1 Ixz Ixz (V 0 0 (- (1 / 4))) (V (1 / 2) 0 (1 / 8)) (V (- (1 / 2)) 0 (1 / 8))) (MkAero 1 1 1 1 0 10)
       (square_axle bl br) (square_axle 0 0) (square_tyre m ONLY_LATERAL) (square_tyre m NORMAL) (MkEngine true true 0 0 0 0 (fun _ => 0)) 1 1 1.
Definition coasting (delta : R) : kart_input := KartInput (MkState6 10 0 0 (1 / 20) 0 0 0 0 0) 80 delta 0.

(** The load under a wheel whose centre is at the height [z] downwards. *)
Definition load_at (z : R) : R := Rmax 0 (400 * g0 * (z + 1 / 8)).
Lemma coasting_tyre m ty x delta om : let F := standard_force_y m 0 (sin delta / cos delta) (load_at (vz x)) in cos delta <> 0 ->
  (ty = ONLY_LATERAL \/ delta = 0 /\ om = 80) ->
  t_F (ktyre_at positive_part (square_tyre m ty) 0 (frame_matrix (Euler 0 0 0) 0) (V 10 0 0) (V 0 0 0) x (V 0 0 0) delta om) =
  V 0 F (- load_at (vz x)).
Proof.
  intros F HC Hd. unfold ktyre_at, ktyre_w, ktyre_dw, tire_update, tire_forces. cbv zeta. cbn [t_F square_tyre k_type k_R0 k_kt k_ct k_ref2 k_model].
  rewrite !flat_height.
  assert (Ev : forall w, ktyre_velocity (square_tyre m ty) w (V 10 0 0) (V 0 0 0) x (V 0 0 0) delta = V (10 * cos delta) (- (10 * sin delta)) 0).
  { intros w. unfold ktyre_velocity, rot_z. vring. }
  rewrite Ev. cbn [vx].
  assert (Ek : slip_kappa (1 / 8) match ty with NORMAL => om | ONLY_LATERAL => 10 * cos delta / (1 / 8) end (V (10 * cos delta) (- (10 * sin delta)) 0) = 0).
  { unfold slip_kappa; cbn [vx]. destruct Hd as [-> | [-> ->]]; [|rewrite cos_0; destruct ty]; field; lra. }
  assert (El : slip_lambda (V (10 * cos delta) (- (10 * sin delta)) 0) = sin delta / cos delta) by (unfold slip_lambda; cbn [vx vy]; field; exact HC).
  rewrite Ek, El.
  assert (EL : positive_part (400 * g0 * (0 + vz (vadd x (V 0 0 (1 / 8)))) + 1 * vz (vadd (vadd (V 10 0 0) (cross (V 0 0 0) (vadd x (V 0 0 (1 / 8))))) (V 0 0 0))) 1 = load_at (vz x)).
  { unfold positive_part, load_at. f_equal. cbn. ring. }
  rewrite EL. f_equal. apply (C49_standard m 0 (sin delta / cos delta) (load_at (vz x))).
Qed.


(** The loads of an axle: [da] is what steering raises the left wheel in the equations. *)
Lemma coasting_axle m mode ty bl br x0 delta om : cos delta <> 0 -> (ty = ONLY_LATERAL \/ delta = 0 /\ om = 80) ->
  let v := axle_update positive_part mode (square_axle bl br) (square_tyre m ty) 0 (frame_matrix (Euler 0 0 0) 0) (V 10 0 0) (V 0 0 0)
             (V x0 0 (- (3 / 40))) (V 0 0 0) 0 0 delta om in
  let da := match mode with STEERING_FREE_ROLL => br * delta | _ => 0 end in
  let zl := - (1 / 10) + da / 2 + bl * delta in let zr := - (1 / 10) - da / 2 + br * delta in
  t_F (x_left v) = V 0 (standard_force_y m 0 (sin delta / cos delta) (load_at zl)) (- load_at zl) /\
  t_F (x_right v) = V 0 (standard_force_y m 0 (sin delta / cos delta) (load_at zr)) (- load_at zr).
Proof.
  intros HC Hd v da zl zr. unfold v, axle_update. cbv zeta. cbn [x_left x_right]. rewrite !flat_height.
  change (k_kt (square_tyre m ty)) with (400 * g0). change (k_R0 (square_tyre m ty)) with (1 / 8). assert (G : 0 < g0) by (unfold g0; lra).
  assert (S : forall ds d, axle6_solve (square_axle bl br) (400 * g0) ds d = MkDefl ((ds - d) / 2) ((ds + d) / 2) ((d - ds) / 2) (- (d + ds) / 2)).
  { intros ds d. unfold axle6_solve, square_axle; cbn [b_kchassis b_kantiroll]. f_equal; field; repeat split; lra. }
  unfold axle6_rates, axle6_deflection. rewrite !S. unfold tire_dz_left, tire_dz_right, tire_z_left, tire_z_right, axle6_displacement.
  cbn [d_sl d_sr square_axle b_track b_beta_l b_beta_r vz]. fold da.
  assert (R : forall r, vz (vadd (vadd (V 10 0 0) (cross (V 0 0 0) (V x0 0 (- (3 / 40))))) (V 0 0 0)) = 0 /\ vadd (V 0 0 0) (V 0 0 r) = V 0 0 r).
  { intros r. split; [cbn; ring | unfold vadd; cbn; f_equal; ring]. }
  rewrite (proj1 (R 0)), !(fun r => proj2 (R r)).
  replace ((1 / 2 * 1 * 0 - 0) / 2 + 0 * (- (1 / 2) * 1)) with 0 by field. replace (- (1 / 2 * 1 * 0 + 0) / 2 + 0 * (1 / 2 * 1)) with 0 by field.
  rewrite !coasting_tyre by assumption. cbn [vadd vz].
  assert (E1 : - (3 / 40) + ((1 / 2 * 1 * 0 + da - (0 + - (3 / 40) + 1 / 8)) / 2 + 0 * (- (1 / 2) * 1) + bl * delta) = zl) by (unfold zl; field).
  assert (E2 : - (3 / 40) + (- (1 / 2 * 1 * 0 + da + (0 + - (3 / 40) + 1 / 8)) / 2 + 0 * (1 / 2 * 1) + br * delta) = zr) by (unfold zr; field).
  rewrite E1, E2. split; reflexivity.
Qed.

(** The rear wheels carry a quarter of the weight each, and the air does nothing. *)
Lemma coasting_wheels linsolve m Ixz bl br delta : cos delta <> 0 ->
  let v := kart_plane_eval positive_part same_sign linsolve (square_kart m Ixz bl br) (coasting delta) 0 in
  let zl := - (1 / 10) + br * delta / 2 + bl * delta in let zr := - (1 / 10) - br * delta / 2 + br * delta in
  t_F (x_left (n_front v)) = V 0 (standard_force_y m 0 (sin delta / cos delta) (load_at zl)) (- load_at zl) /\
  t_F (x_right (n_front v)) = V 0 (standard_force_y m 0 (sin delta / cos delta) (load_at zr)) (- load_at zr) /\
  t_F (x_left (n_rear v)) = V 0 0 (- (10 * g0)) /\ t_F (x_right (n_rear v)) = V 0 0 (- (10 * g0)) /\ n_Fa v = V 0 0 0.
Proof.
  intros HC v zl zr. assert (G : 0 < g0) by (unfold g0; lra).
  assert (Rl : forall x, vadd (com_velocity (i_state (coasting delta))) (axle_velocity x (i_state (coasting delta))) = V 0 0 0).
  { intros x. unfold com_velocity, axle_velocity, vadd; cbn. f_equal; ring. }
  assert (Xf : axle_in_road (c_body (square_kart m Ixz bl br)) (k_front (c_body (square_kart m Ixz bl br))) (i_state (coasting delta)) = V (1 / 2) 0 (- (3 / 40))).
  { unfold axle_in_road, com_position, axle_position, vadd; cbn. f_equal; field. }
  assert (Xr : axle_in_road (c_body (square_kart m Ixz bl br)) (k_rear (c_body (square_kart m Ixz bl br))) (i_state (coasting delta)) = V (- (1 / 2)) 0 (- (3 / 40))).
  { unfold axle_in_road, com_position, axle_position, vadd; cbn. f_equal; field. }
  unfold v, kart_plane_eval, kart_update. rewrite plane_omega. cbv zeta. cbn [n_front n_rear n_Fa]. rewrite !Rl, Xf, Xr.
  cbn [square_kart c_front c_rear c_tf c_tr c_aero coasting i_state i_delta i_omega q_u q_v q_omega q_phi q_dphi].
  destruct (coasting_axle m STEERING_FREE_ROLL ONLY_LATERAL bl br (1 / 2) delta 0 HC (or_introl eq_refl)) as [A1 A2].
  assert (H0 : cos 0 <> 0) by (rewrite cos_0; lra).
  destruct (coasting_axle m POWERED_WITHOUT_DIFFERENTIAL NORMAL 0 0 (- (1 / 2)) 0 80 H0 (or_intror (conj eq_refl eq_refl))) as [A3 A4].
  assert (L : load_at (- (1 / 10)) = 10 * g0) by (unfold load_at; rewrite Rmax_right; lra).
  assert (Y : standard_force_y m 0 (sin 0 / cos 0) (10 * g0) = 0).
  { rewrite sin_0. unfold Rdiv. rewrite Rmult_0_l. apply (C49_standard m 0 0 (10 * g0)). }
  replace (- (1 / 10) + 0 / 2 + 0 * 0) with (- (1 / 10)) in A3 by field. replace (- (1 / 10) - 0 / 2 + 0 * 0) with (- (1 / 10)) in A4 by field.
  rewrite L, Y in A3, A4. refine (conj A1 (conj A2 (conj A3 (conj A4 _)))).
  assert (W : aerodynamic_velocity (MkAero 1 1 1 1 0 10) (frame_matrix (Euler 0 0 0) 0) (V 10 0 0) = V 0 0 0).
  { unfold aerodynamic_velocity, wind_velocity, frame_matrix. rewrite !mtapply_mul. cbn [yaw pitch roll ae_east ae_north]. unfold rot_x, rot_y, rot_z.
    rewrite sin_0, cos_0. apply vec_eq; cbv [vx vy vz mtapply dot vadd vopp col1 col2 col3]; ring. }
  unfold lift_force, drag_force. rewrite W. apply vec_eq; cbn; ring.
Qed.

(** Going straight at 10 m/s nothing changes: a motion on the plane. *)
Lemma coasting_rates m : let d := snd (kart_on_plane positive_part same_sign cramer (square_kart m (1 / 10) (- (1 / 20)) (1 / 20)) (coasting 0) 0 0 0) in
  y_u d = 0 /\ y_v d = 0 /\ y_yaw d = 0 /\ y_z d = 0 /\ y_phi d = 0 /\ y_mu d = 0 /\ y_dz d = 0 /\ y_dphi d = 0 /\ y_dmu d = 0 /\ y_omega d = 0.
Proof.
  set (c := square_kart m (1 / 10) (- (1 / 20)) (1 / 20)). cbv zeta. unfold kart_on_plane, cartesian_update.
  assert (H0 : cos 0 <> 0) by (rewrite cos_0; lra). assert (G : 0 < g0) by (unfold g0; lra).
  destruct (coasting_wheels cramer m (1 / 10) (- (1 / 20)) (1 / 20) 0 H0) as (A1 & A2 & A3 & A4 & A5). fold c in A1, A2, A3, A4, A5.
  assert (L : load_at (- (1 / 10)) = 10 * g0) by (unfold load_at; rewrite Rmax_right; lra).
  assert (Y : standard_force_y m 0 (sin 0 / cos 0) (10 * g0) = 0).
  { rewrite sin_0. unfold Rdiv. rewrite Rmult_0_l. apply (C49_standard m 0 0 (10 * g0)). }
  replace (- (1 / 10) + 1 / 20 * 0 / 2 + - (1 / 20) * 0) with (- (1 / 10)) in A1 by field.
  replace (- (1 / 10) - 1 / 20 * 0 / 2 + 1 / 20 * 0) with (- (1 / 10)) in A2 by field. rewrite L, Y in A1, A2.
  set (v := kart_plane_eval _ _ _ _ _ _) in *.
  assert (M : n_T v = V 0 0 0).
  { unfold v. rewrite C142_moment. fold v. unfold moment_on, moment_sum, kart_patches, kart_wheels, kart_wheel_force; cbn [map combine fold_right fst snd].
    change (i_delta (coasting 0)) with 0. rewrite A1, A2, A3, A4, A5. unfold rot_z. rewrite sin_0, cos_0. clearbody v.
    unfold c, square_kart, com_position; apply vec_eq; cbn; field. }
  assert (F : n_F v = V 0 0 0).
  { assert (E : n_F v = total_force6 (c_body c) (axle_force (rot_z 0) (rot_z 0) (x_left (n_front v)) (x_right (n_front v)))
      (axle_force (rot_z 0) (rot_z 0) (x_left (n_rear v)) (x_right (n_rear v))) (n_Fa v)) by reflexivity.
    rewrite E. unfold total_force6, axle_force. rewrite A1, A2, A3, A4, A5. unfold rot_z. rewrite sin_0, cos_0. clearbody v. apply vec_eq; cbn; ring. }
  assert (Ac : n_acc v = V 0 0 0).
  { assert (E : n_acc v = vadd (vopp (cross (frame_omega (Euler 0 0 0) (Euler 0 0 0) 0 0) (V 10 0 0))) (vscale (/ 40) (n_F v))) by reflexivity.
    rewrite E, plane_omega, F. apply vec_eq; cbn; ring. }
  assert (An : n_ang v = V 0 0 0).
  { assert (E : n_ang v = cramer (euler_m (c_body c) (i_state (coasting 0)))
       (vadd (vopp (euler_lhs (c_body c) (i_state (coasting 0)) (vx (n_acc v)) (vy (n_acc v)))) (n_T v))) by reflexivity.
    rewrite E, Ac, M. unfold cramer.
    assert (Z : vadd (vopp (euler_lhs (c_body c) (i_state (coasting 0)) (vx (V 0 0 0)) (vy (V 0 0 0)))) (V 0 0 0) = V 0 0 0).
    { apply vec_eq; cbn; ring. }
    rewrite Z. clear. unfold det, cross, dot; apply vec_eq; cbn; unfold Rdiv; ring. }
  assert (Do : n_domega v = 0).
  { assert (E : n_domega v = (axle6_torque positive_part same_sign (c_engine c) (c_Tmax c) (c_smooth c) 0 80 + wheel_torque (1 / 8) (x_left (n_rear v)) +
      wheel_torque (1 / 8) (x_right (n_rear v))) / 1) by reflexivity.
    rewrite E. unfold wheel_torque. rewrite A3, A4. cbn. field. }
  cbn [snd kart_scaled kart_rates y_u y_v y_yaw y_z y_phi y_mu y_dz y_dphi y_dmu y_omega]. rewrite Ac, An, Do.
  cbn [vx vy vz coasting i_state q_dz q_dphi q_dmu]. repeat split; ring.
Qed.

(** The cases of C141 and C142: the kart of the square coasting along x. *)
Definition coasting_motion : kart_motion := KartMotion (fun _ => coasting 0) (fun t => 10 * t) (fun _ => 0) (fun _ => 0).
Example C142_case m : let c := square_kart m (1 / 10) (- (1 / 20)) (1 / 20) in
  solves cramer /\ symmetric_kart c /\ determined (c_body c) (i_state (coasting 0)) /\ k_mass (c_body c) <> 0 /\ c_inertia c <> 0 /\
  even_steering c /\ stiff (c_front c) (c_tf c) /\ stiff (c_rear c) (c_tr c) /\
  is_derive (fun s => i_delta (km_input coasting_motion s)) 0 0 /\
  kart_plane_motion (kart_on_plane positive_part same_sign cramer) c coasting_motion.
Proof.
  intros c. refine (conj cramer_solves (conj _ (conj _ (conj _ (conj _ (conj _ (conj _ (conj _ (conj _ _))))))))).
  - unfold symmetric_kart; cbn. repeat split; lra.
  - unfold determined; cbn. split; lra.
  - cbn. lra.
  - cbn. lra.
  - unfold even_steering; cbn. lra.
  - unfold stiff; cbn. unfold g0. repeat split; lra.
  - unfold stiff; cbn. unfold g0. repeat split; lra.
  - cbn. apply @is_derive_const.
  - intros t. destruct (coasting_rates m) as (E1 & E2 & E3 & E4 & E5 & E6 & E7 & E8 & E9 & E10). fold c in E1, E2, E3, E4, E5, E6, E7, E8, E9, E10.
    unfold kart_derive. cbn [coasting_motion km_input km_x km_y km_psi].
    unfold kart_on_plane, cartesian_update in *. cbn [fst snd kart_states kart_scaled kart_rates y_u y_v y_yaw y_z y_phi y_mu y_dz y_dphi y_dmu y_omega y_road vscale vx vy vz] in *.
    rewrite E1, E2, E3, E4, E5, E6, E7, E8, E9, E10.
    refine (conj _ (conj _ (conj _ (conj _ (conj _ (conj _ (conj _ (conj _ (conj _ (conj _ (conj _ (conj _ _))))))))))));
      cbn; auto_derive; first [exact I | rewrite ?cos_0, ?sin_0; ring].
Qed.

Example C141_case m : let c := square_kart m (1 / 10) (- (1 / 20)) (1 / 20) in
  solves cramer /\ symmetric_kart c /\ kart_turn (kart_on_plane positive_part same_sign cramer) c 10 0 0 /\
  (* a turn that is not its own mirror image *)
  mirror_kart_input (coasting 1) <> coasting 1 /\ determined (c_body c) (i_state (coasting 1)).
Proof.
  intros c. refine (conj cramer_solves (conj _ (conj _ (conj _ _)))).
  - unfold symmetric_kart; cbn. repeat split; lra.
  - exists (coasting 0), 0. destruct (coasting_rates m) as (E1 & E2 & E3 & E4 & E5 & E6 & E7 & E8 & E9 & E10). fold c in E1, E2, E3, E4, E5, E6, E7, E8, E9, E10.
    cbv zeta. rewrite E1, E2, E3, E4, E5, E6, E7, E8, E9, E10, sin_0, cos_0. cbn [coasting i_state q_u q_v q_omega].
    refine (conj _ (conj _ (conj _ (conj _ _)))); [lra | lra | lra | unfold determined; cbn; split; lra | repeat split; lra].
  - intros E. apply (f_equal i_delta) in E. cbn in E. lra.
  - unfold determined; cbn. split; lra.
Qed.

(** A kart on ice: its tyres only carry weight. *)
Definition ice : standard_model := MkStandard 1 1 1 0 1 1 1 1 1 0 1 1 1 1 1 1 1 1.
Lemma coasting_roll linsolve bl br delta : solves linsolve -> cos delta <> 0 ->
  y_dphi (snd (kart_on_plane positive_part same_sign linsolve (square_kart ice 0 bl br) (coasting delta) 0 0 0)) =
  1 / 2 * (load_at (- (1 / 10) + br * delta / 2 + bl * delta) - load_at (- (1 / 10) - br * delta / 2 + br * delta)).
Proof.
  intros HS HC. set (c := square_kart ice 0 bl br). unfold kart_on_plane, cartesian_update.
  destruct (coasting_wheels linsolve ice 0 bl br delta HC) as (A1 & A2 & A3 & A4 & A5). fold c in A1, A2, A3, A4, A5.
  assert (Y : forall k l F, standard_force_y ice k l F = 0) by (intros; unfold standard_force_y, force_pure_y, magic; cbn; ring).
  rewrite !Y in A1, A2. set (zl := load_at (- (1 / 10) + br * delta / 2 + bl * delta)) in *. set (zr := load_at (- (1 / 10) - br * delta / 2 + br * delta)) in *.
  clearbody zl zr. set (v := kart_plane_eval _ _ _ _ _ _) in *.
  assert (M : vx (n_T v) = 1 / 2 * (zl - zr)).
  { unfold v. rewrite C142_moment. fold v. unfold moment_on, moment_sum, kart_patches, kart_wheels, kart_wheel_force; cbn [map combine fold_right fst snd].
    change (i_delta (coasting delta)) with delta. rewrite A1, A2, A3, A4, A5. unfold rot_z. clearbody v. unfold c, square_kart, com_position; cbn. field. }
  assert (F : vy (n_F v) = 0).
  { assert (E : n_F v = total_force6 (c_body c) (axle_force (rot_z delta) (rot_z delta) (x_left (n_front v)) (x_right (n_front v)))
      (axle_force (rot_z 0) (rot_z 0) (x_left (n_rear v)) (x_right (n_rear v))) (n_Fa v)) by reflexivity.
    rewrite E. unfold total_force6, axle_force. rewrite A1, A2, A3, A4, A5. unfold rot_z. clearbody v. cbn. ring. }
  assert (Ac : vy (n_acc v) = 0).
  { assert (E : n_acc v = vadd (vopp (cross (frame_omega (Euler 0 0 0) (Euler 0 0 0) 0 0) (V 10 0 0))) (vscale (/ 40) (n_F v))) by reflexivity.
    rewrite E, plane_omega. cbn [vadd vopp cross vscale vx vy vz]. rewrite F. ring. }
  assert (E : n_ang v = linsolve (euler_m (c_body c) (i_state (coasting delta)))
       (vadd (vopp (euler_lhs (c_body c) (i_state (coasting delta)) (vx (n_acc v)) (vy (n_acc v)))) (n_T v))) by reflexivity.
  cbn [snd kart_scaled kart_rates y_dphi].
  assert (Dt : det (euler_m (c_body c) (i_state (coasting delta))) <> 0) by (apply determined_det; unfold determined; cbn; split; lra).
  pose proof (HS _ (vadd (vopp (euler_lhs (c_body c) (i_state (coasting delta)) (vx (n_acc v)) (vy (n_acc v)))) (n_T v)) Dt) as S.
  rewrite <- E in S. apply (f_equal vx) in S. clear E Dt A1 A2 A3 A4 A5 F. rewrite Ac in S. clearbody v.
  cbn in S. rewrite M in S. lra.
Qed.

(** Steering that raises only one wheel: the code takes what the right wheel does for both, so the kart and its mirror image roll
    differently. *)
Theorem C141_uneven_steering_refuted : exists c i, determined (c_body c) (i_state i) /\
  vy (k_com (c_body c)) = 0 /\ vy (k_front (c_body c)) = 0 /\ vy (k_rear (c_body c)) = 0 /\ ae_north (c_aero c) = 0 /\
  forall linsolve, solves linsolve ->
  y_dphi (snd (kart_on_plane positive_part same_sign linsolve c i 0 0 0)) = 0 /\
  y_dphi (snd (kart_on_plane positive_part same_sign linsolve (mirror_kart c) (mirror_kart_input i) 0 0 0)) = 10 * g0.
Proof.
  exists (square_kart ice 0 0 (1 / 20)), (coasting 1). split; [unfold determined; cbn; split; lra|].
  split; [reflexivity|]. split; [reflexivity|]. split; [reflexivity|]. split; [reflexivity|]. intros lin HS.
  assert (C1 : 0 < cos 1) by (apply cos_gt_0; pose proof PI2_1; lra). assert (G : 0 < g0) by (unfold g0; lra).
  assert (Ec : mirror_kart (square_kart ice 0 0 (1 / 20)) = square_kart ice 0 (- (1 / 20)) 0).
  { unfold mirror_kart, mirror_body, mirror_wind, mirror_axle6, mirror, square_kart, square_axle; cbn. rewrite !Ropp_0. reflexivity. }
  assert (Ei : mirror_kart_input (coasting 1) = coasting (- 1)).
  { unfold mirror_kart_input, mirror_state6, coasting; cbn. rewrite !Ropp_0. reflexivity. }
  rewrite Ec, Ei. assert (C2 : cos (- 1) <> 0) by (change (- 1) with (Ropp 1); rewrite cos_neg; lra). assert (C1' : cos 1 <> 0) by lra.
  rewrite (coasting_roll lin 0 (1 / 20) 1 HS C1'), (coasting_roll lin (- (1 / 20)) 0 (- 1) HS C2).
  unfold load_at. rewrite !Rmax_right by lra. split; lra.
Qed.

Print Assumptions C141_track_partial.
Print Assumptions C141_plane_partial.
Print Assumptions C141_symmetric_kart.
Print Assumptions C141_laps_partial.
Print Assumptions C141_diagram.
Print Assumptions C141_straight.
Print Assumptions C142_anywhere.
Print Assumptions C142_flat_track.
Print Assumptions C142_newton.
Print Assumptions C142_moment.
Print Assumptions C142_euler.
Print Assumptions C142_axle.
Print Assumptions C142_slips.
Print Assumptions C142_depths.
Print Assumptions C142_loads.
Print Assumptions C141_uneven_steering_refuted.
