(** Lemmas about mirror images. *)
From Coq Require Import Reals Lra.
From Verif Require Import M_Vec M_Tire M_Car M_Road M_F1 S_F1 P_Tire.
Local Open Scope R_scope.

Lemma vec_eq a b : vx a = vx b -> vy a = vy b -> vz a = vz b -> a = b.
Proof. destruct a, b; cbn; intros; subst; reflexivity. Qed.
Ltac vring := apply vec_eq; cbv [vx vy vz vadd vsub vscale vopp dot cross mapply mtapply mmul col1 col2 col3 rot_z rot_y rot_x mirror mirror_turn contact_point left_of right_of]; cbn; ring.

Lemma mirror_add a b : vadd (mirror a) (mirror b) = mirror (vadd a b). Proof. vring. Qed.
Lemma mirror_sub a b : vsub (mirror a) (mirror b) = mirror (vsub a b). Proof. vring. Qed.
Lemma mirror_opp a : vopp (mirror a) = mirror (vopp a). Proof. vring. Qed.
Lemma mirror_scale k a : vscale k (mirror a) = mirror (vscale k a). Proof. vring. Qed.
Lemma turn_add a b : vadd (mirror_turn a) (mirror_turn b) = mirror_turn (vadd a b). Proof. vring. Qed.
Lemma mirror_cross a b : cross (mirror a) (mirror b) = mirror_turn (cross a b). Proof. vring. Qed.
Lemma turn_cross a b : cross (mirror_turn a) (mirror b) = mirror (cross a b). Proof. vring. Qed.

Lemma rot_mirror t a : mapply (rot_z (- t)) (mirror a) = mirror (mapply (rot_z t) a).
Proof. unfold rot_z. rewrite sin_neg, cos_neg. vring. Qed.
Lemma rot_turn t a : mapply (rot_z (- t)) (mirror_turn a) = mirror_turn (mapply (rot_z t) a).
Proof. unfold rot_z. rewrite sin_neg, cos_neg. vring. Qed.
Lemma rot_t_mirror t a : mtapply (rot_z (- t)) (mirror a) = mirror (mtapply (rot_z t) a).
Proof. unfold rot_z. rewrite sin_neg, cos_neg. vring. Qed.
Lemma rot_t_turn t a : mtapply (rot_z (- t)) (mirror_turn a) = mirror_turn (mtapply (rot_z t) a).
Proof. unfold rot_z. rewrite sin_neg, cos_neg. vring. Qed.
Lemma rot_y_t_mirror t a : mtapply (rot_y t) (mirror a) = mirror (mtapply (rot_y t) a). Proof. vring. Qed.
Lemma rot_x_t_mirror t a : mtapply (rot_x (- t)) (mirror a) = mirror (mtapply (rot_x t) a).
Proof. unfold rot_x. rewrite sin_neg, cos_neg. vring. Qed.

Lemma mtapply_mul A B a : mtapply (mmul A B) a = mtapply B (mtapply A a). Proof. vring. Qed.
Lemma frame_mirror e alpha a :
  mtapply (frame_matrix (mirror_angles e) (- alpha)) (mirror a) = mirror (mtapply (frame_matrix e alpha) a).
Proof.
  unfold frame_matrix, mirror_angles; cbn [yaw pitch roll].
  rewrite !mtapply_mul, rot_t_mirror, rot_y_t_mirror, rot_x_t_mirror, rot_t_mirror. reflexivity.
Qed.

Lemma curvature_mirror e de : curvature (mirror_angles e) (mirror_angles de) = mirror_turn (curvature e de).
Proof. unfold curvature, mirror_angles; cbn [yaw pitch roll]. rewrite sin_neg, cos_neg. vring. Qed.
Lemma omega_mirror e ed alpha alphad :
  frame_omega (mirror_angles e) (mirror_angles ed) (- alpha) (- alphad) = mirror_turn (frame_omega e ed alpha alphad).
Proof. unfold frame_omega. rewrite curvature_mirror, rot_t_turn. vring. Qed.

Definition mirror_tire (t : tire_state) : tire_state :=
  MkTire (t_omega t) (t_w t) (mirror (t_v t)) (t_kappa t) (- t_lambda t) (mirror (t_F t)) (mirror_turn (t_T t)).

Lemma contact_mirror R0 w : mirror (contact_point R0 w) = contact_point R0 w. Proof. vring. Qed.

Lemma velocity_mirror R0 origin delta U Om :
  tyre_velocity R0 (mirror origin) (- delta) (mirror U) (mirror_turn Om) = mirror (tyre_velocity R0 origin delta U Om).
Proof.
  unfold tyre_velocity. change (tyre_w R0 (mirror origin)) with (tyre_w R0 origin).
  rewrite <- (contact_mirror R0 (tyre_w R0 origin)) at 1.
  rewrite mirror_add, turn_cross, mirror_add. apply rot_t_mirror.
Qed.
Lemma tyre_mirror sp t origin delta U Om Fz kn :
  tyre_at sp t (mirror origin) (- delta) (mirror U) (mirror_turn Om) Fz kn = mirror_tire (tyre_at sp t origin delta U Om Fz kn).
Proof.
  unfold tyre_at. rewrite velocity_mirror. change (tyre_w (w_R0 t) (mirror origin)) with (tyre_w (w_R0 t) origin).
  set (v := tyre_velocity _ _ _ _ _). set (w := tyre_w _ _).
  unfold tire_update_from_kappa. change (vx (mirror v)) with (vx v).
  assert (L : slip_lambda (mirror v) = - slip_lambda v) by (unfold slip_lambda, Rdiv; cbn; ring).
  rewrite L. unfold tire_forces, mirror_tire; cbn [t_omega t_w t_v t_kappa t_lambda t_F t_T].
  set (k := kn * _). set (l := slip_lambda v).
  destruct (C49_simple sp (w_model t) k l Fz) as (_ & A & B & _). rewrite A, B. f_equal. vring.
Qed.

Lemma torques_mirror sp ss mode a wl wr th b bias :
  axle_torques sp ss mode a wr wl th b bias =
  (snd (axle_torques sp ss mode a wl wr th b bias), fst (axle_torques sp ss mode a wl wr th b bias)).
Proof.
  destruct mode; cbn [axle_torques fst snd]; [reflexivity|]. rewrite (Rplus_comm wr wl). f_equal; ring.
Qed.

Lemma axle_force_mirror t l r : axle_force (rot_z (- t)) (rot_z (- t)) (mirror_tire r) (mirror_tire l) =
  mirror (axle_force (rot_z t) (rot_z t) l r).
Proof. unfold axle_force, mirror_tire; cbn [t_F]. rewrite !rot_mirror, mirror_add. f_equal. vring. Qed.
Lemma left_mirror a : left_of a = mirror (right_of a). Proof. vring. Qed.
Lemma right_mirror a : right_of a = mirror (left_of a). Proof. vring. Qed.
Lemma axle_torque_mirror t a l r :
  axle_torque (rot_z (- t)) (rot_z (- t)) (left_of a) (right_of a) (mirror_tire r) (mirror_tire l) =
  mirror_turn (axle_torque (rot_z t) (rot_z t) (left_of a) (right_of a) l r).
Proof.
  unfold axle_torque, mirror_tire; cbn [t_F t_T]. rewrite !rot_mirror, !rot_turn.
  rewrite (left_mirror a) at 1. rewrite (right_mirror a) at 1. rewrite !mirror_cross, !turn_add. f_equal. vring.
Qed.

Lemma aero_velocity_mirror a e alpha U : aerodynamic_velocity (mirror_wind a) (frame_matrix (mirror_angles e) (- alpha)) (mirror U) =
  mirror (aerodynamic_velocity a (frame_matrix e alpha) U).
Proof.
  unfold aerodynamic_velocity, wind_velocity.
  replace (V (ae_east (mirror_wind a)) (- ae_north (mirror_wind a)) 0) with (mirror (V (ae_east a) (- ae_north a) 0)) by (cbn; vring).
  rewrite frame_mirror, mirror_opp, mirror_add. reflexivity.
Qed.
Lemma drag_mirror a e alpha U : drag_force (mirror_wind a) (frame_matrix (mirror_angles e) (- alpha)) (mirror U) =
  mirror (drag_force a (frame_matrix e alpha) U).
Proof.
  unfold drag_force. rewrite aero_velocity_mirror. cbv zeta. set (v := aerodynamic_velocity _ _ _).
  assert (S : aero_speed (mirror v) = aero_speed v) by (unfold aero_speed; f_equal; cbn; ring).
  rewrite S, mirror_scale. reflexivity.
Qed.
Lemma lift_mirror a e alpha U : lift_force (mirror_wind a) (frame_matrix (mirror_angles e) (- alpha)) (mirror U) =
  mirror (lift_force a (frame_matrix e alpha) U).
Proof. unfold lift_force. rewrite aero_velocity_mirror. vring. Qed.

Lemma gravity_mirror e alpha m g : gravity_force (mirror_angles e) (- alpha) m g = mirror (gravity_force e alpha m g).
Proof. unfold gravity_force, mirror_angles; cbn [yaw pitch roll]. rewrite !sin_neg, !cos_neg. vring. Qed.

Lemma torque_mirror c xf Ff Tf xr Fr Tr Fa :
  total_torque3 (mirror_chassis c) (mirror xf) (mirror Ff) (mirror_turn Tf) (mirror xr) (mirror Fr) (mirror_turn Tr) (mirror Fa) =
  mirror_turn (total_torque3 c xf Ff Tf xr Fr Tr Fa).
Proof.
  unfold total_torque3, contact_force, mirror_chassis; cbn [c_aero_x c_com].
  rewrite mirror_sub, !mirror_add, mirror_opp, !mirror_cross, !turn_add. reflexivity.
Qed.

Definition mirror_motion (m : motion3) : motion3 :=
  MkMotion3 (mirror (mo_v m)) (mirror (mo_a m)) (- mo_roll_momentum m) (mo_pitch_momentum m)
            (- mo_roll_rate m) (mo_pitch_rate m) (- mo_yaw_acceleration m).
Lemma equations_mirror c F T u v w om :
  equations3 (mirror_chassis c) (mirror F) (mirror_turn T) u (- v) w (mirror_turn om) = mirror_motion (equations3 c F T u v w om).
Proof.
  unfold equations3, mirror_motion; cbn [mo_v mo_a mo_roll_momentum mo_pitch_momentum mo_roll_rate mo_pitch_rate mo_yaw_acceleration
    mirror_chassis c_com c_mass c_Ixx c_Iyy c_Izz mirror mirror_turn vx vy vz].
  f_equal; try (apply vec_eq; cbn); unfold Rdiv; ring.
Qed.

Definition mirror_eval (v : f1_eval) : f1_eval :=
  F1Eval (mirror_tire (v_fr v)) (mirror_tire (v_fl v)) (mirror_tire (v_rr v)) (mirror_tire (v_rl v))
         (snd (v_torque_f v), fst (v_torque_f v)) (snd (v_torque_r v), fst (v_torque_r v))
         (mirror (v_Ff v)) (mirror (v_Fr v)) (mirror (v_Fa v)) (mirror (v_F v)) (mirror_turn (v_T v))
         (mirror_motion (v_motion v)) (- v_balance v).

Lemma tyre_mirror0 sp t origin U Om Fz kn :
  tyre_at sp t (mirror origin) 0 (mirror U) (mirror_turn Om) Fz kn = mirror_tire (tyre_at sp t origin 0 U Om Fz kn).
Proof. rewrite <- tyre_mirror, Ropp_0. reflexivity. Qed.
Lemma axle_force_mirror0 l r : axle_force (rot_z 0) (rot_z 0) (mirror_tire r) (mirror_tire l) = mirror (axle_force (rot_z 0) (rot_z 0) l r).
Proof. rewrite <- axle_force_mirror, Ropp_0. reflexivity. Qed.
Lemma axle_torque_mirror0 a l r :
  axle_torque (rot_z 0) (rot_z 0) (left_of a) (right_of a) (mirror_tire r) (mirror_tire l) =
  mirror_turn (axle_torque (rot_z 0) (rot_z 0) (left_of a) (right_of a) l r).
Proof. rewrite <- axle_torque_mirror, Ropp_0. reflexivity. Qed.

Lemma update_mirror sp ss g0 c i e ed alpha alphad w :
  f1_update sp ss g0 (mirror_car c) (mirror_input i) (mirror_angles e) (mirror_angles ed) (- alpha) (- alphad) w =
  mirror_eval (f1_update sp ss g0 c i e ed alpha alphad w).
Proof.
  unfold f1_update. cbv zeta.
  rewrite omega_mirror. change (V (i_u (mirror_input i)) (i_v (mirror_input i)) w) with (mirror (V (i_u i) (i_v i) w)).
  set (U := V (i_u i) (i_v i) w). set (Om := frame_omega e ed alpha alphad).
  cbn [mirror_car f_chassis f_aero f_xf f_xr f_front f_rear f_fl f_fr f_rl f_rr].
  cbn [mirror_input i_fl i_fr i_rl i_rr i_u i_v i_yaw i_zfl i_zfr i_zrl i_zrr i_delta i_boost i_throttle i_bias].
  change (force_z g0 (mirror_car c)) with (force_z g0 c).
  change (tyre_load sp (mirror_chassis (f_chassis c))) with (tyre_load sp (f_chassis c)).
  assert (EL : forall x a, vadd (mirror x) (left_of a) = mirror (vadd x (right_of a))) by (intros; rewrite left_mirror, mirror_add; reflexivity).
  assert (ER : forall x a, vadd (mirror x) (right_of a) = mirror (vadd x (left_of a))) by (intros; rewrite right_mirror, mirror_add; reflexivity).
  rewrite !EL, !ER, !tyre_mirror, !tyre_mirror0.
  set (tfl := tyre_at sp (f_fl c) _ _ _ _ _ _). set (tfr := tyre_at sp (f_fr c) _ _ _ _ _ _).
  set (trl := tyre_at sp (f_rl c) _ _ _ _ _ _). set (trr := tyre_at sp (f_rr c) _ _ _ _ _ _).
  rewrite !axle_force_mirror, !axle_force_mirror0, !axle_torque_mirror, !axle_torque_mirror0.
  cbn [mirror_tire t_omega].
  rewrite (torques_mirror sp ss STEERING _ (t_omega tfl) (t_omega tfr)), (torques_mirror sp ss POWERED _ (t_omega trl) (t_omega trr)).
  rewrite lift_mirror, drag_mirror, mirror_add. rewrite torque_mirror. cbn [mirror_chassis c_mass]. rewrite gravity_mirror.
  set (Fa := vadd _ _). set (Ff := axle_force _ _ tfl tfr). set (Fr := axle_force _ _ trl trr).
  set (T := total_torque3 _ _ _ _ _ _ _ _). set (G := gravity_force _ _ _ _).
  assert (EF : total_force3 (mirror Ff) (mirror Fr) (mirror Fa) (mirror G) = mirror (total_force3 Ff Fr Fa G)).
  { unfold total_force3, contact_force. rewrite !mirror_add. reflexivity. }
  rewrite EF.
  change (V (vx (mirror_turn Om)) (vy (mirror_turn Om)) (- i_yaw i)) with (mirror_turn (V (vx Om) (vy Om) (i_yaw i))).
  rewrite equations_mirror. unfold mirror_eval. cbn [v_fl v_fr v_rl v_rr v_torque_f v_torque_r v_Ff v_Fr v_Fa v_F v_T v_motion v_balance].
  f_equal. unfold roll_balance; cbn [mirror_chassis c_roll_balance]. ring.
Qed.

Lemma states_mirror sp ss g0 c i e ed alpha alphad w r :
  f1_states g0 (mirror_car c) (mirror_input i) (mirror_eval (f1_update sp ss g0 c i e ed alpha alphad w)) (V (vx r) (- vy r) (- vz r)) =
  mirror_vector (f1_states g0 c i (f1_update sp ss g0 c i e ed alpha alphad w) r).
Proof.
  unfold f1_states, mirror_vector. cbv zeta. set (v := f1_update _ _ _ _ _ _ _ _ _ _).
  cbn [mirror_eval v_fl v_fr v_rl v_rr v_motion mirror_tire t_omega mirror_motion mo_v mo_roll_momentum mo_pitch_momentum mirror vx vy vz
       mirror_car f_chassis f_front f_rear mirror_chassis c_mass mirror_input i_yaw y_fl y_fr y_rl y_rr y_u y_v y_yaw y_w y_roll y_pitch y_balance y_road].
  f_equal; unfold Rdiv; ring.
Qed.
Lemma rates_mirror sp ss g0 c i e ed alpha alphad w r :
  f1_rates g0 (mirror_car c) (mirror_eval (f1_update sp ss g0 c i e ed alpha alphad w)) (V (vx r) (- vy r) (- vz r)) =
  mirror_vector (f1_rates g0 c (f1_update sp ss g0 c i e ed alpha alphad w) r).
Proof.
  unfold f1_rates, mirror_vector. cbv zeta. set (v := f1_update _ _ _ _ _ _ _ _ _ _).
  cbn [mirror_eval v_fl v_fr v_rl v_rr v_torque_f v_torque_r v_motion v_balance fst snd mirror_motion mo_a mo_roll_rate mo_pitch_rate
       mo_yaw_acceleration mirror vx vy vz mirror_car f_chassis f_front f_rear f_fl f_fr f_rl f_rr mirror_chassis c_mass
       y_fl y_fr y_rl y_rr y_u y_v y_yaw y_w y_roll y_pitch y_balance y_road].
  f_equal; unfold Rdiv; ring.
Qed.
Lemma scaled_mirror k y : scaled k (mirror_vector y) = mirror_vector (scaled k y).
Proof. unfold scaled, mirror_vector; cbn. f_equal; try ring. apply vec_eq; cbn; ring. Qed.

Lemma road_mirror p n alpha u v yw :
  let r := road_update (fr_r p) (fr_e p) (fr_de p) n alpha u v yw in
  road_update (fr_r (mirror_point p)) (fr_e (mirror_point p)) (fr_de (mirror_point p)) (- n) (- alpha) u (- v) (- yw) =
  RoadOut (ro_dtime_ds r) (- ro_n_dot r) (- ro_alpha_dot r) (mirror (ro_position r)) (- ro_psi r) (ro_w r).
Proof.
  cbn [mirror_point fr_r fr_e fr_de]. unfold road_update. cbv zeta. rewrite curvature_mirror.
  set (k := curvature _ _). cbn [mirror_turn vx vz]. rewrite sin_neg, cos_neg.
  assert (E : (1 - - n * - vz k) / (u * cos alpha - - v * - sin alpha) = (1 - n * vz k) / (u * cos alpha - v * sin alpha)).
  { f_equal; [ring|]. f_equal. ring. }
  rewrite E. set (dt := _ / _). cbn [ro_dtime_ds ro_n_dot ro_alpha_dot ro_position ro_psi ro_w]. unfold Rdiv. f_equal; try ring.
  - apply vec_eq; unfold normal, mirror_angles, mirror; cbn; rewrite ?sin_neg, ?cos_neg; ring.
  - unfold mirror_angles; cbn. ring.
Qed.
