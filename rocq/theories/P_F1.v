(** Property theorems C137, C138, C139: the whole Formula 1 car. *)
From Coq Require Import Reals Lra.
From Coquelicot Require Import Coquelicot.
From Verif Require Import M_Vec M_Tire M_Car M_Road M_F1 S_F1 L_F1 L_Tire P_Tire P_Car.
Local Open Scope R_scope.

Section Functions.
Context (sp ss : R -> R -> R) (g0 : R).

(** ** C137: left and right *)
(** The mirror image of a car, with mirrored inputs at the mirrored point of the mirrored track, has the mirrored states and the
    mirrored derivatives: for every car (symmetric or not), track and wind. *)
Theorem C137_track c i p time n alpha :
  let '(q, dq) := f1_on_track sp ss g0 c i p time n alpha in
  f1_on_track sp ss g0 (mirror_car c) (mirror_input i) (mirror_point p) time (- n) (- alpha) = (mirror_vector q, mirror_vector dq).
Proof.
  unfold f1_on_track, track_eval.
  pose proof (road_mirror p n alpha (i_u i) (i_v i) (i_yaw i)) as RM. cbv zeta in RM.
  change (i_u (mirror_input i)) with (i_u i). change (i_v (mirror_input i)) with (- i_v i). change (i_yaw (mirror_input i)) with (- i_yaw i).
  rewrite RM. clear RM. set (r := road_update _ _ _ n alpha _ _ _). cbn [ro_dtime_ds ro_n_dot ro_alpha_dot ro_w mirror_point fr_e fr_de].
  assert (ED : euler_dot (mirror_angles (fr_de p)) (ro_dtime_ds r) = mirror_angles (euler_dot (fr_de p) (ro_dtime_ds r))).
  { unfold euler_dot, mirror_angles; cbn [yaw pitch roll]. f_equal; unfold Rdiv; ring. }
  rewrite ED, update_mirror. f_equal.
  - apply (states_mirror sp ss g0 c i (fr_e p) _ alpha _ _ (V time n alpha)).
  - rewrite (rates_mirror sp ss g0 c i (fr_e p) _ alpha _ _ (V 1 (ro_n_dot r) (ro_alpha_dot r))). apply scaled_mirror.
Qed.

Theorem C137_plane c i x y psi :
  let '(q, dq) := f1_on_plane sp ss g0 c i x y psi in
  f1_on_plane sp ss g0 (mirror_car c) (mirror_input i) x (- y) (- psi) = (mirror_vector q, mirror_vector dq).
Proof.
  unfold f1_on_plane, plane_eval, cartesian_update.
  assert (E0 : Euler 0 0 0 = mirror_angles (Euler 0 0 0)) by (unfold mirror_angles; cbn; rewrite Ropp_0; reflexivity).
  change (i_u (mirror_input i)) with (i_u i). change (i_v (mirror_input i)) with (- i_v i). change (i_yaw (mirror_input i)) with (- i_yaw i).
  pose proof (update_mirror sp ss g0 c i (Euler 0 0 0) (Euler 0 0 0) psi (i_yaw i) 0) as U. rewrite <- E0 in U. rewrite U, sin_neg, cos_neg. f_equal.
  - apply (states_mirror sp ss g0 c i _ _ psi _ 0 (V x y psi)).
  - rewrite <- scaled_mirror. f_equal. rewrite <- rates_mirror. f_equal. apply vec_eq; cbn; ring.
Qed.

Lemma symmetric_mirror c : symmetric c -> mirror_car c = c.
Proof.
  destruct c as [[m a b d com ae rb ref] [rho cd cl A no ea] xf xr f r fl fr rl rr]. unfold symmetric; cbn.
  intros (-> & -> & H1 & H2 & H3 & H4 & ->). destruct com, ae, xf, xr; cbn in *. subst.
  unfold mirror_car, mirror_chassis, mirror_wind, mirror; cbn. rewrite Ropp_0. reflexivity.
Qed.

(** A symmetric car turns left as it turns right. *)
Theorem C137_symmetric_car c i p time n alpha : symmetric c ->
  let '(q, dq) := f1_on_track sp ss g0 c i p time n alpha in
  f1_on_track sp ss g0 c (mirror_input i) (mirror_point p) time (- n) (- alpha) = (mirror_vector q, mirror_vector dq).
Proof. intros S. pose proof (C137_track c i p time n alpha) as H. rewrite (symmetric_mirror c S) in H. exact H. Qed.

Lemma vector_derive_mirror f t d : vector_derive f t d -> vector_derive (fun s => mirror_vector (f s)) t (mirror_vector d).
Proof.
  unfold vector_derive, mirror_vector; cbn.
  intros (H1 & H2 & H3 & H4 & H5 & H6 & H7 & H8 & H9 & H10 & H11 & H12 & H13 & H14).
  assert (N : forall (h : R -> R) x, is_derive h t x -> is_derive (fun s => - h s) t (- x)) by (intros h x Hh; apply (is_derive_opp h); exact Hh).
  refine (conj _ (conj _ (conj _ (conj _ (conj _ (conj _ (conj _ (conj _ (conj _ (conj _ (conj _ (conj _ (conj _ _)))))))))))));
    try assumption; apply N; assumption.
Qed.
Lemma vector_derive_ext f g t d : (forall s, f s = g s) -> vector_derive f t d -> vector_derive g t d.
Proof.
  intros E (H1 & H2 & H3 & H4 & H5 & H6 & H7 & H8 & H9 & H10 & H11 & H12 & H13 & H14). unfold vector_derive.
  repeat (split; [eapply is_derive_ext; [|eassumption]; intros; cbn; rewrite E; reflexivity|]).
  eapply is_derive_ext; [|eassumption]; intros; cbn; rewrite E; reflexivity.
Qed.

(** A lap of a car is a lap of the mirrored car on the mirrored track, in the same time, and with the same wheel spins, speeds
    and controls exchanged between left and right. *)
Theorem C137_laps c track l s0 s1 :
  lap_motion (f1_on_track sp ss g0) c track l s0 s1 ->
  lap_motion (f1_on_track sp ss g0) (mirror_car c) (fun s => mirror_point (track s)) (mirror_lap l) s0 s1 /\
  l_time (mirror_lap l) = l_time l.
Proof.
  intros H. split; [|reflexivity]. intros s Hs. specialize (H s Hs).
  assert (E : forall x, f1_on_track sp ss g0 (mirror_car c) (l_input (mirror_lap l) x) (mirror_point (track x)) (l_time (mirror_lap l) x)
      (l_n (mirror_lap l) x) (l_alpha (mirror_lap l) x) =
    (mirror_vector (fst (f1_on_track sp ss g0 c (l_input l x) (track x) (l_time l x) (l_n l x) (l_alpha l x))),
     mirror_vector (snd (f1_on_track sp ss g0 c (l_input l x) (track x) (l_time l x) (l_n l x) (l_alpha l x))))).
  { intros x. pose proof (C137_track c (l_input l x) (track x) (l_time l x) (l_n l x) (l_alpha l x)) as T.
    destruct (f1_on_track sp ss g0 c (l_input l x) (track x) (l_time l x) (l_n l x) (l_alpha l x)) as [q dq]. exact T. }
  rewrite E. cbn [snd]. eapply vector_derive_ext; [|apply vector_derive_mirror, H]. intros x. cbn beta. rewrite E. reflexivity.
Qed.

(** The accelerations that a symmetric car can hold are the same to the left and to the right: the mirrored half of a
    g-g diagram (gg_diagram of the Python module returns it without computing it) is right. *)
Theorem C137_diagram c speed ax ay : symmetric c -> turn (f1_on_plane sp ss g0) c speed ax ay -> turn (f1_on_plane sp ss g0) c speed ax (- ay).
Proof.
  intros S (i & psi & H). exists (mirror_input i), (- psi).
  pose proof (C137_plane c i 0 0 psi) as P. rewrite (symmetric_mirror c S), Ropp_0 in P.
  destruct (f1_on_plane sp ss g0 c i 0 0 psi) as [q d]. rewrite P. clear P. cbn [snd] in *. rewrite sin_neg, cos_neg.
  destruct H as (H1 & H2 & H3 & H4 & H5 & H6 & H7 & H8 & H9 & H10 & H11 & H12 & H13 & H14).
  cbn [mirror_input i_u i_v i_yaw mirror_vector y_fl y_fr y_rl y_rr y_u y_v y_yaw y_w y_roll y_pitch y_balance].
  rewrite H2, H4, H5, H6, H7, H8, H9, H10, H11, H12. repeat split; try lra.
Qed.

(** ** C138: energy *)
Lemma plane_omega psi yaw : frame_omega (Euler 0 0 0) (Euler 0 0 0) psi yaw = V 0 0 yaw.
Proof. unfold frame_omega, curvature; cbn [M_Road.yaw pitch roll]. rewrite sin_0, cos_0. vring. Qed.
Lemma plane_gravity psi m g : vx (gravity_force (Euler 0 0 0) psi m g) = 0 /\ vy (gravity_force (Euler 0 0 0) psi m g) = 0.
Proof. unfold gravity_force; cbn [vx vy pitch roll]. rewrite sin_0. split; ring. Qed.

(** What the force of a tyre gives to the car is what it does at its own contact patch. *)
Definition planar (F P : vec) : R := vx F * vx P + vy F * vy P.
Lemma tyre_power t o delta U r Fz kn : vz U = 0 ->
  let s := tyre_at sp t o delta U (V 0 0 r) Fz kn in
  planar (mapply (rot_z delta) (t_F s)) (vadd U (cross (V 0 0 r) o)) = vx (t_F s) * vx (t_v s) + vy (t_F s) * vy (t_v s) /\
  vz (mapply (rot_z delta) (t_T s)) = 0 /\ t_w s = vz o + w_R0 t.
Proof.
  intros HU s. unfold s, tyre_at, tire_update_from_kappa, tire_forces; cbn [t_F t_v t_T t_w].
  set (fx := simple_force_x _ _ _ _ _). set (fy := simple_force_y _ _ _ _ _). clearbody fx fy.
  destruct U as [ux uy uz], o as [ox oy oz]. unfold planar, tyre_velocity, tyre_w, contact_point, rot_z. cbv [vx vy vz vadd vscale cross mapply mtapply dot col1 col2 col3] in *.
  split; [ring|]. split; [ring|reflexivity].
Qed.

(** The power balance of the whole car on the plane. *)
Theorem C138_power c i x y psi : on_its_wheels c -> c_mass (f_chassis c) <> 0 -> c_Izz (f_chassis c) <> 0 ->
  let v := plane_eval sp ss g0 c i psi in
  let d := snd (f1_on_plane sp ss g0 c i x y psi) in
  c_mass (f_chassis c) * (i_u i * y_u d + i_v i * y_v d) + c_Izz (f_chassis c) * (i_yaw i * y_yaw d) +
  (t_omega (v_fl v) * wheel_momentum_rate (w_R0 (f_fl c)) (fst (v_torque_f v)) (v_fl v) +
   t_omega (v_fr v) * wheel_momentum_rate (w_R0 (f_fr c)) (snd (v_torque_f v)) (v_fr v) +
   t_omega (v_rl v) * wheel_momentum_rate (w_R0 (f_rl c)) (fst (v_torque_r v)) (v_rl v) +
   t_omega (v_rr v) * wheel_momentum_rate (w_R0 (f_rr c)) (snd (v_torque_r v)) (v_rr v)) =
  power_of_wheels v + power_of_slip c v + power_of_air c i v.
Proof.
  intros (C1 & C2 & W1 & W2 & W3 & W4) Hm HI v d.
  unfold d, f1_on_plane, cartesian_update. fold v. cbn [snd scaled y_u y_v y_yaw f1_rates]. rewrite !Rmult_1_r.
  assert (HU : vz (V (i_u i) (i_v i) 0) = 0) by reflexivity.
  pose proof (tyre_power (f_fl c) (vadd (f_xf c) (left_of (f_front c))) (i_delta i) _ (i_yaw i) (tyre_load sp (f_chassis c) (force_z g0 c (i_zfl i))) (i_fl i) HU) as A1.
  pose proof (tyre_power (f_fr c) (vadd (f_xf c) (right_of (f_front c))) (i_delta i) _ (i_yaw i) (tyre_load sp (f_chassis c) (force_z g0 c (i_zfr i))) (i_fr i) HU) as A2.
  pose proof (tyre_power (f_rl c) (vadd (f_xr c) (left_of (f_rear c))) 0 _ (i_yaw i) (tyre_load sp (f_chassis c) (force_z g0 c (i_zrl i))) (i_rl i) HU) as A3.
  pose proof (tyre_power (f_rr c) (vadd (f_xr c) (right_of (f_rear c))) 0 _ (i_yaw i) (tyre_load sp (f_chassis c) (force_z g0 c (i_zrr i))) (i_rr i) HU) as A4.
  cbv zeta in A1, A2, A3, A4.
  unfold v, power_of_wheels, power_of_slip, power_of_air, plane_eval, f1_update. rewrite plane_omega.
  destruct (plane_gravity psi (c_mass (f_chassis c)) g0) as [G1 G2].
  cbn [v_fl v_fr v_rl v_rr v_torque_f v_torque_r v_motion v_Fa mo_a mo_yaw_acceleration vx vy vz equations3].
  set (Fa := vadd (lift_force _ _ _) (drag_force _ _ _)).
  set (tfl := tyre_at sp (f_fl c) _ _ _ _ _ _) in *. set (tfr := tyre_at sp (f_fr c) _ _ _ _ _ _) in *.
  set (trl := tyre_at sp (f_rl c) _ _ _ _ _ _) in *. set (trr := tyre_at sp (f_rr c) _ _ _ _ _ _) in *.
  set (qf := axle_torques sp ss STEERING _ _ _ _ _ _). set (qr := axle_torques sp ss POWERED _ _ _ _ _ _).
  clearbody tfl tfr trl trr qf qr Fa.
  destruct A1 as (P1 & T1 & D1), A2 as (P2 & T2 & D2), A3 as (P3 & T3 & D3), A4 as (P4 & T4 & D4).
  assert (D1' : t_w tfl = 0) by (rewrite D1; cbn; lra). assert (D2' : t_w tfr = 0) by (rewrite D2; cbn; lra).
  assert (D3' : t_w trl = 0) by (rewrite D3; cbn; lra). assert (D4' : t_w trr = 0) by (rewrite D4; cbn; lra).
  clear D1 D2 D3 D4.
  unfold wheel_momentum_rate, wheel_torque, dissipation. rewrite D1', D2', D3', D4'.
  unfold total_force3, contact_force, total_torque3, axle_force, axle_torque, planar in *.
  set (Fl := mapply (rot_z (i_delta i)) (t_F tfl)) in *. set (Fr := mapply (rot_z (i_delta i)) (t_F tfr)) in *.
  set (Bl := mapply (rot_z 0) (t_F trl)) in *. set (Br := mapply (rot_z 0) (t_F trr)) in *.
  set (Ul := mapply (rot_z (i_delta i)) (t_T tfl)) in *. set (Ur := mapply (rot_z (i_delta i)) (t_T tfr)) in *.
  set (Vl := mapply (rot_z 0) (t_T trl)) in *. set (Vr := mapply (rot_z 0) (t_T trr)) in *.
  clearbody Fl Fr Bl Br Ul Ur Vl Vr. set (G := gravity_force _ _ _ _) in *. clearbody G.
  unfold point_velocity, left_of, right_of, vsub, vopp, vadd, cross, dot in *. cbn [vx vy vz] in *.
  rewrite G1, G2, C1, C2, T1, T2, T3, T4.
  transitivity ((vx Fl * vx (t_v tfl)) * 0 + (
    (vx Fl * (i_u i + (0 * (vz (f_xf c) + 0) - i_yaw i * (vy (f_xf c) + - (1 / 2) * a_track (f_front c)))) +
     vy Fl * (i_v i + (i_yaw i * (vx (f_xf c) + 0) - 0 * (vz (f_xf c) + 0)))) +
    (vx Fr * (i_u i + (0 * (vz (f_xf c) + 0) - i_yaw i * (vy (f_xf c) + 1 / 2 * a_track (f_front c)))) +
     vy Fr * (i_v i + (i_yaw i * (vx (f_xf c) + 0) - 0 * (vz (f_xf c) + 0)))) +
    (vx Bl * (i_u i + (0 * (vz (f_xr c) + 0) - i_yaw i * (vy (f_xr c) + - (1 / 2) * a_track (f_rear c)))) +
     vy Bl * (i_v i + (i_yaw i * (vx (f_xr c) + 0) - 0 * (vz (f_xr c) + 0)))) +
    (vx Br * (i_u i + (0 * (vz (f_xr c) + 0) - i_yaw i * (vy (f_xr c) + 1 / 2 * a_track (f_rear c)))) +
     vy Br * (i_v i + (i_yaw i * (vx (f_xr c) + 0) - 0 * (vz (f_xr c) + 0))))) +
    (t_omega tfl * (fst qf + - vx (t_F tfl) * (w_R0 (f_fl c) - 0)) + t_omega tfr * (snd qf + - vx (t_F tfr) * (w_R0 (f_fr c) - 0)) +
     t_omega trl * (fst qr + - vx (t_F trl) * (w_R0 (f_rl c) - 0)) + t_omega trr * (snd qr + - vx (t_F trr) * (w_R0 (f_rr c) - 0))) +
    (vx Fa * (i_u i - i_yaw i * vy (c_aero_x (f_chassis c))) + vy Fa * (i_v i + i_yaw i * vx (c_aero_x (f_chassis c))))).
  - field. split; assumption.
  - rewrite P1, P2, P3, P4. ring.
Qed.

Lemma scaling_nonzero a m : m <> 0 -> wheel_scaling a m <> 0.
Proof. intros H. unfold wheel_scaling. destruct (Rlt_dec _ _); [|lra]. apply Rmult_integral_contrapositive_currified; [lra | apply Rinv_neq_0_compat, H]. Qed.
Lemma wheel_energy_derive (om : R -> R) I k t rate : k <> 0 -> is_derive (fun s => om s * I * k) t (rate * k) ->
  is_derive (fun s => wheel_energy I (om s)) t (om t * rate).
Proof.
  intros Hk D. destruct (Req_dec I 0) as [->|HI].
  - assert (Z : rate * k = 0).
    { apply (is_derive_unique _ t) in D as <-. rewrite (Derive_ext _ (fun _ => 0)) by (intros; ring). apply Derive_const. }
    apply Rmult_integral in Z as [->|Z]; [|contradiction]. rewrite Rmult_0_r.
    eapply is_derive_ext; [|apply (is_derive_const 0)]. intros s. unfold wheel_energy; cbn. ring.
  - assert (D' : is_derive om t (rate / I)).
    { eapply is_derive_ext; [|replace (rate / I) with (/ (I * k) * (rate * k)) by (field; auto); apply (is_derive_scal _ t (/ (I * k)) _ D)].
      intros s; cbn. field. auto. }
    eapply is_derive_ext; [|replace (om t * rate) with (1 / 2 * I * (rate / I * om t + om t * (rate / I))) by (field; auto);
      apply (is_derive_scal (fun s => om s * om s) t (1 / 2 * I)); apply (is_derive_mult om om t); [exact D' | exact D' | intros; apply Rmult_comm]].
    reflexivity.
Qed.
Lemma square_derive (f : R -> R) k t d : is_derive f t d -> is_derive (fun s => k * (f s * f s)) t (2 * k * (f t * d)).
Proof.
  intros D. replace (2 * k * (f t * d)) with (k * (d * f t + f t * d)) by ring.
  apply (is_derive_scal (fun s => f s * f s)). apply (is_derive_mult f f t); [exact D | exact D | intros; apply Rmult_comm].
Qed.

(** Along any motion on the plane the energy of the car grows at the power given to it. *)
Theorem C138_energy c m t : on_its_wheels c -> c_mass (f_chassis c) <> 0 -> c_Izz (f_chassis c) <> 0 ->
  plane_motion (f1_on_plane sp ss g0) c m t ->
  let v := plane_eval sp ss g0 c (m_input m t) (m_psi m t) in
  is_derive (energy_in (plane_eval sp ss g0) c m) t (power_of_wheels v + power_of_slip c v + power_of_air c (m_input m t) v).
Proof.
  intros W Hm HI (D1 & D2 & D3 & D4 & D5 & D6 & D7 & _) v.
  pose proof (C138_power c (m_input m t) (m_x m t) (m_y m t) (m_psi m t) W Hm HI) as P. cbv zeta in P. fold v in P. rewrite <- P. clear P.
  unfold f1_on_plane, cartesian_update in *.
  cbn [snd fst scaled y_fl y_fr y_rl y_rr y_u y_v y_yaw f1_rates f1_states] in *. rewrite !Rmult_1_r in *. fold v in D1, D2, D3, D4, D5, D6, D7.
  assert (Ou : forall s, vx (mo_v (v_motion (plane_eval sp ss g0 c (m_input m s) (m_psi m s)))) = i_u (m_input m s) /\
                         vy (mo_v (v_motion (plane_eval sp ss g0 c (m_input m s) (m_psi m s)))) = i_v (m_input m s)).
  { intros s. unfold plane_eval, f1_update. rewrite plane_omega. cbn. split; ring. }
  apply (is_derive_ext _ (fun s => i_u (m_input m s)) t _ (fun s => proj1 (Ou s))) in D5.
  apply (is_derive_ext _ (fun s => i_v (m_input m s)) t _ (fun s => proj2 (Ou s))) in D6.
  pose proof (scaling_nonzero (f_front c) _ Hm) as Kf. pose proof (scaling_nonzero (f_rear c) _ Hm) as Kr.
  apply (wheel_energy_derive (fun s => t_omega (v_fl (plane_eval sp ss g0 c (m_input m s) (m_psi m s)))) _ _ _ _ Kf) in D1.
  apply (wheel_energy_derive (fun s => t_omega (v_fr (plane_eval sp ss g0 c (m_input m s) (m_psi m s)))) _ _ _ _ Kf) in D2.
  apply (wheel_energy_derive (fun s => t_omega (v_rl (plane_eval sp ss g0 c (m_input m s) (m_psi m s)))) _ _ _ _ Kr) in D3.
  apply (wheel_energy_derive (fun s => t_omega (v_rr (plane_eval sp ss g0 c (m_input m s) (m_psi m s)))) _ _ _ _ Kr) in D4.
  apply (square_derive _ (1 / 2 * c_mass (f_chassis c))) in D5. apply (square_derive _ (1 / 2 * c_mass (f_chassis c))) in D6.
  apply (square_derive _ (1 / 2 * c_Izz (f_chassis c))) in D7.
  pose proof (is_derive_plus _ _ _ _ _ (is_derive_plus _ _ _ _ _ (is_derive_plus _ _ _ _ _ D5 D6) D7)
    (is_derive_plus _ _ _ _ _ (is_derive_plus _ _ _ _ _ D1 D2) (is_derive_plus _ _ _ _ _ D3 D4))) as D. clear D1 D2 D3 D4 D5 D6 D7.
  cbv beta in D. fold v in D. eapply is_derive_ext; [|match type of D with is_derive _ _ ?l => match goal with |- is_derive _ _ ?r => replace r with l; [exact D|] end end].
  - intros s. unfold energy_in, energy, plus; cbn. ring.
  - repeat match goal with |- context [@plus ?G ?a ?b] => change (@plus G a b) with (a + b)%R end. match goal with |- @eq _ ?a ?b => change (@eq R a b) end. fold v. clearbody v. field.
Qed.

Lemma in_range_slip t o delta U Om F kn : smooth_positive_part sp -> let s := tyre_at sp t o delta U Om F kn in 0 <= F ->
  tyre_in_range t s -> dissipation (w_R0 t) s <= 0.
Proof.
  intros Hs s HF (H1 & H2 & H3 & H4 & H5 & H6). unfold s, tyre_at in *.
  assert (E : - vz (t_F (tire_update_from_kappa (maximum_kappa (w_model t)) (simple_force_x sp (w_model t)) (simple_force_y sp (w_model t))
     (w_R0 t) (tyre_w (w_R0 t) o) (tyre_velocity (w_R0 t) o delta U Om) F kn)) = F) by (cbn; ring).
  rewrite E in *.
  exact (proj1 (C48_simple_partial sp (w_model t) (w_R0 t) (tyre_w (w_R0 t) o) (tyre_velocity (w_R0 t) o delta U Om) F kn Hs H2 HF H1 H3 H4 H5 H6)).
Qed.

(** No energy from nothing: at every instant the energy grows no faster than the power of the engines. *)
Theorem C138_bound c i psi P Pb : smooth_positive_part sp -> smooth_sign_function ss -> sound_drivetrain c P Pb -> 0 <= i_bias i <= 1 ->
  let v := plane_eval sp ss g0 c i psi in
  tyres_in_range c v -> still_air c i -> t_omega (v_rl v) + t_omega (v_rr v) <> 0 ->
  power_of_wheels v + power_of_slip c v + power_of_air c i v <= sp (i_throttle i) (a_smooth (f_rear c)) * (1000 * P + i_boost i * (1000 * Pb)).
Proof.
  intros Hs Hg (E1 & E2 & S1 & S2 & T1 & T2 & Hd & Hr) Hb v (R1 & R2 & R3 & R4) (N & E & K & Q) Ho.
  assert (HL : forall x, 0 <= tyre_load sp (f_chassis c) (force_z g0 c x)).
  { intros x. unfold tyre_load, neg_force. rewrite Ropp_involutive. apply (Hs _ _ Hr). }
  assert (Wf : fst (v_torque_f v) * t_omega (v_fl v) <= 0 /\ snd (v_torque_f v) * t_omega (v_fr v) <= 0)
    by (apply (C50_brakes sp ss (f_front c) _ _ (i_throttle i) 0 (i_bias i) Hs Hg S1 T1); lra).
  assert (Wr : fst (v_torque_r v) * t_omega (v_rl v) + snd (v_torque_r v) * t_omega (v_rr v) <=
    sp (i_throttle i) (a_smooth (f_rear c)) * (1000 * P + i_boost i * (1000 * Pb)))
    by (apply (C50_bound sp ss (f_rear c) P Pb _ _ (i_throttle i) (i_boost i) (1 - i_bias i) Hs Hg E1 E2 S2 T2 Hd); [lra | exact Ho]).
  pose proof (in_range_slip _ _ _ _ _ _ _ Hs (HL (i_zfl i)) R1) as G1. pose proof (in_range_slip _ _ _ _ _ _ _ Hs (HL (i_zfr i)) R2) as G2.
  pose proof (in_range_slip _ _ _ _ _ _ _ Hs (HL (i_zrl i)) R3) as G3. pose proof (in_range_slip _ _ _ _ _ _ _ Hs (HL (i_zrr i)) R4) as G4.
  assert (A : power_of_air c i v <= 0).
  { unfold power_of_air, v, plane_eval, f1_update; cbn [v_Fa]. unfold lift_force, drag_force, aerodynamic_velocity, wind_velocity. rewrite N, E.
    set (Qm := frame_matrix _ _). replace (mtapply Qm (V 0 (- 0) 0)) with (V 0 0 0) by (unfold mtapply, dot; cbn; f_equal; ring).
    set (pv := point_velocity _ _ _ _) in *. assert (Pz : vz pv = 0) by (unfold pv, point_velocity, vadd, cross; cbn; ring).
    set (sq := aero_speed _). assert (Hq : 0 <= sq) by apply sqrt_pos.
    unfold dot, vadd, vscale, vopp in *. cbn [vx vy vz] in *. rewrite Pz in *.
    assert (X : 0 <= (ae_rho (f_aero c) * ae_cd (f_aero c) * ae_A (f_aero c)) * sq * (i_u i * vx pv + i_v i * vy pv + 0 * 0)) by (apply Rmult_le_pos; [apply Rmult_le_pos|]; assumption).
    lra. }
  unfold power_of_wheels, power_of_slip. unfold v in *. unfold plane_eval, f1_update in *. cbn [v_fl v_fr v_rl v_rr v_torque_f v_torque_r v_motion v_Fa] in *. lra.
Qed.

(** Over any stretch of time the car gains no more than the engines can give. *)
Theorem C138_gain c m t0 t1 P Pb Pmax : smooth_positive_part sp -> smooth_sign_function ss -> sound_drivetrain c P Pb ->
  on_its_wheels c -> c_mass (f_chassis c) <> 0 -> c_Izz (f_chassis c) <> 0 -> t0 <= t1 ->
  (forall t, t0 <= t <= t1 -> plane_motion (f1_on_plane sp ss g0) c m t /\ 0 <= i_bias (m_input m t) <= 1 /\
     let v := plane_eval sp ss g0 c (m_input m t) (m_psi m t) in
     tyres_in_range c v /\ still_air c (m_input m t) /\ t_omega (v_rl v) + t_omega (v_rr v) <> 0 /\
     sp (i_throttle (m_input m t)) (a_smooth (f_rear c)) * (1000 * P + i_boost (m_input m t) * (1000 * Pb)) <= Pmax) ->
  energy_in (plane_eval sp ss g0) c m t1 - energy_in (plane_eval sp ss g0) c m t0 <= Pmax * (t1 - t0).
Proof.
  intros Hs Hg HD W Hm HI Ht H.
  set (df := fun t => let v := plane_eval sp ss g0 c (m_input m t) (m_psi m t) in power_of_wheels v + power_of_slip c v + power_of_air c (m_input m t) v).
  assert (D : forall t, t0 <= t <= t1 -> is_derive (energy_in (plane_eval sp ss g0) c m) t (df t)) by (intros t Hi; apply C138_energy; try assumption; apply (H t Hi)).
  destruct (MVT_gen (energy_in (plane_eval sp ss g0) c m) t0 t1 df) as (t & Hi & E).
  - intros t. rewrite Rmin_left, Rmax_right by exact Ht. intros Hi. apply D. lra.
  - intros t. rewrite Rmin_left, Rmax_right by exact Ht. intros Hi. apply derivable_continuous_pt. exists (df t). apply is_derive_Reals, D, Hi.
  - rewrite Rmin_left, Rmax_right in Hi by exact Ht. rewrite E. apply Rmult_le_compat_r; [lra|].
    destruct (H t Hi) as (_ & Hb & Hr & Ha & Ho & Hp). eapply Rle_trans; [|exact Hp]. apply (C138_bound c (m_input m t) (m_psi m t) P Pb); assumption.
Qed.

(** ** C139: place and representation *)
(** The car does not know where it is nor where it heads: moved anywhere and turned by any angle, with the wind, it does the same. *)
Theorem C139_anywhere c i x y x' y' psi theta :
  let '(q, d) := f1_on_plane sp ss g0 c i x y psi in
  let '(q', d') := f1_on_plane sp ss g0 (in_turned_wind theta c) i x' y' (psi + theta) in
  without_road q' = without_road q /\ without_road d' = without_road d /\ y_road d' = mapply (rot_z theta) (y_road d).
Proof.
  unfold f1_on_plane, cartesian_update.
  assert (Wv : mtapply (frame_matrix (Euler 0 0 0) (psi + theta)) (V (ae_east (turn_wind theta (f_aero c))) (- ae_north (turn_wind theta (f_aero c))) 0) =
               mtapply (frame_matrix (Euler 0 0 0) psi) (V (ae_east (f_aero c)) (- ae_north (f_aero c)) 0)).
  { unfold frame_matrix. rewrite !mtapply_mul. cbn [yaw pitch roll turn_wind ae_east ae_north]. unfold rot_z, rot_y, rot_x.
    rewrite cos_plus, sin_plus, sin_0, cos_0. pose proof (sin2_cos2 theta) as T. unfold Rsqr in T.
    set (st := sin theta) in *. set (ct := cos theta) in *. set (E := ae_east (f_aero c)). set (N := ae_north (f_aero c)).
    apply vec_eq; cbv [vx vy vz mtapply dot col1 col2 col3].
    - transitivity ((st * st + ct * ct) * (cos psi * E - sin psi * N)); [ring | rewrite T; ring].
    - transitivity ((st * st + ct * ct) * (- sin psi * E - cos psi * N)); [ring | rewrite T; ring].
    - ring. }
  assert (P : plane_eval sp ss g0 (in_turned_wind theta c) i (psi + theta) = plane_eval sp ss g0 c i psi).
  { unfold plane_eval, f1_update. cbn [in_turned_wind f_chassis f_aero f_xf f_xr f_front f_rear f_fl f_fr f_rl f_rr].
    unfold lift_force, drag_force, aerodynamic_velocity, wind_velocity. rewrite Wv, !plane_omega.
    cbn [turn_wind ae_rho ae_cd ae_cl ae_A].
    assert (G : forall a, gravity_force (Euler 0 0 0) a (c_mass (f_chassis c)) g0 = V 0 0 (c_mass (f_chassis c) * g0)).
    { intros a. unfold gravity_force; cbn [pitch roll]. rewrite sin_0, cos_0. f_equal; ring. }
    rewrite !G. reflexivity. }
  rewrite P. split; [reflexivity|]. split; [reflexivity|].
  cbn [scaled y_road f1_rates]. rewrite cos_plus, sin_plus. unfold rot_z. vring.
Qed.

(** In still air the rates do not depend on the heading. *)
Corollary C139_still_air c i x y x' y' psi psi' : ae_north (f_aero c) = 0 -> ae_east (f_aero c) = 0 ->
  without_road (snd (f1_on_plane sp ss g0 c i x' y' psi')) = without_road (snd (f1_on_plane sp ss g0 c i x y psi)).
Proof.
  intros N E. pose proof (C139_anywhere c i x y x' y' psi (psi' - psi)) as A.
  assert (Ec : in_turned_wind (psi' - psi) c = c).
  { destruct c as [ch [rho cd cl Ar no ea] xf xr f r fl fr rl rr]. cbn in N, E. subst. unfold in_turned_wind, turn_wind; cbn. do 2 f_equal; ring. }
  rewrite Ec in A. replace (psi + (psi' - psi)) with psi' in A by ring.
  destruct (f1_on_plane sp ss g0 c i x y psi) as [q d], (f1_on_plane sp ss g0 c i x' y' psi') as [q' d']. apply (proj1 (proj2 A)).
Qed.

(** On a flat track the car does what it does on the plane, and the same equations are integrated along the track instead of
    in time: [dt] is the time per unit of length. *)
Theorem C139_flat_track c i r th dth time n alpha x y :
  1 - n * dth <> 0 -> i_u i * cos alpha - i_v i * sin alpha <> 0 ->
  let '(q, d) := f1_on_track sp ss g0 c i (flat_point r th dth) time n alpha in
  let '(Q, D) := f1_on_plane sp ss g0 c i x y (th + alpha) in
  let dt := vx (y_road d) in
  dt = (1 - n * dth) / (i_u i * cos alpha - i_v i * sin alpha) /\
  without_road q = without_road Q /\ without_road d = per_length dt D /\
  (* the heading of the car, and its position at a distance n of the centreline *)
  dth + vz (y_road d) = dt * vz (y_road D) /\
  cos th - (vy (y_road d) * sin th + n * (cos th * dth)) = dt * vx (y_road D) /\
  sin th + (vy (y_road d) * cos th - n * (sin th * dth)) = dt * vy (y_road D).
Proof.
  intros Hn Hu. unfold f1_on_track, track_eval, f1_on_plane, cartesian_update, flat_point; cbn [fr_r fr_e fr_de].
  set (o := road_update r (Euler th 0 0) (Euler dth 0 0) n alpha (i_u i) (i_v i) (i_yaw i)).
  assert (K : curvature (Euler th 0 0) (Euler dth 0 0) = V 0 0 dth) by (unfold curvature; cbn; rewrite sin_0, cos_0; f_equal; ring).
  assert (Dt : ro_dtime_ds o = (1 - n * dth) / (i_u i * cos alpha - i_v i * sin alpha)) by (unfold o, road_update; rewrite K; reflexivity).
  assert (Nd : ro_n_dot o = i_u i * sin alpha + i_v i * cos alpha) by reflexivity.
  assert (Ad : ro_alpha_dot o = i_yaw i - dth / ro_dtime_ds o) by (rewrite Dt; unfold o, road_update; rewrite K; reflexivity).
  assert (Wo : ro_w o = 0) by (unfold o, road_update; rewrite K; cbn; unfold Rdiv; ring).
  assert (Nz : ro_dtime_ds o <> 0) by (rewrite Dt; apply Rmult_integral_contrapositive_currified; [exact Hn | apply Rinv_neq_0_compat, Hu]).
  clearbody o.
  assert (U : f1_update sp ss g0 c i (Euler th 0 0) (euler_dot (Euler dth 0 0) (ro_dtime_ds o)) alpha (ro_alpha_dot o) (ro_w o) = plane_eval sp ss g0 c i (th + alpha)).
  { rewrite Wo. unfold plane_eval, f1_update, euler_dot; cbn [yaw pitch roll].
    assert (Om : frame_omega (Euler th 0 0) (Euler (dth / ro_dtime_ds o) (0 / ro_dtime_ds o) (0 / ro_dtime_ds o)) alpha (ro_alpha_dot o) = V 0 0 (i_yaw i)).
    { unfold frame_omega, curvature; cbn [yaw pitch roll]. rewrite Ad, sin_0, cos_0. unfold Rdiv. rewrite Rmult_0_l. vring. }
    assert (Fm : frame_matrix (Euler th 0 0) alpha = frame_matrix (Euler 0 0 0) (th + alpha)).
    { unfold frame_matrix; cbn [yaw pitch roll]. unfold rot_z, rot_y, rot_x. rewrite sin_plus, cos_plus, sin_0, cos_0.
      unfold mmul, mapply; cbn [col1 col2 col3]. f_equal; vring. }
    assert (G : gravity_force (Euler th 0 0) alpha (c_mass (f_chassis c)) g0 = gravity_force (Euler 0 0 0) (th + alpha) (c_mass (f_chassis c)) g0).
    { unfold gravity_force; cbn [pitch roll]. rewrite sin_0, cos_0. f_equal; ring. }
    rewrite Om, Fm, G, plane_omega. reflexivity. }
  rewrite U. set (v := plane_eval sp ss g0 c i (th + alpha)). clearbody v.
  cbn [scaled y_road f1_rates f1_states]. cbn [vscale vx vy vz].
  split; [rewrite <- Dt; ring|]. split; [reflexivity|].
  split. { unfold without_road, per_length, scaled, f1_rates; cbn. f_equal; ring. }
  rewrite Ad, Nd. split; [field; exact Nz|].
  assert (E1 : 1 - n * dth = ro_dtime_ds o * (i_u i * cos alpha - i_v i * sin alpha)) by (rewrite Dt; field; exact Hu).
  rewrite cos_plus, sin_plus. split.
  - transitivity ((1 - n * dth) * cos th - ro_dtime_ds o * (i_u i * sin alpha + i_v i * cos alpha) * sin th); [ring | rewrite E1; ring].
  - transitivity ((1 - n * dth) * sin th + ro_dtime_ds o * (i_u i * sin alpha + i_v i * cos alpha) * cos th); [ring | rewrite E1; ring].
Qed.

(** On any track, the car turns about its vertical at its yaw rate. *)
Theorem C139_yaw_rate i p n alpha :
  let r := road_update (fr_r p) (fr_e p) (fr_de p) n alpha (i_u i) (i_v i) (i_yaw i) in
  ro_dtime_ds r <> 0 ->
  vz (frame_omega (fr_e p) (euler_dot (fr_de p) (ro_dtime_ds r)) alpha (ro_alpha_dot r)) = i_yaw i.
Proof.
  intros r H. assert (A : ro_alpha_dot r = i_yaw i - vz (curvature (fr_e p) (fr_de p)) / ro_dtime_ds r) by reflexivity.
  rewrite A. clearbody r. unfold frame_omega, euler_dot, curvature, rot_z.
  cbv [vadd mtapply dot vx vy vz col1 col2 col3 yaw pitch roll]. field. exact H.
Qed.
End Functions.

(** ** Cases *)
Definition positive_part (x e : R) : R := Rmax 0 x.
Definition same_sign (x e : R) : R := x.
Lemma positive_part_ok : smooth_positive_part positive_part.
Proof. intros x e _. unfold positive_part. split; [apply Rmax_l | apply Rmax_r]. Qed.
Lemma same_sign_ok : smooth_sign_function same_sign.
Proof. intros x e. unfold same_sign. pose proof (Rle_0_sqr x). exact H. Qed.

(** *** A car in a steady left or right turn: two wheels at the front, two at the rear, the track of the axles is zero *)
Definition even_tyre (mu : R) : simple_model := MkSimple 2000 6000 mu mu mu mu (1 / 10) (1 / 10) 9 9 (19 / 10) (19 / 10).
Definition even_axle (I : R) : axle3 := MkAxle3 0 I (1047 / 100) (1 / 100000) 5000 (max_power (735499 / 1000)) (max_power 120).
Definition turning_car : f1 :=
  F1 (MkChassis3 660 100 400 450 (V 0 0 0) (V 0 0 0) (1 / 2) 0) (MkAero 0 1 3 (3 / 2) 0 0) (V (80 / 19) 0 (- (1 / 3))) (V (- (5 / 2)) 0 (- (1 / 3)))
     (even_axle 0) (even_axle 0) (Wheel (1 / 3) (even_tyre (5 / 4))) (Wheel (1 / 3) (even_tyre (5 / 4))) (Wheel (1 / 3) (even_tyre 1)) (Wheel (1 / 3) (even_tyre 1)).
Definition shape (lambda : R) : R :=
  let rho := combined_slip (even_tyre 1) 0 lambda 0 in
  sin (19 / 10 * atan (q_Sy (even_tyre 1) * rho)) * (lambda / (9 * DEG)) / rho.

Lemma even_force_y mu lambda Fz : 1 <= mu -> simple_force_y positive_part (even_tyre mu) 0 lambda Fz = mu * shape lambda * Fz.
Proof.
  intros Hm. unfold simple_force_y, shape. cbv zeta.
  assert (L : forall F k, maximum_lambda (even_tyre k) F = 9 * DEG) by (intros; unfold maximum_lambda, q_lambda_max1, q_lambda_max2; cbn; field).
  assert (C : combined_slip (even_tyre mu) 0 lambda Fz = combined_slip (even_tyre 1) 0 lambda 0) by (unfold combined_slip; rewrite !L; unfold Rdiv; rewrite !Rmult_0_l; reflexivity).
  assert (M : mu_y_max positive_part (even_tyre mu) Fz = mu).
  { unfold mu_y_max, positive_part, mu_min; cbn. rewrite Rmax_right; [field|].
    replace ((Fz - 2000) * (mu - mu) / (6000 - 2000) + mu - 1) with (mu - 1) by field. lra. }
  rewrite M, C, L. change (q_Sy (even_tyre mu)) with (q_Sy (even_tyre 1)). change (q_Qy (even_tyre mu)) with (19 / 10).
  set (rho := combined_slip _ _ _ _). unfold Rdiv. ring.
Qed.
Lemma even_force_x mu lambda Fz : simple_force_x positive_part (even_tyre mu) 0 lambda Fz = 0.
Proof. unfold simple_force_x; cbv zeta. unfold Rdiv. rewrite Rmult_0_l. ring. Qed.
Lemma shape_pos lambda : 0 < lambda -> 0 < shape lambda.
Proof.
  intros H. unfold shape; cbv zeta. pose proof (rho_pos (even_tyre 1) 0 lambda 0) as Rp. set (rho := combined_slip _ _ _ _) in *.
  pose proof PI_RGT_0. assert (0 < DEG) by (unfold DEG; lra).
  assert (S : 0 < sin (19 / 10 * atan (q_Sy (even_tyre 1) * rho))).
  { apply sin_atan_pos; [lra|]. apply Rmult_lt_0_compat; [apply S_pos; cbn; lra | exact Rp]. }
  apply Rdiv_lt_0_compat; [|exact Rp]. apply Rmult_lt_0_compat; [exact S|]. apply Rdiv_lt_0_compat; lra.
Qed.
Lemma even_at mu o delta U Om Fz : 1 <= mu ->
  let t := tyre_at positive_part (Wheel (1 / 3) (even_tyre mu)) o delta U Om Fz 0 in
  let F := V 0 (mu * shape (slip_lambda (tyre_velocity (1 / 3) o delta U Om)) * Fz) (- Fz) in
  t_F t = F /\ t_T t = cross (V 0 0 (- vz o)) F.
Proof.
  intros Hm t F. unfold t, F, tyre_at, tire_update_from_kappa, tire_forces; cbn [w_R0 w_model t_F t_T].
  rewrite !Rmult_0_l, even_force_x, even_force_y by exact Hm. split; [reflexivity|]. f_equal. unfold contact_point, tyre_w. f_equal. ring.
Qed.

Definition turning_input (speed : R) : f1_input :=
  F1Input 0 0 0 0 speed 0 (speed / 10) (- (19 / 102)) (- (19 / 102)) (- (16 / 51)) (- (16 / 51)) (atan (3 / 4)) 0 0 (1 / 2).
Lemma steering : cos (atan (3 / 4)) = 4 / 5 /\ sin (atan (3 / 4)) = 3 / 5.
Proof.
  rewrite cos_atan, sin_atan. replace (1 + (3 / 4)²) with ((5 / 4)²) by (unfold Rsqr; field). rewrite sqrt_Rsqr by lra. split; field.
Qed.
Definition cornering_force : R := (2 * (5 / 4) * (4 / 5) * (19 / 102) + 2 * (16 / 51)) * (981 / 100) * shape (1 / 4).
Definition turning_speed : R := sqrt (10 * cornering_force).


Definition turning_eval (speed : R) : f1_eval := plane_eval positive_part same_sign (981 / 100) turning_car (turning_input speed) 0.
Definition front_origin : vec := V (80 / 19) 0 (- (1 / 3)).
Definition rear_origin : vec := V (- (5 / 2)) 0 (- (1 / 3)).
Definition front_tyre (s : R) : tire_state :=
  tyre_at positive_part (Wheel (1 / 3) (even_tyre (5 / 4))) front_origin (atan (3 / 4)) (V s 0 0) (V 0 0 (s / 10)) (660 * (981 / 100) * (19 / 102)) 0.
Definition rear_tyre (s : R) : tire_state :=
  tyre_at positive_part (Wheel (1 / 3) (even_tyre 1)) rear_origin 0 (V s 0 0) (V 0 0 (s / 10)) (660 * (981 / 100) * (16 / 51)) 0.
Lemma turning_load x : x <= 0 -> tyre_load positive_part (f_chassis turning_car) (force_z (981 / 100) turning_car x) = 660 * (981 / 100) * - x.
Proof. intros H. unfold tyre_load, neg_force, force_z, positive_part; cbn. rewrite Rmax_right; lra. Qed.
Lemma turning_tyres s : v_fl (turning_eval s) = front_tyre s /\ v_fr (turning_eval s) = front_tyre s /\
  v_rl (turning_eval s) = rear_tyre s /\ v_rr (turning_eval s) = rear_tyre s.
Proof.
  unfold turning_eval, plane_eval, f1_update. rewrite plane_omega. cbv zeta. cbn [v_fl v_fr v_rl v_rr]. cbn [turning_input i_zfl i_zfr i_zrl i_zrr].
  rewrite !turning_load, !Ropp_involutive by lra. unfold front_tyre, rear_tyre, front_origin, rear_origin.
  refine (conj _ (conj _ (conj _ _))).
  all: match goal with |- tyre_at _ _ ?o _ _ _ _ _ = tyre_at _ _ ?o' _ _ _ _ _ => replace o with o' by (unfold turning_car; cbn [f_xf f_xr f_front f_rear]; vring) end; reflexivity.
Qed.
Lemma turning_forces s : 0 < s -> t_F (front_tyre s) = V 0 (5 / 4 * shape (1 / 4) * (660 * (981 / 100) * (19 / 102))) (- (660 * (981 / 100) * (19 / 102))) /\
  t_T (front_tyre s) = cross (V 0 0 (1 / 3)) (t_F (front_tyre s)) /\
  t_F (rear_tyre s) = V 0 (1 * shape (1 / 4) * (660 * (981 / 100) * (16 / 51))) (- (660 * (981 / 100) * (16 / 51))) /\
  t_T (rear_tyre s) = cross (V 0 0 (1 / 3)) (t_F (rear_tyre s)).
Proof.
  intros Hs. destruct steering as [Co Si].
  assert (S1 : slip_lambda (tyre_velocity (1 / 3) front_origin (atan (3 / 4)) (V s 0 0) (V 0 0 (s / 10))) = 1 / 4).
  { unfold slip_lambda, tyre_velocity, rot_z. rewrite Co, Si. cbv [front_origin vx vy vz vadd mtapply cross dot col1 col2 col3 contact_point tyre_w]. field; try lra. }
  assert (S2 : slip_lambda (tyre_velocity (1 / 3) rear_origin 0 (V s 0 0) (V 0 0 (s / 10))) = 1 / 4).
  { unfold slip_lambda, tyre_velocity, rot_z. rewrite cos_0, sin_0. cbv [rear_origin vx vy vz vadd mtapply cross dot col1 col2 col3 contact_point tyre_w]. field; try lra. }
  destruct (even_at (5 / 4) front_origin (atan (3 / 4)) (V s 0 0) (V 0 0 (s / 10)) (660 * (981 / 100) * (19 / 102)) ltac:(lra)) as [F1' T1'].
  destruct (even_at 1 rear_origin 0 (V s 0 0) (V 0 0 (s / 10)) (660 * (981 / 100) * (16 / 51)) ltac:(lra)) as [F2' T2'].
  rewrite S1 in F1', T1'. rewrite S2 in F2', T2'.
  assert (Z : - vz front_origin = 1 / 3 /\ - vz rear_origin = 1 / 3) by (cbn; lra). destruct Z as [Z1 Z2]. rewrite Z1 in T1'. rewrite Z2 in T2'.
  fold (front_tyre s) in F1', T1'. fold (rear_tyre s) in F2', T2'.
  rewrite F1', F2'. refine (conj eq_refl (conj T1' (conj eq_refl T2'))).
Qed.
Lemma turning_air s : v_Fa (turning_eval s) = V 0 0 0.
Proof.
  unfold turning_eval, plane_eval, f1_update. cbv zeta. cbn [v_Fa]. unfold lift_force, drag_force. set (va := aerodynamic_velocity _ _ _).
  clearbody va. unfold turning_car; cbn [f_aero ae_rho ae_cd ae_cl ae_A]. vring.
Qed.
Lemma turning_motion s : 0 < s ->
  v_F (turning_eval s) = V (- (2 * (3 / 5) * (5 / 4) * (19 / 102)) * (660 * (981 / 100)) * shape (1 / 4)) (660 * cornering_force) 0 /\
  v_T (turning_eval s) = V 0 0 0.
Proof.
  intros Hs. destruct (turning_tyres s) as (A1 & A2 & A3 & A4). destruct (turning_forces s Hs) as (F1' & T1' & F2' & T2'). destruct steering as [Co Si].
  pose proof (turning_air s) as Fa0.
  assert (EF : v_F (turning_eval s) = total_force3 (axle_force (rot_z (atan (3 / 4))) (rot_z (atan (3 / 4))) (v_fl (turning_eval s)) (v_fr (turning_eval s)))
     (axle_force (rot_z 0) (rot_z 0) (v_rl (turning_eval s)) (v_rr (turning_eval s))) (v_Fa (turning_eval s)) (gravity_force (Euler 0 0 0) 0 660 (981 / 100))) by reflexivity.
  assert (ET : v_T (turning_eval s) = total_torque3 (f_chassis turning_car)
     (V (80 / 19) 0 (- (1 / 3))) (axle_force (rot_z (atan (3 / 4))) (rot_z (atan (3 / 4))) (v_fl (turning_eval s)) (v_fr (turning_eval s)))
     (axle_torque (rot_z (atan (3 / 4))) (rot_z (atan (3 / 4))) (V 0 (- (1 / 2) * 0) 0) (V 0 (1 / 2 * 0) 0) (v_fl (turning_eval s)) (v_fr (turning_eval s)))
     (V (- (5 / 2)) 0 (- (1 / 3))) (axle_force (rot_z 0) (rot_z 0) (v_rl (turning_eval s)) (v_rr (turning_eval s)))
     (axle_torque (rot_z 0) (rot_z 0) (V 0 (- (1 / 2) * 0) 0) (V 0 (1 / 2 * 0) 0) (v_rl (turning_eval s)) (v_rr (turning_eval s)))
     (v_Fa (turning_eval s))) by reflexivity.
  rewrite EF, ET, A1, A2, A3, A4, Fa0. clear EF ET A1 A2 A3 A4 Fa0.
  unfold axle_force, axle_torque, rot_z. rewrite T1', T2', F1', F2', Co, Si, sin_0, cos_0. clear T1' T2' F1' F2'.
  assert (G : gravity_force (Euler 0 0 0) 0 660 (981 / 100) = V 0 0 (660 * (981 / 100))) by (unfold gravity_force; cbn [pitch roll]; rewrite sin_0, cos_0; f_equal; ring).
  rewrite G. unfold cornering_force. set (sh := shape (1 / 4)). clearbody sh.
  unfold total_force3, total_torque3, contact_force, turning_car. cbn [f_chassis c_com c_aero_x].
  split; apply vec_eq; cbv [vx vy vz vadd vsub vopp vscale cross mapply col1 col2 col3]; field.
Qed.
Lemma turning_torques s : v_torque_f (turning_eval s) = (0, 0) /\ v_torque_r (turning_eval s) = (0, 0).
Proof.
  destruct (turning_tyres s) as (A1 & A2 & A3 & A4).
  assert (E1 : v_torque_f (turning_eval s) = axle_torques positive_part same_sign STEERING (even_axle 0) (t_omega (v_fl (turning_eval s))) (t_omega (v_fr (turning_eval s))) 0 0 (1 / 2)) by reflexivity.
  assert (E2 : v_torque_r (turning_eval s) = axle_torques positive_part same_sign POWERED (even_axle 0) (t_omega (v_rl (turning_eval s))) (t_omega (v_rr (turning_eval s))) 0 0 (1 - 1 / 2)) by reflexivity.
  rewrite E1, E2, A1, A2, A3, A4. unfold axle_torques, engine, brake, positive_part. cbn [a_smooth a_engine a_boost_engine a_diff a_Tmax even_axle max_power e_direct e_only_max e_max_power_kW].
  rewrite Ropp_0, Rmax_left by lra. unfold Rdiv. split; f_equal; ring.
Qed.

Example C137_case : exists speed ax ay, 0 < speed /\ 0 < ay /\ symmetric turning_car /\
  turn (f1_on_plane positive_part same_sign (981 / 100)) turning_car speed ax ay /\
  turn (f1_on_plane positive_part same_sign (981 / 100)) turning_car speed ax (- ay).
Proof.
  assert (Fp : 0 < cornering_force). { unfold cornering_force. pose proof (shape_pos (1 / 4) ltac:(lra)). lra. }
  assert (Sp : 0 < turning_speed) by (apply sqrt_lt_R0; lra).
  assert (Sq : turning_speed * turning_speed = 10 * cornering_force) by (apply sqrt_sqrt; lra).
  set (E := f1_on_plane positive_part same_sign (981 / 100)).
  assert (Sy : symmetric turning_car) by (unfold symmetric; cbn; repeat split; reflexivity).
  set (s := turning_speed) in *. clearbody s.
  exists s, (y_u (snd (E turning_car (turning_input s) 0 0 0))), (s / 10 * s).
  split; [exact Sp|]. split; [apply Rmult_lt_0_compat; lra|]. split; [exact Sy|].
  assert (T : turn E turning_car s (y_u (snd (E turning_car (turning_input s) 0 0 0))) (s / 10 * s)).
  2: { split; [exact T | apply C137_diagram; [exact Sy | exact T]]. }
  exists (turning_input s), 0. unfold E, f1_on_plane, cartesian_update. fold (turning_eval s). cbv zeta. rewrite sin_0, cos_0.
  destruct (turning_tyres s) as (A1 & A2 & A3 & A4). destruct (turning_forces s Sp) as (F1' & _ & F2' & _). destruct (turning_torques s) as [Q1 Q2].
  destruct (turning_motion s Sp) as [MF MT].
  assert (EM : v_motion (turning_eval s) = equations3 (f_chassis turning_car) (v_F (turning_eval s)) (v_T (turning_eval s)) s 0 0 (V 0 0 (s / 10))).
  { unfold turning_eval, plane_eval, f1_update. rewrite plane_omega. reflexivity. }
  assert (EB : v_balance (turning_eval s) = 0) by (unfold turning_eval, plane_eval, f1_update, roll_balance; cbn; ring).
  rewrite MF, MT in EM.
  cbn [snd scaled f1_rates y_fl y_fr y_rl y_rr y_u y_v y_yaw y_w y_roll y_pitch y_balance turning_input i_u i_v i_yaw].
  rewrite EM, EB, A1, A2, A3, A4, Q1, Q2. unfold wheel_momentum_rate, wheel_torque. rewrite F1', F2'. clear EM EB A1 A2 A3 A4 Q1 Q2 F1' F2' MF MT.
  unfold equations3, turning_car; cbn [f_chassis c_mass c_com c_Ixx c_Iyy c_Izz mo_a mo_yaw_acceleration mo_roll_rate mo_pitch_rate vx vy vz fst snd].
  set (cf := cornering_force) in *. clearbody cf. unfold Rdiv.
  refine (conj _ (conj _ (conj _ (conj _ (conj _ (conj _ (conj _ (conj _ (conj _ (conj _ (conj _ (conj _ (conj _ _))))))))))))); try ring; try lra.
Qed.

(** *** A car that coasts in still air: u' = -u^2/1000 *)
Definition coasting_axle : axle3 := MkAxle3 (3 / 2) 0 (1047 / 100) (1 / 100000) 5000 (max_power (735499 / 1000)) (max_power 120).
Definition coasting_car : f1 :=
  F1 (MkChassis3 660 100 400 450 (V 0 0 0) (V 0 0 0) (1 / 2) 0) (MkAero 1 1 0 (132 / 100) 0 0) (V 2 0 (- (1 / 3))) (V (- (2)) 0 (- (1 / 3)))
     coasting_axle coasting_axle (Wheel (1 / 3) (even_tyre 1)) (Wheel (1 / 3) (even_tyre 1)) (Wheel (1 / 3) (even_tyre 1)) (Wheel (1 / 3) (even_tyre 1)).
Definition coasting_input (u : R) : f1_input := F1Input 0 0 0 0 u 0 0 (- (1 / 4)) (- (1 / 4)) (- (1 / 4)) (- (1 / 4)) 0 0 0 (1 / 2).
Definition coasting (t : R) : R := 1000 / (t + 20).
Definition coast : motion := Motion (fun t => coasting_input (coasting t)) (fun t => 1000 * ln (t + 20)) (fun _ => 0) (fun _ => 0).
Definition coasting_eval (u : R) : f1_eval := plane_eval positive_part same_sign (981 / 100) coasting_car (coasting_input u) 0.

Definition free_tyre (u : R) (t : tire_state) : Prop :=
  t_F t = V 0 0 (- (165 * (981 / 100))) /\ t_T t = cross (V 0 0 (1 / 3)) (t_F t) /\ t_v t = V u 0 0 /\ t_omega t = u * 3.
Lemma free_at o u : 0 < u -> vz o = - (1 / 3) ->
  free_tyre u (tyre_at positive_part (Wheel (1 / 3) (even_tyre 1)) o 0 (V u 0 0) (V 0 0 0) (165 * (981 / 100)) 0).
Proof.
  intros Hu Ho. assert (Ev : tyre_velocity (1 / 3) o 0 (V u 0 0) (V 0 0 0) = V u 0 0) by (unfold tyre_velocity, rot_z; rewrite sin_0, cos_0; destruct o; vring).
  destruct (even_at 1 o 0 (V u 0 0) (V 0 0 0) (165 * (981 / 100)) ltac:(lra)) as [F T]. rewrite Ev, Ho, Ropp_involutive in *.
  assert (L : slip_lambda (V u 0 0) = 0) by (unfold slip_lambda; cbn; field; lra). rewrite L in *.
  assert (S0 : shape 0 = 0) by (unfold shape; cbv zeta; unfold Rdiv; ring). rewrite S0 in *.
  assert (F' : V 0 (1 * 0 * (165 * (981 / 100))) (- (165 * (981 / 100))) = V 0 0 (- (165 * (981 / 100)))) by (f_equal; ring). rewrite F' in *.
  unfold free_tyre. rewrite T, F. split; [reflexivity|]. split; [reflexivity|].
  unfold tyre_at, tire_update_from_kappa, tire_forces; cbn [t_v t_omega w_R0 w_model]. rewrite Ev. split; [reflexivity|]. cbn [vx]. field.
Qed.
Lemma coasting_tyres u : 0 < u -> free_tyre u (v_fl (coasting_eval u)) /\ free_tyre u (v_fr (coasting_eval u)) /\
  free_tyre u (v_rl (coasting_eval u)) /\ free_tyre u (v_rr (coasting_eval u)).
Proof.
  intros Hu. assert (L : tyre_load positive_part (f_chassis coasting_car) (force_z (981 / 100) coasting_car (- (1 / 4))) = 165 * (981 / 100)).
  { unfold tyre_load, neg_force, force_z, positive_part; cbn. rewrite Rmax_right; lra. }
  unfold coasting_eval, plane_eval, f1_update. rewrite plane_omega. cbv zeta. cbn [v_fl v_fr v_rl v_rr]. cbn [coasting_input i_zfl i_zfr i_zrl i_zrr].
  rewrite L. split; [|split; [|split]]; apply free_at; try exact Hu; cbn; lra.
Qed.
Lemma coasting_air u : 0 < u -> v_Fa (coasting_eval u) = V (- (66 / 100 * (u * u))) 0 0.
Proof.
  intros Hu. unfold coasting_eval, plane_eval, f1_update. cbv zeta. cbn [v_Fa]. unfold lift_force, drag_force.
  assert (A : aerodynamic_velocity (f_aero coasting_car) (frame_matrix (Euler 0 0 0) 0) (V (i_u (coasting_input u)) (i_v (coasting_input u)) 0) = V (- u) 0 0).
  { unfold aerodynamic_velocity, wind_velocity, coasting_car; cbn [f_aero ae_east ae_north coasting_input i_u i_v]. set (Q := frame_matrix _ _).
    apply vec_eq; cbv [vx vy vz vadd vopp mtapply dot]; ring. }
  rewrite A. unfold aero_speed; cbn [vx vy]. replace (- u * - u + 0 * 0) with (u * u) by ring. rewrite sqrt_square by lra.
  unfold coasting_car; cbn [f_aero ae_rho ae_cd ae_cl ae_A]. apply vec_eq; cbv [vx vy vz vadd vscale]; field.
Qed.
Lemma coasting_motion u : 0 < u -> v_F (coasting_eval u) = V (- (66 / 100 * (u * u))) 0 0 /\ v_T (coasting_eval u) = V 0 0 0.
Proof.
  intros Hu. destruct (coasting_tyres u Hu) as ((F1' & T1' & _) & (F2' & T2' & _) & (F3' & T3' & _) & (F4' & T4' & _)).
  pose proof (coasting_air u Hu) as Fa0.
  assert (EF : v_F (coasting_eval u) = total_force3 (axle_force (rot_z 0) (rot_z 0) (v_fl (coasting_eval u)) (v_fr (coasting_eval u)))
     (axle_force (rot_z 0) (rot_z 0) (v_rl (coasting_eval u)) (v_rr (coasting_eval u))) (v_Fa (coasting_eval u)) (gravity_force (Euler 0 0 0) 0 660 (981 / 100))) by reflexivity.
  assert (ET : v_T (coasting_eval u) = total_torque3 (f_chassis coasting_car)
     (V 2 0 (- (1 / 3))) (axle_force (rot_z 0) (rot_z 0) (v_fl (coasting_eval u)) (v_fr (coasting_eval u)))
     (axle_torque (rot_z 0) (rot_z 0) (V 0 (- (1 / 2) * (3 / 2)) 0) (V 0 (1 / 2 * (3 / 2)) 0) (v_fl (coasting_eval u)) (v_fr (coasting_eval u)))
     (V (- (2)) 0 (- (1 / 3))) (axle_force (rot_z 0) (rot_z 0) (v_rl (coasting_eval u)) (v_rr (coasting_eval u)))
     (axle_torque (rot_z 0) (rot_z 0) (V 0 (- (1 / 2) * (3 / 2)) 0) (V 0 (1 / 2 * (3 / 2)) 0) (v_rl (coasting_eval u)) (v_rr (coasting_eval u)))
     (v_Fa (coasting_eval u))) by reflexivity.
  rewrite EF, ET, Fa0. clear EF ET Fa0. unfold axle_force, axle_torque, rot_z. rewrite T1', T2', T3', T4', F1', F2', F3', F4', sin_0, cos_0.
  assert (G : gravity_force (Euler 0 0 0) 0 660 (981 / 100) = V 0 0 (660 * (981 / 100))) by (unfold gravity_force; cbn [pitch roll]; rewrite sin_0, cos_0; f_equal; ring).
  rewrite G. unfold total_force3, total_torque3, contact_force, coasting_car. cbn [f_chassis c_com c_aero_x].
  split; apply vec_eq; cbv [vx vy vz vadd vsub vopp vscale cross mapply col1 col2 col3]; field.
Qed.
Lemma coasting_torques u : 0 < u -> v_torque_f (coasting_eval u) = (0, 0) /\ v_torque_r (coasting_eval u) = (0, 0).
Proof.
  intros Hu. destruct (coasting_tyres u Hu) as ((_ & _ & _ & O1) & (_ & _ & _ & O2) & (_ & _ & _ & O3) & (_ & _ & _ & O4)).
  assert (E1 : v_torque_f (coasting_eval u) = axle_torques positive_part same_sign STEERING coasting_axle (t_omega (v_fl (coasting_eval u))) (t_omega (v_fr (coasting_eval u))) 0 0 (1 / 2)) by reflexivity.
  assert (E2 : v_torque_r (coasting_eval u) = axle_torques positive_part same_sign POWERED coasting_axle (t_omega (v_rl (coasting_eval u))) (t_omega (v_rr (coasting_eval u))) 0 0 (1 - 1 / 2)) by reflexivity.
  rewrite E1, E2, O1, O2, O3, O4. unfold axle_torques, engine, brake, positive_part. cbn [a_smooth a_engine a_boost_engine a_diff a_Tmax coasting_axle max_power e_direct e_only_max e_max_power_kW].
  rewrite Ropp_0, Rmax_left by lra. unfold Rdiv. split; f_equal; ring.
Qed.
Lemma vector_eq a1 a2 a3 a4 a5 a6 a7 a8 a9 a10 a11 a12 b1 b2 b3 b4 b5 b6 b7 b8 b9 b10 b11 b12 :
  a1 = b1 -> a2 = b2 -> a3 = b3 -> a4 = b4 -> a5 = b5 -> a6 = b6 -> a7 = b7 -> a8 = b8 -> a9 = b9 -> a10 = b10 -> a11 = b11 -> a12 = b12 ->
  F1Vector a1 a2 a3 a4 a5 a6 a7 a8 a9 a10 a11 a12 = F1Vector b1 b2 b3 b4 b5 b6 b7 b8 b9 b10 b11 b12.
Proof. intros; subst; reflexivity. Qed.
Lemma coasting_on_plane u x : 0 < u -> f1_on_plane positive_part same_sign (981 / 100) coasting_car (coasting_input u) x 0 0 =
  (F1Vector 0 0 0 0 u 0 0 0 0 0 0 (V x 0 0), F1Vector 0 0 0 0 (- (u * u / 1000)) 0 0 0 0 0 0 (V u 0 0)).
Proof.
  intros Hu. unfold f1_on_plane, cartesian_update. fold (coasting_eval u). rewrite sin_0, cos_0.
  destruct (coasting_tyres u Hu) as ((F1' & _) & (F2' & _) & (F3' & _) & (F4' & _)). destruct (coasting_torques u Hu) as [Q1 Q2]. destruct (coasting_motion u Hu) as [MF MT].
  assert (EM : v_motion (coasting_eval u) = equations3 (f_chassis coasting_car) (v_F (coasting_eval u)) (v_T (coasting_eval u)) u 0 0 (V 0 0 0)).
  { unfold coasting_eval, plane_eval, f1_update. rewrite plane_omega. reflexivity. }
  assert (EB : v_balance (coasting_eval u) = 0) by (unfold coasting_eval, plane_eval, f1_update, roll_balance; cbn; ring).
  rewrite MF, MT in EM. unfold f1_states, f1_rates, scaled. cbn [y_fl y_fr y_rl y_rr y_u y_v y_yaw y_w y_roll y_pitch y_balance y_road].
  rewrite EM, EB, Q1, Q2. unfold wheel_momentum_rate, wheel_torque. rewrite F1', F2', F3', F4'. clear EM EB Q1 Q2 MF MT.
  unfold equations3, coasting_car. cbn [f_chassis f_front f_rear f_fl f_fr f_rl f_rr w_R0 c_mass c_com c_Ixx c_Iyy c_Izz mo_v mo_a mo_yaw_acceleration mo_roll_rate mo_pitch_rate mo_roll_momentum mo_pitch_momentum
    vx vy vz fst snd coasting_input i_u i_v i_yaw vscale coasting_axle a_I].
  generalize (t_omega (v_fl (coasting_eval u))) (t_omega (v_fr (coasting_eval u))) (t_omega (v_rl (coasting_eval u))) (t_omega (v_rr (coasting_eval u))).
  match goal with |- context [wheel_scaling ?a ?m] => generalize (wheel_scaling a m) end. intros k o1 o2 o3 o4. clear.
  unfold vscale; cbn [vx vy vz]. apply f_equal2; apply vector_eq; try (apply vec_eq; cbn [vx vy vz]; ring); unfold Rdiv; try ring; field.
Qed.
Example C138_case :
  smooth_positive_part positive_part /\ smooth_sign_function same_sign /\ sound_drivetrain coasting_car (735499 / 1000) 120 /\
  on_its_wheels coasting_car /\ c_mass (f_chassis coasting_car) <> 0 /\ c_Izz (f_chassis coasting_car) <> 0 /\
  (forall t, 0 <= t <= 10 -> plane_motion (f1_on_plane positive_part same_sign (981 / 100)) coasting_car coast t /\ 0 <= i_bias (m_input coast t) <= 1 /\
     let v := plane_eval positive_part same_sign (981 / 100) coasting_car (m_input coast t) (m_psi coast t) in
     tyres_in_range coasting_car v /\ still_air coasting_car (m_input coast t) /\ t_omega (v_rl v) + t_omega (v_rr v) <> 0 /\
     positive_part (i_throttle (m_input coast t)) (a_smooth (f_rear coasting_car)) * (1000 * (735499 / 1000) + i_boost (m_input coast t) * (1000 * 120)) <= 0) /\
  energy_in (plane_eval positive_part same_sign (981 / 100)) coasting_car coast 10 <
  energy_in (plane_eval positive_part same_sign (981 / 100)) coasting_car coast 0.
Proof.
  split; [exact positive_part_ok|]. split; [exact same_sign_ok|].
  split; [unfold sound_drivetrain, delivers; cbn; repeat split; lra|]. split; [unfold on_its_wheels; cbn; repeat split; lra|].
  split; [cbn; lra|]. split; [cbn; lra|].
  assert (Pos : forall t, - 20 < t -> 0 < coasting t) by (intros t Ht; apply Rdiv_lt_0_compat; lra).
  split.
  - intros t Ht. pose proof (Pos t ltac:(lra)) as Pt. split; [|split; [cbn; lra|]].
    + unfold plane_motion, coast; cbn [m_input m_x m_y m_psi].
      rewrite coasting_on_plane by exact Pt. cbn [snd].
      assert (Near : forall (f : f1_vector -> R) d, is_derive (fun s => f (F1Vector 0 0 0 0 (coasting s) 0 0 0 0 0 0 (V (1000 * ln (s + 20)) 0 0))) t d ->
        is_derive (fun s => f (fst (f1_on_plane positive_part same_sign (981 / 100) coasting_car (coasting_input (coasting s)) (1000 * ln (s + 20)) 0 0))) t d).
      { intros f d D. eapply is_derive_ext_loc; [|exact D]. exists (mkposreal 1 Rlt_0_1). intros s Hs.
        unfold ball in Hs; cbn in Hs. unfold AbsRing_ball, minus, plus, opp, abs in Hs; cbn in Hs. apply Rabs_def2 in Hs.
        rewrite coasting_on_plane by (apply Pos; lra). reflexivity. }
      assert (Du : is_derive coasting t (- (coasting t * coasting t / 1000))).
      { unfold coasting. auto_derive; [lra|]. field. lra. }
      assert (Dx : is_derive (fun s => 1000 * ln (s + 20)) t (coasting t)).
      { unfold coasting. auto_derive; [lra|]. field. lra. }
      assert (D0 : is_derive (fun _ : R => 0) t 0) by apply (is_derive_const 0).
      unfold vector_derive.
      refine (conj _ (conj _ (conj _ (conj _ (conj _ (conj _ (conj _ (conj _ (conj _ (conj _ (conj _ (conj _ (conj _ _)))))))))))));
        [apply (Near y_fl)|apply (Near y_fr)|apply (Near y_rl)|apply (Near y_rr)|apply (Near y_u)|apply (Near y_v)|apply (Near y_yaw)|apply (Near y_w)|apply (Near y_roll)
        |apply (Near y_pitch)|apply (Near y_balance)|apply (Near (fun y => vx (y_road y)))|apply (Near (fun y => vy (y_road y)))|apply (Near (fun y => vz (y_road y)))];
        cbn; assumption.
    + intros v. change v with (coasting_eval (coasting t)). clear v. destruct (coasting_tyres _ Pt) as (H1 & H2 & H3 & H4).
      assert (Rg : forall s, free_tyre (coasting t) s -> tyre_in_range (Wheel (1 / 3) (even_tyre 1)) s).
      { intros s (F & _ & Vv & _). unfold tyre_in_range. rewrite F, Vv. pose proof PI_RGT_0.
        unfold maximum_kappa, maximum_lambda, q_lambda_max1, q_lambda_max2, DEG; cbn. repeat split; lra. }
      split; [refine (conj (Rg _ H1) (conj (Rg _ H2) (conj (Rg _ H3) (Rg _ H4))))|].
      split. { unfold still_air, point_velocity, dot, vadd, cross; cbn. repeat split; try lra. pose proof (Rle_0_sqr (coasting t)) as Q. unfold Rsqr in Q. lra. }
      split. { destruct H3 as (_ & _ & _ & ->), H4 as (_ & _ & _ & ->). lra. }
      unfold positive_part; cbn. rewrite Rmax_left by lra. lra.
  - assert (W : forall o, wheel_energy 0 o = 0) by (intros; unfold wheel_energy; ring).
    unfold energy_in, energy, coast, coasting_car; cbn [m_input coasting_input i_u i_v i_yaw f_front f_rear a_I coasting_axle f_chassis c_mass c_Izz]. rewrite !W.
    unfold coasting. lra.
Qed.

(** *** A bend of radius 100, 3 to the right of its centreline *)
Example C139_case :
  let i := turning_input 50 in
  1 - 3 * (1 / 100) <> 0 /\ i_u i * cos 0 - i_v i * sin 0 <> 0 /\
  vx (y_road (snd (f1_on_track positive_part same_sign (981 / 100) turning_car i (flat_point (V 0 0 0) 1 (1 / 100)) 0 3 0))) = 97 / 5000.
Proof.
  cbv zeta. cbn [turning_input i_u i_v]. rewrite cos_0, sin_0. split; [lra|]. split; [lra|].
  pose proof (C139_flat_track positive_part same_sign (981 / 100) turning_car (turning_input 50) (V 0 0 0) 1 (1 / 100) 0 3 0 0 0) as H.
  cbn [turning_input i_u i_v] in H. rewrite cos_0, sin_0 in H. specialize (H ltac:(lra) ltac:(lra)).
  change (F1Input 0 0 0 0 50 0 (50 / 10) (- (19 / 102)) (- (19 / 102)) (- (16 / 51)) (- (16 / 51)) (atan (3 / 4)) 0 0 (1 / 2)) with (turning_input 50) in H.
  destruct (f1_on_track _ _ _ _ _ _ _ _ _) as [q d], (f1_on_plane _ _ _ _ _ _ _ _) as [Q D]. destruct H as (H & _). cbn [snd]. rewrite H. field.
Qed.

Print Assumptions C137_track.
Print Assumptions C137_plane.
Print Assumptions C137_symmetric_car.
Print Assumptions C137_laps.
Print Assumptions C137_diagram.
Print Assumptions C138_power.
Print Assumptions C138_energy.
Print Assumptions C138_bound.
Print Assumptions C138_gain.
Print Assumptions C139_anywhere.
Print Assumptions C139_flat_track.
Print Assumptions C139_yaw_rate.
