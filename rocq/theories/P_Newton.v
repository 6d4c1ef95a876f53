(** Property theorems C140: Newton's and Euler's laws for the whole Formula 1 car on any track. *)
From Coq Require Import Reals Lra.
From Coquelicot Require Import Coquelicot.
From Verif Require Import M_Vec M_Tire M_Car M_Road S_Road L_Road M_F1 S_F1 L_F1 S_Newton P_Road P_F1.
Local Open Scope R_scope.

(** The axes of the car turn: along the track, the rate is the angular velocity of the frame per unit of length. *)
Lemma axes_turn (th mu ph alpha : R -> R) s dth dmu dph da (a : R -> vec) ad :
  is_derive th s dth -> is_derive mu s dmu -> is_derive ph s dph -> is_derive alpha s da -> vderive a s ad ->
  let e x := Euler (th x) (mu x) (ph x) in
  let W := frame_omega (e s) (Euler dth dmu dph) (alpha s) da in
  vderive (fun x => mapply (frame_matrix (e x) (alpha x)) (a x)) s (mapply (frame_matrix (e s) (alpha s)) (vadd ad (cross W (a s)))).
Proof.
  intros H1 H2 H3 Ha (A1 & A2 & A3) e W.
  assert (Dc : is_derive (fun x => cos (alpha x)) s (- sin (alpha s) * da)).
  { replace (- sin (alpha s) * da) with (da * - sin (alpha s)) by ring. apply (is_derive_comp cos alpha); [apply is_derive_cos | exact Ha]. }
  assert (Ds : is_derive (fun x => sin (alpha x)) s (cos (alpha s) * da)).
  { replace (cos (alpha s) * da) with (da * cos (alpha s)) by ring. apply (is_derive_comp sin alpha); [apply is_derive_sin | exact Ha]. }
  assert (M : forall (f g : R -> R) df dg, is_derive f s df -> is_derive g s dg -> is_derive (fun x => f x * g x) s (df * g s + f s * dg)).
  { intros f g df dg F G. apply (is_derive_mult f g s df dg F G). intros; apply Rmult_comm. }
  assert (Mi : forall (f g : R -> R) df dg, is_derive f s df -> is_derive g s dg -> is_derive (fun x => f x - g x) s (df - dg)).
  { intros f g df dg F G. apply (is_derive_minus f g s df dg F G). }
  assert (Pl : forall (f g : R -> R) df dg, is_derive f s df -> is_derive g s dg -> is_derive (fun x => f x + g x) s (df + dg)).
  { intros f g df dg F G. apply (is_derive_plus f g s df dg F G). }
  eapply vderive_ext; [intros x; symmetry; apply mapply_frame|].
  eapply vderive_eq.
  { apply vderive_add; [apply vderive_add|].
    - apply (vderive_scale (fun x => vx (a x) * cos (alpha x) - vy (a x) * sin (alpha x)) (fun x => tangent (e x))).
      + apply Mi; apply M; eassumption.
      + exact (d_tangent th mu ph s dth dmu dph H1 H2 H3).
    - apply (vderive_scale (fun x => vx (a x) * sin (alpha x) + vy (a x) * cos (alpha x)) (fun x => normal (e x))).
      + apply Pl; apply M; eassumption.
      + exact (d_normal th mu ph s dth dmu dph H1 H2 H3).
    - apply (vderive_scale (fun x => vz (a x)) (fun x => binormal (e x))); [exact A3|].
      exact (d_binormal th mu ph s dth dmu dph H1 H2 H3). }
  rewrite mapply_frame. unfold W, frame_omega. change (curvature (e s) (Euler dth dmu dph)) with (kap th mu ph s dth dmu dph). change (ang th mu ph s) with (e s).
  generalize (kap th mu ph s dth dmu dph) (tangent (e s)) (normal (e s)) (binormal (e s)) (a s). intros [k1 k2 k3] [t1 t2 t3] [n1 n2 n3] [b1 b2 b3] [a1 a2 a3].
  destruct ad as [d1 d2 d3]. unfold rot_z. pose proof (cs (alpha s)) as C. revert C. generalize (cos (alpha s)) (sin (alpha s)). intros ca sa C.
  unfold vadd, vsub, vscale, cross, mtapply, dot. cbn [vx vy vz col1 col2 col3]. f_equal; ring [C].
Qed.

Lemma euler_eta e : Euler (yaw e) (pitch e) (roll e) = e.
Proof. destruct e; reflexivity. Qed.
Lemma vadd_scale k a b : vadd (vscale k a) (vscale k b) = vscale k (vadd a b). Proof. vring. Qed.
Lemma mapply_scale m k a : mapply m (vscale k a) = vscale k (mapply m a). Proof. vring. Qed.
Lemma mapply_add m a b : mapply m (vadd a b) = vadd (mapply m a) (mapply m b). Proof. vring. Qed.

Section Functions.
Context (sp ss : R -> R -> R) (g0 : R).
Definition eval (c : f1) (i : f1_input) (p : frenet) (n alpha : R) : f1_eval := snd (track_eval sp ss g0 c i p n alpha).

Section Point.
Context (c : f1) (track : R -> frenet) (l : lap) (s0 s1 s dt : R).
Context (T : centreline track s) (A : advances l s dt) (Hs : s0 < s < s1) (M : lap_motion (f1_on_track sp ss g0) c track l s0 s1).

Let p := track s.
Let i := l_input l s.
Let r := road_update (fr_r p) (fr_e p) (fr_de p) (l_n l s) (l_alpha l s) (i_u i) (i_v i) (i_yaw i).
Let Om := frame_omega (fr_e p) (euler_dot (fr_de p) (ro_dtime_ds r)) (l_alpha l s) (ro_alpha_dot r).

Lemma time_rate : dt = ro_dtime_ds r.
Proof.
  destruct A as (_ & D & _). destruct (M s Hs) as (_ & _ & _ & _ & _ & _ & _ & _ & _ & _ & _ & D' & _ & _).
  apply is_derive_unique in D. rewrite <- D. apply is_derive_unique.
  unfold f1_on_track, track_eval in D'. cbn [fst snd scaled f1_states f1_rates y_road vx vy vz vscale] in D'.
  fold i p r in D'. rewrite Rmult_1_r in D'. exact D'.
Qed.
Lemma road_rates : is_derive (l_n l) s (dt * ro_n_dot r) /\ is_derive (l_alpha l) s (dt * ro_alpha_dot r).
Proof.
  rewrite time_rate. destruct (M s Hs) as (_ & _ & _ & _ & _ & _ & _ & _ & _ & _ & _ & _ & Dn & Da).
  unfold f1_on_track, track_eval in Dn, Da. cbn [fst snd scaled f1_states f1_rates y_road vx vy vz vscale] in Dn, Da.
  fold i p r in Dn, Da. split; assumption.
Qed.
Lemma omega_rate : frame_omega (fr_e p) (fr_de p) (l_alpha l s) (dt * ro_alpha_dot r) = vscale dt Om.
Proof.
  unfold Om. rewrite <- time_rate. destruct A as (_ & _ & Nz). clearbody r p. unfold frame_omega, euler_dot, curvature, rot_z.
  apply vec_eq; cbv [vadd vscale mtapply dot vx vy vz col1 col2 col3 yaw pitch roll]; field; exact Nz.
Qed.
Lemma omega_z : vz Om = i_yaw i.
Proof. apply C139_yaw_rate. fold r. rewrite <- time_rate. apply A. Qed.

(** What is fixed to the axes of the car moves with them. *)
Lemma axes_rate (a : R -> vec) ad : vderive a s ad ->
  vderive (fun x => mapply (axes track l x) (a x)) s (mapply (axes track l s) (vadd ad (vscale dt (cross Om (a s))))).
Proof.
  intros Ha. destruct T as (_ & T1 & T2 & T3).
  pose proof (axes_turn _ _ _ _ s _ _ _ _ a ad T1 T2 T3 (proj2 road_rates) Ha) as D. cbv zeta in D. rewrite !euler_eta in D.
  fold p in D. rewrite omega_rate in D.
  eapply vderive_eq; [eapply vderive_ext; [|exact D]|].
  - intros x. cbv beta. rewrite euler_eta. reflexivity.
  - unfold axes. fold p. f_equal. clearbody Om. destruct (a s), Om, ad. vring.
Qed.

Lemma position_rate : mass_above c ->
  vderive (mass_position c track l) s (vscale dt (mass_velocity eval c track l s)).
Proof.
  intros [C1 C2]. destruct T as (Tr & T1 & T2 & T3). destruct road_rates as [Dn _].
  assert (Dcom : vderive (fun _ => c_com (f_chassis c)) s (V 0 0 0)) by (refine (conj _ (conj _ _)); apply @is_derive_const).
  pose proof (d_normal (fun x => yaw (fr_e (track x))) (fun x => pitch (fr_e (track x))) (fun x => roll (fr_e (track x))) s _ _ _ T1 T2 T3) as Dno.
  eapply vderive_eq.
  { apply vderive_add; [apply vderive_add; [exact Tr|]|].
    - apply (vderive_scale (l_n l) (fun x => normal (fr_e (track x)))); [exact Dn|].
      eapply vderive_ext; [|exact Dno]. intros x. unfold ang. cbv beta. rewrite euler_eta. reflexivity.
    - exact (axes_rate _ _ Dcom). }
  unfold kap, ang. rewrite !euler_eta. clear Dno Dcom. fold p.
  unfold mass_velocity, held, eval, track_eval. cbn [snd]. fold i p r. unfold f1_update. cbn [v_motion equations3 mo_v]. fold Om.
  unfold axes. fold p. rewrite !mapply_frame.
  pose proof time_rate as Dt. destruct A as (Hu & _ & Nz). fold i in Hu.
  assert (Wr : ro_w r = l_n l s * vx (curvature (fr_e p) (fr_de p)) / dt) by (rewrite Dt; reflexivity).
  assert (Nr : ro_n_dot r = i_u i * sin (l_alpha l s) + i_v i * cos (l_alpha l s)) by reflexivity.
  assert (Du : 1 - l_n l s * vz (curvature (fr_e p) (fr_de p)) = dt * (i_u i * cos (l_alpha l s) - i_v i * sin (l_alpha l s))).
  { rewrite Dt. unfold r, road_update. cbn [ro_dtime_ds]. field. exact Hu. }
  rewrite Wr, Nr. clear Wr Nr Dt Hu Dn. clearbody Om. clearbody r.
  destruct (c_com (f_chassis c)) as [x y z]. cbn [vx vy vz] in *. subst x y. 
  revert Du. generalize (curvature (fr_e p) (fr_de p)) (tangent (fr_e p)) (normal (fr_e p)) (binormal (fr_e p)). intros [k1 k2 k3] [t1 t2 t3] [n1 n2 n3] [b1 b2 b3].
  destruct Om as [o1 o2 o3]. generalize (l_n l s) (i_u i) (i_v i) (cos (l_alpha l s)) (sin (l_alpha l s)). intros n u v ca sa. cbn [vx vy vz]. intros Du.
  assert (E : forall q, q - n * k3 * q = dt * (u * ca - v * sa) * q) by (intros q; rewrite <- Du; ring).
  apply vec_eq; cbv [vadd vsub vscale cross vx vy vz];
  match goal with |- ?q + ?rest + ?more = _ => transitivity ((q - n * k3 * q) + (rest + n * k3 * q) + more); [ring | rewrite (E q); field; exact Nz] end.
Qed.

Context (Hg : g0 <> 0) (Hm : c_mass (f_chassis c) <> 0).
Let v := held eval c track l s.
(** The states that the model gives are the velocity and the momenta, so their rates are the derivatives. *)
Lemma held_rates :
  vderive (fun x => mo_v (v_motion (held eval c track l x))) s (vscale dt (mo_a (v_motion v))) /\
  is_derive (fun x => mo_roll_momentum (v_motion (held eval c track l x))) s (dt * mo_roll_rate (v_motion v)) /\
  is_derive (fun x => mo_pitch_momentum (v_motion (held eval c track l x))) s (dt * mo_pitch_rate (v_motion v)) /\
  is_derive (fun x => i_yaw (l_input l x)) s (dt * mo_yaw_acceleration (v_motion v)).
Proof.
  destruct (M s Hs) as (_ & _ & _ & _ & Du & Dv & Dy & Dw & Dr & Dp & _). pose proof time_rate as Dt.
  assert (F : forall x, f1_on_track sp ss g0 c (l_input l x) (track x) (l_time l x) (l_n l x) (l_alpha l x) =
    let rx := road_update (fr_r (track x)) (fr_e (track x)) (fr_de (track x)) (l_n l x) (l_alpha l x) (i_u (l_input l x)) (i_v (l_input l x)) (i_yaw (l_input l x)) in
    (f1_states g0 c (l_input l x) (held eval c track l x) (V (l_time l x) (l_n l x) (l_alpha l x)),
     scaled (ro_dtime_ds rx) (f1_rates g0 c (held eval c track l x) (V 1 (ro_n_dot rx) (ro_alpha_dot rx))))) by reflexivity.
  rewrite F in Du, Dv, Dy, Dw, Dr, Dp. cbv zeta in *. fold i p r in Du, Dv, Dy, Dw, Dr, Dp. fold p in Du, Dv, Dy, Dw, Dr, Dp. rewrite <- Dt in Du, Dv, Dy, Dw, Dr, Dp.
  fold v in Du, Dv, Dy, Dw, Dr, Dp.
  assert (X : forall (f : R -> R) (g : f1_vector -> R) d, (forall x, g (f1_states g0 c (l_input l x) (held eval c track l x) (V (l_time l x) (l_n l x) (l_alpha l x))) = f x) ->
     is_derive (fun x => g (fst (f1_on_track sp ss g0 c (l_input l x) (track x) (l_time l x) (l_n l x) (l_alpha l x)))) s d -> is_derive f s d).
  { intros f g d E D. eapply is_derive_ext; [|exact D]. intros x. rewrite <- E, F. reflexivity. }
  assert (K : forall (f : R -> R) k d, k <> 0 -> is_derive (fun x => f x / k) s (d / k * dt) -> is_derive f s (dt * d)).
  { intros f k d Hk D. apply (is_derive_scal _ _ k) in D. eapply is_derive_ext; [|replace (dt * d) with (k * (d / k * dt)) by (field; exact Hk); exact D].
    intros x. cbv beta. change (k * (f x / k) = f x). field. exact Hk. }
  assert (Hk : g0 * c_mass (f_chassis c) <> 0) by (apply Rmult_integral_contrapositive_currified; assumption).
  cbn [snd scaled f1_rates y_u y_v y_yaw y_w y_roll y_pitch] in *.
  refine (conj (conj _ (conj _ _)) (conj _ (conj _ _))); cbn [vx vy vz vscale].
  - rewrite Rmult_comm. exact (X _ y_u _ (fun x => eq_refl) Du).
  - rewrite Rmult_comm. exact (X _ y_v _ (fun x => eq_refl) Dv).
  - apply (K _ g0 _ Hg). exact (X _ y_w _ (fun x => eq_refl) Dw).
  - apply (K _ _ _ Hk). exact (X _ y_roll _ (fun x => eq_refl) Dr).
  - apply (K _ _ _ Hk). exact (X _ y_pitch _ (fun x => eq_refl) Dp).
  - rewrite Rmult_comm. exact (X _ y_yaw _ (fun x => eq_refl) Dy).
Qed.
Lemma held_motion : v_motion v = equations3 (f_chassis c) (v_F v) (v_T v) (i_u i) (i_v i) (ro_w r) Om.
Proof.
  assert (E : v_motion v = equations3 (f_chassis c) (v_F v) (v_T v) (i_u i) (i_v i) (ro_w r) (V (vx Om) (vy Om) (i_yaw i))) by reflexivity.
  rewrite E. rewrite <- omega_z. destruct Om; reflexivity.
Qed.
Lemma held_force : v_F v = vadd (vadd (vadd (v_Ff v) (v_Fr v)) (v_Fa v)) (gravity_force (fr_e p) (l_alpha l s) (c_mass (f_chassis c)) g0).
Proof. reflexivity. Qed.

Lemma momentum_rate :
  vderive (fun x => vscale (c_mass (f_chassis c)) (mass_velocity eval c track l x)) s
    (vscale dt (vadd (mapply (axes track l s) (vadd (vadd (v_Ff v) (v_Fr v)) (v_Fa v))) (V 0 0 (c_mass (f_chassis c) * g0)))).
Proof.
  destruct held_rates as (D & _). pose proof (axes_rate _ _ D) as D'.
  assert (Dm : is_derive (fun _ : R => c_mass (f_chassis c)) s 0) by apply @is_derive_const.
  eapply vderive_eq; [apply (vderive_scale _ _ _ _ _ Dm D')|].
  destruct (C53_gravity_is_the_weight (fr_e p) (l_alpha l s) (c_mass (f_chassis c)) g0) as (_ & G & _). unfold mass_velocity. rewrite <- G.
  change (frame_matrix (fr_e p) (l_alpha l s)) with (axes track l s). rewrite <- mapply_add, <- held_force.
  fold v. rewrite held_motion. unfold equations3. cbn [mo_v mo_a].
  generalize (axes track l s) (v_F v). clearbody Om r. clear - Hm. intros Q F. destruct Om as [o1 o2 o3], F as [f1' f2 f3], (c_com (f_chassis c)) as [x y z].
  destruct Q as [[q1 q2 q3] [q4 q5 q6] [q7 q8 q9]]. apply vec_eq; cbv [vadd vsub vscale cross mapply vx vy vz col1 col2 col3]; field; exact Hm.
Qed.
Lemma spin_rate : c_Izz (f_chassis c) <> 0 ->
  vderive (angular_momentum eval c track l) s (vscale dt (mapply (axes track l s) (v_T v))).
Proof.
  intros Hi. destruct held_rates as (_ & D1 & D2 & D3).
  assert (D3' : is_derive (fun x => c_Izz (f_chassis c) * i_yaw (l_input l x)) s (c_Izz (f_chassis c) * (dt * mo_yaw_acceleration (v_motion v)))) by (apply is_derive_scal; exact D3).
  pose proof (axes_rate (fun x => V (mo_roll_momentum (v_motion (held eval c track l x))) (mo_pitch_momentum (v_motion (held eval c track l x))) (c_Izz (f_chassis c) * i_yaw (l_input l x)))
    (V _ _ _) (conj D1 (conj D2 D3'))) as D.
  eapply vderive_eq; [exact D|]. clear D D1 D2 D3 D3'. cbv beta. fold v i. rewrite held_motion, <- omega_z. unfold equations3. cbn [mo_roll_momentum mo_pitch_momentum mo_roll_rate mo_pitch_rate mo_yaw_acceleration].
  generalize (axes track l s) (v_T v). clearbody Om. clear - Hi. intros Q F. destruct Om as [o1 o2 o3], F as [f1' f2 f3].
  destruct Q as [[q1 q2 q3] [q4 q5 q6] [q7 q8 q9]]. apply vec_eq; cbv [vadd vsub vscale cross mapply vx vy vz col1 col2 col3]; field; exact Hi.
Qed.

Lemma wheel_rates :
  let w f x := f (held eval c track l x) in
  is_derive (fun x => wheel_momentum (a_I (f_front c)) (w v_fl x)) s (dt * wheel_moment (f_xf c) (fst (v_torque_f v)) (v_fl v)) /\
  is_derive (fun x => wheel_momentum (a_I (f_front c)) (w v_fr x)) s (dt * wheel_moment (f_xf c) (snd (v_torque_f v)) (v_fr v)) /\
  is_derive (fun x => wheel_momentum (a_I (f_rear c)) (w v_rl x)) s (dt * wheel_moment (f_xr c) (fst (v_torque_r v)) (v_rl v)) /\
  is_derive (fun x => wheel_momentum (a_I (f_rear c)) (w v_rr x)) s (dt * wheel_moment (f_xr c) (snd (v_torque_r v)) (v_rr v)).
Proof.
  cbv zeta. destruct (M s Hs) as (D1 & D2 & D3 & D4 & _). pose proof time_rate as Dt.
  assert (K : forall (om : R -> R) I k d, k <> 0 -> is_derive (fun x => om x * I * k) s (d * k * dt) -> is_derive (fun x => I * om x) s (dt * d)).
  { intros om I k d Hk D. apply (is_derive_scal _ _ (/ k)) in D. eapply is_derive_ext; [|replace (dt * d) with (/ k * (d * k * dt)) by (field; exact Hk); exact D].
    intros x. cbv beta. change (/ k * (om x * I * k) = I * om x). field. exact Hk. }
  assert (W : forall (o : vec) (R0 torque : R) (t : tire_state), t_w t = vz o + R0 -> wheel_moment o torque t = wheel_momentum_rate R0 torque t).
  { intros o R0 q t E. unfold wheel_moment, wheel_momentum_rate, wheel_torque. rewrite E. ring. }
  assert (W1 : t_w (v_fl v) = (vz (f_xf c) + 0) + w_R0 (f_fl c)) by reflexivity. assert (W2 : t_w (v_fr v) = (vz (f_xf c) + 0) + w_R0 (f_fr c)) by reflexivity.
  assert (W3 : t_w (v_rl v) = (vz (f_xr c) + 0) + w_R0 (f_rl c)) by reflexivity. assert (W4 : t_w (v_rr v) = (vz (f_xr c) + 0) + w_R0 (f_rr c)) by reflexivity.
  rewrite Rplus_0_r in W1, W2, W3, W4.
  pose proof (scaling_nonzero (f_front c) _ Hm) as Kf. pose proof (scaling_nonzero (f_rear c) _ Hm) as Kr.
  refine (conj _ (conj _ (conj _ _))).
  - rewrite (W _ _ _ _ W1), Dt. rewrite Dt in K. apply (K _ _ _ _ Kf). exact D1.
  - rewrite (W _ _ _ _ W2), Dt. rewrite Dt in K. apply (K _ _ _ _ Kf). exact D2.
  - rewrite (W _ _ _ _ W3), Dt. rewrite Dt in K. apply (K _ _ _ _ Kr). exact D3.
  - rewrite (W _ _ _ _ W4), Dt. rewrite Dt in K. apply (K _ _ _ _ Kr). exact D4.
Qed.

Lemma transfer_rate : front_transfer i = c_roll_balance (f_chassis c) * (front_transfer i + rear_transfer i).
Proof.
  destruct (M s Hs) as (_ & _ & _ & _ & _ & _ & _ & _ & _ & _ & D & _). pose proof time_rate as Dt. destruct A as (_ & _ & Nz).
  assert (Z : is_derive (fun x => y_balance (fst (f1_on_track sp ss g0 c (l_input l x) (track x) (l_time l x) (l_n l x) (l_alpha l x)))) s 0).
  { eapply is_derive_ext; [|exact (is_derive_const (0 : R_AbsRing) s)]. intros x. reflexivity. }
  apply is_derive_unique in D. apply is_derive_unique in Z. rewrite Z in D. clear Z.
  assert (E : 0 = roll_balance (f_chassis c) (force_z g0 c (i_zfl i)) (force_z g0 c (i_zfr i)) (force_z g0 c (i_zrl i)) (force_z g0 c (i_zrr i)) / (g0 * c_mass (f_chassis c)) * ro_dtime_ds r) by exact D.
  rewrite <- Dt in E. unfold roll_balance, force_z in E. unfold front_transfer, rear_transfer. clear D Dt. clearbody i.
  assert (E' : dt * ((i_zfr i - i_zfl i) * (1 - c_roll_balance (f_chassis c)) + (i_zrl i - i_zrr i) * c_roll_balance (f_chassis c)) = 0).
  { rewrite E. field. split; assumption. }
  apply Rmult_integral in E'. destruct E' as [E'|E']; [contradiction | lra].
Qed.
End Point.

(** The torque held: the moments of the tyres where they touch the ground, and of the air; the part of the air is about the wrong point (C71). *)
Lemma held_torque c track l s :
  let v := held eval c track l s in
  v_T v = vadd (tyre_moments eval c track l s) (vsub (moment c (c_aero_x (f_chassis c)) (v_Fa v)) (cross (c_com (f_chassis c)) (v_Fa v))).
Proof.
  intros v. unfold tyre_moments. fold v. set (i := l_input l s).
  assert (E : v_T v = total_torque3 (f_chassis c) (f_xf c) (axle_force (rot_z (i_delta i)) (rot_z (i_delta i)) (v_fl v) (v_fr v))
    (axle_torque (rot_z (i_delta i)) (rot_z (i_delta i)) (left_of (f_front c)) (right_of (f_front c)) (v_fl v) (v_fr v))
    (f_xr c) (axle_force (rot_z 0) (rot_z 0) (v_rl v) (v_rr v))
    (axle_torque (rot_z 0) (rot_z 0) (left_of (f_rear c)) (right_of (f_rear c)) (v_rl v) (v_rr v)) (v_Fa v)) by reflexivity.
  assert (T1 : t_T (v_fl v) = cross (contact_point (w_R0 (f_fl c)) (vz (f_xf c) + 0 + w_R0 (f_fl c))) (t_F (v_fl v))) by reflexivity.
  assert (T2 : t_T (v_fr v) = cross (contact_point (w_R0 (f_fr c)) (vz (f_xf c) + 0 + w_R0 (f_fr c))) (t_F (v_fr v))) by reflexivity.
  assert (T3 : t_T (v_rl v) = cross (contact_point (w_R0 (f_rl c)) (vz (f_xr c) + 0 + w_R0 (f_rl c))) (t_F (v_rl v))) by reflexivity.
  assert (T4 : t_T (v_rr v) = cross (contact_point (w_R0 (f_rr c)) (vz (f_xr c) + 0 + w_R0 (f_rr c))) (t_F (v_rr v))) by reflexivity.
  rewrite E. clear E. unfold axle_torque, axle_force, total_torque3, contact_force. rewrite T1, T2, T3, T4. clear T1 T2 T3 T4.
  unfold wheel_force, moment, patch, left_of, right_of, contact_point, rot_z.
  generalize (cos (i_delta i)) (sin (i_delta i)) (cos 0) (sin 0). intros ca sa c0 s0'. clearbody v i.
  destruct (t_F (v_fl v)) as [a1 a2 a3], (t_F (v_fr v)) as [b1 b2 b3], (t_F (v_rl v)) as [d1 d2 d3], (t_F (v_rr v)) as [e1 e2 e3], (v_Fa v) as [g1 g2 g3].
  destruct (f_xf c) as [x1 x2 x3], (f_xr c) as [y1 y2 y3], (c_com (f_chassis c)) as [m1 m2 m3], (c_aero_x (f_chassis c)) as [n1 n2 n3].
  apply vec_eq; cbv [vx vy vz vadd vsub vopp vscale cross mapply col1 col2 col3]; field.
Qed.
Lemma held_tyres c track l s : let v := held eval c track l s in vadd (v_Ff v) (v_Fr v) = tyre_forces eval c track l s.
Proof. reflexivity. Qed.

(** ** C140 *)
(** The centre of mass moves with the velocities that are the states. *)
Theorem C140_position c track l s0 s1 : mass_above c -> lap_motion (f1_on_track sp ss g0) c track l s0 s1 ->
  forall s dt, s0 < s < s1 -> centreline track s -> advances l s dt ->
  vderive (mass_position c track l) s (vscale dt (mass_velocity eval c track l s)).
Proof. intros C M s dt Hs T A. exact (position_rate c track l s0 s1 s dt T A Hs M C). Qed.
(** Newton: mass times its acceleration is the sum of the forces of the tyres, of the air and the weight. *)
Theorem C140_newton c track l s0 s1 : g0 <> 0 -> c_mass (f_chassis c) <> 0 -> lap_motion (f1_on_track sp ss g0) c track l s0 s1 ->
  forall s dt, s0 < s < s1 -> centreline track s -> advances l s dt ->
  vderive (fun x => vscale (c_mass (f_chassis c)) (mass_velocity eval c track l x)) s
    (vscale dt (vadd (mapply (axes track l s) (vadd (tyre_forces eval c track l s) (v_Fa (held eval c track l s)))) (V 0 0 (c_mass (f_chassis c) * g0)))).
Proof. intros Hg Hm M s dt Hs T A. rewrite <- held_tyres. exact (momentum_rate c track l s0 s1 s dt T A Hs M Hg Hm). Qed.
(** Euler: the angular momentum changes with the torque held; that is the moments of the tyres and of the air about the centre of mass when
    the force of the air has no moment at it from the origin. *)
Theorem C140_euler_partial c track l s0 s1 : g0 <> 0 -> c_mass (f_chassis c) <> 0 -> c_Izz (f_chassis c) <> 0 ->
  lap_motion (f1_on_track sp ss g0) c track l s0 s1 ->
  forall s dt, s0 < s < s1 -> centreline track s -> advances l s dt ->
  let v := held eval c track l s in
  vderive (angular_momentum eval c track l) s
    (vscale dt (mapply (axes track l s) (vadd (tyre_moments eval c track l s) (vsub (moment c (c_aero_x (f_chassis c)) (v_Fa v)) (cross (c_com (f_chassis c)) (v_Fa v)))))).
Proof. intros Hg Hm Hi M s dt Hs T A v. rewrite <- held_torque. exact (spin_rate c track l s0 s1 s dt T A Hs M Hg Hm Hi). Qed.
(** Every wheel changes its spin with the torque of its shaft and the force under it. *)
Theorem C140_wheels c track l s0 s1 : c_mass (f_chassis c) <> 0 -> lap_motion (f1_on_track sp ss g0) c track l s0 s1 ->
  forall s dt, s0 < s < s1 -> advances l s dt ->
  let v := held eval c track l in
  is_derive (fun x => wheel_momentum (a_I (f_front c)) (v_fl (v x))) s (dt * wheel_moment (f_xf c) (fst (v_torque_f (v s))) (v_fl (v s))) /\
  is_derive (fun x => wheel_momentum (a_I (f_front c)) (v_fr (v x))) s (dt * wheel_moment (f_xf c) (snd (v_torque_f (v s))) (v_fr (v s))) /\
  is_derive (fun x => wheel_momentum (a_I (f_rear c)) (v_rl (v x))) s (dt * wheel_moment (f_xr c) (fst (v_torque_r (v s))) (v_rl (v s))) /\
  is_derive (fun x => wheel_momentum (a_I (f_rear c)) (v_rr (v x))) s (dt * wheel_moment (f_xr c) (snd (v_torque_r (v s))) (v_rr (v s))).
Proof. intros Hm M s dt Hs A v. exact (wheel_rates c track l s0 s1 s dt A Hs M Hm). Qed.
(** The front axle takes its share of the lateral transfer of load. *)
Theorem C140_load_transfer c track l s0 s1 : g0 <> 0 -> c_mass (f_chassis c) <> 0 -> lap_motion (f1_on_track sp ss g0) c track l s0 s1 ->
  forall s dt, s0 < s < s1 -> advances l s dt ->
  front_transfer (l_input l s) = c_roll_balance (f_chassis c) * (front_transfer (l_input l s) + rear_transfer (l_input l s)).
Proof. intros Hg Hm M s dt Hs A. exact (transfer_rate c track l s0 s1 s dt A Hs M Hg Hm). Qed.
End Functions.

(** ** A lap: the car of C138 coasts along a straight, its speed is 50 exp(-s/1000) *)
Definition straight (s : R) : frenet := Frenet (V s 0 0) (Euler 0 0 0) (Euler 0 0 0).
Definition slowing (s : R) : R := 50 * exp (- s / 1000).
Definition straight_lap : lap := Lap (fun s => coasting_input (slowing s)) (fun s => 20 * exp (s / 1000)) (fun _ => 0) (fun _ => 0).
Lemma slowing_pos s : 0 < slowing s. Proof. unfold slowing. pose proof (exp_pos (- s / 1000)). lra. Qed.
Lemma straight_time s : 20 * exp (s / 1000) / 1000 = 1 / slowing s.
Proof.
  unfold slowing. replace (- s / 1000) with (- (s / 1000)) by field. rewrite exp_Ropp. field. apply Rgt_not_eq, exp_pos.
Qed.
Lemma on_straight_eval u x : 0 < u ->
  let r := road_update (V x 0 0) (Euler 0 0 0) (Euler 0 0 0) 0 0 u 0 0 in
  ro_dtime_ds r = 1 / u /\ ro_n_dot r = 0 /\ ro_alpha_dot r = 0 /\
  snd (track_eval positive_part same_sign (981 / 100) coasting_car (coasting_input u) (straight x) 0 0) = coasting_eval u.
Proof.
  intros Hu r. assert (K : curvature (Euler 0 0 0) (Euler 0 0 0) = V 0 0 0).
  { unfold curvature; cbn [yaw pitch roll]. rewrite ?sin_0, ?cos_0. f_equal; ring. }
  assert (D : ro_dtime_ds r = 1 / u). { unfold r, road_update. cbn [ro_dtime_ds]. rewrite K, sin_0, cos_0. cbn [vz]. field. lra. }
  assert (N : ro_n_dot r = 0) by (unfold r, road_update; cbn [ro_n_dot]; rewrite sin_0, cos_0; ring).
  assert (L : ro_alpha_dot r = 0) by (unfold r, road_update; cbn [ro_alpha_dot]; rewrite K; cbn [vz]; unfold Rdiv; ring).
  assert (W : ro_w r = 0) by (unfold r, road_update; cbn [ro_w]; unfold Rdiv; ring).
  split; [exact D|]. split; [exact N|]. split; [exact L|].
  unfold track_eval, straight. cbn [snd fr_r fr_e fr_de]. change (i_u (coasting_input u)) with u. change (i_v (coasting_input u)) with 0. change (i_yaw (coasting_input u)) with 0.
  fold r. rewrite L, W. unfold euler_dot. cbn [yaw pitch roll]. replace (0 / ro_dtime_ds r) with 0 by (unfold Rdiv; ring). reflexivity.
Qed.
Lemma states_road g c i v road road' : f1_states g c i v road' =
  let y := f1_states g c i v road in F1Vector (y_fl y) (y_fr y) (y_rl y) (y_rr y) (y_u y) (y_v y) (y_yaw y) (y_w y) (y_roll y) (y_pitch y) (y_balance y) road'.
Proof. reflexivity. Qed.
Lemma rates_road g c v road road' y : scaled 1 (f1_rates g c v road) = y -> forall k, scaled k (f1_rates g c v road') =
  F1Vector (y_fl y * k) (y_fr y * k) (y_rl y * k) (y_rr y * k) (y_u y * k) (y_v y * k) (y_yaw y * k) (y_w y * k) (y_roll y * k) (y_pitch y * k) (y_balance y * k) (vscale k road').
Proof.
  intros <- k. unfold scaled. cbn [y_fl y_fr y_rl y_rr y_u y_v y_yaw y_w y_roll y_pitch y_balance y_road]. rewrite !Rmult_1_r. reflexivity.
Qed.
Lemma coasting_on_straight u x t : 0 < u ->
  f1_on_track positive_part same_sign (981 / 100) coasting_car (coasting_input u) (straight x) t 0 0 =
  (F1Vector 0 0 0 0 u 0 0 0 0 0 0 (V t 0 0), F1Vector 0 0 0 0 (- (u / 1000)) 0 0 0 0 0 0 (V (1 / u) 0 0)).
Proof.
  intros Hu. pose proof (coasting_on_plane u 0 Hu) as P. unfold f1_on_plane, cartesian_update in P. fold (coasting_eval u) in P. rewrite sin_0, cos_0 in P.
  destruct (on_straight_eval u x Hu) as (D & N & L & E). cbv zeta in D, N, L.
  assert (F : f1_on_track positive_part same_sign (981 / 100) coasting_car (coasting_input u) (straight x) t 0 0 =
    let r := road_update (V x 0 0) (Euler 0 0 0) (Euler 0 0 0) 0 0 u 0 0 in
    (f1_states (981 / 100) coasting_car (coasting_input u) (snd (track_eval positive_part same_sign (981 / 100) coasting_car (coasting_input u) (straight x) 0 0)) (V t 0 0),
     scaled (ro_dtime_ds r) (f1_rates (981 / 100) coasting_car (snd (track_eval positive_part same_sign (981 / 100) coasting_car (coasting_input u) (straight x) 0 0)) (V 1 (ro_n_dot r) (ro_alpha_dot r))))) by reflexivity.
  rewrite F. cbv zeta. rewrite D, N, L, E. clear F D N L E.
  pose proof (f_equal fst P) as P1. pose proof (f_equal snd P) as P2. cbn [fst snd] in P1, P2. clear P.
  apply f_equal2.
  - rewrite (states_road _ _ _ _ (V 0 0 0)). rewrite P1. reflexivity.
  - change (i_u (coasting_input u)) with u in P2. change (i_v (coasting_input u)) with 0 in P2. rewrite (rates_road _ _ _ _ _ _ P2). cbn [y_fl y_fr y_rl y_rr y_u y_v y_yaw y_w y_roll y_pitch y_balance]. apply vector_eq; try ring; [field; lra|]. apply vec_eq; cbn [vx vy vz vscale]; ring.
Qed.

Example C140_case : let ev := f1_on_track positive_part same_sign (981 / 100) in
  mass_above coasting_car /\ 981 / 100 <> 0 /\ c_mass (f_chassis coasting_car) <> 0 /\ c_Izz (f_chassis coasting_car) <> 0 /\
  lap_motion ev coasting_car straight straight_lap 0 1000 /\
  (forall s, 0 < s < 1000 -> centreline straight s /\ advances straight_lap s (1 / slowing s)) /\
  (forall s, 0 < s < 1000 -> mass_velocity (eval positive_part same_sign (981 / 100)) coasting_car straight straight_lap s = V (slowing s) 0 0) /\ slowing 1000 < slowing 0.
Proof.
  intros ev. split; [split; reflexivity|]. split; [lra|]. split; [cbn; lra|]. split; [cbn; lra|].
  assert (Du : forall s, is_derive slowing s (- (slowing s / 1000))) by (intros s; unfold slowing; auto_derive; [exact I | unfold Rdiv; field]).
  assert (Dt : forall s, is_derive (fun x => 20 * exp (x / 1000)) s (1 / slowing s)).
  { intros s. rewrite <- straight_time. auto_derive; [exact I | unfold Rdiv; field]. }
  assert (D0 : forall s, is_derive (fun _ : R => 0) s 0) by (intros s; exact (is_derive_const (0 : R_AbsRing) s)).
  assert (EV : forall x, ev coasting_car (l_input straight_lap x) (straight x) (l_time straight_lap x) (l_n straight_lap x) (l_alpha straight_lap x) =
    (F1Vector 0 0 0 0 (slowing x) 0 0 0 0 0 0 (V (20 * exp (x / 1000)) 0 0), F1Vector 0 0 0 0 (- (slowing x / 1000)) 0 0 0 0 0 0 (V (1 / slowing x) 0 0)))
    by (intros x; apply (coasting_on_straight (slowing x) x _ (slowing_pos x))).
  split; [|split; [|split]].
  - intros s Hs. rewrite EV. cbn [snd].
    assert (X : forall (g : f1_vector -> R) d, is_derive (fun x => g (F1Vector 0 0 0 0 (slowing x) 0 0 0 0 0 0 (V (20 * exp (x / 1000)) 0 0))) s d ->
      is_derive (fun x => g (fst (ev coasting_car (l_input straight_lap x) (straight x) (l_time straight_lap x) (l_n straight_lap x) (l_alpha straight_lap x)))) s d).
    { intros g d D. eapply is_derive_ext; [|exact D]. intros x. rewrite EV. reflexivity. }
    refine (conj (X y_fl _ _) (conj (X y_fr _ _) (conj (X y_rl _ _) (conj (X y_rr _ _) (conj (X y_u _ _) (conj (X y_v _ _) (conj (X y_yaw _ _) (conj (X y_w _ _)
      (conj (X y_roll _ _) (conj (X y_pitch _ _) (conj (X y_balance _ _) (conj (X (fun y => vx (y_road y)) _ _) (conj (X (fun y => vy (y_road y)) _ _) (X (fun y => vz (y_road y)) _ _))))))))))))));
      cbn [y_fl y_fr y_rl y_rr y_u y_v y_yaw y_w y_roll y_pitch y_balance y_road vx vy vz]; first [apply D0 | apply Du | apply Dt].
  - intros s Hs. pose proof (slowing_pos s) as P. split.
    + assert (Et : tangent (Euler 0 0 0) = V 1 0 0) by (unfold tangent; cbn [yaw pitch roll]; rewrite ?sin_0, ?cos_0; f_equal; ring).
      unfold centreline, straight. cbn [fr_r fr_e fr_de yaw pitch roll]. rewrite Et. refine (conj (conj _ (conj _ _)) (conj _ (conj _ _))); cbn [vx vy vz]; try apply D0. exact (is_derive_id s).
    + unfold advances, straight_lap; cbn [l_input l_alpha l_time coasting_input i_u i_v]. rewrite sin_0, cos_0. split; [lra|]. split; [apply Dt|].
      apply Rgt_not_eq. apply Rdiv_lt_0_compat; lra.
  - intros s Hs. pose proof (slowing_pos s) as P. unfold mass_velocity, held, eval, straight_lap. cbn [l_input l_n l_alpha].
    destruct (on_straight_eval (slowing s) s P) as (_ & _ & _ & E). rewrite E.
    assert (Mo : v_motion (coasting_eval (slowing s)) = equations3 (f_chassis coasting_car) (v_F (coasting_eval (slowing s))) (v_T (coasting_eval (slowing s))) (slowing s) 0 0 (V 0 0 0)).
    { unfold coasting_eval, plane_eval, f1_update. rewrite plane_omega. reflexivity. }
    rewrite Mo. unfold axes, straight. cbn [fr_e l_alpha equations3 mo_v vx vy vz]. rewrite mapply_frame. unfold tangent, normal, binormal. cbn [yaw pitch roll vx vy vz]. rewrite sin_0, cos_0.
    apply vec_eq; cbv [vadd vscale vx vy vz coasting_car f_chassis c_com]; ring.
  - unfold slowing. apply Rmult_lt_compat_l; [lra|]. apply exp_increasing. lra.
Qed.

(** The moment of the air in the torque is not about the centre of mass: Euler's law with the moments of the forces fails. *)
Definition raised_car : f1 :=
  F1 (MkChassis3 660 100 400 450 (V 0 0 (- (3 / 10))) (V 0 0 0) (1 / 2) 0) (f_aero coasting_car) (f_xf coasting_car) (f_xr coasting_car)
     (f_front coasting_car) (f_rear coasting_car) (f_fl coasting_car) (f_fr coasting_car) (f_rl coasting_car) (f_rr coasting_car).
Theorem C140_moment_of_the_air_refuted : exists c track l s, mass_above c /\ centreline track s /\ let ev := eval positive_part same_sign (981 / 100) in
  let v := held ev c track l s in v_T v <> vadd (tyre_moments ev c track l s) (moment c (c_aero_x (f_chassis c)) (v_Fa v)).
Proof.
  exists raised_car, straight, straight_lap, 0. split; [split; reflexivity|]. split.
  { destruct C140_case as (_ & _ & _ & _ & _ & C & _).
    assert (Et : tangent (Euler 0 0 0) = V 1 0 0) by (unfold tangent; cbn [yaw pitch roll]; rewrite ?sin_0, ?cos_0; f_equal; ring).
    assert (D0 : is_derive (fun _ : R => 0) 0 0) by exact (is_derive_const (0 : R_AbsRing) 0).
    unfold centreline, straight. cbn [fr_r fr_e fr_de yaw pitch roll]. rewrite Et. refine (conj (conj _ (conj _ _)) (conj _ (conj _ _))); cbn [vx vy vz]; try apply D0. exact (is_derive_id 0). }
  intros ev v. unfold v, ev. rewrite held_torque. fold ev. fold v.
  assert (Fa : v_Fa v = V (- (66 / 100 * (slowing 0 * slowing 0))) 0 0).
  { pose proof (slowing_pos 0) as P. rewrite <- (coasting_air (slowing 0) P). destruct (on_straight_eval (slowing 0) 0 P) as (_ & _ & _ & E). rewrite <- E.
    unfold v, ev, held, eval, track_eval, f1_update. cbn [snd v_Fa]. reflexivity. }
  rewrite Fa. clearbody v. generalize (tyre_moments ev raised_car straight straight_lap 0). intros m E. apply (f_equal vy) in E. revert E.
  cbv [vy vadd vsub moment cross vx vz raised_car f_chassis c_com c_aero_x]. pose proof (slowing_pos 0) as P.
  assert (0 < slowing 0 * slowing 0) by (apply Rmult_lt_0_compat; exact P). lra.
Qed.

Print Assumptions C140_position.
Print Assumptions C140_newton.
Print Assumptions C140_euler_partial.
Print Assumptions C140_wheels.
Print Assumptions C140_load_transfer.
Print Assumptions C140_moment_of_the_air_refuted.
