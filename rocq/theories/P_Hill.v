(** Property theorems C146: the energy of the whole Formula 1 car on any track. *)
From Coq Require Import Reals Lra.
From Coquelicot Require Import Coquelicot.
From Verif Require Import M_Vec M_Tire M_Car M_Road S_Road L_Road M_F1 S_F1 S_F1Wheels L_F1 S_Newton S_Hill L_Tire P_Tire P_Car P_Road P_F1 P_F1Wheels P_Newton.
Local Open Scope R_scope.

Lemma rotation_keeps m a b : rotation m -> dot (mapply m a) (mapply m b) = dot a b.
Proof.
  intros (H1 & H2 & H3 & H4 & H5 & H6 & _).
  assert (E : dot (mapply m a) (mapply m b) = vx a * vx b * dot (col1 m) (col1 m) + vy a * vy b * dot (col2 m) (col2 m) + vz a * vz b * dot (col3 m) (col3 m) +
    (vx a * vy b + vy a * vx b) * dot (col1 m) (col2 m) + (vy a * vz b + vz a * vy b) * dot (col2 m) (col3 m) + (vx a * vz b + vz a * vx b) * dot (col1 m) (col3 m)).
  { unfold dot, mapply, vadd, vscale. cbn [vx vy vz]. ring. }
  rewrite E, H1, H2, H3, H4, H5, H6. unfold dot. ring.
Qed.

Section Functions.
Context (sp ss : R -> R -> R) (g0 : R).
Notation ev := (eval sp ss g0).

Section Point.
Context (c : f1) (track : R -> frenet) (l : lap) (s0 s1 s dt : R).
Context (T : centreline track s) (A : advances l s dt) (Hs : s0 < s < s1) (M : lap_motion (f1_on_track sp ss g0) c track l s0 s1).
Context (Hg : g0 <> 0) (Hm : c_mass (f_chassis c) <> 0) (Hx : c_Ixx (f_chassis c) <> 0) (Hy : c_Iyy (f_chassis c) <> 0) (Hz : c_Izz (f_chassis c) <> 0).
Context (W : on_its_wheels c).

Let p := track s.
Let i := l_input l s.
Let r := road_update (fr_r p) (fr_e p) (fr_de p) (l_n l s) (l_alpha l s) (i_u i) (i_v i) (i_yaw i).
Let Om := frame_omega (fr_e p) (euler_dot (fr_de p) (ro_dtime_ds r)) (l_alpha l s) (ro_alpha_dot r).
Let v := held ev c track l s.

Lemma above : mass_above c. Proof. destruct W as (C1 & C2 & _). split; assumption. Qed.
Lemma turns : vz Om = i_yaw i.
Proof. exact (omega_z sp ss g0 c track l s0 s1 s dt A Hs M). Qed.
Lemma moves : v_motion v = equations3 (f_chassis c) (v_F v) (v_T v) (i_u i) (i_v i) (ro_w r) Om.
Proof. exact (held_motion sp ss g0 c track l s0 s1 s dt A Hs M). Qed.
Lemma spin_is : spin ev c track l s = Om.
Proof.
  pose proof moves as E.
  unfold spin. cbv zeta. fold v i. rewrite E. unfold equations3. cbn [mo_roll_momentum mo_pitch_momentum].
  rewrite <- turns. clearbody Om. destruct Om as [o1 o2 o3]. apply vec_eq; cbn [vx vy vz]; field; assumption.
Qed.
Lemma mass_goes : mo_v (v_motion v) = vadd (V (i_u i) (i_v i) (ro_w r)) (cross Om (c_com (f_chassis c))).
Proof.
  pose proof moves as E.
  rewrite E. unfold equations3. cbn [mo_v]. destruct above as [C1 C2]. clearbody Om. destruct Om as [o1 o2 o3], (c_com (f_chassis c)) as [x y z]. cbn [vx vy vz] in *. subst x y.
  apply vec_eq; cbn [vx vy vz vadd cross]; ring.
Qed.
(** The points of the car. *)
Lemma goes x : point_goes ev c track l s x = vadd (V (i_u i) (i_v i) (ro_w r)) (cross Om x).
Proof. unfold point_goes. fold v. rewrite mass_goes, spin_is. clearbody Om r. destruct Om, x, (c_com (f_chassis c)). vring. Qed.

(** A force on the car at a point does what it does at the centre of mass and what its moment does. *)
Lemma power_at x F : dot F (mo_v (v_motion v)) + dot (moment c x F) (spin ev c track l s) = dot F (point_goes ev c track l s x).
Proof. unfold point_goes, moment. fold v. unfold dot, cross, vadd, vsub. cbn [vx vy vz]. ring. Qed.

Lemma rolling : wheels_roll sp g0 c i v.
Proof.
  apply (C144_slips sp ss). right. exists p, (l_n l s), (l_alpha l s). split; [|reflexivity]. fold r.
  unfold r, p, i. rewrite <- (time_rate sp ss g0 c track l s0 s1 s dt A Hs M). apply A.
Qed.
(** What the force of a tyre gives. *)
Lemma tyre_gives t axle a side delta kn z w : wheel_rolls sp g0 c i t axle a side delta kn z w ->
  dot (wheel_force delta w) (point_goes ev c track l s (patch axle (side * (a_track a / 2)))) =
  vx (t_F w) * vx (t_v w) + vy (t_F w) * vy (t_v w) + vz (t_F w) * vz (point_goes ev c track l s (patch axle (side * (a_track a / 2)))).
Proof.
  intros (V1 & V2 & _). cbv zeta in V1, V2. rewrite V1, V2, goes.
  pose proof turns as Z. rewrite <- Z. clearbody Om r.
  unfold wheel_force, patch, rot_z. destruct Om as [o1 o2 o3], (t_F w) as [f1' f2 f3]. cbv [dot mapply vadd vscale cross vx vy vz col1 col2 col3]. ring.
Qed.
Lemma wheel_gives axle R0 torque w : vz axle + R0 = 0 ->
  t_omega w * wheel_moment axle torque w + (vx (t_F w) * vx (t_v w) + vy (t_F w) * vy (t_v w)) = torque * t_omega w + dissipation R0 w.
Proof. intros E. unfold wheel_moment, dissipation. replace (vz axle) with (- R0) by lra. ring. Qed.

Lemma powers :
  dot (vadd (tyre_forces ev c track l s) (v_Fa v)) (mo_v (v_motion v)) + dot (v_T v) (spin ev c track l s) +
  (t_omega (v_fl v) * wheel_moment (f_xf c) (fst (v_torque_f v)) (v_fl v) + t_omega (v_fr v) * wheel_moment (f_xf c) (snd (v_torque_f v)) (v_fr v) +
   (t_omega (v_rl v) * wheel_moment (f_xr c) (fst (v_torque_r v)) (v_rl v) + t_omega (v_rr v) * wheel_moment (f_xr c) (snd (v_torque_r v)) (v_rr v))) =
  power_of_wheels v + power_of_slip c v + power_of_loads ev c track l s + power_of_the_air ev c track l s + power_from_nowhere ev c track l s.
Proof.
  destruct rolling as (R1 & R2 & R3 & R4). destruct W as (_ & _ & W1 & W2 & W3 & W4).
  apply tyre_gives in R1, R2, R3, R4.
  replace (-1 * (a_track (f_front c) / 2)) with (- (a_track (f_front c) / 2)) in R1 by ring. replace (1 * (a_track (f_front c) / 2)) with (a_track (f_front c) / 2) in R2 by ring.
  replace (-1 * (a_track (f_rear c) / 2)) with (- (a_track (f_rear c) / 2)) in R3 by ring. replace (1 * (a_track (f_rear c) / 2)) with (a_track (f_rear c) / 2) in R4 by ring.
  rewrite <- power_at in R1, R2, R3, R4.
  pose proof (wheel_gives _ _ (fst (v_torque_f v)) (v_fl v) W1) as G1. pose proof (wheel_gives _ _ (snd (v_torque_f v)) (v_fr v) W2) as G2.
  pose proof (wheel_gives _ _ (fst (v_torque_r v)) (v_rl v) W3) as G3. pose proof (wheel_gives _ _ (snd (v_torque_r v)) (v_rr v) W4) as G4.
  pose proof (power_at (c_aero_x (f_chassis c)) (v_Fa v)) as Ga.
  unfold v. rewrite (held_torque sp ss g0 c track l s). cbv zeta. fold v. unfold power_of_wheels, power_of_slip, power_of_loads, power_of_the_air, power_from_nowhere. cbv zeta. fold v.
  rewrite <- Ga. unfold tyre_forces, tyre_moments. cbv zeta. fold v. fold i.
  set (D := dot) in *.
  assert (Da : forall a b d, D (vadd a b) d = D a d + D b d) by (intros; unfold D, dot, vadd; cbn; ring).
  assert (Ds : forall a b d, D (vsub a b) d = D a d - D b d) by (intros; unfold D, dot, vsub; cbn; ring).
  rewrite !Da, Ds. lra.
Qed.

Lemma dot_scale_r k a b : dot a (vscale k b) = k * dot a b. Proof. unfold dot, vscale. cbn. ring. Qed.
Lemma square_vderive (f : R -> vec) d : vderive f s d -> is_derive (fun x => dot (f x) (f x)) s (2 * dot (f s) d).
Proof.
  intros (D1 & D2 & D3). apply (square_derive _ 1) in D1, D2, D3.
  pose proof (is_derive_plus _ _ _ _ _ (is_derive_plus _ _ _ _ _ D1 D2) D3) as D.
  eapply is_derive_ext; [|match type of D with is_derive _ _ ?l => match goal with |- is_derive _ _ ?r => replace r with l; [exact D|] end end].
  - intros x. unfold plus, dot; cbn. ring.
  - unfold plus, dot; cbn. ring.
Qed.
Lemma wheel_energy_rate (om : R -> R) I d : is_derive (fun x => I * om x) s d -> is_derive (fun x => wheel_energy I (om x)) s (om s * d).
Proof.
  intros D. apply (wheel_energy_derive om I 1 s d R1_neq_R0). rewrite Rmult_1_r. eapply is_derive_ext; [|exact D]. intros x. cbn. ring.
Qed.

Lemma energy_rate : is_derive (total_energy ev g0 c track l) s
  (dt * (power_of_wheels v + power_of_slip c v + power_of_loads ev c track l s + power_of_the_air ev c track l s + power_from_nowhere ev c track l s)).
Proof.
  pose proof (C140_newton sp ss g0 c track l s0 s1 Hg Hm M s dt Hs T A) as N. pose proof (C140_position sp ss g0 c track l s0 s1 above M s dt Hs T A) as P.
  destruct (held_rates sp ss g0 c track l s0 s1 s dt A Hs M Hg Hm) as (_ & D1 & D2 & D3).
  destruct (C140_wheels sp ss g0 c track l s0 s1 Hm M s dt Hs A) as (W1 & W2 & W3 & W4). cbv zeta in W1, W2, W3, W4.
  apply wheel_energy_rate in W1, W2, W3, W4. apply square_vderive in N. destruct P as (_ & _ & P).
  apply (is_derive_scal _ _ (/ (2 * c_mass (f_chassis c)))) in N. apply (is_derive_scal _ _ (c_mass (f_chassis c) * g0)) in P.
  apply (square_derive _ (/ (2 * c_Ixx (f_chassis c)))) in D1. apply (square_derive _ (/ (2 * c_Iyy (f_chassis c)))) in D2. apply (square_derive _ (1 / 2 * c_Izz (f_chassis c))) in D3.
  pose proof (is_derive_minus _ _ _ _ _ (is_derive_plus _ _ _ _ _ (is_derive_plus _ _ _ _ _ N (is_derive_plus _ _ _ _ _ (is_derive_plus _ _ _ _ _ D1 D2) D3))
    (is_derive_plus _ _ _ _ _ (is_derive_plus _ _ _ _ _ W1 W2) (is_derive_plus _ _ _ _ _ W3 W4))) P) as D. clear N D1 D2 D3 W1 W2 W3 W4 P.
  eapply is_derive_ext; [|match type of D with is_derive _ _ ?l => match goal with |- is_derive _ _ ?r => replace r with l; [exact D|] end end].
  - intros x. unfold total_energy, spin, minus, opp, plus; cbn. unfold dot, vscale. cbn [vx vy vz]. field. repeat split; assumption.
  - clear D. rewrite <- powers. unfold minus. repeat match goal with |- context [@plus ?G ?a ?b] => change (@plus G a b) with (a + b)%R end. match goal with |- context [@opp ?G ?a] => change (@opp G a) with (- a)%R end.
    match goal with |- @eq _ ?a ?b => change (@eq R a b) end. fold v. fold i.
    set (Ft := tyre_forces ev c track l s). rewrite !dot_scale_r.
    assert (Dm : forall a b, dot (vscale (c_mass (f_chassis c)) (mass_velocity ev c track l s)) (vadd a (V 0 0 b)) =
      c_mass (f_chassis c) * (dot (mass_velocity ev c track l s) a + vz (mass_velocity ev c track l s) * b)) by (intros; unfold dot, vadd, vscale; cbn; ring).
    rewrite Dm. unfold mass_velocity at 1. fold v. rewrite (rotation_keeps (axes track l s) _ _ (frame_matrix_rotation _ _)).
    pose proof moves as E.
    assert (Er : mo_roll_rate (v_motion v) = vx (v_T v) + (c_Iyy (f_chassis c) - c_Izz (f_chassis c)) * vz Om * vy Om) by (rewrite E; reflexivity).
    assert (Ep : mo_pitch_rate (v_motion v) = vy (v_T v) + (c_Izz (f_chassis c) - c_Ixx (f_chassis c)) * vz Om * vx Om) by (rewrite E; reflexivity).
    assert (Ey : mo_yaw_acceleration (v_motion v) = (vz (v_T v) + (c_Ixx (f_chassis c) - c_Iyy (f_chassis c)) * vx Om * vy Om) / c_Izz (f_chassis c)) by (rewrite E; reflexivity).
    assert (Fr : mo_roll_momentum (v_motion v) = c_Ixx (f_chassis c) * vx Om) by (rewrite E; reflexivity).
    assert (Fp : mo_pitch_momentum (v_motion v) = c_Iyy (f_chassis c) * vy Om) by (rewrite E; reflexivity).
    pose proof turns as Z.
    rewrite Er, Ep, Ey, Fr, Fp, spin_is, <- Z. clear Er Ep Ey Fr Fp Z E Dm. cbn [vx vy vz vscale].
    set (mz := vz (mass_velocity ev c track l s)). clearbody mz Ft Om. unfold dot. cbn [vx vy vz vadd].
    field. repeat split; assumption.
Qed.

(** On a plane surface the road frame turns about the normal of the road only. *)
Lemma plane_turn : plane_surface track s -> Om = V 0 0 (i_yaw i) /\ ro_w r = 0.
Proof.
  intros [K1 K2]. split.
  - rewrite <- turns. assert (E : forall a b x, a = 0 -> b = 0 -> x = V a b (vz x) -> x = V 0 0 (vz x)) by (intros; subst; assumption).
    pose proof (time_rate sp ss g0 c track l s0 s1 s dt A Hs M) as Dt. fold i p in Dt. fold i in Dt. fold r in Dt. destruct A as (_ & _ & Nz). rewrite Dt in Nz.
    assert (C : curvature (fr_e p) (euler_dot (fr_de p) (ro_dtime_ds r)) = vscale (/ ro_dtime_ds r) (curvature (fr_e p) (fr_de p))).
    { clearbody r p. unfold euler_dot, curvature. apply vec_eq; cbn [vx vy vz yaw pitch roll vscale]; field; exact Nz. }
    apply (E (vx Om) (vy Om)); [| | clearbody Om; destruct Om; reflexivity].
    + unfold Om, frame_omega. rewrite C. fold p in K1, K2. unfold rot_z. cbv [vx vy vz vadd vscale mtapply dot col1 col2 col3]. cbv [vx vy] in K1, K2. rewrite K1, K2. ring.
    + unfold Om, frame_omega. rewrite C. fold p in K1, K2. unfold rot_z. cbv [vx vy vz vadd vscale mtapply dot col1 col2 col3]. cbv [vx vy] in K1, K2. rewrite K1, K2. ring.
  - unfold r, road_update. cbn [ro_w]. fold p in K1. rewrite K1. unfold Rdiv. ring.
Qed.
Lemma plane_powers : plane_surface track s ->
  power_of_loads ev c track l s = 0 /\ power_of_the_air ev c track l s = power_of_air c i v /\ power_from_nowhere ev c track l s = 0.
Proof.
  intros H. destruct (plane_turn H) as [HO Hw]. destruct above as [C1 C2].
  assert (G : forall x, point_goes ev c track l s x = point_velocity (i_u i) (i_v i) (i_yaw i) x) by (intros x; rewrite goes, HO, Hw; reflexivity).
  refine (conj _ (conj _ _)).
  - unfold power_of_loads. cbv zeta. rewrite !G. unfold point_velocity, patch. cbn [vx vy vz vadd cross]. ring.
  - unfold power_of_the_air, power_of_air. rewrite G. reflexivity.
  - unfold power_from_nowhere. rewrite spin_is, HO. unfold dot, cross. cbn [vx vy vz]. rewrite C1, C2. ring.
Qed.
End Point.

(** ** C146 *)
(** On any track the energy changes with the power of the shafts, of the slip, of the loads of the wheels and of the air, and with what comes
    from nowhere. *)
Theorem C146_energy_partial c track l s0 s1 : on_its_wheels c -> g0 <> 0 -> c_mass (f_chassis c) <> 0 ->
  c_Ixx (f_chassis c) <> 0 -> c_Iyy (f_chassis c) <> 0 -> c_Izz (f_chassis c) <> 0 -> lap_motion (f1_on_track sp ss g0) c track l s0 s1 ->
  forall s dt, s0 < s < s1 -> centreline track s -> advances l s dt ->
  let v := held ev c track l s in
  is_derive (total_energy ev g0 c track l) s
    (dt * (power_of_wheels v + power_of_slip c v + power_of_loads ev c track l s + power_of_the_air ev c track l s + power_from_nowhere ev c track l s)).
Proof. intros W Hg Hm Hx Hy Hz M s dt Hs T A v. exact (energy_rate c track l s0 s1 s dt T A Hs M Hg Hm Hx Hy Hz W). Qed.

(** Where the surface of the road is plane, whatever its slope, the loads do no work and nothing comes from nowhere. *)
Theorem C146_slope c track l s0 s1 : on_its_wheels c -> g0 <> 0 -> c_mass (f_chassis c) <> 0 ->
  c_Ixx (f_chassis c) <> 0 -> c_Iyy (f_chassis c) <> 0 -> c_Izz (f_chassis c) <> 0 -> lap_motion (f1_on_track sp ss g0) c track l s0 s1 ->
  forall s dt, s0 < s < s1 -> centreline track s -> advances l s dt -> plane_surface track s ->
  let v := held ev c track l s in
  is_derive (total_energy ev g0 c track l) s (dt * (power_of_wheels v + power_of_slip c v + power_of_air c (l_input l s) v)).
Proof.
  intros W Hg Hm Hx Hy Hz M s dt Hs T A H v.
  destruct (plane_powers c track l s0 s1 s dt A Hs M Hx Hy W H) as (P1 & P2 & P3). fold v in P2.
  pose proof (C146_energy_partial c track l s0 s1 W Hg Hm Hx Hy Hz M s dt Hs T A) as E. cbv zeta in E. rewrite P1, P3 in E. rewrite P2 in E. fold v in E.
  match type of E with is_derive _ _ ?a => match goal with |- is_derive _ _ ?b => replace b with a by ring; exact E end end.
Qed.

Lemma update_bound c i e ed alpha alphad P Pb : smooth_positive_part sp -> smooth_sign_function ss -> sound_drivetrain c P Pb -> 0 <= i_bias i <= 1 ->
  let v := f1_update sp ss g0 c i e ed alpha alphad 0 in
  tyres_in_range c v -> still_air c i -> t_omega (v_rl v) + t_omega (v_rr v) <> 0 ->
  power_of_wheels v + power_of_slip c v + power_of_air c i v <= sp (i_throttle i) (a_smooth (f_rear c)) * (1000 * P + i_boost i * (1000 * Pb)).
Proof.
  intros Hs Hg (E1 & E2 & S1 & S2 & T1 & T2 & Hd & Hr) Hb v (R1 & R2 & R3 & R4) (N & E & K & Q) Ho.
  assert (HL : forall x, 0 <= tyre_load sp (f_chassis c) (force_z g0 c x)).
  { intros x. unfold tyre_load, neg_force. rewrite Ropp_involutive. apply (Hs _ _ Hr). }
  assert (Wf : fst (v_torque_f v) * t_omega (v_fl v) <= 0 /\ snd (v_torque_f v) * t_omega (v_fr v) <= 0)
    by (apply (C50_brakes sp ss (f_front c) _ _ (i_throttle i) 0 (i_bias i) Hs Hg S1 T1); lra).
  assert (Wr : fst (v_torque_r v) * t_omega (v_rl v) + snd (v_torque_r v) * t_omega (v_rr v) <=
    sp (i_throttle i) (a_smooth (f_rear c)) * (1000 * P + i_boost i * (1000 * Pb)))
    by (apply (C50_bound sp ss (f_rear c) P Pb _ _ (i_throttle i) (i_boost i) (1 - i_bias i) Hs Hg E1 E2 S2 T2 Hd); [lra | exact Ho]).
  pose proof (in_range_slip sp _ _ _ _ _ _ _ Hs (HL (i_zfl i)) R1) as G1. pose proof (in_range_slip sp _ _ _ _ _ _ _ Hs (HL (i_zfr i)) R2) as G2.
  pose proof (in_range_slip sp _ _ _ _ _ _ _ Hs (HL (i_zrl i)) R3) as G3. pose proof (in_range_slip sp _ _ _ _ _ _ _ Hs (HL (i_zrr i)) R4) as G4.
  assert (Pa : power_of_air c i v <= 0).
  { unfold power_of_air, v, f1_update; cbn [v_Fa]. unfold lift_force, drag_force, aerodynamic_velocity, wind_velocity. rewrite N, E.
    set (Qm := frame_matrix _ _). replace (mtapply Qm (V 0 (- 0) 0)) with (V 0 0 0) by (unfold mtapply, dot; cbn; f_equal; ring).
    set (pv := point_velocity _ _ _ _) in *. assert (Pz : vz pv = 0) by (unfold pv, point_velocity, vadd, cross; cbn; ring).
    set (sq := aero_speed _). assert (Hq : 0 <= sq) by apply sqrt_pos.
    unfold dot, vadd, vscale, vopp in *. cbn [vx vy vz] in *. rewrite Pz in *.
    assert (X : 0 <= (ae_rho (f_aero c) * ae_cd (f_aero c) * ae_A (f_aero c)) * sq * (i_u i * vx pv + i_v i * vy pv + 0 * 0)) by (apply Rmult_le_pos; [apply Rmult_le_pos|]; assumption).
    lra. }
  unfold power_of_wheels, power_of_slip. unfold v in *. unfold f1_update in *. cbn [v_fl v_fr v_rl v_rr v_torque_f v_torque_r v_motion v_Fa] in *. lra.
Qed.

(** Over any stretch of such a road the car gains, in speed and height together, no more than the engines can give in the time it takes. *)
Theorem C146_gain c track l s0 s1 a b P Pb Pmax : smooth_positive_part sp -> smooth_sign_function ss -> sound_drivetrain c P Pb ->
  on_its_wheels c -> g0 <> 0 -> c_mass (f_chassis c) <> 0 -> c_Ixx (f_chassis c) <> 0 -> c_Iyy (f_chassis c) <> 0 -> c_Izz (f_chassis c) <> 0 ->
  lap_motion (f1_on_track sp ss g0) c track l s0 s1 -> s0 < a <= b -> b < s1 ->
  (forall s, a <= s <= b -> centreline track s /\ plane_surface track s /\ (exists dt, 0 < dt /\ advances l s dt) /\
     let i := l_input l s in let v := held ev c track l s in
     0 <= i_bias i <= 1 /\ tyres_in_range c v /\ still_air c i /\ t_omega (v_rl v) + t_omega (v_rr v) <> 0 /\
     sp (i_throttle i) (a_smooth (f_rear c)) * (1000 * P + i_boost i * (1000 * Pb)) <= Pmax) ->
  total_energy ev g0 c track l b - total_energy ev g0 c track l a <= Pmax * (l_time l b - l_time l a).
Proof.
  intros Sp Sg SD W Hg Hm Hx Hy Hz M Ha Hb H.
  set (f s := total_energy ev g0 c track l s - Pmax * l_time l s).
  assert (D : forall s, a <= s <= b -> exists d, d <= 0 /\ is_derive f s d).
  { intros s Hs. destruct (H s Hs) as (T & K & (dt & Dp & A) & B & R & Sa & O & Pw). assert (Hi : s0 < s < s1) by lra.
    pose proof (C146_slope c track l s0 s1 W Hg Hm Hx Hy Hz M s dt Hi T A K) as E. cbv zeta in E.
    destruct (plane_turn c track l s0 s1 s dt A Hi M K) as [_ Hw].
    assert (V0 : held ev c track l s = let p := track s in let i := l_input l s in let r := road_update (fr_r p) (fr_e p) (fr_de p) (l_n l s) (l_alpha l s) (i_u i) (i_v i) (i_yaw i) in
      f1_update sp ss g0 c i (fr_e p) (euler_dot (fr_de p) (ro_dtime_ds r)) (l_alpha l s) (ro_alpha_dot r) 0).
    { cbv zeta. match goal with |- _ = f1_update _ _ _ ?c ?i ?e ?ed ?al ?ad 0 => match type of Hw with ?w = 0 => change (f1_update sp ss g0 c i e ed al ad w = f1_update sp ss g0 c i e ed al ad 0) end end. rewrite Hw. reflexivity. }
    cbv zeta in V0. rewrite V0 in R, O.
    pose proof (update_bound c (l_input l s) _ _ _ _ P Pb Sp Sg SD B R Sa O) as U. cbv zeta in U. rewrite <- V0 in U.
    destruct A as (_ & At & _).
    exists (dt * (power_of_wheels (held ev c track l s) + power_of_slip c (held ev c track l s) + power_of_air c (l_input l s) (held ev c track l s)) - Pmax * dt). split.
    - assert (X : 0 <= dt * (Pmax - (power_of_wheels (held ev c track l s) + power_of_slip c (held ev c track l s) + power_of_air c (l_input l s) (held ev c track l s)))) by (apply Rmult_le_pos; lra). lra.
    - apply (is_derive_minus (total_energy ev g0 c track l) (fun x => Pmax * l_time l x)); [exact E|]. apply (is_derive_scal (l_time l)). exact At. }
  destruct (MVT_gen f a b (Derive f)) as (s & Hi & E).
  - intros s. rewrite Rmin_left, Rmax_right by apply Ha. intros Hi. destruct (D s) as (d & _ & Dd); [lra|]. rewrite (is_derive_unique _ _ _ Dd). exact Dd.
  - intros s. rewrite Rmin_left, Rmax_right by apply Ha. intros Hi. destruct (D s Hi) as (d & _ & Dd). apply derivable_continuous_pt. exists d. apply is_derive_Reals, Dd.
  - rewrite Rmin_left, Rmax_right in Hi by apply Ha. destruct (D s Hi) as (d & Dn & Dd). rewrite (is_derive_unique _ _ _ Dd) in E. unfold f in E.
    assert (0 <= (- d) * (b - a)) by (apply Rmult_le_pos; lra). lra.
Qed.
End Functions.

(** ** A lap: the car of C140 coasts along a straight and slows down *)
Lemma straight_plane s : plane_surface straight s.
Proof. unfold plane_surface, straight, curvature. cbn [fr_e fr_de yaw pitch roll vx vy]. rewrite ?sin_0, ?cos_0. split; ring. Qed.
Lemma held_straight s : held (eval positive_part same_sign (981 / 100)) coasting_car straight straight_lap s = coasting_eval (slowing s).
Proof. destruct (on_straight_eval (slowing s) s (slowing_pos s)) as (_ & _ & _ & E). exact E. Qed.
Example C146_case : let g := 981 / 100 in let ev := eval positive_part same_sign g in
  smooth_positive_part positive_part /\ smooth_sign_function same_sign /\ sound_drivetrain coasting_car (735499 / 1000) 120 /\ on_its_wheels coasting_car /\ g <> 0 /\
  c_mass (f_chassis coasting_car) <> 0 /\ c_Ixx (f_chassis coasting_car) <> 0 /\ c_Iyy (f_chassis coasting_car) <> 0 /\ c_Izz (f_chassis coasting_car) <> 0 /\
  lap_motion (f1_on_track positive_part same_sign g) coasting_car straight straight_lap 0 1000 /\
  (forall s, 100 <= s <= 900 -> centreline straight s /\ plane_surface straight s /\ (exists dt, 0 < dt /\ advances straight_lap s dt) /\
     let i := l_input straight_lap s in let v := held ev coasting_car straight straight_lap s in
     0 <= i_bias i <= 1 /\ tyres_in_range coasting_car v /\ still_air coasting_car i /\ t_omega (v_rl v) + t_omega (v_rr v) <> 0 /\
     positive_part (i_throttle i) (a_smooth (f_rear coasting_car)) * (1000 * (735499 / 1000) + i_boost i * (1000 * 120)) <= 0) /\
  total_energy ev g coasting_car straight straight_lap 900 < total_energy ev g coasting_car straight straight_lap 100.
Proof.
  intros g ev. destruct C140_case as (_ & Hg & Hm & Hz & L & CA & MV & _). destruct C138_case as (S1 & S2 & S3 & S4 & _).
  split; [exact S1|]. split; [exact S2|]. split; [exact S3|]. split; [exact S4|]. split; [exact Hg|]. split; [exact Hm|]. split; [cbn; lra|]. split; [cbn; lra|]. split; [exact Hz|]. split; [exact L|].
  split.
  - intros s Hs. destruct (CA s ltac:(lra)) as [C A]. pose proof (slowing_pos s) as Pt. split; [exact C|]. split; [apply straight_plane|].
    split; [exists (1 / slowing s); split; [apply Rdiv_lt_0_compat; lra | exact A]|]. intros i v. split; [cbn; lra|].
    change v with (held ev coasting_car straight straight_lap s). unfold ev, g. rewrite held_straight. destruct (coasting_tyres _ Pt) as (H1 & H2 & H3 & H4).
    assert (Rg : forall t, free_tyre (slowing s) t -> tyre_in_range (Wheel (1 / 3) (even_tyre 1)) t).
    { intros t (F & _ & Vv & _). unfold tyre_in_range. rewrite F, Vv. pose proof PI_RGT_0.
      unfold maximum_kappa, maximum_lambda, q_lambda_max1, q_lambda_max2, DEG; cbn. repeat split; lra. }
    split; [refine (conj (Rg _ H1) (conj (Rg _ H2) (conj (Rg _ H3) (Rg _ H4))))|].
    split. { unfold still_air, point_velocity, dot, vadd, cross; cbn. repeat split; try lra. pose proof (Rle_0_sqr (slowing s)) as Q. unfold Rsqr in Q. lra. }
    split. { destruct H3 as (_ & _ & _ & ->), H4 as (_ & _ & _ & ->). lra. }
    unfold positive_part; cbn. rewrite Rmax_left by lra. lra.
  - assert (E : forall s, 0 < s < 1000 -> total_energy ev g coasting_car straight straight_lap s = 1 / 2 * 660 * (slowing s * slowing s) -
        660 * g * vz (mass_position coasting_car straight straight_lap s)).
    { intros s Hs. unfold total_energy, ev, g. rewrite (MV s Hs).
      assert (Mo : v_motion (coasting_eval (slowing s)) = equations3 (f_chassis coasting_car) (v_F (coasting_eval (slowing s))) (v_T (coasting_eval (slowing s))) (slowing s) 0 0 (V 0 0 0)).
      { unfold coasting_eval, plane_eval, f1_update. rewrite plane_omega. reflexivity. }
      unfold spin. cbv zeta. rewrite held_straight, Mo. cbn [equations3 mo_roll_momentum mo_pitch_momentum straight_lap l_input coasting_input i_yaw vx vy vz].
      unfold dot, wheel_energy. cbn [vx vy vz coasting_car f_chassis c_mass c_Ixx c_Iyy c_Izz f_front f_rear a_I coasting_axle]. field. }
    assert (Z : forall s, vz (mass_position coasting_car straight straight_lap s) = vz (mass_position coasting_car straight straight_lap 0)) by reflexivity.
    rewrite !E by lra. rewrite (Z 900), (Z 100).
    assert (D : slowing 900 < slowing 100) by (unfold slowing; apply Rmult_lt_compat_l; [lra|]; apply exp_increasing; lra).
    pose proof (slowing_pos 900) as P9. assert (slowing 900 * slowing 900 < slowing 100 * slowing 100) by (apply Rmult_le_0_lt_compat; lra). lra.
Qed.

(** ** Power from nowhere: over a crest, the torque of the drag about the wrong point *)
Definition crest (s : R) : frenet := Frenet (V s 0 0) (Euler 0 (- s / 100) 0) (Euler 0 (- (1 / 100)) 0).
Theorem C146_energy_refuted : exists c track l s, on_its_wheels c /\ centreline track s /\ let ev := eval positive_part same_sign (981 / 100) in
  let v := held ev c track l s in
  let torque_of_the_air := vsub (v_T v) (tyre_moments ev c track l s) in
  dot (v_Fa v) (mo_v (v_motion v)) + dot torque_of_the_air (spin ev c track l s) > power_of_the_air ev c track l s.
Proof.
  exists raised_car, crest, straight_lap, 0. split; [unfold on_its_wheels; cbn; repeat split; lra|]. split.
  { assert (E0 : fr_e (crest 0) = Euler 0 0 0) by (unfold crest; cbn [fr_e]; f_equal; field).
    assert (Et : tangent (Euler 0 0 0) = V 1 0 0) by (unfold tangent; cbn [yaw pitch roll]; rewrite ?sin_0, ?cos_0; f_equal; ring).
    assert (D0 : is_derive (fun _ : R => 0) 0 0) by exact (is_derive_const (0 : R_AbsRing) 0).
    unfold centreline. rewrite E0, Et. unfold crest. cbn [fr_r fr_e fr_de yaw pitch roll]. refine (conj (conj _ (conj _ _)) (conj _ (conj _ _))); cbn [vx vy vz]; try apply D0.
    - exact (is_derive_id (0 : R)).
    - auto_derive; [exact I | field]. }
  intros ev v torque. pose proof (slowing_pos 0) as P. set (u := slowing 0) in *.
  assert (S0 : slowing 0 = u) by reflexivity. clearbody u.
  assert (HT : torque = vsub (moment raised_car (c_aero_x (f_chassis raised_car)) (v_Fa v)) (cross (c_com (f_chassis raised_car)) (v_Fa v))).
  { unfold torque. rewrite (held_torque positive_part same_sign (981 / 100) raised_car crest straight_lap 0 : v_T v = _). fold ev. fold v.
    generalize (tyre_moments ev raised_car crest straight_lap 0). intros [a1 a2 a3]. clearbody v. destruct (v_Fa v). apply vec_eq; cbn; ring. }
  rewrite HT. clear HT torque.
  set (Om := frame_omega (Euler 0 0 0) (Euler 0 (- (1 / 100) * u) 0) 0 0).
  assert (EV : v = f1_update positive_part same_sign (981 / 100) raised_car (coasting_input u) (Euler 0 0 0) (Euler 0 (- (1 / 100) * u) 0) 0 0 0).
  { unfold v, held, ev, eval, track_eval. cbn [snd straight_lap l_input l_n l_alpha crest fr_r fr_e fr_de]. rewrite S0. replace (- 0 / 100) with 0 by field.
    change (i_u (coasting_input u)) with u. change (i_v (coasting_input u)) with 0. change (i_yaw (coasting_input u)) with 0.
    assert (K : vz (curvature (Euler 0 0 0) (Euler 0 (- (1 / 100)) 0)) = 0) by (unfold curvature; cbn [yaw pitch roll vz]; rewrite ?sin_0, ?cos_0; ring).
    set (r := road_update _ _ _ _ _ _ _ _).
    assert (D : ro_dtime_ds r = 1 / u) by (unfold r, road_update; cbn [ro_dtime_ds]; rewrite K, sin_0, cos_0; field; lra).
    assert (A : ro_alpha_dot r = 0) by (unfold r, road_update; cbn [ro_alpha_dot]; rewrite K; unfold Rdiv; ring).
    assert (Wr : ro_w r = 0) by (unfold r, road_update; cbn [ro_w]; unfold Rdiv; ring).
    rewrite D, A, Wr. clearbody r. unfold euler_dot. cbn [yaw pitch roll]. f_equal. f_equal; field; lra. }
  assert (Fa : v_Fa v = V (- (66 / 100 * (u * u))) 0 0).
  { rewrite EV, <- (coasting_air u P). unfold coasting_eval, plane_eval, f1_update. cbn [v_Fa]. reflexivity. }
  assert (Sp : spin ev raised_car crest straight_lap 0 = V 0 (- (1 / 100) * u) 0).
  { unfold spin. fold v. rewrite EV. unfold f1_update. cbn [v_motion equations3 mo_roll_momentum mo_pitch_momentum straight_lap l_input coasting_input i_yaw vx vy vz].
    unfold frame_omega, curvature, rot_z. cbn [yaw pitch roll]. rewrite sin_0, cos_0. apply vec_eq; cbv [vadd mtapply dot vx vy vz col1 col2 col3 raised_car f_chassis c_Ixx c_Iyy]; field. }
  unfold power_of_the_air, point_goes. fold v. rewrite Fa, Sp. generalize (mo_v (v_motion v)). intros [m1 m2 m3].
  unfold dot, moment, cross, vadd, vsub, raised_car. cbn [vx vy vz f_chassis c_com c_aero_x].
  assert (0 < u * u * u) by (repeat apply Rmult_lt_0_compat; exact P). lra.
Qed.

Print Assumptions C146_energy_partial.
Print Assumptions C146_slope.
Print Assumptions C146_gain.
Print Assumptions C146_energy_refuted.
