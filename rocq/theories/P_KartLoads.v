(** Property theorems C159: the loads of the tyres of the kart. *)
From Coq Require Import Reals Lra List.
From Coquelicot Require Import Coquelicot.
From Verif Require Import M_Vec M_Tire M_Car M_Road M_F1 M_Kart6 M_KartCar S_F1 S_Kart6 P_Kart6 S_KartCar S_KartGrip S_KartEnergy S_KartLoads L_F1 P_Tire P_F1 P_F1Wheels P_KartCar P_KartGrip.
Import ListNotations.
Local Open Scope R_scope.

Section Functions.
Context (sp ss : R -> R -> R) (linsolve : mat -> vec -> vec).

(** The forces of a tyre act where it touches the road, at height 0. *)
Lemma tyre_contact t Q U Om x rel delta omega : (forall a, vz (mapply Q a) = vz a) ->
  let w := ktyre_at sp t 0 Q U Om x rel delta omega in
  vadd (mapply (rot_z delta) (t_T w)) (cross x (mapply (rot_z delta) (t_F w))) = cross (V (vx x) (vy x) 0) (mapply (rot_z delta) (t_F w)).
Proof.
  intros HQ w.
  assert (T : t_T w = cross (V 0 0 (- vz x)) (t_F w)).
  { unfold w, ktyre_at, tire_update, tire_forces. cbv zeta. cbn [t_T t_F]. unfold ktyre_w, contact_point. rewrite HQ.
    f_equal. cbn. f_equal. ring. }
  rewrite T. destruct (t_F w) as [f1 f2 f3], x as [x1 x2 x3]. unfold rot_z. apply vec_eq; cbv [vx vy vz vadd cross mapply col1 col2 col3 vscale]; ring.
Qed.

Lemma axle_contact mode a t Q U Om x rel phi dphi delta omega : (forall b, vz (mapply Q b) = vz b) ->
  let r := axle_update sp mode a t 0 Q U Om x rel phi dphi delta omega in
  let T := vadd (x_T r) (cross x (x_F r)) in
  vz (x_F r) = - (load (x_left r) + load (x_right r)) /\
  vx T = - ((vy x - b_track a / 2) * load (x_left r) + (vy x + b_track a / 2) * load (x_right r)) /\
  vy T = vx x * load (x_left r) + vx x * load (x_right r).
Proof.
  intros HQ r T. unfold T, r, axle_update. cbv zeta. cbn [x_F x_T x_left x_right].
  set (ol := V 0 (- (1 / 2) * b_track a) _). set (or := V 0 (1 / 2 * b_track a) _).
  match goal with |- context [ktyre_at sp t 0 Q U Om (vadd x ol) ?rl delta omega] => pose proof (tyre_contact t Q U Om (vadd x ol) rl delta omega HQ) as L; set (tl := ktyre_at sp t 0 Q U Om (vadd x ol) rl delta omega) in * end.
  match goal with |- context [ktyre_at sp t 0 Q U Om (vadd x or) ?rl delta omega] => pose proof (tyre_contact t Q U Om (vadd x or) rl delta omega HQ) as K; set (tr := ktyre_at sp t 0 Q U Om (vadd x or) rl delta omega) in * end.
  cbv zeta in L, K. unfold load. clearbody tl tr.
  assert (Z : forall f, vz (mapply (rot_z delta) f) = vz f) by (intros [f1 f2 f3]; unfold rot_z; cbv [mapply col1 col2 col3 vadd vscale vx vy vz]; ring).
  assert (Zl := Z (t_F tl)). assert (Zr := Z (t_F tr)).
  unfold axle_force, axle_torque.
  set (Fl := mapply (rot_z delta) (t_F tl)) in *. set (Fr := mapply (rot_z delta) (t_F tr)) in *.
  set (Tl := mapply (rot_z delta) (t_T tl)) in *. set (Tr := mapply (rot_z delta) (t_T tr)) in *.
  assert (S : vadd (vadd (vadd (vadd Tl (cross ol Fl)) Tr) (cross or Fr)) (cross x (vadd Fl Fr)) =
              vadd (cross (V (vx (vadd x ol)) (vy (vadd x ol)) 0) Fl) (cross (V (vx (vadd x or)) (vy (vadd x or)) 0) Fr)).
  { rewrite <- L, <- K. apply vec_eq; cbn; ring. }
  rewrite S, <- Zl, <- Zr. unfold ol, or. cbn. repeat split; field.
Qed.

(** The moment the chassis is given, whatever the state: that of the loads and of the air. *)
Lemma plane_moments c i psi : let b := c_body c in let q := i_state i in
  let v := kart_plane_eval sp ss linsolve c i psi in
  let air := cross (com_position b q) (n_Fa v) in
  vz (n_F v) = - all_load (loaded_points c v) + k_mass b * g0 + vz (n_Fa v) /\
  vx (n_T v) = - to_the_right (loaded_points c v) + vx air /\ vy (n_T v) = forwards (loaded_points c v) + vy air.
Proof.
  intros b q v air. unfold air, v, kart_plane_eval, kart_update. cbv zeta. cbn [n_F n_T n_Fa n_front n_rear].
  fold b q. rewrite plane_omega.
  set (xf := axle_in_road b (k_front b) q). set (xr := axle_in_road b (k_rear b) q).
  match goal with |- context [axle_update sp STEERING_FREE_ROLL ?a ?t 0 ?Q ?U ?Om xf ?rel ?phi ?dphi ?de ?om] =>
    pose proof (axle_contact STEERING_FREE_ROLL a t Q U Om xf rel phi dphi de om (flat_height psi)) as A;
    set (f := axle_update sp STEERING_FREE_ROLL a t 0 Q U Om xf rel phi dphi de om) in * end.
  match goal with |- context [axle_update sp POWERED_WITHOUT_DIFFERENTIAL ?a ?t 0 ?Q ?U ?Om xr ?rel ?phi ?dphi ?de ?om] =>
    pose proof (axle_contact POWERED_WITHOUT_DIFFERENTIAL a t Q U Om xr rel phi dphi de om (flat_height psi)) as B;
    set (r := axle_update sp POWERED_WITHOUT_DIFFERENTIAL a t 0 Q U Om xr rel phi dphi de om) in * end.
  cbv zeta in A, B. destruct A as (A1 & A2 & A3), B as (B1 & B2 & B3).
  set (Fa := vadd (lift_force _ _ _) _). clearbody f r Fa.
  unfold total_force6, total_torque6. fold xf xr.
  unfold loaded_points, all_load, to_the_right, forwards, summed; cbn [n_front n_rear fold_right]. fold b.
  assert (Xf : vx xf = vx (k_com b) + vx (k_front b) /\ vy xf = vy (k_com b) + vy (k_front b)) by (split; unfold xf, axle_in_road, com_position, axle_position; cbn; ring).
  assert (Xr : vx xr = vx (k_com b) + vx (k_rear b) /\ vy xr = vy (k_com b) + vy (k_rear b)) by (split; unfold xr, axle_in_road, com_position, axle_position; cbn; ring).
  destruct Xf as [X1 X2], Xr as [X3 X4]. rewrite X1 in A3. rewrite X2 in A2. rewrite X3 in B3. rewrite X4 in B2.
  clearbody xf xr.
  set (cf := cross xf (x_F f)) in *. set (cr := cross xr (x_F r)) in *. set (ca := cross (com_position b q) Fa).
  cbn [vadd vx vy vz] in *. repeat split; lra.
Qed.

(** The weight and the lift of the air are what the tyres carry, when the kart does not move up or down. *)
Theorem C159_weight c i x y psi : 0 < k_mass (c_body c) ->
  let v := kart_plane_eval sp ss linsolve c i psi in
  y_dz (snd (kart_on_plane sp ss linsolve c i x y psi)) = 0 <-> all_load (loaded_points c v) = k_mass (c_body c) * g0 + vz (n_Fa v).
Proof.
  intros Hm v. destruct (plane_moments c i psi) as (E & _). fold v in E.
  assert (A : y_dz (snd (kart_on_plane sp ss linsolve c i x y psi)) = / k_mass (c_body c) * vz (n_F v)).
  { unfold kart_on_plane, cartesian_update. cbn [snd kart_scaled kart_rates y_dz]. unfold v, kart_plane_eval, kart_update. cbv zeta. cbn [n_acc n_F].
    rewrite plane_omega. set (F := total_force6 _ _ _ _). cbn. ring. }
  rewrite A, E. split; intros H.
  - apply Rmult_integral in H. destruct H as [H|H]; [|lra]. exfalso. revert H. apply Rinv_neq_0_compat. lra.
  - rewrite H. ring.
Qed.

(** Loads move to the outside of a turn and to the rear when accelerating: by the mass times the height times the acceleration of
    the centre of mass, and by terms with the vertical displacement and the turning of a rolled and pitched body. *)
Theorem C159_transfer c i x y psi : solves linsolve -> determined (c_body c) (i_state i) ->
  let b := c_body c in let q := i_state i in
  let v := kart_plane_eval sp ss linsolve c i psi in
  let d := snd (kart_on_plane sp ss linsolve c i x y psi) in
  let air := cross (V (vx (k_com b)) (vy (k_com b)) (- height c i)) (n_Fa v) in
  y_phi d = 0 -> y_mu d = 0 -> y_dphi d = 0 -> y_dmu d = 0 -> y_yaw d = 0 ->
  to_the_right (loaded_points c v) = - k_mass b * (height c i * (y_v d + q_omega q * q_u q) + q_z q * y_v d)
    + (k_Iyy b - k_Izz b) * (q_omega q)^2 * q_phi q + vx air /\
  forwards (loaded_points c v) = - k_mass b * (height c i * (y_u d - q_omega q * q_v q) - q_z q * (q_omega q * q_v q))
    - ((k_Ixx b - k_Izz b) * q_mu q + k_Ixz b) * (q_omega q)^2 - vy air.
Proof.
  intros HS HD b q v d air. destruct (plane_moments c i psi) as (_ & Er & Ef). fold b q v in Er, Ef.
  assert (P : com_position b q = V (vx (k_com b)) (vy (k_com b)) (- height c i)) by (unfold com_position, height; apply vec_eq; cbn; fold b q; ring).
  rewrite P in Er, Ef. fold air in Er, Ef. clear P. clearbody air.
  unfold d, kart_on_plane, cartesian_update. cbn [snd kart_scaled kart_rates y_phi y_mu y_dphi y_dmu y_yaw y_u y_v]. fold q v. rewrite !Rmult_1_r.
  intros H1 H2 H3 H4 H5.
  assert (M : mapply (euler_m b q) (n_ang v) = vadd (vopp (euler_lhs b q (vx (n_acc v)) (vy (n_acc v)))) (n_T v)).
  { unfold v, kart_plane_eval, kart_update. cbv zeta. cbn [n_ang n_T n_acc]. fold b q. apply HS. apply determined_det. exact HD. }
  assert (Z : n_ang v = V 0 0 0) by (clear - H3 H4 H5; destruct (n_ang v) as [a1 a2 a3]; cbn [vx vy vz] in H3, H4, H5; subst; reflexivity).
  rewrite Z in M. set (a := n_acc v) in *. set (T := n_T v) in *. clearbody T a.
  pose proof (f_equal vx M) as Mx. pose proof (f_equal vy M) as My.
  unfold euler_m, euler_lhs, mapply in Mx, My. cbn [vx vy vz vadd vopp vscale col1 col2 col3] in Mx, My. rewrite H2 in Mx. rewrite H1 in My.
  unfold height. fold b q. set (h := vz (k_com b)) in *. split; lra.
Qed.

(** On a straight: what the front axle carries. *)
Theorem C159_straight c i x y psi : solves linsolve -> 0 < k_mass (c_body c) -> determined (c_body c) (i_state i) -> q_omega (i_state i) = 0 ->
  let b := c_body c in let q := i_state i in
  let v := kart_plane_eval sp ss linsolve c i psi in
  let d := snd (kart_on_plane sp ss linsolve c i x y psi) in
  let air := cross (V (vx (k_com b)) (vy (k_com b)) (- height c i)) (n_Fa v) in
  y_phi d = 0 -> y_mu d = 0 -> y_dphi d = 0 -> y_dmu d = 0 -> y_yaw d = 0 -> y_dz d = 0 ->
  (load (x_left (n_front v)) + load (x_right (n_front v))) * (vx (k_front b) - vx (k_rear b)) =
  - (vx (k_com b) + vx (k_rear b)) * (k_mass b * g0 + vz (n_Fa v)) - k_mass b * height c i * y_u d - vy air.
Proof.
  intros HS Hm HD Ho b q v d air H1 H2 H3 H4 H5 H6.
  destruct (C159_transfer c i x y psi HS HD H1 H2 H3 H4 H5) as [_ Ef]. apply (C159_weight c i x y psi Hm) in H6.
  fold b q v d air in Ef. fold v b in H6. fold q in Ho. rewrite Ho in Ef. unfold forwards, all_load, summed, loaded_points in Ef, H6. cbn [fold_right] in Ef, H6. fold b in Ef, H6.
  rewrite <- H6. lra.
Qed.
End Functions.

(** The hypotheses hold of a kart that coasts at 10 m/s. *)
Example C159_case m : let c := square_kart m (1 / 10) (- (1 / 20)) (1 / 20) in let i := coasting 0 in
  let d := snd (kart_on_plane positive_part same_sign cramer c i 0 0 0) in
  solves cramer /\ 0 < k_mass (c_body c) /\ determined (c_body c) (i_state i) /\ q_omega (i_state i) = 0 /\ q_u (i_state i) = 10 /\
  y_phi d = 0 /\ y_mu d = 0 /\ y_dphi d = 0 /\ y_dmu d = 0 /\ y_yaw d = 0 /\ y_dz d = 0 /\
  vx (k_front (c_body c)) - vx (k_rear (c_body c)) > 0.
Proof.
  intros c i d. destruct (coasting_rates m) as (E1 & E2 & E3 & E4 & E5 & E6 & E7 & E8 & E9 & E10).
  assert (Hm : 0 < k_mass (c_body c)) by (cbn; lra).
  split; [exact cramer_solves|]. split; [exact Hm|]. split; [unfold determined; cbn; split; lra|]. split; [reflexivity|]. split; [reflexivity|].
  do 6 (split; [assumption|]). cbn; lra.
Qed.

Print Assumptions C159_weight.
Print Assumptions C159_transfer.
Print Assumptions C159_straight.
