(** Property theorem C156: circuits in another place and with another orientation. *)
From Coq Require Import Reals Lra Lia List.
From Verif Require Import M_Vec M_Tire M_Car M_Road M_F1 M_Kart6 M_KartCar M_Feasible M_RealLap M_RateLap S_F1 S_KartCar S_RealLap S_Moved L_F1 L_RealLap P_Tire P_Car P_F1 P_KartCar P_KartGrip P_RealLap.
Import ListNotations.
Local Open Scope R_scope.

Lemma turned_wind theta e alpha a : mtapply (frame_matrix (Euler (yaw e + theta) (pitch e) (roll e)) alpha) (V (ae_east (turn_wind theta a)) (- ae_north (turn_wind theta a)) 0) =
  mtapply (frame_matrix e alpha) (V (ae_east a) (- ae_north a) 0).
Proof.
  unfold frame_matrix. rewrite !mtapply_mul. cbn [yaw pitch roll turn_wind ae_east ae_north]. do 3 f_equal.
  unfold rot_z. rewrite cos_plus, sin_plus. pose proof (sin2_cos2 theta) as T. unfold Rsqr in T.
  set (st := sin theta) in *. set (ct := cos theta) in *. set (E := ae_east a). set (N := ae_north a). set (y := yaw e).
  apply vec_eq; cbv [vx vy vz mtapply dot col1 col2 col3].
  - transitivity ((st * st + ct * ct) * (cos y * E - sin y * N)); [ring | rewrite T; ring].
  - transitivity ((st * st + ct * ct) * (- sin y * E - cos y * N)); [ring | rewrite T; ring].
  - ring.
Qed.
Lemma turned_height theta e alpha b : vz (mapply (frame_matrix (Euler (yaw e + theta) (pitch e) (roll e)) alpha) b) = vz (mapply (frame_matrix e alpha) b).
Proof.
  unfold frame_matrix. rewrite !mapply_mul. cbn [yaw pitch roll]. generalize (mapply (rot_y (pitch e)) (mapply (rot_x (roll e)) (mapply (rot_z alpha) b))). intros [x y z].
  cbv [mapply rot_z col1 col2 col3 vadd vscale vx vy vz]. ring.
Qed.
Lemma turned_normal theta e : normal (Euler (yaw e + theta) (pitch e) (roll e)) =
  V (cos theta * vx (normal e) - sin theta * vy (normal e)) (sin theta * vx (normal e) + cos theta * vy (normal e)) (vz (normal e)).
Proof. unfold normal. cbn [yaw pitch roll vx vy vz]. rewrite cos_plus, sin_plus. f_equal; ring. Qed.

(** C156: where the car is and where it heads moves with the circuit. *)
Theorem C156_position theta d p n alpha u v omega :
  let r := road_update (fr_r p) (fr_e p) (fr_de p) n alpha u v omega in
  let q := moved_frame theta d p in let r' := road_update (fr_r q) (fr_e q) (fr_de q) n alpha u v omega in
  ro_position r' = moved_place theta d (ro_position r) /\ ro_psi r' = ro_psi r + theta.
Proof.
  intros r q r'. split.
  - unfold r', r, q, road_update, moved_frame. cbn [fr_r fr_e fr_de ro_position]. rewrite turned_normal. unfold moved_place. generalize (normal (fr_e p)). intros [x y z]. apply vec_eq; cbv [vx vy vz vadd vscale]; ring.
  - unfold r', r, q, road_update, moved_frame. cbn [fr_e ro_psi yaw]. ring.
Qed.

Section F1.
Context (sp ss : R -> R -> R) (g0 : R).
Lemma f1_update_turned theta c i e ed alpha alphad w :
  f1_update sp ss g0 (in_turned_wind theta c) i (Euler (yaw e + theta) (pitch e) (roll e)) ed alpha alphad w = f1_update sp ss g0 c i e ed alpha alphad w.
Proof.
  unfold f1_update. cbn [in_turned_wind f_chassis f_aero f_xf f_xr f_front f_rear f_fl f_fr f_rl f_rr].
  unfold lift_force, drag_force, aerodynamic_velocity, wind_velocity. rewrite turned_wind. cbn [turn_wind ae_rho ae_cd ae_cl ae_A]. reflexivity.
Qed.
Lemma f1_moved_track theta d c i p time n alpha : 
  snd (track_eval sp ss g0 (in_turned_wind theta c) i (moved_frame theta d p) n alpha) = snd (track_eval sp ss g0 c i p n alpha) /\
  f1_on_track sp ss g0 (in_turned_wind theta c) i (moved_frame theta d p) time n alpha = f1_on_track sp ss g0 c i p time n alpha.
Proof.
  unfold f1_on_track, track_eval, moved_frame. cbn [fr_r fr_e fr_de snd]. rewrite f1_update_turned. split; reflexivity.
Qed.
(** The car does at every point what it does on the circuit as it was. *)
Theorem C156_car theta d c i p time n alpha : f1_on_track sp ss g0 (in_turned_wind theta c) i (moved_frame theta d p) time n alpha = f1_on_track sp ss g0 c i p time n alpha.
Proof. apply f1_moved_track. Qed.
Lemma f1_moved_point theta d c ci elevated lo hi s p :
  f1_point_eval sp ss g0 (in_turned_wind theta c) (moved_circuit theta d ci) elevated lo hi s p = f1_point_eval sp ss g0 c ci elevated lo hi s p.
Proof.
  unfold f1_point_eval. cbn [moved_circuit ci_frame ci_left ci_right].
  destruct (f1_moved_track theta d c (fp_in p) (ci_frame ci s) 0 (fp_n p) (fp_alpha p)) as [E1 E2]. rewrite E2.
  destruct (track_eval sp ss g0 (in_turned_wind theta c) (fp_in p) (moved_frame theta d (ci_frame ci s)) (fp_n p) (fp_alpha p)) as [r' v'].
  destruct (track_eval sp ss g0 c (fp_in p) (ci_frame ci s) (fp_n p) (fp_alpha p)) as [r v]. cbn [snd] in E1. subst v'. reflexivity.
Qed.
(** C156: every lap is a lap of the moved circuit, in the same wind as seen from the track, with the same value. *)
Theorem C156_laps theta d c ci elevated lo hi pts :
  same_lap (f1_lap sp ss g0 c ci elevated lo hi pts) (f1_lap sp ss g0 (in_turned_wind theta c) (moved_circuit theta d ci) elevated lo hi pts).
Proof.
  assert (E : f1_lap sp ss g0 (in_turned_wind theta c) (moved_circuit theta d ci) elevated lo hi pts = f1_lap sp ss g0 c ci elevated lo hi pts).
  { unfold f1_lap. apply map_ext. intros p. rewrite f1_moved_point. reflexivity. }
  intros sigma dis restricted closed L. rewrite E. split; reflexivity.
Qed.
Theorem C156_rates theta d c ci elevated lo hi pts :
  same_rated_lap (f1_rated sp ss g0 c ci elevated lo hi pts) (f1_rated sp ss g0 (in_turned_wind theta c) (moved_circuit theta d ci) elevated lo hi pts).
Proof.
  assert (E : f1_rated sp ss g0 (in_turned_wind theta c) (moved_circuit theta d ci) elevated lo hi pts = f1_rated sp ss g0 c ci elevated lo hi pts).
  { unfold f1_rated. apply map_ext. intros p. rewrite f1_moved_point. reflexivity. }
  intros meshed rlo rhi sigma dis restricted closed L. rewrite E. split; reflexivity.
Qed.
(** C156: the best lap takes the same time. *)
Theorem C156_best theta d c ci elevated lo hi sigma dis restricted closed L mesh T :
  best (f1_lap sp ss g0 c ci elevated lo hi) sigma dis restricted closed L mesh T <->
  best (f1_lap sp ss g0 (in_turned_wind theta c) (moved_circuit theta d ci) elevated lo hi) sigma dis restricted closed L mesh T.
Proof.
  assert (A : forall U, attained (f1_lap sp ss g0 c ci elevated lo hi) sigma dis restricted closed L mesh U <->
    attained (f1_lap sp ss g0 (in_turned_wind theta c) (moved_circuit theta d ci) elevated lo hi) sigma dis restricted closed L mesh U).
  { intros U. split; intros (pts & Em & F & O); exists pts; destruct (C156_laps theta d c ci elevated lo hi pts sigma dis restricted closed L) as [C1 C2]; (split; [exact Em|]); split.
    - apply C1, F.
    - rewrite C2. exact O.
    - apply C1, F.
    - rewrite <- C2. exact O. }
  unfold best. rewrite A. split; intros [B H]; (split; [exact B|]); intros U HU; apply H, A, HU.
Qed.
(** In still air the car is the same. *)
Theorem C156_still_air theta c : ae_north (f_aero c) = 0 -> ae_east (f_aero c) = 0 -> in_turned_wind theta c = c.
Proof. intros N E. destruct c as [ch [rho cd cl Ar no ea] xf xr f r fl fr rl rr]. cbn in N, E. subst. unfold in_turned_wind, turn_wind; cbn. do 2 f_equal; ring. Qed.
End F1.

Section Kart.
Context (sp ss : R -> R -> R) (linsolve : mat -> vec -> vec).
Lemma kart_moved_track theta d c i p time n alpha : vz d = 0 ->
  snd (kart_track_eval sp ss linsolve (kart_in_turned_wind theta c) i (moved_frame theta d p) n alpha) = snd (kart_track_eval sp ss linsolve c i p n alpha) /\
  kart_on_track sp ss linsolve (kart_in_turned_wind theta c) i (moved_frame theta d p) time n alpha = kart_on_track sp ss linsolve c i p time n alpha.
Proof.
  intros Hd. assert (E : snd (kart_track_eval sp ss linsolve (kart_in_turned_wind theta c) i (moved_frame theta d p) n alpha) = snd (kart_track_eval sp ss linsolve c i p n alpha)).
  { unfold kart_track_eval. cbn [snd]. pose proof (C156_position theta d p n alpha (q_u (i_state i)) (q_v (i_state i)) (q_omega (i_state i))) as [Po _]. cbv zeta in Po. rewrite Po. clear Po.
    unfold moved_frame. cbn [fr_r fr_e fr_de].
    change (road_update (moved_place theta d (fr_r p)) (Euler (yaw (fr_e p) + theta) (pitch (fr_e p)) (roll (fr_e p))) (fr_de p) n alpha (q_u (i_state i)) (q_v (i_state i)) (q_omega (i_state i)))
      with (let r := road_update (fr_r p) (fr_e p) (fr_de p) n alpha (q_u (i_state i)) (q_v (i_state i)) (q_omega (i_state i)) in
            RoadOut (ro_dtime_ds r) (ro_n_dot r) (ro_alpha_dot r) (vadd (moved_place theta d (fr_r p)) (vscale n (normal (Euler (yaw (fr_e p) + theta) (pitch (fr_e p)) (roll (fr_e p)))))) (alpha + (yaw (fr_e p) + theta)) (ro_w r)).
    cbv zeta. cbn [ro_dtime_ds ro_alpha_dot ro_w]. generalize (road_update (fr_r p) (fr_e p) (fr_de p) n alpha (q_u (i_state i)) (q_v (i_state i)) (q_omega (i_state i))). intros r.
    assert (Eh : vz (moved_place theta d (ro_position r)) = vz (ro_position r)) by (unfold moved_place; cbn [vz]; rewrite Hd; ring). rewrite Eh.
    unfold kart_update. cbn [kart_in_turned_wind c_body c_aero c_front c_rear c_tf c_tr c_engine c_Tmax c_smooth c_inertia].
    unfold lift_force, drag_force, aerodynamic_velocity, wind_velocity. rewrite turned_wind. cbn [turn_wind ae_rho ae_cd ae_cl ae_A].
    rewrite !(fun mode a t h U Om x rel phi dphi delta omega => axle_flat sp mode a t h (frame_matrix (fr_e p) alpha) (frame_matrix (Euler (yaw (fr_e p) + theta) (pitch (fr_e p)) (roll (fr_e p))) alpha) U Om x rel phi dphi delta omega
       (turned_height theta (fr_e p) alpha)).
    reflexivity. }
  split; [exact E|]. unfold kart_on_track.
  change (kart_track_eval sp ss linsolve (kart_in_turned_wind theta c) i (moved_frame theta d p) n alpha) with
    (road_update (fr_r (moved_frame theta d p)) (fr_e (moved_frame theta d p)) (fr_de (moved_frame theta d p)) n alpha (q_u (i_state i)) (q_v (i_state i)) (q_omega (i_state i)),
     snd (kart_track_eval sp ss linsolve (kart_in_turned_wind theta c) i (moved_frame theta d p) n alpha)).
  change (kart_track_eval sp ss linsolve c i p n alpha) with (road_update (fr_r p) (fr_e p) (fr_de p) n alpha (q_u (i_state i)) (q_v (i_state i)) (q_omega (i_state i)), snd (kart_track_eval sp ss linsolve c i p n alpha)).
  rewrite E. reflexivity.
Qed.
(** The kart, on a circuit moved horizontally. *)
Theorem C156_kart theta d c i p time n alpha : vz d = 0 ->
  kart_on_track sp ss linsolve (kart_in_turned_wind theta c) i (moved_frame theta d p) time n alpha = kart_on_track sp ss linsolve c i p time n alpha.
Proof. intros Hd. apply kart_moved_track, Hd. Qed.
Lemma kart_moved_point theta d c ci lo hi s p : vz d = 0 ->
  kart_point_eval sp ss linsolve (kart_in_turned_wind theta c) (moved_circuit theta d ci) lo hi s p = kart_point_eval sp ss linsolve c ci lo hi s p.
Proof.
  intros Hd. unfold kart_point_eval. cbn [moved_circuit ci_frame ci_left ci_right].
  destruct (kart_moved_track theta d c (kp_in p) (ci_frame ci s) 0 (kp_n p) (kp_alpha p) Hd) as [E1 E2]. rewrite E2.
  destruct (kart_track_eval sp ss linsolve (kart_in_turned_wind theta c) (kp_in p) (moved_frame theta d (ci_frame ci s)) (kp_n p) (kp_alpha p)) as [r' v'].
  destruct (kart_track_eval sp ss linsolve c (kp_in p) (ci_frame ci s) (kp_n p) (kp_alpha p)) as [r v]. cbn [snd] in E1. subst v'. reflexivity.
Qed.
Theorem C156_kart_laps theta d c ci lo hi pts : vz d = 0 ->
  same_lap (kart_lap_points sp ss linsolve c ci lo hi pts) (kart_lap_points sp ss linsolve (kart_in_turned_wind theta c) (moved_circuit theta d ci) lo hi pts).
Proof.
  intros Hd. assert (E : kart_lap_points sp ss linsolve (kart_in_turned_wind theta c) (moved_circuit theta d ci) lo hi pts = kart_lap_points sp ss linsolve c ci lo hi pts).
  { unfold kart_lap_points. apply map_ext. intros p. rewrite kart_moved_point by exact Hd. reflexivity. }
  intros sigma dis restricted closed L. rewrite E. split; reflexivity.
Qed.
Theorem C156_kart_rates theta d c ci lo hi pts : vz d = 0 ->
  same_rated_lap (kart_rated sp ss linsolve c ci lo hi pts) (kart_rated sp ss linsolve (kart_in_turned_wind theta c) (moved_circuit theta d ci) lo hi pts).
Proof.
  intros Hd. assert (E : kart_rated sp ss linsolve (kart_in_turned_wind theta c) (moved_circuit theta d ci) lo hi pts = kart_rated sp ss linsolve c ci lo hi pts).
  { unfold kart_rated. apply map_ext. intros p. rewrite kart_moved_point by exact Hd. reflexivity. }
  intros meshed rlo rhi sigma dis restricted closed L. rewrite E. split; reflexivity.
Qed.
End Kart.

(** The gliding car on a circuit turned by a right angle and moved: the circuit is another one, and the lap is feasible with the value that it had. *)
Example C156_case : let ci := moved_circuit (PI / 2) (V 3 4 5) straight in
  fr_r (ci_frame ci 10) = V 3 14 5 /\ yaw (fr_e (ci_frame ci 10)) = PI / 2 /\ ae_north (f_aero gliding_car) = 0 /\ ae_east (f_aero gliding_car) = 0 /\
  let lap := f1_lap positive_part same_sign (981 / 100) gliding_car ci false gliding_low gliding_high [(0, gliding_point 50 0); (40, gliding_point 50 1)] in
  lap_feasible (1 / 2) [(5%nat, (0, 1))] true 100 lap /\ lap_objective (1 / 2) [0; 12; 0; 0] true 100 lap = 5 / 2.
Proof.
  intros ci. split. { unfold ci, moved_circuit, moved_frame, moved_place, straight, flat_point. cbn. rewrite sin_PI2, cos_PI2. f_equal; ring. }
  split. { unfold ci, moved_circuit, moved_frame, straight, flat_point. cbn. ring. }
  split; [reflexivity|]. split; [reflexivity|]. intros lap.
  pose proof (C156_laps positive_part same_sign (981 / 100) (PI / 2) (V 3 4 5) gliding_car straight false gliding_low gliding_high [(0, gliding_point 50 0); (40, gliding_point 50 1)] (1 / 2) [0; 12; 0; 0] [(5%nat, (0, 1))] true 100) as [A B].
  rewrite C156_still_air in A, B by reflexivity. destruct C151_case as (_ & _ & _ & F & O & _). split; [apply A; exact F|]. unfold lap, ci. rewrite B. exact O.
Qed.

Print Assumptions C156_position.
Print Assumptions C156_car.
Print Assumptions C156_laps.
Print Assumptions C156_rates.
Print Assumptions C156_best.
Print Assumptions C156_still_air.
Print Assumptions C156_kart.
Print Assumptions C156_kart_laps.
Print Assumptions C156_kart_rates.
