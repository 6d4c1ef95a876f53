(** Property theorems C147: the grip of the kart. *)
From Coq Require Import Reals Lra List.
From Coquelicot Require Import Coquelicot.
From Verif Require Import M_Vec M_Tire M_Car M_Road M_F1 M_Kart6 M_KartCar S_F1 S_Kart6 P_Kart6 S_KartCar S_KartGrip L_F1 P_Tire P_F1 P_F1Wheels P_KartCar.
Local Open Scope R_scope.

Lemma free_force_x m lambda Fz : standard_force_x m 0 lambda Fz = 0.
Proof.
  unfold standard_force_x, force_pure_x. destruct (Req_EM_T _ _); [ring|]. unfold magic.
  repeat (rewrite ?Rmult_0_r, ?atan_0, ?Rminus_0_r, ?sin_0). ring.
Qed.
(** A force within the circle of radius [M] is within [M] in every direction. *)
Lemma in_circle X Y M a b : 0 <= M -> X * X + Y * Y <= M * M -> a * a + b * b = 1 -> a * X + b * Y <= M.
Proof.
  intros HM Sq U.
  assert (C : (a * X + b * Y) * (a * X + b * Y) <= M * M).
  { assert (0 <= (a * Y - b * X) * (a * Y - b * X)) by apply Rle_0_sqr.
    assert (I : (a * X + b * Y) * (a * X + b * Y) + (a * Y - b * X) * (a * Y - b * X) = (a * a + b * b) * (X * X + Y * Y)) by ring.
    rewrite U in I. lra. }
  destruct (Rle_dec (a * X + b * Y) M) as [L|L]; [exact L|]. exfalso. apply Rnot_le_lt in L.
  assert (M * M < (a * X + b * Y) * (a * X + b * Y)) by (apply Rmult_le_0_lt_compat; lra). lra.
Qed.
Lemma square_le x y : Rabs x <= Rabs y -> x * x <= y * y.
Proof. intros H. apply Rsqr_le_abs_1 in H. exact H. Qed.

Section Functions.
Context (sp ss : R -> R -> R) (linsolve : mat -> vec -> vec).

(** Every tyre of the kart, in every evaluation. *)
Lemma tyre_sticks mu t h Q U Om x rel delta omega a b : smooth_positive_part sp -> sticks mu t -> a * a + b * b = 1 ->
  let w := ktyre_at sp t h Q U Om x rel delta omega in
  a * vx (mapply (rot_z delta) (t_F w)) + b * vy (mapply (rot_z delta) (t_F w)) <= mu * - vz (t_F w).
Proof.
  intros S (Mu & R2 & G) Un w.
  assert (P : 0 <= - vz (t_F w)) by (unfold w, ktyre_at, tire_update, tire_forces; cbv zeta; cbn [t_F vz]; rewrite Ropp_involutive; apply S; exact R2).
  assert (E : a * vx (mapply (rot_z delta) (t_F w)) + b * vy (mapply (rot_z delta) (t_F w)) =
    (a * cos delta + b * sin delta) * vx (t_F w) + (b * cos delta - a * sin delta) * vy (t_F w)).
  { destruct (t_F w) as [f1 f2 f3]. unfold rot_z. cbv [vx vy mapply vadd vscale col1 col2 col3]. ring. }
  rewrite E. apply in_circle; [apply Rmult_le_pos; assumption | | apply turned; exact Un].
  set (L := - vz (t_F w)) in *.
  assert (Fx : vx (t_F w) = standard_force_x (k_model t) (t_kappa w) (t_lambda w) L) by (unfold L, w, ktyre_at, tire_update, tire_forces; cbv zeta; cbn [t_F t_kappa t_lambda vx vz]; rewrite Ropp_involutive; reflexivity).
  assert (Fy : vy (t_F w) = standard_force_y (k_model t) (t_kappa w) (t_lambda w) L) by (unfold L, w, ktyre_at, tire_update, tire_forces; cbv zeta; cbn [t_F t_kappa t_lambda vy vz]; rewrite Ropp_involutive; reflexivity).
  destruct (C47_standard_partial (k_model t) (t_kappa w) (t_lambda w) L) as [B1 B2]. rewrite <- Fx in B1. rewrite <- Fy in B2. apply square_le in B1, B2.
  assert (L2 : 0 <= L * L) by apply Rle_0_sqr. destruct (k_type t) eqn:Ty.
  - pose proof (Rmult_le_compat_r _ _ _ L2 G) as G'. lra.
  - destruct G as [HR G]. pose proof (Rmult_le_compat_r _ _ _ L2 G) as G'.
    assert (K : t_kappa w = 0).
    { unfold w, ktyre_at, tire_update, tire_forces. rewrite Ty. cbv zeta. cbn [t_kappa]. unfold slip_kappa.
      set (vv := vx _). replace (vv / k_R0 t * k_R0 t - vv) with 0 by (field; exact HR). unfold Rdiv. ring. }
    rewrite K, free_force_x in Fx. rewrite Fx. lra.
Qed.

(** ** C147 *)
Theorem C147_grip c i h e ed alpha alphad w mu a b : smooth_positive_part sp -> sticks mu (c_tf c) -> sticks mu (c_tr c) -> a * a + b * b = 1 ->
  let v := kart_update sp ss linsolve c i h e ed alpha alphad w in
  a * vx (kart_grip v) + b * vy (kart_grip v) <= mu * kart_loads v.
Proof.
  intros S Gf Gr U v.
  assert (T : forall t, sticks mu t -> forall h Q U' Om x rel delta omega, let w := ktyre_at sp t h Q U' Om x rel delta omega in
    a * vx (mapply (rot_z delta) (t_F w)) + b * vy (mapply (rot_z delta) (t_F w)) <= mu * - vz (t_F w)) by (intros; apply tyre_sticks; assumption).
  assert (A : forall mode ax t h Q U' Om x rel phi dphi delta omega, sticks mu t -> let v := axle_update sp mode ax t h Q U' Om x rel phi dphi delta omega in
    a * vx (x_F v) + b * vy (x_F v) <= mu * - vz (t_F (x_left v)) + mu * - vz (t_F (x_right v))).
  { intros mode ax t h' Q U' Om x rel phi dphi delta omega G. unfold axle_update. cbv zeta. cbn [x_F x_left x_right]. unfold axle_force. cbn [vx vy vadd].
    match goal with |- context [axle6_deflection ?m ?a ?k ?r ?z ?p ?d] => set (s := axle6_deflection m a k r z p d) end.
    match goal with |- context [axle6_rates ?a ?k ?d ?p] => set (ds := axle6_rates a k d p) end.
    match goal with |- context [V 0 (- (1 / 2) * b_track ax) ?z] => set (ol := V 0 (- (1 / 2) * b_track ax) z) end.
    match goal with |- context [V 0 (1 / 2 * b_track ax) ?z] => set (or := V 0 (1 / 2 * b_track ax) z) end.
    pose proof (T t G h' Q U' Om (vadd x ol) (vadd rel (V 0 0 (tire_dz_left ax ds dphi))) delta omega) as T1.
    pose proof (T t G h' Q U' Om (vadd x or) (vadd rel (V 0 0 (tire_dz_right ax ds dphi))) delta omega) as T2. cbv zeta in T1, T2. cbn [vx vy vadd] in *. lra. }
  unfold v, kart_update. cbv zeta. unfold kart_grip, kart_loads. cbn [n_front n_rear vx vy vadd].
  pose proof (fun q x rel => A STEERING_FREE_ROLL (c_front c) (c_tf c) h (frame_matrix e alpha) (V (q_u (i_state i)) (q_v (i_state i)) w) (frame_omega e ed alpha alphad) x rel q (q_dphi (i_state i)) (i_delta i) 0 Gf) as A1.
  pose proof (fun q x rel => A POWERED_WITHOUT_DIFFERENTIAL (c_rear c) (c_tr c) h (frame_matrix e alpha) (V (q_u (i_state i)) (q_v (i_state i)) w) (frame_omega e ed alpha alphad) x rel q (q_dphi (i_state i)) 0 (i_omega i) Gr) as A2.
  cbv zeta in A1, A2.
  match goal with |- context [axle_update sp STEERING_FREE_ROLL _ _ _ _ _ _ ?x ?r ?p _ _ _] => pose proof (A1 p x r) as B1 end.
  match goal with |- context [axle_update sp POWERED_WITHOUT_DIFFERENTIAL _ _ _ _ _ _ ?x ?r ?p _ _ _] => pose proof (A2 p x r) as B2 end.
  clear A A1 A2 T. lra.
Qed.
(** The front wheels have no shaft: they roll freely and only push sideways. *)
Theorem C147_front c i h e ed alpha alphad w : k_type (c_tf c) = ONLY_LATERAL -> k_R0 (c_tf c) <> 0 ->
  let v := kart_update sp ss linsolve c i h e ed alpha alphad w in
  forall t, t = x_left (n_front v) \/ t = x_right (n_front v) -> t_kappa t = 0 /\ vx (t_F t) = 0 /\ t_omega t * k_R0 (c_tf c) = vx (t_v t).
Proof.
  intros Ty HR v t Ht.
  assert (F : forall h Q U Om x rel delta omega, let t := ktyre_at sp (c_tf c) h Q U Om x rel delta omega in
    t_kappa t = 0 /\ vx (t_F t) = 0 /\ t_omega t * k_R0 (c_tf c) = vx (t_v t)).
  { intros h' Q U Om x rel delta omega t'. unfold t', ktyre_at, tire_update, tire_forces. rewrite Ty. cbv zeta. cbn [t_kappa t_F t_omega t_v vx].
    match goal with |- context [ktyre_velocity ?a ?b ?d ?e ?f ?g ?k] => set (vv := ktyre_velocity a b d e f g k) end.
    assert (K : slip_kappa (k_R0 (c_tf c)) (vx vv / k_R0 (c_tf c)) vv = 0).
    { unfold slip_kappa. replace (vx vv / k_R0 (c_tf c) * k_R0 (c_tf c) - vx vv) with 0 by (field; exact HR). unfold Rdiv. ring. }
    rewrite K, free_force_x. repeat split. field. exact HR. }
  destruct Ht as [-> | ->]; unfold v, kart_update, axle_update; cbv zeta; cbn [n_front x_left x_right]; apply F.
Qed.
Lemma kart_still_air c i psi : kart_no_wind c ->
  n_Fa (kart_plane_eval sp ss linsolve c i psi) =
  V (- (kart_drag c * sqrt (q_u (i_state i) * q_u (i_state i) + q_v (i_state i) * q_v (i_state i))) * q_u (i_state i))
    (- (kart_drag c * sqrt (q_u (i_state i) * q_u (i_state i) + q_v (i_state i) * q_v (i_state i))) * q_v (i_state i))
    (kart_downforce c * (q_u (i_state i) * q_u (i_state i))).
Proof.
  intros [N E]. unfold kart_plane_eval, kart_update. cbv zeta. cbn [n_Fa]. unfold lift_force, drag_force.
  assert (A : aerodynamic_velocity (c_aero c) (frame_matrix (Euler 0 0 0) psi) (V (q_u (i_state i)) (q_v (i_state i)) 0) = V (- q_u (i_state i)) (- q_v (i_state i)) 0).
  { unfold aerodynamic_velocity, wind_velocity. rewrite N, E. set (Q := frame_matrix _ _). clearbody Q. apply vec_eq; cbv [vx vy vz vadd vopp mtapply dot]; ring. }
  rewrite A. unfold aero_speed. cbn [vx vy]. set (u := q_u (i_state i)). set (w := q_v (i_state i)). replace (- u * - u + - w * - w) with (u * u + w * w) by ring.
  unfold kart_drag, kart_downforce. apply vec_eq; cbv [vx vy vz vadd vscale]; ring.
Qed.
Theorem C147_diagram c speed ax ay mu : smooth_positive_part sp -> 0 < k_mass (c_body c) -> sticks mu (c_tf c) -> sticks mu (c_tr c) ->
  kart_no_wind c -> 0 <= kart_downforce c -> 0 <= speed -> kart_turn (kart_on_plane sp ss linsolve) c speed ax ay ->
  let m := k_mass (c_body c) in
  (m * ax + kart_drag c * (speed * speed)) ^ 2 + (m * ay) ^ 2 <= (mu * (m * g0 + kart_downforce c * (speed * speed))) ^ 2.
Proof.
  intros S Hm Gf Gr W Dn Sp (i & psi & T) m. pose proof (proj1 Gf) as Mu.
  set (v := kart_plane_eval sp ss linsolve c i psi) in *. cbv zeta in T.
  destruct T as (Hu & Hv & Hr & _ & _ & _ & _ & _ & Hw & _ & _ & _ & Hax & Hn).
  pose proof (sin2_cos2 psi) as P. unfold Rsqr in P.
  assert (Es : sqrt (q_u (i_state i) * q_u (i_state i) + q_v (i_state i) * q_v (i_state i)) = speed).
  { rewrite Hu, Hv. replace (speed * cos psi * (speed * cos psi) + - speed * sin psi * (- speed * sin psi)) with (speed * speed * (sin psi * sin psi + cos psi * cos psi)) by ring.
    rewrite P, Rmult_1_r. apply sqrt_square. exact Sp. }
  pose proof (kart_still_air c i psi W) as Fa. fold v in Fa. rewrite Es in Fa.
  unfold kart_on_plane, cartesian_update in Hw, Hax, Hn. fold v in Hw, Hax, Hn. cbn [snd kart_scaled kart_rates y_u y_v y_dz] in Hw, Hax, Hn. rewrite !Rmult_1_r in *.
  assert (EM : n_acc v = vadd (vopp (cross (V 0 0 (q_omega (i_state i))) (V (q_u (i_state i)) (q_v (i_state i)) 0))) (vscale (/ m) (vadd (vadd (kart_grip v) (V 0 0 (m * g0))) (n_Fa v)))).
  { rewrite <- (plane_omega psi (q_omega (i_state i))). reflexivity. }
  assert (EL : vz (kart_grip v) = - kart_loads v).
  { assert (E1 : x_F (n_front v) = axle_force (rot_z (i_delta i)) (rot_z (i_delta i)) (x_left (n_front v)) (x_right (n_front v))) by reflexivity.
    assert (E2 : x_F (n_rear v) = axle_force (rot_z 0) (rot_z 0) (x_left (n_rear v)) (x_right (n_rear v))) by reflexivity.
    unfold kart_grip. rewrite E1, E2. unfold kart_loads, axle_force, rot_z.
    destruct (t_F (x_left (n_front v))), (t_F (x_right (n_front v))), (t_F (x_left (n_rear v))), (t_F (x_right (n_rear v))).
    cbv [M_Vec.vx M_Vec.vy M_Vec.vz mapply vadd vscale col1 col2 col3]. ring. }
  pose proof (fun a b U => C147_grip c i 0 (Euler 0 0 0) (Euler 0 0 0) psi (q_omega (i_state i)) 0 mu a b S Gf Gr U) as Grip. cbv zeta in Grip.
  change (kart_update sp ss linsolve c i 0 (Euler 0 0 0) (Euler 0 0 0) psi (q_omega (i_state i)) 0) with v in Grip.
  rewrite EM, Fa in Hw, Hax, Hn. clear EM.
  set (Ft := kart_grip v) in *. set (L := kart_loads v) in *. clearbody L Ft. clear v Fa. cbn [vadd vopp vscale cross vx vy vz] in Hw, Hax, Hn.
  fold m in Hm. clearbody m. set (d := kart_drag c) in *. set (l := kart_downforce c) in *. clearbody d l.
  set (u := q_u (i_state i)) in *. set (w := q_v (i_state i)) in *. set (om := q_omega (i_state i)) in *. clearbody u w om.
  destruct Ft as [fx fy fz]. cbn [vx vy vz] in *. subst fz.
  assert (HL : L = m * g0 + l * (u * u)).
  { assert (Z : - L + m * g0 + l * (u * u) = 0); [|lra].
    match type of Hw with ?z = 0 => transitivity (m * z); [field; lra | rewrite Hw; ring] end. }
  assert (Along : fx * cos psi - fy * sin psi = m * ax + d * (speed * speed)).
  { rewrite <- Hax. rewrite Hu, Hv. 
    transitivity (fx * cos psi - fy * sin psi - d * speed * speed * (sin psi * sin psi + cos psi * cos psi) + d * (speed * speed)); [rewrite P; ring | field; lra]. }
  assert (Across : fx * sin psi + fy * cos psi = m * ay).
  { rewrite <- Hr. rewrite Hu, Hv in Hn.
    transitivity (m * (om * speed) * (sin psi * sin psi + cos psi * cos psi)); [|rewrite P; ring].
    match type of Hn with ?z = 0 => transitivity (m * (om * speed) * (sin psi * sin psi + cos psi * cos psi) + m * z); [field; lra | rewrite Hn; ring] end. }
  set (X := m * ax + d * (speed * speed)) in *. set (Y := m * ay) in *. clearbody X Y.
  assert (U2 : u * u <= speed * speed).
  { rewrite Hu. replace (speed * speed) with (speed * speed * (sin psi * sin psi + cos psi * cos psi)) by (rewrite P; ring).
    assert (0 <= speed * sin psi * (speed * sin psi)) by apply Rle_0_sqr. lra. }
  set (B := mu * (m * g0 + l * (speed * speed))).
  assert (HB : mu * L <= B). { unfold B. apply Rmult_le_compat_l; [exact Mu|]. rewrite HL. pose proof (Rmult_le_compat_l l _ _ Dn U2). lra. }
  destruct (Req_dec (X * X + Y * Y) 0) as [Z|Z].
  { replace (X ^ 2 + Y ^ 2) with (X * X + Y * Y) by ring. rewrite Z. apply pow2_ge_0. }
  assert (Pos : 0 < X * X + Y * Y) by (pose proof (Rle_0_sqr X); pose proof (Rle_0_sqr Y); unfold Rsqr in *; lra).
  set (r := sqrt (X * X + Y * Y)). assert (Hr2 : r * r = X * X + Y * Y) by (apply sqrt_sqrt; lra). assert (Rp : 0 < r) by (apply sqrt_lt_R0; exact Pos).
  assert (Unit : (fx / r) * (fx / r) + (fy / r) * (fy / r) = 1).
  { assert (I : fx * fx + fy * fy = r * r). { rewrite Hr2, <- Along, <- Across. transitivity ((fx * fx + fy * fy) * (sin psi * sin psi + cos psi * cos psi)); [rewrite P; ring | ring]. }
    replace (fx / r * (fx / r) + fy / r * (fy / r)) with ((fx * fx + fy * fy) / (r * r)) by (field; lra). rewrite I. field. lra. }
  pose proof (Grip _ _ Unit) as Gg.
  assert (Er : fx / r * fx + fy / r * fy = r).
  { transitivity (r * (fx / r * (fx / r) + fy / r * (fy / r))); [field; lra | rewrite Unit; ring]. }
  rewrite Er in Gg. replace (X ^ 2 + Y ^ 2) with (r * r) by (rewrite Hr2; ring). replace (B ^ 2) with (B * B) by ring.
  apply Rmult_le_compat; lra.
Qed.
End Functions.

(** The kart of C141, with grip and without air, coasting. *)
Definition grippy : standard_model := MkStandard 1 1 1 2 1 1 1 1 1 (3 / 2) 1 1 1 1 1 1 1 1.
Definition gripping_kart : kart :=
  let c := square_kart grippy (1 / 10) (- (1 / 20)) (1 / 20) in
  Kart (c_body c) (MkAero 0 0 0 0 0 0) (c_front c) (c_rear c) (c_tf c) (c_tr c) (c_engine c) (c_Tmax c) (c_smooth c) (c_inertia c).
Lemma gripping_rates : kart_on_plane positive_part same_sign cramer gripping_kart (coasting 0) 0 0 0 =
  kart_on_plane positive_part same_sign cramer (square_kart grippy (1 / 10) (- (1 / 20)) (1 / 20)) (coasting 0) 0 0 0.
Proof.
  assert (A : vadd (lift_force (MkAero 0 0 0 0 0 0) (frame_matrix (Euler 0 0 0) 0) (V 10 0 0)) (drag_force (MkAero 0 0 0 0 0 0) (frame_matrix (Euler 0 0 0) 0) (V 10 0 0)) =
    vadd (lift_force (MkAero 1 1 1 1 0 10) (frame_matrix (Euler 0 0 0) 0) (V 10 0 0)) (drag_force (MkAero 1 1 1 1 0 10) (frame_matrix (Euler 0 0 0) 0) (V 10 0 0))).
  { unfold lift_force, drag_force. assert (Z : aerodynamic_velocity (MkAero 1 1 1 1 0 10) (frame_matrix (Euler 0 0 0) 0) (V 10 0 0) = V 0 0 0).
    { unfold aerodynamic_velocity, wind_velocity, frame_matrix. rewrite !mtapply_mul. cbn [yaw pitch roll ae_east ae_north]. unfold rot_x, rot_y, rot_z.
      rewrite sin_0, cos_0. apply vec_eq; cbv [vx vy vz mtapply dot vadd vopp col1 col2 col3]; ring. }
    rewrite Z. unfold aero_speed. cbn [vx vy ae_rho ae_cd ae_cl ae_A]. apply vec_eq; cbn [vx vy vz vadd vscale]; ring. }
  unfold kart_on_plane, kart_plane_eval, kart_update. cbv zeta.
  change (c_aero gripping_kart) with (MkAero 0 0 0 0 0 0). change (V (q_u (i_state (coasting 0))) (q_v (i_state (coasting 0))) 0) with (V 10 0 0).
  rewrite A. reflexivity.
Qed.
Example C147_case : let c := gripping_kart in
  p_pDx1 (k_model (c_tr c)) = 2 /\ p_pDy1 (k_model (c_tr c)) = 3 / 2 /\ smooth_positive_part positive_part /\ 0 < k_mass (c_body c) /\ sticks (5 / 2) (c_tf c) /\ sticks (5 / 2) (c_tr c) /\
  kart_no_wind c /\ 0 <= kart_downforce c /\
  k_type (c_tf c) = ONLY_LATERAL /\ k_R0 (c_tf c) <> 0 /\ kart_turn (kart_on_plane positive_part same_sign cramer) c 10 0 0.
Proof.
  intros c.
  split; [reflexivity|]. split; [reflexivity|]. split; [exact positive_part_ok|]. split; [cbn; lra|]. split; [unfold sticks; cbn; repeat split; lra|]. split; [unfold sticks; cbn; repeat split; lra|].
  split; [split; reflexivity|]. split; [unfold kart_downforce; cbn; lra|]. split; [reflexivity|]. split; [cbn; lra|].
  exists (coasting 0), 0. unfold c. rewrite gripping_rates.
  destruct (coasting_rates grippy) as (E1 & E2 & E3 & E4 & E5 & E6 & E7 & E8 & E9 & E10).
  cbv zeta. rewrite E1, E2, E3, E4, E5, E6, E7, E8, E9, E10, sin_0, cos_0. cbn [coasting i_state q_u q_v q_omega].
  refine (conj _ (conj _ (conj _ (conj _ _)))); [lra | lra | lra | unfold determined; cbn; split; lra | repeat split; lra].
Qed.

Print Assumptions C147_grip.
Print Assumptions C147_front.
Print Assumptions C147_diagram.
