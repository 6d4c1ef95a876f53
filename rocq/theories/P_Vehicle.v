(** Steady-state variables (C57), equation classification (C58), default values (C70),
    states of the kart (C82), track limits (C83), accelerations of the steady state (C84, C86),
    understeer indicator (C85). *)
From Coq Require Import Reals Lra Psatz.
From Coq Require Import Arith Lia Permutation List.
From Verif Require Import M_Vec M_Road M_Car M_Vehicle S_Vehicle.
Import ListNotations.
Local Open Scope R_scope.

Lemma DEG_pos : 0 < DEG.
Proof. unfold DEG. pose proof PI_RGT_0. lra. Qed.

(** ** C57: steady-state variables *)
Theorem C57_f1_round_trip : forall g0 u_def x ay v, length u_def = f1_number_of_controls ->
  f1_get_x (f1_steady_inputs g0 x ay v) (f1_steady_controls u_def x) = Some (map x (seq 0 11)).
Proof.
  intros g0 u_def x ay v Hl. destruct u_def as [|a [|b [|c [|d [|]]]]]; try discriminate Hl.
  assert (Y : maximum_yaw * x 4%nat / maximum_yaw = x 4%nat) by (unfold maximum_yaw; pose proof DEG_pos; field; lra).
  assert (D : x 9%nat * maximum_steering / maximum_steering = x 9%nat) by (unfold maximum_steering; pose proof DEG_pos; field; lra).
  cbn -[maximum_yaw maximum_steering]. rewrite Y, D. reflexivity.
Qed.

Theorem C57_f1_state : forall g0 u_def x ay v, length u_def = f1_number_of_controls -> v <> 0 ->
  let q := f1_steady_inputs g0 x ay v in
  let u := f1_steady_controls u_def x in
  initialised q /\ length q = f1_number_of_inputs /\ initialised u /\ length u = f1_number_of_controls /\
  (exists vx_ vy_ om psi, holds q f1_velocity_x vx_ /\ holds q f1_velocity_y vy_ /\ holds q f1_yaw_rate om /\ holds q f1_PSI psi /\
     vx_ * vx_ + vy_ * vy_ = v * v /\ om * v = ay * g0 /\
     mapply (rot_z psi) (V vx_ vy_ 0) = V v 0 0) /\
  (forall d, nth_error u_def f1_boost = Some d -> holds u f1_boost d) /\
  (forall d, nth_error u_def f1_brake_bias = Some d -> holds u f1_brake_bias d).
Proof.
  intros g0 u_def x ay v Hl Hv q u. destruct u_def as [|a [|b [|c [|d [|]]]]]; try discriminate Hl.
  pose proof (sin2_cos2 (maximum_yaw * x 4%nat)) as SC. unfold Rsqr in SC.
  split. { intros o Ho. cbn in Ho. repeat (destruct Ho as [<-|Ho]; [discriminate|]). destruct Ho. }
  split. { reflexivity. }
  split. { intros o Ho. cbn in Ho. repeat (destruct Ho as [<-|Ho]; [discriminate|]). destruct Ho. }
  split. { reflexivity. }
  split.
  { set (p := maximum_yaw * x 4%nat) in *.
    exists (v * cos p), (- v * sin p), (ay * g0 / v), p.
    split; [reflexivity|]. split; [reflexivity|]. split; [reflexivity|]. split; [reflexivity|].
    split. { transitivity (v * v * (sin p * sin p + cos p * cos p)); [ring | rewrite SC; ring]. }
    split. { field. exact Hv. }
    unfold mapply, rot_z, vadd, vscale; cbn -[p]. apply f_equal3; [|ring|ring].
    transitivity (v * (sin p * sin p + cos p * cos p)); [ring | rewrite SC; ring]. }
  split; intros e He; exact (f_equal (option_map Some) He).
Qed.

Theorem C57_kart_round_trip : forall x ay v, v <> 0 ->
  kart_get_x (kart_steady_inputs x ay v) (kart_steady_controls x) v = Some (map x (seq 0 6)).
Proof.
  intros x ay v Hv. unfold kart_get_x, kart_steady_inputs, kart_steady_controls.
  assert (W : ((x 0%nat + 1) * v / kart_radius * kart_radius - v) / v = x 0%nat) by (unfold kart_radius; field; lra).
  cbn -[kart_radius]. rewrite W. reflexivity.
Qed.

Theorem C57_kart_state : forall x ay v, v <> 0 ->
  let q := kart_steady_inputs x ay v in
  let u := kart_steady_controls x in
  initialised q /\ length q = kart_number_of_inputs /\ initialised u /\ length u = kart_number_of_controls /\
  (exists vx_ vy_ om psi, holds q kart_velocity_x vx_ /\ holds q kart_velocity_y vy_ /\ holds q kart_yaw_rate om /\ holds q kart_PSI psi /\
     vx_ * vx_ + vy_ * vy_ = v * v /\ om * v = ay /\
     mapply (rot_z psi) (V vx_ vy_ 0) = V v 0 0) /\
  holds q kart_DZDT 0 /\ holds q kart_DPHIDT 0 /\ holds q kart_DMUDT 0 /\ holds u kart_TORQUE 0.
Proof.
  intros x ay v Hv q u. pose proof (sin2_cos2 (x 4%nat)) as SC. unfold Rsqr in SC.
  split. { intros o Ho. cbn in Ho. repeat (destruct Ho as [<-|Ho]; [discriminate|]). destruct Ho. }
  split. { reflexivity. }
  split. { intros o Ho. cbn in Ho. repeat (destruct Ho as [<-|Ho]; [discriminate|]). destruct Ho. }
  split. { reflexivity. }
  split.
  { set (p := x 4%nat) in *.
    exists (v * cos p), (- v * sin p), (ay / v), p.
    split; [reflexivity|]. split; [reflexivity|]. split; [reflexivity|]. split; [reflexivity|].
    split. { transitivity (v * v * (sin p * sin p + cos p * cos p)); [ring | rewrite SC; ring]. }
    split. { field. exact Hv. }
    unfold mapply, rot_z, vadd, vscale; cbn -[p]. apply f_equal3; [|ring|ring].
    transitivity (v * (sin p * sin p + cos p * cos p)); [ring | rewrite SC; ring]. }
  split; [reflexivity|]. split; [reflexivity|]. split; reflexivity.
Qed.
Example C57_case : exists q, q = f1_steady_inputs 10 (fun _ => 1) 2 50 /\ holds q f1_yaw_rate (2 * 10 / 50).
Proof. eexists. split; reflexivity. Qed.

(** ** C58: equation classification *)
Lemma classify_ok : forall n t, (t < n)%nat -> exists td, classify n t = Classified td [] /\ covers_once n t td [].
Proof.
  intros n t Ht. unfold classify.
  destruct (n - 1 <? t)%nat eqn:E; [apply Nat.ltb_lt in E; lia|].
  replace (t + (n - 1 - t) =? n - 1)%nat with true by (symmetry; apply Nat.eqb_eq; lia).
  eexists. split; [reflexivity|]. rewrite map_id. unfold covers_once. rewrite app_nil_r. split.
  - replace (map (fun k => S (t + k)) (seq 0 (n - 1 - t))) with (seq (S t) (n - 1 - t)).
    2:{ transitivity (map (fun k => (S t + k)%nat) (seq 0 (n - 1 - t))); [|reflexivity]. clear.
        generalize (n - 1 - t)%nat as m. intros m. rewrite <- (Nat.add_0_r (S t)) at 1. generalize 0%nat as a. generalize (S t) as b. clear.
        induction m as [|m IH]; intros b a; [reflexivity|]. cbn [seq map]. f_equal. rewrite <- IH. f_equal. lia. }
    apply NoDup_nth with (d := 0%nat). intros i j Hi Hj.
    rewrite app_length, !seq_length in Hi, Hj.
    destruct (lt_dec i t) as [Hit|Hit], (lt_dec j t) as [Hjt|Hjt].
    + rewrite !app_nth1 by (rewrite seq_length; lia). rewrite !seq_nth by lia. lia.
    + rewrite app_nth1 by (rewrite seq_length; lia). rewrite app_nth2 by (rewrite seq_length; lia).
      rewrite seq_length, !seq_nth by lia. lia.
    + rewrite app_nth2 by (rewrite seq_length; lia). rewrite app_nth1 by (rewrite seq_length; lia).
      rewrite seq_length, !seq_nth by lia. lia.
    + rewrite !app_nth2 by (rewrite seq_length; lia). rewrite seq_length, !seq_nth by lia. lia.
  - intros i. rewrite in_app_iff, in_seq, in_map_iff. split.
    + intros [H|(k & <- & H)]; [lia|]. apply in_seq in H. lia.
    + intros [H1 H2]. destruct (lt_dec i t) as [L|L]; [left; lia|]. right. exists (i - S t)%nat. split; [lia|]. apply in_seq. lia.
Qed.

Lemma in_erase : forall i l k, In k (erase i l) <-> In k l /\ k <> i.
Proof.
  intros i l k. unfold erase. rewrite filter_In. split.
  - intros [H1 H2]. split; [exact H1|]. intros ->. rewrite Nat.eqb_refl in H2. discriminate.
  - intros [H1 H2]. split; [exact H1|]. apply Nat.eqb_neq in H2. now rewrite H2.
Qed.
Lemma in_erase_all : forall ids l k, In k (fold_left (fun l i => erase i l) ids l) <-> In k l /\ ~ In k ids.
Proof.
  induction ids as [|i ids IH]; intros l k; cbn [fold_left].
  - split; [intros H; split; [exact H | intros []] | intros [H _]; exact H].
  - rewrite IH, in_erase. cbn [In]. split.
    + intros [[H1 H2] H3]. split; [exact H1|]. intros [E|E]; [now apply H2 | now apply H3].
    + intros [H1 H2]. split; [split; [exact H1|]|]; intros E; apply H2; [left; now symmetry | now right].
Qed.
Lemma nodup_erase_all : forall ids l, NoDup l -> NoDup (fold_left (fun l i => erase i l) ids l).
Proof.
  induction ids as [|i ids IH]; intros l H; [exact H|]. cbn [fold_left]. apply IH. unfold erase. now apply NoDup_filter.
Qed.

Theorem C58_partition : forall n t ids flat, (t < n)%nat -> NoDup ids -> (forall i, In i ids -> (i < n /\ i <> t)%nat) ->
  exists td alg, classify_with ids flat (classify n t) = Classified td alg /\
    covers_once n t td alg /\ (flat = true -> alg = ids) /\ (flat = false -> alg = []).
Proof.
  intros n t ids flat Ht Nd Hids. destruct (classify_ok n t Ht) as (td & -> & ND & C). rewrite app_nil_r in ND, C.
  destruct flat; cbn [classify_with].
  - eexists _, _. split; [reflexivity|]. cbn [app]. split; [|split; [reflexivity | discriminate]]. split.
    + assert (D : forall k, In k (fold_left (fun l i => erase i l) ids td) -> ~ In k ids) by (intros k H; now apply in_erase_all in H).
      pose proof (nodup_erase_all ids td ND) as N1.
      revert D N1. generalize (fold_left (fun l i => erase i l) ids td). clear - Nd. intros l D N1.
      induction l as [|a l IH]; [exact Nd|]. inversion N1; subst. cbn [app]. constructor.
      * rewrite in_app_iff. intros [H|H]; [contradiction|]. exact (D a (or_introl eq_refl) H).
      * apply IH; [intros k Hk; apply D; now right | assumption].
    + intros i. rewrite in_app_iff, in_erase_all, C. split.
      * intros [[H _]|H]; [exact H | now apply Hids].
      * intros H. destruct (in_dec Nat.eq_dec i ids) as [I|I]; [now right | left; split; assumption].
  - eexists _, _. split; [reflexivity|]. split; [split; rewrite app_nil_r; assumption|]. split; [discriminate | reflexivity].
Qed.

(** The Formula 1 car on both kinds of track, and the kart. *)
Theorem C58_f1 : forall flat, exists td alg, f1_classify flat = Classified td alg /\
  covers_once f1_number_of_states f1_time td alg /\ alg = (if flat then [7; 8; 9; 10]%nat else []).
Proof.
  intros flat. destruct (C58_partition f1_number_of_states f1_time f1_flat_ids flat) as (td & alg & E & C & T & F).
  - unfold f1_time, f1_number_of_states. lia.
  - unfold f1_flat_ids. repeat constructor; cbn; intuition discriminate.
  - intros i Hi. unfold f1_flat_ids, f1_com_velocity_z, f1_roll_momentum, f1_pitch_momentum, f1_roll_balance in Hi. cbn [In] in Hi.
    unfold f1_number_of_states, f1_time. lia.
  - exists td, alg. split; [exact E|]. split; [exact C|]. destruct flat; [now apply T | now apply F].
Qed.
Theorem C58_kart : exists td, classify 13 10 = Classified td [] /\ covers_once 13 10 td [].
Proof. apply classify_ok. lia. Qed.

(** On a flat road the equations classified as algebraic are those of quantities that are
    identically zero. *)
Theorem C58_flat_states_vanish : forall g0 c F T r yaw0 dyaw n alpha u v yaw_rate i,
  let e := Euler yaw0 0 0 in
  let de := Euler dyaw 0 0 in
  let out := road_update r e de n alpha u v yaw_rate in
  let om := frame_omega e de (ro_dtime_ds out) alpha (ro_alpha_dot out) in
  let mo := equations3 c F T u v (ro_w out) om in
  In i f1_flat_ids -> f1_flat_state g0 c mo i = 0.
Proof.
  intros g0 c F T r yaw0 dyaw n alpha u v yaw_rate i e de out om mo Hi.
  assert (W : ro_w out = 0). { unfold out, road_update, curvature, e, de; cbn. rewrite sin_0. unfold Rdiv. ring. }
  assert (X : vx om = 0). { unfold om, frame_omega, curvature, e, de; cbn. rewrite sin_0. unfold Rdiv. ring. }
  assert (Y : vy om = 0). { unfold om, frame_omega, curvature, e, de; cbn. rewrite sin_0. unfold Rdiv. ring. }
  unfold mo. rewrite W. clearbody om. destruct om as [ox oy oz]. cbn in X, Y. subst ox oy. clear - Hi.
  assert (H : forall k, In k [7; 8; 9; 10]%nat ->
            f1_flat_state g0 c (equations3 c F T u v 0 (V 0 0 oz)) k = 0); [|now apply H].
  intros k Hk. cbn [In] in Hk.
  repeat (destruct Hk as [<-|Hk]; [unfold f1_flat_state, equations3; cbn; unfold Rdiv; ring|]). destruct Hk.
Qed.
Example C58_case : f1_classify true = Classified [0; 1; 2; 3; 4; 5; 6; 12; 13]%nat [7; 8; 9; 10]%nat /\
                   f1_classify false = Classified [0; 1; 2; 3; 4; 5; 6; 7; 8; 9; 10; 12; 13]%nat [].
Proof. split; reflexivity. Qed.

(** ** C70: default values *)
Lemma scalar_max_pos : 0 < scalar_max.
Proof.
  unfold scalar_max. apply Rmult_lt_0_compat; [|apply pow_lt; lra].
  assert (H : 1 < 2 ^ 52) by (apply Rlt_pow_R1; [lra | lia]).
  assert (G : / 2 ^ 52 < / 1) by (apply Rinv_lt_contravar; [lra | exact H]). lra.
Qed.

(** The default vertical loads of the Formula 1 car are upwards and outside their bounds. *)
Theorem C70_refuted : exists r, In r f1_inputs_ranges /\ ~ in_range r.
Proof. exists (MkRange f1_force_z_fl (1 / 4) (-3) (- (1 / 100))). split; [cbn; tauto|]. unfold in_range; cbn. lra. Qed.

Theorem C70_partial :
  (forall r, In r f1_inputs_ranges ->
     ~ In (r_name r) [f1_force_z_fl; f1_force_z_fr; f1_force_z_rl; f1_force_z_rr] -> in_range r) /\
  (forall b r, 0 <= b <= 1 -> In r (f1_controls_ranges b) -> in_range r) /\
  (forall r, In r kart_inputs_ranges -> in_range r) /\ (forall r, In r kart_controls_ranges -> in_range r).
Proof.
  pose proof DEG_pos as D. pose proof scalar_max_pos as M.
  assert (K : 0 < KMH) by (unfold KMH; lra).
  assert (KR : 10 * KMH / kart_radius <= 200 * KMH / kart_radius).
  { unfold Rdiv. apply Rmult_le_compat_r; [|lra]. left. apply Rinv_0_lt_compat. unfold kart_radius. lra. }
  split; [|split; [|split]].
  - intros r Hr Hn. cbn in Hr.
    repeat (destruct Hr as [<-|Hr]; [first [exfalso; apply Hn; cbn; tauto | unfold in_range; cbn [r_lb r_ub r_def]; lra]|]). destruct Hr.
  - intros b r Hb Hr. cbn in Hr. repeat (destruct Hr as [<-|Hr]; [unfold in_range; cbn [r_lb r_ub r_def]; lra|]). destruct Hr.
  - intros r Hr. cbn in Hr.
    repeat (destruct Hr as [<-|Hr]; [unfold in_range; cbn [r_lb r_ub r_def]; try (unfold kart_radius; lra); lra|]). destruct Hr.
  - intros r Hr. cbn in Hr. repeat (destruct Hr as [<-|Hr]; [unfold in_range; cbn [r_lb r_ub r_def]; lra|]). destruct Hr.
Qed.

(** Every input and every control has exactly one default value and pair of bounds. *)
Theorem C70_all_listed : forall b,
  map r_name f1_inputs_ranges = seq 0 f1_number_of_inputs /\ map r_name (f1_controls_ranges b) = seq 0 f1_number_of_controls /\
  map r_name kart_inputs_ranges = seq 0 kart_number_of_inputs /\ map r_name kart_controls_ranges = seq 0 kart_number_of_controls.
Proof. intros b. split; [reflexivity|]. split; [reflexivity|]. split; reflexivity. Qed.

(** ** C82: states and inputs of the kart *)
Theorem C82_kart_states : forall q, initialised q -> length q = kart_number_of_inputs ->
  kart_states q = q /\ kart_states_to_inputs (kart_states q) = q.
Proof.
  intros q I L. do 13 (destruct q as [|[?|] q]; [discriminate L| |exfalso; now apply (I None); [cbn; tauto|]]).
  destruct q; [|discriminate L]. split; reflexivity.
Qed.
Example C82_case : exists q, initialised q /\ length q = kart_number_of_inputs.
Proof.
  exists (map Some (repeat 1 13)). split; [|reflexivity]. intros o Ho. apply in_map_iff in Ho. destruct Ho as (x & <- & _). discriminate.
Qed.

(** ** C83: track limits *)
(** With the front axle ahead of the centre of mass, a front wheel can be beyond the limit. *)
Theorem C83_refuted : exists track n alpha x w, 0 < track /\ 0 < x /\ 0 < alpha < PI / 2 /\
  limit_right track n alpha <= w /\ - w <= limit_left track n alpha /\ w < lateral_position n alpha x (1 / 2 * track).
Proof.
  exists 2, 0, (PI / 6), 2, (cos (PI / 6)).
  unfold limit_right, limit_left, lateral_position. rewrite sin_PI6. pose proof PI_RGT_0.
  split; [lra|]. split; [lra|]. split; [lra|]. split; [lra|]. split; [|lra].
  assert (0 < cos (PI / 6)) by (apply cos_gt_0; lra). lra.
Qed.

(** The excess of any wheel no wider than the front track is at most the lateral offset of its
    axle; there is none for a car aligned with the track. *)
Theorem C83_partial : forall track n alpha x y wl wr, 0 <= cos alpha -> - (1 / 2 * track) <= y <= 1 / 2 * track ->
  - wl <= limit_left track n alpha -> limit_right track n alpha <= wr ->
  - wl - Rabs (x * sin alpha) <= lateral_position n alpha x y <= wr + Rabs (x * sin alpha) /\
  (sin alpha = 0 -> - wl <= lateral_position n alpha x y <= wr).
Proof.
  intros track n alpha x y wl wr Hc Hy Hl Hr. unfold limit_left, limit_right, lateral_position in *.
  pose proof (Rle_abs (x * sin alpha)) as A1. pose proof (Rle_abs (- (x * sin alpha))) as A2. rewrite Rabs_Ropp in A2.
  assert (B1 : y * cos alpha <= 1 / 2 * track * cos alpha) by (apply Rmult_le_compat_r; lra).
  assert (B2 : - (1 / 2 * track) * cos alpha <= y * cos alpha) by (apply Rmult_le_compat_r; lra).
  split; [lra|]. intros S. rewrite S in *. lra.
Qed.
Example C83_case : exists track n alpha wl wr, 0 <= cos alpha /\ - wl <= limit_left track n alpha /\ limit_right track n alpha <= wr.
Proof. exists 2, 1, 0, 4, 5. unfold limit_left, limit_right. rewrite cos_0. lra. Qed.

(** ** C84: accelerations of the steady state *)
Lemma norm_flat : forall v psi, 0 < v -> norm (V (v * cos psi) (- v * sin psi) 0) = v.
Proof.
  intros v psi Hv. unfold norm, dot; cbn. pose proof (sin2_cos2 psi) as SC. unfold Rsqr in SC.
  replace (v * cos psi * (v * cos psi) + - v * sin psi * (- v * sin psi) + 0 * 0) with (v * v).
  2:{ transitivity (v * v * (sin psi * sin psi + cos psi * cos psi)); [rewrite SC; ring | ring]. }
  apply sqrt_square. lra.
Qed.

(** Whatever the solver variables and the forces, the accelerations the car reports differ from
    the requested ones by the residuals of the constraints 4 and 5, and only by them. *)
Theorem C84_f1 : forall g0 c F T psi ax ay v, 0 < v -> 0 < g0 -> c_mass c <> 0 ->
  let u := v * cos psi in
  let w := - v * sin psi in
  let mo := equations3 c F T u w 0 (V 0 0 (ay * g0 / v)) in
  longitudinal_acceleration u w (c_mass c) F = ax * g0 - g0 * f1_constraint_5 g0 ax psi (mo_a mo) /\
  lateral_acceleration u w (c_mass c) F = ay * g0 + g0 * f1_constraint_4 g0 psi (mo_a mo).
Proof.
  intros g0 c F T psi ax ay v Hv Hg Hm u w mo. pose proof (sin2_cos2 psi) as SC. unfold Rsqr in SC.
  unfold longitudinal_acceleration, lateral_acceleration. unfold u, w. rewrite norm_flat by exact Hv.
  unfold mo, f1_constraint_4, f1_constraint_5, equations3, dot, cross, vscale; cbn. fold u w. split.
  - transitivity (vx F / c_mass c * cos psi - vy F / c_mass c * sin psi). { unfold u, w. field. split; [exact Hm | lra]. }
    unfold u, w. field. split; [lra|]. split; [exact Hm | lra].
  - transitivity (vy F / c_mass c * cos psi + vx F / c_mass c * sin psi). { unfold u, w. field. split; [exact Hm | lra]. }
    transitivity (vy F / c_mass c * cos psi + vx F / c_mass c * sin psi + ay * g0 * (1 - (sin psi * sin psi + cos psi * cos psi))).
    { rewrite SC. ring. }
    unfold u, w. field. split; [lra|]. split; [exact Hm | lra].
Qed.

Theorem C84_kart : forall m F psi ax ay v w3, 0 < v -> m <> 0 ->
  let u := v * cos psi in
  let w := - v * sin psi in
  let a := newton6 m F (V 0 0 (ay / v)) (V u w w3) in
  longitudinal_acceleration u w m F = ax - kart_constraint_5 ax psi a /\
  lateral_acceleration u w m F = ay + kart_constraint_4 psi a.
Proof.
  intros m F psi ax ay v w3 Hv Hm u w a. pose proof (sin2_cos2 psi) as SC. unfold Rsqr in SC.
  unfold longitudinal_acceleration, lateral_acceleration. unfold u, w. rewrite norm_flat by exact Hv.
  unfold a, kart_constraint_4, kart_constraint_5, newton6, dot, cross, vscale, vadd, vopp; cbn. split.
  - unfold u, w. field. split; [exact Hm | lra].
  - transitivity (vy F / m * cos psi + vx F / m * sin psi + ay * (1 - (sin psi * sin psi + cos psi * cos psi))).
    { rewrite SC. field. split; [exact Hm | lra]. }
    unfold u, w. field. split; [exact Hm | lra].
Qed.
Example C84_case : exists c F T psi ax ay v, 0 < v /\ c_mass c = 100 /\
  f1_constraint_4 10 psi (mo_a (equations3 c F T (v * cos psi) (- v * sin psi) 0 (V 0 0 (ay * 10 / v)))) = 0 /\
  f1_constraint_5 10 ax psi (mo_a (equations3 c F T (v * cos psi) (- v * sin psi) 0 (V 0 0 (ay * 10 / v)))) = 0 /\ ax = 2 /\ ay = 3.
Proof.
  set (c := MkChassis3 100 1 1 1 (V 0 0 0) (V 0 0 0) (1 / 2) 1). exists c, (V 2000 3000 0), (V 0 0 0), 0, 2, 3, 50.
  unfold f1_constraint_4, f1_constraint_5, equations3, c; cbn. rewrite sin_0, cos_0. repeat split; lra.
Qed.

(** ** C86: the accelerations asked for *)
(** With automatic differentiation, the one of the C interface, a state that solves the
    equations has the accelerations asked for, in m/s2. *)
Theorem C86_autodiff : forall g0 c F T psi ax ay v, 0 < v -> 0 < g0 -> c_mass c <> 0 ->
  let ax' := passed AUTODIFF g0 ax in
  let ay' := passed AUTODIFF g0 ay in
  let u := v * cos psi in
  let w := - v * sin psi in
  let mo := equations3 c F T u w 0 (V 0 0 (ay' * g0 / v)) in
  f1_constraint_4 g0 psi (mo_a mo) = 0 -> f1_constraint_5 g0 ax' psi (mo_a mo) = 0 ->
  longitudinal_acceleration u w (c_mass c) F = ax /\ lateral_acceleration u w (c_mass c) F = ay.
Proof.
  intros g0 c F T psi ax ay v Hv Hg Hm ax' ay' u w mo H4 H5.
  destruct (C84_f1 g0 c F T psi ax' ay' v Hv Hg Hm) as [L1 L2]. fold u w mo in L1, L2.
  rewrite L1, L2, H4, H5. unfold ax', ay', passed. split; field; lra.
Qed.

(** With plain doubles the Formula 1 car gets g0 times as much. *)
Theorem C86_scalar_refuted : forall g0 c F T psi ax ay v, 0 < v -> 0 < g0 -> c_mass c <> 0 ->
  let ax' := passed SCALAR g0 ax in
  let ay' := passed SCALAR g0 ay in
  let u := v * cos psi in
  let w := - v * sin psi in
  let mo := equations3 c F T u w 0 (V 0 0 (ay' * g0 / v)) in
  f1_constraint_4 g0 psi (mo_a mo) = 0 -> f1_constraint_5 g0 ax' psi (mo_a mo) = 0 ->
  longitudinal_acceleration u w (c_mass c) F = g0 * ax /\ lateral_acceleration u w (c_mass c) F = g0 * ay /\
  (g0 <> 1 -> ay <> 0 -> lateral_acceleration u w (c_mass c) F <> ay).
Proof.
  intros g0 c F T psi ax ay v Hv Hg Hm ax' ay' u w mo H4 H5.
  destruct (C84_f1 g0 c F T psi ax' ay' v Hv Hg Hm) as [L1 L2]. fold u w mo in L1, L2.
  rewrite L1, L2, H4, H5. unfold ax', ay', passed. split; [ring|]. split; [ring|].
  intros G A E. assert (Z : (g0 - 1) * ay = 0) by lra. apply Rmult_integral in Z. destruct Z; [apply G; lra | now apply A].
Qed.
(** For the kart both agree. *)
Theorem C86_kart : forall fl m F psi ax ay v w3, 0 < v -> m <> 0 ->
  let ax' := passed fl 1 ax in
  let ay' := passed fl 1 ay in
  let u := v * cos psi in
  let w := - v * sin psi in
  let a := newton6 m F (V 0 0 (ay' / v)) (V u w w3) in
  kart_constraint_4 psi a = 0 -> kart_constraint_5 ax' psi a = 0 ->
  longitudinal_acceleration u w m F = ax /\ lateral_acceleration u w m F = ay.
Proof.
  intros fl m F psi ax ay v w3 Hv Hm ax' ay' u w a H4 H5.
  destruct (C84_kart m F psi ax' ay' v w3 Hv Hm) as [L1 L2]. fold u w a in L1, L2.
  rewrite L1, L2, H4, H5. unfold ax', ay', passed. destruct fl; split; field.
Qed.

(** ** C85: understeer indicator *)
(** The same manoeuvre to the other side has the same indicator. *)
Theorem C85_mirror_partial : forall track x_com wb kappa dl dr, kappa <> 0 ->
  indicator track x_com wb (- kappa) (- dr) (- dl) = indicator track x_com wb kappa dl dr.
Proof.
  intros track x_com wb kappa dl dr Hk. unfold indicator.
  destruct (Rle_dec 0 kappa) as [P|P], (Rle_dec 0 (- kappa)) as [N|N]; try (exfalso; lra);
  rewrite ?Ropp_involutive; reflexivity.
Qed.
(** Not in a straight line. *)
Theorem C85_mirror_refuted : exists track x_com wb dl dr, 0 < track /\ 0 < x_com /\ 0 < wb /\
  indicator track x_com wb (- 0) (- dr) (- dl) <> indicator track x_com wb 0 dl dr.
Proof.
  exists 1, 1, 2, 1, 1. split; [lra|]. split; [lra|]. split; [lra|].
  unfold indicator, ideal_inside, ideal_outside. rewrite Ropp_0.
  destruct (Rle_dec 0 0) as [_|N]; [|exfalso; lra].
  replace (2 * 0 / _) with 0 by (unfold Rdiv; ring). replace (2 * 0 / _) with 0 by (unfold Rdiv; ring). rewrite atan_0.
  unfold indicator_of. repeat match goal with |- context[Rle_dec ?a ?b] => destruct (Rle_dec a b) end;
  repeat match goal with |- context[Rlt_dec ?a ?b] => destruct (Rlt_dec a b) end; lra.
Qed.

(** Neutral exactly when one wheel is steered at least as much as the ideal and the other at
    most as much; otherwise the sign is that of both differences and the value the smaller of
    them. *)
Theorem C85_sign : forall track x_com wb kappa dl dr,
  let k := Rabs kappa in
  let d_in := ideal_inside track x_com wb k - (if Rle_dec 0 kappa then dr else - dl) in
  let d_out := ideal_outside track x_com wb k - (if Rle_dec 0 kappa then dl else - dr) in
  let i := indicator track x_com wb kappa dl dr in
  (0 < i <-> 0 < d_in /\ 0 < d_out) /\ (i < 0 <-> d_in < 0 /\ d_out < 0) /\
  (i <> 0 -> Rabs i = Rmin (Rabs d_in) (Rabs d_out)).
Proof.
  intros track x_com wb kappa dl dr k d_in d_out i.
  assert (E : i = indicator_of d_in d_out).
  { unfold i, indicator, d_in, d_out, k. destruct (Rle_dec 0 kappa) as [P|P].
    - rewrite Rabs_pos_eq by exact P. reflexivity.
    - rewrite Rabs_left by lra. reflexivity. }
  rewrite E. clearbody d_in d_out. clear. unfold indicator_of.
  destruct (Rle_dec (d_in * d_out) 0) as [Z|Z].
  - split; [|split]; [split; [lra|] | split; [lra|] | intros H; exfalso; now apply H]; intros [A B]; exfalso;
    [pose proof (Rmult_lt_0_compat _ _ A B) | assert (0 < (- d_in) * (- d_out)) by (apply Rmult_lt_0_compat; lra)]; lra.
  - destruct (Rlt_dec 0 d_in) as [A|A].
    + assert (B : 0 < d_out). { apply Rnot_le_lt. intros H. apply Z. assert (0 <= d_in * - d_out) by (apply Rmult_le_pos; lra). lra. }
      rewrite (Rabs_pos_eq d_in), (Rabs_pos_eq d_out) by lra.
      destruct (Rlt_dec d_out d_in) as [C|C].
      * split; [split; [intros _; split; lra | lra]|]. split; [split; lra|]. intros _.
        rewrite Rabs_pos_eq, Rmin_right by lra. reflexivity.
      * split; [split; [intros _; split; lra | lra]|]. split; [split; lra|]. intros _.
        rewrite Rabs_pos_eq, Rmin_left by lra. reflexivity.
    + assert (A' : d_in < 0). { destruct (Req_dec d_in 0) as [E|E]; [exfalso; apply Z; rewrite E; lra | lra]. }
      assert (B : d_out < 0). { apply Rnot_le_lt. intros H. apply Z. assert (0 <= - d_in * d_out) by (apply Rmult_le_pos; lra). lra. }
      rewrite (Rabs_left d_in), (Rabs_left d_out) by lra.
      destruct (Rlt_dec d_out d_in) as [C|C].
      * split; [split; lra|]. split; [split; [intros _; split; lra | lra]|]. intros _.
        rewrite Rabs_left, Rmin_left by lra. reflexivity.
      * split; [split; lra|]. split; [split; [intros _; split; lra | lra]|]. intros _.
        rewrite Rabs_left, Rmin_right by lra. reflexivity.
Qed.

Print Assumptions C57_f1_round_trip.
Print Assumptions C57_f1_state.
Print Assumptions C57_kart_round_trip.
Print Assumptions C57_kart_state.
Print Assumptions C58_partition.
Print Assumptions C58_f1.
Print Assumptions C58_kart.
Print Assumptions C58_flat_states_vanish.
Print Assumptions C70_refuted.
Print Assumptions C70_partial.
Print Assumptions C70_all_listed.
Print Assumptions C82_kart_states.
Print Assumptions C83_refuted.
Print Assumptions C83_partial.
Print Assumptions C84_f1.
Print Assumptions C84_kart.
Print Assumptions C86_autodiff.
Print Assumptions C86_scalar_refuted.
Print Assumptions C86_kart.
Print Assumptions C85_mirror_partial.
Print Assumptions C85_mirror_refuted.
Print Assumptions C85_sign.
