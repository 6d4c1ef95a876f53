(** Extra constraints of the optimal laptime problem: the width of the car and the limits of the track, the
    lateral slips and the slips of maximum force. *)
From Coq Require Import Reals List Lra Lia.
From Verif Require Import M_Vec M_Road M_Tire M_Feasible S_Feasible S_Road L_Road.
Import ListNotations.
Local Open Scope R_scope.

Lemma six b v : within_bounds b v -> length v = 6%nat ->
  nth 0 (fst b) 0 <= nth 0 v 0 <= nth 0 (snd b) 0 /\ nth 1 (fst b) 0 <= nth 1 v 0 <= nth 1 (snd b) 0 /\
  nth 2 (fst b) 0 <= nth 2 v 0 <= nth 2 (snd b) 0 /\ nth 3 (fst b) 0 <= nth 3 v 0 <= nth 3 (snd b) 0 /\
  nth 4 (fst b) 0 <= nth 4 v 0 <= nth 4 (snd b) 0 /\ nth 5 (fst b) 0 <= nth 5 v 0 <= nth 5 (snd b) 0.
Proof. intros (_ & _ & H) E. rewrite E in H. repeat split; apply H; lia. Qed.

Lemma lateral_coordinate r e n alpha x y :
  dot (vsub (point_of_the_car r e n alpha x y) r) (normal e) = n + x * sin alpha + y * cos alpha.
Proof.
  destruct (frame_right_handed e) as (_ & Hn & _ & Ht & _ & _ & _).
  unfold point_of_the_car. rewrite mapply_frame. cbn [vx vy vz]. revert Hn Ht.
  destruct r as [r1 r2 r3], (tangent e) as [t1 t2 t3], (normal e) as [n1 n2 n3], (binormal e) as [b1 b2 b3].
  unfold dot, vsub, vadd, vscale. cbn [vx vy vz]. intros Hn Ht.
  transitivity ((n + x * sin alpha + y * cos alpha) * (n1 * n1 + n2 * n2 + n3 * n3)
                + (x * cos alpha - y * sin alpha) * (t1 * n1 + t2 * n2 + t3 * n3)); [ring|]. rewrite Hn, Ht. ring.
Qed.
Lemma limit_coordinates r e wl wr :
  dot (vsub (left_point r e wl) r) (normal e) = - wl /\ dot (vsub (right_point r e wr) r) (normal e) = wr.
Proof.
  destruct (frame_right_handed e) as (_ & Hn & _). revert Hn. unfold left_point, right_point, coordinates.
  destruct r as [r1 r2 r3], (normal e) as [n1 n2 n3]. unfold dot, vsub. cbn [vx vy vz]. intros Hn. split.
  - transitivity (- wl * (n1 * n1 + n2 * n2 + n3 * n3)); [ring|]. rewrite Hn. ring.
  - transitivity (wr * (n1 * n1 + n2 * n2 + n3 * n3)); [ring|]. rewrite Hn. ring.
Qed.
Lemma between_is r e wl wr n alpha x y :
  between_limits r e wl wr (point_of_the_car r e n alpha x y) <-> - wl <= n + x * sin alpha + y * cos alpha <= wr.
Proof.
  unfold between_limits. destruct (limit_coordinates r e wl wr) as [-> ->]. rewrite lateral_coordinate. reflexivity.
Qed.

(** The six values of the f1 are within their bounds exactly when each lateral slip is below the
    limit of its own tyre and the two points of the car half the front track to each side of its
    reference point are between the limits of the track. *)
Theorem C124_what_the_constraints_say : forall tfl tfr trl trr mass g0 wl wr fl fr rl rr n alpha track r e,
  within_bounds (f1_extra_bounds tfl tfr trl trr mass g0 wl wr) (f1_extra_constraints fl fr rl rr n alpha track) <->
  (Rabs fl <= slip_limit tfl mass g0 /\ Rabs fr <= slip_limit tfr mass g0 /\
   Rabs rl <= slip_limit trl mass g0 /\ Rabs rr <= slip_limit trr mass g0) /\
  between_limits r e wl wr (point_of_the_car r e n alpha 0 (track / 2)) /\
  between_limits r e wl wr (point_of_the_car r e n alpha 0 (- (track / 2))).
Proof.
  intros. rewrite !between_is.
  assert (A : forall x l, - l <= x <= l <-> Rabs x <= l) by (intros x l; unfold Rabs; destruct (Rcase_abs x); lra).
  rewrite <- !A. split.
  - intros H. apply six in H; [|reflexivity]. cbn in H. repeat match goal with |- _ /\ _ => split end; lra.
  - intros ((H1 & H2 & H3 & H4) & H5 & H6). split; [reflexivity|]. split; [reflexivity|].
    intros i Hi. do 6 (destruct i as [|i]; [cbn; lra|]). cbn in Hi. lia.
Qed.

(** The wheels of an axle of track [t] that is [x] ahead of the reference point are inside of
    the limits except for what the axle moves sideways and for half of what it is wider than the
    front one. *)
Theorem C83_wheels_partial : forall tfl tfr trl trr mass g0 wl wr fl fr rl rr n alpha track r e x t side,
  within_bounds (f1_extra_bounds tfl tfr trl trr mass g0 wl wr) (f1_extra_constraints fl fr rl rr n alpha track) ->
  0 <= track -> 0 <= t -> Rabs side = 1 ->
  let excess := Rabs (x * sin alpha) + Rmax 0 ((t - track) / 2) * Rabs (cos alpha) in
  between_limits r e (wl + excess) (wr + excess) (point_of_the_car r e n alpha x (side * (t / 2))).
Proof.
  intros tfl tfr trl trr mass g0 wl wr fl fr rl rr n alpha track r e x t side H Hf Ht Hs excess.
  apply (C124_what_the_constraints_say _ _ _ _ _ _ _ _ _ _ _ _ _ _ _ r e) in H. rewrite !between_is in *.
  destruct H as (_ & H1 & H2). pose proof (Rle_abs (x * sin alpha)) as X1. pose proof (Rle_abs (- (x * sin alpha))) as X2. rewrite Rabs_Ropp in X2.
  assert (Hm : 0 <= Rmax 0 ((t - track) / 2) /\ (t - track) / 2 <= Rmax 0 ((t - track) / 2)) by (split; [apply Rmax_l|apply Rmax_r]).
  assert (K : t / 2 * Rabs (cos alpha) <= track / 2 * Rabs (cos alpha) + Rmax 0 ((t - track) / 2) * Rabs (cos alpha)).
  { rewrite <- Rmult_plus_distr_r. apply Rmult_le_compat_r; [apply Rabs_pos|]. lra. }
  assert (S : side = 1 \/ side = -1) by (unfold Rabs in Hs; destruct (Rcase_abs side); [right|left]; lra).
  assert (T1 : 0 <= t / 2 * Rabs (cos alpha)) by (apply Rmult_le_pos; [lra|apply Rabs_pos]).
  assert (T2 : 0 <= track / 2 * Rabs (cos alpha)) by (apply Rmult_le_pos; [lra|apply Rabs_pos]).
  unfold excess. revert T1 T2 K H1 H2. generalize (Rmax 0 ((t - track) / 2) * Rabs (cos alpha)). intros w.
  unfold Rabs at 1 2 3 4. destruct (Rcase_abs (cos alpha)); intros T1 T2 K H1 H2; destruct S as [-> | ->]; lra.
Qed.

(** A car heading away from the direction of the track can have a front wheel outside: for any
    front axle ahead of the reference point and any track wide enough for the car there is a
    position that satisfies all the constraints with the front right wheel off the track. *)
Theorem C83_wheels_refuted : forall tfl tfr trl trr mass g0 wl wr track x r e,
  0 < x -> 0 <= track -> track <= wl + wr ->
  0 <= slip_limit tfl mass g0 -> 0 <= slip_limit tfr mass g0 -> 0 <= slip_limit trl mass g0 -> 0 <= slip_limit trr mass g0 ->
  exists n alpha,
    within_bounds (f1_extra_bounds tfl tfr trl trr mass g0 wl wr) (f1_extra_constraints 0 0 0 0 n alpha track) /\
    ~ between_limits r e wl wr (point_of_the_car r e n alpha x (track / 2)).
Proof.
  intros tfl tfr trl trr mass g0 wl wr track x r e Hx Ht Hw H1 H2 H3 H4.
  exists (wr - track / 2 * cos (PI / 6)), (PI / 6). rewrite (C124_what_the_constraints_say _ _ _ _ _ _ _ _ _ _ _ _ _ _ _ r e), !between_is.
  rewrite Rabs_R0, sin_PI6.
  assert (C : 0 <= cos (PI / 6) <= 1).
  { split; [apply cos_ge_0; pose proof PI_RGT_0; lra|]. pose proof (COS_bound (PI / 6)); lra. }
  assert (K : track * cos (PI / 6) <= track) by (rewrite <- (Rmult_1_r track) at 2; apply Rmult_le_compat_l; lra).
  assert (K0 : 0 <= track * cos (PI / 6)) by (apply Rmult_le_pos; lra).
  repeat split; try lra.
Qed.

(** The limit of the slip never excludes the slip of maximum force of the tyre at a load between
    nothing and the weight of the car. *)
Theorem C124_peak_slip_allowed : forall t mass g0 F, q_Fz1 t <> q_Fz2 t -> 0 <= F <= mass * g0 ->
  maximum_lambda t F <= slip_limit t mass g0.
Proof.
  intros t mass g0 F Hne HF. unfold slip_limit, maximum_lambda.
  set (k := (q_lambda_max2 t - q_lambda_max1 t) / (q_Fz2 t - q_Fz1 t)).
  assert (E : forall z, (z - q_Fz1 t) * (q_lambda_max2 t - q_lambda_max1 t) / (q_Fz2 t - q_Fz1 t) + q_lambda_max1 t = k * z + (q_lambda_max1 t - k * q_Fz1 t)).
  { intros z. unfold k. field. lra. }
  rewrite !E. generalize (q_lambda_max1 t - k * q_Fz1 t). intros c.
  destruct (Rle_or_lt 0 k) as [Hk|Hk].
  - eapply Rle_trans; [|apply Rmax_r]. apply Rplus_le_compat_r. apply Rmult_le_compat_l; lra.
  - eapply Rle_trans; [|apply Rmax_l]. assert (0 <= (- k) * F) by (apply Rmult_le_pos; lra). lra.
Qed.

(** So a position inside of the track with slips up to those of maximum force, at loads of the
    tyres up to the weight of the car, satisfies all the constraints. *)
Theorem C124_every_gripping_state_is_allowed : forall tfl tfr trl trr mass g0 wl wr fl fr rl rr n alpha track r e Ffl Ffr Frl Frr,
  q_Fz1 tfl <> q_Fz2 tfl -> q_Fz1 tfr <> q_Fz2 tfr -> q_Fz1 trl <> q_Fz2 trl -> q_Fz1 trr <> q_Fz2 trr ->
  0 <= Ffl <= mass * g0 -> 0 <= Ffr <= mass * g0 -> 0 <= Frl <= mass * g0 -> 0 <= Frr <= mass * g0 ->
  Rabs fl <= maximum_lambda tfl Ffl -> Rabs fr <= maximum_lambda tfr Ffr ->
  Rabs rl <= maximum_lambda trl Frl -> Rabs rr <= maximum_lambda trr Frr ->
  between_limits r e wl wr (point_of_the_car r e n alpha 0 (track / 2)) ->
  between_limits r e wl wr (point_of_the_car r e n alpha 0 (- (track / 2))) ->
  within_bounds (f1_extra_bounds tfl tfr trl trr mass g0 wl wr) (f1_extra_constraints fl fr rl rr n alpha track).
Proof.
  intros tfl tfr trl trr mass g0 wl wr fl fr rl rr n alpha track r e Ffl Ffr Frl Frr N1 N2 N3 N4 L1 L2 L3 L4 S1 S2 S3 S4 B1 B2.
  apply (C124_what_the_constraints_say _ _ _ _ _ _ _ _ _ _ _ _ _ _ _ r e). split; [|split; assumption].
  pose proof (C124_peak_slip_allowed _ _ _ _ N1 L1). pose proof (C124_peak_slip_allowed _ _ _ _ N2 L2).
  pose proof (C124_peak_slip_allowed _ _ _ _ N3 L3). pose proof (C124_peak_slip_allowed _ _ _ _ N4 L4). lra.
Qed.

(** With downforce the load of a tyre can exceed the weight of the car. Without it being larger than
    the weight the limit covers the peak; beyond it the limit covers the peak only when the slip
    of maximum force does not grow with the load. *)
Theorem C124_heavy_loads : forall t mass g0 F, q_Fz1 t < q_Fz2 t -> 0 <= mass * g0 < F ->
  (maximum_lambda t F <= slip_limit t mass g0 <-> q_lambda_max2 t <= q_lambda_max1 t).
Proof.
  intros t mass g0 F Hne HF. unfold slip_limit, maximum_lambda.
  set (d := q_lambda_max2 t - q_lambda_max1 t). set (w := q_Fz2 t - q_Fz1 t).
  assert (Hw : 0 < / w) by (apply Rinv_0_lt_compat; unfold w; lra).
  assert (E : forall z, (z - q_Fz1 t) * d / w + q_lambda_max1 t = d * (/ w * z) + (q_lambda_max1 t - d * / w * q_Fz1 t)) by (intros z; unfold Rdiv; ring).
  rewrite !E. generalize (q_lambda_max1 t - d * / w * q_Fz1 t). intros c.
  assert (P1 : 0 <= / w * (mass * g0)) by (apply Rmult_le_pos; lra).
  assert (P2 : / w * (mass * g0) < / w * F) by (apply Rmult_lt_compat_l; lra).
  rewrite Rmult_0_r, Rmult_0_r. split.
  - intros H. assert (Hd : d <= 0); [|unfold d in Hd; lra]. apply Rnot_lt_le. intros Hd.
    assert (Q1 : d * (/ w * (mass * g0)) < d * (/ w * F)) by (apply Rmult_lt_compat_l; lra).
    assert (Q2 : 0 < d * (/ w * F)) by (apply Rmult_lt_0_compat; lra).
    revert H. apply Rlt_not_le. apply Rmax_lub_lt; lra.
  - intros H. assert (Hd : d <= 0) by (unfold d; lra). eapply Rle_trans; [|apply Rmax_l].
    assert (Q : 0 <= (- d) * (/ w * F)) by (apply Rmult_le_pos; lra). lra.
Qed.

(** The kart: slips of the rear wheels along the track and lateral slips of the four up to 0.11,
    whatever the track, which is not limited by these constraints. *)
Theorem C124_kart : forall s kl kr fl fr rl rr,
  within_bounds (kart_extra_bounds s) (kart_extra_constraints kl kr fl fr rl rr) <->
  Rabs kl <= 11 / 100 /\ Rabs kr <= 11 / 100 /\ Rabs fl <= 11 / 100 /\ Rabs fr <= 11 / 100 /\ Rabs rl <= 11 / 100 /\ Rabs rr <= 11 / 100.
Proof.
  intros.
  assert (A : forall x l, - l <= x <= l <-> Rabs x <= l) by (intros x l; unfold Rabs; destruct (Rcase_abs x); lra).
  rewrite <- !A. split.
  - intros H. apply six in H; [|reflexivity]. cbn in H. repeat match goal with |- _ /\ _ => split end; lra.
  - intros (H1 & H2 & H3 & H4 & H5 & H6). split; [reflexivity|]. split; [reflexivity|].
    intros i Hi. do 6 (destruct i as [|i]; [cbn; lra|]). cbn in Hi. lia.
Qed.

(** A car of 660 kg with the tyres of the database, on a track of 5 m to each side. *)
Definition ex_tire : simple_model := MkSimple 2000 6000 (175 / 100) (14 / 10) (18 / 10) (145 / 100) (11 / 100) (1 / 10) 9 8 (19 / 10) (19 / 10).
Example C124_concrete :
  q_Fz1 ex_tire < q_Fz2 ex_tire /\ q_lambda_max2 ex_tire <= q_lambda_max1 ex_tire /\ 0 <= slip_limit ex_tire 660 (981 / 100) /\
  within_bounds (f1_extra_bounds ex_tire ex_tire ex_tire ex_tire 660 (981 / 100) 5 5) (f1_extra_constraints (1 / 100) (1 / 100) 0 0 1 0 (146 / 100)) /\
  ~ within_bounds (f1_extra_bounds ex_tire ex_tire ex_tire ex_tire 660 (981 / 100) 5 5) (f1_extra_constraints (1 / 100) (1 / 100) 0 0 (9 / 2) 0 (146 / 100)).
Proof.
  pose proof PI_RGT_0 as HP. pose proof PI2_1 as H2.
  assert (Hs : 1 / 100 <= slip_limit ex_tire 660 (981 / 100)).
  { unfold slip_limit. eapply Rle_trans; [|apply Rmax_l]. unfold maximum_lambda, q_lambda_max1, q_lambda_max2, DEG. cbn. lra. }
  split; [cbn; lra|]. split; [unfold q_lambda_max1, q_lambda_max2, DEG; cbn; lra|]. split; [lra|].
  assert (A : forall x l, 0 <= x -> x <= l -> - l <= x <= l) by (intros; lra).
  split.
  - split; [reflexivity|]. split; [reflexivity|]. intros i Hi. pose proof cos_0 as C0. do 6 (destruct i as [|i]; [cbn; rewrite ?C0; lra|]). cbn in Hi. lia.
  - intros H. apply six in H; [|reflexivity]. cbn in H. rewrite cos_0 in H. lra.
Qed.

Print Assumptions C124_what_the_constraints_say.
Print Assumptions C83_wheels_partial.
Print Assumptions C83_wheels_refuted.
Print Assumptions C124_peak_slip_allowed.
Print Assumptions C124_every_gripping_state_is_allowed.
Print Assumptions C124_heavy_loads.
Print Assumptions C124_kart.
