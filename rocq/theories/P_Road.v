(** The road: boundary points, Frenet frame, curvilinear kinematics, weight.
    Properties C40, C43, C44, C53. *)
From Coq Require Import Reals Lra.
From Coquelicot Require Import Coquelicot.
From Verif Require Import M_Vec M_Road S_Road L_Road.
Local Open Scope R_scope.

(** C43. For all angles, the frame is orthonormal and right-handed, and so are the body axes. *)
Theorem C43_frame_right_handed : forall e, right_handed (tangent e) (normal e) (binormal e).
Proof. exact frame_right_handed. Qed.
Theorem C43_body_axes_right_handed : forall e alpha, rotation (frame_matrix e alpha).
Proof. exact frame_matrix_rotation. Qed.

(** C40. Both boundary points lie on the line through the centreline point perpendicular to the
    centreline, on opposite sides, at distances nl and nr; they are nl + nr apart. *)
Theorem C40_boundary_points : forall r e nl nr, 0 <= nl -> 0 <= nr ->
  let l := left_point r e nl in
  let q := right_point r e nr in
  norm (vsub l r) = nl /\ norm (vsub q r) = nr /\ norm (vsub q l) = nl + nr /\
  dot (vsub l r) (direction e) = 0 /\ dot (vsub q r) (direction e) = 0 /\
  vscale nr (vsub l r) = vopp (vscale nl (vsub q r)).
Proof.
  intros r e nl nr Hl Hr. cbv zeta. destruct (frame_right_handed e) as (Htt & Hnn & Hbb & Htn & _).
  unfold left_point, right_point, coordinates, direction. change (V (cos (yaw e) * cos (pitch e)) (sin (yaw e) * cos (pitch e)) (- sin (pitch e))) with (tangent e).
  revert Htt Hnn Htn. destruct (tangent e) as [t1 t2 t3], (normal e) as [n1 n2 n3], r as [r1 r2 r3].
  unfold norm, dot, vsub, vscale, vopp. cbn [vx vy vz]. intros Htt Hnn Htn.
  repeat split.
  - replace (_ + _ + _) with (nl * nl * (n1 * n1 + n2 * n2 + n3 * n3)) by ring. rewrite Hnn, Rmult_1_r. apply sqrt_square; lra.
  - replace (_ + _ + _) with (nr * nr * (n1 * n1 + n2 * n2 + n3 * n3)) by ring. rewrite Hnn, Rmult_1_r. apply sqrt_square; lra.
  - replace (_ + _ + _) with ((nl + nr) * (nl + nr) * (n1 * n1 + n2 * n2 + n3 * n3)) by ring. rewrite Hnn, Rmult_1_r. apply sqrt_square; lra.
  - transitivity (- nl * (t1 * n1 + t2 * n2 + t3 * n3)); [ring|rewrite Htn; ring].
  - transitivity (nr * (t1 * n1 + t2 * n2 + t3 * n3)); [ring|rewrite Htn; ring].
  - f_equal; ring.
Qed.

(** The z axis points down. Unless the road is turned over, the left point is on the left of the
    direction of travel seen from above, and the right point on the right. *)
Theorem C40_left_is_left : forall r e nl nr, 0 < nl -> 0 < nr -> 0 < cos (roll e) * cos (pitch e) ->
  vz (cross (direction e) (vsub (left_point r e nl) r)) < 0 < vz (cross (direction e) (vsub (right_point r e nr) r)).
Proof.
  intros r e nl nr Hl Hr Hc. destruct (frame_right_handed e) as (_ & _ & _ & _ & _ & _ & Hx).
  assert (Hz : vz (cross (direction e) (normal e)) = cos (roll e) * cos (pitch e)).
  { change (direction e) with (tangent e). rewrite Hx. cbn. ring. }
  unfold left_point, right_point, coordinates. revert Hz Hc. generalize (cos (roll e) * cos (pitch e)). intros k.
  destruct (direction e) as [t1 t2 t3], (normal e) as [n1 n2 n3], r as [r1 r2 r3].
  unfold cross, vsub. cbn [vx vy vz]. intros Hz Hk. split.
  - replace (_ - _) with (- (nl * (t1 * n2 - t2 * n1))) by ring. rewrite Hz. nra.
  - replace (_ - _) with (nr * (t1 * n2 - t2 * n1)) by ring. rewrite Hz. nra.
Qed.

(** The computation without elevation gives the same points as the one with elevation at zero
    pitch and roll. *)
Theorem C40_flat_computation : forall x y th nl nr,
  left_point_flat x y th nl = left_point (V x y 0) (Euler th 0 0) nl /\
  right_point_flat x y th nr = right_point (V x y 0) (Euler th 0 0) nr /\
  direction_flat th = direction (Euler th 0 0).
Proof.
  intros. unfold left_point_flat, right_point_flat, left_point, right_point, coordinates_flat, coordinates, direction_flat, direction, normal.
  cbn [vx vy vz yaw pitch roll]. rewrite sin_0, cos_0. repeat split; f_equal; ring.
Qed.

Example C40_example : norm (vsub (right_point (V 1 2 3) (Euler 1 0 0) 5) (left_point (V 1 2 3) (Euler 1 0 0) 4)) = 9 /\ 0 < cos (roll (Euler 1 0 0)) * cos (pitch (Euler 1 0 0)).
Proof.
  split; [|cbn; rewrite cos_0; lra].
  replace 9 with (4 + 5) by ring. apply (C40_boundary_points (V 1 2 3) (Euler 1 0 0) 4 5); lra.
Qed.

(** C44. The curvature reported by the road is the rotation rate of the frame along the track. *)
Theorem C44_curvature_rotates_frame : forall th mu ph s dth dmu dph,
  is_derive th s dth -> is_derive mu s dmu -> is_derive ph s dph ->
  let e := fun x => Euler (th x) (mu x) (ph x) in
  let k := curvature (e s) (Euler dth dmu dph) in
  let w := vadd (vadd (vscale (vx k) (tangent (e s))) (vscale (vy k) (normal (e s)))) (vscale (vz k) (binormal (e s))) in
  vderive (fun x => tangent (e x)) s (cross w (tangent (e s))) /\
  vderive (fun x => normal (e x)) s (cross w (normal (e s))) /\
  vderive (fun x => binormal (e x)) s (cross w (binormal (e s))).
Proof.
  intros th mu ph s dth dmu dph H1 H2 H3 e k w.
  destruct (frame_right_handed (e s)) as (Ht & Hn & Hb & Htn & Hnb & Htb & Hx).
  destruct (right_handed_cross _ _ _ (frame_right_handed (e s))) as [Hnb' Hbt'].
  assert (A : forall x, cross w x = vadd (vadd (vscale (vx k) (cross (tangent (e s)) x)) (vscale (vy k) (cross (normal (e s)) x))) (vscale (vz k) (cross (binormal (e s)) x))).
  { intros [x1 x2 x3]. unfold w. destruct (tangent (e s)) as [t1 t2 t3], (normal (e s)) as [n1 n2 n3], (binormal (e s)) as [b1 b2 b3].
    unfold cross, vadd, vscale. cbn [vx vy vz]. f_equal; ring. }
  assert (An : forall a b, cross a b = vopp (cross b a)).
  { intros [x1 x2 x3] [y1 y2 y3]. unfold cross, vopp. cbn [vx vy vz]. f_equal; ring. }
  assert (A0 : forall a, cross a a = vzero). { intros [x1 x2 x3]. unfold cross, vzero. cbn [vx vy vz]. f_equal; ring. }
  split; [|split].
  - eapply vderive_eq; [apply (d_tangent th mu ph s dth dmu dph H1 H2 H3)|]. rewrite A, A0, (An (normal (e s)) (tangent (e s))), Hx, Hbt'.
    fold e k. change (kap th mu ph s dth dmu dph) with k. change (ang th mu ph s) with (e s).
    destruct k as [k1 k2 k3], (tangent (e s)) as [t1 t2 t3], (normal (e s)) as [n1 n2 n3], (binormal (e s)) as [b1 b2 b3].
    unfold vadd, vsub, vscale, vopp, vzero. cbn [vx vy vz]. f_equal; ring.
  - eapply vderive_eq; [apply (d_normal th mu ph s dth dmu dph H1 H2 H3)|]. rewrite A, A0, Hx, (An (binormal (e s)) (normal (e s))), Hnb'.
    change (kap th mu ph s dth dmu dph) with k. change (ang th mu ph s) with (e s).
    destruct k as [k1 k2 k3], (tangent (e s)) as [t1 t2 t3], (normal (e s)) as [n1 n2 n3], (binormal (e s)) as [b1 b2 b3].
    unfold vadd, vsub, vscale, vopp, vzero. cbn [vx vy vz]. f_equal; ring.
  - eapply vderive_eq; [apply (d_binormal th mu ph s dth dmu dph H1 H2 H3)|]. rewrite A, A0, Hnb', (An (tangent (e s)) (binormal (e s))), Hbt'.
    change (kap th mu ph s dth dmu dph) with k. change (ang th mu ph s) with (e s).
    destruct k as [k1 k2 k3], (tangent (e s)) as [t1 t2 t3], (normal (e s)) as [n1 n2 n3], (binormal (e s)) as [b1 b2 b3].
    unfold vadd, vsub, vscale, vopp, vzero. cbn [vx vy vz]. f_equal; ring.
Qed.

(** Motion of a car. [r s], [th s], [mu s], [ph s] are position and angles of the centreline at
    arclength s, with derivatives tangent, [dth], [dmu], [dph]; the car moves with arclength,
    lateral displacement and heading relative to the track whose rates are those computed by
    the road. Then the position computed by the road moves with the velocity (u, v) in body
    axes, plus the reported vertical velocity, and the body turns with the yaw rate. *)
Theorem C44_position_moves_with_body_velocity : forall (r : R -> vec) (th mu ph S n alpha : R -> R) t dth dmu dph u v yaw_rate,
  let e := fun s => Euler (th s) (mu s) (ph s) in
  let out x := road_update (r (S x)) (e (S x)) (Euler dth dmu dph) (n x) (alpha x) u v yaw_rate in
  vderive r (S t) (tangent (e (S t))) ->
  is_derive th (S t) dth -> is_derive mu (S t) dmu -> is_derive ph (S t) dph ->
  u * cos (alpha t) - v * sin (alpha t) <> 0 -> ro_dtime_ds (out t) <> 0 ->
  is_derive S t (/ ro_dtime_ds (out t)) -> is_derive n t (ro_n_dot (out t)) ->
  vderive (fun x => ro_position (out x)) t (mapply (frame_matrix (e (S t)) (alpha t)) (V u v (ro_w (out t)))).
Proof.
  intros r th mu ph S n alpha t dth dmu dph u v om e out Hr H1 H2 H3 Hu Hd HS Hn.
  eapply vderive_eq.
  { unfold out, road_update. cbn [ro_position]. apply vderive_add; [apply vderive_comp; [exact HS|exact Hr]|].
    apply (vderive_scale n (fun x => normal (e (S x)))); [exact Hn|].
    apply (vderive_comp (fun s => normal (e s)) S); [exact HS|]. exact (d_normal th mu ph (S t) dth dmu dph H1 H2 H3). }
  rewrite mapply_frame. cbn [vx vy vz]. change (ang th mu ph (S t)) with (e (S t)).
  unfold out, road_update in Hd |- *. cbn [ro_dtime_ds ro_n_dot ro_w] in Hd |- *. fold (kap th mu ph (S t) dth dmu dph) in Hd |- *.
  change (curvature (e (S t)) (Euler dth dmu dph)) with (kap th mu ph (S t) dth dmu dph) in Hd |- *.
  destruct (kap th mu ph (S t) dth dmu dph) as [k1 k2 k3]. cbn [vx vy vz] in Hd |- *.
  assert (Hk : 1 - n t * k3 <> 0). { intros H0. apply Hd. rewrite H0. unfold Rdiv. ring. }
  destruct (tangent (e (S t))) as [t1 t2 t3], (normal (e (S t))) as [n1 n2 n3], (binormal (e (S t))) as [b1 b2 b3].
  unfold vadd, vsub, vscale. cbn [vx vy vz]. f_equal; field; split; assumption.
Qed.

Theorem C44_body_turns_with_yaw_rate : forall (th mu ph S alpha : R -> R) t dth dmu dph r n u v yaw_rate,
  let e := fun s => Euler (th s) (mu s) (ph s) in
  let out := road_update r (e (S t)) (Euler dth dmu dph) n (alpha t) u v yaw_rate in
  is_derive th (S t) dth -> is_derive mu (S t) dmu -> is_derive ph (S t) dph ->
  is_derive S t (/ ro_dtime_ds out) -> is_derive alpha t (ro_alpha_dot out) ->
  exists d, vderive (fun x => col1 (frame_matrix (e (S x)) (alpha x))) t d /\
            dot d (col2 (frame_matrix (e (S t)) (alpha t))) = yaw_rate.
Proof.
  intros th mu ph S alpha t dth dmu dph r n u v om e out H1 H2 H3 HS Ha.
  eexists. split.
  { eapply vderive_ext; [intros x; symmetry; rewrite frame_cols; cbn [col1]; reflexivity|].
    apply vderive_add.
    - apply (vderive_scale (fun x => cos (alpha x)) (fun x => tangent (e (S x)))).
      + apply (is_derive_comp cos alpha); [apply is_derive_cos|exact Ha].
      + apply (vderive_comp (fun s => tangent (e s)) S); [exact HS|]. exact (d_tangent th mu ph (S t) dth dmu dph H1 H2 H3).
    - apply (vderive_scale (fun x => sin (alpha x)) (fun x => normal (e (S x)))).
      + apply (is_derive_comp sin alpha); [apply is_derive_sin|exact Ha].
      + apply (vderive_comp (fun s => normal (e s)) S); [exact HS|]. exact (d_normal th mu ph (S t) dth dmu dph H1 H2 H3). }
  rewrite frame_cols. cbn [col2]. unfold out, road_update. cbn [ro_dtime_ds ro_alpha_dot].
  change (ang th mu ph (S t)) with (e (S t)). change (kap th mu ph (S t) dth dmu dph) with (curvature (e (S t)) (Euler dth dmu dph)).
  destruct (frame_right_handed (e (S t))) as (Htt & Hnn & Hbb & Htn & Hnb & Htb & _). revert Htt Hnn Hbb Htn Hnb Htb.
  generalize ((1 - n * vz (curvature (e (S t)) (Euler dth dmu dph))) / (u * cos (alpha t) - v * sin (alpha t))). intros dt.
  destruct (curvature (e (S t)) (Euler dth dmu dph)) as [k1 k2 k3].
  destruct (tangent (e (S t))) as [t1 t2 t3], (normal (e (S t))) as [n1 n2 n3], (binormal (e (S t))) as [b1 b2 b3].
  unfold dot, vadd, vsub, vscale. cbn [vx vy vz]. intros Htt Hnn Hbb Htn Hnb Htb.
  pose proof (cs (alpha t)) as A. revert A. generalize (cos (alpha t)) (sin (alpha t)). intros ca sa A.
  unfold scal, Hierarchy.scal. cbn. unfold mult. cbn.
  set (i := / dt). set (ad := om - k3 / dt).
  transitivity ((- ad * sa) * (- sa * (t1 * t1 + t2 * t2 + t3 * t3) + ca * (t1 * n1 + t2 * n2 + t3 * n3))
    + ca * i * (k3 * (- sa * (t1 * n1 + t2 * n2 + t3 * n3) + ca * (n1 * n1 + n2 * n2 + n3 * n3)) - k2 * (- sa * (t1 * b1 + t2 * b2 + t3 * b3) + ca * (n1 * b1 + n2 * b2 + n3 * b3)))
    + (ad * ca) * (- sa * (t1 * n1 + t2 * n2 + t3 * n3) + ca * (n1 * n1 + n2 * n2 + n3 * n3))
    + sa * i * (k1 * (- sa * (t1 * b1 + t2 * b2 + t3 * b3) + ca * (n1 * b1 + n2 * b2 + n3 * b3)) - k3 * (- sa * (t1 * t1 + t2 * t2 + t3 * t3) + ca * (t1 * n1 + t2 * n2 + t3 * n3)))); [ring|].
  rewrite Htt, Hnn, Htn, Htb, Hnb.
  transitivity ((ad + k3 * i) * (ca * ca + sa * sa)); [ring|]. rewrite A. unfold ad, i, Rdiv. ring.
Qed.

(** The rates of the road angles passed to the chassis are their time derivatives. *)
Theorem C44_road_angle_rates : forall (th mu ph S : R -> R) t dth dmu dph dtime_ds,
  is_derive th (S t) dth -> is_derive mu (S t) dmu -> is_derive ph (S t) dph -> is_derive S t (/ dtime_ds) ->
  is_derive (fun x => th (S x)) t (yaw (euler_dot (Euler dth dmu dph) dtime_ds)) /\
  is_derive (fun x => mu (S x)) t (pitch (euler_dot (Euler dth dmu dph) dtime_ds)) /\
  is_derive (fun x => ph (S x)) t (roll (euler_dot (Euler dth dmu dph) dtime_ds)).
Proof.
  intros th mu ph S t dth dmu dph dt H1 H2 H3 HS.
  assert (A : forall f df, is_derive f (S t) df -> is_derive (fun x => f (S x)) t (df / dt)).
  { intros f df Hf. replace (df / dt) with (/ dt * df) by (unfold Rdiv; ring). apply (is_derive_comp f S t df (/ dt)); assumption. }
  cbn. auto.
Qed.

(** On the cartesian road the reported rates are the body velocity turned by the heading, and
    the speed is the same. *)
Theorem C44_cartesian_rates : forall psi u v omega,
  let '(dx, dy, dpsi) := cartesian_update psi u v omega in
  V dx dy 0 = mapply (rot_z psi) (V u v 0) /\ dx * dx + dy * dy = u * u + v * v /\ dpsi = omega.
Proof.
  intros. cbn. rewrite rot_z_apply. cbn [vx vy vz]. split; [f_equal; ring|split; [|reflexivity]].
  pose proof (cs psi) as H. ring [H].
Qed.

(** A car at 10 m/s on a circle of radius 50, one metre off the centreline. *)
Example C44_example :
  let e s := Euler (s / 50) 0 0 in
  let r s := V (50 * sin (s / 50)) (- 50 * cos (s / 50)) 0 in
  let S t := t * (10 / (1 - 1 * / 50)) in
  let out := road_update (r (S 0)) (e (S 0)) (Euler (/ 50) 0 0) 1 0 10 0 0 in
  vderive r (S 0) (tangent (e (S 0))) /\ is_derive (fun s => s / 50) (S 0) (/ 50) /\
  10 * cos 0 - 0 * sin 0 <> 0 /\ ro_dtime_ds out <> 0 /\ is_derive S 0 (/ ro_dtime_ds out) /\ is_derive (fun _ : R => 1) 0 (ro_n_dot out).
Proof.
  cbv zeta. unfold road_update, curvature. cbn [ro_dtime_ds ro_n_dot vz vx yaw pitch roll]. rewrite ?sin_0, ?cos_0.
  split; [|split; [|split; [|split; [|split]]]].
  - unfold vderive, tangent. cbn [vx vy vz yaw pitch roll]. rewrite sin_0, cos_0. split; [|split].
    + auto_derive; [exact I|]. replace (0 * (10 / (1 - 1 * / 50)) * / 50) with (0 * (10 / (1 - 1 * / 50)) / 50) by (unfold Rdiv; ring). field.
    + auto_derive; [exact I|]. replace (0 * (10 / (1 - 1 * / 50)) * / 50) with (0 * (10 / (1 - 1 * / 50)) / 50) by (unfold Rdiv; ring). field.
    + auto_derive; [exact I|ring].
  - auto_derive; [exact I|field].
  - lra.
  - apply Rgt_not_eq. lra.
  - auto_derive; [exact I|]. field. 
  - auto_derive; [exact I|ring].
Qed.

(** C53. The gravity force is the vertical vector of size m g (z down) in body axes. *)
Theorem C53_gravity_is_the_weight : forall e alpha mass g0,
  gravity_force e alpha mass g0 = mtapply (frame_matrix e alpha) (V 0 0 (mass * g0)) /\
  mapply (frame_matrix e alpha) (gravity_force e alpha mass g0) = V 0 0 (mass * g0) /\
  (0 <= mass * g0 -> norm (gravity_force e alpha mass g0) = mass * g0).
Proof.
  intros e alpha mass g0.
  assert (E : gravity_force e alpha mass g0 = mtapply (frame_matrix e alpha) (V 0 0 (mass * g0))).
  { rewrite frame_cols. unfold gravity_force, mtapply, dot, vadd, vscale, tangent, normal, binormal. cbn [col1 col2 col3 vx vy vz]. f_equal; ring. }
  assert (F : mapply (frame_matrix e alpha) (gravity_force e alpha mass g0) = V 0 0 (mass * g0)).
  { rewrite mapply_frame. unfold gravity_force, vadd, vscale, tangent, normal, binormal. cbn [vx vy vz].
    pose proof (cs alpha); pose proof (cs (yaw e)); pose proof (cs (pitch e)); pose proof (cs (roll e)).
    f_equal; ring [H H0 H1 H2]. }
  split; [exact E|split; [exact F|]]. intros Hp. unfold norm.
  replace (dot (gravity_force e alpha mass g0) (gravity_force e alpha mass g0)) with (mass * g0 * (mass * g0)); [apply sqrt_square; lra|].
  unfold gravity_force, dot. cbn [vx vy vz]. pose proof (cs alpha); pose proof (cs (pitch e)); pose proof (cs (roll e)). ring [H H0 H1].
Qed.

(** On a flat road the weight is all vertical; on a banked one it has a lateral part. *)
Example C53_example : gravity_force (Euler 1 0 0) 2 600 10 = V 0 0 6000 /\ 0 <= 600 * 10 /\
  vy (gravity_force (Euler 0 0 (PI / 2)) 0 600 10) = 6000.
Proof.
  unfold gravity_force. cbn [yaw pitch roll vy]. rewrite !sin_0, !cos_0, sin_PI2. repeat split; [f_equal; ring|lra|ring].
Qed.

Print Assumptions C40_boundary_points.
Print Assumptions C40_left_is_left.
Print Assumptions C40_flat_computation.
Print Assumptions C43_frame_right_handed.
Print Assumptions C43_body_axes_right_handed.
Print Assumptions C44_curvature_rotates_frame.
Print Assumptions C44_position_moves_with_body_velocity.
Print Assumptions C44_body_turns_with_yaw_rate.
Print Assumptions C44_road_angle_rates.
Print Assumptions C44_cartesian_rates.
Print Assumptions C53_gravity_is_the_weight.
