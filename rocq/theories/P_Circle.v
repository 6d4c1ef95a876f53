(** Property theorem C157: the steady states of a car on the plane are its laps of a circle. *)
From Coq Require Import Reals Lra Lia List Sorted.
From Verif Require Import M_Vec M_Tire M_Car M_Road M_F1 M_Kart6 M_KartCar M_Feasible M_RealLap M_RateLap S_F1 S_F1Wheels S_KartCar S_KartGrip S_RealLap S_LapLimits S_RateLap S_Freedom S_Moved S_Circle L_Tire L_F1 L_RealLap P_Tire P_Car P_F1 P_KartCar P_KartGrip P_RealLap P_LapLimits P_RateLap P_Freedom P_Moved.
Import ListNotations.
Local Open Scope R_scope.

(** ** Any car *)
Definition zero (l : list R) : Prop := Forall (fun x => x = 0) l.
Lemma zero_item l : zero l <-> forall k, (k < length l)%nat -> item l k = 0.
Proof.
  unfold zero, item. split; [intros F k Hk; apply (proj1 (Forall_nth _ l) F k 0 Hk)|].
  intros H. apply Forall_nth. intros k d Hk. rewrite (nth_indep l d 0 Hk). apply H, Hk.
Qed.
Lemma repeated_element sigma ds e : 0 < ds -> length (e_q e) = length (e_dq e) -> e_dt e <> 0 ->
  (element_holds sigma (ds, (e, e)) <-> zero (e_dq e) /\ zero (e_alg e) /\ bounded (e_lb e) (e_extra e) (e_ub e)).
Proof.
  intros Hd Hl Ht. unfold element_holds, residuals, algebraic_residuals. cbn [snd].
  assert (A : Forall (fun x => x = 0) (map (fun k => item (e_q e) k - item (e_q e) k - ds * ((1 - sigma) * item (e_dq e) k + sigma * item (e_dq e) k)) (seq 0 (length (e_q e)))) <-> zero (e_dq e)).
  { rewrite Forall_map, Forall_forall, zero_item, Hl. split; intros H k Hk.
    - specialize (H k). rewrite in_seq in H. specialize (H ltac:(lia)). assert (E : ds * item (e_dq e) k = 0) by lra. apply Rmult_integral in E. destruct E; [lra | assumption].
    - rewrite in_seq in Hk. rewrite H by lia. ring. }
  assert (B : Forall (fun x => x = 0) (map (fun d => d / e_dt e) (e_alg e)) <-> zero (e_alg e)).
  { rewrite Forall_map. unfold zero. rewrite !Forall_forall. split; intros H x Hx; specialize (H x Hx).
    - apply (Rmult_eq_compat_r (e_dt e)) in H. unfold Rdiv in H. rewrite Rmult_assoc, Rinv_l, Rmult_1_r, Rmult_0_l in H by exact Ht. exact H.
    - rewrite H. unfold Rdiv. ring. }
  rewrite A, B. reflexivity.
Qed.
Definition full_mesh (closed : bool) (L : R) (mesh : list R) : list R := mesh ++ if closed then [L] else [].
Lemma round_full {P} closed L mesh (p : P) : mesh <> [] -> closed_up closed L (round_lap mesh p) = round_lap (full_mesh closed L mesh) p.
Proof.
  intros N. unfold closed_up, round_lap, full_mesh. rewrite map_app. f_equal. destruct closed; [|reflexivity]. destruct mesh; [contradiction | reflexivity].
Qed.
Lemma repeated_lap sigma closed L mesh e : increasing_mesh closed L mesh -> has_element closed mesh -> length (e_q e) = length (e_dq e) -> e_dt e <> 0 ->
  (lap_feasible sigma [] closed L (round_lap mesh e) <->
   zero (e_dq e) /\ zero (e_alg e) /\ bounded (e_lb e) (e_extra e) (e_ub e) /\ bounded (e_xlb e) (e_x e) (e_xub e)).
Proof.
  intros Im He Hl Ht. unfold lap_feasible. rewrite mesh_closed_up.
  assert (N : mesh <> []) by (destruct mesh; [destruct closed; cbn in He; lia | discriminate]). rewrite round_full by exact N.
  assert (A : Forall (element_holds sigma) (inner_elements (round_lap (full_mesh closed L mesh) e)) <-> zero (e_dq e) /\ zero (e_alg e) /\ bounded (e_lb e) (e_extra e) (e_ub e)).
  { assert (H2 : (2 <= length (full_mesh closed L mesh))%nat) by (unfold full_mesh; rewrite app_length; destruct closed; cbn in He |- *; lia).
    unfold increasing_mesh in Im. fold (full_mesh closed L mesh) in Im. revert Im H2. generalize (full_mesh closed L mesh). intros m Im H2. split.
    - intros F. destruct m as [|a [|b m]]; [cbn in H2; lia | cbn in H2; lia|]. unfold round_lap in F. cbn [map inner_elements fst snd] in F. apply Forall_inv in F.
      apply (repeated_element sigma (b - a) e) in F; [exact F | | exact Hl | exact Ht]. inversion Im as [|x l S F0]; subst. apply Forall_inv in F0. lra.
    - intros H. clear H2. induction m as [|a m IH]; [constructor|]. destruct m as [|b m]; [constructor|]. unfold round_lap in IH |- *. cbn [map inner_elements fst snd] in IH |- *.
      inversion Im as [|x l S F0]; subst. constructor; [|exact (IH S)]. apply repeated_element; [apply Forall_inv in F0; lra | exact Hl | exact Ht | exact H]. }
  rewrite A. clear A.
  assert (B : variables_hold closed (round_lap mesh e) <-> bounded (e_xlb e) (e_x e) (e_xub e)).
  { unfold variables_hold. split.
    - intros F. destruct closed; destruct mesh as [|a [|b m]]; cbn in He; try lia; unfold round_lap in F; cbn [map tl] in F; apply Forall_inv in F; exact F.
    - intros H. assert (G : Forall (fun p => bounded (e_xlb (snd p)) (e_x (snd p)) (e_xub (snd p))) (round_lap mesh e)) by (apply Forall_map, Forall_forall; intros; exact H).
      destruct closed; [exact G|]. destruct G; [constructor | assumption]. }
  rewrite B. split; [intros ((H1 & H2 & H3) & H4 & _); auto | intros (H1 & H2 & H3 & H4); split; [auto|]; split; [exact H4 | constructor]].
Qed.
Lemma weighted_constant sigma b (l : list (R * R)) : Forall (fun p => snd p = b) l -> weighted sigma l = b * (last (map fst l) 0 - hd 0 (map fst l)).
Proof.
  induction l as [|[s x] l IH]; intros F; [cbn; ring|]. destruct l as [|[t y] l]; [cbn; ring|].
  specialize (IH (Forall_inv_tail F)). change (weighted sigma ((s, x) :: (t, y) :: l)) with ((t - s) * ((1 - sigma) * x + sigma * y) + weighted sigma ((t, y) :: l)). rewrite IH.
  change (last (map fst ((s, x) :: (t, y) :: l)) 0) with (last (map fst ((t, y) :: l)) 0). cbn [map fst hd].
  pose proof (Forall_inv F) as X. pose proof (Forall_inv (Forall_inv_tail F)) as Y. cbn [snd] in X, Y. rewrite X, Y. ring.
Qed.
Lemma along_constant {P} sigma closed L (g : R -> P -> R) b pts : Forall (fun p => g (fst p) (snd p) = b) pts -> along sigma closed L g pts = b * distance closed L pts.
Proof.
  intros F. unfold along, distance. rewrite (weighted_constant sigma b) by (apply (closed_up_Forall closed L g (fun x => x = b)), F). rewrite closed_up_fst. reflexivity.
Qed.
Lemma round_constant {P} mesh (p : P) (f : P -> R) : constant_along f (round_lap mesh p).
Proof. exists (f p). apply Forall_map, Forall_forall. reflexivity. Qed.
Lemma circle_turning k wl wr ci s : circle k wl wr ci -> turning ci s = k.
Proof. intros C. destruct (C s) as ((r & th & _ & E) & _). unfold turning. rewrite E. unfold flat_point, curvature; cbn. rewrite cos_0. ring. Qed.
Lemma flat_moved r th k : vz r = 0 -> flat_point r th k = moved_frame th r (flat_point (V 0 0 0) 0 k).
Proof.
  intros Z. unfold flat_point, moved_frame, moved_place; cbn [fr_r fr_e fr_de yaw pitch roll vx vy vz]. destruct r as [x y z]. cbn [vx vy vz] in Z |- *. subst z. f_equal; f_equal; ring.
Qed.
(** The speed of a car that follows the road. *)
Lemma follows_speed k n alpha u v yaw : follows k n alpha u v yaw -> 0 < u * cos alpha - v * sin alpha ->
  sqrt (u * u + v * v) = u * cos alpha - v * sin alpha /\ u = (u * cos alpha - v * sin alpha) * cos alpha /\ v = - (u * cos alpha - v * sin alpha) * sin alpha.
Proof.
  intros [Z _] F. pose proof (sin2_cos2 alpha) as T. unfold Rsqr in T. set (s := sin alpha) in *. set (c := cos alpha) in *.
  assert (Eu : u = (u * c - v * s) * c) by (transitivity (u * (s * s + c * c) - s * (u * s + v * c)); [rewrite T, Z; ring | ring]).
  assert (Ev : v = - (u * c - v * s) * s) by (transitivity (v * (s * s + c * c) - c * (u * s + v * c)); [rewrite T, Z; ring | ring]).
  split; [|split; [exact Eu | exact Ev]]. assert (E : u * u + v * v = (u * c - v * s) * (u * c - v * s)).
  { transitivity ((u * u + v * v) * (s * s + c * c) - (u * s + v * c) * (u * s + v * c)); [rewrite T, Z; ring | ring]. }
  rewrite E. apply sqrt_square. lra.
Qed.
Lemma slips_iff t m g w : (- slip_limit (w_model t) m g <= t_lambda w <= slip_limit (w_model t) m g) <-> slips_little t (m * g) w.
Proof.
  unfold slip_limit, slips_little. split.
  - intros B. apply slip_rabs in B. destruct (Rle_or_lt (maximum_lambda (w_model t) 0) (maximum_lambda (w_model t) (m * g))); [right; rewrite Rmax_right in B by lra | left; rewrite Rmax_left in B by lra]; exact B.
  - intros B. assert (A : Rabs (t_lambda w) <= Rmax (maximum_lambda (w_model t) 0) (maximum_lambda (w_model t) (m * g))).
    { destruct B as [B | B]; (eapply Rle_trans; [exact B|]); [apply Rmax_l | apply Rmax_r]. }
    unfold Rabs in A; destruct (Rcase_abs (t_lambda w)); lra.
Qed.

(** ** The Formula 1 car *)
Section F1.
Context (sp ss : R -> R -> R) (g0 : R).
Definition f1_reference (k wl wr : R) : circuit := Circuit (fun _ => flat_point (V 0 0 0) 0 k) (fun _ => wl) (fun _ => wr).
Lemma f1_round c ci elevated l h mesh p k wl wr : no_wind c -> circle k wl wr ci ->
  f1_lap sp ss g0 c ci elevated (fun _ => l) (fun _ => h) (round_lap mesh p) =
  round_lap mesh (f1_point_eval sp ss g0 c (f1_reference k wl wr) elevated (fun _ => l) (fun _ => h) 0 p).
Proof.
  intros [Nn Ne] C. unfold f1_lap, round_lap. rewrite map_map. apply map_ext. intros s. cbn [fst snd]. f_equal.
  destruct (C s) as ((r & th & Z & E) & El & Er).
  rewrite <- (f1_moved_point sp ss g0 th r c (f1_reference k wl wr) elevated (fun _ => l) (fun _ => h) 0 p). rewrite (C156_still_air th c Nn Ne).
  unfold f1_point_eval. cbn [moved_circuit f1_reference ci_frame ci_left ci_right]. rewrite E, El, Er, (flat_moved r th k Z). reflexivity.
Qed.
(** What the car does on the circle is what it does on the plane. *)
Lemma f1_round_point c k i n alpha : no_wind c -> 1 - n * k <> 0 -> i_u i * cos alpha - i_v i * sin alpha <> 0 ->
  let d := snd (f1_on_track sp ss g0 c i (flat_point (V 0 0 0) 0 k) 0 n alpha) in
  let D := snd (f1_on_plane sp ss g0 c i 0 0 0) in
  let dt := pace k n alpha (i_u i) (i_v i) in
  vx (M_F1.y_road d) = dt /\ without_road d = per_length dt D /\ vy (M_F1.y_road d) = dt * (i_u i * sin alpha + i_v i * cos alpha) /\ k + vz (M_F1.y_road d) = dt * i_yaw i.
Proof.
  intros [Nn Ne] Hn Hu d D dt. pose proof (C139_flat_track sp ss g0 c i (V 0 0 0) 0 k 0 n alpha 0 0 Hn Hu) as F.
  pose proof (C139_still_air sp ss g0 c i 0 0 0 0 0 (0 + alpha) Nn Ne) as A. fold D in A.
  assert (Ry : vy (M_F1.y_road (snd (f1_on_plane sp ss g0 c i 0 0 (0 + alpha)))) = i_u i * sin alpha + i_v i * cos alpha /\ vz (M_F1.y_road (snd (f1_on_plane sp ss g0 c i 0 0 (0 + alpha)))) = i_yaw i).
  { unfold f1_on_plane, cartesian_update. cbn [snd scaled f1_rates M_F1.y_road]. rewrite Rplus_0_l. unfold rot_z. cbv [mapply col1 col2 col3 vadd vscale vx vy vz]. split; ring. }
  unfold d. destruct (f1_on_track sp ss g0 c i (flat_point (V 0 0 0) 0 k) 0 n alpha) as [q d']. destruct (f1_on_plane sp ss g0 c i 0 0 (0 + alpha)) as [Q D']. cbn [snd] in *. cbv zeta in F.
  destruct F as (Edt & _ & Ew & Ez & _ & Ey). fold dt in Edt. unfold dt, pace in *. rewrite <- Edt. destruct Ry as [R1 R2]. rewrite R1 in Ey. rewrite R2 in Ez. rewrite sin_0, cos_0 in Ey.
  split; [reflexivity|]. split; [|split; [lra | exact Ez]].
  rewrite Ew. clearbody D. unfold without_road in A. injection A as A1 A2 A3 A4 A5 A6 A7 A8 A9 A10 A11. unfold per_length. rewrite A1, A2, A3, A4, A5, A6, A7, A8, A9, A10, A11. reflexivity.
Qed.
Lemma scaled_zero dt x : dt <> 0 -> (dt * x = 0 <-> x = 0).
Proof. intros H. split; [intros E; apply Rmult_integral in E; destruct E; [contradiction | assumption] | intros ->; ring]. Qed.
Lemma pace_nonzero k n alpha u v : 1 - n * k <> 0 -> u * cos alpha - v * sin alpha <> 0 -> pace k n alpha u v <> 0.
Proof. intros A B. unfold pace. apply Rmult_integral_contrapositive_currified; [exact A | apply Rinv_neq_0_compat, B]. Qed.
Lemma follows_iff k n alpha u v yaw dn da : 1 - n * k <> 0 -> u * cos alpha - v * sin alpha <> 0 ->
  dn = pace k n alpha u v * (u * sin alpha + v * cos alpha) -> k + da = pace k n alpha u v * yaw -> (dn = 0 /\ da = 0 <-> follows k n alpha u v yaw).
Proof.
  intros A B En Ea. pose proof (pace_nonzero k n alpha u v A B) as P. unfold follows. rewrite En, (scaled_zero _ _ P).
  assert (F : (u * cos alpha - v * sin alpha) * pace k n alpha u v = 1 - n * k) by (unfold pace; field; exact B).
  set (f := u * cos alpha - v * sin alpha) in *. set (t := pace k n alpha u v) in *.
  split; intros [E1 E2]; (split; [exact E1|]).
  - subst da. rewrite Rplus_0_r in Ea. rewrite <- F. rewrite Ea at 1. ring.
  - assert (E : f * (t * yaw - k) = 0) by (rewrite <- F in E2; lra). apply Rmult_integral in E. destruct E; [contradiction | lra].
Qed.
(** The same variables at each point of a circle satisfy the constraints if and only if the car is in a steady state on the plane, follows the road, and does what is allowed. *)
Theorem C157_lap c ci elevated l h mesh p sigma closed L k wl wr : no_wind c -> circle k wl wr ci -> increasing_mesh closed L mesh -> has_element closed mesh ->
  let i := fp_in p in 1 - fp_n p * k <> 0 -> i_u i * cos (fp_alpha p) - i_v i * sin (fp_alpha p) <> 0 ->
  (lap_feasible sigma [] closed L (f1_lap sp ss g0 c ci elevated (fun _ => l) (fun _ => h) (round_lap mesh p)) <->
   f1_steady (f1_on_plane sp ss g0) c i /\ follows k (fp_n p) (fp_alpha p) (i_u i) (i_v i) (i_yaw i) /\ f1_allowed g0 c wl wr l h p (plane_eval sp ss g0 c i 0)).
Proof.
  intros Nw C Im He i Hn Hu. rewrite (f1_round c ci elevated l h mesh p k wl wr Nw C).
  pose proof (f1_round_point c k i (fp_n p) (fp_alpha p) Nw Hn Hu) as (Edt & Ew & En & Ea).
  pose proof (pace_nonzero k (fp_n p) (fp_alpha p) (i_u i) (i_v i) Hn Hu) as Pn.
  pose proof (follows_iff _ _ _ _ _ (i_yaw i) _ _ Hn Hu En Ea) as Fo.
  destruct (flat_eval sp ss g0 c i (V 0 0 0) 0 k (fp_n p) (fp_alpha p) Hn Hu) as [_ Te]. cbv zeta in Te.
  set (e := f1_point_eval sp ss g0 c (f1_reference k wl wr) elevated (fun _ => l) (fun _ => h) 0 p).
  set (dq := snd (f1_on_track sp ss g0 c i (flat_point (V 0 0 0) 0 k) 0 (fp_n p) (fp_alpha p))) in *. set (dt := pace k (fp_n p) (fp_alpha p) (i_u i) (i_v i)) in *.
  assert (He' : e_dt e = vx (M_F1.y_road dq) /\ length (e_q e) = length (e_dq e) /\ e_dq e = f1_integrated elevated dq /\ e_alg e = f1_algebraic elevated dq /\ (bounded (e_lb e) (e_extra e) (e_ub e) /\ bounded (e_xlb e) (e_x e) (e_xub e) <-> f1_allowed g0 c wl wr l h p (plane_eval sp ss g0 c i 0))).
  { unfold e, f1_point_eval. cbn [f1_reference ci_frame ci_left ci_right]. fold i. rewrite Te. unfold dq. destruct (f1_on_track sp ss g0 c i (flat_point (V 0 0 0) 0 k) 0 (fp_n p) (fp_alpha p)) as [q d'].
    unfold f1_extra_bounds, f1_extra_constraints. cbv zeta. cbn [e_dt e_q e_dq e_alg e_extra e_lb e_ub e_x e_xlb e_xub snd].
    split; [reflexivity|]. split; [destruct elevated; reflexivity|]. split; [reflexivity|]. split; [reflexivity|].
    unfold f1_variables, f1_allowed. cbv zeta. fold i. rewrite !bounded_cons.
    assert (Ev : v_fl (plane_eval sp ss g0 c i (0 + fp_alpha p)) = v_fl (plane_eval sp ss g0 c i 0) /\ v_fr (plane_eval sp ss g0 c i (0 + fp_alpha p)) = v_fr (plane_eval sp ss g0 c i 0) /\ v_rl (plane_eval sp ss g0 c i (0 + fp_alpha p)) = v_rl (plane_eval sp ss g0 c i 0) /\ v_rr (plane_eval sp ss g0 c i (0 + fp_alpha p)) = v_rr (plane_eval sp ss g0 c i 0)).
    { unfold plane_eval, f1_update. rewrite !plane_omega. cbv zeta. cbn [v_fl v_fr v_rl v_rr]. repeat split; reflexivity. }
    destruct Ev as (-> & -> & -> & ->). rewrite !slips_iff.
    assert (Eh : forall x, 1 / 2 * x = x / 2) by (intros; field). rewrite !Eh. unfold between, f1_inputs_between.
    pose proof bounded_nil as Bn. split.
    - intros ((B0 & B1 & B2 & B3 & B4 & B5 & _) & X0 & X1 & X2 & X3 & X4 & X5 & X6 & X7 & X8 & X9 & X10 & X11 & X12 & X13 & X14 & X15 & X16 & _).
      split; [repeat (apply Forall_cons; [assumption|]); apply Forall_nil|]. repeat (split; [assumption|]). assumption.
    - intros (F & Y1 & Y2 & Y3 & Y4 & Y5 & Y6 & Y7 & Y8).
      repeat match type of F with Forall _ (_ :: _) => let X := fresh "X" in pose proof (Forall_inv F) as X; apply Forall_inv_tail in F end. cbv beta in *.
      split; repeat (split; [assumption|]); assumption. }
  destruct He' as (E1 & E2 & E3 & E4 & E5).
  rewrite (repeated_lap sigma closed L mesh e Im He E2) by (rewrite E1, Edt; exact Pn).
  assert (Z : zero (e_dq e) /\ zero (e_alg e) <-> f1_steady (f1_on_plane sp ss g0) c i /\ follows k (fp_n p) (fp_alpha p) (i_u i) (i_v i) (i_yaw i)).
  { rewrite <- Fo, E3, E4. clear - Ew Pn. unfold f1_steady. cbv zeta. set (D := snd (f1_on_plane sp ss g0 c i 0 0 0)) in *. clearbody dq D dt. unfold without_road, per_length in Ew.
    injection Ew as W1 W2 W3 W4 W5 W6 W7 W8 W9 W10 W11. unfold zero, f1_integrated, f1_algebraic. destruct elevated; cbn [app];
    rewrite ?Forall_cons_iff, ?W1, ?W2, ?W3, ?W4, ?W5, ?W6, ?W7, ?W8, ?W9, ?W10, ?W11, ?(scaled_zero dt) by exact Pn; pose proof (Forall_nil (fun x : R => x = 0)); tauto. }
  tauto.
Qed.
(** Its time, whatever the penalisations: the length of the path of the car over its speed. *)
Theorem C157_time c ci elevated lo hi mesh p sigma closed L k wl wr d_steering d_boost d_throttle d_bias : circle k wl wr ci ->
  let i := fp_in p in follows k (fp_n p) (fp_alpha p) (i_u i) (i_v i) (i_yaw i) -> 0 < i_u i * cos (fp_alpha p) - i_v i * sin (fp_alpha p) ->
  lap_objective sigma [d_steering; d_boost; d_throttle; d_bias] closed L (f1_lap sp ss g0 c ci elevated lo hi (round_lap mesh p)) =
  (1 - fp_n p * k) * distance closed L (round_lap mesh p) / sqrt (i_u i * i_u i + i_v i * i_v i).
Proof.
  intros C i Fo Hf. rewrite C153_value, !wear_constant by apply round_constant.
  rewrite (along_constant sigma closed L _ (pace k (fp_n p) (fp_alpha p) (i_u i) (i_v i))).
  - destruct (follows_speed _ _ _ _ _ _ Fo Hf) as (E & _). rewrite E. unfold pace. field. lra.
  - apply Forall_map, Forall_forall. intros s _. cbn [fst snd]. unfold f1_pace. rewrite (circle_turning k wl wr ci s C). reflexivity.
Qed.
(** The steady turns without tangential acceleration, those of the diagrams, are laps of circles at the speed of the turn. *)
Theorem C157_turn c speed ay ci wl wr : no_wind c -> 0 < speed -> turn (f1_on_plane sp ss g0) c speed 0 ay -> circle (ay / (speed * speed)) wl wr ci ->
  exists p, fp_n p = 0 /\ forall elevated l h mesh sigma closed L d_steering d_boost d_throttle d_bias, increasing_mesh closed L mesh -> has_element closed mesh ->
    f1_allowed g0 c wl wr l h p (plane_eval sp ss g0 c (fp_in p) 0) ->
    let lap := f1_lap sp ss g0 c ci elevated (fun _ => l) (fun _ => h) (round_lap mesh p) in
    lap_feasible sigma [] closed L lap /\ lap_objective sigma [d_steering; d_boost; d_throttle; d_bias] closed L lap = distance closed L (round_lap mesh p) / speed.
Proof.
  intros Nw Sp (i & psi & T) C. cbv zeta in T. destruct T as (Hu & Hv & Hy & T1 & T2 & T3 & T4 & T5 & T6 & T7 & T8 & T9 & T10 & T11).
  exists (F1Point i 0 psi). split; [reflexivity|]. intros elevated l h mesh sigma closed L d1 d2 d3 d4 Im He Al lap.
  pose proof (sin2_cos2 psi) as Py. unfold Rsqr in Py.
  assert (Fw : i_u i * cos psi - i_v i * sin psi = speed) by (rewrite Hu, Hv; transitivity (speed * (sin psi * sin psi + cos psi * cos psi)); [ring | rewrite Py; ring]).
  assert (Fo : follows (ay / (speed * speed)) 0 psi (i_u i) (i_v i) (i_yaw i)).
  { split; [rewrite Hu, Hv; ring|]. rewrite Fw, <- Hy. field. lra. }
  assert (St : f1_steady (f1_on_plane sp ss g0) c i).
  { destruct Nw as [Nn Ne]. pose proof (C139_still_air sp ss g0 c i 0 0 0 0 psi 0 Nn Ne) as A. unfold f1_steady. cbv zeta. set (D := snd (f1_on_plane sp ss g0 c i 0 0 psi)) in *. set (D0 := snd (f1_on_plane sp ss g0 c i 0 0 0)) in *.
    clearbody D D0. unfold without_road in A. injection A as A1 A2 A3 A4 A5 A6 A7 A8 A9 A10 A11. rewrite A1, A2, A3, A4, A5, A6, A7, A8, A9, A10, A11.
    assert (U : M_F1.y_u D = 0) by (transitivity (cos psi * (M_F1.y_u D * cos psi - M_F1.y_v D * sin psi) + sin psi * (M_F1.y_u D * sin psi + M_F1.y_v D * cos psi)); [transitivity (M_F1.y_u D * (sin psi * sin psi + cos psi * cos psi)); [rewrite Py; ring | ring] | rewrite T10, T11; ring]).
    assert (W : M_F1.y_v D = 0) by (transitivity (- sin psi * (M_F1.y_u D * cos psi - M_F1.y_v D * sin psi) + cos psi * (M_F1.y_u D * sin psi + M_F1.y_v D * cos psi)); [transitivity (M_F1.y_v D * (sin psi * sin psi + cos psi * cos psi)); [rewrite Py; ring | ring] | rewrite T10, T11; ring]).
    repeat (apply Forall_cons; [assumption|]). apply Forall_nil. }
  split.
  - apply (C157_lap c ci elevated l h mesh (F1Point i 0 psi) sigma closed L (ay / (speed * speed)) wl wr Nw C Im He); cbn [fp_in fp_n fp_alpha]; [lra | lra|]. auto.
  - unfold lap. rewrite (C157_time c ci elevated _ _ mesh (F1Point i 0 psi) sigma closed L (ay / (speed * speed)) wl wr d1 d2 d3 d4 C Fo) by (cbn [fp_in fp_alpha]; lra).
    cbn [fp_in fp_n fp_alpha]. destruct (follows_speed _ _ _ _ _ _ Fo ltac:(lra)) as (E & _). rewrite E, Fw. unfold Rdiv. ring.
Qed.
(** The best lap of a circle is not slower than any steady turn that is allowed. *)
Theorem C157_best c speed ay ci wl wr : no_wind c -> 0 < speed -> turn (f1_on_plane sp ss g0) c speed 0 ay -> circle (ay / (speed * speed)) wl wr ci ->
  exists p, fp_n p = 0 /\ forall elevated l h mesh sigma closed L d_steering d_boost d_throttle d_bias T, increasing_mesh closed L mesh -> has_element closed mesh ->
    f1_allowed g0 c wl wr l h p (plane_eval sp ss g0 c (fp_in p) 0) ->
    best (f1_lap sp ss g0 c ci elevated (fun _ => l) (fun _ => h)) sigma [d_steering; d_boost; d_throttle; d_bias] [] closed L mesh T ->
    T <= distance closed L (round_lap mesh p) / speed.
Proof.
  intros Nw Sp Tu C. destruct (C157_turn c speed ay ci wl wr Nw Sp Tu C) as (p & Hp & H). exists p. split; [exact Hp|].
  intros elevated l h mesh sigma closed L d1 d2 d3 d4 T Im He Al [_ B]. destruct (H elevated l h mesh sigma closed L d1 d2 d3 d4 Im He Al) as [F O].
  apply B. exists (round_lap mesh p). split; [unfold round_lap; rewrite map_map; apply map_id|]. split; [exact F | exact O].
Qed.
(** And the laps of a circle with the same variables at each point are such turns. *)
Theorem C157_only_turns c ci elevated l h mesh p sigma closed L k wl wr : no_wind c -> circle k wl wr ci -> increasing_mesh closed L mesh -> has_element closed mesh ->
  let i := fp_in p in let speed := sqrt (i_u i * i_u i + i_v i * i_v i) in 1 - fp_n p * k <> 0 -> 0 < i_u i * cos (fp_alpha p) - i_v i * sin (fp_alpha p) ->
  lap_feasible sigma [] closed L (f1_lap sp ss g0 c ci elevated (fun _ => l) (fun _ => h) (round_lap mesh p)) ->
  turn (f1_on_plane sp ss g0) c speed 0 (k / (1 - fp_n p * k) * (speed * speed)).
Proof.
  intros Nw C Im He i speed Hn Hf F. apply (C157_lap c ci elevated l h mesh p sigma closed L k wl wr Nw C Im He Hn) in F; [|fold i; lra]. fold i in F. destruct F as (St & Fo & _).
  destruct (follows_speed _ _ _ _ _ _ Fo Hf) as (E & Eu & Ev). fold speed in E. destruct Fo as [_ Fy]. rewrite <- E in Eu, Ev, Fy.
  exists i, (fp_alpha p). cbv zeta. destruct Nw as [Nn Ne]. pose proof (C139_still_air sp ss g0 c i 0 0 0 0 0 (fp_alpha p) Nn Ne) as A. unfold f1_steady in St. cbv zeta in St.
  set (D := snd (f1_on_plane sp ss g0 c i 0 0 (fp_alpha p))) in *. set (D0 := snd (f1_on_plane sp ss g0 c i 0 0 0)) in *.
  clearbody D D0. unfold without_road in A. injection A as A1 A2 A3 A4 A5 A6 A7 A8 A9 A10 A11. rewrite A1, A2, A3, A4, A5, A6, A7, A8, A9, A10, A11.
  rewrite !Forall_cons_iff in St. destruct St as (S1 & S2 & S3 & S4 & S5 & S6 & S7 & S8 & S9 & S10 & S11 & _). rewrite S5, S6.
  split; [exact Eu|]. split; [exact Ev|]. split; [|repeat (split; [assumption|]); split; ring].
  transitivity (i_yaw i * (1 - fp_n p * k) * speed / (1 - fp_n p * k)); [field; exact Hn | rewrite Fy; field; exact Hn].
Qed.
End F1.

(** ** The kart *)
Section Kart.
Context (sp ss : R -> R -> R) (linsolve : mat -> vec -> vec).
Lemma kart_calm theta c : kart_no_wind c -> kart_in_turned_wind theta c = c.
Proof. intros [N E]. destruct c as [b [rho cd cl Ar no ea] f r tf tr en Tm sm I]. cbn in N, E. subst. unfold kart_in_turned_wind, turn_wind; cbn. do 2 f_equal; ring. Qed.
Lemma kart_heading c i psi psi' : kart_no_wind c ->
  kart_without_road (snd (kart_on_plane sp ss linsolve c i 0 0 psi')) = kart_without_road (snd (kart_on_plane sp ss linsolve c i 0 0 psi)).
Proof.
  intros Nw. pose proof (C142_anywhere sp ss linsolve c i 0 0 0 0 psi (psi' - psi)) as A. rewrite (kart_calm _ _ Nw) in A. replace (psi + (psi' - psi)) with psi' in A by ring.
  destruct (kart_on_plane sp ss linsolve c i 0 0 psi) as [q d], (kart_on_plane sp ss linsolve c i 0 0 psi') as [q' d']. apply (proj1 (proj2 A)).
Qed.
Lemma kart_round c ci l h mesh p k wl wr : kart_no_wind c -> circle k wl wr ci ->
  kart_lap_points sp ss linsolve c ci (fun _ => l) (fun _ => h) (round_lap mesh p) =
  round_lap mesh (kart_point_eval sp ss linsolve c (f1_reference k wl wr) (fun _ => l) (fun _ => h) 0 p).
Proof.
  intros Nw C. unfold kart_lap_points, round_lap. rewrite map_map. apply map_ext. intros s. cbn [fst snd]. f_equal.
  destruct (C s) as ((r & th & Z & E) & El & Er).
  rewrite <- (kart_moved_point sp ss linsolve th r c (f1_reference k wl wr) (fun _ => l) (fun _ => h) 0 p Z). rewrite (kart_calm th c Nw).
  unfold kart_point_eval. cbn [moved_circuit f1_reference ci_frame ci_left ci_right]. rewrite E, El, Er, (flat_moved r th k Z). reflexivity.
Qed.
Lemma kart_round_point c k i n alpha : kart_no_wind c -> 1 - n * k <> 0 -> q_u (i_state i) * cos alpha - q_v (i_state i) * sin alpha <> 0 ->
  let d := snd (kart_on_track sp ss linsolve c i (flat_point (V 0 0 0) 0 k) 0 n alpha) in
  let D := snd (kart_on_plane sp ss linsolve c i 0 0 0) in
  let dt := pace k n alpha (q_u (i_state i)) (q_v (i_state i)) in
  vx (M_KartCar.y_road d) = dt /\ kart_without_road d = kart_per_length dt D /\
  vy (M_KartCar.y_road d) = dt * (q_u (i_state i) * sin alpha + q_v (i_state i) * cos alpha) /\ k + vz (M_KartCar.y_road d) = dt * q_omega (i_state i).
Proof.
  intros Nw Hn Hu d D dt. pose proof (C142_flat_track sp ss linsolve c i (V 0 0 0) 0 k 0 n alpha 0 0 eq_refl Hn Hu) as F.
  pose proof (kart_heading c i 0 (0 + alpha) Nw) as A. fold D in A.
  assert (Ry : vy (M_KartCar.y_road (snd (kart_on_plane sp ss linsolve c i 0 0 (0 + alpha)))) = q_u (i_state i) * sin alpha + q_v (i_state i) * cos alpha /\
               vz (M_KartCar.y_road (snd (kart_on_plane sp ss linsolve c i 0 0 (0 + alpha)))) = q_omega (i_state i)).
  { unfold kart_on_plane, cartesian_update. cbn [snd kart_scaled kart_rates M_KartCar.y_road]. rewrite Rplus_0_l. unfold rot_z. cbv [mapply col1 col2 col3 vadd vscale vx vy vz]. split; ring. }
  unfold d. destruct (kart_on_track sp ss linsolve c i (flat_point (V 0 0 0) 0 k) 0 n alpha) as [q d']. destruct (kart_on_plane sp ss linsolve c i 0 0 (0 + alpha)) as [Q D']. cbn [snd] in *. cbv zeta in F.
  destruct F as (Edt & _ & Ew & Ez & _ & Ey). fold dt in Edt. unfold dt, pace in *. rewrite <- Edt. destruct Ry as [R1 R2]. rewrite R1 in Ey. rewrite R2 in Ez. rewrite sin_0, cos_0 in Ey.
  split; [reflexivity|]. split; [|split; [lra | exact Ez]].
  rewrite Ew. clearbody D. unfold kart_without_road in A. injection A as A1 A2 A3 A4 A5 A6 A7 A8 A9 A10. unfold kart_per_length. rewrite A1, A2, A3, A4, A5, A6, A7, A8, A9, A10. reflexivity.
Qed.
(** The tyres of the kart do on the circle what they do on the plane. *)
Lemma kart_round_tyres c k i n alpha : 1 - n * k <> 0 -> q_u (i_state i) * cos alpha - q_v (i_state i) * sin alpha <> 0 ->
  let v := snd (kart_track_eval sp ss linsolve c i (flat_point (V 0 0 0) 0 k) n alpha) in let v' := kart_plane_eval sp ss linsolve c i 0 in
  n_front v = n_front v' /\ n_rear v = n_rear v'.
Proof.
  intros Hn Hu. unfold kart_track_eval, flat_point; cbn [fr_r fr_e fr_de snd]. set (q := i_state i) in *.
  set (o := road_update (V 0 0 0) (Euler 0 0 0) (Euler k 0 0) n alpha (q_u q) (q_v q) (q_omega q)).
  assert (K : curvature (Euler 0 0 0) (Euler k 0 0) = V 0 0 k) by (unfold curvature; cbn; rewrite sin_0, cos_0; f_equal; ring).
  assert (Dt : ro_dtime_ds o = (1 - n * k) / (q_u q * cos alpha - q_v q * sin alpha)) by (unfold o, road_update; rewrite K; reflexivity).
  assert (Ad : ro_alpha_dot o = q_omega q - k / ro_dtime_ds o) by (rewrite Dt; unfold o, road_update; rewrite K; reflexivity).
  assert (Wo : ro_w o = 0) by (unfold o, road_update; rewrite K; cbn; unfold Rdiv; ring).
  assert (Po : vz (ro_position o) = 0). { unfold o, road_update, normal; cbn. rewrite sin_0. ring. }
  clearbody o. rewrite Wo, Po. unfold kart_plane_eval, kart_update, euler_dot; cbn [yaw pitch roll]. fold q.
  assert (Om : frame_omega (Euler 0 0 0) (Euler (k / ro_dtime_ds o) (0 / ro_dtime_ds o) (0 / ro_dtime_ds o)) alpha (ro_alpha_dot o) = V 0 0 (q_omega q)).
  { unfold frame_omega, curvature; cbn [yaw pitch roll]. rewrite Ad, sin_0, cos_0. unfold Rdiv. rewrite Rmult_0_l. vring. }
  rewrite Om, plane_omega. cbv zeta. cbn [n_front n_rear].
  rewrite !(fun mode a t U Om x rel phi dphi delta omega => axle_flat sp mode a t 0 (frame_matrix (Euler 0 0 0) 0) (frame_matrix (Euler 0 0 0) alpha) U Om x rel phi dphi delta omega
     (fun b => eq_trans (flat_height alpha b) (eq_sym (flat_height 0 b)))).
  split; reflexivity.
Qed.
Theorem C157_kart_lap c ci l h mesh p sigma closed L k wl wr : kart_no_wind c -> circle k wl wr ci -> increasing_mesh closed L mesh -> has_element closed mesh ->
  let i := kp_in p in let q := i_state i in 1 - kp_n p * k <> 0 -> q_u q * cos (kp_alpha p) - q_v q * sin (kp_alpha p) <> 0 ->
  (lap_feasible sigma [] closed L (kart_lap_points sp ss linsolve c ci (fun _ => l) (fun _ => h) (round_lap mesh p)) <->
   kart_steady (kart_on_plane sp ss linsolve) c i /\ follows k (kp_n p) (kp_alpha p) (q_u q) (q_v q) (q_omega q) /\ kart_allowed wl wr l h p (kart_plane_eval sp ss linsolve c i 0)).
Proof.
  intros Nw C Im He i qs Hn Hu. rewrite (kart_round c ci l h mesh p k wl wr Nw C).
  pose proof (kart_round_point c k i (kp_n p) (kp_alpha p) Nw Hn Hu) as (Edt & Ew & En & Ea). fold qs in Edt, Ew, En, Ea.
  pose proof (pace_nonzero k (kp_n p) (kp_alpha p) (q_u qs) (q_v qs) Hn Hu) as Pn.
  pose proof (follows_iff _ _ _ _ _ (q_omega qs) _ _ Hn Hu En Ea) as Fo.
  destruct (kart_round_tyres c k i (kp_n p) (kp_alpha p) Hn Hu) as [Tf Tr].
  set (e := kart_point_eval sp ss linsolve c (f1_reference k wl wr) (fun _ => l) (fun _ => h) 0 p).
  set (dq := snd (kart_on_track sp ss linsolve c i (flat_point (V 0 0 0) 0 k) 0 (kp_n p) (kp_alpha p))) in *. set (dt := pace k (kp_n p) (kp_alpha p) (q_u qs) (q_v qs)) in *.
  assert (He' : e_dt e = vx (M_KartCar.y_road dq) /\ length (e_q e) = length (e_dq e) /\ e_dq e = kart_integrated dq /\ e_alg e = [] /\
    (bounded (e_lb e) (e_extra e) (e_ub e) /\ bounded (e_xlb e) (e_x e) (e_xub e) <-> kart_allowed wl wr l h p (kart_plane_eval sp ss linsolve c i 0))).
  { unfold e, kart_point_eval. cbn [f1_reference ci_frame ci_left ci_right]. fold i. unfold dq.
    destruct (kart_track_eval sp ss linsolve c i (flat_point (V 0 0 0) 0 k) (kp_n p) (kp_alpha p)) as [r v]. cbn [snd] in Tf, Tr. rewrite Tf, Tr.
    destruct (kart_on_track sp ss linsolve c i (flat_point (V 0 0 0) 0 k) 0 (kp_n p) (kp_alpha p)) as [q d'].
    unfold kart_extra_bounds, kart_extra_constraints. cbn [e_dt e_q e_dq e_alg e_extra e_lb e_ub e_x e_xlb e_xub snd repeat].
    split; [reflexivity|]. split; [reflexivity|]. split; [reflexivity|]. split; [reflexivity|].
    unfold kart_variables, kart_allowed. cbv zeta. fold i. rewrite !bounded_cons. unfold between, kart_inputs_between, between.
    pose proof bounded_nil as Bn. split.
    - intros ((B0 & B1 & B2 & B3 & B4 & B5 & _) & X0 & X1 & X2 & X3 & X4 & X5 & X6 & X7 & X8 & X9 & X10 & X11 & X12 & X13 & _).
      split; [split; repeat (apply Forall_cons; [assumption|]); apply Forall_nil|]. split; [assumption|]. split; [assumption|].
      repeat (apply Forall_cons; [apply slip_rabs; assumption|]). apply Forall_nil.
    - intros ((F & G) & Y1 & Y2 & Y3).
      assert (Ab : forall x, Rabs x <= 11 / 100 -> - (11 / 100) <= x <= 11 / 100) by (intros x Hx; unfold Rabs in Hx; destruct (Rcase_abs x); lra).
      repeat match type of F with Forall _ (_ :: _) => let X := fresh "X" in pose proof (Forall_inv F) as X; apply Forall_inv_tail in F end.
      repeat match type of G with Forall _ (_ :: _) => let X := fresh "X" in pose proof (Forall_inv G) as X; apply Forall_inv_tail in G end.
      repeat match type of Y3 with Forall _ (_ :: _) => let X := fresh "X" in pose proof (Ab _ (Forall_inv Y3)) as X; apply Forall_inv_tail in Y3 end. cbv beta in *.
      split; repeat (split; [assumption|]); assumption. }
  destruct He' as (E1 & E2 & E3 & E4 & E5).
  rewrite (repeated_lap sigma closed L mesh e Im He E2) by (rewrite E1, Edt; exact Pn).
  assert (Z : zero (e_dq e) /\ zero (e_alg e) <-> kart_steady (kart_on_plane sp ss linsolve) c i /\ follows k (kp_n p) (kp_alpha p) (q_u qs) (q_v qs) (q_omega qs)).
  { rewrite <- Fo, E3, E4. clear - Ew Pn. unfold kart_steady. cbv zeta. set (D := snd (kart_on_plane sp ss linsolve c i 0 0 0)) in *. clearbody dq D dt. unfold kart_without_road, kart_per_length in Ew.
    injection Ew as W1 W2 W3 W4 W5 W6 W7 W8 W9 W10. unfold zero, kart_integrated.
    rewrite !Forall_cons_iff, W1, W2, W3, W4, W5, W6, W7, W8, W9, W10, !(scaled_zero dt) by exact Pn. pose proof (Forall_nil (fun x : R => x = 0)). tauto. }
  tauto.
Qed.
Theorem C157_kart_time c ci lo hi mesh p sigma closed L k wl wr d_steering d_throttle : circle k wl wr ci ->
  let q := i_state (kp_in p) in follows k (kp_n p) (kp_alpha p) (q_u q) (q_v q) (q_omega q) -> 0 < q_u q * cos (kp_alpha p) - q_v q * sin (kp_alpha p) ->
  lap_objective sigma [d_steering; d_throttle] closed L (kart_lap_points sp ss linsolve c ci lo hi (round_lap mesh p)) =
  (1 - kp_n p * k) * distance closed L (round_lap mesh p) / sqrt (q_u q * q_u q + q_v q * q_v q).
Proof.
  intros C q Fo Hf. rewrite C153_kart_value, !wear_constant by apply round_constant.
  rewrite (along_constant sigma closed L _ (pace k (kp_n p) (kp_alpha p) (q_u q) (q_v q))).
  - destruct (follows_speed _ _ _ _ _ _ Fo Hf) as (E & _). rewrite E. unfold pace. field. lra.
  - apply Forall_map, Forall_forall. intros s _. cbn [fst snd]. unfold kart_pace. rewrite (circle_turning k wl wr ci s C). reflexivity.
Qed.
Theorem C157_kart_turn c speed ay ci wl wr : kart_no_wind c -> 0 < speed -> kart_turn (kart_on_plane sp ss linsolve) c speed 0 ay -> circle (ay / (speed * speed)) wl wr ci ->
  exists p, kp_n p = 0 /\ forall l h mesh sigma closed L d_steering d_throttle, increasing_mesh closed L mesh -> has_element closed mesh ->
    kart_allowed wl wr l h p (kart_plane_eval sp ss linsolve c (kp_in p) 0) ->
    let lap := kart_lap_points sp ss linsolve c ci (fun _ => l) (fun _ => h) (round_lap mesh p) in
    lap_feasible sigma [] closed L lap /\ lap_objective sigma [d_steering; d_throttle] closed L lap = distance closed L (round_lap mesh p) / speed.
Proof.
  intros Nw Sp (i & psi & T) C. cbv zeta in T. set (q := i_state i) in *. destruct T as (Hu & Hv & Hy & _ & T1 & T2 & T3 & T4 & T5 & T6 & T7 & T8 & T10 & T11).
  exists (KartPoint i 0 psi). split; [reflexivity|]. intros l h mesh sigma closed L d1 d2 Im He Al lap.
  pose proof (sin2_cos2 psi) as Py. unfold Rsqr in Py.
  assert (Fw : q_u q * cos psi - q_v q * sin psi = speed) by (rewrite Hu, Hv; transitivity (speed * (sin psi * sin psi + cos psi * cos psi)); [ring | rewrite Py; ring]).
  assert (Fo : follows (ay / (speed * speed)) 0 psi (q_u q) (q_v q) (q_omega q)).
  { split; [rewrite Hu, Hv; ring|]. rewrite Fw, <- Hy. field. lra. }
  assert (St : kart_steady (kart_on_plane sp ss linsolve) c i).
  { pose proof (kart_heading c i psi 0 Nw) as A. unfold kart_steady. cbv zeta. set (D := snd (kart_on_plane sp ss linsolve c i 0 0 psi)) in *. set (D0 := snd (kart_on_plane sp ss linsolve c i 0 0 0)) in *.
    clearbody D D0. unfold kart_without_road in A. injection A as A1 A2 A3 A4 A5 A6 A7 A8 A9 A10. rewrite A1, A2, A3, A4, A5, A6, A7, A8, A9, A10.
    assert (U : M_KartCar.y_u D = 0) by (transitivity (cos psi * (M_KartCar.y_u D * cos psi - M_KartCar.y_v D * sin psi) + sin psi * (M_KartCar.y_u D * sin psi + M_KartCar.y_v D * cos psi)); [transitivity (M_KartCar.y_u D * (sin psi * sin psi + cos psi * cos psi)); [rewrite Py; ring | ring] | rewrite T10, T11; ring]).
    assert (W : M_KartCar.y_v D = 0) by (transitivity (- sin psi * (M_KartCar.y_u D * cos psi - M_KartCar.y_v D * sin psi) + cos psi * (M_KartCar.y_u D * sin psi + M_KartCar.y_v D * cos psi)); [transitivity (M_KartCar.y_v D * (sin psi * sin psi + cos psi * cos psi)); [rewrite Py; ring | ring] | rewrite T10, T11; ring]).
    repeat (apply Forall_cons; [assumption|]). apply Forall_nil. }
  split.
  - apply (C157_kart_lap c ci l h mesh (KartPoint i 0 psi) sigma closed L (ay / (speed * speed)) wl wr Nw C Im He); cbn [kp_in kp_n kp_alpha]; fold q; [lra | lra|]. auto.
  - unfold lap. rewrite (C157_kart_time c ci _ _ mesh (KartPoint i 0 psi) sigma closed L (ay / (speed * speed)) wl wr d1 d2 C Fo) by (cbn [kp_in kp_alpha]; fold q; lra).
    cbn [kp_in kp_n kp_alpha]. fold q. destruct (follows_speed _ _ _ _ _ _ Fo ltac:(lra)) as (E & _). rewrite E, Fw. unfold Rdiv. ring.
Qed.
Theorem C157_kart_best c speed ay ci wl wr : kart_no_wind c -> 0 < speed -> kart_turn (kart_on_plane sp ss linsolve) c speed 0 ay -> circle (ay / (speed * speed)) wl wr ci ->
  exists p, kp_n p = 0 /\ forall l h mesh sigma closed L d_steering d_throttle T, increasing_mesh closed L mesh -> has_element closed mesh ->
    kart_allowed wl wr l h p (kart_plane_eval sp ss linsolve c (kp_in p) 0) ->
    best (kart_lap_points sp ss linsolve c ci (fun _ => l) (fun _ => h)) sigma [d_steering; d_throttle] [] closed L mesh T -> T <= distance closed L (round_lap mesh p) / speed.
Proof.
  intros Nw Sp Tu C. destruct (C157_kart_turn c speed ay ci wl wr Nw Sp Tu C) as (p & Hp & H). exists p. split; [exact Hp|].
  intros l h mesh sigma closed L d1 d2 T Im He Al [_ B]. destruct (H l h mesh sigma closed L d1 d2 Im He Al) as [F O].
  apply B. exists (round_lap mesh p). split; [unfold round_lap; rewrite map_map; apply map_id|]. split; [exact F | exact O].
Qed.
Theorem C157_kart_only_turns c ci l h mesh p sigma closed L k wl wr : kart_no_wind c -> circle k wl wr ci -> increasing_mesh closed L mesh -> has_element closed mesh ->
  let q := i_state (kp_in p) in let speed := sqrt (q_u q * q_u q + q_v q * q_v q) in determined (c_body c) q -> 1 - kp_n p * k <> 0 -> 0 < q_u q * cos (kp_alpha p) - q_v q * sin (kp_alpha p) ->
  lap_feasible sigma [] closed L (kart_lap_points sp ss linsolve c ci (fun _ => l) (fun _ => h) (round_lap mesh p)) ->
  kart_turn (kart_on_plane sp ss linsolve) c speed 0 (k / (1 - kp_n p * k) * (speed * speed)).
Proof.
  intros Nw C Im He q speed Hd Hn Hf F. apply (C157_kart_lap c ci l h mesh p sigma closed L k wl wr Nw C Im He Hn) in F; [|fold q; lra]. fold q in F. destruct F as (St & Fo & _).
  destruct (follows_speed _ _ _ _ _ _ Fo Hf) as (E & Eu & Ev). fold speed in E. destruct Fo as [_ Fy]. rewrite <- E in Eu, Ev, Fy.
  exists (kp_in p), (kp_alpha p). cbv zeta. fold q. pose proof (kart_heading c (kp_in p) 0 (kp_alpha p) Nw) as A. unfold kart_steady in St. cbv zeta in St.
  set (D := snd (kart_on_plane sp ss linsolve c (kp_in p) 0 0 (kp_alpha p))) in *. set (D0 := snd (kart_on_plane sp ss linsolve c (kp_in p) 0 0 0)) in *.
  clearbody D D0. unfold kart_without_road in A. injection A as A1 A2 A3 A4 A5 A6 A7 A8 A9 A10. rewrite A1, A2, A3, A4, A5, A6, A7, A8, A9, A10.
  rewrite !Forall_cons_iff in St. destruct St as (S1 & S2 & S3 & S4 & S5 & S6 & S7 & S8 & S9 & S10 & _). rewrite S1, S2.
  split; [exact Eu|]. split; [exact Ev|]. split; [|split; [exact Hd|]; repeat (split; [assumption|]); split; ring].
  transitivity (q_omega q * (1 - kp_n p * k) * speed / (1 - kp_n p * k)); [field; exact Hn | rewrite Fy; field; exact Hn].
Qed.
End Kart.

(** A car that glides on a straight, and that does not do a lap of a circle. *)
Example C157_case : let l := gliding_low 0 in let h := gliding_high 0 in let p := gliding_point 50 0 in let bend := Circuit (fun s => flat_point (V 0 0 0) (s / 100) (1 / 100)) (fun _ => 5) (fun _ => 5) in
  let lap ci := f1_lap positive_part same_sign (981 / 100) gliding_car ci false (fun _ => l) (fun _ => h) (round_lap [0; 40] p) in
  no_wind gliding_car /\ circle 0 5 5 straight /\ circle (1 / 100) 5 5 bend /\ increasing_mesh true 100 [0; 40] /\ has_element true [0; 40] /\
  turn (f1_on_plane positive_part same_sign (981 / 100)) gliding_car 50 0 0 /\
  lap_feasible (1 / 2) [] true 100 (lap straight) /\ lap_objective (1 / 2) [1; 1; 1; 1] true 100 (lap straight) = 2 /\
  1 - fp_n p * (1 / 100) <> 0 /\ ~ lap_feasible (1 / 2) [] true 100 (lap bend).
Proof.
  intros l h p bend lap. assert (Nw : no_wind gliding_car) by (split; reflexivity).
  assert (C1 : circle 0 5 5 straight) by (intros s; split; [exists (V s 0 0), 0; split; reflexivity | split; reflexivity]).
  assert (C2 : circle (1 / 100) 5 5 bend) by (intros s; split; [exists (V 0 0 0), (s / 100); split; reflexivity | split; reflexivity]).
  assert (Im : increasing_mesh true 100 [0; 40]) by (unfold increasing_mesh; cbn; repeat constructor; lra). assert (He : has_element true [0; 40]) by (cbn; lia).
  assert (F : lap_feasible (1 / 2) [] true 100 (lap straight)).
  { unfold lap. rewrite (f1_round _ _ _ gliding_car straight false l h [0; 40] p 0 5 5 Nw C1).
    destruct (gliding_evaluation 50 0 0 ltac:(lra) ltac:(lra)) as (A1 & A2 & A3 & A4 & A5 & A6 & A7 & A8).
    assert (E : f1_point_eval positive_part same_sign (981 / 100) gliding_car (f1_reference 0 5 5) false (fun _ => l) (fun _ => h) 0 p =
                f1_point_eval positive_part same_sign (981 / 100) gliding_car straight false gliding_low gliding_high 0 (gliding_point 50 0)) by reflexivity.
    rewrite E. apply repeated_lap; [exact Im | exact He | rewrite A2, A3; reflexivity | rewrite A1; lra|].
    rewrite A3, A4. unfold zero. split; [repeat constructor|]. split; [repeat constructor|]. split; [exact A5 | exact A6]. }
  assert (Hf : 0 < i_u (fp_in p) * cos (fp_alpha p) - i_v (fp_in p) * sin (fp_alpha p)) by (cbn; rewrite cos_0, sin_0; lra).
  assert (Sq : sqrt (i_u (fp_in p) * i_u (fp_in p) + i_v (fp_in p) * i_v (fp_in p)) = 50) by (cbn; rewrite Rmult_0_l, Rplus_0_r; apply sqrt_square; lra).
  split; [exact Nw|]. split; [exact C1|]. split; [exact C2|]. split; [exact Im|]. split; [exact He|].
  split. { pose proof (C157_only_turns positive_part same_sign (981 / 100) gliding_car straight false l h [0; 40] p (1 / 2) true 100 0 5 5 Nw C1 Im He ltac:(cbn; lra) Hf F) as T.
    rewrite Sq in T. replace (0 / (1 - fp_n p * 0) * (50 * 50)) with 0 in T by (cbn; field; lra). exact T. }
  split; [exact F|]. split.
  { unfold lap. rewrite (C157_time positive_part same_sign (981 / 100) gliding_car straight false _ _ [0; 40] p (1 / 2) true 100 0 5 5 1 1 1 1 C1); [rewrite Sq; unfold distance; cbn; field | | exact Hf].
    split; cbn; rewrite ?sin_0; ring. }
  split; [cbn; lra|]. intros G. apply (C157_lap positive_part same_sign (981 / 100) gliding_car bend false l h [0; 40] p (1 / 2) true 100 (1 / 100) 5 5 Nw C2 Im He) in G; [|cbn; lra | lra].
  destruct G as (_ & [_ Y] & _). cbn in Y. rewrite cos_0 in Y. lra.
Qed.
Example C157_kart_case : let c := gripping_kart in let l := kart_low 0 in let h := kart_high 0 in
  let lap := kart_lap_points positive_part same_sign cramer c level (fun _ => l) (fun _ => h) (round_lap [0; 40] coasting_point) in
  kart_no_wind c /\ circle 0 5 5 level /\ determined (c_body c) (i_state (kp_in coasting_point)) /\ increasing_mesh true 100 [0; 40] /\ has_element true [0; 40] /\
  kart_turn (kart_on_plane positive_part same_sign cramer) c 10 0 0 /\ lap_feasible (1 / 2) [] true 100 lap /\ lap_objective (1 / 2) [1; 1] true 100 lap = 10.
Proof.
  intros c l h lap. assert (Nw : kart_no_wind c) by (split; reflexivity).
  assert (C : circle 0 5 5 level) by (intros s; split; [exists (V 0 0 0), 0; split; reflexivity | split; reflexivity]).
  assert (Im : increasing_mesh true 100 [0; 40]) by (unfold increasing_mesh; cbn; repeat constructor; lra). assert (He : has_element true [0; 40]) by (cbn; lia).
  assert (De : determined (c_body c) (i_state (kp_in coasting_point))) by (unfold determined; cbn; split; lra).
  assert (Hf : 0 < q_u (i_state (kp_in coasting_point)) * cos (kp_alpha coasting_point) - q_v (i_state (kp_in coasting_point)) * sin (kp_alpha coasting_point)) by (cbn; rewrite cos_0, sin_0; lra).
  assert (Fo : follows 0 (kp_n coasting_point) (kp_alpha coasting_point) (q_u (i_state (kp_in coasting_point))) (q_v (i_state (kp_in coasting_point))) (q_omega (i_state (kp_in coasting_point)))).
  { split; cbn; rewrite ?sin_0; ring. }
  assert (F : lap_feasible (1 / 2) [] true 100 lap).
  { apply (C157_kart_lap positive_part same_sign cramer c level l h [0; 40] coasting_point (1 / 2) true 100 0 5 5 Nw C Im He); [cbn; lra | lra|].
    split; [|split; [exact Fo|]].
    - unfold kart_steady. change (kp_in coasting_point) with (coasting 0). unfold c. rewrite gripping_rates.
      destruct (coasting_rates grippy) as (E1 & E2 & E3 & E4 & E5 & E6 & E7 & E8 & E9 & E10). cbv zeta. repeat (apply Forall_cons; [assumption|]). apply Forall_nil.
    - unfold kart_allowed. change (kp_in coasting_point) with (coasting 0).
      split; [split; repeat (apply Forall_cons; [unfold between; cbn; lra|]); apply Forall_nil|]. split; [unfold between; cbn; lra|]. split; [unfold between; cbn; lra|].
      destruct (C142_slips positive_part same_sign cramer c (coasting 0) 0) as (S1 & S2 & S3 & S4). set (v := kart_plane_eval positive_part same_sign cramer c (coasting 0) 0) in *.
      assert (Zv : forall p, mtapply (rot_z 0) (vadd (V (q_u (i_state (coasting 0))) (q_v (i_state (coasting 0))) 0) (cross (V 0 0 (q_omega (i_state (coasting 0)))) p)) = V 10 0 0).
      { intros p. unfold rot_z. rewrite sin_0, cos_0. destruct p as [p1 p2 p3]. apply vec_eq; cbv [vx vy vz mtapply dot vadd cross col1 col2 col3 coasting i_state q_u q_v q_omega]; ring. }
      assert (Z : forall p t om w, rolls_at (i_state (coasting 0)) t p 0 om w -> t_lambda w = 0).
      { intros p t om w H. unfold rolls_at in H. rewrite Zv in H. destruct H as (_ & _ & _ & _ & Lw & _). rewrite Lw. cbn. field. }
      assert (Zk : forall p t w, k_type t = NORMAL -> k_R0 t = 1 / 8 -> rolls_at (i_state (coasting 0)) t p 0 80 w -> t_kappa w = 0).
      { intros p t w Ht Hr H. unfold rolls_at in H. rewrite Zv in H. destruct H as (_ & _ & Ow & Kw & _). rewrite Kw, Ow, Ht, Hr. cbn. field. }
      rewrite (Z _ _ _ _ S1), (Z _ _ _ _ S2), (Z _ _ _ _ S3), (Z _ _ _ _ S4), (Zk _ (c_tr c) _ eq_refl eq_refl S3), (Zk _ (c_tr c) _ eq_refl eq_refl S4).
      repeat (apply Forall_cons; [rewrite Rabs_R0; lra|]). apply Forall_nil. }
  assert (Sq : sqrt (q_u (i_state (kp_in coasting_point)) * q_u (i_state (kp_in coasting_point)) + q_v (i_state (kp_in coasting_point)) * q_v (i_state (kp_in coasting_point))) = 10).
  { cbn. rewrite Rmult_0_l, Rplus_0_r. apply sqrt_square. lra. }
  split; [exact Nw|]. split; [exact C|]. split; [exact De|]. split; [exact Im|]. split; [exact He|]. split; [|split; [exact F|]].
  - pose proof (C157_kart_only_turns positive_part same_sign cramer c level l h [0; 40] coasting_point (1 / 2) true 100 0 5 5 Nw C Im He De ltac:(cbn; lra) Hf F) as T.
    rewrite Sq in T. replace (0 / (1 - kp_n coasting_point * 0) * (10 * 10)) with 0 in T by (cbn; field; lra). exact T.
  - unfold lap. rewrite (C157_kart_time positive_part same_sign cramer c level _ _ [0; 40] coasting_point (1 / 2) true 100 0 5 5 1 1 C Fo Hf), Sq. unfold distance. cbn. field.
Qed.


(** A car driven by its rear wheels around a circle of radius 10: front wheels steered by atan(3/4), tyres that slide. *)
Definition bend_tyre (L : R) : simple_model := MkSimple 2000 6000 1 1 1 1 (1 / 10) (1 / 10) L L (19 / 10) (19 / 10).
Definition bend_rear : R := 30 * (95 / 128).
Definition bend_car : f1 :=
  F1 (MkChassis3 660 100 400 450 (V 0 0 0) (V 0 0 0) (1 / 2) 0) (MkAero 0 1 3 (3 / 2) 0 0) (V (5 / 2) 0 (- (1 / 3))) (V (- (5 / 2)) 0 (- (1 / 3)))
     (even_axle 0) (even_axle 0) (Wheel (1 / 3) (bend_tyre 30)) (Wheel (1 / 3) (bend_tyre 30)) (Wheel (1 / 3) (bend_tyre bend_rear)) (Wheel (1 / 3) (bend_tyre bend_rear)).
(** Force over slip and load. *)
Definition bend_grip (x : R) : R := let rho := sqrt (x + 1 / 10 ^ 12) in sin (19 / 10 * atan (PI / (2 * atan (19 / 10)) * rho)) / rho.
Definition bend_kn : R := 3 / 4 * (1 / 4 / (bend_rear * DEG)).
Definition bend_front_slip : R := 8 / 19 / (30 * DEG).
Definition bend_force : R := bend_grip (bend_front_slip * bend_front_slip) * bend_front_slip.
Definition bend_speed : R := sqrt (8 * (981 / 100) * bend_force).
Definition bend_drive : R := 165 * (981 / 100) * (3 / 5 * bend_force).
Definition bend_throttle (u : R) : R := 2 / 3 * bend_drive * ((1 + bend_kn * (1 / 10)) * u * 3) / (735499 / 1000 * 1000).
Definition bend_input (u : R) : f1_input :=
  F1Input 0 0 bend_kn bend_kn u 0 (u / 10) (- (1 / 4)) (- (1 / 4)) (- (1 / 4)) (- (1 / 4)) (atan (3 / 4)) 0 (bend_throttle u) (1 / 2).
Lemma DEG_pos : 0 < DEG. Proof. unfold DEG. pose proof PI_RGT_0. lra. Qed.
Lemma bend_slips : bend_kn = 3 / 5 * bend_front_slip /\ 1 / 4 / (bend_rear * DEG) = 4 / 5 * bend_front_slip /\ 0 < bend_front_slip.
Proof.
  pose proof DEG_pos. unfold bend_kn, bend_front_slip, bend_rear. split; [field; lra|]. split; [field; lra|]. apply Rdiv_lt_0_compat; lra.
Qed.
Lemma bend_force_pos : 0 < bend_force.
Proof.
  destruct bend_slips as (_ & _ & P). unfold bend_force, bend_grip. cbv zeta. apply Rmult_lt_0_compat; [|exact P]. pose proof (Rle_0_sqr bend_front_slip) as Q. unfold Rsqr in Q.
  assert (Rp : 0 < sqrt (bend_front_slip * bend_front_slip + 1 / 10 ^ 12)) by (apply sqrt_lt_R0; lra).
  apply Rdiv_lt_0_compat; [|exact Rp]. apply sin_atan_pos; [lra|]. apply Rmult_lt_0_compat; [|exact Rp]. apply (S_pos (19 / 10)); lra.
Qed.
Lemma bend_at L o delta U Om Fz kn : 0 < L -> let lambda := slip_lambda (tyre_velocity (1 / 3) o delta U Om) in
  let ln := lambda / (L * DEG) in let g := bend_grip (kn * kn + ln * ln) in
  let t := tyre_at positive_part (Wheel (1 / 3) (bend_tyre L)) o delta U Om Fz kn in let F := V (g * kn * Fz) (g * ln * Fz) (- Fz) in
  t_F t = F /\ t_T t = cross (V 0 0 (- vz o)) F /\ t_lambda t = lambda /\ t_w t = vz o + 1 / 3 /\ t_omega t = (1 + kn * (1 / 10)) * vx (tyre_velocity (1 / 3) o delta U Om) / (1 / 3).
Proof.
  intros HL lambda ln g t F. pose proof DEG_pos.
  assert (Lm : maximum_lambda (bend_tyre L) Fz = L * DEG) by (unfold maximum_lambda, q_lambda_max1, q_lambda_max2; cbn; field).
  assert (Km : maximum_kappa (bend_tyre L) Fz = 1 / 10) by (unfold maximum_kappa; cbn; field).
  assert (M : mu_x_max positive_part (bend_tyre L) Fz = 1 /\ mu_y_max positive_part (bend_tyre L) Fz = 1).
  { unfold mu_x_max, mu_y_max, positive_part, mu_min; cbn. replace ((Fz - 2000) * (1 - 1) / (6000 - 2000) + 1 - 1) with 0 by field. rewrite Rmax_left by lra. split; ring. }
  destruct M as [Mx My].
  unfold t, tyre_at, tire_update_from_kappa, tire_forces; cbn [w_R0 w_model t_F t_T t_lambda t_w t_omega]. rewrite Km.
  unfold simple_force_x, simple_force_y, combined_slip. cbv zeta. rewrite Km, Lm, Mx, My. fold lambda. fold ln. replace (kn * (1 / 10) / (1 / 10)) with kn by field.
  assert (EF : V (1 * sin (q_Qx (bend_tyre L) * atan (q_Sx (bend_tyre L) * sqrt (kn * kn + ln * ln + 1 / 10 ^ 12))) * Fz * kn / sqrt (kn * kn + ln * ln + 1 / 10 ^ 12))
      (1 * sin (q_Qy (bend_tyre L) * atan (q_Sy (bend_tyre L) * sqrt (kn * kn + ln * ln + 1 / 10 ^ 12))) * Fz * ln / sqrt (kn * kn + ln * ln + 1 / 10 ^ 12)) (- Fz) = F).
  { unfold F, g, bend_grip, q_Sx, q_Sy. cbv zeta. cbn [bend_tyre q_Qx q_Qy]. unfold Rdiv. f_equal; ring. }
  rewrite EF. split; [reflexivity|]. split; [f_equal; unfold contact_point, tyre_w; f_equal; ring|]. split; [reflexivity|]. split; [unfold tyre_w; ring | reflexivity].
Qed.
Definition bend_eval (u : R) : f1_eval := plane_eval positive_part same_sign (981 / 100) bend_car (bend_input u) 0.
Definition bend_front (u : R) : tire_state :=
  tyre_at positive_part (Wheel (1 / 3) (bend_tyre 30)) (V (5 / 2) 0 (- (1 / 3))) (atan (3 / 4)) (V u 0 0) (V 0 0 (u / 10)) (165 * (981 / 100)) 0.
Definition bend_back (u : R) : tire_state :=
  tyre_at positive_part (Wheel (1 / 3) (bend_tyre bend_rear)) (V (- (5 / 2)) 0 (- (1 / 3))) 0 (V u 0 0) (V 0 0 (u / 10)) (165 * (981 / 100)) bend_kn.
Lemma bend_tyres u : v_fl (bend_eval u) = bend_front u /\ v_fr (bend_eval u) = bend_front u /\ v_rl (bend_eval u) = bend_back u /\ v_rr (bend_eval u) = bend_back u.
Proof.
  assert (L : tyre_load positive_part (f_chassis bend_car) (force_z (981 / 100) bend_car (- (1 / 4))) = 165 * (981 / 100)) by (unfold tyre_load, neg_force, force_z, positive_part; cbn; rewrite Rmax_right; lra).
  unfold bend_eval, plane_eval, f1_update. rewrite plane_omega. cbv zeta. cbn [v_fl v_fr v_rl v_rr]. cbn [bend_input i_zfl i_zfr i_zrl i_zrr]. rewrite L.
  unfold bend_front, bend_back. refine (conj _ (conj _ (conj _ _))).
  all: match goal with |- tyre_at _ _ ?o _ _ _ _ _ = tyre_at _ _ ?o' _ _ _ _ _ => replace o with o' by (unfold bend_car; cbn [f_xf f_xr f_front f_rear]; vring) end; reflexivity.
Qed.
Lemma bend_forces u : 0 < u ->
  (t_F (bend_front u) = V 0 (bend_force * (165 * (981 / 100))) (- (165 * (981 / 100))) /\ t_T (bend_front u) = cross (V 0 0 (1 / 3)) (t_F (bend_front u)) /\ t_lambda (bend_front u) = 8 / 19 /\ t_w (bend_front u) = 0) /\
  (t_F (bend_back u) = V bend_drive (4 / 5 * bend_force * (165 * (981 / 100))) (- (165 * (981 / 100))) /\ t_T (bend_back u) = cross (V 0 0 (1 / 3)) (t_F (bend_back u)) /\
   t_lambda (bend_back u) = 1 / 4 /\ t_w (bend_back u) = 0 /\ t_omega (bend_back u) = (1 + bend_kn * (1 / 10)) * u * 3).
Proof.
  intros Hu. destruct steering as [Co Si]. destruct bend_slips as (K & Lr & Fp).
  assert (S1 : slip_lambda (tyre_velocity (1 / 3) (V (5 / 2) 0 (- (1 / 3))) (atan (3 / 4)) (V u 0 0) (V 0 0 (u / 10))) = 8 / 19).
  { unfold slip_lambda, tyre_velocity, rot_z. rewrite Co, Si. cbv [vx vy vz vadd mtapply cross dot col1 col2 col3 contact_point tyre_w]. field; try lra. }
  assert (V2 : tyre_velocity (1 / 3) (V (- (5 / 2)) 0 (- (1 / 3))) 0 (V u 0 0) (V 0 0 (u / 10)) = V u (- (u / 4)) 0).
  { unfold tyre_velocity, rot_z. rewrite cos_0, sin_0. apply vec_eq; cbv [vx vy vz vadd mtapply cross dot col1 col2 col3 contact_point tyre_w]; field. }
  assert (S2 : slip_lambda (V u (- (u / 4)) 0) = 1 / 4) by (unfold slip_lambda; cbn; field; lra).
  destruct (bend_at 30 (V (5 / 2) 0 (- (1 / 3))) (atan (3 / 4)) (V u 0 0) (V 0 0 (u / 10)) (165 * (981 / 100)) 0 ltac:(lra)) as (F1' & T1' & L1 & W1 & _).
  destruct (bend_at bend_rear (V (- (5 / 2)) 0 (- (1 / 3))) 0 (V u 0 0) (V 0 0 (u / 10)) (165 * (981 / 100)) bend_kn ltac:(unfold bend_rear; lra)) as (F2' & T2' & L2 & W2 & O2).
  rewrite S1 in F1', T1', L1. rewrite V2 in F2', T2', L2, O2. rewrite S2 in F2', T2', L2. fold (bend_front u) in F1', T1', L1, W1. fold (bend_back u) in F2', T2', L2, W2, O2.
  fold bend_front_slip in F1', T1'. rewrite Lr in F2', T2'. rewrite <- F1' in T1'. rewrite <- F2' in T2'. cbn [vz vx] in T1', T2', W1, W2, O2.
  assert (Z : - - (1 / 3) = 1 / 3) by lra. rewrite Z in T1', T2'.
  assert (G : bend_grip (bend_kn * bend_kn + 4 / 5 * bend_front_slip * (4 / 5 * bend_front_slip)) = bend_grip (bend_front_slip * bend_front_slip)) by (rewrite K; f_equal; field).
  rewrite G in F2'. replace (0 * 0 + bend_front_slip * bend_front_slip) with (bend_front_slip * bend_front_slip) in F1' by ring.
  split; [split; [|split; [exact T1' | split; [exact L1 | lra]]] | split; [|split; [exact T2' | split; [exact L2 | split; [lra | rewrite O2; field]]]]].
  - rewrite F1'. unfold bend_force. f_equal; ring.
  - rewrite F2'. unfold bend_drive, bend_force. rewrite K. f_equal; field.
Qed.
Lemma bend_air u : v_Fa (bend_eval u) = V 0 0 0.
Proof.
  unfold bend_eval, plane_eval, f1_update. cbv zeta. cbn [v_Fa]. unfold lift_force, drag_force. set (va := aerodynamic_velocity _ _ _).
  clearbody va. unfold bend_car; cbn [f_aero ae_rho ae_cd ae_cl ae_A]. vring.
Qed.
Lemma bend_motion u : 0 < u -> v_F (bend_eval u) = V 0 (660 * (4 / 5 * (981 / 100) * bend_force)) 0 /\ v_T (bend_eval u) = V 0 0 0.
Proof.
  intros Hu. destruct (bend_tyres u) as (A1 & A2 & A3 & A4). destruct (bend_forces u Hu) as ((F1' & T1' & _ & _) & (F2' & T2' & _ & _ & _)). destruct steering as [Co Si].
  pose proof (bend_air u) as Fa0.
  assert (EF : v_F (bend_eval u) = total_force3 (axle_force (rot_z (atan (3 / 4))) (rot_z (atan (3 / 4))) (v_fl (bend_eval u)) (v_fr (bend_eval u)))
     (axle_force (rot_z 0) (rot_z 0) (v_rl (bend_eval u)) (v_rr (bend_eval u))) (v_Fa (bend_eval u)) (gravity_force (Euler 0 0 0) 0 660 (981 / 100))) by reflexivity.
  assert (ET : v_T (bend_eval u) = total_torque3 (f_chassis bend_car)
     (V (5 / 2) 0 (- (1 / 3))) (axle_force (rot_z (atan (3 / 4))) (rot_z (atan (3 / 4))) (v_fl (bend_eval u)) (v_fr (bend_eval u)))
     (axle_torque (rot_z (atan (3 / 4))) (rot_z (atan (3 / 4))) (V 0 (- (1 / 2) * 0) 0) (V 0 (1 / 2 * 0) 0) (v_fl (bend_eval u)) (v_fr (bend_eval u)))
     (V (- (5 / 2)) 0 (- (1 / 3))) (axle_force (rot_z 0) (rot_z 0) (v_rl (bend_eval u)) (v_rr (bend_eval u)))
     (axle_torque (rot_z 0) (rot_z 0) (V 0 (- (1 / 2) * 0) 0) (V 0 (1 / 2 * 0) 0) (v_rl (bend_eval u)) (v_rr (bend_eval u)))
     (v_Fa (bend_eval u))) by reflexivity.
  rewrite EF, ET, A1, A2, A3, A4, Fa0. clear EF ET A1 A2 A3 A4 Fa0.
  unfold axle_force, axle_torque, rot_z. rewrite T1', T2', F1', F2', Co, Si, sin_0, cos_0. clear T1' T2' F1' F2'.
  assert (G : gravity_force (Euler 0 0 0) 0 660 (981 / 100) = V 0 0 (660 * (981 / 100))) by (unfold gravity_force; cbn [pitch roll]; rewrite sin_0, cos_0; f_equal; ring).
  rewrite G. unfold bend_drive. set (bf := bend_force). clearbody bf.
  unfold total_force3, total_torque3, contact_force, bend_car. cbn [f_chassis c_com c_aero_x].
  split; apply vec_eq; cbv [vx vy vz vadd vsub vopp vscale cross mapply col1 col2 col3]; field.
Qed.
Lemma bend_torques u : 0 < u -> v_torque_f (bend_eval u) = (0, 0) /\ v_torque_r (bend_eval u) = (bend_drive / 3, bend_drive / 3).
Proof.
  intros Hu. destruct (bend_tyres u) as (A1 & A2 & A3 & A4). destruct (bend_forces u Hu) as (_ & (_ & _ & _ & _ & O)). destruct bend_slips as (K & _ & Fp). pose proof bend_force_pos as Bp.
  assert (Kp : 0 < bend_kn) by lra. assert (Dp : 0 < bend_drive) by (unfold bend_drive; lra).
  assert (Op : 0 < (1 + bend_kn * (1 / 10)) * u * 3) by (repeat apply Rmult_lt_0_compat; lra).
  assert (Tp : 0 < bend_throttle u). { unfold bend_throttle. apply Rdiv_lt_0_compat; [|lra]. apply Rmult_lt_0_compat; [lra | exact Op]. }
  assert (E1 : v_torque_f (bend_eval u) = axle_torques positive_part same_sign STEERING (even_axle 0) (t_omega (v_fl (bend_eval u))) (t_omega (v_fr (bend_eval u))) (bend_throttle u) 0 (1 / 2)) by reflexivity.
  assert (E2 : v_torque_r (bend_eval u) = axle_torques positive_part same_sign POWERED (even_axle 0) (t_omega (v_rl (bend_eval u))) (t_omega (v_rr (bend_eval u))) (bend_throttle u) 0 (1 - 1 / 2)) by reflexivity.
  rewrite E1, E2, A1, A2, A3, A4, O. unfold axle_torques, engine, brake, positive_part. cbn [a_smooth a_engine a_boost_engine a_diff a_Tmax even_axle max_power e_direct e_only_max e_max_power_kW].
  rewrite (Rmax_left 0 (- bend_throttle u)) by lra. rewrite (Rmax_right 0 (bend_throttle u)) by lra.
  split; [f_equal; ring|]. unfold bend_throttle. set (om := (1 + bend_kn * (1 / 10)) * u * 3) in *. clearbody om. f_equal; field; lra.
Qed.
Lemma bend_turn : 0 < bend_speed /\ bend_speed * bend_speed = 8 * (981 / 100) * bend_force /\ f1_steady (f1_on_plane positive_part same_sign (981 / 100)) bend_car (bend_input bend_speed).
Proof.
  pose proof bend_force_pos as Bp. assert (Sp : 0 < bend_speed) by (apply sqrt_lt_R0; lra). assert (Sq : bend_speed * bend_speed = 8 * (981 / 100) * bend_force) by (apply sqrt_sqrt; lra).
  split; [exact Sp|]. split; [exact Sq|]. set (u := bend_speed) in *. clearbody u.
  unfold f1_steady, f1_on_plane, cartesian_update. fold (bend_eval u). cbv zeta.
  destruct (bend_tyres u) as (A1 & A2 & A3 & A4). destruct (bend_forces u Sp) as ((F1' & _ & _ & W1) & (F2' & _ & _ & W2 & _)). destruct (bend_torques u Sp) as [Q1 Q2].
  destruct (bend_motion u Sp) as [MF MT].
  assert (EM : v_motion (bend_eval u) = equations3 (f_chassis bend_car) (v_F (bend_eval u)) (v_T (bend_eval u)) u 0 0 (V 0 0 (u / 10))).
  { unfold bend_eval, plane_eval, f1_update. rewrite plane_omega. reflexivity. }
  assert (EB : v_balance (bend_eval u) = 0) by (unfold bend_eval, plane_eval, f1_update, roll_balance; cbn; ring).
  rewrite MF, MT in EM.
  cbn [snd scaled f1_rates y_fl y_fr y_rl y_rr M_F1.y_u M_F1.y_v M_F1.y_yaw y_w y_roll y_pitch y_balance].
  rewrite EM, EB, A1, A2, A3, A4, Q1, Q2. unfold wheel_momentum_rate, wheel_torque. rewrite F1', F2', W1, W2. clear EM EB A1 A2 A3 A4 Q1 Q2 F1' F2' MF MT W1 W2.
  unfold equations3, bend_car; cbn [f_chassis f_front f_rear f_fl f_fr f_rl f_rr w_R0 c_mass c_com c_Ixx c_Iyy c_Izz mo_a mo_yaw_acceleration mo_roll_rate mo_pitch_rate vx vy vz fst snd].
  set (bf := bend_force) in *. set (bd := bend_drive). clearbody bf bd. unfold Rdiv.
  repeat (apply Forall_cons; [first [ring | lra | (field; fail) | idtac]|]). all: try apply Forall_nil.
Qed.
(** Its lap: 20 PI metres at the speed of the turn. *)
Example C157_bend_case : let ring := Circuit (fun s => flat_point (V (10 * sin (s / 10)) (10 * (1 - cos (s / 10))) 0) (s / 10) (1 / 10)) (fun _ => 4) (fun _ => 4) in
  let p := F1Point (bend_input bend_speed) 0 0 in let b := (bend_input bend_speed, 0) in let ay := bend_speed * bend_speed / 10 in
  let lap := f1_lap positive_part same_sign (981 / 100) bend_car ring true (fun _ => b) (fun _ => b) (round_lap [0; 20; 40] p) in
  no_wind bend_car /\ 0 < bend_speed /\ 0 < bend_throttle bend_speed /\ turn (f1_on_plane positive_part same_sign (981 / 100)) bend_car bend_speed 0 ay /\
  circle (ay / (bend_speed * bend_speed)) 4 4 ring /\ increasing_mesh true (20 * PI) [0; 20; 40] /\ has_element true [0; 20; 40] /\
  f1_allowed (981 / 100) bend_car 4 4 b b p (plane_eval positive_part same_sign (981 / 100) bend_car (fp_in p) 0) /\
  lap_feasible (1 / 2) [] true (20 * PI) lap /\ lap_objective (1 / 2) [1; 1; 1; 1] true (20 * PI) lap = 20 * PI / bend_speed.
Proof.
  intros ring p b ay lap. destruct bend_turn as (Sp & Sq & St). pose proof bend_force_pos as Bp. destruct bend_slips as (K & _ & Fp).
  assert (Nw : no_wind bend_car) by (split; reflexivity).
  assert (Ek : ay / (bend_speed * bend_speed) = 1 / 10) by (unfold ay; field; lra).
  assert (C : circle (1 / 10) 4 4 ring) by (intros s; split; [exists (V (10 * sin (s / 10)) (10 * (1 - cos (s / 10))) 0), (s / 10); split; reflexivity | split; reflexivity]).
  assert (P3 : 3 < PI). { pose proof PI_4. pose proof PI2_3_2 as P. unfold PI2 in *. lra. }
  assert (Im : increasing_mesh true (20 * PI) [0; 20; 40]) by (unfold increasing_mesh; cbn; repeat constructor; lra). assert (He : has_element true [0; 20; 40]) by (cbn; lia).
  assert (Hf : 0 < i_u (fp_in p) * cos (fp_alpha p) - i_v (fp_in p) * sin (fp_alpha p)) by (cbn; rewrite cos_0, sin_0; lra).
  assert (Fo : follows (1 / 10) (fp_n p) (fp_alpha p) (i_u (fp_in p)) (i_v (fp_in p)) (i_yaw (fp_in p))) by (split; cbn; rewrite ?sin_0, ?cos_0; field).
  assert (Al : f1_allowed (981 / 100) bend_car 4 4 b b p (plane_eval positive_part same_sign (981 / 100) bend_car (fp_in p) 0)).
  { unfold f1_allowed. cbv zeta. change (plane_eval positive_part same_sign (981 / 100) bend_car (fp_in p) 0) with (bend_eval bend_speed).
    destruct (bend_tyres bend_speed) as (A1 & A2 & A3 & A4). destruct (bend_forces bend_speed Sp) as ((_ & _ & L1 & _) & (_ & _ & L2 & _)). rewrite A1, A2, A3, A4.
    split; [repeat (apply Forall_cons; [split; apply Rle_refl|]); apply Forall_nil|]. split; [split; apply Rle_refl|]. cbn [p fp_n fp_alpha]. rewrite cos_0.
    split; [split; lra|]. split; [cbn; unfold between; lra|]. split; [cbn; unfold between; lra|].
    assert (S1 : slips_little (f_fl bend_car) (c_mass (f_chassis bend_car) * (981 / 100)) (bend_front bend_speed)).
    { left. rewrite L1. unfold maximum_lambda, q_lambda_max1, q_lambda_max2, DEG. cbn. rewrite Rabs_pos_eq by lra. lra. }
    assert (S2 : slips_little (f_rl bend_car) (c_mass (f_chassis bend_car) * (981 / 100)) (bend_back bend_speed)).
    { left. rewrite L2. unfold maximum_lambda, q_lambda_max1, q_lambda_max2, DEG. cbn. unfold bend_rear. rewrite Rabs_pos_eq by lra. lra. }
    split; [exact S1|]. split; [exact S1|]. split; [exact S2 | exact S2]. }
  assert (F : lap_feasible (1 / 2) [] true (20 * PI) lap).
  { apply (C157_lap positive_part same_sign (981 / 100) bend_car ring true b b [0; 20; 40] p (1 / 2) true (20 * PI) (1 / 10) 4 4 Nw C Im He); [cbn; lra | lra|].
    split; [exact St|]. split; [exact Fo | exact Al]. }
  assert (Es : sqrt (i_u (fp_in p) * i_u (fp_in p) + i_v (fp_in p) * i_v (fp_in p)) = bend_speed) by (cbn; rewrite Rmult_0_l, Rplus_0_r; apply sqrt_square; lra).
  split; [exact Nw|]. split; [exact Sp|].
  split. { unfold bend_throttle, bend_drive. apply Rdiv_lt_0_compat; [|lra]. apply Rmult_lt_0_compat; [lra|]. apply Rmult_lt_0_compat; [|lra]. apply Rmult_lt_0_compat; lra. }
  split. { pose proof (C157_only_turns positive_part same_sign (981 / 100) bend_car ring true b b [0; 20; 40] p (1 / 2) true (20 * PI) (1 / 10) 4 4 Nw C Im He ltac:(cbn; lra) Hf F) as T.
    rewrite Es in T. replace (1 / 10 / (1 - fp_n p * (1 / 10)) * (bend_speed * bend_speed)) with ay in T by (unfold ay; cbn; field). exact T. }
  rewrite Ek. split; [exact C|]. split; [exact Im|]. split; [exact He|]. split; [exact Al|]. split; [exact F|].
  unfold lap. rewrite (C157_time positive_part same_sign (981 / 100) bend_car ring true _ _ [0; 20; 40] p (1 / 2) true (20 * PI) (1 / 10) 4 4 1 1 1 1 C Fo Hf), Es. unfold distance. cbn. field. lra.
Qed.

Print Assumptions C157_lap.
Print Assumptions C157_time.
Print Assumptions C157_turn.
Print Assumptions C157_best.
Print Assumptions C157_only_turns.
Print Assumptions C157_kart_lap.
Print Assumptions C157_kart_time.
Print Assumptions C157_kart_turn.
Print Assumptions C157_kart_best.
Print Assumptions C157_kart_only_turns.
