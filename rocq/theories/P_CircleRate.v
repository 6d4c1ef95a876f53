(** Property theorem C157, derivative formulation: the steady states of a car on the plane are its laps of a circle with controls at rest. *)
From Coq Require Import Reals Lra Lia List.
From Verif Require Import M_Vec M_Tire M_Car M_Road M_F1 M_Kart6 M_KartCar M_Feasible M_RealLap M_RateLap S_F1 S_F1Wheels S_KartCar S_KartGrip S_RealLap S_LapLimits S_RateLap S_Freedom S_Moved S_Circle S_Sector L_Tire L_F1 L_RealLap P_Tire P_Car P_F1 P_KartCar P_KartGrip P_RealLap P_LapLimits P_RateLap P_Freedom P_Moved P_Circle.
Import ListNotations.
Local Open Scope R_scope.

(** ** Any car *)
Lemma repeated_rates meshed wlo whi sigma closed L mesh e w : increasing_mesh closed L mesh -> has_element closed mesh -> length (e_q e) = length (e_dq e) -> e_dt e <> 0 ->
  length (e_xlb e) = length (e_x e) -> length (e_xub e) = length (e_x e) -> Forall (fun j => item wlo j <= 0 <= item whi j) meshed ->
  (rate_feasible meshed wlo whi sigma [] closed L (round_lap mesh (e, w)) <-> lap_feasible sigma [] closed L (round_lap mesh e) /\ Forall (fun j => item w j = 0) meshed).
Proof.
  intros Im He Hl Ht X1 X2 Hw. unfold rate_feasible.
  assert (E : map (fun p => (fst p, with_rates meshed wlo whi (fst (snd p)) (snd (snd p)))) (round_lap mesh (e, w)) = round_lap mesh (with_rates meshed wlo whi e w)).
  { unfold round_lap. rewrite map_map. reflexivity. }
  rewrite E. rewrite (repeated_lap sigma closed L mesh e Im He Hl Ht).
  assert (Hl' : length (e_q (with_rates meshed wlo whi e w)) = length (e_dq (with_rates meshed wlo whi e w))) by (unfold with_rates; cbn [e_q e_dq]; rewrite !app_length, !map_length, Hl; reflexivity).
  rewrite (repeated_lap sigma closed L mesh (with_rates meshed wlo whi e w) Im He Hl') by exact Ht.
  unfold with_rates. cbn [e_dq e_alg e_lb e_extra e_ub e_xlb e_x e_xub].
  assert (Z : zero (map (fun k => item w k * e_dt e) meshed) <-> Forall (fun j => item w j = 0) meshed).
  { unfold zero. rewrite Forall_map, !Forall_forall. split; intros H j Hj; specialize (H j Hj).
    - apply Rmult_integral in H. destruct H; [assumption | contradiction].
    - rewrite H. ring. }
  unfold zero at 1. rewrite Forall_app. fold (zero (e_dq e)). fold (zero (map (fun k => item w k * e_dt e) meshed)). rewrite Z. split.
  - intros ((H1 & H2) & H3 & H4 & H5). split; [|exact H2]. split; [exact H1|]. split; [exact H3|]. split; [exact H4|].
    apply (bounded_prefix _ _ _ _ _ _ (length (e_x e)) X1 eq_refl X2 H5).
  - intros ((H1 & H3 & H4 & H5) & H2). split; [split; assumption|]. split; [exact H3|]. split; [exact H4|]. apply bounded_app; [exact H5|].
    split; [rewrite !map_length; reflexivity|]. split; [rewrite !map_length; reflexivity|]. intros k Hk. rewrite map_length in Hk.
    rewrite !(item_map _ _ _ 0%nat) by exact Hk. rewrite Forall_forall in H2, Hw. pose proof (nth_In meshed 0%nat Hk) as I. rewrite (H2 _ I). exact (Hw _ I).
Qed.
(** Controls at rest are not penalised. *)
Lemma last_round {P} mesh (p : P) a : snd (last (round_lap mesh p) (a, p)) = p.
Proof.
  induction mesh as [|s m IH]; [reflexivity|]. destruct m as [|t m]; [reflexivity|]. exact IH.
Qed.
Lemma no_effort {P} closed L j mesh (p : P) w : item w j = 0 -> lopsided_effort closed L j (round_lap mesh (p, w)) = 0.
Proof.
  intros H. destruct mesh as [|s m]; [reflexivity|]. unfold lopsided_effort.
  assert (R0 : forall s : R, rate j s (p, w) = 0) by (intros; exact H).
  rewrite (along_constant 1 false L _ 0) by (apply Forall_map, Forall_forall; intros x _; cbn [fst snd]; unfold squared_rate; rewrite R0; ring).
  change (round_lap (s :: m) (p, w)) with ((s, (p, w)) :: round_lap m (p, w)) at 1. cbn [snd fst]. cbv iota zeta.
  change ((s, (p, w)) :: round_lap m (p, w)) with (round_lap (s :: m) (p, w)).
  rewrite !last_round, !R0. destruct closed; field.
Qed.
Lemma no_penalty {P} dis meshed closed L mesh (p : P) w : Forall (fun j => item w j = 0) meshed -> penalised dis meshed (fun j => lopsided_effort closed L j (round_lap mesh (p, w))) = 0.
Proof.
  intros F. induction F as [|j l Hj F IH]; [reflexivity|]. cbn [penalised fold_right]. change (fold_right _ 0 l) with (penalised dis l (fun j => lopsided_effort closed L j (round_lap mesh (p, w)))).
  rewrite IH, no_effort by exact Hj. ring.
Qed.
Lemma round_distance {P Q} closed L mesh (p : P) (q : Q) : distance closed L (round_lap mesh p) = distance closed L (round_lap mesh q).
Proof.
  assert (E : map fst (closed_up closed L (round_lap mesh p)) = map fst (closed_up closed L (round_lap mesh q))); [|unfold distance; rewrite E; reflexivity].
  unfold closed_up, round_lap. rewrite !map_app, !map_map. f_equal. destruct closed; [|reflexivity]. destruct mesh; reflexivity.
Qed.

(** ** The Formula 1 car *)
Section F1.
Context (sp ss : R -> R -> R) (g0 : R).
Lemma f1_rates_around j : item f1_rate_lo j <= 0 <= item f1_rate_hi j.
Proof. pose proof DEG_pos. unfold item, f1_rate_lo, f1_rate_hi. destruct j as [|[|[|[|j]]]]; cbn [nth]; lra. Qed.
Lemma f1_rated_round c ci elevated l h mesh p w k wl wr : no_wind c -> circle k wl wr ci ->
  f1_rated sp ss g0 c ci elevated (fun _ => l) (fun _ => h) (round_lap mesh (p, w)) =
  round_lap mesh (f1_point_eval sp ss g0 c (f1_reference k wl wr) elevated (fun _ => l) (fun _ => h) 0 p, w).
Proof.
  intros Nw C. pose proof (f1_round sp ss g0 c ci elevated l h mesh p k wl wr Nw C) as E.
  apply (f_equal (map (fun q => (fst q, (snd q, w))))) in E. unfold f1_lap, round_lap in E. rewrite !map_map in E. unfold f1_rated, round_lap. rewrite !map_map. exact E.
Qed.
(** A lap of a circle with the same variables and the same rates at each point is allowed if and only if the variables are a steady state that follows the road and the controls are at rest. *)
Theorem C157_rate_lap c ci elevated l h mesh p w meshed sigma closed L k wl wr : no_wind c -> circle k wl wr ci -> increasing_mesh closed L mesh -> has_element closed mesh ->
  let i := fp_in p in 1 - fp_n p * k <> 0 -> i_u i * cos (fp_alpha p) - i_v i * sin (fp_alpha p) <> 0 ->
  (rate_feasible meshed f1_rate_lo f1_rate_hi sigma [] closed L (f1_rated sp ss g0 c ci elevated (fun _ => l) (fun _ => h) (round_lap mesh (p, w))) <->
   f1_steady (f1_on_plane sp ss g0) c i /\ follows k (fp_n p) (fp_alpha p) (i_u i) (i_v i) (i_yaw i) /\ f1_allowed g0 c wl wr l h p (plane_eval sp ss g0 c i 0) /\
   Forall (fun j => nth j w 0 = 0) meshed).
Proof.
  intros Nw C Im He i Hn Hu. pose proof (C157_lap sp ss g0 c ci elevated l h mesh p sigma closed L k wl wr Nw C Im He Hn Hu) as D. cbv zeta in D. fold i in D.
  rewrite (f1_round sp ss g0 c ci elevated l h mesh p k wl wr Nw C) in D. rewrite (f1_rated_round c ci elevated l h mesh p w k wl wr Nw C).
  rewrite repeated_rates; [rewrite D; unfold item; tauto | exact Im | exact He | rewrite f1_q_length, f1_dq_length; reflexivity | | reflexivity | reflexivity | apply Forall_forall; intros j _; apply f1_rates_around].
  rewrite f1_dt. unfold f1_pace. assert (C' : circle k wl wr (f1_reference k wl wr)) by (intros s; split; [exists (V 0 0 0), 0; split; reflexivity | split; reflexivity]).
  rewrite (circle_turning k wl wr _ 0 C'). apply pace_nonzero; [exact Hn | exact Hu].
Qed.
(** Its value, whatever the penalisations: the length of the path of the car over its speed. *)
Theorem C157_rate_time c ci elevated lo hi mesh p w meshed dis sigma closed L k wl wr : circle k wl wr ci ->
  let i := fp_in p in follows k (fp_n p) (fp_alpha p) (i_u i) (i_v i) (i_yaw i) -> 0 < i_u i * cos (fp_alpha p) - i_v i * sin (fp_alpha p) -> Forall (fun j => nth j w 0 = 0) meshed ->
  rate_objective meshed f1_rate_lo f1_rate_hi dis sigma closed L (f1_rated sp ss g0 c ci elevated lo hi (round_lap mesh (p, w))) =
  (1 - fp_n p * k) * distance closed L (round_lap mesh p) / sqrt (i_u i * i_u i + i_v i * i_v i).
Proof.
  intros C i Fo Hf Hw. rewrite C154_value_partial, no_penalty by exact Hw.
  rewrite (along_constant sigma closed L _ (pace k (fp_n p) (fp_alpha p) (i_u i) (i_v i))).
  - destruct (follows_speed _ _ _ _ _ _ Fo Hf) as (E & _). rewrite E, (round_distance closed L mesh (p, w) p). unfold pace. field. lra.
  - apply Forall_map, Forall_forall. intros s _. cbn [fst snd]. unfold f1_pace. rewrite (circle_turning k wl wr ci s C). reflexivity.
Qed.
(** The steady turns are laps of circles with controls at rest, and no fastest lap is slower than they are. *)
Theorem C157_rate_turn c speed ay ci wl wr : no_wind c -> 0 < speed -> turn (f1_on_plane sp ss g0) c speed 0 ay -> circle (ay / (speed * speed)) wl wr ci ->
  exists p, fp_n p = 0 /\ forall elevated l h mesh sigma closed L meshed dis, increasing_mesh closed L mesh -> has_element closed mesh ->
    f1_allowed g0 c wl wr l h p (plane_eval sp ss g0 c (fp_in p) 0) ->
    let allowed pts := rate_feasible meshed f1_rate_lo f1_rate_hi sigma [] closed L (f1_rated sp ss g0 c ci elevated (fun _ => l) (fun _ => h) pts) in
    let value pts := rate_objective meshed f1_rate_lo f1_rate_hi dis sigma closed L (f1_rated sp ss g0 c ci elevated (fun _ => l) (fun _ => h) pts) in
    let time := distance closed L (round_lap mesh p) / speed in
    allowed (round_lap mesh (p, [0; 0; 0; 0])) /\ value (round_lap mesh (p, [0; 0; 0; 0])) = time /\
    forall pts, map fst pts = mesh -> fastest allowed value pts -> value pts <= time.
Proof.
  intros Nw Sp Tu C. pose proof Tu as (i & psi & T). cbv zeta in T. destruct T as (Hu & Hv & Hy & T1 & T2 & T3 & T4 & T5 & T6 & T7 & T8 & T9 & T10 & T11).
  exists (F1Point i 0 psi). split; [reflexivity|]. intros elevated l h mesh sigma closed L meshed dis Im He Al allowed value time.
  pose proof (sin2_cos2 psi) as Py. unfold Rsqr in Py.
  assert (Fw : i_u i * cos psi - i_v i * sin psi = speed) by (rewrite Hu, Hv; transitivity (speed * (sin psi * sin psi + cos psi * cos psi)); [ring | rewrite Py; ring]).
  assert (Fo : follows (ay / (speed * speed)) 0 psi (i_u i) (i_v i) (i_yaw i)).
  { split; [rewrite Hu, Hv; ring|]. rewrite Fw, <- Hy. field. lra. }
  assert (St : f1_steady (f1_on_plane sp ss g0) c i).
  { destruct Nw as [Nn Ne]. pose proof (C139_still_air sp ss g0 c i 0 0 0 0 psi 0 Nn Ne) as A. unfold f1_steady. cbv zeta. set (D := snd (f1_on_plane sp ss g0 c i 0 0 psi)) in *. set (D0 := snd (f1_on_plane sp ss g0 c i 0 0 0)) in *.
    clearbody D D0. unfold without_road in A. injection A as A1 A2 A3 A4 A5 A6 A7 A8 A9 A10 A11. rewrite A1, A2, A3, A4, A5, A6, A7, A8, A9, A10, A11.
    assert (U : M_F1.y_u D = 0) by (transitivity (cos psi * (M_F1.y_u D * cos psi - M_F1.y_v D * sin psi) + sin psi * (M_F1.y_u D * sin psi + M_F1.y_v D * cos psi)); [transitivity (M_F1.y_u D * (sin psi * sin psi + cos psi * cos psi)); [rewrite Py; ring | ring] | rewrite T10, T11; ring]).
    assert (W : M_F1.y_v D = 0) by (transitivity (- sin psi * (M_F1.y_u D * cos psi - M_F1.y_v D * sin psi) + cos psi * (M_F1.y_u D * sin psi + M_F1.y_v D * cos psi)); [transitivity (M_F1.y_v D * (sin psi * sin psi + cos psi * cos psi)); [rewrite Py; ring | ring] | rewrite T10, T11; ring]).
    repeat (apply Forall_cons; [assumption|]). apply Forall_nil. }
  assert (W0 : Forall (fun j => nth j [0; 0; 0; 0] 0 = 0) meshed) by (apply Forall_forall; intros j _; destruct j as [|[|[|[|[|j]]]]]; reflexivity).
  assert (G1 : allowed (round_lap mesh (F1Point i 0 psi, [0; 0; 0; 0]))).
  { apply (C157_rate_lap c ci elevated l h mesh (F1Point i 0 psi) [0; 0; 0; 0] meshed sigma closed L (ay / (speed * speed)) wl wr Nw C Im He); cbn [fp_in fp_n fp_alpha]; [lra | lra|]. auto. }
  assert (G2 : value (round_lap mesh (F1Point i 0 psi, [0; 0; 0; 0])) = time).
  { unfold value, time. rewrite (C157_rate_time c ci elevated _ _ mesh (F1Point i 0 psi) [0; 0; 0; 0] meshed dis sigma closed L (ay / (speed * speed)) wl wr C Fo) by (cbn [fp_in fp_alpha]; first [lra | exact W0]).
    cbn [fp_in fp_n fp_alpha]. destruct (follows_speed _ _ _ _ _ _ Fo ltac:(lra)) as (E & _). rewrite E, Fw. unfold Rdiv. ring. }
  split; [exact G1|]. split; [exact G2|]. intros pts Em [_ B]. rewrite <- G2. apply B; [|exact G1]. rewrite Em. unfold round_lap. rewrite map_map. apply map_id.
Qed.
End F1.

(** ** The kart *)
Section Kart.
Context (sp ss : R -> R -> R) (linsolve : mat -> vec -> vec).
Lemma kart_rates_around direct j : item (kart_rate_lo direct) j <= 0 <= item (kart_rate_hi direct) j.
Proof. pose proof DEG_pos. unfold item, kart_rate_lo, kart_rate_hi. destruct direct; destruct j as [|[|[|j]]]; cbn [nth]; lra. Qed.
Lemma kart_rated_round c ci l h mesh p w k wl wr : kart_no_wind c -> circle k wl wr ci ->
  kart_rated sp ss linsolve c ci (fun _ => l) (fun _ => h) (round_lap mesh (p, w)) =
  round_lap mesh (kart_point_eval sp ss linsolve c (f1_reference k wl wr) (fun _ => l) (fun _ => h) 0 p, w).
Proof.
  intros Nw C. pose proof (kart_round sp ss linsolve c ci l h mesh p k wl wr Nw C) as E.
  apply (f_equal (map (fun q => (fst q, (snd q, w))))) in E. unfold kart_lap_points, round_lap in E. rewrite !map_map in E. unfold kart_rated, round_lap. rewrite !map_map. exact E.
Qed.
Theorem C157_kart_rate_lap c ci l h mesh p w meshed sigma closed L k wl wr : kart_no_wind c -> circle k wl wr ci -> increasing_mesh closed L mesh -> has_element closed mesh ->
  let direct := e_direct (c_engine c) in let i := kp_in p in let q := i_state i in 1 - kp_n p * k <> 0 -> q_u q * cos (kp_alpha p) - q_v q * sin (kp_alpha p) <> 0 ->
  (rate_feasible meshed (kart_rate_lo direct) (kart_rate_hi direct) sigma [] closed L (kart_rated sp ss linsolve c ci (fun _ => l) (fun _ => h) (round_lap mesh (p, w))) <->
   kart_steady (kart_on_plane sp ss linsolve) c i /\ follows k (kp_n p) (kp_alpha p) (q_u q) (q_v q) (q_omega q) /\ kart_allowed wl wr l h p (kart_plane_eval sp ss linsolve c i 0) /\
   Forall (fun j => nth j w 0 = 0) meshed).
Proof.
  intros Nw C Im He direct i q Hn Hu. pose proof (C157_kart_lap sp ss linsolve c ci l h mesh p sigma closed L k wl wr Nw C Im He Hn Hu) as D. cbv zeta in D. fold i in D. fold q in D.
  rewrite (kart_round sp ss linsolve c ci l h mesh p k wl wr Nw C) in D. rewrite (kart_rated_round c ci l h mesh p w k wl wr Nw C).
  rewrite repeated_rates; [rewrite D; unfold item; tauto | exact Im | exact He | reflexivity | | reflexivity | reflexivity | apply Forall_forall; intros j _; apply kart_rates_around].
  rewrite kart_dt. unfold kart_pace. assert (C' : circle k wl wr (f1_reference k wl wr)) by (intros s; split; [exists (V 0 0 0), 0; split; reflexivity | split; reflexivity]).
  rewrite (circle_turning k wl wr _ 0 C'). apply pace_nonzero; [exact Hn | exact Hu].
Qed.
Theorem C157_kart_rate_time c ci lo hi mesh p w meshed dis sigma closed L k wl wr : circle k wl wr ci ->
  let direct := e_direct (c_engine c) in let q := i_state (kp_in p) in
  follows k (kp_n p) (kp_alpha p) (q_u q) (q_v q) (q_omega q) -> 0 < q_u q * cos (kp_alpha p) - q_v q * sin (kp_alpha p) -> Forall (fun j => nth j w 0 = 0) meshed ->
  rate_objective meshed (kart_rate_lo direct) (kart_rate_hi direct) dis sigma closed L (kart_rated sp ss linsolve c ci lo hi (round_lap mesh (p, w))) =
  (1 - kp_n p * k) * distance closed L (round_lap mesh p) / sqrt (q_u q * q_u q + q_v q * q_v q).
Proof.
  intros C direct q Fo Hf Hw. unfold direct. rewrite C154_kart_value_partial, no_penalty by exact Hw.
  rewrite (along_constant sigma closed L _ (pace k (kp_n p) (kp_alpha p) (q_u q) (q_v q))).
  - destruct (follows_speed _ _ _ _ _ _ Fo Hf) as (E & _). rewrite E, (round_distance closed L mesh (p, w) p). unfold pace. field. lra.
  - apply Forall_map, Forall_forall. intros s _. cbn [fst snd]. unfold kart_pace. rewrite (circle_turning k wl wr ci s C). reflexivity.
Qed.
Theorem C157_kart_rate_turn c speed ay ci wl wr : kart_no_wind c -> 0 < speed -> kart_turn (kart_on_plane sp ss linsolve) c speed 0 ay -> circle (ay / (speed * speed)) wl wr ci ->
  exists p, kp_n p = 0 /\ forall l h mesh sigma closed L meshed dis, increasing_mesh closed L mesh -> has_element closed mesh ->
    kart_allowed wl wr l h p (kart_plane_eval sp ss linsolve c (kp_in p) 0) ->
    let direct := e_direct (c_engine c) in
    let allowed pts := rate_feasible meshed (kart_rate_lo direct) (kart_rate_hi direct) sigma [] closed L (kart_rated sp ss linsolve c ci (fun _ => l) (fun _ => h) pts) in
    let value pts := rate_objective meshed (kart_rate_lo direct) (kart_rate_hi direct) dis sigma closed L (kart_rated sp ss linsolve c ci (fun _ => l) (fun _ => h) pts) in
    let time := distance closed L (round_lap mesh p) / speed in
    allowed (round_lap mesh (p, [0; 0])) /\ value (round_lap mesh (p, [0; 0])) = time /\ forall pts, map fst pts = mesh -> fastest allowed value pts -> value pts <= time.
Proof.
  intros Nw Sp (i & psi & T) C. cbv zeta in T. set (q := i_state i) in *. destruct T as (Hu & Hv & Hy & _ & T1 & T2 & T3 & T4 & T5 & T6 & T7 & T8 & T10 & T11).
  exists (KartPoint i 0 psi). split; [reflexivity|]. intros l h mesh sigma closed L meshed dis Im He Al direct allowed value time.
  pose proof (sin2_cos2 psi) as Py. unfold Rsqr in Py.
  assert (Fw : q_u q * cos psi - q_v q * sin psi = speed) by (rewrite Hu, Hv; transitivity (speed * (sin psi * sin psi + cos psi * cos psi)); [ring | rewrite Py; ring]).
  assert (Fo : follows (ay / (speed * speed)) 0 psi (q_u q) (q_v q) (q_omega q)).
  { split; [rewrite Hu, Hv; ring|]. rewrite Fw, <- Hy. field. lra. }
  assert (St : kart_steady (kart_on_plane sp ss linsolve) c i).
  { pose proof (kart_heading sp ss linsolve c i psi 0 Nw) as A. unfold kart_steady. cbv zeta. set (D := snd (kart_on_plane sp ss linsolve c i 0 0 psi)) in *. set (D0 := snd (kart_on_plane sp ss linsolve c i 0 0 0)) in *.
    clearbody D D0. unfold kart_without_road in A. injection A as A1 A2 A3 A4 A5 A6 A7 A8 A9 A10. rewrite A1, A2, A3, A4, A5, A6, A7, A8, A9, A10.
    assert (U : M_KartCar.y_u D = 0) by (transitivity (cos psi * (M_KartCar.y_u D * cos psi - M_KartCar.y_v D * sin psi) + sin psi * (M_KartCar.y_u D * sin psi + M_KartCar.y_v D * cos psi)); [transitivity (M_KartCar.y_u D * (sin psi * sin psi + cos psi * cos psi)); [rewrite Py; ring | ring] | rewrite T10, T11; ring]).
    assert (W : M_KartCar.y_v D = 0) by (transitivity (- sin psi * (M_KartCar.y_u D * cos psi - M_KartCar.y_v D * sin psi) + cos psi * (M_KartCar.y_u D * sin psi + M_KartCar.y_v D * cos psi)); [transitivity (M_KartCar.y_v D * (sin psi * sin psi + cos psi * cos psi)); [rewrite Py; ring | ring] | rewrite T10, T11; ring]).
    repeat (apply Forall_cons; [assumption|]). apply Forall_nil. }
  assert (W0 : Forall (fun j => nth j [0; 0] 0 = 0) meshed) by (apply Forall_forall; intros j _; destruct j as [|[|[|j]]]; reflexivity).
  assert (G1 : allowed (round_lap mesh (KartPoint i 0 psi, [0; 0]))).
  { apply (C157_kart_rate_lap c ci l h mesh (KartPoint i 0 psi) [0; 0] meshed sigma closed L (ay / (speed * speed)) wl wr Nw C Im He); cbn [kp_in kp_n kp_alpha]; fold q; [lra | lra|]. auto. }
  assert (G2 : value (round_lap mesh (KartPoint i 0 psi, [0; 0])) = time).
  { unfold value, time, direct. rewrite (C157_kart_rate_time c ci _ _ mesh (KartPoint i 0 psi) [0; 0] meshed dis sigma closed L (ay / (speed * speed)) wl wr C Fo) by (cbn [kp_in kp_alpha]; fold q; first [lra | exact W0]).
    cbn [kp_in kp_n kp_alpha]. fold q. destruct (follows_speed _ _ _ _ _ _ Fo ltac:(lra)) as (E & _). rewrite E, Fw. unfold Rdiv. ring. }
  split; [exact G1|]. split; [exact G2|]. intros pts Em [_ B]. rewrite <- G2. apply B; [|exact G1]. rewrite Em. unfold round_lap. rewrite map_map. apply map_id.
Qed.
End Kart.

(** The driven car on a ring of 20 PI metres: at the speed of its turn the steering wheel and the throttle rest, and it cannot keep its state while the steering wheel turns. *)
Example C157_rate_case : let ring := Circuit (fun s => flat_point (V (10 * sin (s / 10)) (10 * (1 - cos (s / 10))) 0) (s / 10) (1 / 10)) (fun _ => 4) (fun _ => 4) in
  let p := F1Point (bend_input bend_speed) 0 0 in let b := (bend_input bend_speed, 0) in
  let lap w := f1_rated positive_part same_sign (981 / 100) bend_car ring true (fun _ => b) (fun _ => b) (round_lap [0; 20; 40] (p, w)) in
  let allowed w := rate_feasible [0%nat; 2%nat] f1_rate_lo f1_rate_hi (1 / 2) [] true (20 * PI) (lap w) in
  0 < bend_speed /\ allowed [0; 0; 0] /\ allowed [0; 5; 0] /\ ~ allowed [1 / 100; 0; 0] /\
  rate_objective [0%nat; 2%nat] f1_rate_lo f1_rate_hi [1; 1; 1] (1 / 2) true (20 * PI) (lap [0; 0; 0]) = 20 * PI / bend_speed.
Proof.
  intros ring p b lap allowed. destruct C157_bend_case as (Nw & Sp & _ & _ & C & Im & He & Al & F & _). fold ring in C, F. fold b in Al, F. fold p in Al, F.
  destruct bend_turn as (_ & Sq & St).
  assert (Ek : bend_speed * bend_speed / 10 / (bend_speed * bend_speed) = 1 / 10) by (field; lra). rewrite Ek in C.
  assert (Hf : 0 < i_u (fp_in p) * cos (fp_alpha p) - i_v (fp_in p) * sin (fp_alpha p)) by (cbn; rewrite cos_0, sin_0; lra).
  assert (Fo : follows (1 / 10) (fp_n p) (fp_alpha p) (i_u (fp_in p)) (i_v (fp_in p)) (i_yaw (fp_in p))) by (split; cbn; rewrite ?sin_0, ?cos_0; field).
  assert (Es : sqrt (i_u (fp_in p) * i_u (fp_in p) + i_v (fp_in p) * i_v (fp_in p)) = bend_speed) by (cbn; rewrite Rmult_0_l, Rplus_0_r; apply sqrt_square; lra).
  assert (I : forall w, allowed w <-> Forall (fun j => nth j w 0 = 0) [0%nat; 2%nat]).
  { intros w. unfold allowed, lap.
    rewrite (C157_rate_lap positive_part same_sign (981 / 100) bend_car ring true b b [0; 20; 40] p w [0%nat; 2%nat] (1 / 2) true (20 * PI) (1 / 10) 4 4 Nw C Im He) by (cbn [fp_n p]; lra). tauto. }
  split; [exact Sp|]. split; [apply I; repeat constructor|]. split; [apply I; repeat constructor|]. split; [intros A; apply I in A; apply Forall_inv in A; cbn in A; lra|].
  unfold lap. rewrite (C157_rate_time positive_part same_sign (981 / 100) bend_car ring true _ _ [0; 20; 40] p [0; 0; 0] [0%nat; 2%nat] [1; 1; 1] (1 / 2) true (20 * PI) (1 / 10) 4 4 C Fo Hf) by (repeat constructor).
  rewrite Es. unfold distance. cbn. field. lra.
Qed.
(** The kart that coasts on a straight. *)
Example C157_kart_rate_case : let c := gripping_kart in let l := kart_low 0 in let h := kart_high 0 in let direct := e_direct (c_engine c) in
  let lap w := kart_rated positive_part same_sign cramer c level (fun _ => l) (fun _ => h) (round_lap [0; 40] (coasting_point, w)) in
  let allowed w := rate_feasible [0%nat; 1%nat] (kart_rate_lo direct) (kart_rate_hi direct) (1 / 2) [] true 100 (lap w) in
  kart_no_wind c /\ circle 0 5 5 level /\ increasing_mesh true 100 [0; 40] /\ has_element true [0; 40] /\ kart_turn (kart_on_plane positive_part same_sign cramer) c 10 0 0 /\
  allowed [0; 0] /\ ~ allowed [0; 1] /\ rate_objective [0%nat; 1%nat] (kart_rate_lo direct) (kart_rate_hi direct) [1; 1] (1 / 2) true 100 (lap [0; 0]) = 10.
Proof.
  intros c l h direct lap allowed. destruct C157_kart_case as (Nw & C & _ & Im & He & Tu & F & _). fold c in Nw, Tu, F. fold l in F. fold h in F.
  set (p := coasting_point) in *. set (q := i_state (kp_in p)).
  assert (Hf : 0 < q_u q * cos (kp_alpha p) - q_v q * sin (kp_alpha p)) by (cbn; rewrite cos_0, sin_0; lra).
  assert (Hn : 1 - kp_n p * 0 <> 0) by (rewrite Rmult_0_r; lra).
  pose proof F as F'. apply (C157_kart_lap positive_part same_sign cramer c level l h [0; 40] p (1 / 2) true 100 0 5 5 Nw C Im He Hn) in F'; [|fold q; lra]. destruct F' as (S & Fo & Al).
  assert (I : forall w, allowed w <-> Forall (fun j => nth j w 0 = 0) [0%nat; 1%nat]).
  { intros w. unfold allowed, lap, direct. rewrite (C157_kart_rate_lap positive_part same_sign cramer c level l h [0; 40] p w [0%nat; 1%nat] (1 / 2) true 100 0 5 5 Nw C Im He Hn) by (fold q; lra). tauto. }
  repeat (split; [assumption|]). split; [apply I; repeat constructor|]. split; [intros A; apply I in A; apply Forall_inv_tail, Forall_inv in A; cbn in A; lra|].
  unfold lap, direct. rewrite (C157_kart_rate_time positive_part same_sign cramer c level _ _ [0; 40] p [0; 0] [0%nat; 1%nat] [1; 1] (1 / 2) true 100 0 5 5 C Fo Hf) by (repeat constructor).
  fold q. replace (sqrt (q_u q * q_u q + q_v q * q_v q)) with 10; [unfold distance; cbn; field|]. cbn. rewrite Rmult_0_l, Rplus_0_r. symmetry. apply sqrt_square. lra.
Qed.

Print Assumptions C157_rate_lap.
Print Assumptions C157_rate_time.
Print Assumptions C157_rate_turn.
Print Assumptions C157_kart_rate_lap.
Print Assumptions C157_kart_rate_time.
Print Assumptions C157_kart_rate_turn.
