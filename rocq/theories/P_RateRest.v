(** Property theorem C154, controls at rest: laps along which the controls of the mesh keep their values. *)
From Coq Require Import Reals Lra Lia List.
From Verif Require Import M_Vec M_Tire M_Car M_Road M_F1 M_Kart6 M_KartCar M_Feasible M_RealLap M_RateLap S_F1 S_F1Wheels S_KartCar S_KartGrip S_RealLap S_LapLimits S_RateLap S_Freedom S_Circle S_RateRest L_Tire L_F1 L_RealLap P_Tire P_Car P_F1 P_KartCar P_KartGrip P_RealLap P_LapLimits P_RateLap P_Freedom P_Circle P_CircleRate P_Sector.
Import ListNotations.
Local Open Scope R_scope.

Lemma rated_back {P} w (pts : list (R * P)) : map (fun p => (fst p, fst (snd p))) (rated w pts) = pts.
Proof. unfold rated. rewrite map_map. rewrite <- (map_id pts) at 2. apply map_ext. intros [s p]. reflexivity. Qed.
Lemma constant_same {P} (f : P -> R) (pts : list (R * P)) : constant_along f pts -> forall (s : R) p (s' : R) p', In (s, p) pts -> In (s', p') pts -> f p = f p'.
Proof. intros [b F] s p s' p' H H'. rewrite Forall_forall in F. pose proof (F _ H) as E. pose proof (F _ H') as E'. cbn [snd] in E, E'. congruence. Qed.
Lemma last_rated {P} w (pts : list (R * P)) (a : R * P) : snd (snd (last (rated w pts) (fst a, (snd a, w)))) = w.
Proof. unfold rated. induction pts as [|x l IH]; [reflexivity|]. destruct l; [reflexivity|]. exact IH. Qed.
Lemma rest_effort {P} closed L j (pts : list (R * P)) w : item w j = 0 -> lopsided_effort closed L j (rated w pts) = 0.
Proof.
  intros H. destruct pts as [|a l]; [reflexivity|].
  assert (A : along 1 false L (squared_rate j) (rated w (a :: l)) = 0 * distance false L (rated w (a :: l))).
  { apply along_constant, Forall_map, Forall_forall. intros x _. cbn [fst snd]. unfold squared_rate, rate. cbn [snd]. unfold item in H. rewrite H. ring. }
  pose proof (last_rated w (a :: l) a) as E. cbn [rated map] in A, E |- *. unfold lopsided_effort. rewrite A. unfold rate. rewrite E. cbn [snd]. unfold item in H. rewrite H. destruct closed; field.
Qed.
Lemma rest_penalty {P} dis meshed closed L (pts : list (R * P)) w : Forall (fun j => item w j = 0) meshed -> penalised dis meshed (fun j => lopsided_effort closed L j (rated w pts)) = 0.
Proof.
  intros F. induction F as [|j l Hj F IH]; [reflexivity|]. cbn [penalised fold_right]. change (fold_right _ 0 l) with (penalised dis l (fun j => lopsided_effort closed L j (rated w pts))).
  rewrite IH, rest_effort by exact Hj. ring.
Qed.
Lemma along_rated {P} sigma closed L (g : R -> P -> R) w (pts : list (R * P)) : along sigma closed L (fun s p => g s (fst p)) (rated w pts) = along sigma closed L g pts.
Proof. unfold along, values, rated. rewrite map_map. reflexivity. Qed.

(** A lap along which the controls of the mesh keep their values is allowed with rates 0 if and only if it is allowed in the direct formulation, and its value is its time. *)
Theorem C154_rest sp ss g0 c ci elevated lo hi pts sigma restricted closed L meshed dis w : Forall (fun j => constant_along (f1_control j) pts) meshed -> Forall (fun j => nth j w 0 = 0) meshed ->
  (rate_feasible meshed f1_rate_lo f1_rate_hi sigma restricted closed L (f1_rated sp ss g0 c ci elevated lo hi (rated w pts)) <->
   lap_feasible sigma restricted closed L (f1_lap sp ss g0 c ci elevated lo hi pts)) /\
  rate_objective meshed f1_rate_lo f1_rate_hi dis sigma closed L (f1_rated sp ss g0 c ci elevated lo hi (rated w pts)) = along sigma closed L (f1_pace ci) pts.
Proof.
  intros Fc Fw. split; [split|].
  - intros F. apply C154_direct in F. rewrite rated_back in F. exact F.
  - intros F. unfold f1_rated, rated. rewrite map_map. cbn [fst snd].
    apply (idle_any meshed f1_rate_lo f1_rate_hi (f1_point_eval sp ss g0 c ci elevated lo hi) (if elevated then 13 else 9) w sigma restricted closed L pts); [intros; apply f1_q_length | intros; apply f1_dq_length | | exact F].
    rewrite Forall_forall in Fc, Fw |- *. intros j Hj. split; [exact (Fw j Hj)|]. split; [apply f1_rates_around|].
    intros s p s' p' H H'. rewrite !f1_u_item. exact (constant_same (f1_control j) pts (Fc j Hj) s p s' p' H H').
  - rewrite C154_value_partial, rest_penalty by exact Fw. rewrite (along_rated sigma closed L (f1_pace ci)). ring.
Qed.
Theorem C154_kart_rest sp ss linsolve c ci lo hi pts sigma restricted closed L meshed dis w : let direct := e_direct (c_engine c) in
  Forall (fun j => constant_along (kart_control j) pts) meshed -> Forall (fun j => nth j w 0 = 0) meshed ->
  (rate_feasible meshed (kart_rate_lo direct) (kart_rate_hi direct) sigma restricted closed L (kart_rated sp ss linsolve c ci lo hi (rated w pts)) <->
   lap_feasible sigma restricted closed L (kart_lap_points sp ss linsolve c ci lo hi pts)) /\
  rate_objective meshed (kart_rate_lo direct) (kart_rate_hi direct) dis sigma closed L (kart_rated sp ss linsolve c ci lo hi (rated w pts)) = along sigma closed L (kart_pace ci) pts.
Proof.
  intros direct Fc Fw. split; [split|].
  - intros F. apply C154_kart_direct in F. rewrite rated_back in F. exact F.
  - intros F. unfold kart_rated, rated. rewrite map_map. cbn [fst snd].
    apply (idle_any meshed (kart_rate_lo direct) (kart_rate_hi direct) (kart_point_eval sp ss linsolve c ci lo hi) 12 w sigma restricted closed L pts); [reflexivity | reflexivity | | exact F].
    rewrite Forall_forall in Fc, Fw |- *. intros j Hj. split; [exact (Fw j Hj)|]. split; [apply kart_rates_around|].
    intros s p s' p' H H'. exact (constant_same (kart_control j) pts (Fc j Hj) s p s' p' H H').
  - unfold direct. rewrite C154_kart_value_partial, rest_penalty by exact Fw. rewrite (along_rated sigma closed L (kart_pace ci)). ring.
Qed.

(** With rates no lap is faster than the best one of the direct formulation without penalisations. *)
Theorem C155_never_faster sp ss g0 c ci elevated lo hi pts sigma restricted closed L meshed dis T : Forall (fun j => 0 <= nth j dis 0) meshed -> rising closed L pts ->
  best (f1_lap sp ss g0 c ci elevated lo hi) sigma [0; 0; 0; 0] restricted closed L (map fst pts) T ->
  rate_feasible meshed f1_rate_lo f1_rate_hi sigma restricted closed L (f1_rated sp ss g0 c ci elevated lo hi pts) ->
  T <= rate_objective meshed f1_rate_lo f1_rate_hi dis sigma closed L (f1_rated sp ss g0 c ci elevated lo hi pts).
Proof.
  intros Hd Ri [_ B] F. rewrite C154_value_partial.
  pose proof (penalised_pos dis meshed (fun k => lopsided_effort closed L k pts) Hd (fun k => lopsided_pos closed L k pts Ri)) as Pp.
  assert (A : T <= along sigma closed L (fun s p => f1_pace ci s (fst p)) pts); [|lra].
  apply B. exists (map (fun p => (fst p, fst (snd p))) pts). split; [rewrite map_map; reflexivity|]. split; [apply (C154_direct _ _ _ _ _ _ _ _ _ _ _ _ _ _ F)|].
  rewrite C153_value, !Rmult_0_l, !Rplus_0_r. unfold along, values. rewrite map_map. reflexivity.
Qed.
Theorem C155_kart_never_faster sp ss linsolve c ci lo hi pts sigma restricted closed L meshed dis T : let direct := e_direct (c_engine c) in Forall (fun j => 0 <= nth j dis 0) meshed -> rising closed L pts ->
  best (kart_lap_points sp ss linsolve c ci lo hi) sigma [0; 0] restricted closed L (map fst pts) T ->
  rate_feasible meshed (kart_rate_lo direct) (kart_rate_hi direct) sigma restricted closed L (kart_rated sp ss linsolve c ci lo hi pts) ->
  T <= rate_objective meshed (kart_rate_lo direct) (kart_rate_hi direct) dis sigma closed L (kart_rated sp ss linsolve c ci lo hi pts).
Proof.
  intros direct Hd Ri [_ B] F. unfold direct. rewrite C154_kart_value_partial.
  pose proof (penalised_pos dis meshed (fun k => lopsided_effort closed L k pts) Hd (fun k => lopsided_pos closed L k pts Ri)) as Pp.
  assert (A : T <= along sigma closed L (fun s p => kart_pace ci s (fst p)) pts); [|lra].
  apply B. exists (map (fun p => (fst p, fst (snd p))) pts). split; [rewrite map_map; reflexivity|]. split; [apply (C154_kart_direct _ _ _ _ _ _ _ _ _ _ _ _ _ F)|].
  rewrite C153_kart_value, !Rmult_0_l, !Rplus_0_r. unfold along, values. rewrite map_map. reflexivity.
Qed.

(** The car glides while the boost, which is not on the mesh, moves; steering wheel and throttle rest. *)
Example C154_rest_case : let pts := [(0, gliding_point 50 0); (40, gliding_point 50 1)] in
  let lap w := f1_rated positive_part same_sign (981 / 100) gliding_car straight false gliding_low gliding_high (rated w pts) in
  Forall (fun j => constant_along (f1_control j) pts) [0%nat; 2%nat] /\ ~ constant_along (f1_control 1) pts /\
  rate_feasible [0%nat; 2%nat] f1_rate_lo f1_rate_hi (1 / 2) [] true 100 (lap [0; 7; 0]) /\
  rate_objective [0%nat; 2%nat] f1_rate_lo f1_rate_hi [1; 1; 1] (1 / 2) true 100 (lap [0; 7; 0]) = 2.
Proof.
  intros pts lap. assert (Fc : Forall (fun j => constant_along (f1_control j) pts) [0%nat; 2%nat]).
  { apply Forall_cons; [exists 0; repeat constructor|]. apply Forall_cons; [exists 0; repeat constructor | constructor]. }
  destruct (C154_rest positive_part same_sign (981 / 100) gliding_car straight false gliding_low gliding_high pts (1 / 2) [] true 100 [0%nat; 2%nat] [1; 1; 1] [0; 7; 0] Fc ltac:(repeat constructor)) as [A B].
  split; [exact Fc|]. split; [intros [b F]; pose proof (Forall_inv F) as X; pose proof (Forall_inv (Forall_inv_tail F)) as Y; cbn in X, Y; lra|].
  split; [apply A; apply (gliding_holds (1 / 2) []); constructor|]. unfold lap. rewrite B. unfold pts.
  rewrite (along_constant (1 / 2) true 100 _ (/ 50)) by (repeat (apply Forall_cons; [cbn [fst snd]; apply gliding_pace|]); apply Forall_nil). unfold distance. cbn. field.
Qed.
Example C154_kart_rest_case : let c := gripping_kart in let direct := e_direct (c_engine c) in let pts := round_lap [0; 40] coasting_point in
  Forall (fun j => constant_along (kart_control j) pts) [0%nat; 1%nat] /\
  rate_feasible [0%nat; 1%nat] (kart_rate_lo direct) (kart_rate_hi direct) (1 / 2) [] true 100
    (kart_rated positive_part same_sign cramer c level (fun _ => kart_low 0) (fun _ => kart_high 0) (rated [0; 0] pts)).
Proof.
  intros c direct pts. assert (Fc : Forall (fun j => constant_along (kart_control j) pts) [0%nat; 1%nat]) by (apply Forall_forall; intros j _; apply (round_constant [0; 40] coasting_point (kart_control j))).
  split; [exact Fc|]. destruct C157_kart_case as (_ & _ & _ & _ & _ & _ & F & _).
  apply (C154_kart_rest positive_part same_sign cramer c level (fun _ => kart_low 0) (fun _ => kart_high 0) pts (1 / 2) [] true 100 [0%nat; 1%nat] [1; 1] [0; 0] Fc ltac:(repeat constructor)). exact F.
Qed.
(** At the top speed of the car, and with the time of the best lap: it cannot be faster. *)
Example C155_never_faster_case : let idle := (gliding_point 50 0, [0; 0]) in let pts := [(0, idle); (40, idle)] in
  Forall (fun j => 0 <= nth j [0; 1] 0) [1%nat] /\ rising true 100 pts /\
  best (f1_lap positive_part same_sign (981 / 100) gliding_car straight false calm_low (calm_high 50)) (1 / 2) [0; 0; 0; 0] [] true 100 (map fst pts) (100 / 50) /\
  rate_feasible [1%nat] f1_rate_lo f1_rate_hi (1 / 2) [] true 100 (f1_rated positive_part same_sign (981 / 100) gliding_car straight false calm_low (calm_high 50) pts).
Proof.
  intros idle pts. split; [repeat (apply Forall_cons; [cbn; lra|]); apply Forall_nil|]. split; [unfold rising, closed_up; cbn; repeat constructor; lra|]. split; [apply calm_best; lra|].
  pose proof (calm_glides 0 0 ltac:(lra)) as G0. pose proof (calm_glides 0 40 ltac:(lra)) as G1.
  unfold rate_feasible, f1_rated, pts, idle. cbn [map fst snd]. split; [|split; [|constructor]].
  - unfold mesh_elements. cbn [inner_elements closing_element app last fst snd]. repeat (apply Forall_cons; [eapply gliding_rated_element; [eassumption | eassumption | lra]|]). apply Forall_nil.
  - unfold variables_hold. repeat (apply Forall_cons; [cbn [snd]; eapply gliding_rated_bounds; [eassumption | lra]|]). apply Forall_nil.
Qed.
Example C155_kart_never_faster_case : let c := gripping_kart in let direct := e_direct (c_engine c) in let mesh := [0; 30; 60; 80] in let pts := round_lap mesh (coasting_point, [0; 0]) in
  Forall (fun j => 0 <= nth j [1; 1] 0) [0%nat; 1%nat] /\ rising true 100 pts /\
  best (kart_lap_points positive_part same_sign cramer c level (fun _ => slow_low) (fun _ => slow_high)) (1 / 2) [0; 0] [] true 100 (map fst pts) 10 /\
  rate_feasible [0%nat; 1%nat] (kart_rate_lo direct) (kart_rate_hi direct) (1 / 2) [] true 100 (kart_rated positive_part same_sign cramer c level (fun _ => slow_low) (fun _ => slow_high) pts).
Proof.
  intros c direct mesh pts. set (p := coasting_point). destruct C157_kart_case as (Nw & C & _ & Im & He & _ & F & _).
  apply (C157_kart_lap positive_part same_sign cramer gripping_kart level (kart_low 0) (kart_high 0) [0; 40] p (1 / 2) true 100 0 5 5 Nw C Im He) in F; [|cbn; lra | cbn; rewrite cos_0, sin_0; lra].
  destruct F as (St & Fo & (_ & _ & A)).
  assert (Im' : increasing_mesh true 100 mesh) by (unfold increasing_mesh; cbn; repeat constructor; lra). assert (He' : has_element true mesh) by (cbn; lia).
  assert (Al : kart_allowed 5 5 slow_low slow_high p (kart_plane_eval positive_part same_sign cramer c (kp_in p) 0)).
  { split; [split; repeat (apply Forall_cons; [unfold between; cbn; lra|]); apply Forall_nil|]. split; [unfold between; cbn; lra | exact A]. }
  split; [repeat (apply Forall_cons; [cbn; lra|]); apply Forall_nil|]. split; [unfold rising, closed_up; cbn; repeat constructor; lra|]. split.
  - assert (Em0 : map fst pts = mesh) by reflexivity. rewrite Em0. split.
    + exists (round_lap mesh p). split; [reflexivity|]. split.
      * apply (C157_kart_lap positive_part same_sign cramer gripping_kart level slow_low slow_high mesh p (1 / 2) true 100 0 5 5 Nw C Im' He'); [cbn; lra | cbn; rewrite cos_0, sin_0; lra|]. auto.
      * unfold c. rewrite (C157_kart_time positive_part same_sign cramer gripping_kart level _ _ mesh p (1 / 2) true 100 0 5 5 0 0 C Fo ltac:(cbn; rewrite cos_0, sin_0; lra)).
        assert (Sq : sqrt (q_u (i_state (kp_in p)) * q_u (i_state (kp_in p)) + q_v (i_state (kp_in p)) * q_v (i_state (kp_in p))) = 10).
        { cbn. rewrite Rmult_0_l, Rplus_0_r. apply sqrt_square. lra. }
        rewrite Sq. unfold distance. cbn. field.
    + intros T' (pts' & Em & Fe & <-).
      assert (M : Forall (fun p => moderate 1 10 (turning level (fst p)) (kp_n (snd p)) (kp_alpha (snd p)) (q_u (i_state (kp_in (snd p)))) (q_v (i_state (kp_in (snd p))))) pts').
      { rewrite Forall_forall. intros [s q] Hq. destruct (C153_kart_within _ _ _ _ _ _ _ _ _ _ _ _ s q Fe Hq) as (B & [Ba Bb] & _). cbn [fst snd] in *.
        assert (T0 : turning level s = 0) by (unfold turning, level, flat_point, curvature; cbn; rewrite sin_0, cos_0; ring). cbn in Ba, Bb. destruct B as [_ B]. pose proof (Forall_inv B) as [Bu1 Bu2]. pose proof (Forall_inv (Forall_inv_tail B)) as [Bv1 Bv2]. cbn in Bu1, Bu2, Bv1, Bv2.
        assert (Ev : q_v (i_state (kp_in q)) = 0) by lra. assert (Ea : kp_alpha q = 0) by lra. unfold moderate. rewrite T0, Ev, Ea, sin_0, cos_0. repeat split; nra. }
      pose proof (C153_kart_fastest positive_part same_sign cramer gripping_kart level (fun _ => slow_low) (fun _ => slow_high) pts' (1 / 2) 0 0 true 100 1 10) as K.
      destruct pts' as [|[s0 p0] [|[s1 p1] [|[s2 p2] [|[s3 p3] [|? ?]]]]]; try discriminate. unfold mesh in Em. cbn [map fst] in Em. injection Em as -> -> -> ->.
      assert (D : distance true 100 [(0, p0); (30, p1); (60, p2); (80, p3)] = 100) by (unfold distance, closed_up; cbn; lra). rewrite D in K.
      assert (Ri : rising true 100 [(0, p0); (30, p1); (60, p2); (80, p3)]) by (unfold rising, closed_up; cbn; repeat constructor; lra).
      specialize (K ltac:(lra) ltac:(lra) ltac:(lra) Ri ltac:(lra) ltac:(lra) M). eapply Rle_trans; [|exact K]. lra.
  - apply (C157_kart_rate_lap positive_part same_sign cramer gripping_kart level slow_low slow_high mesh p [0; 0] [0%nat; 1%nat] (1 / 2) true 100 0 5 5 Nw C Im' He'); [cbn; lra | cbn; rewrite cos_0, sin_0; lra|].
    repeat (split; [assumption|]). repeat constructor.
Qed.

Print Assumptions C154_rest.
Print Assumptions C154_kart_rest.
Print Assumptions C155_never_faster.
Print Assumptions C155_kart_never_faster.
