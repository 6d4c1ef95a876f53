(** Property theorems C151, C152: laps of the mirror image of a circuit, and laps from another starting line, for the whole Formula 1 car and the whole kart. *)
From Coq Require Import Reals Lra Lia List Permutation.
From Verif Require Import M_Vec M_Tire M_Car M_Road M_F1 M_Kart6 M_KartCar M_Feasible M_RealLap S_F1 S_Kart6 S_KartCar S_RealLap L_F1 L_RealLap P_Tire P_Car P_F1 P_KartCar P_KartGrip.
Import ListNotations.
Local Open Scope R_scope.

(** ** C151: mirror images *)
Lemma onto_check p n : forallb (fun e => Nat.ltb (snd e) n) p = true -> forallb (fun k => existsb (fun e => Nat.eqb (snd e) k) p) (seq 0 n) = true -> onto p n.
Proof.
  intros A B. split.
  - apply Forall_forall. intros e He. rewrite forallb_forall in A. apply Nat.ltb_lt, A, He.
  - intros k Hk. rewrite forallb_forall in B. specialize (B k ltac:(apply in_seq; lia)). apply existsb_exists in B. destruct B as ((b & j) & Hj & E).
    apply Nat.eqb_eq in E. cbn in E. subst. exists b. exact Hj.
Qed.
Lemma dissipation_mirror R0 t : dissipation R0 (mirror_tire t) = dissipation R0 t.
Proof. unfold dissipation, mirror_tire; cbn. ring. Qed.

Section Formula1.
Context (sp ss : R -> R -> R) (g0 : R).

Definition f1_order (elevated : bool) : list (bool * nat) :=
  if elevated then [(true, 1); (true, 0); (true, 3); (true, 2); (true, 4); (false, 5); (false, 6); (true, 7); (false, 8); (true, 9); (false, 10); (false, 11); (false, 12)]%nat
  else [(true, 1); (true, 0); (true, 3); (true, 2); (true, 4); (false, 5); (false, 6); (false, 7); (false, 8)]%nat.
Definition f1_algebraic_order (elevated : bool) : list (bool * nat) := if elevated then [] else [(true, 0); (false, 1); (true, 2); (false, 3)]%nat.
Definition f1_extra_order : list (bool * nat) := [(false, 1); (false, 0); (false, 3); (false, 2); (false, 5); (false, 4)]%nat.
Definition f1_variable_order : list (bool * nat) :=
  [(true, 1); (true, 0); (true, 3); (true, 2); (true, 4); (false, 5); (false, 6); (true, 8); (true, 7); (true, 10); (true, 9); (false, 11); (false, 12); (false, 13);
   (true, 14); (true, 15); (true, 16)]%nat.

Lemma track_eval_mirror c i p n alpha : 
  let '(r, v) := track_eval sp ss g0 c i p n alpha in
  snd (track_eval sp ss g0 (mirror_car c) (mirror_input i) (mirror_point p) (- n) (- alpha)) = mirror_eval v.
Proof.
  unfold track_eval. pose proof (road_mirror p n alpha (i_u i) (i_v i) (i_yaw i)) as RM. cbv zeta in RM.
  change (i_u (mirror_input i)) with (i_u i). change (i_v (mirror_input i)) with (- i_v i). change (i_yaw (mirror_input i)) with (- i_yaw i).
  rewrite RM. clear RM. set (r := road_update _ _ _ n alpha _ _ _). cbn [ro_dtime_ds ro_n_dot ro_alpha_dot ro_w mirror_point fr_e fr_de snd].
  assert (ED : euler_dot (mirror_angles (fr_de p)) (ro_dtime_ds r) = mirror_angles (euler_dot (fr_de p) (ro_dtime_ds r))).
  { unfold euler_dot, mirror_angles; cbn [yaw pitch roll]. f_equal; unfold Rdiv; ring. }
  rewrite ED, update_mirror. reflexivity.
Qed.

Lemma f1_point_image c ci elevated lo hi s p :
  images (f1_order elevated) (f1_algebraic_order elevated) f1_extra_order f1_variable_order [false; true; true; true] mirror_quantity
    (f1_point_eval sp ss g0 c ci elevated lo hi s p)
    (f1_point_eval sp ss g0 (mirror_car c) (mirror_circuit ci) elevated (mirror_f1_bounds lo hi) (mirror_f1_bounds hi lo) s (mirror_f1_point p)).
Proof.
  unfold f1_point_eval. pose proof (track_eval_mirror c (fp_in p) (ci_frame ci s) (fp_n p) (fp_alpha p)) as TE.
  pose proof (C137_track sp ss g0 c (fp_in p) (ci_frame ci s) 0 (fp_n p) (fp_alpha p)) as TR.
  cbn [mirror_circuit mirror_f1_point ci_frame ci_left ci_right fp_in fp_n fp_alpha].
  destruct (track_eval sp ss g0 c (fp_in p) (ci_frame ci s) (fp_n p) (fp_alpha p)) as [r v].
  destruct (track_eval sp ss g0 (mirror_car c) _ _ _ _) as [r' v']. cbn [snd] in TE. subst v'.
  destruct (f1_on_track sp ss g0 c (fp_in p) (ci_frame ci s) 0 (fp_n p) (fp_alpha p)) as [q dq]. rewrite TR. clear TR r r'.
  unfold f1_extra_bounds, f1_extra_constraints, f1_integrands, f1_variables. cbv zeta.
  cbn [mirror_car f_fl f_fr f_rl f_rr f_chassis f_front f_rear mirror_chassis c_mass mirror_eval v_fl v_fr v_rl v_rr].
  rewrite !dissipation_mirror, cos_neg. cbn [mirror_tire t_lambda].
  constructor; cbn [e_dt e_q e_dq e_alg e_extra e_lb e_ub e_x e_xlb e_xub e_u e_int]; try reflexivity.
  all: try (destruct elevated; reflexivity).
  all: try (destruct elevated; apply onto_check; reflexivity).
  all: try (apply onto_check; reflexivity).
  all: try (unfold shuffle, shuffle_low, f1_extra_order, f1_variable_order, sgn, item;
    cbn [map fst snd nth mirror_f1_bounds i_fl i_fr i_rl i_rr i_u i_v i_yaw i_zfl i_zfr i_zrl i_zrr M_F1.i_delta i_boost M_F1.i_throttle i_bias];
    repeat (apply f_equal2; [try reflexivity; ring|]); reflexivity).
  - intros k. do 5 (destruct k as [|k]; [reflexivity|]). cbn. destruct k; unfold item; cbn; reflexivity.
  - intros k. do 6 (destruct k as [|k]; [reflexivity|]). unfold item, mirror_quantity. cbn. destruct k; reflexivity.
Qed.

Lemma f1_lap_image c ci elevated lo hi pts :
  lap_images (f1_order elevated) (f1_algebraic_order elevated) f1_extra_order f1_variable_order [false; true; true; true] mirror_quantity
    (f1_lap sp ss g0 c ci elevated lo hi pts)
    (f1_lap sp ss g0 (mirror_car c) (mirror_circuit ci) elevated (mirror_f1_bounds lo hi) (mirror_f1_bounds hi lo) (mirror_f1_lap pts)).
Proof.
  unfold lap_images, f1_lap, mirror_f1_lap. induction pts as [|p l IH]; [constructor|]. cbn [map]. constructor; [|exact IH].
  split; [reflexivity | apply f1_point_image].
Qed.

(** A lap satisfies the constraints and the bounds exactly when its image does, on the image of the circuit, with the image of the car; and the value that is minimised is the same. *)
Theorem C151_laps c ci elevated lo hi pts sigma dis restricted closed L :
  let lap := f1_lap sp ss g0 c ci elevated lo hi pts in
  let image := f1_lap sp ss g0 (mirror_car c) (mirror_circuit ci) elevated (mirror_f1_bounds lo hi) (mirror_f1_bounds hi lo) (mirror_f1_lap pts) in
  (lap_feasible sigma (mirror_restricted restricted) closed L image <-> lap_feasible sigma restricted closed L lap) /\
  lap_objective sigma dis closed L image = lap_objective sigma dis closed L lap.
Proof.
  intros lap image. pose proof (f1_lap_image c ci elevated lo hi pts) as I. split.
  - apply (image_feasible _ _ _ _ _ _ sigma restricted closed L _ _ I).
  - exact (image_objective _ _ _ _ _ _ sigma dis closed L _ _ I).
Qed.

Lemma mirror_point_twice p : mirror_f1_point (mirror_f1_point p) = p.
Proof. destruct p as [[] n a]. unfold mirror_f1_point, mirror_input; cbn. rewrite !Ropp_involutive. reflexivity. Qed.
Lemma mirror_lap_twice pts : mirror_f1_lap (mirror_f1_lap pts) = pts.
Proof.
  unfold mirror_f1_lap. rewrite map_map. rewrite <- (map_id pts) at 2. apply map_ext. intros [s p]. cbn [fst snd]. rewrite mirror_point_twice. reflexivity.
Qed.
Lemma f1_lap_ext c ci elevated lo hi lo' hi' pts : (forall s, lo' s = lo s) -> (forall s, hi' s = hi s) ->
  f1_lap sp ss g0 c ci elevated lo' hi' pts = f1_lap sp ss g0 c ci elevated lo hi pts.
Proof. intros El Eh. apply map_ext. intros [s p]. cbn [fst snd]. unfold f1_point_eval. rewrite El, Eh. reflexivity. Qed.

(** A symmetric car, with bounds that are the same to both sides, attains the same lap times on a circuit and on its mirror image; and so the best of them is the same. *)
Theorem C151_times c ci elevated lo hi sigma dis restricted closed L mesh T : symmetric c ->
  (forall s, mirror_f1_bounds lo hi s = lo s) -> (forall s, mirror_f1_bounds hi lo s = hi s) ->
  attained (f1_lap sp ss g0 c (mirror_circuit ci) elevated lo hi) sigma dis (mirror_restricted restricted) closed L mesh T <->
  attained (f1_lap sp ss g0 c ci elevated lo hi) sigma dis restricted closed L mesh T.
Proof.
  intros Sc Hl Hh. split; intros (pts & Em & F & O); exists (mirror_f1_lap pts); (split; [unfold mirror_f1_lap; rewrite map_map; exact Em|]).
  - destruct (C151_laps c ci elevated lo hi (mirror_f1_lap pts) sigma dis restricted closed L) as [F' O'].
    rewrite mirror_lap_twice, (symmetric_mirror c Sc), (f1_lap_ext _ _ _ _ _ _ _ _ Hl Hh) in F', O'. split; [apply F', F | rewrite <- O'; exact O].
  - destruct (C151_laps c ci elevated lo hi pts sigma dis restricted closed L) as [F' O'].
    rewrite (symmetric_mirror c Sc), (f1_lap_ext _ _ _ _ _ _ _ _ Hl Hh) in F', O'. split; [apply F', F | rewrite O'; exact O].
Qed.
Theorem C151_best c ci elevated lo hi sigma dis restricted closed L mesh T : symmetric c ->
  (forall s, mirror_f1_bounds lo hi s = lo s) -> (forall s, mirror_f1_bounds hi lo s = hi s) ->
  best (f1_lap sp ss g0 c (mirror_circuit ci) elevated lo hi) sigma dis (mirror_restricted restricted) closed L mesh T <->
  best (f1_lap sp ss g0 c ci elevated lo hi) sigma dis restricted closed L mesh T.
Proof.
  intros Sc Hl Hh. unfold best. rewrite (C151_times c ci elevated lo hi sigma dis restricted closed L mesh T Sc Hl Hh).
  split; intros [A B]; (split; [exact A|]); intros T' H; apply B, (C151_times c ci elevated lo hi sigma dis restricted closed L mesh T' Sc Hl Hh), H.
Qed.
End Formula1.

Section TheKart.
Context (sp ss : R -> R -> R) (linsolve : mat -> vec -> vec).

Definition kart_order : list (bool * nat) :=
  [(true, 0); (false, 1); (false, 2); (true, 3); (false, 4); (true, 5); (true, 6); (false, 7); (true, 8); (true, 9); (false, 10); (false, 11)]%nat.
Definition kart_extra_order : list (bool * nat) := [(true, 1); (true, 0); (false, 3); (false, 2); (false, 5); (false, 4)]%nat.
Definition kart_variable_order : list (bool * nat) :=
  [(true, 0); (true, 1); (false, 2); (false, 3); (true, 4); (false, 5); (true, 6); (true, 7); (false, 8); (true, 9); (false, 10); (false, 11); (false, 12); (true, 13)]%nat.

Lemma kart_eval_mirror c i p n alpha : solves linsolve -> determined (c_body c) (i_state i) -> even_steering c ->
  let '(r, v) := kart_track_eval sp ss linsolve c i p n alpha in
  snd (kart_track_eval sp ss linsolve (mirror_kart c) (mirror_kart_input i) (mirror_point p) (- n) (- alpha)) = mirror_kart_eval v.
Proof.
  intros HS HD HB. unfold kart_track_eval.
  pose proof (road_mirror p n alpha (q_u (i_state i)) (q_v (i_state i)) (q_omega (i_state i))) as RM. cbv zeta in RM.
  change (q_u (i_state (mirror_kart_input i))) with (q_u (i_state i)). change (q_v (i_state (mirror_kart_input i))) with (- q_v (i_state i)).
  change (q_omega (i_state (mirror_kart_input i))) with (- q_omega (i_state i)).
  rewrite RM. clear RM. set (r := road_update _ _ _ n alpha _ _ _). cbn [ro_dtime_ds ro_n_dot ro_alpha_dot ro_w ro_position mirror_point fr_e fr_de snd].
  assert (ED : euler_dot (mirror_angles (fr_de p)) (ro_dtime_ds r) = mirror_angles (euler_dot (fr_de p) (ro_dtime_ds r))).
  { unfold euler_dot, mirror_angles; cbn [yaw pitch roll]. f_equal; unfold Rdiv; ring. }
  rewrite ED. change (vz (mirror (ro_position r))) with (vz (ro_position r)). rewrite kart_update_mirror by assumption. reflexivity.
Qed.
Lemma kart_point_image c ci lo hi s p : solves linsolve -> determined (c_body c) (i_state (kp_in p)) -> even_steering c ->
  images kart_order [] kart_extra_order kart_variable_order [false; true] (fun k => k)
    (kart_point_eval sp ss linsolve c ci lo hi s p)
    (kart_point_eval sp ss linsolve (mirror_kart c) (mirror_circuit ci) (mirror_kart_bounds lo hi) (mirror_kart_bounds hi lo) s (mirror_kart_point p)).
Proof.
  intros HS HD HB. unfold kart_point_eval. pose proof (kart_eval_mirror c (kp_in p) (ci_frame ci s) (kp_n p) (kp_alpha p) HS HD HB) as TE.
  pose proof (C141_track_partial sp ss linsolve c (kp_in p) (ci_frame ci s) 0 (kp_n p) (kp_alpha p) HS HD HB) as TR.
  cbn [mirror_circuit mirror_kart_point ci_frame ci_left ci_right kp_in kp_n kp_alpha].
  destruct (kart_track_eval sp ss linsolve c (kp_in p) (ci_frame ci s) (kp_n p) (kp_alpha p)) as [r v].
  destruct (kart_track_eval sp ss linsolve (mirror_kart c) _ _ _ _) as [r' v']. cbn [snd] in TE. subst v'.
  destruct (kart_on_track sp ss linsolve c (kp_in p) (ci_frame ci s) 0 (kp_n p) (kp_alpha p)) as [q dq]. rewrite TR. clear TR r r'.
  unfold kart_extra_bounds, kart_extra_constraints, kart_variables. cbv zeta.
  cbn [mirror_kart_eval n_front n_rear mirror_axle_eval x_left x_right mirror_tire t_lambda t_kappa repeat].
  constructor; cbn [e_dt e_q e_dq e_alg e_extra e_lb e_ub e_x e_xlb e_xub e_u e_int]; try reflexivity.
  all: try (apply onto_check; reflexivity).
  all: try (unfold shuffle, shuffle_low, kart_extra_order, kart_variable_order, sgn, item;
    cbn [map fst snd nth mirror_kart_bounds i_state i_omega q_u q_v q_omega q_z q_dz q_mu q_dmu q_phi q_dphi M_KartCar.i_delta M_KartCar.i_throttle];
    repeat (apply f_equal2; [try reflexivity; ring|]); reflexivity).
  intros k. do 2 (destruct k as [|k]; [reflexivity|]). cbn. destruct k; reflexivity.
Qed.

(** The same for the kart: steering raises one wheel as much as it lowers the other, and the equations of roll, pitch and yaw have one solution at each point. *)
Theorem C151_kart_laps c ci lo hi pts sigma dis restricted closed L : solves linsolve -> even_steering c ->
  Forall (fun p => determined (c_body c) (i_state (kp_in (snd p)))) pts ->
  let lap := kart_lap_points sp ss linsolve c ci lo hi pts in
  let image := kart_lap_points sp ss linsolve (mirror_kart c) (mirror_circuit ci) (mirror_kart_bounds lo hi) (mirror_kart_bounds hi lo) (mirror_kart_points pts) in
  (lap_feasible sigma restricted closed L image <-> lap_feasible sigma restricted closed L lap) /\
  lap_objective sigma dis closed L image = lap_objective sigma dis closed L lap.
Proof.
  intros HS HB HD lap image.
  assert (I : lap_images kart_order [] kart_extra_order kart_variable_order [false; true] (fun k => k) lap image).
  { unfold lap_images, lap, image, kart_lap_points, mirror_kart_points. induction HD as [|p l Hp HD IH]; [constructor|]. cbn [map]. constructor; [|exact IH].
    split; [reflexivity | apply kart_point_image; assumption]. }
  split.
  - pose proof (image_feasible _ _ _ _ _ _ sigma restricted closed L _ _ I) as F.
    assert (E : map (fun q : nat * (R * R) => (fst q, snd q)) restricted = restricted) by (rewrite <- (map_id restricted) at 2; apply map_ext; intros []; reflexivity).
    cbv beta in F. rewrite E in F. exact F.
  - exact (image_objective _ _ _ _ _ _ sigma dis closed L _ _ I).
Qed.

Lemma mirror_kart_point_twice p : mirror_kart_point (mirror_kart_point p) = p.
Proof. destruct p as [[[] ? ? ?] n a]. unfold mirror_kart_point, mirror_kart_input, mirror_state6; cbn. rewrite !Ropp_involutive. reflexivity. Qed.
Lemma mirror_kart_points_twice pts : mirror_kart_points (mirror_kart_points pts) = pts.
Proof.
  unfold mirror_kart_points. rewrite map_map. rewrite <- (map_id pts) at 2. apply map_ext. intros [s p]. cbn [fst snd]. rewrite mirror_kart_point_twice. reflexivity.
Qed.
Lemma kart_lap_ext c ci lo hi lo' hi' pts : (forall s, lo' s = lo s) -> (forall s, hi' s = hi s) ->
  kart_lap_points sp ss linsolve c ci lo' hi' pts = kart_lap_points sp ss linsolve c ci lo hi pts.
Proof. intros El Eh. apply map_ext. intros [s p]. cbn [fst snd]. unfold kart_point_eval. rewrite El, Eh. reflexivity. Qed.

(** The best laps of a symmetric kart without product of inertia. *)
Theorem C151_kart_times c ci lo hi sigma dis restricted closed L mesh T : solves linsolve -> symmetric_kart c -> (forall q, determined (c_body c) q) ->
  (forall s, mirror_kart_bounds lo hi s = lo s) -> (forall s, mirror_kart_bounds hi lo s = hi s) ->
  (attained (kart_lap_points sp ss linsolve c (mirror_circuit ci) lo hi) sigma dis restricted closed L mesh T <->
   attained (kart_lap_points sp ss linsolve c ci lo hi) sigma dis restricted closed L mesh T) /\
  (best (kart_lap_points sp ss linsolve c (mirror_circuit ci) lo hi) sigma dis restricted closed L mesh T <->
   best (kart_lap_points sp ss linsolve c ci lo hi) sigma dis restricted closed L mesh T).
Proof.
  intros HS Sc HD Hl Hh. destruct (symmetric_kart_mirror c Sc) as [Ec HB].
  assert (D : forall pts : list (R * kart_point), Forall (fun p => determined (c_body c) (i_state (kp_in (snd p)))) pts) by (intros; apply Forall_forall; intros; apply HD).
  assert (A : forall T', attained (kart_lap_points sp ss linsolve c (mirror_circuit ci) lo hi) sigma dis restricted closed L mesh T' <->
    attained (kart_lap_points sp ss linsolve c ci lo hi) sigma dis restricted closed L mesh T').
  { intros T'. split; intros (pts & Em & F & O); exists (mirror_kart_points pts); (split; [unfold mirror_kart_points; rewrite map_map; exact Em|]).
    - destruct (C151_kart_laps c ci lo hi (mirror_kart_points pts) sigma dis restricted closed L HS HB (D _)) as [F' O'].
      rewrite mirror_kart_points_twice, Ec, (kart_lap_ext _ _ _ _ _ _ _ Hl Hh) in F', O'. split; [apply F', F | rewrite <- O'; exact O].
    - destruct (C151_kart_laps c ci lo hi pts sigma dis restricted closed L HS HB (D _)) as [F' O'].
      rewrite Ec, (kart_lap_ext _ _ _ _ _ _ _ Hl Hh) in F', O'. split; [apply F', F | rewrite O'; exact O]. }
  split; [apply A|]. unfold best. rewrite A. split; intros [X Y]; (split; [exact X|]); intros T' H; apply Y, A, H.
Qed.
End TheKart.

(** ** C152: another starting line *)
Lemma moved_lap {P} (ev : R -> P -> point_eval) (f : R -> P -> point_eval) d pts : (forall s p, ev (s + d) p = f s p) ->
  map (fun p => (fst p, ev (fst p) (snd p))) (map (fun p => (fst p + d, snd p)) pts) = moved d (map (fun p => (fst p, f (fst p) (snd p))) pts).
Proof. intros E. unfold moved. rewrite !map_map. apply map_ext. intros [s p]. cbn [fst snd]. rewrite E. reflexivity. Qed.

(** For any car: [f] evaluates a point of the circuit, [f'] one of the circuit with its arclength measured from d. *)
Lemma restart_any {P} (f f' : R -> P -> point_eval) L d first second sigma dis :
  (forall s p, f' s p = f (s + d) p) -> (forall s p, f (s + L) p = f s p) -> starts_at 0 first -> starts_at d second ->
  let lap := map (fun p => (fst p, f (fst p) (snd p))) (first ++ second) in
  let again := map (fun p => (fst p, f' (fst p) (snd p))) (restarted L d first second) in
  Permutation (mesh_elements true L again) (mesh_elements true L lap) /\ Permutation (map snd again) (map snd lap) /\
  lap_objective sigma dis true L again = lap_objective sigma dis true L lap.
Proof.
  intros Ef EL H1 H2 lap again. destruct first as [|a l]; [destruct H1|]. destruct second as [|b m]; [destruct H2|]. cbn [starts_at] in H1, H2.
  assert (Ea : again = moved (- d) (map (fun p => (fst p, f (fst p) (snd p))) (b :: m)) ++ moved (L - d) (map (fun p => (fst p, f (fst p) (snd p))) (a :: l))).
  { unfold again, restarted. rewrite map_app. f_equal.
    - apply (moved_lap f' f (- d)). intros s p. rewrite Ef. f_equal. ring.
    - rewrite <- (moved_lap f' f (L - d)); [|intros s p; rewrite Ef; replace (s + (L - d) + d) with (s + L) by ring; apply EL].
      f_equal. apply map_ext. intros [s p]. cbn [fst snd]. f_equal. ring. }
  assert (Pe : Permutation (mesh_elements true L again) (mesh_elements true L lap)).
  { rewrite Ea. unfold lap. rewrite map_app. cbn [map]. apply elements_restarted; assumption. }
  split; [exact Pe|]. split.
  - rewrite Ea. unfold lap. rewrite !map_app. unfold moved. rewrite !map_map. cbn [snd]. apply Permutation_app_comm.
  - unfold lap_objective. apply total_perm, Permutation_map, Pe.
Qed.
Lemma integral_half L k pts : lap_integral (1 / 2) true L k pts =
  total (map (fun e : mesh_element => let '(ds, (l, r)) := e in ds * (1 / 2 * item (e_int l) k + 1 / 2 * item (e_int r) k)) (mesh_elements true L pts)).
Proof.
  unfold lap_integral, mesh_elements. rewrite map_app.
  assert (T : forall a b, total (a ++ b) = total a + total b) by (unfold total; induction a as [|x a IH]; intros b; cbn [app fold_right]; [lra|]; rewrite IH; ring).
  rewrite T. f_equal; f_equal; apply map_ext; intros [ds [l r]]; field.
Qed.
Lemma restart_feasible sigma restricted L again lap :
  Permutation (mesh_elements true L again) (mesh_elements true L lap) -> Permutation (map snd again) (map snd lap) -> sigma = 1 / 2 \/ restricted = [] ->
  (lap_feasible sigma restricted true L again <-> lap_feasible sigma restricted true L lap).
Proof.
  intros Pe Pv HI. unfold lap_feasible.
  assert (A : Forall (element_holds sigma) (mesh_elements true L again) <-> Forall (element_holds sigma) (mesh_elements true L lap)).
  { split; intros F; [apply (Permutation_Forall Pe F) | apply (Permutation_Forall (Permutation_sym Pe) F)]. }
  assert (B : variables_hold true again <-> variables_hold true lap).
  { unfold variables_hold.
    assert (M : forall l : list (R * point_eval), Forall (fun p => bounded (e_xlb (snd p)) (e_x (snd p)) (e_xub (snd p))) l <-> Forall (fun e => bounded (e_xlb e) (e_x e) (e_xub e)) (map snd l)).
    { intros l. rewrite Forall_map. reflexivity. }
    rewrite !M. split; intros F; [apply (Permutation_Forall Pv F) | apply (Permutation_Forall (Permutation_sym Pv) F)]. }
  rewrite A, B. destruct HI as [-> | ->]; [|split; intros (X & Y & _); (split; [exact X|]); (split; [exact Y | constructor])].
  assert (I : forall k, lap_integral (1 / 2) true L k again = lap_integral (1 / 2) true L k lap).
  { intros k. rewrite !integral_half. apply total_perm, Permutation_map, Pe. }
  assert (C : Forall (fun q : nat * (R * R) => fst (snd q) <= lap_integral (1 / 2) true L (fst q) again <= snd (snd q)) restricted <->
              Forall (fun q : nat * (R * R) => fst (snd q) <= lap_integral (1 / 2) true L (fst q) lap <= snd (snd q)) restricted).
  { rewrite !Forall_forall. split; intros F q Hq; specialize (F q Hq); rewrite I in *; exact F. }
  rewrite C. reflexivity.
Qed.

(** A closed lap of the Formula 1 car, seen from another starting line: it satisfies the same constraints and has the same value. The laps on which an integral quantity is
    restricted: only with the trapezoidal rule, sigma = 1/2. *)
Theorem C152_f1_partial sp ss g0 c ci elevated lo hi L d first second sigma dis restricted :
  periodic_circuit L ci -> periodic L lo -> periodic L hi -> starts_at 0 first -> starts_at d second -> sigma = 1 / 2 \/ restricted = [] ->
  let lap := f1_lap sp ss g0 c ci elevated lo hi (first ++ second) in
  let again := f1_lap sp ss g0 c (started_at d ci) elevated (fun s => lo (s + d)) (fun s => hi (s + d)) (restarted L d first second) in
  (lap_feasible sigma restricted true L again <-> lap_feasible sigma restricted true L lap) /\
  lap_objective sigma dis true L again = lap_objective sigma dis true L lap.
Proof.
  intros (P1 & P2 & P3) Pl Ph S1 S2 HI lap again.
  destruct (restart_any (f1_point_eval sp ss g0 c ci elevated lo hi) (f1_point_eval sp ss g0 c (started_at d ci) elevated (fun s => lo (s + d)) (fun s => hi (s + d)))
    L d first second sigma dis) as (A & B & C); [reflexivity | | exact S1 | exact S2 |].
  - intros s p. unfold f1_point_eval. rewrite !P1, !P2, !P3, !Pl, !Ph. reflexivity.
  - split; [apply restart_feasible; assumption | exact C].
Qed.
(** The kart has no integral quantities. *)
Theorem C152_kart sp ss linsolve c ci lo hi L d first second sigma dis :
  periodic_circuit L ci -> periodic L lo -> periodic L hi -> starts_at 0 first -> starts_at d second ->
  let lap := kart_lap_points sp ss linsolve c ci lo hi (first ++ second) in
  let again := kart_lap_points sp ss linsolve c (started_at d ci) (fun s => lo (s + d)) (fun s => hi (s + d)) (restarted L d first second) in
  (lap_feasible sigma [] true L again <-> lap_feasible sigma [] true L lap) /\
  lap_objective sigma dis true L again = lap_objective sigma dis true L lap.
Proof.
  intros (P1 & P2 & P3) Pl Ph S1 S2 lap again.
  destruct (restart_any (kart_point_eval sp ss linsolve c ci lo hi) (kart_point_eval sp ss linsolve c (started_at d ci) (fun s => lo (s + d)) (fun s => hi (s + d)))
    L d first second sigma dis) as (A & B & C); [reflexivity | | exact S1 | exact S2 |].
  - intros s p. unfold kart_point_eval. rewrite !P1, !P2, !P3, !Pl, !Ph. reflexivity.
  - split; [apply restart_feasible; [exact A | exact B | right; reflexivity] | exact C].
Qed.

(** *** A car that glides without drag on a straight circuit, 1 to the right of the centreline *)
Definition gliding_car : f1 :=
  F1 (MkChassis3 660 100 400 450 (V 0 0 0) (V 0 0 0) (1 / 2) 0) (MkAero 0 1 0 (132 / 100) 0 0) (V 2 0 (- (1 / 3))) (V (- (2)) 0 (- (1 / 3)))
     P_F1.coasting_axle P_F1.coasting_axle (Wheel (1 / 3) (even_tyre 1)) (Wheel (1 / 3) (even_tyre 1)) (Wheel (1 / 3) (even_tyre 1)) (Wheel (1 / 3) (even_tyre 1)).
Definition gliding_input (u b : R) : f1_input := F1Input 0 0 0 0 u 0 0 (- (1 / 4)) (- (1 / 4)) (- (1 / 4)) (- (1 / 4)) 0 b 0 (1 / 2).
Definition gliding_eval (u b : R) : f1_eval := plane_eval positive_part same_sign (981 / 100) gliding_car (gliding_input u b) 0.
Lemma gliding_tyres u b : 0 < u -> free_tyre u (v_fl (gliding_eval u b)) /\ free_tyre u (v_fr (gliding_eval u b)) /\
  free_tyre u (v_rl (gliding_eval u b)) /\ free_tyre u (v_rr (gliding_eval u b)).
Proof.
  intros Hu. assert (L : tyre_load positive_part (f_chassis gliding_car) (force_z (981 / 100) gliding_car (- (1 / 4))) = 165 * (981 / 100)).
  { unfold tyre_load, neg_force, force_z, positive_part; cbn. rewrite Rmax_right; lra. }
  unfold gliding_eval, plane_eval, f1_update. rewrite plane_omega. cbv zeta. cbn [v_fl v_fr v_rl v_rr]. cbn [gliding_input i_zfl i_zfr i_zrl i_zrr].
  rewrite L. split; [|split; [|split]]; apply free_at; try exact Hu; cbn; lra.
Qed.
Lemma gliding_air u b : v_Fa (gliding_eval u b) = V 0 0 0.
Proof.
  unfold gliding_eval, plane_eval, f1_update. cbv zeta. cbn [v_Fa]. unfold lift_force, drag_force. set (A := aerodynamic_velocity _ _ _). clearbody A.
  unfold gliding_car; cbn [f_aero ae_rho ae_cd ae_cl ae_A]. apply vec_eq; cbv [vx vy vz vadd vscale]; unfold Rdiv; ring.
Qed.
Lemma gliding_motion u b : 0 < u -> v_F (gliding_eval u b) = V 0 0 0 /\ v_T (gliding_eval u b) = V 0 0 0.
Proof.
  intros Hu. destruct (gliding_tyres u b Hu) as ((F1' & T1' & _) & (F2' & T2' & _) & (F3' & T3' & _) & (F4' & T4' & _)).
  pose proof (gliding_air u b) as Fa0.
  assert (EF : v_F (gliding_eval u b) = total_force3 (axle_force (rot_z 0) (rot_z 0) (v_fl (gliding_eval u b)) (v_fr (gliding_eval u b)))
     (axle_force (rot_z 0) (rot_z 0) (v_rl (gliding_eval u b)) (v_rr (gliding_eval u b))) (v_Fa (gliding_eval u b)) (gravity_force (Euler 0 0 0) 0 660 (981 / 100))) by reflexivity.
  assert (ET : v_T (gliding_eval u b) = total_torque3 (f_chassis gliding_car)
     (V 2 0 (- (1 / 3))) (axle_force (rot_z 0) (rot_z 0) (v_fl (gliding_eval u b)) (v_fr (gliding_eval u b)))
     (axle_torque (rot_z 0) (rot_z 0) (V 0 (- (1 / 2) * (3 / 2)) 0) (V 0 (1 / 2 * (3 / 2)) 0) (v_fl (gliding_eval u b)) (v_fr (gliding_eval u b)))
     (V (- (2)) 0 (- (1 / 3))) (axle_force (rot_z 0) (rot_z 0) (v_rl (gliding_eval u b)) (v_rr (gliding_eval u b)))
     (axle_torque (rot_z 0) (rot_z 0) (V 0 (- (1 / 2) * (3 / 2)) 0) (V 0 (1 / 2 * (3 / 2)) 0) (v_rl (gliding_eval u b)) (v_rr (gliding_eval u b)))
     (v_Fa (gliding_eval u b))) by reflexivity.
  rewrite EF, ET, Fa0. clear EF ET Fa0. unfold axle_force, axle_torque, rot_z. rewrite T1', T2', T3', T4', F1', F2', F3', F4', sin_0, cos_0.
  assert (G : gravity_force (Euler 0 0 0) 0 660 (981 / 100) = V 0 0 (660 * (981 / 100))) by (unfold gravity_force; cbn [pitch roll]; rewrite sin_0, cos_0; f_equal; ring).
  rewrite G. unfold total_force3, total_torque3, contact_force, gliding_car. cbn [f_chassis c_com c_aero_x].
  split; apply vec_eq; cbv [vx vy vz vadd vsub vopp vscale cross mapply col1 col2 col3]; field.
Qed.
Lemma gliding_torques u b : 0 < u -> v_torque_f (gliding_eval u b) = (0, 0) /\ v_torque_r (gliding_eval u b) = (0, 0).
Proof.
  intros Hu. destruct (gliding_tyres u b Hu) as ((_ & _ & _ & O1) & (_ & _ & _ & O2) & (_ & _ & _ & O3) & (_ & _ & _ & O4)).
  assert (E1 : v_torque_f (gliding_eval u b) = axle_torques positive_part same_sign STEERING P_F1.coasting_axle (t_omega (v_fl (gliding_eval u b))) (t_omega (v_fr (gliding_eval u b))) 0 0 (1 / 2)) by reflexivity.
  assert (E2 : v_torque_r (gliding_eval u b) = axle_torques positive_part same_sign POWERED P_F1.coasting_axle (t_omega (v_rl (gliding_eval u b))) (t_omega (v_rr (gliding_eval u b))) 0 b (1 - 1 / 2)) by reflexivity.
  rewrite E1, E2, O1, O2, O3, O4. unfold axle_torques, engine, brake, positive_part. cbn [a_smooth a_engine a_boost_engine a_diff a_Tmax P_F1.coasting_axle max_power e_direct e_only_max e_max_power_kW].
  rewrite Ropp_0, Rmax_left by lra. unfold Rdiv. split; f_equal; ring.
Qed.
Definition straight : circuit := Circuit (fun s => flat_point (V s 0 0) 0 0) (fun _ => 5) (fun _ => 5).
Lemma gliding_track u b r n : 0 < u ->
  snd (track_eval positive_part same_sign (981 / 100) gliding_car (gliding_input u b) (flat_point r 0 0) n 0) = gliding_eval u b /\
  f1_on_track positive_part same_sign (981 / 100) gliding_car (gliding_input u b) (flat_point r 0 0) 0 n 0 =
  (F1Vector 0 0 0 0 u 0 0 0 0 0 0 (V 0 n 0), F1Vector 0 0 0 0 0 0 0 0 0 0 0 (V (/ u) 0 0)).
Proof.
  intros Hu. unfold f1_on_track, track_eval, flat_point; cbn [fr_r fr_e fr_de snd].
  set (o := road_update _ _ _ _ _ _ _ _). assert (K : curvature (Euler 0 0 0) (Euler 0 0 0) = V 0 0 0) by (unfold curvature; cbn; rewrite sin_0, cos_0; f_equal; ring).
  assert (O : ro_dtime_ds o = / u /\ ro_n_dot o = 0 /\ ro_alpha_dot o = 0 /\ ro_w o = 0).
  { unfold o, road_update. cbv zeta. rewrite K. cbn [vx vy vz gliding_input i_u i_v i_yaw ro_dtime_ds ro_n_dot ro_alpha_dot ro_w]. rewrite sin_0, cos_0. repeat split; try (field; lra). all: unfold Rdiv; ring. }
  destruct O as (O1 & O2 & O3 & O4). rewrite O1, O2, O3, O4. clear O1 O2 O3 O4 K.
  assert (E : euler_dot (Euler 0 0 0) (/ u) = Euler 0 0 0) by (unfold euler_dot; cbn; f_equal; unfold Rdiv; ring). rewrite E.
  change (f1_update positive_part same_sign (981 / 100) gliding_car (gliding_input u b) (Euler 0 0 0) (Euler 0 0 0) 0 0 0) with (gliding_eval u b).
  split; [reflexivity|].
  destruct (gliding_tyres u b Hu) as ((F1' & _) & (F2' & _) & (F3' & _) & (F4' & _)). destruct (gliding_torques u b Hu) as [Q1 Q2]. destruct (gliding_motion u b Hu) as [MF MT].
  assert (EM : v_motion (gliding_eval u b) = equations3 (f_chassis gliding_car) (v_F (gliding_eval u b)) (v_T (gliding_eval u b)) u 0 0 (V 0 0 0)).
  { unfold gliding_eval, plane_eval, f1_update. rewrite plane_omega. reflexivity. }
  assert (EB : v_balance (gliding_eval u b) = 0) by (unfold gliding_eval, plane_eval, f1_update, roll_balance; cbn; ring).
  rewrite MF, MT in EM. unfold f1_states, f1_rates, scaled. cbn [y_fl y_fr y_rl y_rr M_F1.y_u M_F1.y_v M_F1.y_yaw y_w y_roll y_pitch y_balance M_F1.y_road].
  rewrite EM, EB, Q1, Q2. unfold wheel_momentum_rate, wheel_torque. rewrite F1', F2', F3', F4'. clear EM EB Q1 Q2 MF MT.
  unfold equations3, gliding_car. cbn [f_chassis f_front f_rear f_fl f_fr f_rl f_rr w_R0 c_mass c_com c_Ixx c_Iyy c_Izz mo_v mo_a mo_yaw_acceleration mo_roll_rate mo_pitch_rate mo_roll_momentum mo_pitch_momentum
    vx vy vz fst snd gliding_input i_u i_v i_yaw vscale P_F1.coasting_axle a_I].
  generalize (t_omega (v_fl (gliding_eval u b))) (t_omega (v_fr (gliding_eval u b))) (t_omega (v_rl (gliding_eval u b))) (t_omega (v_rr (gliding_eval u b))).
  match goal with |- context [wheel_scaling ?a ?m] => generalize (wheel_scaling a m) end. intros k o1 o2 o3 o4.
  unfold vscale; cbn [vx vy vz]. apply f_equal2; apply vector_eq; try (apply vec_eq; cbn [vx vy vz]; field; lra); try (field; lra).
Qed.
Definition gliding_low (s : R) : f1_input * R :=
  (F1Input (- (1)) (- (1)) (- (1)) (- (1)) 10 (- (1)) (- (1)) (- (1)) (- (1)) (- (1)) (- (1)) (- (1)) 0 (- (1)) (1 / 2), - (1)).
Definition gliding_high (s : R) : f1_input * R := (F1Input 1 1 1 1 80 1 1 0 0 0 0 1 1 1 (1 / 2), 1).
Definition gliding_point (u b : R) : f1_point := F1Point (gliding_input u b) 1 0.
Lemma even_slip_limit : slip_limit (even_tyre 1) 660 (981 / 100) = 9 * DEG.
Proof. unfold slip_limit, maximum_lambda, q_lambda_max1, q_lambda_max2; cbn. rewrite Rmax_left; [field|]. apply Req_le. field. Qed.
Lemma bounded_cons a x b lb l ub : bounded (a :: lb) (x :: l) (b :: ub) <-> a <= x <= b /\ bounded lb l ub.
Proof.
  unfold bounded. cbn [length]. split.
  - intros (E1 & E2 & H). split; [apply (H 0%nat); lia|]. split; [lia|]. split; [lia|]. intros k Hk. apply (H (S k)). lia.
  - intros (H0 & E1 & E2 & H). split; [lia|]. split; [lia|]. intros [|k] Hk; [exact H0|]. apply (H k). lia.
Qed.
Lemma bounded_nil : bounded [] [] []. Proof. split; [reflexivity|]. split; [reflexivity|]. intros k Hk. inversion Hk. Qed.

Lemma gliding_evaluation u b s : 10 <= u <= 80 -> 0 <= b <= 1 ->
  let e := f1_point_eval positive_part same_sign (981 / 100) gliding_car straight false gliding_low gliding_high s (gliding_point u b) in
  e_dt e = / u /\ e_q e = [0; 0; 0; 0; u; 0; 0; 1; 0] /\ e_dq e = [0; 0; 0; 0; 0; 0; 0; 0; 0] /\ e_alg e = [0; 0; 0; 0] /\
  bounded (e_lb e) (e_extra e) (e_ub e) /\ bounded (e_xlb e) (e_x e) (e_xub e) /\ e_u e = [0; b; 0; 1 / 2] /\ item (e_int e) 5 = / u * b.
Proof.
  intros Hu Hb. assert (Pu : 0 < u) by lra. destruct (gliding_track u b (V s 0 0) 1 Pu) as [TV TR]. destruct (gliding_tyres u b Pu) as (T1 & T2 & T3 & T4).
  cbv zeta. unfold f1_point_eval, gliding_point. cbn [fp_in fp_n fp_alpha straight ci_frame ci_left ci_right].
  destruct (track_eval _ _ _ _ _ _ _ _) as [r v] eqn:Ev. cbn [snd] in TV. subst v.
  pose proof TR as TR'. unfold f1_on_track in TR'. rewrite TR. clear TR TR'. unfold f1_extra_bounds, f1_extra_constraints, f1_variables, f1_integrands. cbv zeta.
  change (w_model (f_fl gliding_car)) with (even_tyre 1). change (w_model (f_fr gliding_car)) with (even_tyre 1). change (w_model (f_rl gliding_car)) with (even_tyre 1).
  change (w_model (f_rr gliding_car)) with (even_tyre 1). change (c_mass (f_chassis gliding_car)) with 660. rewrite even_slip_limit.
  cbn [e_dt e_q e_dq e_alg e_extra e_lb e_ub e_x e_xlb e_xub e_u e_int].
  assert (LL : forall o Fz, t_lambda (tyre_at positive_part (Wheel (1 / 3) (even_tyre 1)) o 0 (V u 0 0) (V 0 0 0) Fz 0) = 0).
  { intros o Fz. unfold tyre_at, tire_update_from_kappa, tire_forces; cbn [t_lambda w_R0 w_model].
    assert (Ev' : tyre_velocity (1 / 3) o 0 (V u 0 0) (V 0 0 0) = V u 0 0) by (unfold tyre_velocity, rot_z; rewrite sin_0, cos_0; destruct o; vring).
    rewrite Ev'. unfold slip_lambda; cbn. field. lra. }
  assert (L1 : t_lambda (v_fl (gliding_eval u b)) = 0) by (unfold gliding_eval, plane_eval, f1_update; rewrite plane_omega; apply LL).
  assert (L2 : t_lambda (v_fr (gliding_eval u b)) = 0) by (unfold gliding_eval, plane_eval, f1_update; rewrite plane_omega; apply LL).
  assert (L3 : t_lambda (v_rl (gliding_eval u b)) = 0) by (unfold gliding_eval, plane_eval, f1_update; rewrite plane_omega; apply LL).
  assert (L4 : t_lambda (v_rr (gliding_eval u b)) = 0) by (unfold gliding_eval, plane_eval, f1_update; rewrite plane_omega; apply LL).
  rewrite L1, L2, L3, L4, cos_0. pose proof PI_RGT_0. assert (0 < DEG) by (unfold DEG; lra).
  split; [reflexivity|]. split; [reflexivity|]. split; [reflexivity|]. split; [reflexivity|].
  split. { change (a_track (f_front gliding_car)) with (3 / 2). repeat (apply bounded_cons; split; [lra|]). apply bounded_nil. }
  split. { unfold gliding_low, gliding_high, gliding_input; cbn. repeat (apply bounded_cons; split; [lra|]). apply bounded_nil. }
  split; [reflexivity|]. reflexivity.
Qed.

(** Two points of a circuit of length 100, the boost on at the second. *)
Definition gliding_lap : list (R * point_eval) :=
  f1_lap positive_part same_sign (981 / 100) gliding_car straight false gliding_low gliding_high [(0, gliding_point 50 0); (40, gliding_point 50 1)].
Lemma gliding_elements l r ds sigma : 
  e_dt r = / 50 -> e_q l = [0; 0; 0; 0; 50; 0; 0; 1; 0] -> e_dq l = [0; 0; 0; 0; 0; 0; 0; 0; 0] -> e_q r = [0; 0; 0; 0; 50; 0; 0; 1; 0] -> e_dq r = [0; 0; 0; 0; 0; 0; 0; 0; 0] -> e_alg r = [0; 0; 0; 0] ->
  bounded (e_lb r) (e_extra r) (e_ub r) -> element_holds sigma (ds, (l, r)).
Proof.
  intros E0 E1 E2 E3 E4 E5 B. unfold element_holds, residuals, algebraic_residuals. cbn [snd]. rewrite E0, E1, E2, E3, E4, E5. cbn [length seq map]. unfold item; cbn [nth].
  split; [repeat (constructor; [ring|]); constructor|]. split; [|exact B]. repeat (constructor; [unfold Rdiv; ring|]). constructor.
Qed.
Lemma gliding_holds sigma restricted : 
  Forall (fun q => fst (snd q) <= lap_integral sigma true 100 (fst q) gliding_lap <= snd (snd q)) restricted -> lap_feasible sigma restricted true 100 gliding_lap.
Proof.
  intros HR. destruct (gliding_evaluation 50 0 0 ltac:(lra) ltac:(lra)) as (A1 & A2 & A3 & A4 & A5 & A6 & A7 & A8).
  destruct (gliding_evaluation 50 1 40 ltac:(lra) ltac:(lra)) as (B1 & B2 & B3 & B4 & B5 & B6 & B7 & B8).
  unfold lap_feasible. split; [|split; [|exact HR]].
  - unfold gliding_lap, f1_lap. cbn [map fst snd]. unfold mesh_elements. cbn [inner_elements closing_element app last fst snd].
    constructor; [|constructor; [|constructor]]; apply gliding_elements; assumption.
  - unfold variables_hold, gliding_lap, f1_lap. cbn [map fst snd]. constructor; [exact A6|]. constructor; [exact B6 | constructor].
Qed.
(** The bounds and the car are the same to both sides; the lap is not: on the image the car drives 1 to the left. *)
Example C151_case : symmetric gliding_car /\ (forall s, mirror_f1_bounds gliding_low gliding_high s = gliding_low s) /\ (forall s, mirror_f1_bounds gliding_high gliding_low s = gliding_high s) /\
  lap_feasible (1 / 2) [(5%nat, (0, 1))] true 100 gliding_lap /\ lap_objective (1 / 2) [0; 12; 0; 0] true 100 gliding_lap = 5 / 2 /\
  fp_n (snd (nth 0 (mirror_f1_lap [(0, gliding_point 50 0); (40, gliding_point 50 1)]) (0, gliding_point 50 0))) = - (1).
Proof.
  split; [unfold symmetric; cbn; repeat split; reflexivity|].
  split; [intros s; unfold mirror_f1_bounds, gliding_low, gliding_high; cbn; f_equal; f_equal; lra|].
  split; [intros s; unfold mirror_f1_bounds, gliding_low, gliding_high; cbn; f_equal; [f_equal; lra | lra]|].
  destruct (gliding_evaluation 50 0 0 ltac:(lra) ltac:(lra)) as (A1 & A2 & A3 & A4 & A5 & A6 & A7 & A8).
  destruct (gliding_evaluation 50 1 40 ltac:(lra) ltac:(lra)) as (B1 & B2 & B3 & B4 & B5 & B6 & B7 & B8).
  split; [|split; [|reflexivity]].
  - apply gliding_holds. constructor; [|constructor]. unfold lap_integral, gliding_lap, f1_lap. cbn [map fst snd inner_elements closing_element last].
    unfold total; cbn [fold_right]. rewrite A8, B8. lra.
  - unfold lap_objective, mesh_elements, gliding_lap, f1_lap. cbn [map fst snd inner_elements closing_element last app].
    unfold element_cost, total; cbn [length seq map fold_right]. rewrite A1, B1, A7, B7. unfold item; cbn [nth]. field.
Qed.
(** With another rule than the trapezoidal one the starting line matters: with sigma = 0 the lap never boosts as it is, and seen from its other point it does all the
    time, so that a limit of the boost accepts one and rejects the other. *)
Theorem C152_restricted_refuted : exists c ci lo hi L d first second sigma restricted, 0 <= sigma <= 1 /\
  periodic_circuit L ci /\ periodic L lo /\ periodic L hi /\ starts_at 0 first /\ starts_at d second /\
  lap_feasible sigma restricted true L (f1_lap positive_part same_sign (981 / 100) c ci false lo hi (first ++ second)) /\
  ~ lap_feasible sigma restricted true L (f1_lap positive_part same_sign (981 / 100) c (started_at d ci) false (fun s => lo (s + d)) (fun s => hi (s + d)) (restarted L d first second)).
Proof.
  set (flat := Circuit (fun _ => flat_point (V 0 0 0) 0 0) (fun _ => 5) (fun _ => 5)).
  assert (Same : forall s u b, f1_point_eval positive_part same_sign (981 / 100) gliding_car flat false gliding_low gliding_high s (gliding_point u b) =
    f1_point_eval positive_part same_sign (981 / 100) gliding_car straight false gliding_low gliding_high 0 (gliding_point u b)) by reflexivity.
  exists gliding_car, flat, gliding_low, gliding_high, 100, 40, [(0, gliding_point 50 0)], [(40, gliding_point 50 1)], 0, [(5%nat, (0, 1))].
  split; [lra|]. split; [repeat split|]. split; [intros s; reflexivity|]. split; [intros s; reflexivity|]. split; [reflexivity|]. split; [reflexivity|].
  destruct (gliding_evaluation 50 0 0 ltac:(lra) ltac:(lra)) as (A1 & A2 & A3 & A4 & A5 & A6 & A7 & A8).
  destruct (gliding_evaluation 50 1 0 ltac:(lra) ltac:(lra)) as (B1 & B2 & B3 & B4 & B5 & B6 & B7 & B8).
  split.
  - unfold lap_feasible, f1_lap. cbn [app map fst snd]. rewrite !Same. split; [|split].
    + unfold mesh_elements. cbn [inner_elements closing_element app last fst snd]. constructor; [|constructor; [|constructor]]; apply gliding_elements; assumption.
    + unfold variables_hold. constructor; [exact A6|]. constructor; [exact B6 | constructor].
    + constructor; [|constructor]. cbn [fst snd]. unfold lap_integral. cbn [map fst snd inner_elements closing_element last]. unfold total; cbn [fold_right]. rewrite A8, B8. lra.
  - intros (_ & _ & H). inversion H as [|q l H1 H2]. subst. clear H H2. cbn [fst snd] in H1. revert H1. unfold restarted, f1_lap. cbn [app map fst snd].
    assert (Again : forall s b, f1_point_eval positive_part same_sign (981 / 100) gliding_car (started_at 40 flat) false (fun s => gliding_low (s + 40)) (fun s => gliding_high (s + 40)) s (gliding_point 50 b) =
      f1_point_eval positive_part same_sign (981 / 100) gliding_car straight false gliding_low gliding_high 0 (gliding_point 50 b)) by reflexivity.
    rewrite !Again. unfold lap_integral. cbn [map fst snd inner_elements closing_element last]. unfold total; cbn [fold_right]. rewrite A8, B8. lra.
Qed.

(** *** The coasting kart of C141, 1 to the left of the centreline of the same circuit *)
Lemma kart_straight_eval c u omega delta thr b r n : 
  let i := KartInput (MkState6 u 0 0 b 0 0 0 0 0) omega delta thr in 0 < u ->
  snd (kart_track_eval positive_part same_sign cramer c i (flat_point r 0 0) n 0) = kart_update positive_part same_sign cramer c i (vz r) (Euler 0 0 0) (Euler 0 0 0) 0 0 0 /\
  kart_on_track positive_part same_sign cramer c i (flat_point r 0 0) 0 n 0 =
  (kart_states i (V 0 n 0), kart_scaled (/ u) (kart_rates i (kart_update positive_part same_sign cramer c i (vz r) (Euler 0 0 0) (Euler 0 0 0) 0 0 0) (V 1 0 0))).
Proof.
  intros i Hu. unfold kart_on_track, kart_track_eval, flat_point; cbn [fr_r fr_e fr_de snd]. change (q_u (i_state i)) with u. change (q_v (i_state i)) with 0. change (q_omega (i_state i)) with 0.
  set (o := road_update _ _ _ _ _ _ _ _). assert (K : curvature (Euler 0 0 0) (Euler 0 0 0) = V 0 0 0) by (unfold curvature; cbn; rewrite sin_0, cos_0; f_equal; ring).
  assert (O : ro_dtime_ds o = / u /\ ro_n_dot o = 0 /\ ro_alpha_dot o = 0 /\ ro_w o = 0 /\ vz (ro_position o) = vz r).
  { unfold o, road_update. cbv zeta. rewrite K. unfold normal. cbn [vx vy vz vadd vscale ro_dtime_ds ro_n_dot ro_alpha_dot ro_w ro_position yaw pitch roll]. rewrite sin_0, cos_0.
    repeat split; try (field; lra); unfold Rdiv; try ring. }
  destruct O as (O1 & O2 & O3 & O4 & O5). rewrite O1, O2, O3, O4, O5.
  assert (E : euler_dot (Euler 0 0 0) (/ u) = Euler 0 0 0) by (unfold euler_dot; cbn; f_equal; unfold Rdiv; ring). rewrite E. split; reflexivity.
Qed.
Definition kart_low (s : R) : kart_input * R := (KartInput (MkState6 5 (- (1)) (- (1)) 0 (- (1)) (- (1)) (- (1)) (- (1)) (- (1))) 0 (- (1)) (- (1)), - (1)).
Definition kart_high (s : R) : kart_input * R := (KartInput (MkState6 20 1 1 1 1 1 1 1 1) 200 1 1, 1).
Definition coasting_point : kart_point := KartPoint (coasting 0) (- (1)) 0.
Definition level : circuit := Circuit (fun _ => flat_point (V 0 0 0) 0 0) (fun _ => 5) (fun _ => 5).
Example C151_kart_case : let c := square_kart grippy (1 / 10) (- (1 / 20)) (1 / 20) in
  let pts := [(0, coasting_point); (40, coasting_point)] in
  solves cramer /\ even_steering c /\ Forall (fun p => determined (c_body c) (i_state (kp_in (snd p)))) pts /\
  lap_feasible (1 / 2) [] true 100 (kart_lap_points positive_part same_sign cramer c level kart_low kart_high pts) /\
  lap_objective (1 / 2) [1; 1] true 100 (kart_lap_points positive_part same_sign cramer c level kart_low kart_high pts) = 10.
Proof.
  intros c pts. split; [exact cramer_solves|]. split; [unfold even_steering; cbn; lra|].
  split; [repeat constructor; cbn; lra|].
  assert (E : forall s, let e := kart_point_eval positive_part same_sign cramer c level kart_low kart_high s coasting_point in
    e_dt e = / 10 /\ e_q e = [10; 0; 0; 1 / 20; 0; 0; 0; 0; 0; 80; - (1); 0] /\ e_dq e = [0; 0; 0; 0; 0; 0; 0; 0; 0; 0; 0; 0] /\ e_alg e = [] /\
    bounded (e_lb e) (e_extra e) (e_ub e) /\ bounded (e_xlb e) (e_x e) (e_xub e) /\ e_u e = [0; 0]).
  { intros s. destruct (kart_straight_eval c 10 80 0 0 (1 / 20) (V 0 0 0) (- (1)) ltac:(lra)) as [TV TR].
    change (KartInput (MkState6 10 0 0 (1 / 20) 0 0 0 0 0) 80 0 0) with (coasting 0) in TV, TR. cbn [vz] in TV, TR.
    change (kart_update positive_part same_sign cramer c (coasting 0) 0 (Euler 0 0 0) (Euler 0 0 0) 0 0 0) with (kart_plane_eval positive_part same_sign cramer c (coasting 0) 0) in TV, TR.
    destruct (coasting_rates grippy) as (E1 & E2 & E3 & E4 & E5 & E6 & E7 & E8 & E9 & E10). fold c in E1, E2, E3, E4, E5, E6, E7, E8, E9, E10.
    destruct (C142_slips positive_part same_sign cramer c (coasting 0) 0) as (S1 & S2 & S3 & S4).
    cbv zeta. unfold kart_point_eval, coasting_point. cbn [kp_in kp_n kp_alpha level ci_frame ci_left ci_right].
    destruct (kart_track_eval _ _ _ _ _ _ _ _) as [r v] eqn:Ev. cbn [snd] in TV. subst v. rewrite TR. clear TR Ev. cbv zeta.
    unfold kart_on_plane, cartesian_update in E1, E2, E3, E4, E5, E6, E7, E8, E9, E10.
    cbn [snd kart_scaled kart_rates M_KartCar.y_u M_KartCar.y_v M_KartCar.y_yaw y_z y_phi y_mu y_dz y_dphi y_dmu y_omega] in E1, E2, E3, E4, E5, E6, E7, E8, E9, E10.
    set (v := kart_plane_eval positive_part same_sign cramer c (coasting 0) 0) in *.
    cbn [e_dt e_q e_dq e_alg e_extra e_lb e_ub e_x e_xlb e_xub e_u e_int kart_extra_bounds].
    unfold kart_integrated, kart_scaled, kart_rates, kart_states. cbn [M_KartCar.y_u M_KartCar.y_v M_KartCar.y_yaw y_z y_phi y_mu y_dz y_dphi y_dmu y_omega M_KartCar.y_road vx vy vz vscale].
    rewrite Rmult_1_r in E1, E2, E3, E7, E8, E9, E10. rewrite E1, E2, E3, E7, E8, E9, E10. cbn [coasting i_state q_dz q_dphi q_dmu].
    split; [ring|]. split; [reflexivity|]. split; [rewrite !Rmult_0_l, !Rmult_0_r; reflexivity|]. split; [reflexivity|].
    split; [|split; [|reflexivity]].
    2: { unfold kart_low, kart_high, kart_variables, coasting; cbn. repeat (apply bounded_cons; split; [lra|]). apply bounded_nil. }
    assert (Zv : forall p, mtapply (rot_z 0) (vadd (V (q_u (i_state (coasting 0))) (q_v (i_state (coasting 0))) 0) (cross (V 0 0 (q_omega (i_state (coasting 0)))) p)) = V 10 0 0).
    { intros p. unfold rot_z. rewrite sin_0, cos_0. destruct p as [p1 p2 p3]. apply vec_eq; cbv [vx vy vz mtapply dot vadd cross col1 col2 col3 coasting i_state q_u q_v q_omega]; ring. }
    assert (Z : forall p t om w, rolls_at (i_state (coasting 0)) t p 0 om w -> t_lambda w = 0).
    { intros p t om w H. unfold rolls_at in H. rewrite Zv in H. destruct H as (_ & _ & _ & _ & Lw & _). rewrite Lw. cbn. field. }
    assert (Zk : forall p t w, k_type t = NORMAL -> k_R0 t = 1 / 8 -> rolls_at (i_state (coasting 0)) t p 0 80 w -> t_kappa w = 0).
    { intros p t w Ht Hr H. unfold rolls_at in H. rewrite Zv in H. destruct H as (_ & _ & Ow & Kw & _). rewrite Kw, Ow, Ht, Hr. cbn. field. }
    unfold kart_extra_constraints. rewrite (Z _ _ _ _ S1), (Z _ _ _ _ S2), (Z _ _ _ _ S3), (Z _ _ _ _ S4), (Zk _ (c_tr c) _ eq_refl eq_refl S3), (Zk _ (c_tr c) _ eq_refl eq_refl S4).
    cbn [repeat]. repeat (apply bounded_cons; split; [lra|]). apply bounded_nil. }
  destruct (E 0) as (A1 & A2 & A3 & A4 & A5 & A6 & A7). destruct (E 40) as (B1 & B2 & B3 & B4 & B5 & B6 & B7).
  assert (El : forall l r ds, e_q l = [10; 0; 0; 1 / 20; 0; 0; 0; 0; 0; 80; - (1); 0] -> e_q r = [10; 0; 0; 1 / 20; 0; 0; 0; 0; 0; 80; - (1); 0] ->
    e_dq l = [0; 0; 0; 0; 0; 0; 0; 0; 0; 0; 0; 0] -> e_dq r = [0; 0; 0; 0; 0; 0; 0; 0; 0; 0; 0; 0] -> e_alg r = [] -> bounded (e_lb r) (e_extra r) (e_ub r) -> element_holds (1 / 2) (ds, (l, r))).
  { intros l r ds X1 X2 X3 X4 X5 B. unfold element_holds, residuals, algebraic_residuals. cbn [snd]. rewrite X1, X2, X3, X4, X5. cbn [length seq map]. unfold item; cbn [nth].
    split; [repeat (constructor; [ring|]); constructor|]. split; [constructor | exact B]. }
  unfold pts, kart_lap_points. cbn [map fst snd]. split.
  - split; [|split; [|constructor]].
    + unfold mesh_elements. cbn [inner_elements closing_element app last fst snd]. constructor; [|constructor; [|constructor]]; apply El; assumption.
    + unfold variables_hold. constructor; [exact A6|]. constructor; [exact B6 | constructor].
  - unfold lap_objective, mesh_elements. cbn [map fst snd inner_elements closing_element last app].
    unfold element_cost, total; cbn [length seq map fold_right]. rewrite A1, B1, A7, B7. unfold item; cbn [nth]. field.
Qed.
(** A kart without product of inertia. *)
Example C151_kart_times_case m : let c := square_kart m 0 (- (1 / 20)) (1 / 20) in
  symmetric_kart c /\ (forall q, determined (c_body c) q) /\ (forall s, mirror_kart_bounds kart_low kart_high s = kart_low s) /\ (forall s, mirror_kart_bounds kart_high kart_low s = kart_high s).
Proof.
  intros c. split; [unfold symmetric_kart; cbn; repeat split; lra|]. split; [intros q; unfold determined; cbn; split; lra|].
  split; intros s; unfold mirror_kart_bounds, kart_low, kart_high; cbn; repeat f_equal; lra.
Qed.

Print Assumptions C151_laps.
Print Assumptions C151_times.
Print Assumptions C151_best.
Print Assumptions C151_kart_laps.
Print Assumptions C151_kart_times.
Print Assumptions C152_f1_partial.
Print Assumptions C152_kart.
Print Assumptions C152_restricted_refuted.
