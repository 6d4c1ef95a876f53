(** Property theorem C155: fewer restrictions never make the best lap slower. *)
From Coq Require Import Reals Lra Lia List Sorted.
From Verif Require Import M_Vec M_Tire M_Car M_Road M_F1 M_Kart6 M_KartCar M_Feasible M_RealLap M_RateLap S_F1 S_KartCar S_RealLap S_LapLimits S_RateLap S_Freedom L_F1 L_RealLap P_Tire P_Car P_F1 P_KartCar P_KartGrip P_RealLap P_LapLimits P_RateLap.
Import ListNotations.
Local Open Scope R_scope.

(** ** Any car *)
(** The same evaluation with wider bounds. *)
Definition le_items (a b : list R) : Prop := length a = length b /\ forall k, item a k <= item b k.
Record relaxed (e e' : point_eval) : Prop := Relaxed {
  rl_dt : e_dt e' = e_dt e; rl_q : e_q e' = e_q e; rl_dq : e_dq e' = e_dq e; rl_alg : e_alg e' = e_alg e; rl_extra : e_extra e' = e_extra e;
  rl_x : e_x e' = e_x e; rl_u : e_u e' = e_u e; rl_int : e_int e' = e_int e;
  rl_lb : le_items (e_lb e') (e_lb e); rl_ub : le_items (e_ub e) (e_ub e'); rl_xlb : le_items (e_xlb e') (e_xlb e); rl_xub : le_items (e_xub e) (e_xub e') }.
Lemma bounded_wider lb x ub lb' ub' : le_items lb' lb -> le_items ub ub' -> bounded lb x ub -> bounded lb' x ub'.
Proof.
  intros [El Hl] [Eu Hu] (E1 & E2 & H). split; [lia|]. split; [lia|]. intros k Hk. specialize (H k Hk). specialize (Hl k). specialize (Hu k). lra.
Qed.
Lemma le_items_cons a b l m : a <= b -> le_items l m -> le_items (a :: l) (b :: m).
Proof. intros H [E F]. split; [cbn; lia|]. intros [|k]; [exact H | exact (F k)]. Qed.
Lemma le_items_refl l : le_items l l.
Proof. split; [reflexivity|]. intros k. lra. Qed.
Definition lap_relaxed : list (R * point_eval) -> list (R * point_eval) -> Prop := Forall2 (fun a b => fst b = fst a /\ relaxed (snd a) (snd b)).
Lemma relaxed_holds sigma ds l r l' r' : relaxed l l' -> relaxed r r' -> element_holds sigma (ds, (l, r)) -> element_holds sigma (ds, (l', r')).
Proof.
  intros [] []. unfold element_holds, residuals, algebraic_residuals. cbn [snd]. intros (A & B & C).
  repeat match goal with H : ?f ?x = _ |- _ => rewrite H; clear H end. split; [exact A|]. split; [exact B|]. apply (bounded_wider (e_lb r) _ (e_ub r)); assumption.
Qed.
Lemma inner_relaxed (Q : mesh_element -> mesh_element -> Prop) : (forall ds l r l' r', relaxed l l' -> relaxed r r' -> Q (ds, (l, r)) (ds, (l', r'))) ->
  forall p p', lap_relaxed p p' -> Forall2 Q (inner_elements p) (inner_elements p').
Proof.
  intros HQ p p' H. induction H as [|a a' l l' [E I] H IH]; [constructor|]. destruct H as [|b b' l l' [E' I'] H]; [constructor|].
  cbn [inner_elements]. constructor; [|exact IH]. rewrite E, E'. apply HQ; assumption.
Qed.
Lemma closing_relaxed (Q : mesh_element -> mesh_element -> Prop) : (forall ds l r l' r', relaxed l l' -> relaxed r r' -> Q (ds, (l, r)) (ds, (l', r'))) ->
  forall L p p', lap_relaxed p p' -> Forall2 Q (closing_element L p) (closing_element L p').
Proof.
  intros HQ L p p' H. pose proof H as H'. destruct H as [|a a' l l' A H]; [constructor|]. unfold closing_element. cbv zeta.
  assert (X : forall m m' b b', lap_relaxed m m' -> fst b' = fst b /\ relaxed (snd b) (snd b') -> fst (last m' b') = fst (last m b) /\ relaxed (snd (last m b)) (snd (last m' b'))).
  { intros m m' b b' M. revert b b'. induction M as [|x x' m m' B M IH]; intros b b' Hb; [exact Hb|]. destruct M as [|y y' m m' C M]; [exact B|]. exact (IH b b' Hb). }
  destruct (X _ _ a a' H' A) as [E I]. constructor; [|constructor]. rewrite E. apply HQ; [exact I | exact (proj2 A)].
Qed.
Lemma total_le {A} (f g : A -> R) (Q : A -> A -> Prop) l l' : (forall a b, Q a b -> g b <= f a) -> Forall2 Q l l' -> total (map g l') <= total (map f l).
Proof. intros H F. induction F as [|a b l l' Hab F IH]; [cbn; lra|]. cbn [map]. rewrite !total_cons. specialize (H a b Hab). lra. Qed.
Lemma total_eq {A} (f g : A -> R) (Q : A -> A -> Prop) l l' : (forall a b, Q a b -> g b = f a) -> Forall2 Q l l' -> total (map g l') = total (map f l).
Proof. intros H F. induction F as [|a b l l' Hab F IH]; [reflexivity|]. cbn [map]. rewrite !total_cons, IH, (H a b Hab). reflexivity. Qed.
Lemma relaxed_integral sigma closed L k p p' : lap_relaxed p p' -> lap_integral sigma closed L k p' = lap_integral sigma closed L k p.
Proof.
  intros H. unfold lap_integral. f_equal; [|destruct closed; [|reflexivity]].
  - apply (total_eq _ _ (fun a b => exists ds l r l' r', a = (ds, (l, r)) /\ b = (ds, (l', r')) /\ relaxed l l' /\ relaxed r r')).
    + intros a b (ds & l & r & l' & r' & -> & -> & Hl & Hr). rewrite (rl_int _ _ Hl), (rl_int _ _ Hr). reflexivity.
    + apply inner_relaxed; [|exact H]. intros ds l r l' r' Hl Hr. exists ds, l, r, l', r'. auto.
  - apply (total_eq _ _ (fun a b => exists ds l r l' r', a = (ds, (l, r)) /\ b = (ds, (l', r')) /\ relaxed l l' /\ relaxed r r')).
    + intros a b (ds & l & r & l' & r' & -> & -> & Hl & Hr). rewrite (rl_int _ _ Hl), (rl_int _ _ Hr). reflexivity.
    + apply closing_relaxed; [|exact H]. intros ds l r l' r' Hl Hr. exists ds, l, r, l', r'. auto.
Qed.
Lemma relaxed_feasible sigma restricted left closed L p p' : lap_relaxed p p' -> fewer_limits restricted left ->
  lap_feasible sigma restricted closed L p -> lap_feasible sigma left closed L p'.
Proof.
  intros H HL (A & B & C). split; [|split].
  - assert (F : Forall2 (fun a b : mesh_element => element_holds sigma a -> element_holds sigma b) (mesh_elements closed L p) (mesh_elements closed L p')).
    { apply Forall2_app; [apply inner_relaxed; [intros; eapply relaxed_holds; eassumption | exact H]|].
      destruct closed; [apply closing_relaxed; [intros; eapply relaxed_holds; eassumption | exact H] | constructor]. }
    revert A. induction F as [|a b l l' Hab F IH]; intros A; [constructor|]. constructor; [apply Hab, (Forall_inv A) | apply IH, (Forall_inv_tail A)].
  - unfold variables_hold in *.
    assert (G : forall m m', lap_relaxed m m' -> Forall (fun q => bounded (e_xlb (snd q)) (e_x (snd q)) (e_xub (snd q))) m -> Forall (fun q => bounded (e_xlb (snd q)) (e_x (snd q)) (e_xub (snd q))) m').
    { intros m m' M. induction M as [|x x' m m' [_ X] M IH]; intros F; [constructor|]. constructor; [|apply IH, (Forall_inv_tail F)].
      rewrite (rl_x _ _ X). apply (bounded_wider _ _ _ _ _ (rl_xlb _ _ X) (rl_xub _ _ X) (Forall_inv F)). }
    destruct closed; [apply (G _ _ H B)|]. destruct H as [|a a' l l' _ H]; [constructor|]. exact (G _ _ H B).
  - rewrite Forall_forall in C |- *. intros [k [a b]] Hk. destruct (HL k a b Hk) as (a' & b' & Hin & Ha & Hb). specialize (C _ Hin). cbn [fst snd] in *. rewrite (relaxed_integral sigma closed L k p p' H). lra.
Qed.
Lemma relaxed_objective sigma dis low closed L p p' : lap_relaxed p p' -> lower_dissipations dis low -> rising closed L p ->
  lap_objective sigma low closed L p' <= lap_objective sigma dis closed L p.
Proof.
  intros H [El HD] Ri.
  assert (F : Forall (fun e : mesh_element => 0 < fst e) (mesh_elements closed L p)).
  { rewrite mesh_closed_up. unfold rising in Ri. induction (closed_up closed L p) as [|a l IH]; [constructor|]. destruct l as [|b l]; [constructor|].
    change (inner_elements (a :: b :: l)) with ((fst b - fst a, (snd a, snd b)) :: inner_elements (b :: l)). inversion Ri as [|? ? S G]; subst. constructor; [|apply IH, S].
    apply Forall_inv in G. cbn [fst]. lra. }
  assert (G : Forall2 (fun a b : mesh_element => fst b = fst a /\ e_dt (fst (snd b)) = e_dt (fst (snd a)) /\ e_dt (snd (snd b)) = e_dt (snd (snd a)) /\ e_u (fst (snd b)) = e_u (fst (snd a)) /\ e_u (snd (snd b)) = e_u (snd (snd a)))
    (mesh_elements closed L p) (mesh_elements closed L p')).
  { apply Forall2_app; [apply inner_relaxed; [|exact H] | destruct closed; [apply closing_relaxed; [|exact H] | constructor]];
    intros ds l r l' r' Hl Hr; cbn [fst snd]; (split; [reflexivity|]; split; [apply Hl|]; split; [apply Hr|]; split; [apply Hl | apply Hr]). }
  unfold lap_objective. induction G as [|a b l l' Hab G IH]; [cbn; lra|]. cbn [map]. rewrite !total_cons. specialize (IH (Forall_inv_tail F)). pose proof (Forall_inv F) as Hds. 
  destruct a as [ds [le re]], b as [ds' [le' re']]. cbn [fst snd] in *. destruct Hab as (-> & E1 & E2 & E3 & E4).
  enough (element_cost sigma low (ds, (le', re')) <= element_cost sigma dis (ds, (le, re))) by lra.
  unfold element_cost. rewrite E1, E2, E3, E4, El. apply Rplus_le_compat_l. induction (seq 0 (length dis)) as [|k ks IHk]; [cbn; lra|]. cbn [map]. rewrite !total_cons. cbv zeta.
  apply Rplus_le_compat; [|exact IHk]. apply Rmult_le_compat_r; [lra|]. apply Rmult_le_compat_r; [|apply HD].
  match goal with |- 0 <= ?x * ?x => exact (Rle_0_sqr x) end.
Qed.
Lemma rising_lap {P} (ev : R -> P -> point_eval) closed L (pts : list (R * P)) : increasing_mesh closed L (map fst pts) -> pts <> [] -> rising closed L (map (fun p => (fst p, ev (fst p) (snd p))) pts).
Proof.
  intros H N. unfold rising, closed_up, increasing_mesh in *. destruct pts as [|a l]; [congruence|]. rewrite map_app, map_map. cbn [map fst] in *. change (map (fun x : R * P => fst x) l) with (map fst l).
  destruct closed; exact H.
Qed.
(** What can be attained, can be attained with fewer restrictions, or something better. *)
Lemma relaxed_attained {P} (ev ev' : R -> P -> point_eval) sigma dis low restricted left closed L mesh T : (forall s p, relaxed (ev s p) (ev' s p)) ->
  fewer_limits restricted left -> lower_dissipations dis low -> increasing_mesh closed L mesh ->
  attained (fun pts => map (fun p => (fst p, ev (fst p) (snd p))) pts) sigma dis restricted closed L mesh T ->
  exists T', T' <= T /\ attained (fun pts => map (fun p => (fst p, ev' (fst p) (snd p))) pts) sigma low left closed L mesh T'.
Proof.
  intros H HL HD HM (pts & Em & F & O).
  assert (X : lap_relaxed (map (fun p => (fst p, ev (fst p) (snd p))) pts) (map (fun p => (fst p, ev' (fst p) (snd p))) pts)).
  { unfold lap_relaxed. clear - H. induction pts as [|p l IH]; [constructor|]. cbn [map]. constructor; [split; [reflexivity | apply H] | exact IH]. }
  exists (lap_objective sigma low closed L (map (fun p => (fst p, ev' (fst p) (snd p))) pts)). split.
  - rewrite <- O. destruct pts as [|a l]; [unfold lap_objective, mesh_elements; cbn; destruct closed; cbn; lra|].
    apply relaxed_objective; [exact X | exact HD | apply rising_lap; [rewrite Em; exact HM | discriminate]].
  - exists pts. split; [exact Em|]. split; [|reflexivity]. apply (relaxed_feasible sigma restricted left closed L _ _ X HL F).
Qed.
Lemma best_attained {P} (laps laps' : list (R * P) -> list (R * point_eval)) sigma dis low restricted left closed L mesh T T' :
  (attained laps sigma dis restricted closed L mesh T -> exists U, U <= T /\ attained laps' sigma low left closed L mesh U) ->
  best laps sigma dis restricted closed L mesh T -> best laps' sigma low left closed L mesh T' -> T' <= T.
Proof. intros H [A _] [_ B]. destruct (H A) as (U & HU & HA). specialize (B U HA). lra. Qed.

(** An open lap that ends as it starts. *)
Lemma open_any (f : R * point_eval) l sigma dis restricted L : restricted = [] \/ sigma = 1 / 2 ->
  (lap_feasible sigma restricted true L (f :: l) <-> lap_feasible sigma restricted false L (f :: l ++ [(L, snd f)])) /\
  lap_objective sigma dis true L (f :: l) = lap_objective sigma dis false L (f :: l ++ [(L, snd f)]).
Proof.
  intros HR.
  assert (E : mesh_elements false L (f :: l ++ [(L, snd f)]) = mesh_elements true L (f :: l)).
  { rewrite (mesh_closed_up true). unfold mesh_elements. rewrite app_nil_r. reflexivity. }
  split; [|unfold lap_objective; rewrite E; reflexivity].
  unfold lap_feasible. rewrite E.
  assert (V : variables_hold true (f :: l) <-> variables_hold false (f :: l ++ [(L, snd f)])).
  { unfold variables_hold. cbn [tl]. rewrite Forall_app. split.
    - intros V. split; [apply (Forall_inv_tail V)|]. constructor; [exact (Forall_inv V) | constructor].
    - intros [V W]. constructor; [exact (Forall_inv W) | exact V]. }
  assert (I : restricted <> [] -> forall k, lap_integral sigma true L k (f :: l) = lap_integral sigma false L k (f :: l ++ [(L, snd f)])).
  { intros N k. destruct HR as [HR | ->]; [congruence|]. unfold lap_integral. rewrite Rplus_0_r.
    transitivity (total (map (fun e : mesh_element => let '(ds, (l, r)) := e in ds * ((1 - 1 / 2) * item (e_int l) k + 1 / 2 * item (e_int r) k)) (mesh_elements true L (f :: l)))).
    - unfold mesh_elements. rewrite map_app. unfold total at 3. rewrite fold_right_app.
      assert (G : forall a b, fold_right Rplus b a = fold_right Rplus 0 a + b) by (induction a as [|x a IH]; intros b; cbn; [lra | rewrite IH; lra]).
      rewrite G. unfold total. f_equal. unfold closing_element. cbn. lra.
    - rewrite <- E. unfold mesh_elements. rewrite app_nil_r. reflexivity. }
  assert (C : Forall (fun q => fst (snd q) <= lap_integral sigma true L (fst q) (f :: l) <= snd (snd q)) restricted <->
              Forall (fun q => fst (snd q) <= lap_integral sigma false L (fst q) (f :: l ++ [(L, snd f)]) <= snd (snd q)) restricted).
  { destruct restricted as [|x y]; [split; constructor|]. assert (J := I ltac:(discriminate)). rewrite !Forall_forall. split; intros H q Hq; specialize (H q Hq); rewrite J in *; exact H. }
  tauto.
Qed.
Lemma wear_constant {P} closed L (f : P -> R) pts : constant_along f pts -> wear closed L (fun _ p => f p) pts = 0.
Proof.
  intros [b H]. unfold wear.
  assert (G : Forall (fun p => snd p = b) (closed_up closed L (values (fun _ p => f p) pts))).
  { apply (closed_up_Forall closed L (fun _ p => f p) (fun x => x = b)). exact H. }
  induction (closed_up closed L (values (fun _ p => f p) pts)) as [|[s x] l IH]; [reflexivity|]. specialize (IH (Forall_inv_tail G)). destruct l as [|[t y] l]; [reflexivity|].
  cbn [roughness] in IH |- *. rewrite IH. pose proof (Forall_inv G) as Hx. pose proof (Forall_inv (Forall_inv_tail G)) as Hy. cbn [snd] in Hx, Hy. rewrite Hx, Hy. unfold Rdiv. rewrite Rminus_diag_eq by reflexivity. ring.
Qed.

(** With rates of the controls. *)
Lemma le_items_app a b c d : le_items a b -> le_items c d -> le_items (a ++ c) (b ++ d).
Proof.
  intros [E H] [E' H']. split; [rewrite !app_length; lia|]. intros k. unfold item in *. destruct (Nat.lt_ge_cases k (length a)) as [Hk | Hk].
  - rewrite !app_nth1 by lia. apply H.
  - rewrite !app_nth2 by lia. rewrite E. apply H'.
Qed.
Lemma relaxed_with_rates meshed rlo rhi e e' w : relaxed e e' -> relaxed (with_rates meshed rlo rhi e w) (with_rates meshed rlo rhi e' w).
Proof.
  intros []. unfold with_rates. constructor; cbn [e_dt e_q e_dq e_alg e_extra e_x e_u e_int e_lb e_ub e_xlb e_xub];
    try (apply le_items_app; [assumption | apply le_items_refl]); try assumption;
    repeat match goal with H : ?f e' = _ |- _ => rewrite H; clear H end; reflexivity.
Qed.
Lemma relaxed_rated {P} (ev ev' : R -> P -> point_eval) meshed rlo rhi sigma restricted left closed L pts : (forall s p, relaxed (ev s p) (ev' s p)) -> fewer_limits restricted left ->
  rate_feasible meshed rlo rhi sigma restricted closed L (map (fun p => (fst p, (ev (fst p) (fst (snd p)), snd (snd p)))) pts) ->
  rate_feasible meshed rlo rhi sigma left closed L (map (fun p => (fst p, (ev' (fst p) (fst (snd p)), snd (snd p)))) pts).
Proof.
  intros H HL. unfold rate_feasible. apply relaxed_feasible; [|exact HL]. rewrite !map_map. cbn [fst snd]. unfold lap_relaxed.
  induction pts as [|p l IH]; [constructor|]. cbn [map]. constructor; [split; [reflexivity | apply relaxed_with_rates, H] | exact IH].
Qed.
Lemma penalised_le dis low meshed f : lower_dissipations dis low -> (forall k, 0 <= f k) -> penalised low meshed f <= penalised dis meshed f.
Proof.
  intros [_ D] F. induction meshed as [|k l IH]; [cbn; lra|]. unfold penalised in *. cbn [fold_right]. apply Rplus_le_compat; [|exact IH].
  apply Rmult_le_compat_r; [apply F | apply D].
Qed.
Lemma pace_wide {P} sigma closed L (f g : R -> P -> R) pts : (forall s p, f s p = g s p) -> along sigma closed L f pts = along sigma closed L g pts.
Proof. intros H. unfold along, values. f_equal. f_equal. apply map_ext. intros p. rewrite H. reflexivity. Qed.

(** ** The Formula 1 car *)
Section F1.
Context (sp ss : R -> R -> R) (g0 : R).
Local Notation laps c ci elevated lo hi := (f1_lap sp ss g0 c ci elevated lo hi).

Lemma f1_relaxed c ci wide elevated lo hi wlo whi s p : wider_circuit ci wide -> wider_f1_bounds lo hi wlo whi ->
  relaxed (f1_point_eval sp ss g0 c ci elevated lo hi s p) (f1_point_eval sp ss g0 c wide elevated wlo whi s p).
Proof.
  intros W B. destruct (W s) as (Ef & Wl & Wr). destruct (B s) as (B1 & B2 & B3 & B4). unfold f1_point_eval. rewrite Ef.
  destruct (track_eval sp ss g0 c (fp_in p) (ci_frame ci s) (fp_n p) (fp_alpha p)) as [r v].
  destruct (f1_on_track sp ss g0 c (fp_in p) (ci_frame ci s) 0 (fp_n p) (fp_alpha p)) as [q dq]. unfold f1_extra_bounds. cbv zeta.
  constructor; cbn [e_dt e_q e_dq e_alg e_extra e_x e_u e_int e_lb e_ub e_xlb e_xub]; try reflexivity.
  - repeat (apply le_items_cons; [lra|]). apply le_items_refl.
  - repeat (apply le_items_cons; [lra|]). apply le_items_refl.
  - unfold f1_inputs_le in B1. unfold f1_variables. repeat match goal with H : Forall _ (_ :: _) |- _ => pose proof (Forall_inv H); apply Forall_inv_tail in H end. cbv beta in *.
    repeat (apply le_items_cons; [lra|]). apply le_items_refl.
  - unfold f1_inputs_le in B2. unfold f1_variables. repeat match goal with H : Forall _ (_ :: _) |- _ => pose proof (Forall_inv H); apply Forall_inv_tail in H end. cbv beta in *.
    repeat (apply le_items_cons; [lra|]). apply le_items_refl.
Qed.

(** C155: what a lap attains is attained, or improved, with a wider track, wider bounds, fewer limits and lower penalisations. *)
Theorem C155_attained c ci wide elevated lo hi wlo whi sigma dis low restricted left closed L mesh T :
  wider_circuit ci wide -> wider_f1_bounds lo hi wlo whi -> fewer_limits restricted left -> lower_dissipations dis low -> increasing_mesh closed L mesh ->
  attained (laps c ci elevated lo hi) sigma dis restricted closed L mesh T ->
  exists T', T' <= T /\ attained (laps c wide elevated wlo whi) sigma low left closed L mesh T'.
Proof. intros W B HL HD HM. apply relaxed_attained; try assumption. intros s p. apply f1_relaxed; assumption. Qed.
(** C155: the best lap with them is not slower. *)
Theorem C155_best c ci wide elevated lo hi wlo whi sigma dis low restricted left closed L mesh T T' :
  wider_circuit ci wide -> wider_f1_bounds lo hi wlo whi -> fewer_limits restricted left -> lower_dissipations dis low -> increasing_mesh closed L mesh ->
  best (laps c ci elevated lo hi) sigma dis restricted closed L mesh T -> best (laps c wide elevated wlo whi) sigma low left closed L mesh T' -> T' <= T.
Proof. intros W B HL HD HM. apply best_attained. apply C155_attained; assumption. Qed.
(** C155: a closed lap is an open lap that ends as it starts: it satisfies the same constraints and has the same value. *)
Theorem C155_open_partial c ci elevated lo hi sigma dis restricted L p rest : periodic_circuit L ci -> periodic L lo -> periodic L hi -> restricted = [] \/ sigma = 1 / 2 ->
  let lap := (0, p) :: rest in let open_lap := driven_once L (0, p) rest in
  (lap_feasible sigma restricted true L (laps c ci elevated lo hi lap) <-> lap_feasible sigma restricted false L (laps c ci elevated lo hi open_lap)) /\
  lap_objective sigma dis true L (laps c ci elevated lo hi lap) = lap_objective sigma dis false L (laps c ci elevated lo hi open_lap).
Proof.
  intros (P1 & P2 & P3) Pl Ph HR lap open_lap.
  assert (E : f1_point_eval sp ss g0 c ci elevated lo hi L p = f1_point_eval sp ss g0 c ci elevated lo hi 0 p).
  { pose proof (P1 0) as E1. pose proof (P2 0) as E2. pose proof (P3 0) as E3. pose proof (Pl 0) as E4. pose proof (Ph 0) as E5. rewrite Rplus_0_l in *.
    unfold f1_point_eval. rewrite E1, E2, E3, E4, E5. reflexivity. }
  unfold lap, open_lap, driven_once, f1_lap. cbn [map fst snd]. rewrite map_app. cbn [map fst snd]. rewrite E.
  apply (open_any (0, f1_point_eval sp ss g0 c ci elevated lo hi 0 p)). exact HR.
Qed.
(** C155: a control that is the same all along the lap has no penalisation: the lap has the same value when that control is optimised at every
    point, with whatever dissipation. *)
Theorem C155_constant c ci elevated lo hi pts sigma closed L d_steering d_boost d_throttle d_bias d_steering' d_boost' d_throttle' d_bias' :
  d_steering = d_steering' \/ constant_along (fun p => M_F1.i_delta (fp_in p)) pts -> d_boost = d_boost' \/ constant_along (fun p => i_boost (fp_in p)) pts ->
  d_throttle = d_throttle' \/ constant_along (fun p => M_F1.i_throttle (fp_in p)) pts -> d_bias = d_bias' \/ constant_along (fun p => i_bias (fp_in p)) pts ->
  lap_objective sigma [d_steering; d_boost; d_throttle; d_bias] closed L (laps c ci elevated lo hi pts) =
  lap_objective sigma [d_steering'; d_boost'; d_throttle'; d_bias'] closed L (laps c ci elevated lo hi pts).
Proof.
  intros H1 H2 H3 H4. rewrite !C153_value.
  assert (X : forall d d' (f : f1_point -> R), d = d' \/ constant_along f pts -> d * wear closed L (fun _ p => f p) pts = d' * wear closed L (fun _ p => f p) pts).
  { intros d d' f [-> | H]; [reflexivity|]. rewrite (wear_constant closed L f pts H). ring. }
  rewrite (X _ _ _ H1), (X _ _ _ H2), (X _ _ _ H3), (X _ _ _ H4). reflexivity.
Qed.
(** C155: with rates of the controls: the lap still satisfies the constraints, and its value is not higher. *)
Theorem C155_rates c ci wide elevated lo hi wlo whi sigma dis low restricted left closed L meshed pts :
  wider_circuit ci wide -> wider_f1_bounds lo hi wlo whi -> fewer_limits restricted left -> lower_dissipations dis low -> rising closed L pts ->
  rate_feasible meshed f1_rate_lo f1_rate_hi sigma restricted closed L (f1_rated sp ss g0 c ci elevated lo hi pts) ->
  rate_feasible meshed f1_rate_lo f1_rate_hi sigma left closed L (f1_rated sp ss g0 c wide elevated wlo whi pts) /\
  rate_objective meshed f1_rate_lo f1_rate_hi low sigma closed L (f1_rated sp ss g0 c wide elevated wlo whi pts) <=
  rate_objective meshed f1_rate_lo f1_rate_hi dis sigma closed L (f1_rated sp ss g0 c ci elevated lo hi pts).
Proof.
  intros W B HL HD Ri F. split.
  - revert F. apply relaxed_rated; [|exact HL]. intros s p. apply f1_relaxed; assumption.
  - rewrite !C154_value_partial. apply Rplus_le_compat; [|apply penalised_le; [exact HD | intros k; apply lopsided_pos, Ri]].
    apply Req_le, pace_wide. intros s p. unfold f1_pace, turning. destruct (W s) as (-> & _). reflexivity.
Qed.
End F1.

(** ** The kart *)
Section Kart.
Context (sp ss : R -> R -> R) (linsolve : mat -> vec -> vec).
Local Notation laps c ci lo hi := (kart_lap_points sp ss linsolve c ci lo hi).

Lemma kart_relaxed c ci wide lo hi wlo whi s p : wider_circuit ci wide -> wider_kart_bounds lo hi wlo whi ->
  relaxed (kart_point_eval sp ss linsolve c ci lo hi s p) (kart_point_eval sp ss linsolve c wide wlo whi s p).
Proof.
  intros W B. destruct (W s) as (Ef & Wl & Wr). destruct (B s) as ([B1 B1'] & [B2 B2'] & B3 & B4). unfold kart_point_eval. rewrite Ef.
  destruct (kart_track_eval sp ss linsolve c (kp_in p) (ci_frame ci s) (kp_n p) (kp_alpha p)) as [r v].
  destruct (kart_on_track sp ss linsolve c (kp_in p) (ci_frame ci s) 0 (kp_n p) (kp_alpha p)) as [q dq]. unfold kart_extra_bounds.
  constructor; cbn [e_dt e_q e_dq e_alg e_extra e_x e_u e_int e_lb e_ub e_xlb e_xub]; try reflexivity; try apply le_items_refl.
  - unfold kart_variables. repeat match goal with H : Forall _ (_ :: _) |- _ => pose proof (Forall_inv H); apply Forall_inv_tail in H end. cbv beta in *.
    repeat (apply le_items_cons; [lra|]). apply le_items_refl.
  - unfold kart_variables. repeat match goal with H : Forall _ (_ :: _) |- _ => pose proof (Forall_inv H); apply Forall_inv_tail in H end. cbv beta in *.
    repeat (apply le_items_cons; [lra|]). apply le_items_refl.
Qed.
Theorem C155_kart_attained c ci wide lo hi wlo whi sigma dis low closed L mesh T :
  wider_circuit ci wide -> wider_kart_bounds lo hi wlo whi -> lower_dissipations dis low -> increasing_mesh closed L mesh ->
  attained (laps c ci lo hi) sigma dis [] closed L mesh T -> exists T', T' <= T /\ attained (laps c wide wlo whi) sigma low [] closed L mesh T'.
Proof. intros W B HD HM. apply relaxed_attained; try assumption; [intros s p; apply kart_relaxed; assumption | intros k a b []]. Qed.
Theorem C155_kart_best c ci wide lo hi wlo whi sigma dis low closed L mesh T T' :
  wider_circuit ci wide -> wider_kart_bounds lo hi wlo whi -> lower_dissipations dis low -> increasing_mesh closed L mesh ->
  best (laps c ci lo hi) sigma dis [] closed L mesh T -> best (laps c wide wlo whi) sigma low [] closed L mesh T' -> T' <= T.
Proof. intros W B HD HM. apply best_attained. apply C155_kart_attained; assumption. Qed.
Theorem C155_kart_open c ci lo hi sigma dis L p rest : periodic_circuit L ci -> periodic L lo -> periodic L hi ->
  let lap := (0, p) :: rest in let open_lap := driven_once L (0, p) rest in
  (lap_feasible sigma [] true L (laps c ci lo hi lap) <-> lap_feasible sigma [] false L (laps c ci lo hi open_lap)) /\
  lap_objective sigma dis true L (laps c ci lo hi lap) = lap_objective sigma dis false L (laps c ci lo hi open_lap).
Proof.
  intros (P1 & P2 & P3) Pl Ph lap open_lap.
  assert (E : kart_point_eval sp ss linsolve c ci lo hi L p = kart_point_eval sp ss linsolve c ci lo hi 0 p).
  { pose proof (P1 0) as E1. pose proof (P2 0) as E2. pose proof (P3 0) as E3. pose proof (Pl 0) as E4. pose proof (Ph 0) as E5. rewrite Rplus_0_l in *.
    unfold kart_point_eval. rewrite E1, E2, E3, E4, E5. reflexivity. }
  unfold lap, open_lap, driven_once, kart_lap_points. cbn [map fst snd]. rewrite map_app. cbn [map fst snd]. rewrite E.
  apply (open_any (0, kart_point_eval sp ss linsolve c ci lo hi 0 p)). left. reflexivity.
Qed.
Theorem C155_kart_constant c ci lo hi pts sigma closed L d_steering d_throttle d_steering' d_throttle' :
  d_steering = d_steering' \/ constant_along (fun p => M_KartCar.i_delta (kp_in p)) pts -> d_throttle = d_throttle' \/ constant_along (fun p => M_KartCar.i_throttle (kp_in p)) pts ->
  lap_objective sigma [d_steering; d_throttle] closed L (laps c ci lo hi pts) = lap_objective sigma [d_steering'; d_throttle'] closed L (laps c ci lo hi pts).
Proof.
  intros H1 H2. rewrite !C153_kart_value.
  assert (X : forall d d' (f : kart_point -> R), d = d' \/ constant_along f pts -> d * wear closed L (fun _ p => f p) pts = d' * wear closed L (fun _ p => f p) pts).
  { intros d d' f [-> | H]; [reflexivity|]. rewrite (wear_constant closed L f pts H). ring. }
  rewrite (X _ _ _ H1), (X _ _ _ H2). reflexivity.
Qed.
Theorem C155_kart_rates c ci wide lo hi wlo whi sigma dis low closed L meshed pts : let direct := e_direct (c_engine c) in
  wider_circuit ci wide -> wider_kart_bounds lo hi wlo whi -> lower_dissipations dis low -> rising closed L pts ->
  rate_feasible meshed (kart_rate_lo direct) (kart_rate_hi direct) sigma [] closed L (kart_rated sp ss linsolve c ci lo hi pts) ->
  rate_feasible meshed (kart_rate_lo direct) (kart_rate_hi direct) sigma [] closed L (kart_rated sp ss linsolve c wide wlo whi pts) /\
  rate_objective meshed (kart_rate_lo direct) (kart_rate_hi direct) low sigma closed L (kart_rated sp ss linsolve c wide wlo whi pts) <=
  rate_objective meshed (kart_rate_lo direct) (kart_rate_hi direct) dis sigma closed L (kart_rated sp ss linsolve c ci lo hi pts).
Proof.
  intros direct W B HD Ri F. split.
  - revert F. apply relaxed_rated; [intros s p; apply kart_relaxed; assumption | intros k a b []].
  - unfold direct. rewrite !C154_kart_value_partial. apply Rplus_le_compat; [|apply penalised_le; [exact HD | intros k; apply lopsided_pos, Ri]].
    apply Req_le, pace_wide. intros s p. unfold kart_pace, turning. destruct (W s) as (-> & _). reflexivity.
Qed.
End Kart.

(** ** Cases *)
(** With another rule than the trapezoidal one the boost of the gliding car is within its limit on the closed lap, and not on the same lap driven as an open one. *)
Theorem C155_open_refuted : exists c ci lo hi L p rest sigma restricted, 0 <= sigma <= 1 /\ periodic_circuit L ci /\ periodic L lo /\ periodic L hi /\
  lap_feasible sigma restricted true L (f1_lap positive_part same_sign (981 / 100) c ci false lo hi ((0, p) :: rest)) /\
  ~ lap_feasible sigma restricted false L (f1_lap positive_part same_sign (981 / 100) c ci false lo hi (driven_once L (0, p) rest)).
Proof.
  set (flat := Circuit (fun _ => flat_point (V 0 0 0) 0 0) (fun _ => 5) (fun _ => 5)).
  assert (Same : forall s u b, f1_point_eval positive_part same_sign (981 / 100) gliding_car flat false gliding_low gliding_high s (gliding_point u b) =
    f1_point_eval positive_part same_sign (981 / 100) gliding_car straight false gliding_low gliding_high 0 (gliding_point u b)) by reflexivity.
  exists gliding_car, flat, gliding_low, gliding_high, 100, (gliding_point 50 0), [(40, gliding_point 50 1)], 0, [(5%nat, (0, 1))].
  split; [lra|]. split; [repeat split|]. split; [intros s; reflexivity|]. split; [intros s; reflexivity|].
  destruct (gliding_evaluation 50 0 0 ltac:(lra) ltac:(lra)) as (A1 & A2 & A3 & A4 & A5 & A6 & A7 & A8).
  destruct (gliding_evaluation 50 1 0 ltac:(lra) ltac:(lra)) as (B1 & B2 & B3 & B4 & B5 & B6 & B7 & B8).
  split.
  - unfold lap_feasible, f1_lap. cbn [app map fst snd]. rewrite !Same. split; [|split].
    + unfold mesh_elements. cbn [inner_elements closing_element app last fst snd]. constructor; [|constructor; [|constructor]]; apply gliding_elements; assumption.
    + unfold variables_hold. constructor; [exact A6|]. constructor; [exact B6 | constructor].
    + constructor; [|constructor]. cbn [fst snd]. unfold lap_integral. cbn [map fst snd inner_elements closing_element last]. unfold total; cbn [fold_right]. rewrite A8, B8. lra.
  - intros (_ & _ & H). apply Forall_inv in H. cbn [fst snd] in H. revert H. unfold driven_once, f1_lap. cbn [app map fst snd]. rewrite !Same.
    unfold lap_integral. cbn [map fst snd inner_elements closing_element last]. unfold total; cbn [fold_right]. rewrite A8, B8. lra.
Qed.

(** The gliding car, its speed from 50 to [top] along the centreline. *)
Definition calm_low (s : R) : f1_input * R :=
  (F1Input (- (1)) (- (1)) (- (1)) (- (1)) 50 0 (- (1)) (- (1)) (- (1)) (- (1)) (- (1)) (- (1)) 0 (- (1)) (1 / 2), 0).
Definition calm_high (top s : R) : f1_input * R := (F1Input 1 1 1 1 top 0 1 0 0 0 0 1 1 1 (1 / 2), 0).
Lemma rebound c ci elevated lo hi lo' hi' s p : 
  let e := f1_point_eval positive_part same_sign (981 / 100) c ci elevated lo hi s p in let e' := f1_point_eval positive_part same_sign (981 / 100) c ci elevated lo' hi' s p in
  e_dt e' = e_dt e /\ e_q e' = e_q e /\ e_dq e' = e_dq e /\ e_alg e' = e_alg e /\ e_extra e' = e_extra e /\ e_lb e' = e_lb e /\ e_ub e' = e_ub e /\ e_x e' = f1_variables (fp_in p) (fp_n p) (fp_alpha p) /\
  e_xlb e' = f1_variables (fst (lo' s)) (- ci_left ci s) (snd (lo' s)) /\ e_xub e' = f1_variables (fst (hi' s)) (ci_right ci s) (snd (hi' s)).
Proof. cbv zeta. unfold f1_point_eval. destruct (track_eval _ _ _ _ _ _ _ _). destruct (f1_on_track _ _ _ _ _ _ _ _ _). destruct (f1_extra_bounds _ _ _ _ _ _ _ _). repeat split. Qed.
Lemma calm_best top : 50 <= top <= 80 -> best (f1_lap positive_part same_sign (981 / 100) gliding_car straight false calm_low (calm_high top)) (1 / 2) [0; 0; 0; 0] [] true 100 [0; 40] (100 / top).
Proof.
  intros Ht. assert (T0 : forall s, turning straight s = 0).
  { intros s. unfold turning, straight, flat_point, curvature; cbn. rewrite sin_0, cos_0. ring. }
  split.
  - exists [(0, gliding_point top 0); (40, gliding_point top 0)]. split; [reflexivity|]. split.
    + assert (E : forall s, let e := f1_point_eval positive_part same_sign (981 / 100) gliding_car straight false calm_low (calm_high top) s (gliding_point top 0) in
        e_dt e = / top /\ e_q e = [0; 0; 0; 0; top; 0; 0; 1; 0] /\ e_dq e = [0; 0; 0; 0; 0; 0; 0; 0; 0] /\ e_alg e = [0; 0; 0; 0] /\ bounded (e_lb e) (e_extra e) (e_ub e) /\ bounded (e_xlb e) (e_x e) (e_xub e)).
      { intros s. cbv zeta. destruct (gliding_evaluation top 0 s ltac:(lra) ltac:(lra)) as (A1 & A2 & A3 & A4 & A5 & A6 & A7 & A8).
        destruct (rebound gliding_car straight false gliding_low gliding_high calm_low (calm_high top) s (gliding_point top 0)) as (R1 & R2 & R3 & R4 & R5 & R6 & R7 & R8 & R9 & R10).
        rewrite R1, R2, R3, R4, R5, R6, R7, R8, R9, R10. repeat (split; [assumption|]). unfold calm_low, calm_high, gliding_point, gliding_input, f1_variables; cbn. repeat (apply bounded_cons; split; [lra|]). apply bounded_nil. }
      assert (H : forall s t ds, element_holds (1 / 2) (ds, (f1_point_eval positive_part same_sign (981 / 100) gliding_car straight false calm_low (calm_high top) s (gliding_point top 0),
        f1_point_eval positive_part same_sign (981 / 100) gliding_car straight false calm_low (calm_high top) t (gliding_point top 0)))).
      { intros s t ds. destruct (E s) as (A1 & A2 & A3 & A4 & A5 & A6). destruct (E t) as (B1 & B2 & B3 & B4 & B5 & B6). unfold element_holds, residuals, algebraic_residuals. cbn [snd]. rewrite A2, A3, B1, B2, B3, B4. cbn [length seq map]. unfold item; cbn [nth].
        split; [repeat (constructor; [ring|]); constructor|]. split; [|exact B5]. repeat (constructor; [unfold Rdiv; ring|]). constructor. }
      unfold lap_feasible, f1_lap. cbn [map fst snd]. split; [|split; [|constructor]].
      * unfold mesh_elements. cbn [inner_elements closing_element app last fst snd]. constructor; [apply H|]. constructor; [apply H | constructor].
      * unfold variables_hold. constructor; [apply E|]. constructor; [apply E | constructor].
    + rewrite C153_value. unfold along, values, closed_up. cbn [map app fst snd weighted]. unfold f1_pace, pace. rewrite !T0. cbn. rewrite !sin_0, !cos_0. field. lra.
  - intros T' (pts & Em & F & <-).
    assert (M : Forall (fun p => moderate 1 top (turning straight (fst p)) (fp_n (snd p)) (fp_alpha (snd p)) (i_u (fp_in (snd p))) (i_v (fp_in (snd p)))) pts).
    { rewrite Forall_forall. intros [s p] Hp. destruct (C153_within _ _ _ _ _ _ _ _ _ _ _ _ _ s p F Hp) as (B & [Ba Bb] & _). cbn [fst snd calm_low calm_high] in *.
      unfold f1_inputs_between, between in B. cbn [fst calm_low calm_high i_u i_v] in B. 
      pose proof (Forall_inv (Forall_inv_tail (Forall_inv_tail (Forall_inv_tail (Forall_inv_tail B))))) as Bu. pose proof (Forall_inv (Forall_inv_tail (Forall_inv_tail (Forall_inv_tail (Forall_inv_tail (Forall_inv_tail B)))))) as Bv. cbn in Bu, Bv.
      assert (Ev : i_v (fp_in p) = 0) by lra. assert (Ea : fp_alpha p = 0) by lra. unfold moderate. rewrite T0, Ev, Ea, sin_0, cos_0. repeat split; nra. }
    destruct pts as [|[s0 p0] [|[s1 p1] [|? ?]]]; try discriminate. injection Em as -> ->.
    pose proof (C153_fastest positive_part same_sign (981 / 100) gliding_car straight false calm_low (calm_high top) [(0, p0); (40, p1)] (1 / 2) 0 0 0 0 true 100 1 top) as K.
    assert (D : distance true 100 [(0, p0); (40, p1)] = 100) by (unfold distance, closed_up; cbn; lra). rewrite D in K.
    assert (Ri : rising true 100 [(0, p0); (40, p1)]) by (unfold rising, closed_up; cbn; repeat constructor; lra).
    specialize (K ltac:(lra) ltac:(lra) ltac:(lra) ltac:(lra) ltac:(lra) Ri ltac:(lra) ltac:(lra) M). replace (100 / top) with (1 / top * 100) by (field; lra). exact K.
Qed.
(** On a wider track and with a higher maximum speed the best lap takes 5/4 instead of 2. *)
Example C155_case : let wide := Circuit (ci_frame straight) (fun _ => 6) (fun _ => 7) in
  wider_circuit straight wide /\ wider_f1_bounds calm_low (calm_high 50) calm_low (calm_high 80) /\ fewer_limits [(5%nat, (0, 1))] [(5%nat, (0, 2))] /\
  lower_dissipations [0; 12; 1; 0] [0; 10; 1; 0] /\ increasing_mesh true 100 [0; 40] /\
  best (f1_lap positive_part same_sign (981 / 100) gliding_car straight false calm_low (calm_high 50)) (1 / 2) [0; 0; 0; 0] [] true 100 [0; 40] 2 /\
  best (f1_lap positive_part same_sign (981 / 100) gliding_car straight false calm_low (calm_high 80)) (1 / 2) [0; 0; 0; 0] [] true 100 [0; 40] (5 / 4) /\
  constant_along (fun p => i_bias (fp_in p)) [(0, gliding_point 50 0); (40, gliding_point 50 1)].
Proof.
  intros wide. split. { intros s. unfold wide, straight; cbn. split; [reflexivity | lra]. }
  split. { intros s. unfold f1_inputs_le, calm_low, calm_high. cbn [fst snd]. split; [|split; [|split; lra]]; repeat (apply Forall_cons; [cbn; lra|]); apply Forall_nil. }
  split. { intros k a b [E | []]. injection E as <- <- <-. exists 0, 1. split; [left; reflexivity | lra]. }
  split. { split; [reflexivity|]. intros k. do 4 (destruct k as [|k]; [cbn; lra|]). destruct k; cbn; lra. }
  split. { unfold increasing_mesh. cbn. repeat constructor; lra. }
  assert (E1 : 100 / 50 = 2) by lra. assert (E2 : 100 / 80 = 5 / 4) by lra.
  split. { rewrite <- E1 at 2. apply calm_best. lra. }
  split. { rewrite <- E2. apply calm_best. lra. }
  exists (1 / 2). repeat constructor.
Qed.
Example C155_kart_case : let c := square_kart grippy (1 / 10) (- (1 / 20)) (1 / 20) in
  let wide := Circuit (ci_frame level) (fun s => ci_left level s + 1) (fun s => ci_right level s + 2) in
  wider_circuit level wide /\ wider_kart_bounds kart_low kart_high kart_low kart_high /\ lower_dissipations [1; 1] [1 / 2; 0] /\ increasing_mesh true 100 [0; 40] /\
  attained (kart_lap_points positive_part same_sign cramer c level kart_low kart_high) (1 / 2) [1; 1] [] true 100 [0; 40] 10 /\
  constant_along (fun p => M_KartCar.i_throttle (kp_in p)) [(0, coasting_point); (40, coasting_point)].
Proof.
  intros c wide. split. { intros s. unfold wide; cbn. split; [reflexivity | lra]. }
  split. { intros s. unfold kart_inputs_le. repeat split; try lra; repeat (apply Forall_cons; [lra|]); apply Forall_nil. }
  split. { split; [reflexivity|]. intros k. do 2 (destruct k as [|k]; [cbn; lra|]). destruct k; cbn; lra. }
  split. { unfold increasing_mesh. cbn. repeat constructor; lra. }
  split. { exists [(0, coasting_point); (40, coasting_point)]. split; [reflexivity|]. destruct C151_kart_case as (_ & _ & _ & F & O). split; [exact F | exact O]. }
  eexists. repeat constructor.
Qed.

Print Assumptions C155_attained.
Print Assumptions C155_best.
Print Assumptions C155_open_partial.
Print Assumptions C155_constant.
Print Assumptions C155_rates.
Print Assumptions C155_kart_attained.
Print Assumptions C155_kart_best.
Print Assumptions C155_kart_open.
Print Assumptions C155_kart_constant.
Print Assumptions C155_kart_rates.
Print Assumptions C155_open_refuted.
