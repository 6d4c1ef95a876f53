(** Property theorem C158: the sectors of a fastest lap are fastest. *)
From Coq Require Import Reals Lra Lia List.
From Verif Require Import M_Vec M_Tire M_Car M_Road M_F1 M_Kart6 M_KartCar M_Feasible M_RealLap M_RateLap S_F1 S_F1Wheels S_KartCar S_KartGrip S_RealLap S_LapLimits S_RateLap S_Freedom S_Moved S_Circle S_Sector L_RealLap P_F1 P_KartCar P_KartGrip P_RealLap P_LapLimits P_RateLap P_Freedom P_Moved P_Circle.
Import ListNotations.
Local Open Scope R_scope.

(** ** Evaluations of laps *)
Lemma inner_cut a m r : inner_elements (a ++ m :: r) = inner_elements (a ++ [m]) ++ inner_elements (m :: r).
Proof.
  destruct a as [|p a]; [reflexivity|]. rewrite !inner_app, <- app_assoc. reflexivity.
Qed.
Lemma inner_sector a m b z c : inner_elements (a ++ sector m b z ++ c) = inner_elements (a ++ [m]) ++ inner_elements (sector m b z) ++ inner_elements (z :: c).
Proof.
  unfold sector. cbn [app]. rewrite inner_cut. f_equal. rewrite <- app_assoc. cbn [app]. change (m :: b ++ z :: c) with ((m :: b) ++ z :: c). rewrite inner_cut. reflexivity.
Qed.
Lemma closing_sector L a m b b' z c : closing_element L (a ++ sector m b z ++ c) = closing_element L (a ++ sector m b' z ++ c).
Proof.
  assert (E : forall b p, last (a ++ sector m b z ++ c) p = last (z :: c) p).
  { intros d p. replace (a ++ sector m d z ++ c) with ((a ++ m :: d) ++ z :: c) by (unfold sector; cbn [app]; rewrite <- !app_assoc; reflexivity). apply last_app2. discriminate. }
  assert (C : forall (l : list (R * point_eval)) p, hd_error l = Some p -> closing_element L l = [(L - fst (last l p), (snd (last l p), snd p))]) by (intros [|q l] p H; [discriminate | injection H as ->; reflexivity]).
  destruct a as [|p a].
  - rewrite (C ([] ++ sector m b z ++ c) m eq_refl), (C ([] ++ sector m b' z ++ c) m eq_refl), !E. reflexivity.
  - rewrite (C ((p :: a) ++ sector m b z ++ c) p eq_refl), (C ((p :: a) ++ sector m b' z ++ c) p eq_refl), !E. reflexivity.
Qed.
Lemma total_app l m : total (l ++ m) = total l + total m.
Proof. unfold total. induction l as [|a l IH]; cbn [app fold_right]; [ring | rewrite IH; ring]. Qed.

Section Evaluations.
Context (sigma : R) (dis : list R) (L : R).
Implicit Types a b c l : list (R * point_eval).

Lemma objective_cut a m l : lap_objective sigma dis false L (a ++ m :: l) = lap_objective sigma dis false L (a ++ [m]) + lap_objective sigma dis false L (m :: l).
Proof. unfold lap_objective, mesh_elements. rewrite !app_nil_r, inner_cut, map_app, total_app. reflexivity. Qed.
Lemma integral_cut k a m l : lap_integral sigma false L k (a ++ m :: l) = lap_integral sigma false L k (a ++ [m]) + lap_integral sigma false L k (m :: l).
Proof. unfold lap_integral. rewrite inner_cut, map_app, total_app. ring. Qed.
Lemma variables_cut a m l : variables_hold false (a ++ m :: l) <-> variables_hold false (a ++ [m]) /\ variables_hold false (m :: l).
Proof.
  unfold variables_hold. destruct a as [|p a]; cbn [app tl]; [split; [intros H; split; [constructor | exact H] | tauto]|].
  rewrite !Forall_app, Forall_cons_iff. split; [intros (H1 & H2 & H3); repeat split; auto | intros ((H1 & H2) & H3)]. apply Forall_inv in H2. auto.
Qed.
Lemma feasible_cut a m l : lap_feasible sigma [] false L (a ++ m :: l) <-> lap_feasible sigma [] false L (a ++ [m]) /\ lap_feasible sigma [] false L (m :: l).
Proof.
  unfold lap_feasible, mesh_elements. rewrite !app_nil_r, inner_cut, Forall_app, variables_cut. split.
  - intros ((F & F') & (V & V') & I). split; (split; [assumption|]; split; [assumption | constructor]).
  - intros ((F & V & I) & (F' & V' & _)). split; [split; assumption|]. split; [split; assumption | constructor].
Qed.
Lemma feasible_sector closed restricted a m b z c : lap_feasible sigma restricted closed L (a ++ sector m b z ++ c) -> lap_feasible sigma [] false L (sector m b z).
Proof.
  intros (F & V & _). unfold mesh_elements in F. rewrite inner_sector, !Forall_app in F. split; [unfold mesh_elements; rewrite app_nil_r; apply F|]. split; [|constructor].
  unfold variables_hold in *. unfold sector in *. cbn [tl app] in *. 
  assert (V' : Forall (fun p : R * point_eval => bounded (e_xlb (snd p)) (e_x (snd p)) (e_xub (snd p))) (tl (a ++ (m :: b ++ [z]) ++ c))).
  { destruct closed; [|exact V]. destruct a as [|p a]; [exact (Forall_inv_tail V) | exact (Forall_inv_tail V)]. }
  destruct a as [|p a]; cbn [app tl] in V'; rewrite !Forall_app in V'; [apply Forall_app; tauto|]. destruct V' as (_ & V'). rewrite Forall_cons_iff, !Forall_app in V'. apply Forall_app. tauto.
Qed.
Lemma objective_sector closed a m b b' z c : 
  lap_objective sigma dis closed L (a ++ sector m b' z ++ c) - lap_objective sigma dis closed L (a ++ sector m b z ++ c) =
  lap_objective sigma dis false L (sector m b' z) - lap_objective sigma dis false L (sector m b z).
Proof.
  unfold lap_objective, mesh_elements. rewrite !inner_sector, (closing_sector L a m b' b z c), !app_nil_r, !map_app, !total_app. ring.
Qed.
Lemma integral_sector closed k a m b b' z c : 
  lap_integral sigma closed L k (a ++ sector m b' z ++ c) - lap_integral sigma closed L k (a ++ sector m b z ++ c) =
  lap_integral sigma false L k (sector m b' z) - lap_integral sigma false L k (sector m b z).
Proof.
  unfold lap_integral. rewrite !inner_sector, (closing_sector L a m b' b z c), !map_app, !total_app. ring.
Qed.
Lemma replaced_feasible closed restricted a m b b' z c : lap_feasible sigma restricted closed L (a ++ sector m b z ++ c) -> lap_feasible sigma [] false L (sector m b' z) ->
  uses_as_much sigma L restricted (sector m b z) (sector m b' z) -> lap_feasible sigma restricted closed L (a ++ sector m b' z ++ c).
Proof.
  intros (F & V & I) (F' & V' & _) U. split; [|split].
  - unfold mesh_elements in *. rewrite app_nil_r in F'. rewrite inner_sector, !Forall_app, (closing_sector L a m b b' z c) in F. rewrite inner_sector, !Forall_app. tauto.
  - unfold variables_hold in *. unfold sector in V'. cbn [tl] in V'. rewrite Forall_app in V'. destruct V' as [V1 V2]. unfold sector in *. cbn [app] in *. 
    destruct closed; [|destruct a as [|p a]; cbn [app tl] in *];
      repeat match goal with H : Forall _ (_ ++ _) |- _ => apply Forall_app in H; destruct H | H : Forall _ (_ :: _) |- _ => apply Forall_cons_iff in H; destruct H end;
      repeat match goal with |- Forall _ (_ ++ _) => apply Forall_app; split | |- Forall _ (_ :: _) => apply Forall_cons end; try assumption.
  - unfold uses_as_much in U. rewrite Forall_forall in *. intros q Hq. specialize (I q Hq). specialize (U q Hq). pose proof (integral_sector closed (fst q) a m b b' z c). lra.
Qed.
Lemma replaced_tail restricted a m b b' : lap_feasible sigma restricted false L (a ++ m :: b) -> lap_feasible sigma [] false L (m :: b') ->
  uses_as_much sigma L restricted (m :: b) (m :: b') -> lap_feasible sigma restricted false L (a ++ m :: b').
Proof.
  intros (F & V & I) F' U. assert (F0 : lap_feasible sigma [] false L (a ++ m :: b)) by (split; [exact F|]; split; [exact V | constructor]).
  apply feasible_cut in F0. destruct (proj2 (feasible_cut a m b') (conj (proj1 F0) F')) as (G & W & _). split; [exact G|]. split; [exact W|].
  unfold uses_as_much in U. rewrite Forall_forall in *. intros q Hq. specialize (I q Hq). specialize (U q Hq). rewrite (integral_cut (fst q) a m b) in I. rewrite (integral_cut (fst q) a m b'). lra.
Qed.
End Evaluations.

(** ** The laps of any car *)
Lemma sector_map {P Q} (g : R * P -> R * Q) m b z : map g (sector m b z) = sector (g m) (map g b) (g z).
Proof. unfold sector. cbn [map]. rewrite map_app. reflexivity. Qed.
Lemma sector_mesh {P} (m : R * P) b b' z : map fst b' = map fst b -> map fst (sector m b' z) = map fst (sector m b z).
Proof. intros E. unfold sector. cbn [map]. rewrite !map_app, E. reflexivity. Qed.

Section Any.
Context {P : Type} (laps : list (R * P) -> list (R * point_eval)) (g : R * P -> R * point_eval) (Eg : forall l, laps l = map g l) (sigma L : R).
Lemma any_replaced restricted closed a m b b' z c : lap_feasible sigma restricted closed L (laps (a ++ sector m b z ++ c)) -> lap_feasible sigma [] false L (laps (sector m b' z)) ->
  uses_as_much sigma L restricted (laps (sector m b z)) (laps (sector m b' z)) -> lap_feasible sigma restricted closed L (laps (a ++ sector m b' z ++ c)).
Proof. rewrite !Eg, !map_app, !sector_map. apply replaced_feasible. Qed.
Lemma any_sector restricted closed a m b z c : lap_feasible sigma restricted closed L (laps (a ++ sector m b z ++ c)) -> lap_feasible sigma [] false L (laps (sector m b z)).
Proof. rewrite !Eg, !map_app, !sector_map. apply feasible_sector. Qed.
Lemma any_objective dis closed a m b b' z c : 
  lap_objective sigma dis closed L (laps (a ++ sector m b' z ++ c)) - lap_objective sigma dis closed L (laps (a ++ sector m b z ++ c)) =
  lap_objective sigma dis false L (laps (sector m b' z)) - lap_objective sigma dis false L (laps (sector m b z)).
Proof. rewrite !Eg, !map_app, !sector_map. apply objective_sector. Qed.
(** [value], [part]: values of the whole lap and of the sectors of which the differences are the same. *)
Lemma any_fastest restricted closed (value part : list (R * P) -> R) a m b z c :
  (forall b', map fst b' = map fst b -> value (a ++ sector m b' z ++ c) - value (a ++ sector m b z ++ c) = part (sector m b' z) - part (sector m b z)) ->
  fastest (fun l => lap_feasible sigma restricted closed L (laps l)) value (a ++ sector m b z ++ c) ->
  fastest_between (fun l => lap_feasible sigma [] false L (laps l) /\ uses_as_much sigma L restricted (laps (sector m b z)) (laps l)) part m z b.
Proof.
  intros D [F B]. split.
  - split; [exact (any_sector restricted closed a m b z c F)|]. unfold uses_as_much. apply Forall_forall. reflexivity.
  - intros b' E [F' U]. specialize (B (a ++ sector m b' z ++ c)). specialize (D b' E). 
    specialize (B ltac:(rewrite !map_app, (sector_mesh m b b' z E); reflexivity) (any_replaced restricted closed a m b b' z c F F' U)). lra.
Qed.
Lemma any_cut a m l : lap_feasible sigma [] false L (laps (a ++ m :: l)) <-> lap_feasible sigma [] false L (laps (a ++ [m])) /\ lap_feasible sigma [] false L (laps (m :: l)).
Proof. rewrite !Eg, !map_app. cbn [map]. apply feasible_cut. Qed.
Lemma any_objective_cut dis a m l : lap_objective sigma dis false L (laps (a ++ m :: l)) = lap_objective sigma dis false L (laps (a ++ [m])) + lap_objective sigma dis false L (laps (m :: l)).
Proof. rewrite !Eg, !map_app. cbn [map]. apply objective_cut. Qed.
Lemma any_integral_cut k a m l : lap_integral sigma false L k (laps (a ++ m :: l)) = lap_integral sigma false L k (laps (a ++ [m])) + lap_integral sigma false L k (laps (m :: l)).
Proof. rewrite !Eg, !map_app. cbn [map]. apply integral_cut. Qed.
Lemma any_tail restricted (value : list (R * P) -> R) p a m l :
  (forall l', map fst l' = map fst l -> value (p :: a ++ m :: l') - value (p :: a ++ m :: l) = value (m :: l') - value (m :: l)) ->
  fastest_from (fun l => lap_feasible sigma restricted false L (laps l)) value p (a ++ m :: l) ->
  fastest_from (fun l' => lap_feasible sigma [] false L (laps l') /\ uses_as_much sigma L restricted (laps (m :: l)) (laps l')) value m l.
Proof.
  intros D [F B]. split.
  - split; [|unfold uses_as_much; apply Forall_forall; reflexivity]. destruct F as (F & V & _).
    apply (any_cut (p :: a) m l). split; [exact F|]. split; [exact V | constructor].
  - intros l' E [F' U]. specialize (D l' E). specialize (B (a ++ m :: l') ltac:(rewrite !map_app; cbn [map]; rewrite E; reflexivity)).
    assert (G : lap_feasible sigma restricted false L (laps (p :: a ++ m :: l'))).
    { revert F F' U. change (p :: a ++ m :: l) with ((p :: a) ++ m :: l). change (p :: a ++ m :: l') with ((p :: a) ++ m :: l'). rewrite !Eg, !map_app. cbn [map]. apply (replaced_tail sigma L restricted (g p :: map g a)). }
    specialize (B G). lra.
Qed.
End Any.

(** ** The penalisation of the rates *)
Section Penalty.
Context (meshed : list nat) (dis : list R).
Implicit Types l r : list (R * list R).
Lemma rate_cost_left v v' w w' ds : rate_cost meshed dis v w ds - rate_cost meshed dis v w' ds = rate_cost meshed dis v' w ds - rate_cost meshed dis v' w' ds.
Proof. unfold rate_cost, total. induction meshed as [|k ks IH]; cbn [map fold_right]; [ring|]. lra. Qed.
Lemma rate_costs_cut f l m r : rate_costs meshed dis f (l ++ m :: r) = rate_costs meshed dis f (l ++ [m]) + rate_costs meshed dis f (m :: r).
Proof.
  induction l as [|a l IH]; [cbn [app]; change (rate_costs meshed dis f [m]) with 0; ring|].
  destruct l as [|b l].
  - cbn [app]. change (rate_costs meshed dis f (a :: m :: r)) with (rate_cost meshed dis f (snd m) (fst m - fst a) + rate_costs meshed dis f (m :: r)).
    change (rate_costs meshed dis f [a; m]) with (rate_cost meshed dis f (snd m) (fst m - fst a) + 0). ring.
  - cbn [app] in *. change (rate_costs meshed dis f (a :: b :: l ++ m :: r)) with (rate_cost meshed dis f (snd b) (fst b - fst a) + rate_costs meshed dis f (b :: l ++ m :: r)).
    change (rate_costs meshed dis f (a :: b :: l ++ [m])) with (rate_cost meshed dis f (snd b) (fst b - fst a) + rate_costs meshed dis f (b :: l ++ [m])). rewrite IH. ring.
Qed.
(** The left rates of the elements, which are those of the first point, do not count in the difference of two laps with the same mesh. *)
Lemma rate_costs_left f f' l r : map fst l = map fst r -> rate_costs meshed dis f l - rate_costs meshed dis f r = rate_costs meshed dis f' l - rate_costs meshed dis f' r.
Proof.
  revert r. induction l as [|a l IH]; intros [|a' r] E; try discriminate; [reflexivity|]. cbn [map] in E. injection E as E1 E.
  destruct l as [|b l]; destruct r as [|b' r]; try discriminate; [reflexivity|]. specialize (IH _ E). cbn [map] in E. injection E as E2 _.
  assert (X : forall h (p q : R * list R) t, rate_costs meshed dis h (p :: q :: t) = rate_cost meshed dis h (snd q) (fst q - fst p) + rate_costs meshed dis h (q :: t)) by reflexivity.
  rewrite !X, E1, E2. pose proof (rate_cost_left f f' (snd b) (snd b') (fst b' - fst a')). lra.
Qed.
Lemma costs_sector f a m b z c : rate_costs meshed dis f (a ++ sector m b z ++ c) = rate_costs meshed dis f (a ++ [m]) + rate_costs meshed dis f (sector m b z) + rate_costs meshed dis f (z :: c).
Proof.
  unfold sector. cbn [app]. rewrite (rate_costs_cut f a m), <- app_assoc. cbn [app]. change (m :: b ++ z :: c) with ((m :: b) ++ z :: c). rewrite (rate_costs_cut f (m :: b) z c). cbn [app]. ring.
Qed.
Lemma penalty_sector closed L a m b b' z c : map fst b' = map fst b ->
  rate_penalty meshed dis closed L (a ++ sector m b' z ++ c) - rate_penalty meshed dis closed L (a ++ sector m b z ++ c) =
  rate_penalty meshed dis false L (sector m b' z) - rate_penalty meshed dis false L (sector m b z).
Proof.
  intros E. assert (H : forall d, exists q, rate_penalty meshed dis closed L (a ++ sector m d z ++ c) = rate_costs meshed dis (snd (hd m (a ++ [m]))) (a ++ sector m d z ++ c) + 
    (if closed then rate_cost meshed dis (snd (last (z :: c) q)) (snd (hd m (a ++ [m]))) (L - fst (last (z :: c) q)) else 0)).
  { intros d. exists (hd m (a ++ [m])). assert (El : forall p, last (a ++ sector m d z ++ c) p = last (z :: c) p).
    { intros p. replace (a ++ sector m d z ++ c) with ((a ++ m :: d) ++ z :: c) by (unfold sector; cbn [app]; rewrite <- !app_assoc; reflexivity). apply last_app2. discriminate. }
    rewrite <- El. destruct a as [|p a']; reflexivity. }
  destruct (H b) as [q ->]. destruct (H b') as [q' ->]. rewrite (last_indep (z :: c) q q') by discriminate.
  assert (S0 : forall d, rate_penalty meshed dis false L (sector m d z) = rate_costs meshed dis (snd m) (sector m d z) + 0) by reflexivity.
  rewrite !S0, (costs_sector _ a m b z c), (costs_sector _ a m b' z c).
  pose proof (rate_costs_left (snd (hd m (a ++ [m]))) (snd m) (sector m b' z) (sector m b z) (sector_mesh m b b' z E)). lra.
Qed.
Lemma penalty_tail L p a m l l' : map fst l' = map fst l ->
  rate_penalty meshed dis false L (p :: a ++ m :: l') - rate_penalty meshed dis false L (p :: a ++ m :: l) = rate_penalty meshed dis false L (m :: l') - rate_penalty meshed dis false L (m :: l).
Proof.
  intros E. unfold rate_penalty. change (p :: a ++ m :: l') with ((p :: a) ++ m :: l'). change (p :: a ++ m :: l) with ((p :: a) ++ m :: l). rewrite (rate_costs_cut (snd p) (p :: a) m l'), (rate_costs_cut (snd p) (p :: a) m l).
  pose proof (rate_costs_left (snd p) (snd m) (m :: l') (m :: l) ltac:(cbn [map]; rewrite E; reflexivity)). lra.
Qed.
End Penalty.

(** ** The problems *)
Section F1.
Context (sp ss : R -> R -> R) (g0 : R).

(** An open lap is allowed if both its parts are, and its value and its integral quantities are the sums of theirs. *)
Theorem C158_parts c ci elevated lo hi sigma dis L first m rest : let lap := f1_lap sp ss g0 c ci elevated lo hi in
  (lap_feasible sigma [] false L (lap (first ++ m :: rest)) <-> lap_feasible sigma [] false L (lap (first ++ [m])) /\ lap_feasible sigma [] false L (lap (m :: rest))) /\
  lap_objective sigma dis false L (lap (first ++ m :: rest)) = lap_objective sigma dis false L (lap (first ++ [m])) + lap_objective sigma dis false L (lap (m :: rest)) /\
  forall k, lap_integral sigma false L k (lap (first ++ m :: rest)) = lap_integral sigma false L k (lap (first ++ [m])) + lap_integral sigma false L k (lap (m :: rest)).
Proof.
  intros lap. pose (g := fun p : R * f1_point => (fst p, f1_point_eval sp ss g0 c ci elevated lo hi (fst p) (snd p))). assert (Eg : forall l, lap l = map g l) by reflexivity.
  split; [exact (any_cut lap g Eg sigma L first m rest)|]. split; [exact (any_objective_cut lap g Eg sigma L dis first m rest) | intros k; exact (any_integral_cut lap g Eg sigma L k first m rest)].
Qed.
(** A sector of a lap may be replaced by another one with the same ends: what this changes in the lap is what it changes in the sector. *)
Theorem C158_replaced c ci elevated lo hi sigma dis restricted closed L before m l l' z after : let lap := f1_lap sp ss g0 c ci elevated lo hi in
  lap_feasible sigma restricted closed L (lap (before ++ sector m l z ++ after)) -> lap_feasible sigma [] false L (lap (sector m l' z)) ->
  uses_as_much sigma L restricted (lap (sector m l z)) (lap (sector m l' z)) ->
  lap_feasible sigma restricted closed L (lap (before ++ sector m l' z ++ after)) /\
  lap_objective sigma dis closed L (lap (before ++ sector m l' z ++ after)) - lap_objective sigma dis closed L (lap (before ++ sector m l z ++ after)) =
  lap_objective sigma dis false L (lap (sector m l' z)) - lap_objective sigma dis false L (lap (sector m l z)).
Proof.
  intros lap F F' U. pose (g := fun p : R * f1_point => (fst p, f1_point_eval sp ss g0 c ci elevated lo hi (fst p) (snd p))). assert (Eg : forall l, lap l = map g l) by reflexivity.
  split; [exact (any_replaced lap g Eg sigma L restricted closed before m l l' z after F F' U) | exact (any_objective lap g Eg sigma L dis closed before m l l' z after)].
Qed.
(** So each sector of a fastest lap is the fastest between its ends. *)
Theorem C158_sectors c ci elevated lo hi sigma dis restricted closed L before m l z after : let lap := f1_lap sp ss g0 c ci elevated lo hi in
  fastest (fun pts => lap_feasible sigma restricted closed L (lap pts)) (fun pts => lap_objective sigma dis closed L (lap pts)) (before ++ sector m l z ++ after) ->
  fastest_between (fun pts => lap_feasible sigma [] false L (lap pts) /\ uses_as_much sigma L restricted (lap (sector m l z)) (lap pts))
    (fun pts => lap_objective sigma dis false L (lap pts)) m z l.
Proof.
  intros lap F. pose (g := fun p : R * f1_point => (fst p, f1_point_eval sp ss g0 c ci elevated lo hi (fst p) (snd p))). assert (Eg : forall l, lap l = map g l) by reflexivity.
  refine (any_fastest lap g Eg sigma L restricted closed _ _ before m l z after _ F). intros b' _. apply (any_objective lap g Eg).
Qed.
(** And the rest of a fastest open lap is the fastest from where the car is. *)
Theorem C158_rest c ci elevated lo hi sigma dis restricted L p before m rest : let lap := f1_lap sp ss g0 c ci elevated lo hi in
  fastest_from (fun pts => lap_feasible sigma restricted false L (lap pts)) (fun pts => lap_objective sigma dis false L (lap pts)) p (before ++ m :: rest) ->
  fastest_from (fun pts => lap_feasible sigma [] false L (lap pts) /\ uses_as_much sigma L restricted (lap (m :: rest)) (lap pts))
    (fun pts => lap_objective sigma dis false L (lap pts)) m rest.
Proof.
  intros lap F. pose (g := fun p : R * f1_point => (fst p, f1_point_eval sp ss g0 c ci elevated lo hi (fst p) (snd p))). assert (Eg : forall l, lap l = map g l) by reflexivity.
  refine (any_tail lap g Eg sigma L restricted _ p before m rest _ F). intros l' _. 
  pose proof (any_objective_cut lap g Eg sigma L dis (p :: before) m l') as E1. pose proof (any_objective_cut lap g Eg sigma L dis (p :: before) m rest) as E2. cbn [app] in E1, E2. lra.
Qed.

(** The same if the rates of the controls are variables, also with the left rates that the program takes. *)
Theorem C158_rate_sectors c ci elevated lo hi meshed rlo rhi dis sigma restricted closed L before m l z after : let lap := f1_rated sp ss g0 c ci elevated lo hi in
  let evaluated pts := map (fun p => (fst p, with_rates meshed rlo rhi (fst (snd p)) (snd (snd p)))) (lap pts) in
  fastest (fun pts => rate_feasible meshed rlo rhi sigma restricted closed L (lap pts)) (fun pts => rate_objective meshed rlo rhi dis sigma closed L (lap pts)) (before ++ sector m l z ++ after) ->
  fastest_between (fun pts => rate_feasible meshed rlo rhi sigma [] false L (lap pts) /\ uses_as_much sigma L restricted (evaluated (sector m l z)) (evaluated pts))
    (fun pts => rate_objective meshed rlo rhi dis sigma false L (lap pts)) m z l.
Proof.
  intros lap ev F.
  pose (g := fun p : R * (f1_point * list R) => (fst p, with_rates meshed rlo rhi (f1_point_eval sp ss g0 c ci elevated lo hi (fst p) (fst (snd p))) (snd (snd p)))).
  assert (Eg : forall l, ev l = map g l) by (intros l'; unfold ev, lap, f1_rated; rewrite map_map; reflexivity).
  assert (Er : forall l, map (fun p : R * (point_eval * list R) => (fst p, snd (snd p))) (lap l) = map (fun p => (fst p, snd (snd p))) l) by (intros l'; unfold lap, f1_rated; rewrite map_map; reflexivity).
  refine (any_fastest ev g Eg sigma L restricted closed _ _ before m l z after _ F). intros b' E. unfold rate_objective. rewrite !Er.
  pose proof (any_objective ev g Eg sigma L [] closed before m l b' z after) as D. fold (ev (before ++ sector m b' z ++ after)) (ev (before ++ sector m l z ++ after)) (ev (sector m b' z)) (ev (sector m l z)).
  rewrite !(map_app (fun p : R * (f1_point * list R) => (fst p, snd (snd p)))), !(sector_map (fun p : R * (f1_point * list R) => (fst p, snd (snd p)))).
  pose proof (penalty_sector meshed dis closed L (map (fun p => (fst p, snd (snd p))) before) (fst m, snd (snd m)) (map (fun p => (fst p, snd (snd p))) l) (map (fun p => (fst p, snd (snd p))) b') (fst z, snd (snd z)) (map (fun p => (fst p, snd (snd p))) after)) as Q.
  specialize (Q ltac:(rewrite !map_map; exact E)). lra.
Qed.
Theorem C158_rate_rest c ci elevated lo hi meshed rlo rhi dis sigma restricted L p before m rest : let lap := f1_rated sp ss g0 c ci elevated lo hi in
  let evaluated pts := map (fun p => (fst p, with_rates meshed rlo rhi (fst (snd p)) (snd (snd p)))) (lap pts) in
  fastest_from (fun pts => rate_feasible meshed rlo rhi sigma restricted false L (lap pts)) (fun pts => rate_objective meshed rlo rhi dis sigma false L (lap pts)) p (before ++ m :: rest) ->
  fastest_from (fun pts => rate_feasible meshed rlo rhi sigma [] false L (lap pts) /\ uses_as_much sigma L restricted (evaluated (m :: rest)) (evaluated pts))
    (fun pts => rate_objective meshed rlo rhi dis sigma false L (lap pts)) m rest.
Proof.
  intros lap ev F.
  pose (g := fun p : R * (f1_point * list R) => (fst p, with_rates meshed rlo rhi (f1_point_eval sp ss g0 c ci elevated lo hi (fst p) (fst (snd p))) (snd (snd p)))).
  assert (Eg : forall l, ev l = map g l) by (intros l'; unfold ev, lap, f1_rated; rewrite map_map; reflexivity).
  assert (Er : forall l, map (fun p : R * (point_eval * list R) => (fst p, snd (snd p))) (lap l) = map (fun p => (fst p, snd (snd p))) l) by (intros l'; unfold lap, f1_rated; rewrite map_map; reflexivity).
  refine (any_tail ev g Eg sigma L restricted _ p before m rest _ F). intros l' E. unfold rate_objective. rewrite !Er.
  pose proof (any_objective_cut ev g Eg sigma L [] (p :: before) m l') as E1. pose proof (any_objective_cut ev g Eg sigma L [] (p :: before) m rest) as E2. cbn [app] in E1, E2.
  fold (ev (p :: before ++ m :: l')) (ev (p :: before ++ m :: rest)) (ev (m :: l')) (ev (m :: rest)). rewrite E1, E2. cbn [map]. rewrite !map_app. cbn [map].
  pose proof (penalty_tail meshed dis L (fst p, snd (snd p)) (map (fun p => (fst p, snd (snd p))) before) (fst m, snd (snd m)) (map (fun p => (fst p, snd (snd p))) rest) (map (fun p => (fst p, snd (snd p))) l')) as Q.
  specialize (Q ltac:(rewrite !map_map; exact E)). lra.
Qed.
End F1.

Section Kart.
Context (sp ss : R -> R -> R) (linsolve : mat -> vec -> vec).

Theorem C158_kart_parts c ci lo hi sigma dis L first m rest : let lap := kart_lap_points sp ss linsolve c ci lo hi in
  (lap_feasible sigma [] false L (lap (first ++ m :: rest)) <-> lap_feasible sigma [] false L (lap (first ++ [m])) /\ lap_feasible sigma [] false L (lap (m :: rest))) /\
  lap_objective sigma dis false L (lap (first ++ m :: rest)) = lap_objective sigma dis false L (lap (first ++ [m])) + lap_objective sigma dis false L (lap (m :: rest)) /\
  forall k, lap_integral sigma false L k (lap (first ++ m :: rest)) = lap_integral sigma false L k (lap (first ++ [m])) + lap_integral sigma false L k (lap (m :: rest)).
Proof.
  intros lap. pose (g := fun p : R * kart_point => (fst p, kart_point_eval sp ss linsolve c ci lo hi (fst p) (snd p))). assert (Eg : forall l, lap l = map g l) by reflexivity.
  split; [exact (any_cut lap g Eg sigma L first m rest)|]. split; [exact (any_objective_cut lap g Eg sigma L dis first m rest) | intros k; exact (any_integral_cut lap g Eg sigma L k first m rest)].
Qed.
Theorem C158_kart_replaced c ci lo hi sigma dis restricted closed L before m l l' z after : let lap := kart_lap_points sp ss linsolve c ci lo hi in
  lap_feasible sigma restricted closed L (lap (before ++ sector m l z ++ after)) -> lap_feasible sigma [] false L (lap (sector m l' z)) ->
  uses_as_much sigma L restricted (lap (sector m l z)) (lap (sector m l' z)) ->
  lap_feasible sigma restricted closed L (lap (before ++ sector m l' z ++ after)) /\
  lap_objective sigma dis closed L (lap (before ++ sector m l' z ++ after)) - lap_objective sigma dis closed L (lap (before ++ sector m l z ++ after)) =
  lap_objective sigma dis false L (lap (sector m l' z)) - lap_objective sigma dis false L (lap (sector m l z)).
Proof.
  intros lap F F' U. pose (g := fun p : R * kart_point => (fst p, kart_point_eval sp ss linsolve c ci lo hi (fst p) (snd p))). assert (Eg : forall l, lap l = map g l) by reflexivity.
  split; [exact (any_replaced lap g Eg sigma L restricted closed before m l l' z after F F' U) | exact (any_objective lap g Eg sigma L dis closed before m l l' z after)].
Qed.
Theorem C158_kart_sectors c ci lo hi sigma dis restricted closed L before m l z after : let lap := kart_lap_points sp ss linsolve c ci lo hi in
  fastest (fun pts => lap_feasible sigma restricted closed L (lap pts)) (fun pts => lap_objective sigma dis closed L (lap pts)) (before ++ sector m l z ++ after) ->
  fastest_between (fun pts => lap_feasible sigma [] false L (lap pts) /\ uses_as_much sigma L restricted (lap (sector m l z)) (lap pts))
    (fun pts => lap_objective sigma dis false L (lap pts)) m z l.
Proof.
  intros lap F. pose (g := fun p : R * kart_point => (fst p, kart_point_eval sp ss linsolve c ci lo hi (fst p) (snd p))). assert (Eg : forall l, lap l = map g l) by reflexivity.
  refine (any_fastest lap g Eg sigma L restricted closed _ _ before m l z after _ F). intros b' _. apply (any_objective lap g Eg).
Qed.
Theorem C158_kart_rest c ci lo hi sigma dis restricted L p before m rest : let lap := kart_lap_points sp ss linsolve c ci lo hi in
  fastest_from (fun pts => lap_feasible sigma restricted false L (lap pts)) (fun pts => lap_objective sigma dis false L (lap pts)) p (before ++ m :: rest) ->
  fastest_from (fun pts => lap_feasible sigma [] false L (lap pts) /\ uses_as_much sigma L restricted (lap (m :: rest)) (lap pts))
    (fun pts => lap_objective sigma dis false L (lap pts)) m rest.
Proof.
  intros lap F. pose (g := fun p : R * kart_point => (fst p, kart_point_eval sp ss linsolve c ci lo hi (fst p) (snd p))). assert (Eg : forall l, lap l = map g l) by reflexivity.
  refine (any_tail lap g Eg sigma L restricted _ p before m rest _ F). intros l' _. 
  pose proof (any_objective_cut lap g Eg sigma L dis (p :: before) m l') as E1. pose proof (any_objective_cut lap g Eg sigma L dis (p :: before) m rest) as E2. cbn [app] in E1, E2. lra.
Qed.

Theorem C158_kart_rate_sectors c ci lo hi meshed rlo rhi dis sigma restricted closed L before m l z after : let lap := kart_rated sp ss linsolve c ci lo hi in
  let evaluated pts := map (fun p => (fst p, with_rates meshed rlo rhi (fst (snd p)) (snd (snd p)))) (lap pts) in
  fastest (fun pts => rate_feasible meshed rlo rhi sigma restricted closed L (lap pts)) (fun pts => rate_objective meshed rlo rhi dis sigma closed L (lap pts)) (before ++ sector m l z ++ after) ->
  fastest_between (fun pts => rate_feasible meshed rlo rhi sigma [] false L (lap pts) /\ uses_as_much sigma L restricted (evaluated (sector m l z)) (evaluated pts))
    (fun pts => rate_objective meshed rlo rhi dis sigma false L (lap pts)) m z l.
Proof.
  intros lap ev F.
  pose (g := fun p : R * (kart_point * list R) => (fst p, with_rates meshed rlo rhi (kart_point_eval sp ss linsolve c ci lo hi (fst p) (fst (snd p))) (snd (snd p)))).
  assert (Eg : forall l, ev l = map g l) by (intros l'; unfold ev, lap, kart_rated; rewrite map_map; reflexivity).
  assert (Er : forall l, map (fun p : R * (point_eval * list R) => (fst p, snd (snd p))) (lap l) = map (fun p => (fst p, snd (snd p))) l) by (intros l'; unfold lap, kart_rated; rewrite map_map; reflexivity).
  refine (any_fastest ev g Eg sigma L restricted closed _ _ before m l z after _ F). intros b' E. unfold rate_objective. rewrite !Er.
  pose proof (any_objective ev g Eg sigma L [] closed before m l b' z after) as D. fold (ev (before ++ sector m b' z ++ after)) (ev (before ++ sector m l z ++ after)) (ev (sector m b' z)) (ev (sector m l z)).
  rewrite !(map_app (fun p : R * (kart_point * list R) => (fst p, snd (snd p)))), !(sector_map (fun p : R * (kart_point * list R) => (fst p, snd (snd p)))).
  pose proof (penalty_sector meshed dis closed L (map (fun p => (fst p, snd (snd p))) before) (fst m, snd (snd m)) (map (fun p => (fst p, snd (snd p))) l) (map (fun p => (fst p, snd (snd p))) b') (fst z, snd (snd z)) (map (fun p => (fst p, snd (snd p))) after)) as Q.
  specialize (Q ltac:(rewrite !map_map; exact E)). lra.
Qed.
Theorem C158_kart_rate_rest c ci lo hi meshed rlo rhi dis sigma restricted L p before m rest : let lap := kart_rated sp ss linsolve c ci lo hi in
  let evaluated pts := map (fun p => (fst p, with_rates meshed rlo rhi (fst (snd p)) (snd (snd p)))) (lap pts) in
  fastest_from (fun pts => rate_feasible meshed rlo rhi sigma restricted false L (lap pts)) (fun pts => rate_objective meshed rlo rhi dis sigma false L (lap pts)) p (before ++ m :: rest) ->
  fastest_from (fun pts => rate_feasible meshed rlo rhi sigma [] false L (lap pts) /\ uses_as_much sigma L restricted (evaluated (m :: rest)) (evaluated pts))
    (fun pts => rate_objective meshed rlo rhi dis sigma false L (lap pts)) m rest.
Proof.
  intros lap ev F.
  pose (g := fun p : R * (kart_point * list R) => (fst p, with_rates meshed rlo rhi (kart_point_eval sp ss linsolve c ci lo hi (fst p) (fst (snd p))) (snd (snd p)))).
  assert (Eg : forall l, ev l = map g l) by (intros l'; unfold ev, lap, kart_rated; rewrite map_map; reflexivity).
  assert (Er : forall l, map (fun p : R * (point_eval * list R) => (fst p, snd (snd p))) (lap l) = map (fun p => (fst p, snd (snd p))) l) by (intros l'; unfold lap, kart_rated; rewrite map_map; reflexivity).
  refine (any_tail ev g Eg sigma L restricted _ p before m rest _ F). intros l' E. unfold rate_objective. rewrite !Er.
  pose proof (any_objective_cut ev g Eg sigma L [] (p :: before) m l') as E1. pose proof (any_objective_cut ev g Eg sigma L [] (p :: before) m rest) as E2. cbn [app] in E1, E2.
  fold (ev (p :: before ++ m :: l')) (ev (p :: before ++ m :: rest)) (ev (m :: l')) (ev (m :: rest)). rewrite E1, E2. cbn [map]. rewrite !map_app. cbn [map].
  pose proof (penalty_tail meshed dis L (fst p, snd (snd p)) (map (fun p => (fst p, snd (snd p))) before) (fst m, snd (snd m)) (map (fun p => (fst p, snd (snd p))) rest) (map (fun p => (fst p, snd (snd p))) l')) as Q.
  specialize (Q ltac:(rewrite !map_map; exact E)). lra.
Qed.
End Kart.

(** ** Cases *)
Lemma rebound_controls c ci elevated lo hi lo' hi' s p : 
  let e := f1_point_eval positive_part same_sign (981 / 100) c ci elevated lo hi s p in let e' := f1_point_eval positive_part same_sign (981 / 100) c ci elevated lo' hi' s p in
  e_u e' = e_u e /\ e_int e' = e_int e.
Proof. cbv zeta. unfold f1_point_eval. destruct (track_eval _ _ _ _ _ _ _ _). destruct (f1_on_track _ _ _ _ _ _ _ _ _). destruct (f1_extra_bounds _ _ _ _ _ _ _ _). split; reflexivity. Qed.
Lemma calm_glides b s : 0 <= b <= 1 -> glides b (f1_point_eval positive_part same_sign (981 / 100) gliding_car straight false calm_low (calm_high 50) s (gliding_point 50 b)).
Proof.
  intros Hb. destruct (gliding_evaluation 50 b s ltac:(lra) ltac:(lra)) as (A1 & A2 & A3 & A4 & A5 & A6 & A7 & A8).
  destruct (rebound gliding_car straight false gliding_low gliding_high calm_low (calm_high 50) s (gliding_point 50 b)) as (R1 & R2 & R3 & R4 & R5 & R6 & R7 & R8 & R9 & R10).
  destruct (rebound_controls gliding_car straight false gliding_low gliding_high calm_low (calm_high 50) s (gliding_point 50 b)) as (R11 & R12).
  unfold glides. rewrite R1, R2, R3, R4, R5, R6, R7, R8, R9, R10, R11, R12. do 5 (split; [assumption|]). split; [|split; assumption].
  unfold calm_low, calm_high, gliding_point, gliding_input, f1_variables; cbn. repeat (apply bounded_cons; split; [lra|]). apply bounded_nil.
Qed.
Lemma glides_element l r ds bl br sigma : glides bl l -> glides br r -> element_holds sigma (ds, (l, r)).
Proof. intros (L1 & L2 & L3 & L4 & L5 & L6 & L7 & L8) (R1 & R2 & R3 & R4 & R5 & R6 & R7 & R8). apply gliding_elements; assumption. Qed.
Lemma calm_moderate s p : f1_inputs_between (fst (calm_low s)) (fp_in p) (fst (calm_high 50 s)) -> between (snd (calm_low s)) (fp_alpha p) (snd (calm_high 50 s)) ->
  moderate 1 50 (turning straight s) (fp_n p) (fp_alpha p) (i_u (fp_in p)) (i_v (fp_in p)).
Proof.
  intros B [Ba Bb]. cbn [fst snd calm_low calm_high] in *. unfold f1_inputs_between, between in B. cbn [fst calm_low calm_high i_u i_v] in B. 
  pose proof (Forall_inv (Forall_inv_tail (Forall_inv_tail (Forall_inv_tail (Forall_inv_tail B))))) as Bu. pose proof (Forall_inv (Forall_inv_tail (Forall_inv_tail (Forall_inv_tail (Forall_inv_tail (Forall_inv_tail B)))))) as Bv. cbn in Bu, Bv.
  assert (Ev : i_v (fp_in p) = 0) by lra. assert (Ea : fp_alpha p = 0) by lra. unfold moderate. rewrite straight_turning, Ev, Ea, sin_0, cos_0. repeat split; nra.
Qed.
(** The gliding car at its highest speed, the boost at the second of four points: the lap without it is fastest, and the other one is allowed and has a higher value, by what it costs in
    the first sector. *)
Example C158_case : let lap := f1_lap positive_part same_sign (981 / 100) gliding_car straight false calm_low (calm_high 50) in
  let first b := sector (0, gliding_point 50 0) [(30, gliding_point 50 b)] (60, gliding_point 50 0) in let whole b := [] ++ first b ++ [(80, gliding_point 50 0)] in
  let dis := [0; 1; 0; 0] in
  fastest (fun pts => lap_feasible (1 / 2) [] true 100 (lap pts)) (fun pts => lap_objective (1 / 2) dis true 100 (lap pts)) (whole 0) /\
  lap_feasible (1 / 2) [] true 100 (lap (whole 1)) /\ lap_feasible (1 / 2) [] false 100 (lap (first 1)) /\
  lap_objective (1 / 2) dis true 100 (lap (whole 0)) = 2 /\ lap_objective (1 / 2) dis true 100 (lap (whole 1)) = 2 + 1 / 15 /\
  lap_objective (1 / 2) dis false 100 (lap (first 0)) = 6 / 5 /\ lap_objective (1 / 2) dis false 100 (lap (first 1)) = 6 / 5 + 1 / 15.
Proof.
  intros lap first whole dis.
  assert (F : forall b, 0 <= b <= 1 -> lap_feasible (1 / 2) [] true 100 (lap (whole b))).
  { intros b Hb. pose proof (calm_glides 0 0 ltac:(lra)) as G0. pose proof (calm_glides b 30 Hb) as G1. pose proof (calm_glides 0 60 ltac:(lra)) as G2. pose proof (calm_glides 0 80 ltac:(lra)) as G3.
    unfold lap, whole, first, sector, f1_lap. cbn [map app fst snd]. split; [|split; [|constructor]].
    - unfold mesh_elements. cbn [inner_elements closing_element app last fst snd]. repeat (apply Forall_cons; [eapply glides_element; eassumption|]). apply Forall_nil.
    - unfold variables_hold. repeat (apply Forall_cons; [cbn [snd]; match goal with |- bounded (e_xlb ?e) _ _ => match goal with G : glides _ e |- _ => apply G end end|]). apply Forall_nil. }
  assert (V : lap_objective (1 / 2) dis true 100 (lap (whole 0)) = 2).
  { unfold lap, whole, first, dis. rewrite C153_value. unfold along, wear, values, closed_up, sector. cbn [map app fst snd weighted roughness]. rewrite !gliding_pace. cbn. lra. }
  split; [|split; [|split; [|split; [exact V|split; [|split]]]]].
  - split; [apply F; lra|]. intros pts Em Fe. rewrite V. unfold whole, first, sector in Em. cbn [map app fst] in Em.
    assert (M : Forall (fun p => moderate 1 50 (turning straight (fst p)) (fp_n (snd p)) (fp_alpha (snd p)) (i_u (fp_in (snd p))) (i_v (fp_in (snd p)))) pts).
    { rewrite Forall_forall. intros [s p] Hp. destruct (C153_within _ _ _ _ _ _ _ _ _ _ _ _ _ s p Fe Hp) as (B & Ba & _). apply calm_moderate; assumption. }
    pose proof (C153_fastest positive_part same_sign (981 / 100) gliding_car straight false calm_low (calm_high 50) pts (1 / 2) 0 1 0 0 true 100 1 50) as K.
    destruct pts as [|[s0 p0] [|[s1 p1] [|[s2 p2] [|[s3 p3] [|? ?]]]]]; try discriminate. cbn [map fst] in Em. injection Em as -> -> -> ->.
    assert (D : distance true 100 [(0, p0); (30, p1); (60, p2); (80, p3)] = 100) by (unfold distance, closed_up; cbn; lra). rewrite D in K.
    assert (Ri : rising true 100 [(0, p0); (30, p1); (60, p2); (80, p3)]) by (unfold rising, closed_up; cbn; repeat constructor; lra).
    specialize (K ltac:(lra) ltac:(lra) ltac:(lra) ltac:(lra) ltac:(lra) Ri ltac:(lra) ltac:(lra) M). replace 2 with (1 / 50 * 100) at 1 by lra. exact K.
  - apply F. lra.
  - apply (any_sector lap (fun p : R * f1_point => (fst p, f1_point_eval positive_part same_sign (981 / 100) gliding_car straight false calm_low (calm_high 50) (fst p) (snd p))) (fun _ => eq_refl) (1 / 2) 100 [] true [] (0, gliding_point 50 0) [(30, gliding_point 50 1)] (60, gliding_point 50 0) [(80, gliding_point 50 0)]).
    apply (F 1). lra.
  - unfold lap, whole, first, dis. rewrite C153_value. unfold along, wear, values, closed_up, sector. cbn [map app fst snd weighted roughness]. rewrite !gliding_pace. cbn. lra.
  - unfold lap, whole, first, dis. rewrite C153_value. unfold along, wear, values, closed_up, sector. cbn [map app fst snd weighted roughness]. rewrite !gliding_pace. cbn. lra.
  - unfold lap, whole, first, dis. rewrite C153_value. unfold along, wear, values, closed_up, sector. cbn [map app fst snd weighted roughness]. rewrite !gliding_pace. cbn. lra.
Qed.

(** The same with the rates of the boost as variables: the boost is not moved on the fastest lap. *)
Example C158_rate_case : let lap := f1_rated positive_part same_sign (981 / 100) gliding_car straight false calm_low (calm_high 50) in
  let idle := (gliding_point 50 0, [0; 0]) in let whole := [] ++ sector (0, idle) [(30, idle)] (60, idle) ++ [(80, idle)] in
  fastest (fun pts => rate_feasible [1%nat] f1_rate_lo f1_rate_hi (1 / 2) [] true 100 (lap pts)) (fun pts => rate_objective [1%nat] f1_rate_lo f1_rate_hi [0; 1] (1 / 2) true 100 (lap pts)) whole.
Proof.
  intros lap idle whole. split.
  - pose proof (calm_glides 0 0 ltac:(lra)) as G0. pose proof (calm_glides 0 30 ltac:(lra)) as G1. pose proof (calm_glides 0 60 ltac:(lra)) as G2. pose proof (calm_glides 0 80 ltac:(lra)) as G3.
    unfold rate_feasible, lap, f1_rated, whole, sector, idle. cbn [map app fst snd]. split; [|split; [|constructor]].
    + unfold mesh_elements. cbn [inner_elements closing_element app last fst snd]. repeat (apply Forall_cons; [eapply gliding_rated_element; [eassumption | eassumption | lra]|]). apply Forall_nil.
    + unfold variables_hold. repeat (apply Forall_cons; [cbn [snd]; eapply gliding_rated_bounds; [eassumption | lra]|]). apply Forall_nil.
  - intros pts Em Fe. 
    assert (M : Forall (fun p => let q := fst (snd p) in moderate 1 50 (turning straight (fst p)) (fp_n q) (fp_alpha q) (i_u (fp_in q)) (i_v (fp_in q))) pts).
    { rewrite Forall_forall. intros [s [p w]] Hp. apply C154_direct in Fe. apply (C153_within _ _ _ _ _ _ _ _ _ _ _ _ _ s p) in Fe; [|unfold chosen; apply in_map_iff; exists (s, (p, w)); split; [reflexivity | exact Hp]].
      destruct Fe as (B & Ba & _). apply calm_moderate; assumption. }
    pose proof (C154_fastest positive_part same_sign (981 / 100) gliding_car straight false calm_low (calm_high 50) pts (1 / 2) [0; 1] true 100 [1%nat] 1 50) as K.
    unfold whole, sector in Em. cbn [map app fst] in Em.
    destruct pts as [|[s0 p0] [|[s1 p1] [|[s2 p2] [|[s3 p3] [|? ?]]]]]; try discriminate. cbn [map fst] in Em. injection Em as -> -> -> ->.
    assert (D : distance true 100 [(0, p0); (30, p1); (60, p2); (80, p3)] = 100) by (unfold distance, closed_up; cbn; lra). rewrite D in K.
    assert (Ri : rising true 100 [(0, p0); (30, p1); (60, p2); (80, p3)]) by (unfold rising, closed_up; cbn; repeat constructor; lra).
    specialize (K ltac:(lra) ltac:(repeat constructor; cbn; lra) Ri ltac:(lra) ltac:(lra) M). eapply Rle_trans; [|exact K]. apply Req_le.
    unfold lap. rewrite C154_value_partial. unfold along, values, closed_up, whole, idle, sector, lopsided_effort, distance, along, values, squared_rate, rate, closed_up. cbn [map app fst snd weighted penalised fold_right nth last hd].
    rewrite !gliding_pace. lra.
Qed.
(** A kart that coasts at its highest speed. *)
Definition slow_low : kart_input * R := (KartInput (MkState6 5 0 (- (1)) 0 (- (1)) (- (1)) (- (1)) (- (1)) (- (1))) 0 (- (1)) (- (1)), 0).
Definition slow_high : kart_input * R := (KartInput (MkState6 10 0 1 1 1 1 1 1 1) 200 1 1, 0).
Example C158_kart_case : let lap := kart_lap_points positive_part same_sign cramer gripping_kart level (fun _ => slow_low) (fun _ => slow_high) in let p := coasting_point in
  fastest (fun pts => lap_feasible (1 / 2) [] true 100 (lap pts)) (fun pts => lap_objective (1 / 2) [1; 1] true 100 (lap pts)) ([] ++ sector (0, p) [(30, p)] (60, p) ++ [(80, p)]).
Proof.
  intros lap p. destruct C157_kart_case as (Nw & C & _ & Im & He & _ & F & _).
  apply (C157_kart_lap positive_part same_sign cramer gripping_kart level (kart_low 0) (kart_high 0) [0; 40] p (1 / 2) true 100 0 5 5 Nw C Im He) in F; [|cbn; lra | cbn; rewrite cos_0, sin_0; lra].
  destruct F as (St & Fo & (_ & _ & A)).
  assert (Im' : increasing_mesh true 100 [0; 30; 60; 80]) by (unfold increasing_mesh; cbn; repeat constructor; lra). assert (He' : has_element true [0; 30; 60; 80]) by (cbn; lia).
  change ([] ++ sector (0, p) [(30, p)] (60, p) ++ [(80, p)]) with (round_lap [0; 30; 60; 80] p).
  split.
  - apply (C157_kart_lap positive_part same_sign cramer gripping_kart level slow_low slow_high [0; 30; 60; 80] p (1 / 2) true 100 0 5 5 Nw C Im' He'); [cbn; lra | cbn; rewrite cos_0, sin_0; lra|].
    split; [exact St|]. split; [exact Fo|]. split; [split; repeat (apply Forall_cons; [unfold between; cbn; lra|]); apply Forall_nil|]. split; [unfold between; cbn; lra | exact A].
  - intros pts Em Fe.
    assert (M : Forall (fun p => moderate 1 10 (turning level (fst p)) (kp_n (snd p)) (kp_alpha (snd p)) (q_u (i_state (kp_in (snd p)))) (q_v (i_state (kp_in (snd p))))) pts).
    { rewrite Forall_forall. intros [s q] Hq. destruct (C153_kart_within _ _ _ _ _ _ _ _ _ _ _ _ s q Fe Hq) as (B & [Ba Bb] & _). cbn [fst snd] in *. 
      assert (T0 : turning level s = 0) by (unfold turning, level, flat_point, curvature; cbn; rewrite sin_0, cos_0; ring). cbn in Ba, Bb. destruct B as [_ B]. pose proof (Forall_inv B) as [Bu1 Bu2]. pose proof (Forall_inv (Forall_inv_tail B)) as [Bv1 Bv2]. cbn in Bu1, Bu2, Bv1, Bv2.
      assert (Ev : q_v (i_state (kp_in q)) = 0) by lra. assert (Ea : kp_alpha q = 0) by lra. unfold moderate. rewrite T0, Ev, Ea, sin_0, cos_0. repeat split; nra. }
    pose proof (C153_kart_fastest positive_part same_sign cramer gripping_kart level (fun _ => slow_low) (fun _ => slow_high) pts (1 / 2) 1 1 true 100 1 10) as K.
    destruct pts as [|[s0 p0] [|[s1 p1] [|[s2 p2] [|[s3 p3] [|? ?]]]]]; try discriminate. cbn [map fst round_lap] in Em. injection Em as -> -> -> ->.
    assert (D : distance true 100 [(0, p0); (30, p1); (60, p2); (80, p3)] = 100) by (unfold distance, closed_up; cbn; lra). rewrite D in K.
    assert (Ri : rising true 100 [(0, p0); (30, p1); (60, p2); (80, p3)]) by (unfold rising, closed_up; cbn; repeat constructor; lra).
    specialize (K ltac:(lra) ltac:(lra) ltac:(lra) Ri ltac:(lra) ltac:(lra) M). eapply Rle_trans; [|exact K]. apply Req_le.
    unfold lap. rewrite (C157_kart_time positive_part same_sign cramer gripping_kart level _ _ [0; 30; 60; 80] p (1 / 2) true 100 0 5 5 1 1 C Fo ltac:(cbn; rewrite cos_0, sin_0; lra)).
    assert (Sq : sqrt (q_u (i_state (kp_in p)) * q_u (i_state (kp_in p)) + q_v (i_state (kp_in p)) * q_v (i_state (kp_in p))) = 10).
    { cbn. rewrite Rmult_0_l, Rplus_0_r. apply sqrt_square. lra. }
    rewrite Sq. unfold distance. cbn. field.
Qed.

Print Assumptions C158_parts.
Print Assumptions C158_replaced.
Print Assumptions C158_sectors.
Print Assumptions C158_rest.
Print Assumptions C158_rate_sectors.
Print Assumptions C158_rate_rest.
Print Assumptions C158_kart_parts.
Print Assumptions C158_kart_replaced.
Print Assumptions C158_kart_sectors.
Print Assumptions C158_kart_rest.
Print Assumptions C158_kart_rate_sectors.
Print Assumptions C158_kart_rate_rest.
