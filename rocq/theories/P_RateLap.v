(** Property theorem C154: laps with rates of the controls. *)
From Coq Require Import Reals Lra Lia List Sorted Permutation.
From Verif Require Import M_Vec M_Tire M_Car M_Road M_F1 M_Kart6 M_KartCar M_Feasible M_RealLap M_RateLap S_F1 S_F1Wheels S_KartCar S_RealLap S_LapLimits S_RateLap L_F1 L_RealLap P_Tire P_Car P_F1 P_F1Wheels P_KartCar P_KartGrip P_RealLap P_LapLimits.
Import ListNotations.
Local Open Scope R_scope.

(** ** Any car *)
Lemma item_app1 l m k : (k < length l)%nat -> item (l ++ m) k = item l k.
Proof. intros H. unfold item. apply app_nth1, H. Qed.
Lemma item_app2 l m k : item (l ++ m) (length l + k) = item m k.
Proof. unfold item. rewrite app_nth2 by lia. f_equal. lia. Qed.
Lemma inner_suffix (Q : mesh_element -> Prop) x y : Forall Q (inner_elements (x ++ y)) -> Forall Q (inner_elements y).
Proof.
  induction x as [|a x IH]; intros F; [exact F|]. apply IH. cbn [app] in F. destruct (x ++ y) as [|b m]; [constructor|].
  change (inner_elements (a :: b :: m)) with ((fst b - fst a, (snd a, snd b)) :: inner_elements (b :: m)) in F. exact (Forall_inv_tail F).
Qed.
Lemma inner_prefix (Q : mesh_element -> Prop) x y : Forall Q (inner_elements (x ++ y)) -> Forall Q (inner_elements x).
Proof.
  destruct x as [|a l]; [constructor|]. destruct y as [|b m]; [rewrite app_nil_r; auto|]. rewrite inner_app. intros F. apply Forall_app in F. exact (proj1 F).
Qed.
Lemma sorted_piece (x y z : list R) : StronglySorted Rlt (x ++ y ++ z) -> StronglySorted Rlt y.
Proof.
  induction x as [|a x IH]; intros S; [|inversion S; apply IH; assumption]. cbn [app] in S. induction y as [|b y IH]; [constructor|].
  cbn [app] in S. inversion S as [|? ? S' F]; subst. constructor; [apply IH, S' | apply Forall_app in F; exact (proj1 F)].
Qed.
Lemma weighted_scale sigma P f : weighted sigma (map (fun p => (fst p, P * snd p)) f) = P * weighted sigma f.
Proof.
  induction f as [|[s x] f IH]; [cbn; ring|]. destruct f as [|[t y] f]; [cbn; ring|]. cbn [map fst snd] in IH |- *.
  change ((t - s) * ((1 - sigma) * (P * x) + sigma * (P * y)) + weighted sigma ((t, P * y) :: map (fun p => (fst p, P * snd p)) f) = P * ((t - s) * ((1 - sigma) * x + sigma * y) + weighted sigma ((t, y) :: f))).
  rewrite IH. ring.
Qed.
Lemma Forall2_maps {A B} (Q : B -> B -> Prop) (f g : A -> B) l : Forall (fun a => Q (f a) (g a)) l -> Forall2 Q (map f l) (map g l).
Proof. intros F. induction F; constructor; assumption. Qed.

Section Any.
Context {P : Type} (meshed : list nat) (wlo whi : list R) (ev : R -> P -> point_eval) (pace : R -> P -> R) (n m : nat).
Context (Hdt : forall s p, e_dt (ev s p) = pace s p) (Hq : forall s p, length (e_q (ev s p)) = n) (Hdq : forall s p, length (e_dq (ev s p)) = n)
  (Hx : forall s p, length (e_x (ev s p)) = m) (Hxlb : forall s p, length (e_xlb (ev s p)) = m) (Hxub : forall s p, length (e_xub (ev s p)) = m).
Definition rated_eval (s : R) (p : P * list R) : point_eval := with_rates meshed wlo whi (ev s (fst p)) (snd p).
Lemma map_rated pts :
  map (fun p => (fst p, with_rates meshed wlo whi (fst (snd p)) (snd (snd p)))) (map (fun p => (fst p, (ev (fst p) (fst (snd p)), snd (snd p)))) pts) =
  map (fun p => (fst p, rated_eval (fst p) (snd p))) pts.
Proof. rewrite map_map. reflexivity. Qed.

Lemma rated_q j s p : (j < length meshed)%nat -> item (e_q (rated_eval s p)) (n + j) = item (e_u (ev s (fst p))) (nth j meshed 0%nat).
Proof. intros Hj. unfold rated_eval, with_rates; cbn [e_q]. rewrite <- (Hq s (fst p)), item_app2. apply (item_map (item (e_u (ev s (fst p))))), Hj. Qed.
Lemma rated_dq j s p : (j < length meshed)%nat -> item (e_dq (rated_eval s p)) (n + j) = item (snd p) (nth j meshed 0%nat) * pace s (fst p).
Proof. intros Hj. unfold rated_eval, with_rates; cbn [e_dq]. rewrite <- (Hdq s (fst p)), item_app2, (item_map _ _ _ 0%nat), Hdt by exact Hj. reflexivity. Qed.
Lemma rated_len j s p : (j < length meshed)%nat -> (n + j < length (e_q (rated_eval s p)))%nat.
Proof. intros Hj. unfold rated_eval, with_rates; cbn [e_q]. rewrite app_length, map_length, Hq. lia. Qed.

(** What a control gains. *)
Lemma turned_any sigma restricted closed L a l k u : In k meshed -> (forall s p, item (e_u (ev s p)) k = u p) ->
  rate_feasible meshed wlo whi sigma restricted closed L (map (fun p => (fst p, (ev (fst p) (fst (snd p)), snd (snd p)))) (a :: l)) ->
  along sigma closed L (fun s p => rate k s p * pace s (fst p)) (a :: l) = if closed then 0 else u (fst (snd (last (a :: l) a))) - u (fst (snd a)).
Proof.
  intros Hk Eu F. unfold rate_feasible in F. rewrite map_rated in F. destruct (In_nth _ _ 0%nat Hk) as (j & Hj & Ej).
  rewrite (gain_any sigma restricted closed L rated_eval (fun _ p => u (fst p)) (fun s p => rate k s p * pace s (fst p)) (n + j) a l); [reflexivity | | | | exact F].
  - intros s p. rewrite rated_q, Ej by exact Hj. apply Eu.
  - intros s p. rewrite rated_dq, Ej by exact Hj. reflexivity.
  - intros s p. apply rated_len, Hj.
Qed.
(** The rates are within their bounds. *)
Lemma rates_any sigma restricted closed L pts k s p : In k meshed ->
  rate_feasible meshed wlo whi sigma restricted closed L (map (fun p => (fst p, (ev (fst p) (fst (snd p)), snd (snd p)))) pts) -> In (s, p) (chosen closed pts) ->
  item wlo k <= item (snd p) k <= item whi k.
Proof.
  intros Hk F Hp. unfold rate_feasible in F. rewrite map_rated in F. destruct (In_nth _ _ 0%nat Hk) as (j & Hj & Ej).
  destruct (holds_at sigma restricted closed L _ _ F (in_chosen rated_eval closed pts s p Hp)) as (_ & _ & X).
  apply (bounded_item _ _ _ (m + j)) in X.
  - assert (I : forall x (f : nat -> R), length x = m -> item (x ++ map f meshed) (m + j) = f k).
    { intros x f <-. rewrite item_app2, (item_map _ _ _ 0%nat), Ej by exact Hj. reflexivity. }
    unfold rated_eval, with_rates in X; cbn [e_x e_xlb e_xub] in X. rewrite !I in X by (apply Hx || apply Hxlb || apply Hxub). exact X.
  - unfold rated_eval, with_rates; cbn [e_x]. rewrite app_length, map_length, Hx. lia.
Qed.
(** No control moves faster than its limits. *)
Lemma moves_any sigma restricted closed L pts k u before a mid z after : 0 <= sigma <= 1 -> rising closed L pts -> In k meshed -> (forall s p, item (e_u (ev s p)) k = u p) ->
  rate_feasible meshed wlo whi sigma restricted closed L (map (fun p => (fst p, (ev (fst p) (fst (snd p)), snd (snd p)))) pts) ->
  Forall (fun p => 0 <= pace (fst p) (fst (snd p))) pts -> closed = true \/ item wlo k <= item (first_rates pts) k <= item whi k ->
  timeline closed L (fun s p => pace s (fst p)) (fun _ p => u (fst p)) pts = before ++ (a :: mid ++ [z]) ++ after ->
  item wlo k * elapsed sigma (a :: mid ++ [z]) <= snd (snd z) - snd (snd a) <= item whi k * elapsed sigma (a :: mid ++ [z]).
Proof.
  intros Hs Ri Hk Eu F Fp H1 E.
  assert (W : Forall (fun p : R * (P * list R) => 0 <= pace (fst p) (fst (snd p)) /\ item wlo k <= item (snd (snd p)) k <= item whi k) pts).
  { rewrite Forall_forall in Fp |- *. intros [s p] Hp. split; [exact (Fp _ Hp)|]. cbn [snd].
    destruct closed; [apply (rates_any _ _ _ _ _ k s p Hk F Hp)|]. destruct pts as [|b l]; [destruct Hp|]. destruct Hp as [-> | Hp].
    - destruct H1 as [H1|H1]; [discriminate H1 | exact H1].
    - apply (rates_any _ _ _ _ _ k s p Hk F Hp). }
  unfold rate_feasible in F. rewrite map_rated in F. destruct F as [F _]. rewrite mesh_closed_up in F.
  destruct (In_nth _ _ 0%nat Hk) as (j & Hj & Ej).
  (* everything from the evaluations *)
  set (X := closed_up closed L (map (fun p => (fst p, (rated_eval (fst p) (snd p), (pace (fst p) (fst (snd p)), (u (fst (snd p)), item (snd (snd p)) k))))) pts)).
  assert (EX : closed_up closed L (map (fun p => (fst p, rated_eval (fst p) (snd p))) pts) = map (fun p => (fst p, fst (snd p))) X).
  { unfold X. rewrite <- (closed_up_map fst). rewrite map_map. reflexivity. }
  assert (ET : timeline closed L (fun s p => pace s (fst p)) (fun _ p => u (fst p)) pts = map (fun p => (fst p, (fst (snd (snd p)), fst (snd (snd (snd p)))))) X).
  { unfold X, timeline. rewrite <- (closed_up_map (fun y => (fst (snd y), fst (snd (snd y))))). rewrite map_map. reflexivity. }
  assert (FX : Forall (fun p : R * (point_eval * (R * (R * R))) => item (e_q (fst (snd p))) (n + j) = fst (snd (snd (snd p))) /\ item (e_dq (fst (snd p))) (n + j) = snd (snd (snd (snd p))) * fst (snd (snd p)) /\
     (n + j < length (e_q (fst (snd p))))%nat /\ 0 <= fst (snd (snd p)) /\ item wlo k <= snd (snd (snd (snd p))) <= item whi k) X).
  { assert (G : forall s p, 0 <= pace s (fst p) -> item wlo k <= item (snd p) k <= item whi k -> 
      item (e_q (rated_eval s p)) (n + j) = u (fst p) /\ item (e_dq (rated_eval s p)) (n + j) = item (snd p) k * pace s (fst p) /\ (n + j < length (e_q (rated_eval s p)))%nat /\
      0 <= pace s (fst p) /\ item wlo k <= item (snd p) k <= item whi k).
    { intros s p G1 G2. split; [rewrite rated_q, Ej by exact Hj; apply Eu|]. split; [rewrite rated_dq, Ej by exact Hj; reflexivity|]. split; [apply rated_len, Hj|]. split; assumption. }
    unfold X, closed_up. apply Forall_app. split.
    - apply Forall_map. apply (Forall_impl _ (P := fun p : R * (P * list R) => 0 <= pace (fst p) (fst (snd p)) /\ item wlo k <= item (snd (snd p)) k <= item whi k)); [|exact W]. intros p [W1 W2]. cbn [fst snd]. apply G; assumption.
    - destruct closed; [|constructor]. destruct W as [|p l [W1 W2] W]; [constructor|]. cbn [map]. constructor; [|constructor]. cbn [fst snd]. apply G; assumption. }
  assert (SX : StronglySorted Rlt (map fst X)).
  { unfold rising in Ri. assert (E' : map fst X = map fst (closed_up closed L pts)); [|rewrite E'; exact Ri].
    unfold X, closed_up. rewrite !map_app, map_map. cbn [fst]. f_equal. destruct closed; [|reflexivity]. destruct pts; reflexivity. }
  rewrite EX in F. rewrite ET in E. clear EX ET Ri W Fp H1. clearbody X.
  apply map_eq_app in E. destruct E as (X1 & X' & -> & E1 & E). apply map_eq_app in E. destruct E as (X2 & X3 & -> & E2 & E3).
  rewrite !map_app in F. apply inner_suffix, inner_prefix in F. apply Forall_app in FX. destruct FX as [_ FX]. apply Forall_app in FX. destruct FX as [FX _].
  rewrite !map_app in SX. apply sorted_piece in SX. clear E1 E3 X1 X3.
  destruct X2 as [|xa xl]; [discriminate E2|]. 
  assert (Ea : a = (fst xa, (fst (snd (snd xa)), fst (snd (snd (snd xa)))))) by (injection E2; congruence).
  assert (Ez : z = (fun p : R * (point_eval * (R * (R * R))) => (fst p, (fst (snd (snd p)), fst (snd (snd (snd p)))))) (last (xa :: xl) xa)).
  { assert (El : last (a :: mid ++ [z]) a = z) by (change (a :: mid ++ [z]) with ((a :: mid) ++ [z]); rewrite last_app2 by discriminate; reflexivity).
    rewrite <- El, <- E2, Ea. clear. generalize (xa :: xl). intros l. induction l as [|x l IH]; [reflexivity|]. destruct l; [reflexivity|]. exact IH. }
  rewrite <- E2. 
  pose proof (inner_gain sigma (n + j) (fst xa, fst (snd xa)) (map (fun p => (fst p, fst (snd p))) xl) F) as G.
  specialize (G ltac:(apply Forall_map; inversion FX as [|? ? _ FX']; subst; apply (Forall_impl _ (fun p H => proj1 (proj2 (proj2 H))) FX'))).
  assert (Ew : weighted sigma (map (fun p => (fst p, item (e_dq (snd p)) (n + j))) ((fst xa, fst (snd xa)) :: map (fun p => (fst p, fst (snd p))) xl)) = 
    weighted sigma (map (fun p : R * (point_eval * (R * (R * R))) => (fst p, snd (snd (snd (snd p))) * fst (snd (snd p)))) (xa :: xl))).
  { f_equal. change ((fst xa, fst (snd xa)) :: map (fun p => (fst p, fst (snd p))) xl) with (map (fun p : R * (point_eval * (R * (R * R))) => (fst p, fst (snd p))) (xa :: xl)).
    rewrite map_map. cbn [fst snd]. apply map_ext_in. intros p Hp. rewrite Forall_forall in FX. destruct (FX p Hp) as (_ & -> & _). reflexivity. }
  rewrite Ew in G. clear Ew.
  assert (Ed : item (e_q (snd (last ((fst xa, fst (snd xa)) :: map (fun p => (fst p, fst (snd p))) xl) (fst xa, fst (snd xa))))) (n + j) - item (e_q (snd (fst xa, fst (snd xa)))) (n + j) = snd (snd z) - snd (snd a)).
  { assert (El : last ((fst xa, fst (snd xa)) :: map (fun p => (fst p, fst (snd p))) xl) (fst xa, fst (snd xa)) = (fun p : R * (point_eval * (R * (R * R))) => (fst p, fst (snd p))) (last (xa :: xl) xa)).
    { change ((fst xa, fst (snd xa)) :: map (fun p => (fst p, fst (snd p))) xl) with (map (fun p : R * (point_eval * (R * (R * R))) => (fst p, fst (snd p))) (xa :: xl)).
      clear. generalize (xa :: xl). intros l. induction l as [|x l IH]; [reflexivity|]. destruct l; [reflexivity|]. exact IH. }
    rewrite El, Ea, Ez. cbn [snd fst]. rewrite Forall_forall in FX. destruct (FX xa (or_introl eq_refl)) as (-> & _). 
    destruct (FX (last (xa :: xl) xa)) as (-> & _); [|reflexivity]. clear. revert xa. induction xl as [|b xl IH]; intros xa; [left; reflexivity|]. right.
    change (last (xa :: b :: xl) xa) with (last (b :: xl) xa). rewrite (last_indep (b :: xl) xa b) by discriminate. apply IH. }
  rewrite Ed in G. rewrite <- G. clear G Ed Ea Ez E2. unfold elapsed. rewrite map_map. cbn [fst snd].
  rewrite <- !weighted_scale, !map_map. cbn [fst snd].
  split; (apply weighted_ge; [exact Hs | rewrite !map_map; reflexivity | rewrite map_map; exact SX | apply Forall2_maps;
    apply (Forall_impl _ (P := fun p : R * (point_eval * (R * (R * R))) => item (e_q (fst (snd p))) (n + j) = fst (snd (snd (snd p))) /\ item (e_dq (fst (snd p))) (n + j) = snd (snd (snd (snd p))) * fst (snd (snd p)) /\
     (n + j < length (e_q (fst (snd p))))%nat /\ 0 <= fst (snd (snd p)) /\ item wlo k <= snd (snd (snd (snd p))) <= item whi k)); [|exact FX];
    intros p (_ & _ & _ & D & Bw); cbn [snd]; apply Rmult_le_compat_r; [exact D | lra]]).
Qed.

(** The value. *)
Lemma time_any sigma closed L pts : lap_objective sigma [] closed L (map (fun p => (fst p, rated_eval (fst p) (snd p))) pts) = along sigma closed L (fun s p => pace s (fst p)) pts.
Proof.
  unfold lap_objective. rewrite <- (along_eval sigma closed L rated_eval e_dt (fun s p => pace s (fst p)) pts) by (intros; apply Hdt). f_equal. apply map_ext. intros [ds [l r]].
  unfold element_cost. cbn [length seq map]. unfold total; cbn [fold_right]. apply Rplus_0_r.
Qed.
End Any.

Lemma penalised_cons dis k l f : penalised dis (k :: l) f = nth k dis 0 * f k + penalised dis l f. Proof. reflexivity. Qed.
Lemma penalised_zero dis meshed : 0 = penalised dis meshed (fun _ => 0).
Proof. induction meshed as [|k l IH]; [reflexivity|]. rewrite penalised_cons, <- IH. ring. Qed.
Lemma penalised_plus dis meshed f g : penalised dis meshed f + penalised dis meshed g = penalised dis meshed (fun k => f k + g k).
Proof. induction meshed as [|k l IH]; [apply Rplus_0_r|]. rewrite !penalised_cons, <- IH. ring. Qed.
Lemma penalised_ext dis meshed f g : (forall k, f k = g k) -> penalised dis meshed f = penalised dis meshed g.
Proof. intros E. induction meshed as [|k l IH]; [reflexivity|]. rewrite !penalised_cons, IH, E. reflexivity. Qed.
Lemma cost_penalised meshed dis v w ds : rate_cost meshed dis v w ds = penalised dis meshed (fun k => (nth k v 0 ^ 2 + nth k w 0 ^ 2) * ds / 2).
Proof. unfold rate_cost, total. induction meshed as [|k l IH]; [reflexivity|]. cbn [map fold_right]. rewrite penalised_cons, <- IH. unfold item. field. Qed.
Lemma costs_penalised {P} meshed dis first (a : R * (P * list R)) l : rate_costs meshed dis first (map (fun p => (fst p, snd (snd p))) (a :: l)) =
  penalised dis meshed (fun k => (nth k first 0 ^ 2 * (last (map fst (a :: l)) 0 - fst a) + weighted 1 (values (squared_rate k) (a :: l))) / 2).
Proof.
  revert a. induction l as [|b l IH]; intros a.
  - change (0 = penalised dis meshed (fun k => (nth k first 0 ^ 2 * (fst a - fst a) + 0) / 2)). etransitivity; [apply (penalised_zero dis meshed)|]. apply penalised_ext. intros k. field.
  - change (map (fun p => (fst p, snd (snd p))) (a :: b :: l)) with ((fst a, snd (snd a)) :: map (fun p : R * (P * list R) => (fst p, snd (snd p))) (b :: l)).
    change (rate_cost meshed dis first (snd (snd b)) (fst b - fst a) + rate_costs meshed dis first (map (fun p => (fst p, snd (snd p))) (b :: l)) =
      penalised dis meshed (fun k => (nth k first 0 ^ 2 * (last (map fst (b :: l)) 0 - fst a) + weighted 1 (values (squared_rate k) (a :: b :: l))) / 2)).
    rewrite IH, cost_penalised, penalised_plus. apply penalised_ext. intros k. set (z := last _ 0). clearbody z.
    change (weighted 1 (values (squared_rate k) (a :: b :: l))) with
      ((fst b - fst a) * ((1 - 1) * squared_rate k (fst a) (snd a) + 1 * squared_rate k (fst b) (snd b)) + weighted 1 (values (squared_rate k) (b :: l))).
    unfold squared_rate at 3. unfold rate. field.
Qed.
Lemma penalty_value {P} meshed dis closed L (pts : list (R * (P * list R))) :
  rate_penalty meshed dis closed L (map (fun p => (fst p, snd (snd p))) pts) = penalised dis meshed (fun k => lopsided_effort closed L k pts).
Proof.
  destruct pts as [|a l]; [apply penalised_zero|].
  unfold rate_penalty. change (map (fun p => (fst p, snd (snd p))) (a :: l)) with ((fst a, snd (snd a)) :: map (fun p : R * (P * list R) => (fst p, snd (snd p))) l) at 1. cbv iota beta.
  assert (El : last (map (fun p : R * (P * list R) => (fst p, snd (snd p))) (a :: l)) (fst a, snd (snd a)) = (fst (last (a :: l) a), snd (snd (last (a :: l) a)))).
  { generalize (a :: l). intros m. induction m as [|x m IH]; [reflexivity|]. destruct m; [reflexivity|]. exact IH. }
  assert (Es : last (map fst (a :: l)) 0 = fst (last (a :: l) a)).
  { clear. revert a. induction l as [|b l IH]; intros a; [reflexivity|]. change (last (map fst (b :: l)) 0 = fst (last (b :: l) a)). rewrite IH. f_equal. apply last_indep. discriminate. }
  cbv zeta. cbn [snd]. rewrite El, costs_penalised, Es. cbn [fst snd]. unfold lopsided_effort, distance. cbv zeta.
  destruct closed.
  - rewrite cost_penalised, penalised_plus. apply penalised_ext. intros k. unfold closed_up. cbn [app map]. change (fst a :: map fst (l ++ [(L, snd a)])) with (map fst ((a :: l) ++ [(L, snd a)])).
    rewrite map_app, last_app2 by discriminate. cbn [map last fst hd app]. unfold along, closed_up. rewrite app_nil_r. unfold rate.
    set (z := last (a :: l) a). clearbody z. set (w := weighted 1 _). clearbody w. field.
  - rewrite Rplus_0_r. apply penalised_ext. intros k. unfold closed_up at 1 2. rewrite app_nil_r, Es. cbn [hd map]. unfold along, closed_up. rewrite app_nil_r. unfold rate. field.
Qed.
Lemma penalised_none dis meshed f : Forall (fun k => nth k dis 0 = 0) meshed -> penalised dis meshed f = 0.
Proof. intros D. induction D as [|k l Hk D IH]; [reflexivity|]. rewrite penalised_cons, Hk, IH. ring. Qed.
Lemma penalised_pos dis meshed f : Forall (fun k => 0 <= nth k dis 0) meshed -> (forall k, 0 <= f k) -> 0 <= penalised dis meshed f.
Proof. intros F H. induction F as [|k l Hk F IH]; [cbn; lra|]. rewrite penalised_cons. pose proof (Rmult_le_pos _ _ Hk (H k)). lra. Qed.
Lemma lopsided_pos {P} closed L k (pts : list (R * (P * list R))) : rising closed L pts -> 0 <= lopsided_effort closed L k pts.
Proof.
  intros Ri. destruct pts as [|a l]; [cbn; lra|]. unfold lopsided_effort. cbv zeta.
  assert (R0 : rising false L (a :: l)).
  { unfold rising, closed_up in *. rewrite app_nil_r. destruct closed; [|rewrite app_nil_r in Ri; exact Ri]. rewrite map_app in Ri. apply (sorted_piece [] (map fst (a :: l)) [L]), Ri. }
  assert (D : 0 <= distance closed L (a :: l)).
  { unfold distance. unfold rising in Ri. destruct (closed_up closed L (a :: l)) as [|x m] eqn:E; [cbn; lra|]. cbn [map hd]. clear - Ri. cbn [map] in Ri. inversion Ri as [|? ? _ F]; subst.
    destruct (map fst m) as [|y n] eqn:En; [cbn; lra|]. change (last (fst x :: y :: n) 0) with (last (y :: n) 0). rewrite Forall_forall in F. 
    assert (I : In (last (y :: n) 0) (y :: n)).
    { clear. revert y. induction n as [|b n IH]; intros y; [left; reflexivity|]. right. apply IH. }
    specialize (F _ I). lra. }
  assert (A : 0 * distance false L (a :: l) <= along 1 false L (squared_rate k) (a :: l)).
  { apply along_least; [lra | exact R0|]. apply Forall_forall. intros p _. unfold squared_rate. apply pow2_ge_0. }
  pose proof (Rmult_le_pos _ _ (pow2_ge_0 (rate k 0 (snd a))) D).
  assert (C : 0 <= if closed then (L - fst (last (a :: l) a)) * rate k 0 (snd (last (a :: l) a)) ^ 2 else 0).
  { destruct closed; [|lra]. apply Rmult_le_pos; [|apply pow2_ge_0]. unfold rising, closed_up in Ri. rewrite map_app in Ri. cbn [map fst] in Ri.
    assert (Es : In (fst (last (a :: l) a)) (map fst (a :: l))).
    { apply in_map. clear. revert a. induction l as [|b l IH]; intros a; [left; reflexivity|]. right. change (last (a :: b :: l) a) with (last (b :: l) a). rewrite (last_indep (b :: l) a b) by discriminate. apply IH. }
    change (fst a :: map fst l) with (map fst (a :: l)) in Ri. set (x := fst (last (a :: l) a)) in *. clearbody x. revert Ri Es. generalize (map fst (a :: l)). clear. intros m Ri Es.
    induction m as [|y m IH]; [destruct Es|]. cbn [app] in Ri. inversion Ri as [|? ? S F]; subst. destruct Es as [-> | Es]; [|apply IH; assumption].
    rewrite Forall_app in F. destruct F as [_ F]. apply Forall_inv in F. lra. }
  lra.
Qed.

(** Without its rates the lap satisfies the constraints of the direct formulation. *)
Lemma residual_prefix sigma meshed wlo whi n ds l r v w : length (e_q l) = n -> length (e_dq l) = n -> length (e_q r) = n -> length (e_dq r) = n ->
  element_holds sigma (ds, (with_rates meshed wlo whi l v, with_rates meshed wlo whi r w)) -> element_holds sigma (ds, (l, r)).
Proof.
  intros E1 E2 E3 E4 (A & B & C). split; [|split; [exact B | exact C]]. unfold residuals in *. rewrite Forall_map, Forall_forall in A |- *. intros k Hk. apply in_seq in Hk.
  specialize (A k). cbn [with_rates e_q e_dq] in A. rewrite !item_app1 in A by lia. apply A. apply in_seq. rewrite app_length. lia.
Qed.
Lemma bounded_prefix lb x ub lb' x' ub' n : length lb = n -> length x = n -> length ub = n -> bounded (lb ++ lb') (x ++ x') (ub ++ ub') -> bounded lb x ub.
Proof.
  intros E1 E2 E3 (_ & _ & H). split; [lia|]. split; [lia|]. intros k Hk. specialize (H k). rewrite !item_app1 in H by lia. apply H. rewrite app_length. lia.
Qed.
Section Direct.
Context {P : Type} (meshed : list nat) (wlo whi : list R) (ev : R -> P -> point_eval) (n m : nat).
Context (Hq : forall s p, length (e_q (ev s p)) = n) (Hdq : forall s p, length (e_dq (ev s p)) = n)
  (Hx : forall s p, length (e_x (ev s p)) = m) (Hxlb : forall s p, length (e_xlb (ev s p)) = m) (Hxub : forall s p, length (e_xub (ev s p)) = m).
Lemma direct_any sigma restricted closed L pts :
  rate_feasible meshed wlo whi sigma restricted closed L (map (fun p => (fst p, (ev (fst p) (fst (snd p)), snd (snd p)))) pts) ->
  lap_feasible sigma restricted closed L (map (fun p => (fst p, ev (fst p) (snd p))) (map (fun p => (fst p, fst (snd p))) pts)).
Proof.
  unfold rate_feasible. rewrite (map_rated meshed wlo whi ev), map_map. cbn [fst snd]. intros (A & B & C). split; [|split].
  - rewrite mesh_closed_up in *.
    assert (G : forall X : list (R * ((R * P) * list R)), Forall (element_holds sigma) (inner_elements (map (fun p => (fst p, with_rates meshed wlo whi (ev (fst (fst (snd p))) (snd (fst (snd p)))) (snd (snd p)))) X)) ->
      Forall (element_holds sigma) (inner_elements (map (fun p => (fst p, ev (fst (fst (snd p))) (snd (fst (snd p))))) X))).
    { induction X as [|x X IH]; [constructor|]. destruct X as [|y X]; [constructor|]. intros F. cbn [map] in F, IH |- *. cbn [inner_elements fst snd] in F, IH |- *.
      constructor; [|apply IH, (Forall_inv_tail F)]. apply (residual_prefix sigma meshed wlo whi n _ _ _ _ _ (Hq _ _) (Hdq _ _) (Hq _ _) (Hdq _ _) (Forall_inv F)). }
    set (X := closed_up closed L (map (fun p : R * (P * list R) => (fst p, ((fst p, fst (snd p)), snd (snd p)))) pts)).
    assert (E1 : closed_up closed L (map (fun p => (fst p, rated_eval meshed wlo whi ev (fst p) (snd p))) pts) = map (fun p => (fst p, with_rates meshed wlo whi (ev (fst (fst (snd p))) (snd (fst (snd p)))) (snd (snd p)))) X).
    { unfold X. rewrite <- (closed_up_map (fun y => with_rates meshed wlo whi (ev (fst (fst y)) (snd (fst y))) (snd y))). rewrite map_map. reflexivity. }
    assert (E2 : closed_up closed L (map (fun p : R * (P * list R) => (fst p, ev (fst p) (fst (snd p)))) pts) = map (fun p => (fst p, ev (fst (fst (snd p))) (snd (fst (snd p))))) X).
    { unfold X. rewrite <- (closed_up_map (fun y => ev (fst (fst y)) (snd (fst y)))). rewrite map_map. reflexivity. }
    rewrite E2. apply G. rewrite <- E1. exact A.
  - unfold variables_hold in *.
    assert (G : forall l, Forall (fun p => bounded (e_xlb (snd p)) (e_x (snd p)) (e_xub (snd p))) (map (fun p => (fst p, rated_eval meshed wlo whi ev (fst p) (snd p))) l) ->
      Forall (fun p => bounded (e_xlb (snd p)) (e_x (snd p)) (e_xub (snd p))) (map (fun p : R * (P * list R) => (fst p, ev (fst p) (fst (snd p)))) l)).
    { intros l. rewrite !Forall_map. cbn [snd]. intros F. induction F as [|p l Hp F IH]; constructor; [|exact IH]. apply (bounded_prefix _ _ _ _ _ _ m (Hxlb _ _) (Hx _ _) (Hxub _ _) Hp). }
    destruct closed; [apply G, B|]. destruct pts as [|a l]; [constructor|]. cbn [map tl] in *. apply G, B.
  - rewrite Forall_forall in C |- *. intros q Hin. specialize (C q Hin).
    assert (E : lap_integral sigma closed L (fst q) (map (fun p : R * (P * list R) => (fst p, ev (fst p) (fst (snd p)))) pts) =
      lap_integral sigma closed L (fst q) (map (fun p => (fst p, rated_eval meshed wlo whi ev (fst p) (snd p))) pts)); [|rewrite E; exact C].
    assert (I : forall l, total (map (fun e : mesh_element => let '(ds, (l, r)) := e in ds * ((1 - sigma) * item (e_int l) (fst q) + sigma * item (e_int r) (fst q))) (inner_elements (map (fun p : R * (P * list R) => (fst p, ev (fst p) (fst (snd p)))) l))) =
      total (map (fun e : mesh_element => let '(ds, (l, r)) := e in ds * ((1 - sigma) * item (e_int l) (fst q) + sigma * item (e_int r) (fst q))) (inner_elements (map (fun p => (fst p, rated_eval meshed wlo whi ev (fst p) (snd p))) l)))).
    { intros l. rewrite !(weighted_elements sigma (fun e => item (e_int e) (fst q))), !map_map. reflexivity. }
    unfold lap_integral. rewrite I. f_equal. destruct closed; [|reflexivity]. destruct pts as [|a l]; [reflexivity|]. unfold closing_element. cbn [map]. cbv zeta. cbn [total fold_right map fst snd].
    assert (El : last ((fst a, ev (fst a) (fst (snd a))) :: map (fun p : R * (P * list R) => (fst p, ev (fst p) (fst (snd p)))) l) (fst a, ev (fst a) (fst (snd a))) =
      (fst (last (a :: l) a), ev (fst (last (a :: l) a)) (fst (snd (last (a :: l) a))))).
    { change ((fst a, ev (fst a) (fst (snd a))) :: map (fun p : R * (P * list R) => (fst p, ev (fst p) (fst (snd p)))) l) with (map (fun p : R * (P * list R) => (fst p, ev (fst p) (fst (snd p)))) (a :: l)).
      generalize (a :: l). intros k. induction k as [|x k IH]; [reflexivity|]. destruct k; [reflexivity|]. exact IH. }
    assert (El' : last ((fst a, rated_eval meshed wlo whi ev (fst a) (snd a)) :: map (fun p => (fst p, rated_eval meshed wlo whi ev (fst p) (snd p))) l) (fst a, rated_eval meshed wlo whi ev (fst a) (snd a)) =
      (fst (last (a :: l) a), rated_eval meshed wlo whi ev (fst (last (a :: l) a)) (snd (last (a :: l) a)))).
    { change ((fst a, rated_eval meshed wlo whi ev (fst a) (snd a)) :: map (fun p => (fst p, rated_eval meshed wlo whi ev (fst p) (snd p))) l) with (map (fun p => (fst p, rated_eval meshed wlo whi ev (fst p) (snd p))) (a :: l)).
      generalize (a :: l). intros k. induction k as [|x k IH]; [reflexivity|]. destruct k; [reflexivity|]. exact IH. }
    rewrite El, El'. reflexivity.
Qed.
End Direct.

(** A lap of the direct formulation along which the controls of the mesh stay as they are, with rates 0. *)
Lemma bounded_app lb x ub lb' x' ub' : bounded lb x ub -> bounded lb' x' ub' -> bounded (lb ++ lb') (x ++ x') (ub ++ ub').
Proof.
  intros (E1 & E2 & H) (E3 & E4 & H'). split; [rewrite !app_length; lia|]. split; [rewrite !app_length; lia|]. intros k Hk. rewrite app_length in Hk.
  destruct (Nat.lt_ge_cases k (length x)) as [Lt|Ge]; [rewrite !item_app1 by lia; apply H, Lt|].
  replace k with (length x + (k - length x))%nat by lia. rewrite item_app2, <- E1, item_app2, E1, <- E2, item_app2, E2. apply H'. lia.
Qed.
Lemma idle_element sigma meshed wlo whi n ds l r v w : length (e_q l) = n -> length (e_dq l) = n -> length (e_q r) = n -> length (e_dq r) = n ->
  Forall (fun k => item v k = 0 /\ item w k = 0 /\ item (e_u r) k = item (e_u l) k) meshed ->
  element_holds sigma (ds, (l, r)) -> element_holds sigma (ds, (with_rates meshed wlo whi l v, with_rates meshed wlo whi r w)).
Proof.
  intros E1 E2 E3 E4 F (A & B & C). split; [|split; [exact B | exact C]]. unfold residuals in *. rewrite Forall_map, Forall_forall in A |- *. intros k Hk. apply in_seq in Hk.
  cbn [with_rates e_q e_dq] in *. rewrite app_length, map_length in Hk. destruct (Nat.lt_ge_cases k n) as [Lt|Ge].
  - rewrite !item_app1 by lia. apply A, in_seq. lia.
  - assert (I : forall x (f : nat -> R), length x = n -> item (x ++ map f meshed) k = f (nth (k - n) meshed 0%nat)).
    { intros x f Ex. replace k with (length x + (k - n))%nat at 1 by lia. rewrite item_app2, (item_map _ _ _ 0%nat) by lia. reflexivity. }
    rewrite !I by assumption. rewrite Forall_forall in F. destruct (F (nth (k - n) meshed 0%nat)) as (-> & -> & ->); [apply nth_In; lia|]. ring.
Qed.
Lemma idle_any {P} meshed wlo whi (ev : R -> P -> point_eval) n w sigma restricted closed L pts :
  (forall s p, length (e_q (ev s p)) = n) -> (forall s p, length (e_dq (ev s p)) = n) ->
  Forall (fun k => item w k = 0 /\ item wlo k <= 0 <= item whi k /\ forall s p s' p', In (s, p) pts -> In (s', p') pts -> item (e_u (ev s p)) k = item (e_u (ev s' p')) k) meshed ->
  lap_feasible sigma restricted closed L (map (fun p => (fst p, ev (fst p) (snd p))) pts) ->
  rate_feasible meshed wlo whi sigma restricted closed L (map (fun p => (fst p, (ev (fst p) (snd p), w))) pts).
Proof.
  intros Hq Hdq Fw (A & B & C). unfold rate_feasible. rewrite map_map. cbn [fst snd]. split; [|split].
  - rewrite mesh_closed_up in *.
    set (X := closed_up closed L (map (fun p : R * P => (fst p, p)) pts)).
    assert (E1 : closed_up closed L (map (fun p : R * P => (fst p, ev (fst p) (snd p))) pts) = map (fun p => (fst p, ev (fst (snd p)) (snd (snd p)))) X).
    { unfold X. rewrite <- (closed_up_map (fun y => ev (fst y) (snd y))). rewrite map_map. reflexivity. }
    assert (E2 : closed_up closed L (map (fun p : R * P => (fst p, with_rates meshed wlo whi (ev (fst p) (snd p)) w)) pts) = map (fun p => (fst p, with_rates meshed wlo whi (ev (fst (snd p)) (snd (snd p))) w)) X).
    { unfold X. rewrite <- (closed_up_map (fun y => with_rates meshed wlo whi (ev (fst y) (snd y)) w)). rewrite map_map. reflexivity. }
    assert (HX : Forall (fun x => In (snd x) pts) X).
    { unfold X, closed_up. apply Forall_app. split; [apply Forall_map, Forall_forall; intros p Hp; exact Hp|]. destruct closed; [|constructor]. destruct pts as [|a l]; [constructor|].
      constructor; [left; reflexivity | constructor]. }
    rewrite E1 in A. rewrite E2. clear E1 E2. clearbody X. induction X as [|x X IH]; [constructor|]. destruct X as [|y X]; [constructor|].
    cbn [map inner_elements fst snd] in A, IH |- *. constructor; [|apply IH; [exact (Forall_inv_tail A) | exact (Forall_inv_tail HX)]].
    apply (idle_element sigma meshed wlo whi n _ _ _ _ _ (Hq _ _) (Hdq _ _) (Hq _ _) (Hdq _ _)); [|exact (Forall_inv A)].
    rewrite Forall_forall in Fw |- *. intros k Hk. destruct (Fw k Hk) as (W & _ & U). split; [exact W|]. split; [exact W|].
    pose proof (Forall_inv HX) as Hx. pose proof (Forall_inv (Forall_inv_tail HX)) as Hy. destruct x as [sx [tx px]], y as [sy [ty py]]. cbn [fst snd] in *. apply U; assumption.
  - unfold variables_hold in *.
    assert (Bw : bounded (map (item wlo) meshed) (map (item w) meshed) (map (item whi) meshed)).
    { split; [rewrite !map_length; reflexivity|]. split; [rewrite !map_length; reflexivity|]. rewrite map_length. intros k Hk. rewrite !(item_map _ _ _ 0%nat) by exact Hk.
      rewrite Forall_forall in Fw. destruct (Fw (nth k meshed 0%nat)) as (-> & W & _); [apply nth_In, Hk | exact W]. }
    assert (G : forall l, Forall (fun p => bounded (e_xlb (snd p)) (e_x (snd p)) (e_xub (snd p))) (map (fun p : R * P => (fst p, ev (fst p) (snd p))) l) ->
      Forall (fun p => bounded (e_xlb (snd p)) (e_x (snd p)) (e_xub (snd p))) (map (fun p : R * P => (fst p, with_rates meshed wlo whi (ev (fst p) (snd p)) w)) l)).
    { intros l. rewrite !Forall_map. cbn [snd]. intros F. induction F as [|p l Hp F IH]; constructor; [|exact IH]. apply bounded_app; [exact Hp | exact Bw]. }
    destruct closed; [apply G, B|]. destruct pts as [|a l]; [constructor|]. cbn [map tl] in *. apply G, B.
  - rewrite Forall_forall in C |- *. intros q Hin. specialize (C q Hin).
    assert (E : lap_integral sigma closed L (fst q) (map (fun p : R * P => (fst p, with_rates meshed wlo whi (ev (fst p) (snd p)) w)) pts) =
      lap_integral sigma closed L (fst q) (map (fun p => (fst p, ev (fst p) (snd p))) pts)); [|rewrite E; exact C].
    assert (I : forall l, total (map (fun e : mesh_element => let '(ds, (l, r)) := e in ds * ((1 - sigma) * item (e_int l) (fst q) + sigma * item (e_int r) (fst q))) (inner_elements (map (fun p : R * P => (fst p, with_rates meshed wlo whi (ev (fst p) (snd p)) w)) l))) =
      total (map (fun e : mesh_element => let '(ds, (l, r)) := e in ds * ((1 - sigma) * item (e_int l) (fst q) + sigma * item (e_int r) (fst q))) (inner_elements (map (fun p : R * P => (fst p, ev (fst p) (snd p))) l)))).
    { intros l. rewrite !(weighted_elements sigma (fun e => item (e_int e) (fst q))), !map_map. reflexivity. }
    unfold lap_integral. rewrite I. f_equal. destruct closed; [|reflexivity]. destruct pts as [|a l]; [reflexivity|]. unfold closing_element. cbn [map]. cbv zeta. cbn [total fold_right map fst snd].
    assert (El : forall f : R -> P -> point_eval, last ((fst a, f (fst a) (snd a)) :: map (fun p : R * P => (fst p, f (fst p) (snd p))) l) (fst a, f (fst a) (snd a)) = (fst (last (a :: l) a), f (fst (last (a :: l) a)) (snd (last (a :: l) a)))).
    { intros f. change ((fst a, f (fst a) (snd a)) :: map (fun p : R * P => (fst p, f (fst p) (snd p))) l) with (map (fun p : R * P => (fst p, f (fst p) (snd p))) (a :: l)).
      generalize (a :: l). intros k. induction k as [|x k IH]; [reflexivity|]. destruct k; [reflexivity|]. exact IH. }
    rewrite (El (fun s p => with_rates meshed wlo whi (ev s p) w)), (El ev). reflexivity.
Qed.

(** ** Images *)
Definition rate_order (pu : list bool) (n : nat) (meshed : list nat) : list (bool * nat) := map (fun j => (nth (nth j meshed 0%nat) pu true, (n + j)%nat)) (seq 0 (length meshed)).
Lemma onto_rates p pu n meshed : onto p n -> onto (p ++ rate_order pu n meshed) (n + length meshed).
Proof.
  intros [A B]. split.
  - apply Forall_app. split; [apply (Forall_impl _ (P := fun e : bool * nat => (snd e < n)%nat)); [intros; lia | exact A]|].
    unfold rate_order. apply Forall_map, Forall_forall. intros j Hj. apply in_seq in Hj. cbn [snd]. lia.
  - intros k Hk. destruct (Nat.lt_ge_cases k n) as [Lt|Ge].
    + destruct (B k Lt) as [b Hb]. exists b. apply in_or_app. left. exact Hb.
    + exists (nth (nth (k - n) meshed 0%nat) pu true). apply in_or_app. right. unfold rate_order. apply in_map_iff. exists (k - n)%nat. split; [f_equal; lia|]. apply in_seq. lia.
Qed.
Lemma map_positions {A} (f : nat -> A) (l : list nat) : map (fun j => f (nth j l 0%nat)) (seq 0 (length l)) = map f l.
Proof.
  induction l as [|x l IH]; [reflexivity|]. cbn [length seq map nth]. f_equal. rewrite <- IH, <- seq_shift, map_map. reflexivity.
Qed.
Lemma shuffle_rates p pu n meshed l (f : nat -> R) : length l = n -> onto p n ->
  shuffle (p ++ rate_order pu n meshed) (l ++ map f meshed) = shuffle p l ++ map (fun k => sgn (nth k pu true) (f k)) meshed.
Proof.
  intros El [A _]. unfold shuffle. rewrite map_app. f_equal.
  - apply map_ext_in. intros [b k] Hk. cbn [fst snd]. rewrite Forall_forall in A. specialize (A _ Hk). cbn [snd] in A. rewrite item_app1 by lia. reflexivity.
  - unfold rate_order. rewrite map_map, <- (map_positions (fun k => sgn (nth k pu true) (f k))). apply map_ext_in. intros j Hj. apply in_seq in Hj. cbn [fst snd].
    rewrite <- El, item_app2, (item_map _ _ _ 0%nat) by lia. reflexivity.
Qed.
Lemma shuffle_low_rates p pu n meshed lb ub (f g : nat -> R) : length lb = n -> length ub = n -> onto p n ->
  shuffle_low (p ++ rate_order pu n meshed) (lb ++ map f meshed) (ub ++ map g meshed) = shuffle_low p lb ub ++ map (fun k => if nth k pu true then f k else - g k) meshed.
Proof.
  intros El Eu [A _]. unfold shuffle_low. rewrite map_app. f_equal.
  - apply map_ext_in. intros [b k] Hk. cbn [fst snd]. rewrite Forall_forall in A. specialize (A _ Hk). cbn [snd] in A. rewrite !item_app1 by lia. reflexivity.
  - unfold rate_order. rewrite map_map, <- (map_positions (fun k => if nth k pu true then f k else - g k)). apply map_ext_in. intros j Hj. apply in_seq in Hj. cbn [fst snd].
    rewrite <- El at 1. rewrite item_app2, <- Eu, item_app2, !(item_map _ _ _ 0%nat) by lia. reflexivity.
Qed.
Lemma rated_image pq pa pe px pu pi n m meshed wlo whi e e' w w' : images pq pa pe px pu pi e e' -> length (e_q e) = n -> length (e_dq e) = n -> length (e_x e) = m ->
  (forall k, item w' k = sgn (nth k pu true) (item w k)) -> (forall k, nth k pu true = false -> item wlo k = - item whi k) ->
  images (pq ++ rate_order pu n meshed) pa pe (px ++ rate_order pu m meshed) pu pi (with_rates meshed wlo whi e w) (with_rates meshed wlo whi e' w').
Proof.
  intros I Eq Ed Ex Ew Hw. destruct I as [im_dt0 im_q0 im_dq0 im_nq0 im_a0 im_na0 im_e0 im_lb0 im_ub0 im_ne0 im_nlb0 im_nub0 im_x0 im_xlb0 im_xub0 im_nx0 im_nxlb0 im_nxub0 im_u0 im_i0]. rewrite Eq in im_nq0. rewrite Ex in *.
  constructor; cbn [with_rates e_dt e_q e_dq e_alg e_extra e_lb e_ub e_x e_xlb e_xub e_u e_int]; try assumption.
  - rewrite shuffle_rates, im_q0 by assumption. f_equal. apply map_ext. intros k. apply im_u0.
  - rewrite shuffle_rates, im_dq0 by assumption. f_equal. apply map_ext. intros k. rewrite Ew, im_dt0. destruct (nth k pu true); cbn [sgn]; ring.
  - rewrite app_length, map_length, Eq. apply onto_rates, im_nq0.
  - rewrite shuffle_rates, im_x0 by assumption. f_equal. apply map_ext. intros k. apply Ew.
  - rewrite shuffle_low_rates, im_xlb0 by assumption. f_equal. apply map_ext. intros k. destruct (nth k pu true) eqn:E; [reflexivity | apply Hw, E].
  - rewrite shuffle_low_rates, im_xub0 by assumption. f_equal. apply map_ext. intros k. destruct (nth k pu true) eqn:E; [reflexivity | rewrite (Hw k E); ring].
  - rewrite app_length, map_length, Ex. apply onto_rates, im_nx0.
  - rewrite !app_length, !map_length, Ex, im_nxlb0. reflexivity.
  - rewrite !app_length, !map_length, Ex, im_nxub0. reflexivity.
Qed.
Lemma item_mirror_rates w k : item (mirror_rates w) k = sgn (nth k [false] true) (item w k).
Proof. destruct w as [|x w]; destruct k as [|[|k]]; cbn; try reflexivity; lra. Qed.
Lemma penalty_mirror {P Q} meshed dis closed L (f : P -> Q) (pts : list (R * (P * list R))) :
  rate_penalty meshed dis closed L (map (fun p => (fst p, snd (snd p))) (map (fun p => (fst p, (f (fst (snd p)), mirror_rates (snd (snd p))))) pts)) =
  rate_penalty meshed dis closed L (map (fun p => (fst p, snd (snd p))) pts).
Proof.
  rewrite map_map. cbn [fst snd].
  assert (C : forall v w ds, rate_cost meshed dis (mirror_rates v) (mirror_rates w) ds = rate_cost meshed dis v w ds).
  { intros v w ds. unfold rate_cost. f_equal. apply map_ext. intros k. rewrite !item_mirror_rates. destruct (nth k [false] true); cbn [sgn]; ring. }
  assert (Cs : forall v (l : list (R * (P * list R))), rate_costs meshed dis (mirror_rates v) (map (fun p => (fst p, mirror_rates (snd (snd p)))) l) = rate_costs meshed dis v (map (fun p => (fst p, snd (snd p))) l)).
  { intros v l. induction l as [|a l IH]; [reflexivity|]. destruct l as [|b l]; [reflexivity|]. cbn [map rate_costs fst snd] in IH |- *. rewrite C. f_equal. exact IH. }
  destruct pts as [|a l]; [reflexivity|]. unfold rate_penalty. cbn [map]. cbv zeta. cbn [snd].
  change ((fst a, mirror_rates (snd (snd a))) :: map (fun p : R * (P * list R) => (fst p, mirror_rates (snd (snd p)))) l) with (map (fun p : R * (P * list R) => (fst p, mirror_rates (snd (snd p)))) (a :: l)).
  change ((fst a, snd (snd a)) :: map (fun p : R * (P * list R) => (fst p, snd (snd p))) l) with (map (fun p : R * (P * list R) => (fst p, snd (snd p))) (a :: l)).
  rewrite Cs. f_equal. destruct closed; [|reflexivity].
  assert (E1 : last (map (fun p : R * (P * list R) => (fst p, mirror_rates (snd (snd p)))) (a :: l)) (fst a, mirror_rates (snd (snd a))) = (fst (last (a :: l) a), mirror_rates (snd (snd (last (a :: l) a))))).
  { generalize (a :: l). intros k. induction k as [|x k IH]; [reflexivity|]. destruct k; [reflexivity|]. exact IH. }
  assert (E2 : last (map (fun p : R * (P * list R) => (fst p, snd (snd p))) (a :: l)) (fst a, snd (snd a)) = (fst (last (a :: l) a), snd (snd (last (a :: l) a)))).
  { generalize (a :: l). intros k. induction k as [|x k IH]; [reflexivity|]. destruct k; [reflexivity|]. exact IH. }
  rewrite E1, E2. apply C.
Qed.
Lemma nth_steering k n : nth k (false :: repeat true n) true = nth k [false] true.
Proof. destruct k as [|k]; [reflexivity|]. cbn [nth]. destruct k; (destruct n as [|n]; cbn; [reflexivity|]); [reflexivity|]. revert k. induction n as [|n IH]; intros [|k]; cbn; auto. Qed.

(** ** The Formula 1 car *)
Section Formula1.
Context (sp ss : R -> R -> R) (g0 : R).
Lemma f1_q_length c ci elevated lo hi s p : length (e_q (f1_point_eval sp ss g0 c ci elevated lo hi s p)) = if elevated then 13%nat else 9%nat.
Proof. unfold f1_point_eval, f1_on_track, track_eval. cbn [e_q]. destruct elevated; reflexivity. Qed.
Lemma f1_dq_length c ci elevated lo hi s p : length (e_dq (f1_point_eval sp ss g0 c ci elevated lo hi s p)) = if elevated then 13%nat else 9%nat.
Proof. unfold f1_point_eval, f1_on_track, track_eval. cbn [e_dq]. destruct elevated; reflexivity. Qed.
Lemma f1_x_length c ci elevated lo hi s p : length (e_x (f1_point_eval sp ss g0 c ci elevated lo hi s p)) = 17%nat.
Proof. reflexivity. Qed.
Lemma f1_xlb_length c ci elevated lo hi s p : length (e_xlb (f1_point_eval sp ss g0 c ci elevated lo hi s p)) = 17%nat.
Proof. reflexivity. Qed.
Lemma f1_xub_length c ci elevated lo hi s p : length (e_xub (f1_point_eval sp ss g0 c ci elevated lo hi s p)) = 17%nat.
Proof. reflexivity. Qed.
Lemma f1_u_item c ci elevated lo hi s p k : item (e_u (f1_point_eval sp ss g0 c ci elevated lo hi s p)) k = f1_control k p.
Proof. reflexivity. Qed.

(** Without its rates, a lap that satisfies the constraints satisfies those of the direct formulation. *)
Theorem C154_direct c ci elevated lo hi pts sigma restricted closed L meshed :
  rate_feasible meshed f1_rate_lo f1_rate_hi sigma restricted closed L (f1_rated sp ss g0 c ci elevated lo hi pts) ->
  lap_feasible sigma restricted closed L (f1_lap sp ss g0 c ci elevated lo hi (map (fun p => (fst p, fst (snd p))) pts)).
Proof.
  apply (direct_any meshed f1_rate_lo f1_rate_hi (f1_point_eval sp ss g0 c ci elevated lo hi) (if elevated then 13 else 9) 17); intros;
    (apply f1_q_length || apply f1_dq_length || apply f1_x_length || apply f1_xlb_length || apply f1_xub_length).
Qed.
(** Between any two points of a lap that satisfies the constraints, also across the end of a closed lap, the driver turns the steering wheel by at most 20 degrees per second, and moves boost and throttle by at most
    10 per second: k is 0, 1, 2. *)
Theorem C154_rates c ci elevated lo hi pts sigma restricted closed L meshed k before a mid z after : 0 <= sigma <= 1 -> rising closed L pts -> In k meshed -> (k < 3)%nat ->
  rate_feasible meshed f1_rate_lo f1_rate_hi sigma restricted closed L (f1_rated sp ss g0 c ci elevated lo hi pts) ->
  Forall (fun p => 0 <= f1_pace ci (fst p) (fst (snd p))) pts -> 
  let most := nth k [20 * (PI / 180); 10; 10] 0 in
  closed = true \/ - most <= nth k (first_rates pts) 0 <= most ->
  timeline closed L (fun s p => f1_pace ci s (fst p)) (fun _ p => f1_control k (fst p)) pts = before ++ (a :: mid ++ [z]) ++ after ->
  Rabs (snd (snd z) - snd (snd a)) <= most * elapsed sigma (a :: mid ++ [z]).
Proof.
  intros Hs Ri Hk H3 F Fp most H1 E.
  assert (Eh : item f1_rate_hi k = most) by reflexivity.
  assert (El : item f1_rate_lo k = - most).
  { unfold item, most, f1_rate_lo. destruct k as [|[|[|k]]]; cbn [nth]; unfold DEG; [lra | reflexivity | reflexivity | lia]. }
  pose proof (moves_any meshed f1_rate_lo f1_rate_hi (f1_point_eval sp ss g0 c ci elevated lo hi) (f1_pace ci) (if elevated then 13 else 9) 17) as M.
  specialize (M ltac:(intros; apply f1_dt) ltac:(intros; apply f1_q_length) ltac:(intros; apply f1_dq_length) ltac:(reflexivity) ltac:(reflexivity) ltac:(reflexivity)
    sigma restricted closed L pts k (f1_control k) before a mid z after Hs Ri Hk ltac:(reflexivity) F Fp).
  rewrite Eh, El in M. specialize (M H1 E). apply Rabs_le. lra.
Qed.
(** Along a lap that satisfies the constraints, the rates of a control add up to its change: to nothing on a closed lap. *)
Theorem C154_turned c ci elevated lo hi a l sigma restricted closed L meshed k : In k meshed ->
  rate_feasible meshed f1_rate_lo f1_rate_hi sigma restricted closed L (f1_rated sp ss g0 c ci elevated lo hi (a :: l)) ->
  along sigma closed L (fun s p => rate k s p * f1_pace ci s (fst p)) (a :: l) = if closed then 0 else f1_control k (fst (snd (last (a :: l) a))) - f1_control k (fst (snd a)).
Proof.
  intros Hk F. apply (turned_any meshed f1_rate_lo f1_rate_hi (f1_point_eval sp ss g0 c ci elevated lo hi) (f1_pace ci) (if elevated then 13 else 9)
    ltac:(intros; apply f1_dt) ltac:(intros; apply f1_q_length) ltac:(intros; apply f1_dq_length) sigma restricted closed L a l k (f1_control k) Hk ltac:(reflexivity) F).
Qed.
(** The value that is minimised: the time and, instead of the effort, a sum in which the first rate weighs half over the whole lap. *)
Theorem C154_value_partial c ci elevated lo hi pts sigma dis closed L meshed :
  rate_objective meshed f1_rate_lo f1_rate_hi dis sigma closed L (f1_rated sp ss g0 c ci elevated lo hi pts) =
  along sigma closed L (fun s p => f1_pace ci s (fst p)) pts + penalised dis meshed (fun k => lopsided_effort closed L k pts).
Proof.
  unfold rate_objective, f1_rated. rewrite map_rated, (time_any meshed f1_rate_lo f1_rate_hi _ (f1_pace ci)) by (intros; apply f1_dt). f_equal. rewrite map_map. cbn [fst snd]. apply penalty_value.
Qed.
(** No lap is faster than its length at the highest speed. *)
Theorem C154_fastest c ci elevated lo hi pts sigma dis closed L meshed k Vmax : 0 <= sigma <= 1 -> Forall (fun j => 0 <= nth j dis 0) meshed -> rising closed L pts -> 0 <= k -> 0 < Vmax ->
  Forall (fun p => let q := fst (snd p) in moderate k Vmax (turning ci (fst p)) (fp_n q) (fp_alpha q) (i_u (fp_in q)) (i_v (fp_in q))) pts ->
  k / Vmax * distance closed L pts <= rate_objective meshed f1_rate_lo f1_rate_hi dis sigma closed L (f1_rated sp ss g0 c ci elevated lo hi pts).
Proof.
  intros Hs D Ri Hk HV M. rewrite C154_value_partial. pose proof (penalised_pos dis meshed (fun j => lopsided_effort closed L j pts) D (fun j => lopsided_pos closed L j pts Ri)) as Pp.
  assert (A : k / Vmax * distance closed L pts <= along sigma closed L (fun s p => f1_pace ci s (fst p)) pts); [|lra].
  apply along_least; [exact Hs | exact Ri|]. rewrite Forall_forall in M |- *. intros p Hp. apply pace_least; [exact Hk | exact HV | exact (M p Hp)].
Qed.
(** The image of a lap in a mirror satisfies the same constraints and has the same value. *)
Theorem C154_mirror c ci elevated lo hi pts sigma dis restricted closed L meshed :
  let lap := f1_rated sp ss g0 c ci elevated lo hi pts in
  let image := f1_rated sp ss g0 (mirror_car c) (mirror_circuit ci) elevated (mirror_f1_bounds lo hi) (mirror_f1_bounds hi lo) (mirror_rated_f1 pts) in
  (rate_feasible meshed f1_rate_lo f1_rate_hi sigma (mirror_restricted restricted) closed L image <-> rate_feasible meshed f1_rate_lo f1_rate_hi sigma restricted closed L lap) /\
  rate_objective meshed f1_rate_lo f1_rate_hi dis sigma closed L image = rate_objective meshed f1_rate_lo f1_rate_hi dis sigma closed L lap.
Proof.
  intros lap image.
  assert (I : lap_images (f1_order elevated ++ rate_order [false; true; true; true] (if elevated then 13 else 9) meshed) (f1_algebraic_order elevated) f1_extra_order
    (f1_variable_order ++ rate_order [false; true; true; true] 17 meshed) [false; true; true; true] mirror_quantity
    (map (fun p => (fst p, with_rates meshed f1_rate_lo f1_rate_hi (fst (snd p)) (snd (snd p)))) lap) (map (fun p => (fst p, with_rates meshed f1_rate_lo f1_rate_hi (fst (snd p)) (snd (snd p)))) image)).
  { unfold lap_images, lap, image, f1_rated, mirror_rated_f1. induction pts as [|p l IH]; [constructor|]. cbn [map]. constructor; [|exact IH]. split; [reflexivity|]. cbn [fst snd].
    apply rated_image; [apply f1_point_image | apply f1_q_length | apply f1_dq_length | reflexivity | |].
    - intros k. rewrite item_mirror_rates. rewrite <- (nth_steering k 3). reflexivity.
    - intros k. rewrite (nth_steering k 3 : nth k [false; true; true; true] true = _). destruct k as [|[|k]]; cbn [nth]; [intros _; unfold item, f1_rate_lo, f1_rate_hi; cbn [nth]; ring | discriminate | destruct k; discriminate]. }
  split; [exact (image_feasible _ _ _ _ _ _ sigma restricted closed L _ _ I)|].
  unfold rate_objective. rewrite (image_objective _ _ _ _ _ _ sigma [] closed L _ _ I). f_equal.
  unfold lap, image, f1_rated, mirror_rated_f1. rewrite !map_map. cbn [fst snd]. pose proof (penalty_mirror meshed dis closed L mirror_f1_point pts) as PM. rewrite !map_map in PM. exact PM.
Qed.
(** From another starting line a closed lap satisfies the same constraints; the value is the same if nothing is penalised. *)
Theorem C154_restart_partial c ci elevated lo hi L d first second sigma dis restricted meshed :
  periodic_circuit L ci -> periodic L lo -> periodic L hi -> starts_at 0 first -> starts_at d second -> sigma = 1 / 2 \/ restricted = [] ->
  let lap := f1_rated sp ss g0 c ci elevated lo hi (first ++ second) in
  let again := f1_rated sp ss g0 c (started_at d ci) elevated (fun s => lo (s + d)) (fun s => hi (s + d)) (restarted L d first second) in
  (rate_feasible meshed f1_rate_lo f1_rate_hi sigma restricted true L again <-> rate_feasible meshed f1_rate_lo f1_rate_hi sigma restricted true L lap) /\
  (Forall (fun k => nth k dis 0 = 0) meshed ->
   rate_objective meshed f1_rate_lo f1_rate_hi dis sigma true L again = rate_objective meshed f1_rate_lo f1_rate_hi dis sigma true L lap).
Proof.
  intros (P1 & P2 & P3) Pl Ph S1 S2 HI lap again.
  destruct (restart_any (rated_eval meshed f1_rate_lo f1_rate_hi (f1_point_eval sp ss g0 c ci elevated lo hi))
    (rated_eval meshed f1_rate_lo f1_rate_hi (f1_point_eval sp ss g0 c (started_at d ci) elevated (fun s => lo (s + d)) (fun s => hi (s + d))))
    L d first second sigma []) as (A & B & C); [reflexivity | | exact S1 | exact S2 |].
  - intros s p. unfold rated_eval, f1_point_eval. rewrite !P1, !P2, !P3, !Pl, !Ph. reflexivity.
  - unfold rate_feasible, rate_objective, lap, again, f1_rated. rewrite !map_rated. split; [apply restart_feasible; assumption|]. intros D. rewrite C. f_equal.
    rewrite !map_map. cbn [fst snd]. rewrite !penalty_value.
    rewrite !penalised_none by exact D. reflexivity.
Qed.
End Formula1.

(** *** The gliding car of C151, whose boost is moved *)
Definition glides (b : R) (e : point_eval) : Prop :=
  e_dt e = / 50 /\ e_q e = [0; 0; 0; 0; 50; 0; 0; 1; 0] /\ e_dq e = [0; 0; 0; 0; 0; 0; 0; 0; 0] /\ e_alg e = [0; 0; 0; 0] /\
  bounded (e_lb e) (e_extra e) (e_ub e) /\ bounded (e_xlb e) (e_x e) (e_xub e) /\ e_u e = [0; b; 0; 1 / 2] /\ item (e_int e) 5 = / 50 * b.
Lemma bounded_last lb x ub a y b : bounded lb x ub -> a <= y <= b -> bounded (lb ++ [a]) (x ++ [y]) (ub ++ [b]).
Proof.
  intros (E1 & E2 & H) Hy. split; [rewrite !app_length, E1; reflexivity|]. split; [rewrite !app_length, E2; reflexivity|]. intros k Hk. rewrite app_length in Hk. cbn [length] in Hk.
  destruct (Nat.lt_ge_cases k (length x)) as [Lt|Ge]; [rewrite !item_app1 by lia; apply H, Lt|].
  replace k with (length x + 0)%nat by lia. rewrite item_app2, <- E1, item_app2, E1, <- E2, item_app2. exact Hy.
Qed.
Lemma gliding_rated_element l r ds bl br wl wr : glides bl l -> glides br r -> br - bl = ds * (1 / 2 * (wl * / 50) + 1 / 2 * (wr * / 50)) ->
  element_holds (1 / 2) (ds, (with_rates [1%nat] f1_rate_lo f1_rate_hi l [0; wl], with_rates [1%nat] f1_rate_lo f1_rate_hi r [0; wr])).
Proof.
  intros (L1 & L2 & L3 & L4 & L5 & L6 & L7 & L8) (R1 & R2 & R3 & R4 & R5 & R6 & R7 & R8) Eb. unfold element_holds, residuals, algebraic_residuals, with_rates. cbn [snd e_dt e_q e_dq e_alg e_lb e_ub e_extra map].
  rewrite L1, L2, L3, L7, R1, R2, R3, R4, R7. cbn [app length seq map]. unfold item; cbn [nth].
  split; [|split; [repeat (constructor; [unfold Rdiv; ring|]); constructor | exact R5]]. do 9 (constructor; [ring|]). constructor; [lra | constructor].
Qed.
Lemma gliding_rated_bounds e b w : glides b e -> - (10) <= w <= 10 ->
  bounded (e_xlb (with_rates [1%nat] f1_rate_lo f1_rate_hi e [0; w])) (e_x (with_rates [1%nat] f1_rate_lo f1_rate_hi e [0; w])) (e_xub (with_rates [1%nat] f1_rate_lo f1_rate_hi e [0; w])).
Proof.
  intros (_ & _ & _ & _ & _ & B & _) Hw. unfold with_rates; cbn [e_xlb e_x e_xub map]. apply bounded_last; [exact B|]. unfold item; cbn [nth f1_rate_lo f1_rate_hi]. exact Hw.
Qed.
(** The boost rises during two intervals of 40, its rate is highest between them: the second half of the effort is not counted. *)
Definition boosting : list (R * (f1_point * list R)) :=
  [(0, (gliding_point 50 0, [0; 0])); (40, (gliding_point 50 (2 / 5), [0; 1])); (80, (gliding_point 50 (4 / 5), [0; 0]))].
Lemma boosting_feasible : rate_feasible [1%nat] f1_rate_lo f1_rate_hi (1 / 2) [] false 100 (f1_rated positive_part same_sign (981 / 100) gliding_car straight false gliding_low gliding_high boosting).
Proof.
  assert (G0 : glides 0 _) by exact (gliding_evaluation 50 0 0 ltac:(lra) ltac:(lra)).
  assert (G1 : glides (2 / 5) _) by exact (gliding_evaluation 50 (2 / 5) 40 ltac:(lra) ltac:(lra)).
  assert (G2 : glides (4 / 5) _) by exact (gliding_evaluation 50 (4 / 5) 80 ltac:(lra) ltac:(lra)).
  unfold rate_feasible, f1_rated, boosting. cbn [map fst snd]. split; [|split; [|constructor]].
  - unfold mesh_elements. cbn [inner_elements app fst snd]. rewrite ?app_nil_r. constructor; [|constructor; [|constructor]];
      [apply (gliding_rated_element _ _ _ _ _ _ _ G0 G1) | apply (gliding_rated_element _ _ _ _ _ _ _ G1 G2)]; lra.
  - unfold variables_hold. cbn [tl]. constructor; [apply (gliding_rated_bounds _ _ _ G1); lra|]. constructor; [apply (gliding_rated_bounds _ _ _ G2); lra | constructor].
Qed.
Lemma straight_turning s : turning straight s = 0.
Proof. unfold turning, straight, flat_point, curvature; cbn. rewrite sin_0, cos_0. ring. Qed.
Lemma over x y u : x = 1 -> y = u -> x / y = / u.
Proof. intros -> ->. unfold Rdiv. ring. Qed.
Lemma gliding_pace u b s : f1_pace straight s (gliding_point u b) = / u.
Proof. unfold f1_pace, pace. rewrite straight_turning. cbn. rewrite sin_0, cos_0. apply over; ring. Qed.
Example C154_case : rising false 100 boosting /\ Forall (fun p => 0 <= f1_pace straight (fst p) (fst (snd p))) boosting /\
  rate_feasible [1%nat] f1_rate_lo f1_rate_hi (1 / 2) [] false 100 (f1_rated positive_part same_sign (981 / 100) gliding_car straight false gliding_low gliding_high boosting) /\
  timeline false 100 (fun s p => f1_pace straight s (fst p)) (fun _ p => f1_control 1 (fst p)) boosting = [] ++ ((0, (/ 50, 0)) :: [(40, (/ 50, 2 / 5))] ++ [(80, (/ 50, 4 / 5))]) ++ [] /\
  elapsed (1 / 2) ((0, (/ 50, 0)) :: [(40, (/ 50, 2 / 5))] ++ [(80, (/ 50, 4 / 5))]) = 8 / 5 /\
  Forall (fun p => let q := fst (snd p) in moderate 1 50 (turning straight (fst p)) (fp_n q) (fp_alpha q) (i_u (fp_in q)) (i_v (fp_in q))) boosting.
Proof.
  split; [unfold rising, closed_up; cbn; repeat constructor; lra|].
  split; [unfold boosting; repeat (apply Forall_cons; [cbn [fst snd]; rewrite gliding_pace; lra|]); apply Forall_nil|].
  split; [exact boosting_feasible|].
  split. { unfold timeline, closed_up, boosting. cbn [map fst snd app]. rewrite !gliding_pace. reflexivity. }
  split; [unfold elapsed; cbn; lra|].
  unfold boosting, moderate. repeat (apply Forall_cons; [cbn [fst snd]; rewrite straight_turning; cbn; rewrite sin_0, cos_0; lra|]). apply Forall_nil.
Qed.
(** The value of this lap is not its time and the effort of the boost, also with the trapezoidal rule. *)
Theorem C154_value_refuted : exists c ci lo hi pts dis meshed, 
  rate_feasible meshed f1_rate_lo f1_rate_hi (1 / 2) [] false 100 (f1_rated positive_part same_sign (981 / 100) c ci false lo hi pts) /\
  rate_objective meshed f1_rate_lo f1_rate_hi dis (1 / 2) false 100 (f1_rated positive_part same_sign (981 / 100) c ci false lo hi pts) = 108 / 5 /\
  along (1 / 2) false 100 (fun s p => f1_pace ci s (fst p)) pts + penalised dis meshed (fun k => effort false 100 k pts) = 208 / 5.
Proof.
  exists gliding_car, straight, gliding_low, gliding_high, boosting, [0; 1], [1%nat]. split; [exact boosting_feasible|]. split.
  - rewrite C154_value_partial. unfold along, values, closed_up, boosting, lopsided_effort, distance, along, values, squared_rate, rate, closed_up. cbn [map app fst snd weighted penalised fold_right nth last hd].
    rewrite !gliding_pace. lra.
  - unfold effort, along, values, closed_up, boosting, squared_rate, rate. cbn [map app fst snd weighted penalised fold_right nth]. rewrite !gliding_pace. lra.
Qed.
(** Nor is the value of a closed lap the same from another starting line. *)
Theorem C154_restart_refuted : exists c ci lo hi L d first second dis meshed,
  periodic_circuit L ci /\ periodic L lo /\ periodic L hi /\ starts_at 0 first /\ starts_at d second /\
  let lap := f1_rated positive_part same_sign (981 / 100) c ci false lo hi (first ++ second) in
  let again := f1_rated positive_part same_sign (981 / 100) c (started_at d ci) false (fun s => lo (s + d)) (fun s => hi (s + d)) (restarted L d first second) in
  rate_feasible meshed f1_rate_lo f1_rate_hi (1 / 2) [] true L lap /\ rate_feasible meshed f1_rate_lo f1_rate_hi (1 / 2) [] true L again /\
  rate_objective meshed f1_rate_lo f1_rate_hi dis (1 / 2) true L lap < rate_objective meshed f1_rate_lo f1_rate_hi dis (1 / 2) true L again.
Proof.
  set (flat := Circuit (fun _ => flat_point (V 0 0 0) 0 0) (fun _ => 5) (fun _ => 5)).
  set (first := [(0, (gliding_point 50 0, [0; 0]))]). set (second := [(40, (gliding_point 50 (3 / 10), [0; 3 / 4])); (80, (gliding_point 50 (1 / 5), [0; - (1)]))]).
  assert (Same : forall s u b, f1_point_eval positive_part same_sign (981 / 100) gliding_car flat false gliding_low gliding_high s (gliding_point u b) =
    f1_point_eval positive_part same_sign (981 / 100) gliding_car straight false gliding_low gliding_high 0 (gliding_point u b)) by reflexivity.
  assert (Pc : periodic_circuit 100 flat) by (repeat split). assert (Pl : periodic 100 gliding_low) by (intros s; reflexivity). assert (Ph : periodic 100 gliding_high) by (intros s; reflexivity).
  assert (G : forall b, 0 <= b <= 1 -> glides b (f1_point_eval positive_part same_sign (981 / 100) gliding_car straight false gliding_low gliding_high 0 (gliding_point 50 b))).
  { intros b Hb. exact (gliding_evaluation 50 b 0 ltac:(lra) Hb). }
  pose proof (G 0 ltac:(lra)) as G0. pose proof (G (3 / 10) ltac:(lra)) as G1. pose proof (G (1 / 5) ltac:(lra)) as G2.
  assert (F : rate_feasible [1%nat] f1_rate_lo f1_rate_hi (1 / 2) [] true 100 (f1_rated positive_part same_sign (981 / 100) gliding_car flat false gliding_low gliding_high (first ++ second))).
  { unfold rate_feasible, f1_rated, first, second. cbn [app map fst snd]. rewrite !Same. split; [|split; [|constructor]].
    - unfold mesh_elements. cbn [inner_elements closing_element app last fst snd]. constructor; [|constructor; [|constructor; [|constructor]]];
        [apply (gliding_rated_element _ _ _ _ _ _ _ G0 G1) | apply (gliding_rated_element _ _ _ _ _ _ _ G1 G2) | apply (gliding_rated_element _ _ _ _ _ _ _ G2 G0)]; lra.
    - unfold variables_hold. constructor; [apply (gliding_rated_bounds _ _ _ G0); lra|]. constructor; [apply (gliding_rated_bounds _ _ _ G1); lra|].
      constructor; [apply (gliding_rated_bounds _ _ _ G2); lra | constructor]. }
  exists gliding_car, flat, gliding_low, gliding_high, 100, 40, first, second, [0; 1], [1%nat].
  split; [exact Pc|]. split; [exact Pl|]. split; [exact Ph|]. split; [reflexivity|]. split; [reflexivity|]. cbv zeta. split; [exact F|]. split.
  - apply (C154_restart_partial positive_part same_sign (981 / 100) gliding_car flat false gliding_low gliding_high 100 40 first second (1 / 2) [0; 1] [] [1%nat] Pc Pl Ph eq_refl eq_refl (or_introl eq_refl)), F.
  - rewrite !C154_value_partial.
    assert (Ep : forall ci s u b, (forall s, turning ci s = 0) -> f1_pace ci s (gliding_point u b) = / u).
    { intros ci s u b T. unfold f1_pace, pace. rewrite T. cbn. rewrite sin_0, cos_0. apply over; ring. }
    assert (T1 : forall s, turning flat s = 0) by (intros s; apply (straight_turning 0)).
    unfold first, second, restarted, along, values, closed_up, lopsided_effort, distance, along, values, squared_rate, rate, closed_up. cbn [map app fst snd weighted penalised fold_right nth last hd].
    rewrite !(Ep flat) by exact T1. lra.
Qed.

(** ** The kart *)
Section TheKart.
Context (sp ss : R -> R -> R) (linsolve : mat -> vec -> vec).
Lemma kart_lengths c ci lo hi s p : let e := kart_point_eval sp ss linsolve c ci lo hi s p in
  length (e_q e) = 12%nat /\ length (e_dq e) = 12%nat /\ length (e_x e) = 14%nat /\ length (e_xlb e) = 14%nat /\ length (e_xub e) = 14%nat.
Proof. repeat split. Qed.
Theorem C154_kart_direct c ci lo hi pts sigma restricted closed L meshed :
  let direct := e_direct (c_engine c) in
  rate_feasible meshed (kart_rate_lo direct) (kart_rate_hi direct) sigma restricted closed L (kart_rated sp ss linsolve c ci lo hi pts) ->
  lap_feasible sigma restricted closed L (kart_lap_points sp ss linsolve c ci lo hi (map (fun p => (fst p, fst (snd p))) pts)).
Proof.
  intros direct. apply (direct_any meshed _ _ (kart_point_eval sp ss linsolve c ci lo hi) 12 14); intros; apply kart_lengths.
Qed.
(** The throttle of a kart that is driven by its torque: 4000 N m per second. *)
Theorem C154_kart_rates c ci lo hi pts sigma restricted closed L meshed k before a mid z after : 0 <= sigma <= 1 -> rising closed L pts -> In k meshed -> (k < 2)%nat ->
  let direct := e_direct (c_engine c) in
  rate_feasible meshed (kart_rate_lo direct) (kart_rate_hi direct) sigma restricted closed L (kart_rated sp ss linsolve c ci lo hi pts) ->
  Forall (fun p => 0 <= kart_pace ci (fst p) (fst (snd p))) pts -> 
  let most := nth k [20 * (PI / 180); if direct then 4000 else 10] 0 in
  closed = true \/ - most <= nth k (first_rates pts) 0 <= most ->
  timeline closed L (fun s p => kart_pace ci s (fst p)) (fun _ p => kart_control k (fst p)) pts = before ++ (a :: mid ++ [z]) ++ after ->
  Rabs (snd (snd z) - snd (snd a)) <= most * elapsed sigma (a :: mid ++ [z]).
Proof.
  intros Hs Ri Hk H2 direct F Fp most H1 E.
  assert (Eh : item (kart_rate_hi direct) k = most) by (unfold item, most, kart_rate_hi; destruct direct; reflexivity).
  assert (El : item (kart_rate_lo direct) k = - most).
  { unfold item, most, kart_rate_lo, DEG. destruct k as [|[|k]]; [| |lia]; destruct direct; cbn [nth]; lra. }
  pose proof (moves_any meshed (kart_rate_lo direct) (kart_rate_hi direct) (kart_point_eval sp ss linsolve c ci lo hi) (kart_pace ci) 12 14) as M.
  specialize (M ltac:(intros; apply kart_dt) ltac:(intros; apply kart_lengths) ltac:(intros; apply kart_lengths) ltac:(intros; apply kart_lengths) ltac:(intros; apply kart_lengths) ltac:(intros; apply kart_lengths)
    sigma restricted closed L pts k (kart_control k) before a mid z after Hs Ri Hk ltac:(reflexivity) F Fp).
  rewrite Eh, El in M. specialize (M H1 E). apply Rabs_le. lra.
Qed.
Theorem C154_kart_turned c ci lo hi a l sigma restricted closed L meshed k : In k meshed -> let direct := e_direct (c_engine c) in
  rate_feasible meshed (kart_rate_lo direct) (kart_rate_hi direct) sigma restricted closed L (kart_rated sp ss linsolve c ci lo hi (a :: l)) ->
  along sigma closed L (fun s p => rate k s p * kart_pace ci s (fst p)) (a :: l) = if closed then 0 else kart_control k (fst (snd (last (a :: l) a))) - kart_control k (fst (snd a)).
Proof.
  intros Hk direct F. apply (turned_any meshed (kart_rate_lo direct) (kart_rate_hi direct) (kart_point_eval sp ss linsolve c ci lo hi) (kart_pace ci) 12
    ltac:(intros; apply kart_dt) ltac:(intros; apply kart_lengths) ltac:(intros; apply kart_lengths) sigma restricted closed L a l k (kart_control k) Hk ltac:(reflexivity) F).
Qed.
Theorem C154_kart_value_partial c ci lo hi pts sigma dis closed L meshed : let direct := e_direct (c_engine c) in
  rate_objective meshed (kart_rate_lo direct) (kart_rate_hi direct) dis sigma closed L (kart_rated sp ss linsolve c ci lo hi pts) =
  along sigma closed L (fun s p => kart_pace ci s (fst p)) pts + penalised dis meshed (fun k => lopsided_effort closed L k pts).
Proof.
  intros direct. unfold rate_objective, kart_rated. rewrite map_rated, (time_any meshed _ _ _ (kart_pace ci)) by (intros; apply kart_dt). f_equal. rewrite map_map. cbn [fst snd]. apply penalty_value.
Qed.
Theorem C154_kart_mirror c ci lo hi pts sigma dis closed L meshed : solves linsolve -> even_steering c ->
  Forall (fun p => determined (c_body c) (i_state (kp_in (fst (snd p))))) pts ->
  let direct := e_direct (c_engine c) in
  let lap := kart_rated sp ss linsolve c ci lo hi pts in
  let image := kart_rated sp ss linsolve (mirror_kart c) (mirror_circuit ci) (mirror_kart_bounds lo hi) (mirror_kart_bounds hi lo) (mirror_rated_kart pts) in
  (rate_feasible meshed (kart_rate_lo direct) (kart_rate_hi direct) sigma [] closed L image <-> rate_feasible meshed (kart_rate_lo direct) (kart_rate_hi direct) sigma [] closed L lap) /\
  rate_objective meshed (kart_rate_lo direct) (kart_rate_hi direct) dis sigma closed L image = rate_objective meshed (kart_rate_lo direct) (kart_rate_hi direct) dis sigma closed L lap.
Proof.
  intros HS HB HD direct lap image.
  assert (I : lap_images (kart_order ++ rate_order [false; true] 12 meshed) [] kart_extra_order (kart_variable_order ++ rate_order [false; true] 14 meshed) [false; true] (fun k => k)
    (map (fun p => (fst p, with_rates meshed (kart_rate_lo direct) (kart_rate_hi direct) (fst (snd p)) (snd (snd p)))) lap)
    (map (fun p => (fst p, with_rates meshed (kart_rate_lo direct) (kart_rate_hi direct) (fst (snd p)) (snd (snd p)))) image)).
  { unfold lap_images, lap, image, kart_rated, mirror_rated_kart. induction HD as [|p l Hp HD IH]; [constructor|]. cbn [map]. constructor; [|exact IH]. split; [reflexivity|]. cbn [fst snd].
    apply rated_image; [apply kart_point_image; assumption | apply kart_lengths | apply kart_lengths | apply kart_lengths | |].
    - intros k. rewrite item_mirror_rates. rewrite <- (nth_steering k 1). reflexivity.
    - intros k. rewrite (nth_steering k 1 : nth k [false; true] true = _). destruct k as [|[|k]]; cbn [nth]; [intros _; unfold item, kart_rate_lo, kart_rate_hi; destruct direct; cbn [nth]; ring | discriminate | destruct k; discriminate]. }
  split; [exact (image_feasible _ _ _ _ _ _ sigma [] closed L _ _ I)|].
  unfold rate_objective. rewrite (image_objective _ _ _ _ _ _ sigma [] closed L _ _ I). f_equal.
  unfold lap, image, kart_rated, mirror_rated_kart. rewrite !map_map. cbn [fst snd]. pose proof (penalty_mirror meshed dis closed L mirror_kart_point pts) as PM. rewrite !map_map in PM. exact PM.
Qed.
Theorem C154_kart_restart_partial c ci lo hi L d first second sigma dis meshed :
  periodic_circuit L ci -> periodic L lo -> periodic L hi -> starts_at 0 first -> starts_at d second ->
  let direct := e_direct (c_engine c) in
  let lap := kart_rated sp ss linsolve c ci lo hi (first ++ second) in
  let again := kart_rated sp ss linsolve c (started_at d ci) (fun s => lo (s + d)) (fun s => hi (s + d)) (restarted L d first second) in
  (rate_feasible meshed (kart_rate_lo direct) (kart_rate_hi direct) sigma [] true L again <-> rate_feasible meshed (kart_rate_lo direct) (kart_rate_hi direct) sigma [] true L lap) /\
  (Forall (fun k => nth k dis 0 = 0) meshed ->
   rate_objective meshed (kart_rate_lo direct) (kart_rate_hi direct) dis sigma true L again = rate_objective meshed (kart_rate_lo direct) (kart_rate_hi direct) dis sigma true L lap).
Proof.
  intros (P1 & P2 & P3) Pl Ph S1 S2 direct lap again.
  destruct (restart_any (rated_eval meshed (kart_rate_lo direct) (kart_rate_hi direct) (kart_point_eval sp ss linsolve c ci lo hi))
    (rated_eval meshed (kart_rate_lo direct) (kart_rate_hi direct) (kart_point_eval sp ss linsolve c (started_at d ci) (fun s => lo (s + d)) (fun s => hi (s + d))))
    L d first second sigma []) as (A & B & C); [reflexivity | | exact S1 | exact S2 |].
  - intros s p. unfold rated_eval, kart_point_eval. rewrite !P1, !P2, !P3, !Pl, !Ph. reflexivity.
  - unfold rate_feasible, rate_objective, lap, again, kart_rated. rewrite !map_rated. split; [apply restart_feasible; [exact A | exact B | right; reflexivity]|]. intros D. rewrite C. f_equal.
    rewrite !map_map. cbn [fst snd]. rewrite !penalty_value, !penalised_none by exact D. reflexivity.
Qed.
End TheKart.

(** The coasting kart of C151. *)
Example C154_kart_case : let c := square_kart grippy (1 / 10) (- (1 / 20)) (1 / 20) in let direct := e_direct (c_engine c) in
  let pts := [(0, (coasting_point, [0; 0])); (40, (coasting_point, [0; 0]))] in
  rate_feasible [0%nat; 1%nat] (kart_rate_lo direct) (kart_rate_hi direct) (1 / 2) [] true 100 (kart_rated positive_part same_sign cramer c level kart_low kart_high pts) /\
  rising true 100 pts /\ solves cramer /\ even_steering c /\ Forall (fun p => determined (c_body c) (i_state (kp_in (fst (snd p))))) pts.
Proof.
  intros c direct pts. destruct C151_kart_case as (A & B & C & D & _).
  split; [|split; [unfold rising, closed_up; cbn; repeat constructor; lra|]; split; [exact A|]; split; [exact B | repeat constructor; cbn; lra]].
  apply (idle_any [0%nat; 1%nat] (kart_rate_lo direct) (kart_rate_hi direct) (kart_point_eval positive_part same_sign cramer c level kart_low kart_high) 12 [0; 0] (1 / 2) [] true 100
    [(0, coasting_point); (40, coasting_point)]); [intros; apply kart_lengths | intros; apply kart_lengths | | exact D].
  assert (0 < DEG) by (unfold DEG; pose proof PI_RGT_0; lra).
  assert (U : forall k s p s' p', In (s, p) [(0, coasting_point); (40, coasting_point)] -> In (s', p') [(0, coasting_point); (40, coasting_point)] ->
    item (e_u (kart_point_eval positive_part same_sign cramer c level kart_low kart_high s p)) k = item (e_u (kart_point_eval positive_part same_sign cramer c level kart_low kart_high s' p')) k).
  { intros k s p s' p' H1 H2. cbn [In] in H1, H2. assert (p = coasting_point) by intuition congruence. assert (p' = coasting_point) by intuition congruence. subst. reflexivity. }
  unfold kart_rate_lo, kart_rate_hi. destruct direct; (constructor; [|constructor; [|constructor]]); (split; [reflexivity|]; split; [unfold item; cbn [nth]; lra | apply U]).
Qed.

Print Assumptions C154_direct.
Print Assumptions C154_rates.
Print Assumptions C154_turned.
Print Assumptions C154_value_partial.
Print Assumptions C154_fastest.
Print Assumptions C154_mirror.
Print Assumptions C154_restart_partial.
Print Assumptions C154_value_refuted.
Print Assumptions C154_restart_refuted.
Print Assumptions C154_kart_direct.
Print Assumptions C154_kart_rates.
Print Assumptions C154_kart_turned.
Print Assumptions C154_kart_value_partial.
Print Assumptions C154_kart_mirror.
Print Assumptions C154_kart_restart_partial.
