(** Property theorem C153: laps that satisfy the constraints. *)
From Coq Require Import Reals Lra Lia List Sorted.
From Verif Require Import M_Vec M_Tire M_Car M_Road M_F1 M_Kart6 M_KartCar M_Feasible M_RealLap S_F1 S_F1Wheels S_KartCar S_RealLap S_LapLimits L_F1 L_RealLap P_Tire P_Car P_F1 P_F1Wheels P_KartCar P_RealLap.
Import ListNotations.
Local Open Scope R_scope.

(** ** Any car *)
Lemma mesh_closed_up closed L pts : mesh_elements closed L pts = inner_elements (closed_up closed L pts).
Proof.
  unfold mesh_elements, closed_up. destruct closed; [|rewrite !app_nil_r; reflexivity]. destruct pts as [|a l]; [reflexivity|].
  rewrite (inner_app a (L, snd a) l []). reflexivity.
Qed.
Lemma closed_up_map {A B} (f : A -> B) closed L pts :
  closed_up closed L (map (fun p => (fst p, f (snd p))) pts) = map (fun p => (fst p, f (snd p))) (closed_up closed L pts).
Proof. unfold closed_up. rewrite map_app. f_equal. destruct closed; [|reflexivity]. destruct pts; reflexivity. Qed.
Lemma weighted_elements sigma (f : point_eval -> R) pts :
  total (map (fun e : mesh_element => let '(ds, (l, r)) := e in ds * ((1 - sigma) * f l + sigma * f r)) (inner_elements pts)) =
  weighted sigma (map (fun p => (fst p, f (snd p))) pts).
Proof.
  induction pts as [|[s a] l IH]; [reflexivity|]. destruct l as [|[t b] l]; [reflexivity|].
  change (inner_elements ((s, a) :: (t, b) :: l)) with ((t - s, (a, b)) :: inner_elements ((t, b) :: l)). unfold total in *. cbn [map fold_right fst snd] in *. rewrite IH. reflexivity.
Qed.
Lemma rough_elements (f : point_eval -> R) pts :
  total (map (fun e : mesh_element => let '(ds, (l, r)) := e in ((f r - f l) / ds) * ((f r - f l) / ds) * ds) (inner_elements pts)) =
  roughness (map (fun p => (fst p, f (snd p))) pts).
Proof.
  induction pts as [|[s a] l IH]; [reflexivity|]. destruct l as [|[t b] l]; [reflexivity|].
  change (inner_elements ((s, a) :: (t, b) :: l)) with ((t - s, (a, b)) :: inner_elements ((t, b) :: l)). unfold total in *. cbn [map fold_right fst snd] in *. rewrite IH.
  cbn [roughness]. f_equal. ring.
Qed.
Lemma total_cons x l : total (x :: l) = x + total l. Proof. reflexivity. Qed.
Lemma total_plus {A} (f g : A -> R) l : total (map (fun x => f x + g x) l) = total (map f l) + total (map g l).
Proof. unfold total. induction l as [|x l IH]; cbn [map fold_right]; [lra|]. rewrite IH. ring. Qed.
Lemma total_scale {A} (k : R) (f : A -> R) l : total (map (fun x => k * f x) l) = k * total (map f l).
Proof. unfold total. induction l as [|x l IH]; cbn [map fold_right]; [lra|]. rewrite IH. ring. Qed.
Lemma along_eval {P} sigma closed L (ev : R -> P -> point_eval) (f : point_eval -> R) (g : R -> P -> R) pts : (forall s p, f (ev s p) = g s p) ->
  total (map (fun e : mesh_element => let '(ds, (l, r)) := e in ds * ((1 - sigma) * f l + sigma * f r)) (mesh_elements closed L (map (fun p => (fst p, ev (fst p) (snd p))) pts))) =
  along sigma closed L g pts.
Proof.
  intros E. rewrite mesh_closed_up, weighted_elements, <- closed_up_map, map_map. unfold along, values. f_equal. f_equal. apply map_ext. intros [s p]. cbn [fst snd]. rewrite E. reflexivity.
Qed.
Lemma wear_eval {P} closed L (ev : R -> P -> point_eval) (f : point_eval -> R) (g : R -> P -> R) pts : (forall s p, f (ev s p) = g s p) ->
  total (map (fun e : mesh_element => let '(ds, (l, r)) := e in ((f r - f l) / ds) * ((f r - f l) / ds) * ds) (mesh_elements closed L (map (fun p => (fst p, ev (fst p) (snd p))) pts))) =
  wear closed L g pts.
Proof.
  intros E. rewrite mesh_closed_up, rough_elements, <- closed_up_map, map_map. unfold wear, values. f_equal. f_equal. apply map_ext. intros [s p]. cbn [fst snd]. rewrite E. reflexivity.
Qed.
(** The value that is minimised. *)
Lemma value_any {P} sigma dis closed L (ev : R -> P -> point_eval) (g : R -> P -> R) (us : list (R -> P -> R)) pts : (forall s p, e_dt (ev s p) = g s p) ->
  length dis = length us -> (forall s p, e_u (ev s p) = map (fun u => u s p) us) ->
  lap_objective sigma dis closed L (map (fun p => (fst p, ev (fst p) (snd p))) pts) =
  along sigma closed L g pts + total (map (fun k => item dis k * wear closed L (nth k us (fun _ _ => 0)) pts) (seq 0 (length us))).
Proof.
  intros Eg El Eu. unfold lap_objective. rewrite <- El.
  assert (X : forall n els, 
    total (map (fun e : mesh_element => let '(ds, (l, r)) := e in total (map (fun k => item dis k * (((item (e_u r) k - item (e_u l) k) / ds) * ((item (e_u r) k - item (e_u l) k) / ds)) * ds) (seq 0 n))) els) =
    total (map (fun k => item dis k * total (map (fun e : mesh_element => let '(ds, (l, r)) := e in ((item (e_u r) k - item (e_u l) k) / ds) * ((item (e_u r) k - item (e_u l) k) / ds) * ds) els)) (seq 0 n))).
  { intros n els. induction els as [|[ds [l r]] els IH].
    - cbn [map]. change (total []) with 0. symmetry. induction (seq 0 n) as [|k ks IHk]; [reflexivity|]. cbn [map]. rewrite total_cons, IHk. ring.
    - cbn [map]. rewrite total_cons, IH. clear IH. induction (seq 0 n) as [|k ks IHk]; [unfold total; cbn; lra|]. cbn [map]. rewrite !total_cons, <- IHk. cbv zeta. ring. }
  rewrite (map_ext _ (fun e : mesh_element => (let '(ds, (l, r)) := e in ds * ((1 - sigma) * e_dt l + sigma * e_dt r)) +
    (let '(ds, (l, r)) := e in total (map (fun k => item dis k * (((item (e_u r) k - item (e_u l) k) / ds) * ((item (e_u r) k - item (e_u l) k) / ds)) * ds) (seq 0 (length dis))))))
    by (intros [ds [l r]]; reflexivity).
  rewrite total_plus, (along_eval sigma closed L ev e_dt g pts Eg), X. f_equal. f_equal. apply map_ext_in. intros k Hk. apply in_seq in Hk. f_equal.
  apply (wear_eval closed L ev (fun e => item (e_u e) k)). intros s p. rewrite Eu. rewrite (item_map _ _ _ (fun _ _ => 0)) by lia. reflexivity.
Qed.
Lemma weighted_least sigma m f : 0 <= sigma <= 1 -> StronglySorted Rlt (map fst f) -> Forall (fun p => m <= snd p) f ->
  m * (last (map fst f) 0 - hd 0 (map fst f)) <= weighted sigma f.
Proof.
  intros Hs S F. induction f as [|[s x] l IH]; [cbn; lra|]. destruct l as [|[t y] l]; [cbn; lra|].
  inversion S as [|? ? S' G]; subst. inversion F as [|? ? Fx F']; subst. specialize (IH S' F'). inversion F' as [|? ? Fy _]; subst. cbn [snd] in Fx, Fy.
  inversion G as [|? ? Lt _]; subst. 
  change (m * (last (t :: map fst l) 0 - t) <= weighted sigma ((t, y) :: l)) in IH.
  change (m * (last (t :: map fst l) 0 - s) <= (t - s) * ((1 - sigma) * x + sigma * y) + weighted sigma ((t, y) :: l)).
  assert (m * (t - s) <= (t - s) * ((1 - sigma) * x + sigma * y)).
  { rewrite Rmult_comm. apply Rmult_le_compat_l; [cbn [fst] in Lt; lra|].
    assert (0 <= (1 - sigma) * (x - m)) by (apply Rmult_le_pos; lra). assert (0 <= sigma * (y - m)) by (apply Rmult_le_pos; lra). lra. }
  replace (m * (last (t :: map fst l) 0 - s)) with (m * (t - s) + m * (last (t :: map fst l) 0 - t)) by ring. lra.
Qed.
Lemma roughness_pos f : StronglySorted Rlt (map fst f) -> 0 <= roughness f.
Proof.
  intros S. induction f as [|[s x] l IH]; [cbn; lra|]. destruct l as [|[t y] l]; [cbn; lra|].
  inversion S as [|? ? S' G]; subst. specialize (IH S'). inversion G as [|? ? Lt _]; subst. cbn [roughness]. cbn [fst] in Lt.
  assert (0 <= ((y - x) / (t - s)) ^ 2 * (t - s)) by (apply Rmult_le_pos; [apply pow2_ge_0 | lra]).
  change (0 <= roughness ((t, y) :: l)) in IH. change (0 <= ((y - x) / (t - s)) ^ 2 * (t - s) + roughness ((t, y) :: l)). lra.
Qed.
Lemma closed_up_fst {P} closed L (g : R -> P -> R) pts : map fst (closed_up closed L (values g pts)) = map fst (closed_up closed L pts).
Proof.
  unfold closed_up, values. rewrite !map_app, map_map. cbn [fst]. f_equal. destruct closed; [|reflexivity]. destruct pts; reflexivity.
Qed.
Lemma closed_up_Forall {P} closed L (g : R -> P -> R) (Q : R -> Prop) pts : Forall (fun p => Q (g (fst p) (snd p))) pts -> Forall (fun p => Q (snd p)) (closed_up closed L (values g pts)).
Proof.
  intros F. unfold closed_up, values. apply Forall_app. split; [apply Forall_map; exact F|]. destruct closed; [|constructor].
  destruct F as [|p l Hp F]; [constructor|]. constructor; [exact Hp | constructor].
Qed.
Lemma along_least {P} sigma closed L (g : R -> P -> R) m pts : 0 <= sigma <= 1 -> rising closed L pts -> Forall (fun p => m <= g (fst p) (snd p)) pts ->
  m * distance closed L pts <= along sigma closed L g pts.
Proof.
  intros Hs S F. unfold distance, along. rewrite <- (closed_up_fst closed L g). apply weighted_least; [exact Hs | rewrite closed_up_fst; exact S | apply (closed_up_Forall closed L g (fun x => m <= x)), F].
Qed.
Lemma wear_pos {P} closed L (g : R -> P -> R) pts : rising closed L pts -> 0 <= wear closed L g pts.
Proof. intros S. apply roughness_pos. rewrite closed_up_fst. exact S. Qed.
Lemma pace_least c V k n alpha u v : 0 <= c -> 0 < V -> moderate c V k n alpha u v -> c / V <= pace k n alpha u v.
Proof.
  intros Hc HV (Hf & Hs & Hn). unfold pace. set (f := u * cos alpha - v * sin alpha) in *.
  assert (F2 : f * f <= V * V).
  { eapply Rle_trans; [|exact Hs]. pose proof (sin2_cos2 alpha) as T. unfold Rsqr in T.
    replace (u * u + v * v) with ((u * u + v * v) * (sin alpha * sin alpha + cos alpha * cos alpha)) by (rewrite T; ring).
    assert (0 <= (u * sin alpha + v * cos alpha) * (u * sin alpha + v * cos alpha)) by apply Rle_0_sqr. unfold f. lra. }
  assert (FV : f <= V) by (apply Rsqr_incr_0; unfold Rsqr; lra).
  apply Rmult_le_compat; [exact Hc | left; apply Rinv_0_lt_compat, HV | exact Hn | apply Rinv_le_contravar; assumption].
Qed.
Lemma weighted_ge sigma (f g : list (R * R)) : 0 <= sigma <= 1 -> map fst f = map fst g -> StronglySorted Rlt (map fst f) -> Forall2 (fun p q => snd p <= snd q) f g -> weighted sigma f <= weighted sigma g.
Proof.
  intros Hs E S F. revert E S. induction F as [|[s x] [s' x'] l l' Hx F IH]; intros E S; [cbn; lra|]. injection E as <- E. 
  inversion S as [|? ? S' G]; subst. specialize (IH E S'). destruct F as [|[t y] [t' y'] l l' Hy F]; [cbn; lra|].
  injection E as <- E. inversion G as [|? ? Lt _]; subst. cbn [fst snd] in *. cbn [weighted].
  change (weighted sigma ((t, y) :: l) <= weighted sigma ((t, y') :: l')) in IH.
  enough ((t - s) * ((1 - sigma) * x + sigma * y) <= (t - s) * ((1 - sigma) * x' + sigma * y')).
  { change ((t - s) * ((1 - sigma) * x + sigma * y) + weighted sigma ((t, y) :: l) <= (t - s) * ((1 - sigma) * x' + sigma * y') + weighted sigma ((t, y') :: l')). lra. }
  apply Rmult_le_compat_l; [lra|]. assert ((1 - sigma) * x <= (1 - sigma) * x') by (apply Rmult_le_compat_l; lra). assert (sigma * y <= sigma * y') by (apply Rmult_le_compat_l; lra). lra.
Qed.
(** The elements that hold end at the points that are chosen. *)
Lemma inner_right a l : map (fun e : mesh_element => snd (snd e)) (inner_elements (a :: l)) = map snd l.
Proof.
  revert a. induction l as [|b l IH]; intros a; [reflexivity|].
  change (inner_elements (a :: b :: l)) with ((fst b - fst a, (snd a, snd b)) :: inner_elements (b :: l)). cbn [map snd]. rewrite IH. reflexivity.
Qed.
Lemma chosen_end closed L pts e : In e (map snd (chosen closed pts)) -> In e (map (fun x : mesh_element => snd (snd x)) (mesh_elements closed L pts)).
Proof.
  rewrite mesh_closed_up. unfold closed_up, chosen. destruct pts as [|a l]; [destruct closed; intros []|]. cbn [app]. rewrite inner_right.
  destruct closed; [|rewrite app_nil_r; auto]. rewrite map_app. cbn [map snd]. intros [<- | H]; apply in_or_app; [right; left; reflexivity | left; exact H].
Qed.
Lemma holds_at sigma restricted closed L pts e : lap_feasible sigma restricted closed L pts -> In e (map snd (chosen closed pts)) ->
  Forall (fun x => x = 0) (algebraic_residuals e) /\ bounded (e_lb e) (e_extra e) (e_ub e) /\ bounded (e_xlb e) (e_x e) (e_xub e).
Proof.
  intros (F & Vh & _) He. pose proof (chosen_end closed L pts e He) as X. apply in_map_iff in X. destruct X as (x & <- & Hx).
  rewrite Forall_forall in F. destruct (F x Hx) as (_ & A & B). split; [exact A|]. split; [exact B|].
  apply in_map_iff in He. destruct He as (p & E & Hp). unfold variables_hold in Vh. rewrite Forall_forall in Vh. unfold chosen in Hp. specialize (Vh p Hp). rewrite <- E. exact Vh.
Qed.
Lemma in_chosen {P} (ev : R -> P -> point_eval) closed pts s p : In (s, p) (chosen closed pts) -> In (ev s p) (map snd (chosen closed (map (fun p => (fst p, ev (fst p) (snd p))) pts))).
Proof.
  intros H. unfold chosen in *. destruct closed; [|destruct pts as [|a l]; [destruct H|]; cbn [tl map] in *]; rewrite map_map; cbn [snd]; apply in_map_iff; exists (s, p); (split; [reflexivity | exact H]).
Qed.
(** What is integrated. *)
Lemma inner_gain sigma k a l : Forall (element_holds sigma) (inner_elements (a :: l)) -> Forall (fun e : R * point_eval => (k < length (e_q (snd e)))%nat) l ->
  weighted sigma (map (fun p => (fst p, item (e_dq (snd p)) k)) (a :: l)) = item (e_q (snd (last (a :: l) a))) k - item (e_q (snd a)) k.
Proof.
  revert a. induction l as [|b l IH]; intros a F Hk; [cbn; lra|].
  change (inner_elements (a :: b :: l)) with ((fst b - fst a, (snd a, snd b)) :: inner_elements (b :: l)) in F. inversion F as [|? ? (H & _) F']; subst. inversion Hk as [|? ? Hb Hk']; subst.
  specialize (IH b F' Hk'). cbn [map fst snd] in IH |- *.
  change (weighted sigma ((fst a, item (e_dq (snd a)) k) :: (fst b, item (e_dq (snd b)) k) :: map (fun p => (fst p, item (e_dq (snd p)) k)) l))
    with ((fst b - fst a) * ((1 - sigma) * item (e_dq (snd a)) k + sigma * item (e_dq (snd b)) k) + weighted sigma ((fst b, item (e_dq (snd b)) k) :: map (fun p => (fst p, item (e_dq (snd p)) k)) l)).
  rewrite IH. change (last (a :: b :: l) a) with (last (b :: l) a). rewrite (last_indep (b :: l) a b) by discriminate.
  unfold residuals in H. rewrite Forall_map, Forall_forall in H. specialize (H k ltac:(apply in_seq; lia)). lra.
Qed.
Lemma gain_any {P} sigma restricted closed L (ev : R -> P -> point_eval) (q dq : R -> P -> R) k a l :
  (forall s p, item (e_q (ev s p)) k = q s p) -> (forall s p, item (e_dq (ev s p)) k = dq s p) -> (forall s p, (k < length (e_q (ev s p)))%nat) ->
  lap_feasible sigma restricted closed L (map (fun p => (fst p, ev (fst p) (snd p))) (a :: l)) ->
  along sigma closed L dq (a :: l) = if closed then 0 else let z := last (a :: l) a in q (fst z) (snd z) - q (fst a) (snd a).
Proof.
  intros Eq Ed Hk (F & _). rewrite mesh_closed_up in F. unfold along.
  assert (E : closed_up closed L (values dq (a :: l)) = map (fun p => (fst p, item (e_dq (snd p)) k)) (closed_up closed L (map (fun p => (fst p, ev (fst p) (snd p))) (a :: l)))).
  { rewrite <- (closed_up_map (fun e => item (e_dq e) k)). f_equal. unfold values. rewrite map_map. apply map_ext. intros [s p]. cbn [fst snd]. rewrite Ed. reflexivity. }
  rewrite E. clear E. cbn [map closed_up app] in F |- *.
  set (ea := (fst a, ev (fst a) (snd a))) in *. set (rest := map (fun p => (fst p, ev (fst p) (snd p))) l ++ _) in *.
  assert (K : Forall (fun e : R * point_eval => (k < length (e_q (snd e)))%nat) rest).
  { apply Forall_app. split; [apply Forall_map, Forall_forall; intros; apply Hk|]. destruct closed; [|constructor]. constructor; [apply Hk | constructor]. }
  change ((fst ea, item (e_dq (snd ea)) k) :: map (fun p : R * point_eval => (fst p, item (e_dq (snd p)) k)) rest) with (map (fun p : R * point_eval => (fst p, item (e_dq (snd p)) k)) (ea :: rest)).
  rewrite (inner_gain sigma k ea rest F K). destruct closed.
  - unfold rest. change (ea :: map (fun p => (fst p, ev (fst p) (snd p))) l ++ [(L, snd ea)]) with ((ea :: map (fun p => (fst p, ev (fst p) (snd p))) l) ++ [(L, snd ea)]).
    rewrite last_app2 by discriminate. cbn [last snd]. lra.
  - unfold rest. rewrite app_nil_r. cbv zeta.
    assert (E : forall b m, last (map (fun p => (fst p, ev (fst p) (snd p))) (b :: m)) (fst b, ev (fst b) (snd b)) = (fst (last (b :: m) b), ev (fst (last (b :: m) b)) (snd (last (b :: m) b)))).
    { intros b m. clear. revert b. induction m as [|d m IH]; intros b; [reflexivity|]. change (last (b :: d :: m) b) with (last (d :: m) b). rewrite (last_indep (d :: m) b d) by discriminate. rewrite <- IH.
      change (map (fun p => (fst p, ev (fst p) (snd p))) (b :: d :: m)) with ((fst b, ev (fst b) (snd b)) :: map (fun p => (fst p, ev (fst p) (snd p))) (d :: m)).
      cbn [map]. change (last ((fst b, ev (fst b) (snd b)) :: (fst d, ev (fst d) (snd d)) :: map (fun p => (fst p, ev (fst p) (snd p))) m) (fst b, ev (fst b) (snd b))) with
        (last ((fst d, ev (fst d) (snd d)) :: map (fun p => (fst p, ev (fst p) (snd p))) m) (fst b, ev (fst b) (snd b))). apply last_indep. discriminate. }
    change (ea :: map (fun p => (fst p, ev (fst p) (snd p))) l) with (map (fun p => (fst p, ev (fst p) (snd p))) (a :: l)). unfold ea. rewrite E. cbn [snd]. rewrite !Eq. reflexivity.
Qed.
(** The integral quantities. *)
Lemma integral_any {P} sigma closed L (ev : R -> P -> point_eval) (g : R -> P -> R) k pts : (forall s p, item (e_int (ev s p)) k = g s p) -> closed = false \/ sigma = 1 / 2 ->
  lap_integral sigma closed L k (map (fun p => (fst p, ev (fst p) (snd p))) pts) = along sigma closed L g pts.
Proof.
  intros E [-> | ->].
  - unfold lap_integral. rewrite Rplus_0_r, <- (along_eval sigma false L ev (fun e => item (e_int e) k) g pts E). unfold mesh_elements. rewrite app_nil_r. reflexivity.
  - destruct closed.
    + rewrite integral_half, <- (along_eval (1 / 2) true L ev (fun e => item (e_int e) k) g pts E). f_equal. apply map_ext. intros [ds [l r]]. lra.
    + unfold lap_integral. rewrite Rplus_0_r, <- (along_eval (1 / 2) false L ev (fun e => item (e_int e) k) g pts E). unfold mesh_elements. rewrite app_nil_r. reflexivity.
Qed.
Lemma bounded_item lb x ub k : bounded lb x ub -> (k < length x)%nat -> item lb k <= item x k <= item ub k.
Proof. intros (_ & _ & H). apply H. Qed.

(** ** The Formula 1 car *)
Section Formula1.
Context (sp ss : R -> R -> R) (g0 : R).

Lemma f1_dt c ci elevated lo hi s p : e_dt (f1_point_eval sp ss g0 c ci elevated lo hi s p) = f1_pace ci s p.
Proof. unfold f1_point_eval, f1_on_track, track_eval. cbn [e_dt scaled M_F1.y_road f1_rates vscale vx]. apply Rmult_1_r. Qed.

(** The value that the solver minimises is the time of the lap, by the rule with weight sigma, and the penalisation of the steering, the boost, the throttle and the brake bias. *)
Theorem C153_value c ci elevated lo hi pts sigma d_steering d_boost d_throttle d_bias closed L :
  lap_objective sigma [d_steering; d_boost; d_throttle; d_bias] closed L (f1_lap sp ss g0 c ci elevated lo hi pts) =
  along sigma closed L (f1_pace ci) pts +
  d_steering * wear closed L (fun _ p => M_F1.i_delta (fp_in p)) pts + d_boost * wear closed L (fun _ p => i_boost (fp_in p)) pts +
  d_throttle * wear closed L (fun _ p => M_F1.i_throttle (fp_in p)) pts + d_bias * wear closed L (fun _ p => i_bias (fp_in p)) pts.
Proof.
  unfold f1_lap. rewrite (value_any sigma _ closed L (f1_point_eval sp ss g0 c ci elevated lo hi) (f1_pace ci)
    [fun _ p => M_F1.i_delta (fp_in p); fun _ p => i_boost (fp_in p); fun _ p => M_F1.i_throttle (fp_in p); fun _ p => i_bias (fp_in p)] pts); [|intros; apply f1_dt | reflexivity | reflexivity].
  cbn [length seq map nth]. unfold total, item; cbn [fold_right nth]. ring.
Qed.

(** No lap is faster than its length at the highest speed. *)
Theorem C153_fastest c ci elevated lo hi pts sigma d_steering d_boost d_throttle d_bias closed L k Vmax : 0 <= sigma <= 1 ->
  0 <= d_steering -> 0 <= d_boost -> 0 <= d_throttle -> 0 <= d_bias -> rising closed L pts -> 0 <= k -> 0 < Vmax ->
  Forall (fun p => moderate k Vmax (turning ci (fst p)) (fp_n (snd p)) (fp_alpha (snd p)) (i_u (fp_in (snd p))) (i_v (fp_in (snd p)))) pts ->
  k / Vmax * distance closed L pts <= lap_objective sigma [d_steering; d_boost; d_throttle; d_bias] closed L (f1_lap sp ss g0 c ci elevated lo hi pts).
Proof.
  intros Hs D1 D2 D3 D4 Ri Hk HV M. rewrite C153_value.
  pose proof (Rmult_le_pos _ _ D1 (wear_pos closed L (fun _ p => M_F1.i_delta (fp_in p)) pts Ri)). pose proof (Rmult_le_pos _ _ D2 (wear_pos closed L (fun _ p => i_boost (fp_in p)) pts Ri)).
  pose proof (Rmult_le_pos _ _ D3 (wear_pos closed L (fun _ p => M_F1.i_throttle (fp_in p)) pts Ri)). pose proof (Rmult_le_pos _ _ D4 (wear_pos closed L (fun _ p => i_bias (fp_in p)) pts Ri)).
  assert (A : k / Vmax * distance closed L pts <= along sigma closed L (f1_pace ci) pts).
  { apply along_least; [exact Hs | exact Ri|]. apply (Forall_impl _ (P := fun p => moderate k Vmax (turning ci (fst p)) (fp_n (snd p)) (fp_alpha (snd p)) (i_u (fp_in (snd p))) (i_v (fp_in (snd p)))));
    [intros p Hp; apply pace_least; assumption | exact M]. }
  lra.
Qed.

Lemma slip_rabs x l : - l <= x <= l -> Rabs x <= l.
Proof. intros H. apply Rabs_le. lra. Qed.
(** At every point chosen by the solver the variables are within their bounds, the car and its front wheels are on the track, and no tyre slips too much sideways. *)
Theorem C153_within c ci elevated lo hi pts sigma restricted closed L s p : lap_feasible sigma restricted closed L (f1_lap sp ss g0 c ci elevated lo hi pts) -> In (s, p) (chosen closed pts) ->
  let v := snd (track_eval sp ss g0 c (fp_in p) (ci_frame ci s) (fp_n p) (fp_alpha p)) in
  let half := a_track (f_front c) / 2 * cos (fp_alpha p) in
  let weight := c_mass (f_chassis c) * g0 in
  f1_inputs_between (fst (lo s)) (fp_in p) (fst (hi s)) /\ between (snd (lo s)) (fp_alpha p) (snd (hi s)) /\
  on_track ci s (fp_n p) /\ on_track ci s (fp_n p - half) /\ on_track ci s (fp_n p + half) /\
  slips_little (f_fl c) weight (v_fl v) /\ slips_little (f_fr c) weight (v_fr v) /\ slips_little (f_rl c) weight (v_rl v) /\ slips_little (f_rr c) weight (v_rr v).
Proof.
  intros F Hp v half weight. destruct (holds_at sigma restricted closed L _ _ F (in_chosen (f1_point_eval sp ss g0 c ci elevated lo hi) closed pts s p Hp)) as (_ & B & X).
  unfold f1_point_eval in B, X. destruct (track_eval sp ss g0 c (fp_in p) (ci_frame ci s) (fp_n p) (fp_alpha p)) as [r v'] eqn:Ev. cbn [snd] in v. subst v.
  destruct (f1_on_track sp ss g0 c (fp_in p) (ci_frame ci s) 0 (fp_n p) (fp_alpha p)) as [q dq]. unfold f1_extra_bounds, f1_extra_constraints in B. cbv zeta in B.
  cbn [e_lb e_extra e_ub] in B. unfold f1_extra_bounds in X. cbv zeta in X. cbn [e_xlb e_x e_xub] in X. unfold f1_variables in X. rewrite !bounded_cons in B. rewrite !bounded_cons in X.
  destruct X as (X0 & X1 & X2 & X3 & X4 & X5 & X6 & X7 & X8 & X9 & X10 & X11 & X12 & X13 & X14 & X15 & X16 & _). destruct B as (B0 & B1 & B2 & B3 & B4 & B5 & _).
  split. { unfold f1_inputs_between. repeat (apply Forall_cons; [assumption|]). apply Forall_nil. }
  split; [exact X12|]. split; [exact X11|].
  assert (Eh : half = 1 / 2 * a_track (f_front c) * cos (fp_alpha p)) by (unfold half; field). unfold on_track. rewrite Eh.
  split; [exact B5|]. split; [exact B4|].
  assert (S : forall t w, - slip_limit (w_model t) (c_mass (f_chassis c)) g0 <= t_lambda w <= slip_limit (w_model t) (c_mass (f_chassis c)) g0 -> slips_little t weight w).
  { intros t w Bx. apply slip_rabs in Bx. unfold slip_limit in Bx. unfold slips_little, weight.
    destruct (Rle_or_lt (maximum_lambda (w_model t) 0) (maximum_lambda (w_model t) (c_mass (f_chassis c) * g0))); [right; rewrite Rmax_right in Bx by lra | left; rewrite Rmax_left in Bx by lra]; exact Bx. }
  split; [apply S, B0|]. split; [apply S, B1|]. split; [apply S, B2 | apply S, B3].
Qed.

(** What a quantity of the car gains along the lap is the sum of its rate: nothing on a closed lap. Wheel spins, velocities, yaw rate, position across the track and heading; with elevation also
    the vertical velocity, the momenta of roll and pitch and the roll balance. *)
Theorem C153_gain c ci elevated lo hi a l sigma restricted closed L f : lap_feasible sigma restricted closed L (f1_lap sp ss g0 c ci elevated lo hi (a :: l)) ->
  In f ([y_fl; y_fr; y_rl; y_rr; M_F1.y_u; M_F1.y_v; M_F1.y_yaw; (fun y => vy (M_F1.y_road y)); (fun y => vz (M_F1.y_road y))] ++ if elevated then [y_w; y_roll; y_pitch; y_balance] else []) ->
  let state s p := f (fst (f1_on_track sp ss g0 c (fp_in p) (ci_frame ci s) 0 (fp_n p) (fp_alpha p))) in
  let rate s p := f (snd (f1_on_track sp ss g0 c (fp_in p) (ci_frame ci s) 0 (fp_n p) (fp_alpha p))) in
  along sigma closed L rate (a :: l) = if closed then 0 else let z := last (a :: l) a in state (fst z) (snd z) - state (fst a) (snd a).
Proof.
  intros F Hf state rate.
  assert (G : forall k, (forall s p, item (e_q (f1_point_eval sp ss g0 c ci elevated lo hi s p)) k = state s p) -> (forall s p, item (e_dq (f1_point_eval sp ss g0 c ci elevated lo hi s p)) k = rate s p) ->
    (k < if elevated then 13 else 9)%nat -> along sigma closed L rate (a :: l) = if closed then 0 else let z := last (a :: l) a in state (fst z) (snd z) - state (fst a) (snd a)).
  { intros k E1 E2 Hk. apply (gain_any sigma restricted closed L (f1_point_eval sp ss g0 c ci elevated lo hi) state rate k a l E1 E2); [|exact F].
    intros s p. unfold f1_point_eval, f1_on_track, track_eval. cbn [e_q]. destruct elevated; cbn [f1_integrated app length]; exact Hk. }
  apply in_app_or in Hf. destruct Hf as [Hf|Hf].
  - cbn [In] in Hf. destruct Hf as [<-|[<-|[<-|[<-|[<-|[<-|[<-|[<-|[<-|[]]]]]]]]]];
    [apply (G 0%nat) | apply (G 1%nat) | apply (G 2%nat) | apply (G 3%nat) | apply (G 4%nat) | apply (G 5%nat) | apply (G 6%nat) |
     apply (G (if elevated then 11 else 7)%nat) | apply (G (if elevated then 12 else 8)%nat)]; destruct elevated; try lia; reflexivity.
  - destruct elevated; [|destruct Hf]. cbn [In] in Hf. destruct Hf as [<-|[<-|[<-|[<-|[]]]]];
    [apply (G 7%nat) | apply (G 8%nat) | apply (G 9%nat) | apply (G 10%nat)]; try lia; reflexivity.
Qed.

(** The quantities that are limited: on open laps, and on closed ones with the trapezoidal rule. *)
Definition f1_quantity c ci k s p := f1_pace ci s p * quantity sp c (fp_in p) (snd (track_eval sp ss g0 c (fp_in p) (ci_frame ci s) (fp_n p) (fp_alpha p))) k.
Lemma f1_integrand c ci elevated lo hi k s p : item (e_int (f1_point_eval sp ss g0 c ci elevated lo hi s p)) k = f1_quantity c ci k s p.
Proof.
  unfold f1_quantity. rewrite <- (f1_dt c ci elevated lo hi s p). unfold f1_point_eval, f1_on_track, track_eval, f1_extra_bounds. cbv zeta. cbn [e_dt e_int snd].
  set (v := f1_update _ _ _ _ _ _ _ _ _ _). clearbody v. set (d := vx _). clearbody d. unfold f1_integrands, quantity, dissipation, friction_power, item. cbn [map].
  do 6 (destruct k as [|k]; [cbn [nth]; field|]). cbn [nth]. destruct k; ring.
Qed.
Theorem C153_limited c ci elevated lo hi pts sigma restricted closed L k least most : lap_feasible sigma restricted closed L (f1_lap sp ss g0 c ci elevated lo hi pts) ->
  In (k, (least, most)) restricted -> closed = false \/ sigma = 1 / 2 -> least <= along sigma closed L (f1_quantity c ci k) pts <= most.
Proof.
  intros (_ & _ & F) Hk HC. rewrite Forall_forall in F. specialize (F _ Hk). cbn [fst snd] in F.
  unfold f1_lap in F. rewrite (integral_any sigma closed L _ (f1_quantity c ci k) k pts) in F; [exact F | intros; apply f1_integrand | exact HC].
Qed.
(** The energy of the engine is at most its power for the time of the lap. *)
Theorem C153_engine c ci pts sigma closed L full : 0 <= sigma <= 1 -> rising closed L pts -> 0 <= e_max_power_kW (a_engine (f_rear c)) ->
  Forall (fun p => 0 <= f1_pace ci (fst p) (snd p) /\ sp (M_F1.i_throttle (fp_in (snd p))) (a_smooth (f_rear c)) <= full) pts ->
  along sigma closed L (f1_quantity c ci 0) pts <= full * e_max_power_kW (a_engine (f_rear c)) / 1000 * along sigma closed L (f1_pace ci) pts.
Proof.
  intros Hs Ri HP F. set (P := full * e_max_power_kW (a_engine (f_rear c)) / 1000).
  assert (Sc : forall f : list (R * R), weighted sigma (map (fun p => (fst p, P * snd p)) f) = P * weighted sigma f).
  { induction f as [|[s x] f IH]; [cbn; ring|]. destruct f as [|[t y] f]; [cbn; ring|]. cbn [map fst snd] in IH |- *.
    change ((t - s) * ((1 - sigma) * (P * x) + sigma * (P * y)) + weighted sigma ((t, P * y) :: map (fun p => (fst p, P * snd p)) f) = P * ((t - s) * ((1 - sigma) * x + sigma * y) + weighted sigma ((t, y) :: f))).
    rewrite IH. ring. }
  unfold along. rewrite <- Sc. apply weighted_ge; [exact Hs | rewrite map_map; cbn [fst]; change (map (fun x : R * R => fst x)) with (map (@fst R R)); rewrite !closed_up_fst; reflexivity | rewrite closed_up_fst; exact Ri|].
  rewrite <- (closed_up_map (fun x => P * x)). unfold values. rewrite map_map. cbn [fst snd].
  assert (W : Forall2 (fun p q : R * R => snd p <= snd q) (map (fun p => (fst p, f1_quantity c ci 0 (fst p) (snd p))) pts) (map (fun p => (fst p, P * f1_pace ci (fst p) (snd p))) pts)).
  { clear Ri. induction F as [|[s p] l [H1 H2] F IH]; [constructor|]. cbn [map fst snd] in *. constructor; [|exact IH]. cbn [fst snd]. unfold f1_quantity, quantity. cbn [nth]. unfold P.
    rewrite (Rmult_comm _ (f1_pace ci s p)). apply Rmult_le_compat_l; [exact H1|]. unfold Rdiv. apply Rmult_le_compat_r; [lra|]. apply Rmult_le_compat_r; assumption. }
  unfold closed_up. apply Forall2_app; [exact W|]. destruct closed; [|constructor]. destruct W; constructor; [assumption | constructor].
Qed.

Lemma flat_eval c i r th dth n alpha : 1 - n * dth <> 0 -> i_u i * cos alpha - i_v i * sin alpha <> 0 ->
  let o := road_update r (Euler th 0 0) (Euler dth 0 0) n alpha (i_u i) (i_v i) (i_yaw i) in
  ro_dtime_ds o <> 0 /\ track_eval sp ss g0 c i (flat_point r th dth) n alpha = (o, plane_eval sp ss g0 c i (th + alpha)).
Proof.
  intros Hn Hu o.
  assert (K : curvature (Euler th 0 0) (Euler dth 0 0) = V 0 0 dth) by (unfold curvature; cbn; rewrite sin_0, cos_0; f_equal; ring).
  assert (Dt : ro_dtime_ds o = (1 - n * dth) / (i_u i * cos alpha - i_v i * sin alpha)) by (unfold o, road_update; rewrite K; reflexivity).
  assert (Ad : ro_alpha_dot o = i_yaw i - dth / ro_dtime_ds o) by (rewrite Dt; unfold o, road_update; rewrite K; reflexivity).
  assert (Wo : ro_w o = 0) by (unfold o, road_update; rewrite K; cbn; unfold Rdiv; ring).
  split; [rewrite Dt; apply Rmult_integral_contrapositive_currified; [exact Hn | apply Rinv_neq_0_compat, Hu]|].
  unfold track_eval, flat_point; cbn [fr_r fr_e fr_de]. fold o. clearbody o. f_equal.
  rewrite Wo. unfold plane_eval, f1_update, euler_dot; cbn [yaw pitch roll].
  assert (Om : frame_omega (Euler th 0 0) (Euler (dth / ro_dtime_ds o) (0 / ro_dtime_ds o) (0 / ro_dtime_ds o)) alpha (ro_alpha_dot o) = V 0 0 (i_yaw i)).
  { unfold frame_omega, curvature; cbn [yaw pitch roll]. rewrite Ad, sin_0, cos_0. unfold Rdiv. rewrite Rmult_0_l. vring. }
  assert (Fm : frame_matrix (Euler th 0 0) alpha = frame_matrix (Euler 0 0 0) (th + alpha)).
  { unfold frame_matrix; cbn [yaw pitch roll]. unfold rot_z, rot_y, rot_x. rewrite sin_plus, cos_plus, sin_0, cos_0.
    unfold mmul, mapply; cbn [col1 col2 col3]. f_equal; vring. }
  assert (G : gravity_force (Euler th 0 0) alpha (c_mass (f_chassis c)) g0 = gravity_force (Euler 0 0 0) (th + alpha) (c_mass (f_chassis c)) g0).
  { unfold gravity_force; cbn [pitch roll]. rewrite sin_0, cos_0. f_equal; ring. }
  rewrite Om, Fm, G, plane_omega. reflexivity.
Qed.
(** On a flat circuit the loads of the tyres are the weight and the downforce, nothing turns the car over, and the force of the tyres along the road is within the grip of those loads. *)
Theorem C153_grip c ci lo hi pts sigma restricted closed L s p mu : lap_feasible sigma restricted closed L (f1_lap sp ss g0 c ci false lo hi pts) -> In (s, p) (chosen closed pts) ->
  flat_circuit ci -> i_u (fp_in p) * cos (fp_alpha p) - i_v (fp_in p) * sin (fp_alpha p) <> 0 -> 1 - fp_n p * turning ci s <> 0 ->
  smooth_positive_part sp -> 0 <= c_ref2 (f_chassis c) -> 0 < c_mass (f_chassis c) -> g0 <> 0 -> grips sp mu c -> no_wind c ->
  let v := snd (track_eval sp ss g0 c (fp_in p) (ci_frame ci s) (fp_n p) (fp_alpha p)) in
  let carried := c_mass (f_chassis c) * g0 + downforce_per c * (i_u (fp_in p) * i_u (fp_in p)) in
  loads v = carried /\ vx (v_T v) = 0 /\ vy (v_T v) = 0 /\
  forall a b, a * a + b * b = 1 -> a * vx (vadd (v_Ff v) (v_Fr v)) + b * vy (vadd (v_Ff v) (v_Fr v)) <= mu * carried.
Proof.
  intros F Hp Fl Nu Nn S R2 Hm Hg G W v carried.
  destruct (holds_at sigma restricted closed L _ _ F (in_chosen (f1_point_eval sp ss g0 c ci false lo hi) closed pts s p Hp)) as (A & _ & _).
  assert (Efr : exists r th dth, ci_frame ci s = flat_point r th dth).
  { destruct (Fl s) as (P1 & P2 & P3 & P4). destruct (ci_frame ci s) as [r [e1 e2 e3] [d1 d2 d3]]. cbn [fr_e fr_de pitch roll] in *. subst. exists r, e1, d1. reflexivity. }
  destruct Efr as (r & th & dth & Efr).
  assert (Et : turning ci s = dth).
  { unfold turning. rewrite Efr. cbn [flat_point fr_e fr_de]. unfold curvature; cbn [yaw pitch roll vz]. rewrite sin_0, cos_0. ring. }
  rewrite Et in Nn. set (i := fp_in p) in *. set (m := c_mass (f_chassis c)) in *.
  destruct (flat_eval c i r th dth (fp_n p) (fp_alpha p) Nn Nu) as (Nd & TE). set (o := road_update r _ _ _ _ _ _ _) in *. set (psi := th + fp_alpha p) in *.
  unfold v. rewrite Efr, TE. cbn [snd]. clear v. set (v := plane_eval sp ss g0 c i psi).
  unfold algebraic_residuals, f1_point_eval in A. fold i in A. rewrite Efr in A. unfold f1_on_track in A. rewrite TE in A. fold v in A.
  unfold f1_extra_bounds in A. cbv zeta in A. cbn [e_alg e_dt f1_algebraic map] in A.
  unfold scaled in A. cbn [y_w y_roll y_pitch y_balance M_F1.y_road f1_rates vscale vx] in A. fold m in A.
  assert (EM : v_motion v = equations3 (f_chassis c) (v_F v) (v_T v) (i_u i) (i_v i) 0 (V 0 0 (i_yaw i))).
  { unfold v, plane_eval, f1_update. rewrite plane_omega. reflexivity. }
  assert (EF : v_F v = vadd (vadd (vadd (v_Ff v) (v_Fr v)) (v_Fa v)) (V 0 0 (m * g0))).
  { rewrite <- (plane_weight g0 psi). reflexivity. }
  assert (EL : vz (vadd (v_Ff v) (v_Fr v)) = - loads v).
  { assert (E1 : v_Ff v = axle_force (rot_z (M_F1.i_delta i)) (rot_z (M_F1.i_delta i)) (v_fl v) (v_fr v)) by reflexivity.
    assert (E2 : v_Fr v = axle_force (rot_z 0) (rot_z 0) (v_rl v) (v_rr v)) by reflexivity.
    rewrite E1, E2. unfold loads, axle_force, rot_z. destruct (t_F (v_fl v)), (t_F (v_fr v)), (t_F (v_rl v)), (t_F (v_rr v)).
    cbv [M_Vec.vx M_Vec.vy M_Vec.vz mapply vadd vscale col1 col2 col3]. ring. }
  pose proof (still_air_force sp ss g0 c i psi W) as Fa. fold v in Fa.
  assert (Gr : forall a b, a * a + b * b = 1 -> a * vx (vadd (v_Ff v) (v_Fr v)) + b * vy (vadd (v_Ff v) (v_Fr v)) <= mu * loads v).
  { intros a b U. apply (C144_grip sp ss g0 c i v mu a b); [left; exists psi; reflexivity | assumption..]. }
  rewrite EM in A. unfold equations3 in A. cbn [mo_a mo_roll_rate mo_pitch_rate vx vy vz] in A. fold m in A.
  pose proof (Forall_inv A) as A1. pose proof (Forall_inv (Forall_inv_tail A)) as A2. pose proof (Forall_inv (Forall_inv_tail (Forall_inv_tail A))) as A3. clear A. cbv beta in A1, A2, A3.
  set (F' := v_F v) in *. set (T' := v_T v) in *.
  rewrite EF in A1. rewrite Fa in A1. cbn [vadd vx vy vz] in A1. cbn [vadd vz] in EL. 
  assert (HL : loads v = carried).
  { unfold carried. fold m. fold i. assert (Z : - loads v + downforce_per c * (i_u i * i_u i) + m * g0 = 0); [|lra].
    match type of A1 with ?x = 0 => transitivity (m * g0 * x) end; [rewrite EL; field; repeat split; try assumption; lra | rewrite A1; ring]. }
  split; [exact HL|].
  split. { match type of A2 with ?x = 0 => transitivity (m * g0 * x) end; [field; repeat split; try assumption; lra | rewrite A2; ring]. }
  split. { match type of A3 with ?x = 0 => transitivity (m * g0 * x) end; [field; repeat split; try assumption; lra | rewrite A3; ring]. }
  intros a b U. rewrite <- HL. apply Gr, U.
Qed.
End Formula1.

(** ** The kart *)
Section TheKart.
Context (sp ss : R -> R -> R) (linsolve : mat -> vec -> vec).

Lemma kart_dt c ci lo hi s p : e_dt (kart_point_eval sp ss linsolve c ci lo hi s p) = kart_pace ci s p.
Proof. unfold kart_point_eval, kart_on_track, kart_track_eval. cbn [e_dt kart_scaled M_KartCar.y_road kart_rates vscale vx kart_extra_bounds]. apply Rmult_1_r. Qed.
Theorem C153_kart_value c ci lo hi pts sigma d_steering d_throttle closed L :
  lap_objective sigma [d_steering; d_throttle] closed L (kart_lap_points sp ss linsolve c ci lo hi pts) =
  along sigma closed L (kart_pace ci) pts +
  d_steering * wear closed L (fun _ p => M_KartCar.i_delta (kp_in p)) pts + d_throttle * wear closed L (fun _ p => M_KartCar.i_throttle (kp_in p)) pts.
Proof.
  unfold kart_lap_points. rewrite (value_any sigma _ closed L (kart_point_eval sp ss linsolve c ci lo hi) (kart_pace ci)
    [fun _ p => M_KartCar.i_delta (kp_in p); fun _ p => M_KartCar.i_throttle (kp_in p)] pts); [|intros; apply kart_dt | reflexivity | reflexivity].
  cbn [length seq map nth]. unfold total, item; cbn [fold_right nth]. ring.
Qed.
Theorem C153_kart_fastest c ci lo hi pts sigma d_steering d_throttle closed L k Vmax : 0 <= sigma <= 1 ->
  0 <= d_steering -> 0 <= d_throttle -> rising closed L pts -> 0 <= k -> 0 < Vmax ->
  Forall (fun p => moderate k Vmax (turning ci (fst p)) (kp_n (snd p)) (kp_alpha (snd p)) (q_u (i_state (kp_in (snd p)))) (q_v (i_state (kp_in (snd p))))) pts ->
  k / Vmax * distance closed L pts <= lap_objective sigma [d_steering; d_throttle] closed L (kart_lap_points sp ss linsolve c ci lo hi pts).
Proof.
  intros Hs D1 D2 Ri Hk HV M. rewrite C153_kart_value.
  pose proof (Rmult_le_pos _ _ D1 (wear_pos closed L (fun _ p => M_KartCar.i_delta (kp_in p)) pts Ri)).
  pose proof (Rmult_le_pos _ _ D2 (wear_pos closed L (fun _ p => M_KartCar.i_throttle (kp_in p)) pts Ri)).
  assert (A : k / Vmax * distance closed L pts <= along sigma closed L (kart_pace ci) pts).
  { apply along_least; [exact Hs | exact Ri|].
    apply (Forall_impl _ (P := fun p => moderate k Vmax (turning ci (fst p)) (kp_n (snd p)) (kp_alpha (snd p)) (q_u (i_state (kp_in (snd p)))) (q_v (i_state (kp_in (snd p))))));
    [intros p Hp; apply pace_least; assumption | exact M]. }
  lra.
Qed.
(** Neither rear tyre slips more than 0.11 along the road, and none of the four more than 0.11 across it. *)
Theorem C153_kart_within c ci lo hi pts sigma restricted closed L s p : lap_feasible sigma restricted closed L (kart_lap_points sp ss linsolve c ci lo hi pts) -> In (s, p) (chosen closed pts) ->
  let v := snd (kart_track_eval sp ss linsolve c (kp_in p) (ci_frame ci s) (kp_n p) (kp_alpha p)) in
  kart_inputs_between (fst (lo s)) (kp_in p) (fst (hi s)) /\ between (snd (lo s)) (kp_alpha p) (snd (hi s)) /\ on_track ci s (kp_n p) /\
  Rabs (t_kappa (x_left (n_rear v))) <= 11 / 100 /\ Rabs (t_kappa (x_right (n_rear v))) <= 11 / 100 /\
  Rabs (t_lambda (x_left (n_front v))) <= 11 / 100 /\ Rabs (t_lambda (x_right (n_front v))) <= 11 / 100 /\
  Rabs (t_lambda (x_left (n_rear v))) <= 11 / 100 /\ Rabs (t_lambda (x_right (n_rear v))) <= 11 / 100.
Proof.
  intros F Hp v. destruct (holds_at sigma restricted closed L _ _ F (in_chosen (kart_point_eval sp ss linsolve c ci lo hi) closed pts s p Hp)) as (_ & B & X).
  unfold kart_point_eval in B, X. destruct (kart_track_eval sp ss linsolve c (kp_in p) (ci_frame ci s) (kp_n p) (kp_alpha p)) as [r v'] eqn:Ev. cbn [snd] in v. subst v.
  destruct (kart_on_track sp ss linsolve c (kp_in p) (ci_frame ci s) 0 (kp_n p) (kp_alpha p)) as [q dq]. unfold kart_extra_bounds, kart_extra_constraints in B, X. cbv zeta in B, X.
  cbn [e_lb e_extra e_ub repeat] in B. cbn [e_xlb e_x e_xub] in X. unfold kart_variables in X. cbv zeta in X. rewrite !bounded_cons in B. rewrite !bounded_cons in X.
  destruct X as (X0 & X1 & X2 & X3 & X4 & X5 & X6 & X7 & X8 & X9 & X10 & X11 & X12 & X13 & _). destruct B as (B0 & B1 & B2 & B3 & B4 & B5 & _).
  split. { unfold kart_inputs_between. split; repeat (apply Forall_cons; [assumption|]); apply Forall_nil. }
  split; [exact X11|]. split; [exact X10|].
  repeat (split; [apply slip_rabs; assumption|]). apply slip_rabs; assumption.
Qed.
Theorem C153_kart_gain c ci lo hi a l sigma restricted closed L f : lap_feasible sigma restricted closed L (kart_lap_points sp ss linsolve c ci lo hi (a :: l)) ->
  In f [M_KartCar.y_u; M_KartCar.y_v; M_KartCar.y_yaw; y_z; y_phi; y_mu; y_dz; y_dphi; y_dmu; y_omega; (fun y => vy (M_KartCar.y_road y)); (fun y => vz (M_KartCar.y_road y))] ->
  let state s p := f (fst (kart_on_track sp ss linsolve c (kp_in p) (ci_frame ci s) 0 (kp_n p) (kp_alpha p))) in
  let rate s p := f (snd (kart_on_track sp ss linsolve c (kp_in p) (ci_frame ci s) 0 (kp_n p) (kp_alpha p))) in
  along sigma closed L rate (a :: l) = if closed then 0 else let z := last (a :: l) a in state (fst z) (snd z) - state (fst a) (snd a).
Proof.
  intros F Hf state rate.
  assert (G : forall k, (forall s p, item (e_q (kart_point_eval sp ss linsolve c ci lo hi s p)) k = state s p) -> (forall s p, item (e_dq (kart_point_eval sp ss linsolve c ci lo hi s p)) k = rate s p) ->
    (k < 12)%nat -> along sigma closed L rate (a :: l) = if closed then 0 else let z := last (a :: l) a in state (fst z) (snd z) - state (fst a) (snd a)).
  { intros k E1 E2 Hk. apply (gain_any sigma restricted closed L (kart_point_eval sp ss linsolve c ci lo hi) state rate k a l E1 E2); [|exact F].
    intros s p. exact Hk. }
  cbn [In] in Hf. destruct Hf as [<-|[<-|[<-|[<-|[<-|[<-|[<-|[<-|[<-|[<-|[<-|[<-|[]]]]]]]]]]]]];
    [apply (G 0%nat) | apply (G 1%nat) | apply (G 2%nat) | apply (G 3%nat) | apply (G 4%nat) | apply (G 5%nat) | apply (G 6%nat) | apply (G 7%nat) | apply (G 8%nat) | apply (G 9%nat) | apply (G 10%nat) | apply (G 11%nat)];
    try lia; reflexivity.
Qed.
End TheKart.

(** *** The laps of C151: 100 m in 2 s with the car, in 10 s with the kart *)
Example C153_case : let pts := [(0, gliding_point 50 0); (40, gliding_point 50 1)] in
  lap_feasible (1 / 2) [(5%nat, (0, 1))] true 100 (f1_lap positive_part same_sign (981 / 100) gliding_car straight false gliding_low gliding_high pts) /\
  rising true 100 pts /\ distance true 100 pts = 100 /\
  Forall (fun p => moderate 1 50 (turning straight (fst p)) (fp_n (snd p)) (fp_alpha (snd p)) (i_u (fp_in (snd p))) (i_v (fp_in (snd p)))) pts /\
  Forall (fun p => 0 <= f1_pace straight (fst p) (snd p) /\ positive_part (M_F1.i_throttle (fp_in (snd p))) (a_smooth (f_rear gliding_car)) <= 1) pts /\
  0 <= e_max_power_kW (a_engine (f_rear gliding_car)) /\
  flat_circuit straight /\ grips positive_part 1 gliding_car /\ no_wind gliding_car /\ 0 <= c_ref2 (f_chassis gliding_car) /\ 0 < c_mass (f_chassis gliding_car) /\
  lap_objective (1 / 2) [0; 0; 0; 0] true 100 (f1_lap positive_part same_sign (981 / 100) gliding_car straight false gliding_low gliding_high pts) = 2.
Proof.
  intros pts. assert (T0 : forall s, turning straight s = 0).
  { intros s. unfold turning, straight, flat_point, curvature; cbn. rewrite sin_0, cos_0. ring. }
  split; [apply C151_case|].
  split. { unfold rising, closed_up; cbn. repeat constructor; lra. }
  split; [unfold distance, closed_up; cbn; lra|].
  assert (M : Forall (fun p => moderate 1 50 (turning straight (fst p)) (fp_n (snd p)) (fp_alpha (snd p)) (i_u (fp_in (snd p))) (i_v (fp_in (snd p)))) pts).
  { unfold pts, moderate. repeat (apply Forall_cons; [rewrite T0; cbn; rewrite sin_0, cos_0; lra|]). apply Forall_nil. }
  split; [exact M|].
  split. { unfold pts. repeat (apply Forall_cons; [unfold f1_pace, pace; rewrite T0; cbn; rewrite sin_0, cos_0; split; [lra | unfold positive_part; rewrite Rmax_left; lra]|]). apply Forall_nil. }
  split; [cbn; lra|].
  split; [intros s; cbn; repeat split; reflexivity|].
  split. { unfold grips, tyre_grips, gliding_car, mu_x_max, mu_y_max, even_tyre, positive_part, mu_min; cbn [f_fl f_fr f_rl f_rr w_model q_mu_x_max1 q_mu_x_max2 q_mu_y_max1 q_mu_y_max2 q_Fz1 q_Fz2].
    repeat split; unfold Rmax; destruct (Rle_dec _ _); lra. }
  split; [split; reflexivity|]. split; [cbn; lra|]. split; [cbn; lra|].
  rewrite C153_value. unfold along, values, closed_up, pts. cbn [map app fst snd weighted]. unfold f1_pace, pace. rewrite !T0. cbn. rewrite !sin_0, !cos_0. lra.
Qed.

Print Assumptions C153_value.
Print Assumptions C153_fastest.
Print Assumptions C153_within.
Print Assumptions C153_gain.
Print Assumptions C153_limited.
Print Assumptions C153_engine.
Print Assumptions C153_grip.
Print Assumptions C153_kart_value.
Print Assumptions C153_kart_fastest.
Print Assumptions C153_kart_within.
Print Assumptions C153_kart_gain.
