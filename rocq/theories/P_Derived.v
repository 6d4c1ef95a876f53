(** C121: the members of the f1 computed from its parameters agree with the parameters after any
    history. *)
From Coq Require Import String QArith Reals Qreals Lra Bool List.
From Verif Require Import M_Param S_Param L_Param M_Tree S_Tree L_Tree M_Derived S_Derived.
Import ListNotations.
Local Open Scope string_scope.

(** *** The computed members are in step with the groups of parameters *)
Definition untouched (t : tire) : Prop := forallb sl_used (ti_own t) = false.
Definition tire_in_step (t : tire) (k : constants) : Prop := k = initialise (ti_model t) \/ untouched t.
Definition axle_in_step (a : axle) (k : axle_kept) : Prop :=
  place_tires (ax_own a) k = k /\ tire_in_step (ax_left a) (ka_left_k k) /\ tire_in_step (ax_right a) (ka_right_k k).
Definition in_step (c : chassis) (k : kept) : Prop :=
  place_axles (ch_own c) k = k /\ axle_in_step (ch_front c) (kp_front k) /\ axle_in_step (ch_rear c) (kp_rear k).

Lemma axle_base_step : forall a k p v a' k' b, axle_in_step a k ->
  axle_base_set_k a k p v = Some (a', k', b) -> axle_in_step a' k'.
Proof.
  intros a k p v a' k' b H E. unfold axle_base_set_k, tire_set_k in E.
  destruct (negb _); [discriminate|]. destruct (starts_with _ p); [|injection E as <- <- _; exact H].
  destruct (tire_set (ax_left a) p v) as [l|]; [|discriminate].
  destruct (tire_set (ax_right a) p v) as [r|]; [|discriminate]. injection E as <- <- _.
  destruct H as (P & _ & _). repeat split; cbn [ax_own ax_left ax_right ka_left_k ka_right_k]; try (left; reflexivity).
  unfold place_tires in *. cbn [ka_left_k ka_right_k]. destruct k as [y l0 r0 kl kr]. cbn [ka_left_k ka_right_k ka_y ka_left ka_right] in *.
  congruence.
Qed.
Lemma axle_step : forall a k p v a' k' b, axle_in_step a k ->
  axle_set_k a k p v = Some (a', k', b) -> axle_in_step a' k'.
Proof.
  intros a k p v a' k' b H E. unfold axle_set_k in E.
  destruct (starts_with (ax_path a) p); [|eapply axle_base_step; eassumption].
  destruct (lion_set (ax_own a) (ax_path a) p v) as [g f]. destruct f.
  - injection E as <- <- _. destruct H as (_ & L & R). split; [reflexivity|]. split; [exact L|exact R].
  - destruct (starts_with _ p).
    { destruct (brake_set _ p v); [|discriminate]. injection E as <- <- _. exact H. }
    destruct (ax_engines a) as [[e s]|]; [|eapply axle_base_step; eassumption].
    destruct (starts_with (_ ++ "engine/") p).
    { destruct (engine_set e p v); [|discriminate]. injection E as <- <- _. exact H. }
    destruct (starts_with (_ ++ "boost/") p); [|eapply axle_base_step; eassumption].
    destruct (engine_set s p v); [|discriminate]. injection E as <- <- _. exact H.
Qed.
Lemma place_axles_kept : forall o fo ro f r f' r', place_axles o (MkKept fo ro f r) = MkKept fo ro f r ->
  place_axles o (MkKept fo ro f' r') = MkKept fo ro f' r'.
Proof. unfold place_axles. cbn. intros. congruence. Qed.
Lemma chassis_base_step : forall c k p v c' k', in_step c k ->
  chassis_base_set_k c k p v = Some (c', k') -> in_step c' k'.
Proof.
  intros c k p v c' k' H E. unfold chassis_base_set_k in E. destruct (starts_with _ p).
  - destruct (lion_set (ch_base c) "vehicle/chassis/" p v) as [g f]. destruct f.
    { injection E as <- <-. exact H. }
    destruct (String.eqb p wind_north_path); [injection E as <- <-; exact H|].
    destruct (String.eqb p wind_east_path); [injection E as <- <-; exact H|discriminate].
  - destruct k as [fo ro f r]. destruct H as (P & F & R). cbn [kp_front kp_rear kp_front_origin kp_rear_origin] in *.
    destruct (axle_set_k (ch_front c) f p v) as [[[a' ka] b]|] eqn:EF; [|discriminate].
    destruct b.
    + injection E as <- <-. split; [exact (place_axles_kept _ _ _ _ _ _ _ P)|]. split; [|exact R].
      cbn [kp_front ch_front]. exact (axle_step _ _ _ _ _ _ _ F EF).
    + destruct (axle_set_k (ch_rear c) r p v) as [[[r' kr] b]|] eqn:ER; [|discriminate].
      destruct b; [|discriminate]. injection E as <- <-.
      split; [exact (place_axles_kept _ _ _ _ _ _ _ P)|]. split; [exact F|].
      cbn [kp_rear ch_rear]. exact (axle_step _ _ _ _ _ _ _ R ER).
Qed.
Lemma chassis_step : forall c k p v c' k', in_step c k ->
  chassis_set_k c k p v = Some (c', k') -> in_step c' k'.
Proof.
  intros c k p v c' k' H E. unfold chassis_set_k in E.
  destruct (starts_with _ p); [|eapply chassis_base_step; eassumption].
  destruct (lion_set (ch_own c) "vehicle/chassis/" p v) as [g f]. destruct f; [|eapply chassis_base_step; eassumption].
  injection E as <- <-. destruct H as (_ & F & R). split; [reflexivity|]. split; [exact F|exact R].
Qed.

(** *** The parameters are those of M_Tree *)
Lemma axle_base_fst : forall a k p v, option_map (fun x => (fst (fst x), snd x)) (axle_base_set_k a k p v) = axle_base_set a p v.
Proof.
  intros. unfold axle_base_set_k, axle_base_set, tire_set_k. destruct (negb _); [reflexivity|].
  destruct (starts_with _ p); [|reflexivity]. destruct (tire_set (ax_left a) p v); [|reflexivity].
  destruct (tire_set (ax_right a) p v); reflexivity.
Qed.
Lemma axle_fst : forall a k p v, option_map (fun x => (fst (fst x), snd x)) (axle_set_k a k p v) = axle_set a p v.
Proof.
  intros. unfold axle_set_k, axle_set. destruct (starts_with (ax_path a) p); [|apply axle_base_fst].
  destruct (lion_set (ax_own a) (ax_path a) p v) as [g f]. destruct f; [reflexivity|].
  destruct (starts_with _ p); [destruct (brake_set _ p v); reflexivity|].
  destruct (ax_engines a) as [[e s]|]; [|apply axle_base_fst].
  destruct (starts_with (_ ++ "engine/") p); [destruct (engine_set e p v); reflexivity|].
  destruct (starts_with (_ ++ "boost/") p); [destruct (engine_set s p v); reflexivity|apply axle_base_fst].
Qed.
Lemma chassis_fst : forall c k p v, option_map fst (chassis_set_k c k p v) = chassis_set c p v.
Proof.
  intros. assert (option_map fst (chassis_base_set_k c k p v) = chassis_base_set c p v) as B.
  { unfold chassis_base_set_k, chassis_base_set. destruct (starts_with _ p).
    - destruct (lion_set (ch_base c) "vehicle/chassis/" p v) as [g f]. destruct f; [reflexivity|].
      destruct (String.eqb p wind_north_path); [reflexivity|].
      destruct (String.eqb p wind_east_path); reflexivity.
    - rewrite <- (axle_fst (ch_front c) (kp_front k)).
      destruct (axle_set_k (ch_front c) (kp_front k) p v) as [[[a ka] b]|]; [|reflexivity].
      cbn [option_map fst snd]. destruct b; [reflexivity|].
      rewrite <- (axle_fst (ch_rear c) (kp_rear k)).
      destruct (axle_set_k (ch_rear c) (kp_rear k) p v) as [[[r kr] b]|]; [|reflexivity].
      cbn [option_map fst snd]. destruct b; reflexivity. }
  unfold chassis_set_k, chassis_set. destruct (starts_with _ p); [|exact B].
  destruct (lion_set (ch_own c) "vehicle/chassis/" p v) as [g f]. destruct f; [reflexivity|exact B].
Qed.

(** *** Histories *)
Definition good (c : dcar) : Prop := shape (dc_chassis c) /\ in_step (dc_chassis c) (dc_kept c).
Lemma good_set : forall ch k p v ch' k', shape ch -> in_step ch k ->
  chassis_set_k ch k p v = Some (ch', k') -> shape ch' /\ in_step ch' k'.
Proof.
  intros ch k p v ch' k' S I E. split; [|eapply chassis_step; eassumption].
  eapply shape_set; [exact S|]. rewrite <- (chassis_fst ch k), E. reflexivity.
Qed.
Lemma good_apply : forall ps ch k s, shape ch -> in_step ch k ->
  shape (fst (apply_params_k ch k ps s)) /\ in_step (fst (apply_params_k ch k ps s)) (snd (apply_params_k ch k ps s)).
Proof.
  induction ps as [|q ps IH]; intros ch k s S I; cbn [apply_params_k]; [split; assumption|].
  destruct (par_eval q s) as [v|]; [|split; assumption].
  destruct (chassis_set_k ch k (par_path q) v) as [[ch' k']|] eqn:E; [|split; assumption].
  destruct (good_set _ _ _ _ _ _ S I E) as (S' & I'). apply IH; assumption.
Qed.
Lemma good_step : forall c o, good c -> good (dstep c o).
Proof.
  intros c o (S & I). destruct o as [p v|a|s]; cbn [dstep].
  - unfold dcar_set. destruct (chassis_set_k _ _ p v) as [[ch k]|] eqn:E; [|split; assumption].
    exact (good_set _ _ _ _ _ _ S I E).
  - unfold dcar_add. destruct (add_parameter _ _ _); cbn [option_map]; split; assumption.
  - pose proof (good_apply (dc_params c) _ _ s S I) as G.
    destruct (apply_params_k (dc_chassis c) (dc_kept c) (dc_params c) s) as [ch k]. exact G.
Qed.
Lemma good_run : forall os c, good c -> good (drun c os).
Proof. induction os as [|o os IH]; intros c H; [exact H|]. cbn. apply IH, good_step, H. Qed.

Lemma good_created : forall c, created c -> good c.
Proof.
  intros c H. destruct H as [junk|d c H].
  - split; [apply shape_empty|]. split; [reflexivity|].
    split; (split; [reflexivity|]); split; right; reflexivity.
  - unfold dcar_file in H. destruct (create_f1_from_xml d) as [ch|] eqn:E; [|discriminate]. injection H as <-.
    split; [exact (shape_read d ch E)|]. split; [reflexivity|].
    split; (split; [reflexivity|]); split; left; reflexivity.
Qed.

(** *** From the groups to the paths *)
Lemma prefix_app : forall a b c : string, String.eqb (a ++ b) (a ++ c) = String.eqb b c.
Proof.
  induction a as [|x a IH]; intros b c; [reflexivity|]. cbn. rewrite Ascii.eqb_refl. apply IH.
Qed.
Lemma find_group : forall path n g, In n (map sl_name g) ->
  exists e, find (fun e => String.eqb (fst e) (path ++ n)) (stored_group path g) = Some e /\ snd e = member g n.
Proof.
  induction g as [|s g IH]; cbn; [contradiction|]. intros H. rewrite prefix_app.
  destruct (String.eqb (sl_name s) n) eqn:E; [eexists; split; reflexivity|].
  destruct H as [N|H]; [rewrite N, String.eqb_refl in E; discriminate|]. exact (IH H).
Qed.
Lemma find_miss : forall path p g, existsb (fun n => String.eqb (path ++ n) p) (map sl_name g) = false ->
  find (fun e => String.eqb (fst e) p) (stored_group path g) = None.
Proof.
  induction g as [|s g IH]; cbn; [reflexivity|]. intros H. apply orb_false_iff in H. destruct H as (-> & H). exact (IH H).
Qed.
Lemma find_app : forall {A} (f : A -> bool) l m, find f (l ++ m)%list = match find f l with Some e => Some e | None => find f m end.
Proof. intros A f l m. induction l as [|a l IH]; cbn; [reflexivity|]. destruct (f a); [reflexivity|exact IH]. Qed.

Definition lookup (l : list (string * Q)) (p : string) : Q :=
  match find (fun e => String.eqb (fst e) p) l with Some e => snd e | None => 0 end.
Lemma lookup_hit : forall path n g m, In n (map sl_name g) -> lookup (stored_group path g ++ m) (path ++ n) = member g n.
Proof.
  intros path n g m H. unfold lookup. rewrite find_app. destruct (find_group path n g H) as (e & -> & E). exact E.
Qed.
Lemma lookup_miss : forall path p g m, existsb (fun n => String.eqb (path ++ n) p) (map sl_name g) = false ->
  lookup (stored_group path g ++ m) p = lookup m p.
Proof. intros path p g m H. unfold lookup. rewrite find_app, find_miss by exact H. reflexivity. Qed.
Lemma lookup_cons : forall q v m p, String.eqb q p = false -> lookup ((q, v) :: m) p = lookup m p.
Proof. intros q v m p H. unfold lookup. cbn. rewrite H. reflexivity. Qed.

Ltac seek :=
  repeat (rewrite lookup_miss; [|match goal with E : map sl_name ?g = _ |- context [map sl_name ?g] => rewrite E; vm_compute; reflexivity end]);
  repeat (rewrite lookup_cons; [|vm_compute; reflexivity]);
  repeat (rewrite lookup_miss; [|match goal with E : map sl_name ?g = _ |- context [map sl_name ?g] => rewrite E; vm_compute; reflexivity end]).

Lemma own_values : forall c n, shape (dc_chassis c) -> In n names_chassis_own ->
  parameter_value c ("vehicle/chassis/" ++ n) = member (ch_own (dc_chassis c)) n.
Proof.
  intros c n S H. change (lookup (stored (dc_chassis c)) ("vehicle/chassis/" ++ n) = member (ch_own (dc_chassis c)) n).
  unfold stored. apply lookup_hit. destruct S as (-> & _). exact H.
Qed.
Lemma front_values : forall c, shape (dc_chassis c) ->
  parameter_value c "vehicle/front-axle/track" = member (ax_own (ch_front (dc_chassis c))) "track" /\
  forall n, In n ["lambda-max-1"; "lambda-max-2"; "Qx"; "Qy"] ->
    parameter_value c ("vehicle/front-tire/" ++ n) = member (ti_model (ax_left (ch_front (dc_chassis c)))) n.
Proof.
  intros c S. change (parameter_value c) with (lookup (stored (dc_chassis c))).
  set (ch := dc_chassis c) in *. clearbody ch.
  destruct S as (O & B & (Pf & Of & BPf & Bf & Ef & Rf & Tf) & _).
  destruct Tf as (TP & TO & TM & TB).
  unfold stored, stored_axle, stored_tire. rewrite Pf, BPf, Ef, TP. rewrite <- ?app_assoc. cbn [app].
  assert (In "track" (map sl_name (ax_own (ch_front ch)))) as I1 by (rewrite Of; cbn; tauto).
  split.
  - seek. exact (lookup_hit "vehicle/front-axle/" "track" _ _ I1).
  - intros n H. assert (In n (map sl_name (ti_model (ax_left (ch_front ch))))) as I2
      by (rewrite TM; cbn in H |- *; tauto).
    pose proof (lookup_hit "vehicle/front-tire/" n (ti_model (ax_left (ch_front ch)))) as L.
    cbn in H. destruct H as [<-|[<-|[<-|[<-|[]]]]]; cbn [append] in L |- *; seek; apply L; exact I2.
Qed.
Lemma rear_values : forall c, shape (dc_chassis c) ->
  parameter_value c "vehicle/rear-axle/track" = member (ax_own (ch_rear (dc_chassis c))) "track" /\
  forall n, In n ["lambda-max-1"; "lambda-max-2"; "Qx"; "Qy"] ->
    parameter_value c ("vehicle/rear-tire/" ++ n) = member (ti_model (ax_left (ch_rear (dc_chassis c)))) n.
Proof.
  intros c S. change (parameter_value c) with (lookup (stored (dc_chassis c))).
  set (ch := dc_chassis c) in *. clearbody ch.
  destruct S as (O & B & (Pf & Of & BPf & Bf & Ef & Rf & (FP & FO & FM & FB)) & (Pr & Or & BPr & Br & Er & Rr & (TP & TO & TM & TB))).
  destruct Er as (e & b & Er & PE & PB & NE & NB).
  unfold stored, stored_axle, stored_tire. rewrite Rf, Pf, BPf, Ef, FP, Pr, BPr, Er, PE, PB, TP. rewrite <- ?app_assoc. cbn [app].
  assert (In "track" (map sl_name (ax_own (ch_rear ch)))) as I1 by (rewrite Or; cbn; tauto).
  split.
  - seek. exact (lookup_hit "vehicle/rear-axle/" "track" _ _ I1).
  - intros n H. assert (In n (map sl_name (ti_model (ax_left (ch_rear ch))))) as I2
      by (rewrite TM; cbn in H |- *; tauto).
    pose proof (lookup_hit "vehicle/rear-tire/" n (ti_model (ax_left (ch_rear ch)))) as L.
    cbn in H. destruct H as [<-|[<-|[<-|[<-|[]]]]]; cbn [append] in L |- *; seek; apply L; exact I2.
Qed.

Lemma good_geometry : forall c, good c -> geometry_agrees (parameter_value c) (dc_kept c).
Proof.
  intros c (S & (P & (F & _) & (R & _))).
  destruct (front_values c S) as (FT & _). destruct (rear_values c S) as (RT & _).
  pose proof (fun n => own_values c n S) as O.
  unfold place_axles, place_tires, tire_position in *.
  constructor; rewrite ?FT, ?RT.
  - pose proof (O "front_axle/x"). pose proof (O "front_axle/y"). pose proof (O "front_axle/z"). cbn [append] in *.
    rewrite H, H0, H1 by (cbn; tauto). rewrite <- P at 1. reflexivity.
  - pose proof (O "rear_axle/x"). pose proof (O "rear_axle/y"). pose proof (O "rear_axle/z"). cbn [append] in *.
    rewrite H, H0, H1 by (cbn; tauto). rewrite <- P at 1. reflexivity.
  - rewrite <- F. cbn [ka_left px py pz fst snd]. repeat split; try reflexivity. field.
  - rewrite <- F. cbn [ka_right px py pz fst snd]. repeat split; try reflexivity. field.
  - rewrite <- R. cbn [ka_left px py pz fst snd]. repeat split; try reflexivity. field.
  - rewrite <- R. cbn [ka_right px py pz fst snd]. repeat split; try reflexivity. field.
  - rewrite <- F. cbn [ka_y fst snd]. split; field.
  - rewrite <- R. cbn [ka_y fst snd]. split; field.
Qed.

Lemma good_tires : forall c, good c ->
  ka_left_k (kp_front (dc_kept c)) = initialise (ti_model (ax_left (ch_front (dc_chassis c)))) ->
  ka_right_k (kp_front (dc_kept c)) = initialise (ti_model (ax_right (ch_front (dc_chassis c)))) ->
  ka_left_k (kp_rear (dc_kept c)) = initialise (ti_model (ax_left (ch_rear (dc_chassis c)))) ->
  ka_right_k (kp_rear (dc_kept c)) = initialise (ti_model (ax_right (ch_rear (dc_chassis c)))) ->
  tires_agree (parameter_value c) (dc_kept c).
Proof.
  intros c (S & _) FL FR RL RR.
  destruct (front_values c S) as (_ & FV). destruct (rear_values c S) as (_ & RV).
  destruct S as (_ & _ & (_ & _ & _ & _ & _ & EF & _) & (_ & _ & _ & _ & _ & ER & _)).
  rewrite EF in FR. rewrite ER in RR.
  assert (forall path m k, (forall n, In n ["lambda-max-1"; "lambda-max-2"; "Qx"; "Qy"] ->
            parameter_value c (path ++ n) = member m n) -> k = initialise m ->
          constants_agree (parameter_value c) path k) as A.
  { intros path m k V ->. unfold constants_agree, initialise. cbn [k_lambda1 k_lambda2 k_sx k_sy].
    rewrite !V by (cbn; tauto). repeat split; try reflexivity; lra. }
  unfold tires_agree. repeat split; eapply A; eassumption.
Qed.

(** Whatever happened to a car (parameters set, parameters declared, evaluations, calls that
    threw), its wheels and axles are where its present parameters say. *)
Theorem C121_geometry_follows_the_parameters : forall c os, created c ->
  geometry_agrees (parameter_value (drun c os)) (dc_kept (drun c os)).
Proof. intros c os H. apply good_geometry, good_run, good_created, H. Qed.

(** The constants of its tyre models are those of its present parameters as soon as is_ready
    answers true. *)
Theorem C121_tires_follow_the_parameters : forall c os, created c ->
  chassis_ready (dc_chassis (drun c os)) = true ->
  tires_agree (parameter_value (drun c os)) (dc_kept (drun c os)).
Proof.
  intros c os H R. pose proof (good_run os c (good_created c H)) as G.
  set (d := drun c os) in *. clearbody d. destruct G as (S & I).
  unfold chassis_ready, axle_ready, tire_ready, all_used in R. rewrite !andb_true_iff in R.
  destruct R as (((((((_ & FL) & _) & ((_ & FR) & _)) & _) & ((((_ & RL) & _) & ((_ & RR) & _)) & _)) & _) & _).
  destruct I as (P & (F1 & F2 & F3) & (R1 & R2 & R3)).
  assert (forall t k, tire_in_step t k -> forallb sl_used (ti_own t) = true -> k = initialise (ti_model t)) as U.
  { intros t k [E|E] X; [exact E|]. unfold untouched in E. congruence. }
  apply good_tires; [exact (conj S (conj P (conj (conj F1 (conj F2 F3)) (conj R1 (conj R2 R3)))))| | | |]; apply U; assumption.
Qed.

(** A car read from a file is ready from the start and stays so. *)
Definition file_tires (c : chassis) (k : kept) : Prop :=
  ka_left_k (kp_front k) = initialise (ti_model (ax_left (ch_front c))) /\
  ka_right_k (kp_front k) = initialise (ti_model (ax_right (ch_front c))) /\
  ka_left_k (kp_rear k) = initialise (ti_model (ax_left (ch_rear c))) /\
  ka_right_k (kp_rear k) = initialise (ti_model (ax_right (ch_rear c))).
Lemma axle_file : forall a k p v a' k' b,
  axle_set_k a k p v = Some (a', k', b) ->
  ka_left_k k = initialise (ti_model (ax_left a)) -> ka_right_k k = initialise (ti_model (ax_right a)) ->
  ka_left_k k' = initialise (ti_model (ax_left a')) /\ ka_right_k k' = initialise (ti_model (ax_right a')).
Proof.
  intros a k p v a' k' b E L R.
  assert (forall a' k' b, axle_base_set_k a k p v = Some (a', k', b) ->
    ka_left_k k' = initialise (ti_model (ax_left a')) /\ ka_right_k k' = initialise (ti_model (ax_right a'))) as B.
  { clear E. intros a1 k1 b1 E. unfold axle_base_set_k, tire_set_k in E.
    destruct (negb _); [discriminate|]. destruct (starts_with _ p); [|injection E as <- <- _; split; assumption].
    destruct (tire_set (ax_left a) p v) as [l|]; [|discriminate].
    destruct (tire_set (ax_right a) p v) as [r|]; [|discriminate]. injection E as <- <- _. split; reflexivity. }
  unfold axle_set_k in E. destruct (starts_with (ax_path a) p); [|eapply B; eassumption].
  destruct (lion_set (ax_own a) (ax_path a) p v) as [g f]. destruct f; [injection E as <- <- _; split; assumption|].
  destruct (starts_with _ p).
  { destruct (brake_set _ p v); [|discriminate]. injection E as <- <- _. split; assumption. }
  destruct (ax_engines a) as [[e s]|]; [|eapply B; eassumption].
  destruct (starts_with (_ ++ "engine/") p).
  { destruct (engine_set e p v); [|discriminate]. injection E as <- <- _. split; assumption. }
  destruct (starts_with (_ ++ "boost/") p); [|eapply B; eassumption].
  destruct (engine_set s p v); [|discriminate]. injection E as <- <- _. split; assumption.
Qed.
Lemma file_set : forall c k p v c' k', file_tires c k -> chassis_set_k c k p v = Some (c', k') -> file_tires c' k'.
Proof.
  intros c k p v c' k' H E.
  assert (forall c' k', chassis_base_set_k c k p v = Some (c', k') -> file_tires c' k') as B.
  { clear E. intros c1 k1 E. unfold chassis_base_set_k in E. destruct (starts_with _ p).
    - destruct (lion_set (ch_base c) "vehicle/chassis/" p v) as [g f]. destruct f; [injection E as <- <-; exact H|].
      destruct (String.eqb p wind_north_path); [injection E as <- <-; exact H|].
      destruct (String.eqb p wind_east_path); [injection E as <- <-; exact H|discriminate].
    - destruct H as (H1 & H2 & H3 & H4).
      destruct (axle_set_k (ch_front c) (kp_front k) p v) as [[[a' ka] b]|] eqn:EF; [|discriminate]. destruct b.
      + injection E as <- <-. destruct (axle_file _ _ _ _ _ _ _ EF H1 H2). repeat split; assumption.
      + destruct (axle_set_k (ch_rear c) (kp_rear k) p v) as [[[r' kr] b]|] eqn:ER; [|discriminate].
        destruct b; [|discriminate]. injection E as <- <-. destruct (axle_file _ _ _ _ _ _ _ ER H3 H4).
        repeat split; assumption. }
  unfold chassis_set_k in E. destruct (starts_with _ p); [|eapply B; eassumption].
  destruct (lion_set (ch_own c) "vehicle/chassis/" p v) as [g f]. destruct f; [|eapply B; eassumption].
  injection E as <- <-. exact H.
Qed.
Lemma file_run : forall os c, file_tires (dc_chassis c) (dc_kept c) ->
  file_tires (dc_chassis (drun c os)) (dc_kept (drun c os)).
Proof.
  induction os as [|o os IH]; intros c H; [exact H|]. cbn. apply IH. clear IH os.
  destruct o as [p v|a|s]; cbn [dstep].
  - unfold dcar_set. destruct (chassis_set_k _ _ p v) as [[ch k]|] eqn:E; [|exact H]. exact (file_set _ _ _ _ _ _ H E).
  - unfold dcar_add. destruct (add_parameter _ _ _); exact H.
  - assert (forall ps ch k, file_tires ch k -> file_tires (fst (apply_params_k ch k ps s)) (snd (apply_params_k ch k ps s))) as A.
    { induction ps as [|q ps IH]; intros ch k F; cbn [apply_params_k]; [exact F|].
      destruct (par_eval q s) as [v|]; [|exact F].
      destruct (chassis_set_k ch k (par_path q) v) as [[ch' k']|] eqn:E; [|exact F].
      apply IH. exact (file_set _ _ _ _ _ _ F E). }
    specialize (A (dc_params c) _ _ H).
    destruct (apply_params_k (dc_chassis c) (dc_kept c) (dc_params c) s) as [ch k]. exact A.
Qed.
Theorem C121_tires_of_a_file : forall d c os, dcar_file d = Some c ->
  tires_agree (parameter_value (drun c os)) (dc_kept (drun c os)).
Proof.
  intros d c os H.
  assert (file_tires (dc_chassis c) (dc_kept c)) as F.
  { unfold dcar_file in H. destruct (create_f1_from_xml d); [|discriminate]. injection H as <-. repeat split; reflexivity. }
  destruct (file_run os c F) as (F1 & F2 & F3 & F4).
  apply good_tires; try assumption. eapply good_run, good_created, created_file, H.
Qed.

Lemma known : forall p, existsb (String.eqb p) all_paths = true -> In p all_paths.
Proof.
  intros p H. apply existsb_exists in H. destruct H as (q & Hq & E). apply String.eqb_eq in E. subst q. exact Hq.
Qed.

(** Two cars with the same values of the parameters are in the same state, however they came to
    have them: a car whose parameters were changed is a car built with the new values. *)
Theorem C121_histories_do_not_matter : forall c1 os1 c2 os2, created c1 -> created c2 ->
  chassis_ready (dc_chassis (drun c1 os1)) = true -> chassis_ready (dc_chassis (drun c2 os2)) = true ->
  (forall p, In p all_paths -> parameter_value (drun c1 os1) p = parameter_value (drun c2 os2) p) ->
  dc_kept (drun c1 os1) = dc_kept (drun c2 os2).
Proof.
  intros c1 os1 c2 os2 H1 H2 R1 R2 V.
  pose proof (good_run os1 c1 (good_created c1 H1)) as G1. pose proof (good_run os2 c2 (good_created c2 H2)) as G2.
  pose proof (C121_tires_follow_the_parameters c1 os1 H1 R1) as T1.
  pose proof (C121_tires_follow_the_parameters c2 os2 H2 R2) as T2.
  set (d1 := drun c1 os1) in *. set (d2 := drun c2 os2) in *. clearbody d1 d2.
  destruct G1 as (S1 & (P1 & (F1 & _) & (Q1 & _))). destruct G2 as (S2 & (P2 & (F2 & _) & (Q2 & _))).
  assert (forall n, In n ["front_axle/x"; "front_axle/y"; "front_axle/z"; "rear_axle/x"; "rear_axle/y"; "rear_axle/z"] ->
    member (ch_own (dc_chassis d1)) n = member (ch_own (dc_chassis d2)) n) as O.
  { intros n H. rewrite <- !own_values; [|assumption|cbn in H |- *; tauto|assumption|cbn in H |- *; tauto].
    apply V, known. cbn in H. destruct H as [<-|[<-|[<-|[<-|[<-|[<-|[]]]]]]]; vm_compute; reflexivity. }
  pose proof (V "vehicle/front-axle/track" ltac:(apply known; vm_compute; reflexivity)) as VF.
  pose proof (V "vehicle/rear-axle/track" ltac:(apply known; vm_compute; reflexivity)) as VR.
  destruct (front_values d1 S1) as (A1 & _). destruct (front_values d2 S2) as (A2 & _).
  destruct (rear_values d1 S1) as (B1 & _). destruct (rear_values d2 S2) as (B2 & _).
  rewrite A1, A2 in VF. rewrite B1, B2 in VR.
  assert (forall path k1 k2, In path ["vehicle/front-tire/"; "vehicle/rear-tire/"] ->
    constants_agree (parameter_value d1) path k1 -> constants_agree (parameter_value d2) path k2 -> k1 = k2) as K.
  { intros path [a1 a2 a3 a4] [b1 b2 b3 b4] HP (E1 & E2 & E3 & E4) (E1' & E2' & E3' & E4').
    cbn [k_lambda1 k_lambda2 k_sx k_sy] in *. subst.
    rewrite !(V (path ++ _)) by (apply known; cbn in HP; destruct HP as [<-|[<-|[]]]; vm_compute; reflexivity). reflexivity. }
  destruct T1 as (T11 & T12 & T13 & T14). destruct T2 as (T21 & T22 & T23 & T24).
  pose proof (K "vehicle/front-tire/" _ _ ltac:(cbn; tauto) T11 T21) as K1. pose proof (K "vehicle/front-tire/" _ _ ltac:(cbn; tauto) T12 T22) as K2.
  pose proof (K "vehicle/rear-tire/" _ _ ltac:(cbn; tauto) T13 T23) as K3. pose proof (K "vehicle/rear-tire/" _ _ ltac:(cbn; tauto) T14 T24) as K4.
  unfold place_tires in F1, F2, Q1, Q2. rewrite VF, K1, K2 in F1. rewrite VR, K3, K4 in Q1.
  unfold place_axles in P1, P2. rewrite !O in P1 by (cbn; tauto).
  rewrite <- P1, <- P2. rewrite <- F1, <- F2, <- Q1, <- Q2. reflexivity.
Qed.

(** The parameters are those of the model without the computed members. *)
Theorem C121_parameters_unchanged : forall c p v,
  option_map (fun x => MkCar (dc_chassis x) (dc_params x)) (dcar_set c p v)
  = car_set (MkCar (dc_chassis c) (dc_params c)) p v.
Proof.
  intros c p v. unfold dcar_set, car_set. cbn [car_chassis car_params].
  rewrite <- (chassis_fst (dc_chassis c) (dc_kept c)).
  destruct (chassis_set_k (dc_chassis c) (dc_kept c) p v) as [[ch k]|]; reflexivity.
Qed.

(** A car given its parameters one by one, with a refused call and a second value of the track. *)
Definition C121_history : list dop :=
  map (fun p => DSet p 1) checked_paths ++ [DSet "vehicle/nothing" 7; DSet "vehicle/front-axle/track" 3;
    DSet "vehicle/rear-tire/lambda-max-2" 9; DSet "vehicle/chassis/rear_axle/x" (-2); DEvaluate 0].
Example C121_concrete : let c := drun (dcar_empty (fun _ => 5)) C121_history in
  chassis_ready (dc_chassis c) = true /\ (py (ka_right (kp_front (dc_kept c))) == 3 # 2)%Q /\
  px (kp_rear_origin (dc_kept c)) = (-2)%Q /\ px (kp_front_origin (dc_kept c)) = 1%Q.
Proof. vm_compute. repeat split. Qed.
Example C121_concrete_tires : let c := drun (dcar_empty (fun _ => 5)) C121_history in
  k_lambda2 (ka_right_k (kp_rear (dc_kept c))) = (9 * PI / 180)%R.
Proof.
  cbn zeta. pose proof (C121_tires_follow_the_parameters (dcar_empty (fun _ => 5)) C121_history (created_empty _)
    ltac:(vm_compute; reflexivity)) as (_ & _ & _ & (_ & H & _)).
  rewrite H. assert (parameter_value (drun (dcar_empty (fun _ => 5)) C121_history) "vehicle/rear-tire/lambda-max-2" = 9%Q) as E
    by (vm_compute; reflexivity).
  cbn [append]. rewrite E. unfold Q2R. cbn. lra.
Qed.

Print Assumptions C121_geometry_follows_the_parameters.
Print Assumptions C121_tires_follow_the_parameters.
Print Assumptions C121_tires_of_a_file.
Print Assumptions C121_histories_do_not_matter.
Print Assumptions C121_parameters_unchanged.
