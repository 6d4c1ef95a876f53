(** Proofs about the parameter tree. *)
From Coq Require Import String QArith Bool Arith Lia List.
From Verif Require Import M_Param S_Param L_Param M_Tree S_Tree.
Import ListNotations.
Local Open Scope string_scope.

(** *** Shape of a car: fixed names and paths, both tyres of an axle identical *)
Definition tire_shape (t : tire) (path : string) : Prop :=
  ti_path t = path /\ map sl_name (ti_own t) = names_tire_own /\
  map sl_name (ti_model t) = names_tire_model /\ map sl_name (ti_base t) = names_tire_base.
Definition front_shape (a : axle) : Prop :=
  ax_path a = "vehicle/front-axle/" /\ map sl_name (ax_own a) = names_steering /\
  br_path (ax_brakes a) = "vehicle/front-axle/brakes/" /\
  map sl_name (br_params (ax_brakes a)) = names_brake /\ ax_engines a = None /\
  ax_right a = ax_left a /\ tire_shape (ax_left a) "vehicle/front-tire/".
Definition rear_shape (a : axle) : Prop :=
  ax_path a = "vehicle/rear-axle/" /\ map sl_name (ax_own a) = names_powered /\
  br_path (ax_brakes a) = "vehicle/rear-axle/brakes/" /\
  map sl_name (br_params (ax_brakes a)) = names_brake /\
  (exists e b, ax_engines a = Some (e, b) /\ en_path e = "vehicle/rear-axle/engine/" /\
     en_path b = "vehicle/rear-axle/boost/" /\ map sl_name (en_params e) = names_engine /\
     map sl_name (en_params b) = names_engine) /\
  ax_right a = ax_left a /\ tire_shape (ax_left a) "vehicle/rear-tire/".
Definition shape (c : chassis) : Prop :=
  map sl_name (ch_own c) = names_chassis_own /\ map sl_name (ch_base c) = names_chassis_base /\
  front_shape (ch_front c) /\ rear_shape (ch_rear c).

Lemma empty_names : forall junk path names, map sl_name (empty_group junk path names) = names.
Proof. intros. unfold empty_group. rewrite map_map. cbn. apply map_id. Qed.

Lemma shape_empty : forall junk, shape (empty_f1 junk).
Proof.
  intros junk. unfold shape, front_shape, rear_shape, tire_shape, empty_f1, empty_steering,
    empty_powered, empty_tire. cbn [ch_own ch_base ch_front ch_rear ax_path ax_own ax_brakes br_path
    br_params ax_engines ax_left ax_right ti_path ti_own ti_model ti_base].
  rewrite !empty_names.
  repeat match goal with |- _ /\ _ => split | |- _ = _ => reflexivity end.
  eexists _, _. split; [reflexivity|]. cbn [en_path en_params]. rewrite !empty_names.
  repeat match goal with |- _ /\ _ => split | |- _ = _ => reflexivity end.
Qed.

Lemma read_names : forall d path names g, read_group d path names = Some g -> map sl_name g = names.
Proof.
  induction names as [|n ns IH]; cbn; intros g H; [injection H as <-; reflexivity|].
  destruct (assoc _ _); [|discriminate]. destruct (read_group d path ns) eqn:E; [|discriminate].
  injection H as <-. cbn. f_equal. apply IH. reflexivity.
Qed.
Lemma read_used : forall d path names g, read_group d path names = Some g -> forallb sl_used g = true.
Proof.
  induction names as [|n ns IH]; cbn; intros g H; [injection H as <-; reflexivity|].
  destruct (assoc _ _); [|discriminate]. destruct (read_group d path ns) eqn:E; [|discriminate].
  injection H as <-. cbn. apply IH. reflexivity.
Qed.

Ltac dm H := match type of H with context [match ?x with _ => _ end] => destruct x eqn:?; try discriminate H end.

Lemma shape_read_tire : forall d path t, read_tire d path = Some t -> tire_shape t path.
Proof.
  intros d path t H. unfold read_tire in H. repeat dm H. injection H as <-.
  repeat match goal with E : read_group _ _ _ = Some _ |- _ => apply read_names in E end.
  unfold tire_shape; cbn. repeat split; assumption.
Qed.

Lemma shape_read : forall d c, create_f1_from_xml d = Some c -> shape c.
Proof.
  intros d c H. unfold create_f1_from_xml in H. repeat dm H.
  unfold read_f1 in H.
  destruct (read_steering d _ _) as [f|] eqn:Ef; [|discriminate H].
  destruct (read_powered d _ _) as [r|] eqn:Er; [|discriminate H].
  destruct (read_group d _ names_chassis_base) as [b|] eqn:Eb; [|discriminate H].
  destruct (read_group d _ names_chassis_own) as [o|] eqn:Eo; [|discriminate H].
  injection H as <-.
  unfold shape. cbn [ch_own ch_base ch_front ch_rear].
  split; [eapply read_names; eassumption|]. split; [eapply read_names; eassumption|].
  split.
  - unfold read_steering, read_brake in Ef.
    destruct (read_tire d _) as [t|] eqn:Et; [|discriminate Ef].
    destruct (read_group d _ names_steering) as [g|] eqn:Eg; [|discriminate Ef].
    destruct (read_group d _ names_brake) as [k|] eqn:Ek; [|discriminate Ef].
    injection Ef as <-. unfold front_shape; cbn.
    apply shape_read_tire in Et. apply read_names in Eg. apply read_names in Ek. tauto.
  - unfold read_powered, read_brake, read_engine in Er.
    destruct (read_tire d _) as [t|] eqn:Et; [|discriminate Er].
    destruct (read_group d _ names_powered) as [g|] eqn:Eg; [|discriminate Er].
    destruct (read_group d _ names_brake) as [k|] eqn:Ek; [|discriminate Er]. cbn [option_map] in Er.
    destruct (read_group d ("vehicle/rear-axle/" ++ "engine/") names_engine) as [e|] eqn:Ee; [|discriminate Er].
    destruct (read_group d ("vehicle/rear-axle/" ++ "boost/") names_engine) as [s'|] eqn:Es; [|discriminate Er].
    injection Er as <-. unfold rear_shape; cbn.
    apply shape_read_tire in Et. apply read_names in Eg. apply read_names in Ek.
    apply read_names in Ee. apply read_names in Es.
    repeat match goal with |- _ /\ _ => split end; try assumption; try reflexivity; try apply Et.
    eexists _, _. split; [reflexivity|]. cbn. tauto.
Qed.

(** Break a car of the right shape into its groups. *)
Ltac explode_car c H :=
  destruct c as [own base no ea [fp fo [fbp fb] fe fl fr] [rp ro [rbp rb] re rl rr]];
  destruct H as (H1 & H2 & (F1 & F2 & F3 & F4 & F5 & F6 & F7) & (R1 & R2 & R3 & R4 & R5 & R6 & R7));
  cbn [ch_own ch_base ch_front ch_rear ax_path ax_own ax_brakes br_path br_params ax_engines
       ax_left ax_right] in *;
  destruct R5 as ([ep eg] & [bp bg] & R51 & R52 & R53 & R54 & R55);
  cbn [en_path en_params] in *; subst fp fbp fe fr rp rbp re rr ep bp;
  destruct fl as [flp fll flo flm flb]; destruct rl as [rlp rll rlo rlm rlb];
  destruct F7 as (F71 & F72 & F73 & F74); destruct R7 as (R71 & R72 & R73 & R74);
  cbn [ti_path ti_own ti_model ti_base] in *; subst flp rlp.

(** Flags, like [stored]. *)
Definition flags_group (path : string) (g : group) : list (string * bool) :=
  map (fun s => (path ++ sl_name s, sl_used s)) g.
Definition flags_tire (t : tire) : list (string * bool) :=
  (flags_group (ti_path t) (ti_own t) ++ flags_group (ti_path t) (ti_model t)
   ++ flags_group (ti_path t) (ti_base t))%list.
Definition flags (c : chassis) : list (string * bool) :=
  (flags_group "vehicle/chassis/" (ch_own c) ++ flags_group "vehicle/chassis/" (ch_base c)
   ++ flags_group (ax_path (ch_front c)) (ax_own (ch_front c)) ++ flags_tire (ax_left (ch_front c))
   ++ flags_group (ax_path (ch_rear c)) (ax_own (ch_rear c)) ++ flags_tire (ax_left (ch_rear c)))%list.
Definition raise_flag (p : string) (l : list (string * bool)) : list (string * bool) :=
  map (fun e => if String.eqb (fst e) p then (fst e, true) else e) l.


(** The effect of lion's set_parameter on a whole group. *)
Definition upd (path p : string) (v : Q) (g : group) : group :=
  map (fun s => if String.eqb (path ++ sl_name s) p then MkSlot (sl_name s) v true else s) g.
Definition has (path p : string) (names : list string) : bool :=
  existsb (fun n => String.eqb (path ++ n) p) names.
Fixpoint nodupb (l : list string) : bool :=
  match l with [] => true | a :: r => negb (existsb (String.eqb a) r) && nodupb r end.

Lemma append_inj : forall a b c, a ++ b = a ++ c -> b = c.
Proof. induction a; cbn; intros b c H; [exact H|]. injection H as H. exact (IHa _ _ H). Qed.

Lemma upd_miss : forall path p v g, has path p (map sl_name g) = false -> upd path p v g = g.
Proof.
  intros path p v g. unfold upd, has. induction g as [|s g IH]; cbn; intros H; [reflexivity|].
  apply orb_false_iff in H. destruct H as [H1 H2]. rewrite H1, (IH H2). reflexivity.
Qed.
Lemma lion_miss : forall path p v g, has path p (map sl_name g) = false -> lion_set g path p v = (g, false).
Proof.
  intros path p v g. unfold has. induction g as [|s g IH]; cbn; intros H; [reflexivity|].
  apply orb_false_iff in H. destruct H as [H1 H2]. rewrite H1, (IH H2). reflexivity.
Qed.
Lemma lion_hit : forall path p v g, has path p (map sl_name g) = true -> nodupb (map sl_name g) = true ->
  lion_set g path p v = (upd path p v g, true).
Proof.
  induction g as [|s g IH]; intros H N; [discriminate|].
  cbn [map nodupb] in N. unfold has in H; cbn [map existsb] in H; fold (has path p (map sl_name g)) in H.
  unfold upd; cbn [map lion_set]; fold (upd path p v g).
  apply andb_true_iff in N. destruct N as [N1 N2].
  destruct (String.eqb (path ++ sl_name s) p) eqn:E.
  - rewrite upd_miss; [reflexivity|].
    apply String.eqb_eq in E. destruct (has path p (map sl_name g)) eqn:E2; [|reflexivity].
    exfalso. unfold has in E2. apply existsb_exists in E2. destruct E2 as (n & Hn & En).
    apply String.eqb_eq in En. rewrite <- E in En. apply append_inj in En. subst n.
    apply negb_true_iff in N1. assert (existsb (String.eqb (sl_name s)) (map sl_name g) = true) as W.
    { apply existsb_exists. exists (sl_name s). split; [exact Hn|apply String.eqb_refl]. }
    congruence.
  - cbn in H. rewrite (IH H N2). reflexivity.
Qed.
Lemma lion_dec : forall path p v g names, map sl_name g = names -> nodupb names = true ->
  if has path p names then lion_set g path p v = (upd path p v g, true)
  else lion_set g path p v = (g, false) /\ upd path p v g = g.
Proof.
  intros path p v g names <- N. destruct (has path p (map sl_name g)) eqn:E.
  - apply lion_hit; assumption.
  - split; [apply lion_miss|apply upd_miss]; assumption.
Qed.

Definition upd_tire (p : string) (v : Q) (t : tire) : tire :=
  MkTire (ti_path t) (ti_only_lateral t) (upd (ti_path t) p v (ti_own t))
         (upd (ti_path t) p v (ti_model t)) (upd (ti_path t) p v (ti_base t)).
Definition upd_brake (p : string) (v : Q) (b : brake) : brake :=
  MkBrake (br_path b) (upd (br_path b) p v (br_params b)).
Definition upd_engine (p : string) (v : Q) (e : engine) : engine :=
  MkEngine (en_path e) (upd (en_path e) p v (en_params e)).
Definition upd_axle (p : string) (v : Q) (a : axle) : axle :=
  MkAxle (ax_path a) (upd (ax_path a) p v (ax_own a)) (upd_brake p v (ax_brakes a))
         (match ax_engines a with Some (e, b) => Some (upd_engine p v e, upd_engine p v b) | None => None end)
         (upd_tire p v (ax_left a)) (upd_tire p v (ax_right a)).
Definition upd_chassis (p : string) (v : Q) (c : chassis) : chassis :=
  MkChassis (upd "vehicle/chassis/" p v (ch_own c)) (upd "vehicle/chassis/" p v (ch_base c))
            (if String.eqb wind_north_path p then v else ch_north c)
            (if String.eqb wind_east_path p then v else ch_east c)
            (upd_axle p v (ch_front c)) (upd_axle p v (ch_rear c)).

Arguments upd : simpl never.
Arguments has : simpl never.
Lemma upd_names : forall path p v g, map sl_name (upd path p v g) = map sl_name g.
Proof.
  intros. unfold upd. rewrite map_map. apply map_ext. intros s. destruct (String.eqb _ _); reflexivity.
Qed.
Lemma shape_upd : forall p v c, shape c -> shape (upd_chassis p v c).
Proof.
  intros p v c H. explode_car c H.
  unfold shape, front_shape, rear_shape, tire_shape. cbn.
  rewrite !upd_names.
  repeat match goal with |- _ /\ _ => split | |- _ = _ => first [reflexivity|assumption] end.
  eexists _, _. split; [reflexivity|]. cbn. rewrite !upd_names. tauto.
Qed.
Lemma stored_upd : forall path p v g,
  stored_group path (upd path p v g) = overwrite p v (stored_group path g).
Proof.
  intros. unfold stored_group, overwrite, upd. rewrite !map_map. apply map_ext. intros s. cbn.
  destruct (String.eqb _ _); reflexivity.
Qed.
Lemma flags_upd : forall path p v g,
  flags_group path (upd path p v g) = raise_flag p (flags_group path g).
Proof.
  intros. unfold flags_group, raise_flag, upd. rewrite !map_map. apply map_ext. intros s. cbn.
  destruct (String.eqb _ _); reflexivity.
Qed.
Lemma stored_chassis_upd : forall p v c, stored (upd_chassis p v c) = overwrite p v (stored c).
Proof.
  intros p v [own base no ea [fp fo [fbp fb] fe fl fr] [rp ro [rbp rb] re rl rr]].
  unfold stored, stored_axle, stored_tire.
  cbn [upd_chassis upd_axle upd_brake upd_tire ch_own ch_base ch_north ch_east ch_front ch_rear
    ax_path ax_own ax_brakes br_path br_params ax_engines ax_left ax_right ti_path ti_own ti_model ti_base].
  unfold overwrite. rewrite !map_app. fold (overwrite p v). rewrite !stored_upd.
  cbn [map fst]. unfold wind_north_path, wind_east_path.
  destruct fe as [[e1 b1]|], re as [[e2 b2]|]; cbn [upd_engine en_path en_params];
  unfold overwrite; rewrite ?map_app; fold (overwrite p v); rewrite ?stored_upd; cbn [map];
  repeat match goal with |- context [String.eqb ?a p] => destruct (String.eqb a p) end; reflexivity.
Qed.
Lemma flags_chassis_upd : forall p v c, flags (upd_chassis p v c) = raise_flag p (flags c).
Proof.
  intros p v [own base no ea [fp fo [fbp fb] fe fl fr] [rp ro [rbp rb] re rl rr]].
  unfold flags, flags_tire.
  cbn [upd_chassis upd_axle upd_brake upd_tire ch_own ch_base ch_north ch_east ch_front ch_rear
    ax_path ax_own ax_brakes br_path br_params ax_engines ax_left ax_right ti_path ti_own ti_model ti_base].
  rewrite !flags_upd. unfold raise_flag. rewrite !map_app. reflexivity.
Qed.



(** *** Routing, one level at a time *)
Definition hasg (path p : string) (g : group) : bool := has path p (map sl_name g).
Definition tire_has (p : string) (t : tire) : bool :=
  hasg (ti_path t) p (ti_own t) || hasg (ti_path t) p (ti_model t) || hasg (ti_path t) p (ti_base t).
Definition unique_names (t : tire) : Prop :=
  nodupb (map sl_name (ti_own t)) = true /\ nodupb (map sl_name (ti_model t)) = true /\
  nodupb (map sl_name (ti_base t)) = true.
(** At most one of the groups of the tyre knows the path. *)
Definition tire_once (p : string) (t : tire) : Prop :=
  (hasg (ti_path t) p (ti_own t) = true ->
     hasg (ti_path t) p (ti_model t) = false /\ hasg (ti_path t) p (ti_base t) = false) /\
  (hasg (ti_path t) p (ti_model t) = true -> hasg (ti_path t) p (ti_base t) = false).

Lemma upd_tire_miss : forall p v t, tire_has p t = false -> upd_tire p v t = t.
Proof.
  intros p v [path ol o m b]. unfold tire_has, hasg, upd_tire; cbn. intros H.
  apply orb_false_iff in H. destruct H as [H H3]. apply orb_false_iff in H. destruct H as [H1 H2].
  rewrite !upd_miss by assumption. reflexivity.
Qed.

Lemma tire_set_spec : forall p v t, starts_with (ti_path t) p = true -> unique_names t -> tire_once p t ->
  tire_set t p v = if tire_has p t then Some (upd_tire p v t) else None.
Proof.
  intros p v [path ol o m b]. unfold tire_has, hasg, upd_tire, unique_names, tire_once, tire_set,
    tire_base_set; cbn.
  intros S (N1 & N2 & N3) (O1 & O2). unfold hasg in *. cbn in *. rewrite S.
  destruct (has path p (map sl_name o)) eqn:E1.
  - destruct (O1 eq_refl) as [E2 E3]. rewrite (lion_hit _ _ _ _ E1 N1), (upd_miss path p v m), (upd_miss path p v b) by assumption. reflexivity.
  - rewrite (lion_miss _ _ _ _ E1). destruct (has path p (map sl_name m)) eqn:E2.
    + specialize (O2 eq_refl). rewrite (lion_hit _ _ _ _ E2 N2), (upd_miss path p v o), (upd_miss path p v b)
        by assumption. reflexivity.
    + rewrite (lion_miss _ _ _ _ E2). destruct (has path p (map sl_name b)) eqn:E3; cbn.
      * rewrite (lion_hit _ _ _ _ E3 N3), (upd_miss path p v o), (upd_miss path p v m) by assumption. reflexivity.
      * rewrite (lion_miss _ _ _ _ E3). reflexivity.
Qed.

Definition brake_has p b := hasg (br_path b) p (br_params b).
Definition engine_has p e := hasg (en_path e) p (en_params e).
Definition engines_has p (o : option (engine * engine)) : bool * bool :=
  match o with Some (e, b) => (engine_has p e, engine_has p b) | None => (false, false) end.
Definition axle_has (p : string) (a : axle) : bool :=
  hasg (ax_path a) p (ax_own a) || brake_has p (ax_brakes a) || fst (engines_has p (ax_engines a))
  || snd (engines_has p (ax_engines a)) || tire_has p (ax_left a).
Definition axle_unique (a : axle) : Prop :=
  nodupb (map sl_name (ax_own a)) = true /\ nodupb (map sl_name (br_params (ax_brakes a))) = true /\
  match ax_engines a with
  | Some (e, b) => nodupb (map sl_name (en_params e)) = true /\ nodupb (map sl_name (en_params b)) = true
  | None => True
  end /\ unique_names (ax_left a) /\ ax_right a = ax_left a.
(** The tests of the axle send the path to the only group that knows it. *)
Definition axle_routes (p : string) (a : axle) : Prop :=
  tire_once p (ax_left a) /\
  (hasg (ax_path a) p (ax_own a) = true ->
     starts_with (ax_path a) p = true /\ brake_has p (ax_brakes a) = false /\
     engines_has p (ax_engines a) = (false, false) /\ tire_has p (ax_left a) = false) /\
  (brake_has p (ax_brakes a) = true ->
     starts_with (ax_path a) p = true /\ starts_with (ax_path a ++ "brakes/") p = true /\
     engines_has p (ax_engines a) = (false, false) /\ tire_has p (ax_left a) = false) /\
  (fst (engines_has p (ax_engines a)) = true ->
     starts_with (ax_path a) p = true /\ starts_with (ax_path a ++ "brakes/") p = false /\
     starts_with (ax_path a ++ "engine/") p = true /\
     snd (engines_has p (ax_engines a)) = false /\ tire_has p (ax_left a) = false) /\
  (snd (engines_has p (ax_engines a)) = true ->
     starts_with (ax_path a) p = true /\ starts_with (ax_path a ++ "brakes/") p = false /\
     starts_with (ax_path a ++ "engine/") p = false /\ starts_with (ax_path a ++ "boost/") p = true /\
     tire_has p (ax_left a) = false) /\
  (tire_has p (ax_left a) = true -> starts_with (ti_path (ax_left a)) p = true /\
     starts_with (ax_path a) p = false).

Lemma brake_set_spec : forall p v b, nodupb (map sl_name (br_params b)) = true ->
  brake_set b p v = if brake_has p b then Some (upd_brake p v b) else None.
Proof.
  intros p v [path g] N. unfold brake_set, brake_has, hasg, upd_brake; cbn in *.
  destruct (has _ _ _) eqn:E; [rewrite lion_hit by assumption|rewrite lion_miss by assumption]; reflexivity.
Qed.
Lemma engine_set_spec : forall p v b, nodupb (map sl_name (en_params b)) = true ->
  engine_set b p v = if engine_has p b then Some (upd_engine p v b) else None.
Proof.
  intros p v [path g] N. unfold engine_set, engine_has, hasg, upd_engine; cbn in *.
  destruct (has _ _ _) eqn:E; [rewrite lion_hit by assumption|rewrite lion_miss by assumption]; reflexivity.
Qed.
Lemma upd_brake_miss : forall p v b, brake_has p b = false -> upd_brake p v b = b.
Proof. intros p v [path g] H. unfold upd_brake. cbn. rewrite upd_miss by exact H. reflexivity. Qed.
Lemma upd_engine_miss : forall p v b, engine_has p b = false -> upd_engine p v b = b.
Proof. intros p v [path g] H. unfold upd_engine. cbn. rewrite upd_miss by exact H. reflexivity. Qed.

Lemma upd_axle_miss : forall p v a, ax_right a = ax_left a -> axle_has p a = false -> upd_axle p v a = a.
Proof.
  intros p v [path own br en l r] E. cbn in E. subst r. unfold axle_has; cbn. intros H.
  repeat (apply orb_false_iff in H; let X := fresh "X" in destruct H as [H X]).
  unfold upd_axle; cbn. rewrite upd_miss, upd_brake_miss, upd_tire_miss by assumption.
  destruct en as [[e b]|]; [|reflexivity]. cbn in X0, X1. rewrite !upd_engine_miss by assumption. reflexivity.
Qed.

Lemma axle_set_found : forall p v a, axle_unique a -> axle_routes p a -> axle_has p a = true ->
  axle_set a p v = Some (upd_axle p v a, true).
Proof.
  intros p v [path own br en l r] (N1 & N2 & N3 & N4 & N5) (R0 & R1 & R2 & R3 & R4 & R5) H.
  cbn [ax_path ax_own ax_brakes ax_engines ax_left ax_right] in *. subst r.
  unfold axle_has in H; cbn [ax_path ax_own ax_brakes ax_engines ax_left ax_right] in H.
  unfold axle_set, upd_axle. cbn [ax_path ax_own ax_brakes ax_engines ax_left ax_right].
  destruct (hasg path p own) eqn:E1.
  { destruct (R1 eq_refl) as (A1 & A2 & A3 & A4). rewrite A1, (lion_hit _ _ _ _ E1 N1).
    rewrite upd_brake_miss, upd_tire_miss by assumption.
    destruct en as [[e b]|]; [|reflexivity]. cbn in A3. injection A3 as A3 A5.
    rewrite !upd_engine_miss by assumption. reflexivity. }
  clear R1. rewrite (lion_miss _ _ _ _ E1), (upd_miss _ _ _ _ E1).
  destruct (brake_has p br) eqn:E2.
  { destruct (R2 eq_refl) as (A1 & A2 & A3 & A4). rewrite A1, A2, brake_set_spec, E2 by assumption.
    cbn. rewrite upd_tire_miss by assumption.
    destruct en as [[e b]|]; [|reflexivity]. cbn in A3. injection A3 as A3 A5.
    rewrite !upd_engine_miss by assumption. reflexivity. }
  clear R2. rewrite (upd_brake_miss _ _ _ E2).
  destruct en as [[e b]|]; cbn [engines_has fst snd] in *.
  - destruct N3 as [N3 N6]. destruct (engine_has p e) eqn:E3.
    { destruct (R3 eq_refl) as (A1 & A2 & A3 & A4 & A5). rewrite A1, A2, A3, engine_set_spec, E3 by assumption.
      cbn. rewrite upd_tire_miss, (upd_engine_miss p v b) by assumption. reflexivity. }
    clear R3. rewrite (upd_engine_miss _ _ _ E3).
    destruct (engine_has p b) eqn:E4.
    { destruct (R4 eq_refl) as (A1 & A2 & A3 & A4 & A5). rewrite A1, A2, A3, A4, engine_set_spec, E4 by assumption.
      cbn. rewrite upd_tire_miss by assumption. reflexivity. }
    rewrite (upd_engine_miss _ _ _ E4). cbn in H. destruct (R5 H) as (A1 & A2). rewrite A2.
    unfold axle_base_set; cbn [ax_path ax_own ax_brakes ax_engines ax_left ax_right].
    rewrite String.eqb_refl. cbn [negb]. rewrite A1, tire_set_spec, H by assumption. reflexivity.
  - cbn in H. destruct (R5 H) as (A1 & A2). rewrite A2.
    unfold axle_base_set; cbn [ax_path ax_own ax_brakes ax_engines ax_left ax_right].
    rewrite String.eqb_refl. cbn [negb]. rewrite A1, tire_set_spec, H by assumption. reflexivity.
Qed.

(** A path unknown to the axle: either "not found" or an exception, never a change. *)
Lemma axle_set_unknown : forall p v a, axle_unique a -> axle_has p a = false ->
  axle_set a p v = Some (a, false) \/ axle_set a p v = None.
Proof.
  intros p v [path own br en l r] (N1 & N2 & N3 & N4 & N5) H.
  cbn [ax_path ax_own ax_brakes ax_engines ax_left ax_right] in *. subst r.
  unfold axle_has in H; cbn [ax_path ax_own ax_brakes ax_engines ax_left ax_right] in H.
  repeat (apply orb_false_iff in H; let X := fresh "X" in destruct H as [H X]).
  assert (axle_base_set (MkAxle path own br en l l) p v = Some (MkAxle path own br en l l, false) \/
          axle_base_set (MkAxle path own br en l l) p v = None) as B.
  { unfold axle_base_set; cbn [ax_path ax_own ax_brakes ax_engines ax_left ax_right].
    rewrite String.eqb_refl. cbn [negb]. destruct (starts_with (ti_path l) p) eqn:S; [|left; reflexivity].
    right. assert (tire_once p l) as O.
    { unfold tire_has in X. apply orb_false_iff in X. destruct X as [X X4]. apply orb_false_iff in X.
      destruct X as [X X5]. split; [rewrite X; discriminate|rewrite X5; discriminate]. }
    rewrite tire_set_spec, X by assumption. reflexivity. }
  unfold axle_set; cbn [ax_path ax_own ax_brakes ax_engines ax_left ax_right].
  destruct (starts_with path p); [|exact B].
  rewrite (lion_miss _ _ _ _ H).
  destruct (starts_with (path ++ "brakes/") p).
  { rewrite brake_set_spec, X2 by assumption. right; reflexivity. }
  destruct en as [[e b]|]; [|exact B]. cbn [engines_has fst snd] in *. destruct N3 as [N3 N6].
  destruct (starts_with (path ++ "engine/") p).
  { rewrite engine_set_spec, X1 by assumption. right; reflexivity. }
  destruct (starts_with (path ++ "boost/") p).
  { rewrite engine_set_spec, X0 by assumption. right; reflexivity. }
  exact B.
Qed.

(** A path outside the axle and its tyres is "not found". *)
Lemma axle_set_elsewhere : forall p v a, ax_right a = ax_left a ->
  starts_with (ax_path a) p = false -> starts_with (ti_path (ax_left a)) p = false ->
  axle_set a p v = Some (a, false).
Proof.
  intros p v a E S1 S2. unfold axle_set, axle_base_set. rewrite S1, E, String.eqb_refl, S2. reflexivity.
Qed.

Definition chassis_has (p : string) (c : chassis) : bool :=
  hasg "vehicle/chassis/" p (ch_own c) || hasg "vehicle/chassis/" p (ch_base c)
  || String.eqb p wind_north_path || String.eqb p wind_east_path
  || axle_has p (ch_front c) || axle_has p (ch_rear c).
Definition chassis_unique (c : chassis) : Prop :=
  nodupb (map sl_name (ch_own c)) = true /\ nodupb (map sl_name (ch_base c)) = true /\
  axle_unique (ch_front c) /\ axle_unique (ch_rear c).
Definition chassis_routes (p : string) (c : chassis) : Prop :=
  axle_routes p (ch_front c) /\ axle_routes p (ch_rear c) /\
  (hasg "vehicle/chassis/" p (ch_own c) = true ->
    starts_with "vehicle/chassis/" p = true /\
    hasg "vehicle/chassis/" p (ch_base c) = false /\ String.eqb p wind_north_path = false /\
    String.eqb p wind_east_path = false /\ axle_has p (ch_front c) = false /\ axle_has p (ch_rear c) = false) /\
  (hasg "vehicle/chassis/" p (ch_base c) = true ->
    starts_with "vehicle/chassis/" p = true /\
    String.eqb p wind_north_path = false /\
    String.eqb p wind_east_path = false /\ axle_has p (ch_front c) = false /\ axle_has p (ch_rear c) = false) /\
  (String.eqb p wind_north_path = true -> starts_with "vehicle/chassis/" p = true /\
    String.eqb p wind_east_path = false /\ axle_has p (ch_front c) = false /\ axle_has p (ch_rear c) = false) /\
  (String.eqb p wind_east_path = true -> starts_with "vehicle/chassis/" p = true /\
    axle_has p (ch_front c) = false /\ axle_has p (ch_rear c) = false) /\
  (axle_has p (ch_front c) = true -> starts_with "vehicle/chassis/" p = false /\
    axle_has p (ch_rear c) = false) /\
  (axle_has p (ch_rear c) = true -> starts_with "vehicle/chassis/" p = false /\
    starts_with (ax_path (ch_front c)) p = false /\ starts_with (ti_path (ax_left (ch_front c))) p = false).

Lemma chassis_set_found : forall p v c, chassis_unique c -> chassis_routes p c -> chassis_has p c = true ->
  chassis_set c p v = Some (upd_chassis p v c).
Proof.
  intros p v [own base no ea f r] (N1 & N2 & N3 & N4) (R1 & R2 & R3 & R4 & R5 & R6 & R7 & R8) H.
  unfold chassis_has in H.
  cbn [ch_own ch_base ch_north ch_east ch_front ch_rear] in *.
  unfold chassis_set, chassis_base_set, upd_chassis.
  cbn [ch_own ch_base ch_north ch_east ch_front ch_rear].
  rewrite (String.eqb_sym wind_north_path p), (String.eqb_sym wind_east_path p).
  assert (ax_right f = ax_left f) as Ff by apply N3. assert (ax_right r = ax_left r) as Fr by apply N4.
  destruct (hasg "vehicle/chassis/" p own) eqn:E1.
  { destruct (R3 eq_refl) as (A0 & A1 & A2 & A3 & A4 & A5).
    rewrite A0, (lion_hit _ _ _ _ E1 N1), A2, A3, !upd_axle_miss, (upd_miss _ _ _ base) by assumption. reflexivity. }
  rewrite (lion_miss _ _ _ _ E1), (upd_miss _ _ _ _ E1).
  destruct (hasg "vehicle/chassis/" p base) eqn:E2.
  { destruct (R4 eq_refl) as (A0 & A2 & A3 & A4 & A5).
    rewrite A0, (lion_hit _ _ _ _ E2 N2), A2, A3, !upd_axle_miss by assumption. reflexivity. }
  rewrite (lion_miss _ _ _ _ E2), (upd_miss _ _ _ _ E2).
  destruct (String.eqb p wind_north_path) eqn:E3.
  { destruct (R5 eq_refl) as (A0 & A2 & A4 & A5). rewrite A0, A2, !upd_axle_miss by assumption. reflexivity. }
  destruct (String.eqb p wind_east_path) eqn:E4.
  { destruct (R6 eq_refl) as (A0 & A4 & A5). rewrite A0, !upd_axle_miss by assumption. reflexivity. }
  destruct (axle_has p f) eqn:E5.
  { destruct (R7 eq_refl) as (A0 & A5).
    rewrite A0, axle_set_found, (upd_axle_miss _ _ r) by assumption. reflexivity. }
  cbn in H. destruct (R8 H) as (A0 & A1 & A2).
  rewrite A0, (axle_set_elsewhere p v f), axle_set_found, (upd_axle_miss _ _ f) by assumption. reflexivity.
Qed.

Lemma chassis_set_unknown : forall p v c, chassis_unique c -> chassis_has p c = false ->
  chassis_set c p v = None.
Proof.
  intros p v [own base no ea f r] (N1 & N2 & N3 & N4) H.
  unfold chassis_has in H. cbn [ch_own ch_base ch_north ch_east ch_front ch_rear] in *.
  repeat (apply orb_false_iff in H; let X := fresh "X" in destruct H as [H X]).
  unfold chassis_set, chassis_base_set. cbn [ch_own ch_base ch_north ch_east ch_front ch_rear].
  rewrite (lion_miss _ _ _ _ H), (lion_miss _ _ _ _ X3), X1, X2.
  destruct (starts_with _ p); [reflexivity|].
  destruct (axle_set_unknown p v f N3 X0) as [-> | ->]; [|reflexivity].
  destruct (axle_set_unknown p v r N4 X) as [-> | ->]; reflexivity.
Qed.

(** The concrete f1: the names only, hence decidable by computation. *)
Definition skeleton : chassis := empty_f1 (fun _ => 0%Q).
Lemma has_names : forall p path g h, map sl_name g = map sl_name h -> hasg path p g = hasg path p h.
Proof. intros p path g h E. unfold hasg. rewrite E. reflexivity. Qed.

Definition routes_b (p : string) (c : chassis) : bool :=
  let tire_once_b t :=
    (negb (hasg (ti_path t) p (ti_own t)) ||
     (negb (hasg (ti_path t) p (ti_model t)) && negb (hasg (ti_path t) p (ti_base t)))) &&
    (negb (hasg (ti_path t) p (ti_model t)) || negb (hasg (ti_path t) p (ti_base t))) in
  let axle_routes_b a :=
    tire_once_b (ax_left a) &&
    (negb (hasg (ax_path a) p (ax_own a)) ||
       (starts_with (ax_path a) p && negb (brake_has p (ax_brakes a)) &&
        negb (fst (engines_has p (ax_engines a))) && negb (snd (engines_has p (ax_engines a))) &&
        negb (tire_has p (ax_left a)))) &&
    (negb (brake_has p (ax_brakes a)) ||
       (starts_with (ax_path a) p && starts_with (ax_path a ++ "brakes/") p &&
        negb (fst (engines_has p (ax_engines a))) && negb (snd (engines_has p (ax_engines a))) &&
        negb (tire_has p (ax_left a)))) &&
    (negb (fst (engines_has p (ax_engines a))) ||
       (starts_with (ax_path a) p && negb (starts_with (ax_path a ++ "brakes/") p) &&
        starts_with (ax_path a ++ "engine/") p && negb (snd (engines_has p (ax_engines a))) &&
        negb (tire_has p (ax_left a)))) &&
    (negb (snd (engines_has p (ax_engines a))) ||
       (starts_with (ax_path a) p && negb (starts_with (ax_path a ++ "brakes/") p) &&
        negb (starts_with (ax_path a ++ "engine/") p) && starts_with (ax_path a ++ "boost/") p &&
        negb (tire_has p (ax_left a)))) &&
    (negb (tire_has p (ax_left a)) ||
       (starts_with (ti_path (ax_left a)) p && negb (starts_with (ax_path a) p))) in
  axle_routes_b (ch_front c) && axle_routes_b (ch_rear c) &&
  (negb (hasg "vehicle/chassis/" p (ch_own c)) ||
    (starts_with "vehicle/chassis/" p && negb (hasg "vehicle/chassis/" p (ch_base c)) &&
     negb (String.eqb p wind_north_path) && negb (String.eqb p wind_east_path) &&
     negb (axle_has p (ch_front c)) && negb (axle_has p (ch_rear c)))) &&
  (negb (hasg "vehicle/chassis/" p (ch_base c)) ||
    (starts_with "vehicle/chassis/" p &&
     negb (String.eqb p wind_north_path) && negb (String.eqb p wind_east_path) &&
     negb (axle_has p (ch_front c)) && negb (axle_has p (ch_rear c)))) &&
  (negb (String.eqb p wind_north_path) ||
    (starts_with "vehicle/chassis/" p && negb (String.eqb p wind_east_path) &&
     negb (axle_has p (ch_front c)) && negb (axle_has p (ch_rear c)))) &&
  (negb (String.eqb p wind_east_path) ||
    (starts_with "vehicle/chassis/" p &&
     negb (axle_has p (ch_front c)) && negb (axle_has p (ch_rear c)))) &&
  (negb (axle_has p (ch_front c)) ||
    (negb (starts_with "vehicle/chassis/" p) && negb (axle_has p (ch_rear c)))) &&
  (negb (axle_has p (ch_rear c)) ||
    (negb (starts_with "vehicle/chassis/" p) && negb (starts_with (ax_path (ch_front c)) p) &&
     negb (starts_with (ti_path (ax_left (ch_front c))) p))).

Lemma imp_b : forall a b, negb a || b = true -> a = true -> b = true.
Proof. intros [] []; cbn; congruence. Qed.

Lemma routes_b_ok : forall p c, routes_b p c = true -> chassis_routes p c.
Proof.
  intros p c. unfold routes_b, chassis_routes, axle_routes, tire_once. cbv zeta. intros H.
  repeat match goal with H : _ && _ = true |- _ => apply andb_true_iff in H; destruct H end.
  repeat match goal with
  | |- _ /\ _ => split
  | |- _ = true -> _ => let A := fresh "A" in intros A
  | H : orb (negb ?a) _ = true, A : ?a = true |- _ => apply (fun h => imp_b _ _ h A) in H
  | H : _ && _ = true |- _ => apply andb_true_iff in H; destruct H
  | H : negb _ = true |- _ => apply negb_true_iff in H
  end; try assumption.
  all: match goal with |- engines_has ?q ?e = _ => destruct (engines_has q e) end; cbn [fst snd] in *; congruence.
Qed.

(** Two cars with the same names, paths and equal tyres route alike. *)
Definition same_tire (t u : tire) : Prop :=
  ti_path t = ti_path u /\ map sl_name (ti_own t) = map sl_name (ti_own u) /\
  map sl_name (ti_model t) = map sl_name (ti_model u) /\ map sl_name (ti_base t) = map sl_name (ti_base u).

Lemma tire_has_same : forall p t u, same_tire t u -> tire_has p t = tire_has p u.
Proof. intros p t u (A & B & C & D). unfold tire_has, hasg. rewrite A, B, C, D. reflexivity. Qed.

Lemma shape_routes : forall c p, shape c -> routes_b p c = routes_b p skeleton /\
  chassis_has p c = chassis_has p skeleton.
Proof.
  intros c p H. pose proof (shape_empty (fun _ => 0%Q)) as K. fold skeleton in K.
  revert K. generalize skeleton as d. intros d K.
  explode_car c H.
  destruct d as [own' base' no' ea' [fp' fo' [fbp' fb'] fe' fl' fr'] [rp' ro' [rbp' rb'] re' rl' rr']].
  destruct K as (K1 & K2 & (F1' & F2' & F3' & F4' & F5' & F6' & F7') & (R1' & R2' & R3' & R4' & R5' & R6' & R7')).
  cbn [ch_own ch_base ch_front ch_rear ax_path ax_own ax_brakes br_path br_params ax_engines
       ax_left ax_right] in *.
  destruct R5' as ([ep' eg'] & [bp' bg'] & R51' & R52' & R53' & R54' & R55').
  cbn [en_path en_params] in *. subst fp' fbp' fe' fr' rp' rbp' re' rr' ep' bp'.
  destruct fl' as [flp' fll' flo' flm' flb']; destruct rl' as [rlp' rll' rlo' rlm' rlb'].
  destruct F7' as (F71' & F72' & F73' & F74'); destruct R7' as (R71' & R72' & R73' & R74').
  cbn [ti_path ti_own ti_model ti_base] in *. subst flp' rlp'.
  split.
  - unfold routes_b, axle_has, tire_has, brake_has, engines_has, engine_has, hasg. cbv zeta.
    cbn [ch_own ch_base ch_front ch_rear ax_path ax_own ax_brakes br_path br_params ax_engines
       ax_left ax_right ti_path ti_own ti_model ti_base en_path en_params fst snd].
    repeat match goal with E : map sl_name _ = _ |- _ => rewrite E; clear E end. reflexivity.
  - unfold chassis_has, axle_has, tire_has, brake_has, engines_has, engine_has, hasg.
    cbn [ch_own ch_base ch_front ch_rear ax_path ax_own ax_brakes br_path br_params ax_engines
       ax_left ax_right ti_path ti_own ti_model ti_base en_path en_params fst snd].
    repeat match goal with E : map sl_name _ = _ |- _ => rewrite E; clear E end. reflexivity.
Qed.

Lemma shape_unique : forall c, shape c -> chassis_unique c.
Proof.
  intros c H. explode_car c H.
  unfold chassis_unique, axle_unique, unique_names.
  cbn [ch_own ch_base ch_front ch_rear ax_path ax_own ax_brakes br_path br_params ax_engines
       ax_left ax_right ti_path ti_own ti_model ti_base en_path en_params].
  repeat match goal with E : map sl_name _ = _ |- _ => rewrite E; clear E end.
  repeat match goal with |- _ /\ _ => split | |- _ = _ => reflexivity | |- True => exact I end.
Qed.

Definition same_paths : forall p, chassis_has p skeleton = true <-> In p all_paths.
Proof.
  assert (forall p path names, has path p names = true <-> In p (map (append path) names)) as HI.
  { intros p path names. unfold has. rewrite existsb_exists, in_map_iff. split.
    - intros (n & Hn & E). apply String.eqb_eq in E. exists n. split; [exact E|exact Hn].
    - intros (n & E & Hn). exists n. split; [exact Hn|]. apply String.eqb_eq. exact E. }
  intros p.
  unfold chassis_has, axle_has, tire_has, brake_has, engines_has, engine_has, hasg, skeleton, empty_f1,
    empty_steering, empty_powered, empty_tire.
  cbn [ch_own ch_base ch_front ch_rear ax_path ax_own ax_brakes br_path br_params ax_engines
       ax_left ax_right ti_path ti_own ti_model ti_base en_path en_params fst snd].
  rewrite !empty_names, !orb_true_iff, !HI, !String.eqb_eq.
  assert (forall l m : list string, forallb (fun q => existsb (String.eqb q) m) l = true ->
            forall q, In q l -> In q m) as SUB.
  { intros l m F q Hq. rewrite forallb_forall in F. specialize (F q Hq). apply existsb_exists in F.
    destruct F as (q' & Hq' & E). apply String.eqb_eq in E. subst q'. exact Hq'. }
  split.
  - intros H.
    assert (In p (map (append "vehicle/chassis/") names_chassis_own
      ++ map (append "vehicle/chassis/") names_chassis_base ++ [wind_north_path; wind_east_path]
      ++ map (append "vehicle/front-axle/") names_steering
      ++ map (append ("vehicle/front-axle/" ++ "brakes/")) names_brake
      ++ map (append "vehicle/front-tire/") names_tire_own ++ map (append "vehicle/front-tire/") names_tire_model
      ++ map (append "vehicle/front-tire/") names_tire_base
      ++ map (append "vehicle/rear-axle/") names_powered
      ++ map (append ("vehicle/rear-axle/" ++ "brakes/")) names_brake
      ++ map (append ("vehicle/rear-axle/" ++ "engine/")) names_engine
      ++ map (append ("vehicle/rear-axle/" ++ "boost/")) names_engine
      ++ map (append "vehicle/rear-tire/") names_tire_own ++ map (append "vehicle/rear-tire/") names_tire_model
      ++ map (append "vehicle/rear-tire/") names_tire_base)%list) as W.
    { rewrite !in_app_iff. cbn [In].
      repeat match goal with H : _ \/ _ |- _ => destruct H as [H|H] end; try discriminate; subst; tauto. }
    revert W. apply SUB. vm_compute. reflexivity.
  - intros H.
    assert (In p (map (append "vehicle/chassis/") names_chassis_own
      ++ map (append "vehicle/chassis/") names_chassis_base ++ [wind_north_path; wind_east_path]
      ++ map (append "vehicle/front-axle/") names_steering
      ++ map (append ("vehicle/front-axle/" ++ "brakes/")) names_brake
      ++ map (append "vehicle/front-tire/") names_tire_own ++ map (append "vehicle/front-tire/") names_tire_model
      ++ map (append "vehicle/front-tire/") names_tire_base
      ++ map (append "vehicle/rear-axle/") names_powered
      ++ map (append ("vehicle/rear-axle/" ++ "brakes/")) names_brake
      ++ map (append ("vehicle/rear-axle/" ++ "engine/")) names_engine
      ++ map (append ("vehicle/rear-axle/" ++ "boost/")) names_engine
      ++ map (append "vehicle/rear-tire/") names_tire_own ++ map (append "vehicle/rear-tire/") names_tire_model
      ++ map (append "vehicle/rear-tire/") names_tire_base)%list) as W.
    { revert H. apply SUB. vm_compute. reflexivity. }
    rewrite !in_app_iff in W. cbn [In] in W.
    repeat match goal with H : _ \/ _ |- _ => destruct H as [H|H] end; try tauto;
    subst; tauto.
Qed.

Lemma known_routes : forall p, In p all_paths -> routes_b p skeleton = true.
Proof.
  apply forallb_forall. vm_compute. reflexivity.
Qed.

(** *** The whole car *)
Lemma set_known : forall c p v, shape c -> In p all_paths ->
  chassis_set c p v = Some (upd_chassis p v c).
Proof.
  intros c p v H Hp. destruct (shape_routes c p H) as [R C].
  apply chassis_set_found; [apply shape_unique, H| |].
  - apply routes_b_ok. rewrite R. apply known_routes, Hp.
  - rewrite C. apply same_paths, Hp.
Qed.
Lemma set_unknown : forall c p v, shape c -> ~ In p all_paths -> chassis_set c p v = None.
Proof.
  intros c p v H Hp. destruct (shape_routes c p H) as [R C].
  apply chassis_set_unknown; [apply shape_unique, H|]. rewrite C.
  destruct (chassis_has p skeleton) eqn:E; [|reflexivity]. exfalso. apply Hp, same_paths, E.
Qed.
Lemma paths_dec : forall p, {In p all_paths} + {~ In p all_paths}.
Proof. intros p. apply (in_dec string_dec). Qed.
Lemma shape_set : forall c p v c', shape c -> chassis_set c p v = Some c' -> shape c'.
Proof.
  intros c p v c' H E. destruct (paths_dec p) as [Hp|Hp].
  - rewrite set_known in E by assumption. injection E as <-. apply shape_upd, H.
  - rewrite set_unknown in E by assumption. discriminate.
Qed.
Lemma obtainable_shape : forall c, obtainable c -> shape c.
Proof.
  induction 1.
  - apply shape_empty.
  - eapply shape_read; eassumption.
  - eapply shape_set; eassumption.
Qed.

Lemma stored_paths_shape : forall c, shape c -> forall p, In p (map fst (stored c)) <-> In p all_paths.
Proof.
  assert (forall path g, map fst (stored_group path g) = map (append path) (map sl_name g)) as G.
  { intros. unfold stored_group. rewrite !map_map. reflexivity. }
  assert (forall l m : list string, forallb (fun q => existsb (String.eqb q) m) l = true ->
            forall q, In q l -> In q m) as SUB.
  { intros l m F q Hq. rewrite forallb_forall in F. specialize (F q Hq). apply existsb_exists in F.
    destruct F as (q' & Hq' & E). apply String.eqb_eq in E. subst q'. exact Hq'. }
  intros c H p. explode_car c H.
  unfold stored, stored_axle, stored_tire.
  cbn [ch_own ch_base ch_front ch_rear ax_path ax_own ax_brakes br_path br_params ax_engines
       ax_left ax_right ti_path ti_own ti_model ti_base en_path en_params ch_north ch_east].
  rewrite ?map_app, !G.
  repeat match goal with E : map sl_name _ = _ |- _ => rewrite E; clear E end.
  cbn [map fst].
  split; apply SUB; vm_compute; reflexivity.
Qed.

Theorem set_exact : forall c p v, obtainable c ->
  (In p all_paths /\ exists c', chassis_set c p v = Some c' /\ obtainable c' /\
                               stored c' = overwrite p v (stored c)) \/
  (~ In p all_paths /\ chassis_set c p v = None).
Proof.
  intros c p v O. pose proof (obtainable_shape c O) as S. destruct (paths_dec p) as [Hp|Hp].
  - left. split; [exact Hp|]. exists (upd_chassis p v c). rewrite set_known by assumption.
    split; [reflexivity|]. split; [|apply stored_chassis_upd].
    eapply after_set; [exact O|]. apply set_known; assumption.
  - right. split; [exact Hp|]. apply set_unknown; assumption.
Qed.

(** *** Readiness *)
Lemma ready_flags : forall c, shape c ->
  chassis_ready c = true <-> (forall p b, In (p, b) (flags c) -> b = true).
Proof.
  intros c H.
  assert (forall path g, all_used g = true <-> (forall p b, In (p, b) (flags_group path g) -> b = true)) as G.
  { intros path g. unfold all_used, flags_group. rewrite forallb_forall. split.
    - intros F p b Hb. apply in_map_iff in Hb. destruct Hb as (s & E & Hs). injection E as <- <-. apply F, Hs.
    - intros F s Hs. apply (F (path ++ sl_name s)). apply in_map_iff. exists s. split; [reflexivity|exact Hs]. }
  assert (forall (A B : list (string * bool)), (forall p b, In (p, b) (A ++ B)%list -> b = true) <->
     (forall p b, In (p, b) A -> b = true) /\ (forall p b, In (p, b) B -> b = true)) as AP.
  { intros A B. split.
    - intros F. split; intros p b Hb; apply (F p b), in_or_app; tauto.
    - intros [F1 F2] p b Hb. apply in_app_or in Hb. destruct Hb as [Hb|Hb]; eauto. }
  explode_car c H.
  unfold chassis_ready, axle_ready, tire_ready, flags, flags_tire.
  cbn [ch_own ch_base ch_front ch_rear ax_path ax_own ax_brakes br_path br_params ax_engines
       ax_left ax_right ti_path ti_own ti_model ti_base en_path en_params].
  rewrite !AP, !andb_true_iff, <- !G. tauto.
Qed.

Lemma flag_paths : forall c, shape c -> map fst (flags c) = checked_paths.
Proof.
  assert (forall path g, map fst (flags_group path g) = map (append path) (map sl_name g)) as G.
  { intros. unfold flags_group. rewrite !map_map. reflexivity. }
  intros c H. explode_car c H. unfold flags, flags_tire.
  cbn [ch_own ch_base ch_front ch_rear ax_path ax_own ax_brakes br_path br_params ax_engines
       ax_left ax_right ti_path ti_own ti_model ti_base en_path en_params].
  rewrite ?map_app, !G.
  repeat match goal with E : map sl_name _ = _ |- _ => rewrite E; clear E end.
  reflexivity.
Qed.

Definition flag_value (given : list string) (p : string) : bool := existsb (String.eqb p) given.

Lemma flags_run : forall calls c, shape c -> let c' := set_all_of c calls in
  shape c' /\ flags c' = map (fun e => (fst e, snd e || flag_value (map fst calls) (fst e))) (flags c).
Proof.
  induction calls as [|[p v] calls IH]; intros c H c'; subst c'; cbn [set_all_of fold_left].
  - split; [exact H|]. rewrite <- (map_id (flags c)) at 1. apply map_ext. intros [q b]. cbn.
    rewrite orb_false_r. reflexivity.
  - cbn [fst snd]. destruct (paths_dec p) as [Hp|Hp].
    + rewrite set_known by assumption. destruct (IH (upd_chassis p v c) (shape_upd _ _ _ H)) as [S F].
      split; [exact S|]. unfold set_all_of in F. rewrite F, flags_chassis_upd. unfold raise_flag.
      rewrite map_map. apply map_ext. intros [q b]. cbn [fst snd map flag_value existsb].
      rewrite (String.eqb_sym q p). destruct (String.eqb p q); cbn [fst snd orb];
      unfold flag_value; cbn [existsb]; [rewrite orb_true_r|]; reflexivity.
    + rewrite set_unknown by assumption. destruct (IH c H) as [S F]. split; [exact S|].
      unfold set_all_of in F. rewrite F. apply map_ext_in. intros [q b] Hq. cbn [fst snd map].
      unfold flag_value; cbn [existsb]. destruct (String.eqb q p) eqn:E; [|reflexivity].
      exfalso. apply Hp. apply String.eqb_eq in E. subst q. apply in_or_app. left. unfold file_paths.
      apply in_or_app. left. rewrite <- (flag_paths c H). apply (in_map fst) in Hq. exact Hq.
Qed.

Lemma empty_flags : forall junk q b, In (q, b) (flags (empty_f1 junk)) -> b = false.
Proof.
  intros junk q b H.
  assert (forall path names, In (q, b) (flags_group path (empty_group junk path names)) -> b = false) as G.
  { intros path names I. unfold flags_group, empty_group in I. rewrite map_map in I. apply in_map_iff in I.
    destruct I as (n & E & _). injection E as _ <-. reflexivity. }
  unfold flags, flags_tire, empty_f1, empty_steering, empty_powered, empty_tire in H.
  cbn [ch_own ch_base ch_front ch_rear ax_path ax_own ax_brakes br_path br_params ax_engines
       ax_left ax_right ti_path ti_own ti_model ti_base en_path en_params] in H.
  repeat (apply in_app_or in H; destruct H as [H|H]); try (eapply G; exact H).
Qed.

Theorem ready_iff_checked : forall junk calls,
  chassis_ready (set_all_of (empty_f1 junk) calls) = true <->
  (forall p, In p checked_paths -> In p (map fst calls)).
Proof.
  intros junk calls. pose proof (shape_empty junk) as S. destruct (flags_run calls _ S) as [S' F].
  rewrite ready_flags by exact S'. rewrite F. split.
  - intros H p Hp. rewrite <- (flag_paths _ S) in Hp. apply in_map_iff in Hp. destruct Hp as ([q b] & <- & Hq).
    cbn [fst]. pose proof (empty_flags _ _ _ Hq) as ->.
    specialize (H q (flag_value (map fst calls) q)). 
    assert (flag_value (map fst calls) q = true) as E.
    { apply H. apply in_map_iff. exists (q, false). split; [reflexivity|exact Hq]. }
    unfold flag_value in E. apply existsb_exists in E. destruct E as (q' & Hq' & E).
    apply String.eqb_eq in E. subst q'. exact Hq'.
  - intros H p b Hb. apply in_map_iff in Hb. destruct Hb as ([q b'] & E & Hq). cbn [fst snd] in E.
    injection E as <- <-. apply orb_true_iff. right. unfold flag_value. apply existsb_exists. exists q.
    split; [|apply String.eqb_refl]. apply H. rewrite <- (flag_paths _ S). apply (in_map fst) in Hq. exact Hq.
Qed.

Lemma never_set_refuted : forall junk, exists calls,
  chassis_ready (set_all_of (empty_f1 junk) calls) = true /\
  forall p, In p actuator_paths -> ~ In p (map fst calls).
Proof.
  intros junk. exists (map (fun p => (p, 1%Q)) checked_paths).
  assert (map fst (map (fun p => (p, 1%Q)) checked_paths) = checked_paths) as E.
  { vm_compute. reflexivity. }
  split.
  - apply ready_iff_checked. rewrite E. auto.
  - rewrite E. intros p Hp I.
    assert (forallb (fun q => negb (existsb (String.eqb q) checked_paths)) actuator_paths = true) as W
      by (vm_compute; reflexivity).
    rewrite forallb_forall in W. specialize (W p Hp). apply negb_true_iff in W.
    assert (existsb (String.eqb p) checked_paths = true); [|congruence].
    apply existsb_exists. exists p. split; [exact I|apply String.eqb_refl].
Qed.
