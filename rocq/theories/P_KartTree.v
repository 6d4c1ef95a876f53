(** C129: the parameters of a kart. *)
From Coq Require Import String QArith Bool Arith Lia Lqa List.
From Verif Require Import M_Param S_Param L_Param M_Tree S_Tree L_Tree L_TreeCar M_KartTree S_KartTree L_KartTree.
Import ListNotations.
Local Open Scope string_scope.

(** *** The file *)
(** A file is accepted exactly when it is a kart file, both tyres carry their type, every
    required number and vector is there, and an engine or brakes element, if given, holds
    its number. *)
Theorem C129_accepted_exactly : forall d,
  (exists k, create_kart_from_xml d = Some k) <->
  (attribute (xml_attributes (kf_xml d)) "vehicle/" "type" = Some "kart-6dof" /\
   (exists ty, attribute (xml_attributes (kf_xml d)) "vehicle/front-tire/" "type" = Some ty) /\
   (exists ty, attribute (xml_attributes (kf_xml d)) "vehicle/rear-tire/" "type" = Some ty) /\
   (forall p, In p kart_required_paths -> exists x, assoc (xml_values (kf_xml d)) p = Some x) /\
   (forall p, In p kart_vector_paths -> exists x, assoc (kf_vectors d) p = Some x) /\
   (has_element (kf_xml d) "vehicle/rear-axle/engine/" = true ->
      exists x, assoc (xml_values (kf_xml d)) kart_engine_path = Some x) /\
   (has_element (kf_xml d) "vehicle/rear-axle/brakes/" = true ->
      exists x, assoc (xml_values (kf_xml d)) kart_brakes_path = Some x)).
Proof.
  intros [d vs]. unfold create_kart_from_xml. cbn [kf_xml kf_vectors].
  set (given := fun p => exists x, assoc (xml_values d) p = Some x).
  assert (G : forall path names, (exists g, read_group d path names = Some g) <->
                (forall p, In p (map (append path) names) -> given p)).
  { intros path names. rewrite read_group_iff. split; intros H.
    - intros p I. apply in_map_iff in I. destruct I as (n & <- & I). exact (H n I).
    - intros n I. apply H. apply in_map, I. }
  assert (T : forall path, (exists t, read_kart_tire d path = Some t) <->
      ((exists ty, attribute (xml_attributes d) path "type" = Some ty) /\
       forall p, In p (kart_tire_paths path) -> given p)).
  { intros path. unfold read_kart_tire. destruct (attribute _ path "type") as [ty|].
    2:{ split; [intros [t E]; discriminate|intros [[ty E] _]; discriminate]. }
    assert (S : (forall p, In p (kart_tire_paths path) -> given p) <->
      (exists g, read_group d path names_tire_base = Some g) /\
      (exists g, read_group d path names_tire_own = Some g) /\
      (exists g, read_group d path names_kart_model = Some g)).
    { rewrite !G. unfold kart_tire_paths, names_tire_base, names_tire_own, names_kart_model.
      split.
      - intros H. repeat split; intros p I; apply H; revert I; clear; cbn [map In]; tauto.
      - intros (A & B & C) p I. specialize (A p). specialize (B p). specialize (C p).
        revert A B C I. clear. cbn [map In]. tauto. }
    rewrite S. split.
    - intros [t E]. split; [eauto|]. destruct (read_group _ _ _); [|discriminate].
      destruct (read_group _ _ _); [|discriminate]. destruct (read_group _ _ _); [|discriminate]. eauto 6.
    - intros (_ & (b & ->) & (o & ->) & (m & ->)). eexists; reflexivity. }
  assert (E : (exists o, read_if_present d ("vehicle/rear-axle/" ++ "engine/") read_engine = Some o) <->
     (has_element d "vehicle/rear-axle/engine/" = true -> given kart_engine_path)).
  { unfold read_if_present. change ("vehicle/rear-axle/" ++ "engine/") with "vehicle/rear-axle/engine/".
    destruct (has_element d "vehicle/rear-axle/engine/").
    2:{ split; [discriminate|]. intros _. eexists; reflexivity. }
    unfold read_engine. split.
    - intros [o H] _. apply (proj1 (G "vehicle/rear-axle/engine/" names_engine)); [|left; reflexivity].
      destruct (read_group _ _ _); [eauto|discriminate].
    - intros H. destruct (proj2 (G "vehicle/rear-axle/engine/" names_engine)) as [g ->]; [|eexists; reflexivity].
      intros p [<-|[]]. exact (H eq_refl). }
  assert (B : (exists o, read_if_present d ("vehicle/rear-axle/" ++ "brakes/") read_brake = Some o) <->
     (has_element d "vehicle/rear-axle/brakes/" = true -> given kart_brakes_path)).
  { unfold read_if_present. change ("vehicle/rear-axle/" ++ "brakes/") with "vehicle/rear-axle/brakes/".
    destruct (has_element d "vehicle/rear-axle/brakes/").
    2:{ split; [discriminate|]. intros _. eexists; reflexivity. }
    unfold read_brake. split.
    - intros [o H] _. apply (proj1 (G "vehicle/rear-axle/brakes/" names_brake)); [|left; reflexivity].
      destruct (read_group _ _ _); [eauto|discriminate].
    - intros H. destruct (proj2 (G "vehicle/rear-axle/brakes/" names_brake)) as [g ->]; [|eexists; reflexivity].
      intros p [<-|[]]. exact (H eq_refl). }
  assert (V : (exists o, read_vectors vs "vehicle/chassis/" names_kart_chassis = Some o) <->
     (forall p, In p kart_vector_paths -> exists x, assoc vs p = Some x)).
  { rewrite read_vectors_iff. split; intros H.
    - intros p I. change kart_vector_paths with (map (append "vehicle/chassis/") names_kart_chassis) in I.
      apply in_map_iff in I. destruct I as (n & <- & I). exact (H n I).
    - intros n I. apply H. change kart_vector_paths with (map (append "vehicle/chassis/") names_kart_chassis).
      apply in_map, I. }
  assert (R : (forall p, In p kart_required_paths -> given p) <->
     (forall p, In p kart_chassis_paths -> given p) /\
     (forall p, In p (kart_tire_paths "vehicle/front-tire/") -> given p) /\
     (forall p, In p (kart_tire_paths "vehicle/rear-tire/") -> given p) /\
     (forall p, In p (map (append "vehicle/front-axle/") names_kart_front) -> given p) /\
     (forall p, In p (map (append "vehicle/rear-axle/") names_kart_rear) -> given p)).
  { unfold kart_required_paths.
    change kart_axle_paths with (map (append "vehicle/front-axle/") names_kart_front
                                 ++ map (append "vehicle/rear-axle/") names_kart_rear)%list.
    split.
    - intros H. repeat split; intros p I; apply H; rewrite !in_app_iff; tauto.
    - intros (A1 & A2 & A3 & A4 & A5) p I. rewrite !in_app_iff in I.
      destruct I as [I|[I|[I|[I|I]]]]; auto. }
  fold (given kart_engine_path). fold (given kart_brakes_path).
  change (forall p, In p kart_required_paths -> exists x, assoc (xml_values d) p = Some x)
    with (forall p, In p kart_required_paths -> given p).
  rewrite R, <- E, <- B, <- V.
  change kart_chassis_paths with (map (append "vehicle/chassis/") names_chassis_base).
  rewrite <- !G. pose proof (T "vehicle/front-tire/") as TF. pose proof (T "vehicle/rear-tire/") as TR.
  clear T G R E B V. unfold read_kart, read_kart_front, read_kart_rear. cbn [kf_xml kf_vectors].
  destruct (attribute (xml_attributes d) "vehicle/" "type") as [ty|].
  2:{ split; [intros [k K]; discriminate|intros [K _]; discriminate]. }
  destruct (String.eqb ty "kart-6dof") eqn:Ety.
  2:{ split; [intros [k K]; discriminate|]. intros [K _]. injection K as ->. discriminate. }
  apply String.eqb_eq in Ety. subst ty. split.
  - intros [k K].
    destruct (read_kart_tire d "vehicle/front-tire/") as [ft|]; [|discriminate].
    destruct (read_group d "vehicle/front-axle/" names_kart_front) as [fo|]; [|discriminate].
    destruct (read_kart_tire d "vehicle/rear-tire/") as [rt|]; [|discriminate].
    destruct (read_group d "vehicle/rear-axle/" names_kart_rear) as [ro|]; [|discriminate].
    destruct (read_if_present d _ read_engine) as [en|]; [|discriminate].
    destruct (read_if_present d _ read_brake) as [br|]; [|discriminate].
    destruct (read_group d "vehicle/chassis/" names_chassis_base) as [b|]; [|discriminate].
    destruct (read_vectors vs _ _) as [o|]; [|discriminate].
    destruct (proj1 TF (ex_intro _ _ eq_refl)) as [X1 X2]. destruct (proj1 TR (ex_intro _ _ eq_refl)) as [Y1 Y2].
    eauto 20.
  - intros (_ & X1 & Y1 & ([b Eb] & X2 & Y2 & [fo Efo] & [ro Ero]) & [o Eo] & [en Een] & [br Ebr]).
    destruct (proj2 TF (conj X1 X2)) as [ft Eft]. destruct (proj2 TR (conj Y1 Y2)) as [rt Ert].
    rewrite Eft, Efo, Ert, Ero, Een, Ebr, Eb, Eo. eexists; reflexivity.
Qed.

(** The kart holds exactly the numbers and vectors of the file, with no wind, and is ready. *)
Theorem C129_holds_the_file : forall d k, create_kart_from_xml d = Some k ->
  kart_ready k = true /\
  (forall p x, In (p, x) (stored_kart k) <->
     (In p wind_paths /\ x = 0%Q) \/ (In p kart_file_paths /\ assoc (xml_values (kf_xml d)) p = Some x)) /\
  (forall p x, In (p, x) (stored_vectors k) <-> (In p kart_vector_paths /\ assoc (kf_vectors d) p = Some x)).
Proof. intros d k H. destruct (read_kart_spec d k H) as (_ & R & S & V). auto. Qed.

(** *** The engine *)
(** With the power in the file, torque times speed is the throttle times that power (given
    in kW). *)
Theorem C129_engine_power_partial : forall d k power throttle speed, create_kart_from_xml d = Some k ->
  assoc (xml_values (kf_xml d)) kart_engine_path = Some power -> ~ speed == 0 ->
  engine_torque (kx_engine (kt_rear k)) throttle speed * speed == throttle * (1000 * power).
Proof.
  intros d k power throttle speed H P N.
  destruct (read_kart_spec d k H) as ((_ & _ & _ & (_ & _ & R3 & _)) & _ & S & _).
  destruct d as [d vs]. unfold create_kart_from_xml, read_kart, read_kart_rear in H. cbn [kf_xml kf_vectors] in *.
  destruct (attribute _ _ _) as [ty|]; [|discriminate]. destruct (String.eqb ty _); [|discriminate].
  destruct (read_kart_front d _ _) as [f|]; [|discriminate].
  destruct (read_kart_tire d "vehicle/rear-tire/") as [rt|]; [|discriminate].
  destruct (read_group d _ names_kart_rear) as [ro|]; [|discriminate].
  destruct (read_if_present d _ read_engine) as [en|] eqn:Een; [|discriminate].
  destruct (read_if_present d _ read_brake) as [br|]; [|discriminate].
  destruct (read_group d "vehicle/chassis/" names_chassis_base) as [b|]; [|discriminate].
  destruct (read_vectors vs _ _) as [o|]; [|discriminate].
  injection H as <-. cbn [kt_rear kx_engine] in *. unfold read_if_present in Een.
  change ("vehicle/rear-axle/" ++ "engine/") with "vehicle/rear-axle/engine/" in Een.
  rewrite (present_has d "vehicle/rear-axle/engine/" "maximum-power" power) in Een by exact P.
  unfold read_engine in Een. cbn [read_group names_engine] in Een.
  change ("vehicle/rear-axle/engine/" ++ "maximum-power") with kart_engine_path in Een.
  rewrite P in Een. cbn in Een. injection Een as <-. cbn. field. exact N.
Qed.

(** *** set_parameter *)
(** What can be set is the part shared with every chassis, the wind and the tyres. Setting
    changes that number and nothing else; any other path is rejected. *)
Theorem C129_set_exact_partial : forall k p v, obtainable_kart k ->
  (In p kart_settable_paths -> exists k', kart_set k p v = Some k' /\
     stored_kart k' = overwrite p v (stored_kart k) /\ stored_vectors k' = stored_vectors k /\
     kart_ready k' = true) /\
  (~ In p kart_settable_paths -> kart_set k p v = None).
Proof.
  intros k p v O. pose proof (kart_shape_obtainable k O) as S. destruct (kart_set_spec k p v S) as [Y N].
  split; [|exact N]. intros I. exists (upd_kart p v k). split; [exact (Y I)|].
  split; [apply stored_kart_upd; assumption|]. split; [reflexivity|].
  apply kart_ready_upd, kart_ready_obtainable, O.
Qed.

(** *** Declared parameters *)
(** After any calls on a vehicle, every one of its four representations evaluated at [s]
    works with the declared values at [s] and the numbers of the file elsewhere, or throws
    when a declared path cannot be set. *)
Theorem C129_declared_parameters_partial : forall k os c s, obtainable_kart k ->
  In c (kart_run (kart_new k) os) ->
  let ps := add_many [] (declarations os) in
  ((forall q, In q ps -> In (par_path q) kart_settable_paths) ->
     kart_effective c s =
     Some (map (fun e => (fst e, declared_value ps s (fst e) (snd e))) (stored_kart k))) /\
  ((exists q, In q ps /\ ~ In (par_path q) kart_settable_paths) -> kart_effective c s = None).
Proof.
  intros k os c s O Hc ps. pose proof (kart_shape_obtainable k O) as S.
  pose proof (kart_inv_run os k [] _ (kart_inv_new k S)) as I. fold ps in I.
  rewrite (kart_effective_spec _ _ _ _ s I Hc). split.
  - intros H. replace (forallb settable_b ps) with true; [reflexivity|]. symmetry. apply forallb_forall.
    intros q Hq. apply in_b. auto.
  - intros (q & Hq & N). destruct (forallb settable_b ps) eqn:E; [|reflexivity]. exfalso.
    rewrite forallb_forall in E. apply N. apply in_b. exact (E q Hq).
Qed.
(** The vehicle keeps its four representations. *)
Theorem C129_four_representations : forall k os, obtainable_kart k ->
  length (kart_run (kart_new k) os) = 4%nat.
Proof.
  intros k os O. apply (kart_inv_run os k [] _ (kart_inv_new k (kart_shape_obtainable k O))).
Qed.

(** *** Saving *)
Theorem C129_saved_partial : forall k p x, obtainable_kart k ->
  In (p, x) (xml_values (kf_xml (save_kart k))) <->
  (In p kart_file_paths /\ In p kart_settable_paths /\ In (p, x) (stored_kart k)).
Proof.
  intros k p x O. cbn [save_kart kf_xml xml_values]. rewrite (kart_xml_spec _ _ _ (kart_shape_obtainable k O)).
  assert (In p kart_saved_paths <-> In p kart_file_paths /\ In p kart_settable_paths) as M; [|tauto].
  split.
  - intros H. assert (existsb (String.eqb p) kart_file_paths && existsb (String.eqb p) kart_settable_paths = true) as B.
    { assert (forallb (fun p => existsb (String.eqb p) kart_file_paths && existsb (String.eqb p) kart_settable_paths)
        kart_saved_paths = true) as F by (vm_compute; reflexivity). rewrite forallb_forall in F. exact (F p H). }
    apply andb_true_iff in B. rewrite !in_b in B. exact B.
  - intros [A B].
    assert (forallb (fun p => implb (existsb (String.eqb p) kart_settable_paths) (existsb (String.eqb p) kart_saved_paths))
        kart_file_paths = true) as F by (vm_compute; reflexivity). rewrite forallb_forall in F. specialize (F p A).
    apply in_b in B. rewrite B in F. apply in_b. exact F.
Qed.

(** *** What a user would expect and does not get *)
(** A kart in use: the numbers of roberto-lot-kart-2016.xml that matter here, 1 elsewhere. *)
Definition kart0_file (engine : bool) : kart_file :=
  MkKartFile
    (MkXml [("vehicle/", "type", "kart-6dof"); ("vehicle/front-tire/", "type", "only lateral");
            ("vehicle/rear-tire/", "type", "normal")]
       (map (fun p => (p, 1%Q)) kart_required_paths
        ++ if engine then [(kart_engine_path, 6.6%Q); (kart_brakes_path, 200%Q)] else [])%list)
    [("vehicle/chassis/com", (0, 0, -0.25)%Q); ("vehicle/chassis/front_axle", (0.645, 0, 0.111)%Q);
     ("vehicle/chassis/rear_axle", (-0.4, 0, 0.111)%Q)].
Definition kart0 : kart := match create_kart_from_xml (kart0_file true) with Some k => k
                           | None => MkKart [] [] 0 0 (MkKartAxle "" [] None None (empty_tire (fun _ => 0%Q) "") (empty_tire (fun _ => 0%Q) ""))
                                       (MkKartAxle "" [] None None (empty_tire (fun _ => 0%Q) "") (empty_tire (fun _ => 0%Q) "")) end.
Lemma kart0_read : create_kart_from_xml (kart0_file true) = Some kart0.
Proof. vm_compute. reflexivity. Qed.

(** A file without an engine is accepted, the kart is ready, and the throttle itself is the
    torque: at full throttle 1 N.m at any speed. *)
Theorem C129_no_engine_refuted : exists d k, create_kart_from_xml d = Some k /\ kart_ready k = true /\
  assoc (xml_values (kf_xml d)) kart_engine_path = None /\
  assoc (xml_values (kf_xml d)) kart_brakes_path = None /\
  forall throttle speed, engine_torque (kx_engine (kt_rear k)) throttle speed = throttle.
Proof.
  exists (kart0_file false). eexists. split; [vm_compute; reflexivity|].
  split; [vm_compute; reflexivity|]. split; [vm_compute; reflexivity|]. split; [vm_compute; reflexivity|].
  reflexivity.
Qed.

(** Numbers of the file that can be neither set nor declared: every evaluation throws once
    such a path has been declared, although declaring it is accepted. *)
Theorem C129_file_number_not_settable_refuted : forall k p v, obtainable_kart k ->
  In p (kart_axle_paths ++ [kart_engine_path; kart_brakes_path] ++ kart_vector_paths)%list ->
  kart_set k p v = None /\
  forall c s, In c (kart_run (kart_new k) [KDeclare (AddConstant p "x" v)]) ->
    map par_path (kc_params c) = [p] /\ kart_effective c s = None.
Proof.
  intros k p v O I.
  assert (N : ~ In p kart_settable_paths).
  { assert (forallb (fun p => negb (existsb (String.eqb p) kart_settable_paths))
       (kart_axle_paths ++ [kart_engine_path; kart_brakes_path] ++ kart_vector_paths)%list = true) as F by (vm_compute; reflexivity).
    rewrite forallb_forall in F. specialize (F p I). intros K. apply in_b in K. rewrite K in F. discriminate. }
  split; [apply (C129_set_exact_partial k p v O); exact N|].
  intros c s Hc. split.
  - pose proof (kart_inv_run [KDeclare (AddConstant p "x" v)] k [] _ (kart_inv_new k (kart_shape_obtainable k O))) as (_ & _ & _ & J).
    destruct (J c Hc) as (-> & _). reflexivity.
  - apply (C129_declared_parameters_partial k _ c s O Hc). exists (make_constant p "x" v). split; [left; reflexivity|exact N].
Qed.

(** The file saved from a kart is rejected by every attempt to read it back, whatever
    attributes and vectors are added by hand. *)
Theorem C129_saved_not_readable_refuted : forall k attributes vectors, obtainable_kart k ->
  create_kart_from_xml (MkKartFile (MkXml attributes (xml_values (kf_xml (save_kart k)))) vectors) = None.
Proof.
  intros k at_ vs O. destruct (create_kart_from_xml _) as [k'|] eqn:E; [|reflexivity]. exfalso.
  destruct (proj1 (C129_accepted_exactly _) (ex_intro _ _ E)) as (_ & _ & _ & R & _).
  destruct (R "vehicle/front-axle/track") as [x X]; [apply in_b; vm_compute; reflexivity|].
  apply assoc_some_in in X. apply (in_map fst) in X.
  exact (kart_saved_incomplete k (kart_shape_obtainable k O) X).
Qed.

(** *** The hypotheses are met *)
Example C129_case : obtainable_kart kart0 /\
  engine_torque (kx_engine (kt_rear kart0)) 0.5 100 == 33 /\
  (exists k', kart_set kart0 "vehicle/chassis/mass" 250 = Some k' /\
              In ("vehicle/chassis/mass", 250%Q) (stored_kart k')) /\
  kart_set kart0 "vehicle/chassis/com" 250 = None.
Proof.
  split; [eapply kart_from_file; exact kart0_read|]. split; [vm_compute; reflexivity|].
  split; [eexists; split; [vm_compute; reflexivity|vm_compute; left; reflexivity]|vm_compute; reflexivity].
Qed.
Example C129_declared_case :
  let os := [KDeclare (AddVarying "vehicle/rear-tire/lateral/pure/pDy1" ["a"; "b"] [1%Q; 2%Q] [(0%Q, 0%nat); (10%Q, 1%nat)]);
             KEvaluate 1 5; KDeclare (AddConstant "vehicle/chassis/mass" "m" 200)] in
  match kart_run (kart_new kart0) os with
  | c :: _ => exists l, kart_effective c 10 = Some l /\ assoc l "vehicle/chassis/mass" = Some 200%Q
  | [] => False
  end.
Proof. vm_compute. eexists. split; reflexivity. Qed.

Print Assumptions C129_accepted_exactly.
Print Assumptions C129_holds_the_file.
Print Assumptions C129_engine_power_partial.
Print Assumptions C129_set_exact_partial.
Print Assumptions C129_declared_parameters_partial.
Print Assumptions C129_four_representations.
Print Assumptions C129_saved_partial.
Print Assumptions C129_no_engine_refuted.
Print Assumptions C129_file_number_not_settable_refuted.
Print Assumptions C129_saved_not_readable_refuted.
