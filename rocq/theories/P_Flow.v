(** An evaluation depends on its arguments and on the parameters, not on earlier evaluations. *)
From Coq Require Import String Bool List.
From Verif Require Import M_Flow S_Flow.
From Verif Require S_Tree.
Import ListNotations.
Local Open Scope string_scope.
Local Open Scope list_scope.

Lemma name_eqb_spec : forall a b, reflect (a = b) (name_eqb a b).
Proof.
  intros [] []; cbn; try (constructor; congruence);
  match goal with |- reflect _ (String.eqb ?p ?q) => destruct (String.eqb_spec p q) end; constructor; congruence.
Qed.
Lemma name_eqb_refl : forall a, name_eqb a a = true.
Proof. intros a. destruct (name_eqb_spec a a); congruence. Qed.

Definition known (D : list name) (x : name) : bool := existsb (name_eqb x) D.
Lemma known_In : forall D x, known D x = true <-> In x D.
Proof.
  intros D x. unfold known. rewrite existsb_exists. split.
  - intros (y & H & E). destruct (name_eqb_spec x y); congruence.
  - intros H. exists x. split; [exact H|apply name_eqb_refl].
Qed.

(** The names whose values are determined after the statements, given those determined before;
    a statement that reads an undetermined name leaves its target undetermined. *)
Definition remove_name (x : name) (D : list name) : list name := filter (fun y => negb (name_eqb y x)) D.
Definition flow_step (D : list name) (i : statement) : list name :=
  if forallb (known D) (reads i) then (if known D (target i) then D else target i :: D)
  else remove_name (target i) D.
Definition flow (p : program) (D : list name) : list name := fold_left flow_step p D.

Section Soundness.
Context {V : Type} (fn : string -> list V -> V).
Definition agree (D : list name) (s1 s2 : name -> V) : Prop := forall x, In x D -> s1 x = s2 x.
Lemma update_eq : forall (s : name -> V) x v y, update s x v y = if name_eqb y x then v else s y.
Proof. reflexivity. Qed.
Lemma flow_step_agree : forall i D s1 s2, agree D s1 s2 -> agree (flow_step D i) (step fn s1 i) (step fn s2 i).
Proof.
  intros i D s1 s2 A x H. unfold step. rewrite !update_eq.
  unfold flow_step in H. destruct (forallb (known D) (reads i)) eqn:F.
  - assert (E : map s1 (reads i) = map s2 (reads i)).
    { apply map_ext_in. intros y Y. apply A. apply known_In. rewrite forallb_forall in F. auto. }
    rewrite E. destruct (name_eqb_spec x (target i)) as [|N]; [reflexivity|].
    destruct (known D (target i)); [auto|]. destruct H as [H|H]; [congruence|auto].
  - apply filter_In in H. destruct H as [H N]. destruct (name_eqb x (target i)); [discriminate|auto].
Qed.
Lemma flow_agree : forall p D s1 s2, agree D s1 s2 -> agree (flow p D) (run fn p s1) (run fn p s2).
Proof.
  induction p as [|i p IH]; intros D s1 s2 A; cbn; [exact A|].
  apply IH. apply flow_step_agree. exact A.
Qed.
Lemma run_untouched : forall p s x, ~ In x (map target p) -> run fn p s x = s x.
Proof.
  induction p as [|i p IH]; intros s x N; [reflexivity|].
  change (run fn (i :: p) s) with (run fn p (step fn s i)). cbn in N.
  rewrite IH by tauto. unfold step. rewrite update_eq. destruct (name_eqb_spec x (target i)) as [E|_]; [|reflexivity].
  exfalso. apply N. left. congruence.
Qed.
End Soundness.

(** What is known when the body starts: everything prepared, and the arguments. *)
Definition inputs_of (v : vehicle) : list string :=
  ["velocity_x_mps"; "velocity_y_mps"; "yaw_rate_radps"]
  ++ match v with
     | F1 _ => ["front KAPPA_LEFT"; "front KAPPA_RIGHT"; "rear KAPPA_LEFT"; "rear KAPPA_RIGHT";
                "force_z_fl_g"; "force_z_fr_g"; "force_z_rl_g"; "force_z_rr_g"]
     | Kart _ _ _ => ["OMEGA_AXLE"; "Z"; "PHI"; "MU"; "DZDT"; "DPHIDT"; "DMUDT"]
     end.
Definition controls_of (v : vehicle) : list string :=
  match v with F1 _ => ["STEERING"; "throttle"; "brake_bias"; "boost"] | Kart _ _ _ => ["STEERING"; "TORQUE"] end.
Definition known_names (v : vehicle) (r : road) : list name :=
  Time :: map Control (controls_of v) ++ map Input (inputs_of v ++ road_states r)
  ++ map Member (fixed_members v r) ++ map Param (paths v).

Lemma body_determined : forall v r, forallb (known (flow (body v r) (known_names v r))) (results v r) = true.
Proof.
  intros [[]|[] [] []] []; vm_compute; reflexivity.
Qed.
(** The parameters, the schedules, the fixed members and the arguments are not written by the body. *)
Definition not_written (x : name) : bool :=
  match x with Param _ | Schedule _ | Input _ | Control _ | Time => true | _ => false end.
Lemma body_targets : forall v r,
  forallb (fun x => negb (not_written x) && negb (known (map Member (fixed_members v r)) x)) (map target (body v r)) = true.
Proof. intros [[]|[] [] []] []; vm_compute; reflexivity. Qed.
Lemma body_keeps : forall {V} (fn : string -> list V -> V) v r s x,
  not_written x = true \/ In x (map Member (fixed_members v r)) -> run fn (body v r) s x = s x.
Proof.
  intros V fn v r s x H. apply run_untouched. intros T.
  pose proof (body_targets v r) as B. rewrite forallb_forall in B. specialize (B _ T).
  apply andb_true_iff in B. destruct B as [B1 B2]. destruct H as [H|H].
  - rewrite H in B1. discriminate.
  - apply known_In in H. rewrite H in B2. discriminate.
Qed.

Lemma set_declared_targets : forall declared x,
  In x (map target (set_declared declared)) <-> exists p, x = Param p /\ In p declared.
Proof.
  intros declared x. unfold set_declared. rewrite map_map. cbn. rewrite in_map_iff.
  split; intros (p & H); exists p; intuition congruence.
Qed.
Lemma set_declared_value : forall {V} (fn : string -> list V -> V) declared (s : name -> V) p,
  In p declared -> run fn (set_declared declared) s (Param p) = fn "dynamic_model_car.hpp:63" [s (Schedule p); s Time].
Proof.
  intros V fn declared. induction declared as [|q declared IH]; intros s p H; [destruct H|].
  change (run fn (set_declared (q :: declared)) s) with
    (run fn (set_declared declared) (step fn s (Set_ (Param q) "dynamic_model_car.hpp:63" [Schedule q; Time]))).
  destruct (in_dec string_dec p declared) as [I|N].
  - rewrite IH by exact I. unfold step. rewrite !update_eq. reflexivity.
  - rewrite run_untouched.
    2:{ rewrite set_declared_targets. intros (p' & E & I). injection E as ->. contradiction. }
    unfold step. rewrite !update_eq. cbn [target line reads map].
    destruct H as [->|H]; [|contradiction]. rewrite name_eqb_refl. reflexivity.
Qed.
Lemma set_declared_keeps : forall {V} (fn : string -> list V -> V) declared (s : name -> V) x,
  (forall p, x = Param p -> ~ In p declared) -> run fn (set_declared declared) s x = s x.
Proof.
  intros V fn declared s x H. apply run_untouched. rewrite set_declared_targets.
  intros (p & E & I). exact (H p E I).
Qed.

Section Theorems.
Context {V : Type} (fn : string -> list V -> V).
Implicit Types s : name -> V.

Lemma start_agrees : forall v r declared a s1 s2, prepared_alike v r declared s1 s2 ->
  agree (known_names v r) (run fn (set_declared declared) (with_arguments a s1))
                          (run fn (set_declared declared) (with_arguments a s2)).
Proof.
  intros v r declared a s1 s2 (HP & HS & HM) x H. unfold known_names in H.
  rewrite !in_app_iff in H || cbn [In] in H.
  destruct H as [<-|H].
  { rewrite !set_declared_keeps by discriminate. reflexivity. }
  rewrite !in_app_iff in H. destruct H as [H|[H|[H|H]]]; apply in_map_iff in H; destruct H as (p & <- & I).
  - rewrite !set_declared_keeps by discriminate. reflexivity.
  - rewrite !set_declared_keeps by discriminate. reflexivity.
  - rewrite !set_declared_keeps by discriminate. cbn. auto.
  - destruct (in_dec string_dec p declared) as [D|D].
    + rewrite !set_declared_value by exact D. cbn [with_arguments]. rewrite (HS p D). reflexivity.
    + rewrite !set_declared_keeps by (intros q E; injection E as <-; exact D). cbn. auto.
Qed.

(** Cars prepared alike give the same results for the same arguments, whatever was done with
    each of them before. *)
Theorem C122_evaluation_is_a_function_of_its_arguments_and_the_parameters :
  forall v r declared a s1 s2, prepared_alike v r declared s1 s2 ->
  forall x, In x (results v r) -> evaluate fn v r declared a s1 x = evaluate fn v r declared a s2 x.
Proof.
  intros v r declared a s1 s2 H x I. unfold evaluate.
  apply (flow_agree fn (body v r) (known_names v r)); [apply start_agrees; exact H|].
  apply known_In. pose proof (body_determined v r) as B. rewrite forallb_forall in B. auto.
Qed.

(** An evaluation changes nothing of what was prepared, except that the declared parameters take
    the value of their schedule at that point. *)
Theorem C122_evaluation_keeps_what_was_prepared : forall v r declared a s,
  (forall p, ~ In p declared -> evaluate fn v r declared a s (Param p) = s (Param p)) /\
  (forall p, In p declared -> evaluate fn v r declared a s (Param p) = fn "dynamic_model_car.hpp:63" [s (Schedule p); arg_time a]) /\
  (forall p, evaluate fn v r declared a s (Schedule p) = s (Schedule p)) /\
  (forall m, In m (fixed_members v r) -> evaluate fn v r declared a s (Member m) = s (Member m)).
Proof.
  intros v r declared a s. unfold evaluate. repeat split; intros.
  - rewrite body_keeps by (left; reflexivity).
    rewrite set_declared_keeps by (intros q E; injection E as <-; assumption). reflexivity.
  - rewrite body_keeps by (left; reflexivity). rewrite set_declared_value by assumption. reflexivity.
  - rewrite body_keeps by (left; reflexivity). rewrite set_declared_keeps by discriminate. reflexivity.
  - rewrite body_keeps by (right; apply in_map; assumption). rewrite set_declared_keeps by discriminate. reflexivity.
Qed.

Lemma last_set_cons : forall (u : @use V) us p,
  last_set (u :: us) p = match last_set us p with
                         | Some y => Some y
                         | None => match u with SetParameter q x => if String.eqb q p then Some x else None | _ => None end
                         end.
Proof. intros [a|q x] us p; cbn; [destruct (last_set us p)|]; reflexivity. Qed.

Lemma prepared_alike_trans : forall v r declared s1 s2 s3,
  prepared_alike v r declared s1 s2 -> prepared_alike v r declared s2 s3 -> prepared_alike v r declared s1 s3.
Proof.
  intros v r declared s1 s2 s3 (A1 & A2 & A3) (B1 & B2 & B3). repeat split; intros.
  - rewrite A1 by assumption. auto.
  - rewrite A2 by assumption. auto.
  - rewrite A3 by assumption. auto.
Qed.

Lemma use_step_prepared : forall v r declared s (u : @use V) p,
  (forall q, ~ In q declared -> p = Param q ->
     use_step fn v r declared s u p = match u with
                                      | SetParameter q' x => if String.eqb q' q then x else s p
                                      | _ => s p end) /\
  (forall q, In q declared -> p = Schedule q ->
     use_step fn v r declared s u p = match u with
                                      | SetParameter q' x => if String.eqb q' q then fn "dynamic_model_car.hpp:46" [x] else s p
                                      | _ => s p end).
Proof.
  intros v r declared s u p.
  destruct (C122_evaluation_keeps_what_was_prepared v r declared
              (match u with Evaluate a => a | SetParameter _ x => MkArguments (fun _ => x) (fun _ => x) x end) s) as (E1 & _ & E3 & _).
  split; intros q H ->; destruct u as [a|q' x]; cbn [use_step].
  - apply E1; exact H.
  - unfold set_parameter. destruct (existsb (String.eqb q') declared); rewrite !update_eq; cbn [name_eqb];
      rewrite (String.eqb_sym q q'); reflexivity.
  - apply E3.
  - unfold set_parameter. destruct (existsb (String.eqb q') declared) eqn:X; rewrite !update_eq; cbn [name_eqb];
      [rewrite (String.eqb_sym q q'); reflexivity|].
    destruct (String.eqb_spec q' q) as [->|]; [|reflexivity].
    exfalso. assert (existsb (String.eqb q) declared = true) by (apply existsb_exists; exists q; split; [exact H|apply String.eqb_refl]).
    congruence.
Qed.
Lemma use_step_fixed : forall v r declared s (u : @use V) m, In m (fixed_members v r) ->
  use_step fn v r declared s u (Member m) = s (Member m).
Proof.
  intros v r declared s [a|q x] m H; cbn [use_step].
  - apply C122_evaluation_keeps_what_was_prepared. exact H.
  - unfold set_parameter. destruct (existsb _ _); reflexivity.
Qed.

Lemma uses_prepared : forall v r declared us s,
  prepared_alike v r declared (uses fn v r declared us s) (reset_car fn declared (last_set us) s).
Proof.
  intros v r declared us. induction us as [|u us IH]; intros s.
  - repeat split; intros; reflexivity.
  - change (uses fn v r declared (u :: us) s) with (uses fn v r declared us (use_step fn v r declared s u)).
    destruct (IH (use_step fn v r declared s u)) as (I1 & I2 & I3). repeat split.
    + intros p P N. rewrite I1 by assumption. cbn [reset_car]. rewrite last_set_cons.
      destruct (last_set us p); [reflexivity|].
      rewrite (proj1 (use_step_prepared v r declared s u (Param p)) p N eq_refl).
      destruct u as [|q x]; [reflexivity|]. destruct (String.eqb q p); reflexivity.
    + intros p D. rewrite I2 by assumption. cbn [reset_car]. rewrite last_set_cons.
      assert (X : existsb (String.eqb p) declared = true)
        by (apply existsb_exists; exists p; split; [exact D|apply String.eqb_refl]).
      rewrite X.
      destruct (last_set us p); [reflexivity|].
      rewrite (proj2 (use_step_prepared v r declared s u (Schedule p)) p D eq_refl).
      destruct u as [|q x]; [reflexivity|]. destruct (String.eqb q p); reflexivity.
    + intros m M. rewrite I3 by exact M. cbn [reset_car]. apply use_step_fixed. exact M.
Qed.

(** After any history of evaluations and calls of set_parameter, the results of an evaluation are
    those of a car on which each parameter was given its last value and that was never evaluated. *)
Theorem C122_histories_do_not_matter : forall v r declared us a s x, In x (results v r) ->
  evaluate fn v r declared a (uses fn v r declared us s) x
  = evaluate fn v r declared a (reset_car fn declared (last_set us) s) x.
Proof.
  intros. apply C122_evaluation_is_a_function_of_its_arguments_and_the_parameters; [apply uses_prepared|assumption].
Qed.

(** In particular an evaluation can be repeated, with any evaluations in between. *)
Theorem C122_evaluations_can_be_repeated : forall v r declared (as_ : list arguments) a s x, In x (results v r) ->
  evaluate fn v r declared a (uses fn v r declared (map Evaluate as_) s) x = evaluate fn v r declared a s x.
Proof.
  intros v r declared as_ a s x H.
  rewrite C122_histories_do_not_matter by exact H.
  assert (E : forall p, last_set (map Evaluate as_) p = None) by (induction as_ as [|b l IH]; intros p; [reflexivity|exact (IH p)]).
  apply C122_evaluation_is_a_function_of_its_arguments_and_the_parameters; [|exact H].
  repeat split; intros; cbn [reset_car]; rewrite ?E; reflexivity.
Qed.
End Theorems.

(** The paths of the specification are those of the tree of parameters of the f1. *)
Theorem C122_paths_of_the_f1 : forall lateral p, In p (paths (F1 lateral)) <-> In p S_Tree.all_paths.
Proof.
  assert (H : forall l1 l2, forallb (fun p => existsb (String.eqb p) l2) l1 = true -> forall p, In p l1 -> In p l2).
  { intros l1 l2 F p I. rewrite forallb_forall in F. specialize (F p I). apply existsb_exists in F.
    destruct F as (q & Q & E). apply String.eqb_eq in E. congruence. }
  intros lateral p. split; apply H; vm_compute; reflexivity.
Qed.

(** *** A case: marks that follow the data.  A result is marked when something it was computed
    from is marked. *)
Definition mark_fn (_ : string) (l : list bool) : bool := existsb (fun b => b) l.
Definition marked_arguments (c : string) : @arguments bool := MkArguments (fun _ => false) (String.eqb c) false.
Definition old_values (v : vehicle) (r : road) : name -> bool :=
  fun x => match x with
           | State _ | Derivative _ | Output _ => true
           | Member m => negb (existsb (String.eqb m) (fixed_members v r))
           | _ => false
           end.
(** Everything computed by earlier calls is marked: no result is. *)
Example C122_case_old_values_do_not_reach_the_results :
  existsb (fun x => evaluate mark_fn (F1 false) Curvilinear [] (marked_arguments "none") (old_values (F1 false) Curvilinear) x)
    (results (F1 false) Curvilinear) = false
  /\ old_values (F1 false) Curvilinear (Member "rear left F.x") = true.
Proof. vm_compute. split; reflexivity. Qed.
(** Only the throttle is marked: it reaches the accelerations, the torque of the axles and the energy of the
    engine, but not the grip of the tyres. *)
Example C122_case_the_throttle_reaches_the_wheels :
  let s := evaluate mark_fn (F1 false) Curvilinear [] (marked_arguments "throttle") (fun _ => false) in
  s (Derivative "rear angular_momentum_left") = true /\ s (Derivative "front angular_momentum_left") = true
  /\ s (Output "engine-energy") = true /\ s (Output "rear-axle.left-tire.force.x") = false
  /\ s (Output "boost-time") = false.
Proof. vm_compute. repeat split; reflexivity. Qed.
Example C122_case_prepared_alike :
  prepared_alike (F1 false) Curvilinear ["vehicle/chassis/mass"] (fun _ => false) (old_values (F1 false) Curvilinear).
Proof.
  repeat split; intros; try reflexivity. cbn [old_values].
  assert (E : existsb (String.eqb m) (fixed_members (F1 false) Curvilinear) = true)
    by (apply existsb_exists; exists m; split; [assumption|apply String.eqb_refl]).
  rewrite E. reflexivity.
Qed.
(** A declared parameter is given by its schedule: its member is not read, and its schedule reaches the results. *)
Example C122_case_declared :
  evaluate mark_fn (F1 false) Curvilinear ["vehicle/chassis/mass"] (marked_arguments "none")
    (fun x => match x with Schedule _ => true | _ => false end) (Derivative "com_velocity_x_mps") = true
  /\ evaluate mark_fn (F1 false) Curvilinear ["vehicle/chassis/mass"] (marked_arguments "none")
    (fun x => match x with Param "vehicle/chassis/mass" => true | _ => false end) (Derivative "com_velocity_x_mps") = false.
Proof. vm_compute. split; reflexivity. Qed.

Print Assumptions C122_evaluation_is_a_function_of_its_arguments_and_the_parameters.
Print Assumptions C122_evaluation_keeps_what_was_prepared.
Print Assumptions C122_histories_do_not_matter.
Print Assumptions C122_evaluations_can_be_repeated.
Print Assumptions C122_paths_of_the_f1.
