(** Property theorems C23-C25, C65 and C66: the parameter tree of the f1. *)
From Coq Require Import String QArith List.
From Verif Require Import M_Param S_Param M_Tree S_Tree L_Tree L_TreeXml L_TreeCar.
Import ListNotations.
Local Open Scope string_scope.

(** *** C23 *)
Theorem C23_set_parameter_exact : forall c p v, obtainable c ->
  (In p all_paths /\ exists c', chassis_set c p v = Some c' /\ obtainable c' /\
                               stored c' = overwrite p v (stored c)) \/
  (~ In p all_paths /\ chassis_set c p v = None).
Proof. exact set_exact. Qed.

(** nothing else is stored: every stored number has one of the documented paths, and all
    documented paths are stored *)
Theorem C23_stored_paths : forall c, obtainable c ->
  forall p, In p (map fst (stored c)) <-> In p all_paths.
Proof. intros c O. exact (stored_paths_shape c (obtainable_shape c O)). Qed.

(** readiness of a car created empty: exactly when the parameters of [checked_paths] were set;
    the brakes, the engines and the wind are not looked at *)
Theorem C23_ready_partial : forall junk calls,
  chassis_ready (set_all_of (empty_f1 junk) calls) = true <->
  (forall p, In p checked_paths -> In p (map fst calls)).
Proof. exact ready_iff_checked. Qed.

Theorem C23_ready_means_all_set_refuted : forall junk, exists calls,
  chassis_ready (set_all_of (empty_f1 junk) calls) = true /\
  forall p, In p actuator_paths -> ~ In p (map fst calls).
Proof. exact never_set_refuted. Qed.

(** *** C24 *)
Theorem C24_representations_agree : forall ch os w w' s, obtainable ch ->
  let a := f1_run (f1_new ch) os in
  car_params (get_rep a w) = car_params (get_rep a w') /\
  effective (get_rep a w) s = effective (get_rep a w') s.
Proof. exact synchronised. Qed.

(** *** C25 *)
Theorem C25_saved_file_rejected_refuted : forall c, obtainable c -> create_f1_from_xml (save_xml c) = None.
Proof. reflexivity. Qed.

(** with the missing attributes added by hand the file is accepted, the new car is ready and
    holds the same numbers, except for the wind, which is 0 *)
Theorem C25_reload_partial : forall c front rear, obtainable c ->
  exists c', create_f1_from_xml (add_types front rear (save_xml c)) = Some c' /\
    stored c' = overwrite "vehicle/chassis/aerodynamics/wind_velocity/northward" 0
                 (overwrite "vehicle/chassis/aerodynamics/wind_velocity/eastward" 0 (stored c)) /\
    chassis_ready c' = true.
Proof. intros c front rear O. exact (reload c front rear (obtainable_shape c O)). Qed.

Theorem C25_wind_lost_refuted : exists c, obtainable c /\
  In ("vehicle/chassis/aerodynamics/wind_velocity/northward", 5) (stored c) /\
  forall front rear c', create_f1_from_xml (add_types front rear (save_xml c)) = Some c' ->
    ~ In ("vehicle/chassis/aerodynamics/wind_velocity/northward", 5) (stored c').
Proof.
  destruct (set_exact (empty_f1 (fun _ => 0)) "vehicle/chassis/aerodynamics/wind_velocity/northward" 5
              (from_empty _)) as [(H & c & E & O & S)|(H & _)].
  - exists c. split; [exact O|]. split.
    + rewrite S. vm_compute. do 29 right. left. reflexivity.
    + intros front rear c' E' I.
      destruct (reload c front rear (obtainable_shape c O)) as (c'' & E2 & S2 & _).
      rewrite E' in E2. injection E2 as <-. rewrite S2, S in I.
      assert (forallb (fun e => negb (Qeq_bool (snd e) 5))
        (overwrite wind_north_path 0 (overwrite wind_east_path 0
          (overwrite "vehicle/chassis/aerodynamics/wind_velocity/northward" 5
            (stored (empty_f1 (fun _ => 0)))))) = true) as F by (vm_compute; reflexivity).
      rewrite forallb_forall in F. specialize (F _ I). discriminate F.
  - exfalso. apply H. apply in_b. vm_compute. reflexivity.
Qed.

(** *** C65 *)
Theorem C65_set_parameter_wins : forall ch os p v w s, obtainable ch -> In p all_paths ->
  let a := f1_run (f1_new ch) (os ++ [SetParameter p v]) in
  (forall q, In q (car_params (get_rep a w)) -> In (par_path q) all_paths) ->
  exists l, effective (get_rep a w) s = Some l /\ (exists x, In (p, x) l) /\
            forall x, In (p, x) l -> x == v.
Proof. exact set_wins. Qed.

(** *** C66: a declaration with an unknown path is accepted and every later evaluation throws *)
Theorem C66_unknown_path_accepted_refuted : forall ch os d s w, obtainable ch -> ~ In (call_path d) all_paths ->
  let a := f1_run (f1_new ch) os in
  car_add (get_rep a CartesianScalar) d <> None ->
  let b := f1_step a (Declare d) in
  (exists q, In q (car_params (get_rep b w)) /\ par_path q = call_path d) /\
  effective (get_rep b w) s = None.
Proof. exact unknown_declaration. Qed.

(** *** Cases *)
Definition fresh : chassis := empty_f1 (fun _ => 0).
Example C23_case : obtainable fresh /\ In "vehicle/rear-tire/mu-x-max-1" all_paths /\
  ~ In "vehicle/rear-tyre/mu-x-max-1" all_paths /\ length (stored fresh) = 106%nat.
Proof.
  split; [apply from_empty|]. split; [apply in_b; vm_compute; reflexivity|]. split; [|vm_compute; reflexivity].
  intro H. apply in_b in H. vm_compute in H. discriminate.
Qed.
Example C24_case : let a := f1_run (f1_new fresh)
    [Declare (AddVarying "vehicle/chassis/mass" ["m1"; "m2"] [600; 700] [(0, 0%nat); (100, 1%nat)]);
     Evaluate CurvilinearAd 30; SetParameter "vehicle/chassis/aerodynamics/cd" (3#2);
     SetParameter "vehicle/nonsense" 1] in
  stored (car_chassis (curvilinear_ad a)) <> stored (car_chassis (cartesian_scalar a)) /\
  exists l, effective (curvilinear_ad a) 50 = Some l /\
    existsb (fun e => String.eqb (fst e) "vehicle/chassis/mass" && Qeq_bool (snd e) 650) l = true.
Proof.
  split; [vm_compute; discriminate|]. eexists. split; [vm_compute; reflexivity|]. vm_compute. reflexivity.
Qed.
Example C25_case : obtainable fresh. Proof. apply from_empty. Qed.
Example C65_case : let a := f1_run (f1_new fresh)
    ([Declare (AddVarying "vehicle/chassis/mass" ["m1"; "m2"] [600; 700] [(0, 0%nat); (100, 1%nat)])]
     ++ [SetParameter "vehicle/chassis/mass" 650]) in
  forall q, In q (car_params (get_rep a CurvilinearAd)) -> In (par_path q) all_paths.
Proof.
  intros a q Hq. vm_compute in Hq. destruct Hq as [<-|[]]. apply in_b. vm_compute. reflexivity.
Qed.
Example C66_case : ~ In (call_path (AddConstant "vehicle/chasis/mass" "m" 600)) all_paths /\
  car_add (MkCar fresh []) (AddConstant "vehicle/chasis/mass" "m" 600) <> None.
Proof.
  split; [|vm_compute; discriminate]. intro H. apply in_b in H. vm_compute in H. discriminate.
Qed.

Print Assumptions C23_set_parameter_exact.
Print Assumptions C23_stored_paths.
Print Assumptions C23_ready_partial.
Print Assumptions C23_ready_means_all_set_refuted.
Print Assumptions C24_representations_agree.
Print Assumptions C25_saved_file_rejected_refuted.
Print Assumptions C25_reload_partial.
Print Assumptions C25_wind_lost_refuted.
Print Assumptions C65_set_parameter_wins.
Print Assumptions C66_unknown_path_accepted_refuted.
