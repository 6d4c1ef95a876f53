(** Property theorems C01-C10 and C15-C18: the variable store of the C API.
    [K F T N] are the types of karts, f1 cars, tracks and numbers. *)
From stdpp Require Import base strings gmap list.
From Coq Require Import ZArith Ascii.
From Verif Require Import M_Regex S_Regex M_Store S_Store L_Store L_StoreOut L_StoreThm.

(** ** Concrete objects used by the examples and refutations.
    Cars, karts, tracks and numbers are [nat]; a set_parameter with value 0 fails. *)
Definition env0 : env nat nat nat nat :=
  Env 7 (fun c p x => (c + x, negb (Nat.eqb x 0))) (fun c p a x => (c + x, true))
      (fun k p a x => (k + x, true)) (fun c p a x g => (c + length x, true))
      (fun k p a x g => (k + length x, true)) (fun c t => (c + t, true)) (fun k t => (k + t, true))
      (fun t b sd wd => (t + length sd, true)) (fun t => t) (fun t => t)
      (fun t v => if String.eqb v "heading-angle" then Some (repeat 1 t) else None).
Definition empty0 : store nat nat nat nat := empty_store.
Definition track0 : option (track_file nat) := Some (TrackFile "discrete" (Some 3)).
Definition run0 (vars : list string) : laptime_run nat :=
  LaptimeRun true true "run/" vars true ["mass"] 80 (fun i => i)
    (fun q => if String.eqb q "energy" then Some 5 else None)
    (fun v => if String.eqb v "u" then Some [1;2;3] else None) (fun v i => [i;i;i]).
Definition prep0 (table : option string) (prefix : option string) : prep_run nat nat :=
  PrepRun true 9 table None prefix (fun v => [String.length v]).
Definition prelude0 : list (call nat nat nat nat) :=
  [CreateVehicleEmpty "car" "f1-3dof"; CreateTrackFromXml "catalunya" track0;
   CreateScalar "x" 1; CreateVector "v" 2 [4;5;6]].
Definition store0 : store nat nat nat nat := (run env0 empty0 prelude0).1.

Section Theorems.
Context {K F T N : Type}.
Implicit Types (e : env K F T N) (s : store K F T N).

(** *** C01 *)
Theorem C01_names_unique : forall e cs s s' rs,
  Forall plain_outputs cs -> Forall not_preprocessor cs ->
  one_kind s -> run e s cs = (s', rs) -> one_kind s'.
Proof. exact run_one_kind. Qed.

Theorem C01_names_unique_initially : one_kind (@empty_store K F T N).
Proof. exact empty_one_kind. Qed.

(** *** C02: true when the names it uses are not names of another kind *)
Theorem C02_preprocessor_unique_partial : forall s (r : prep_run T N) s' res,
  one_kind s ->
  (forall n v, pr_table r = Some n -> holds s n v -> exists t, v = VarTrack t) ->
  (forall p x v, pr_prefix r = Some p -> x ∈ prep_vector_names -> holds s (p +:+ x) v ->
     exists l, v = VarVector l) ->
  (forall p x, pr_prefix r = Some p -> x ∈ prep_vector_names -> pr_table r <> Some (p +:+ x)) ->
  circuit_preprocessor s r = (s', res) -> one_kind s'.
Proof. exact prep_one_kind. Qed.

(** *** C03 *)
Theorem C03_store_is_one_map : forall e cs s m s' rs,
  represents s m -> Forall supported cs -> run e s cs = (s', rs) ->
  exists m', spec_run e m cs m' rs /\ represents s' m'.
Proof. exact run_refines. Qed.

Theorem C03_initially_empty : represents (@empty_store K F T N) ∅.
Proof. exact represents_empty. Qed.

(** *** C04 *)
Theorem C04_failure_changes_nothing : forall e s c s' res,
  creates_variable c -> step e s c = (s', res) -> res = Exc -> s' = s.
Proof. exact creation_failure. Qed.

Theorem C04_create_scalar_fails_iff : forall e s n x s' res,
  step e s (CreateScalar n x) = (s', res) -> (res = Exc <-> taken s n).
Proof. exact create_scalar_fails. Qed.

Theorem C04_create_vector_fails_iff : forall e s n len data s' res,
  (0 <= len <= Z.of_nat (length data))%Z ->
  step e s (CreateVector n len data) = (s', res) -> (res = Exc <-> taken s n).
Proof. exact create_vector_fails. Qed.

Theorem C04_create_vehicle_fails_iff : forall e s n file s' res,
  step e s (CreateVehicleFromXml n file) = (s', res) ->
  (res = Exc <-> taken s n \/ @loaded_vehicle K F T N file = None).
Proof. exact create_vehicle_fails. Qed.

Theorem C04_create_vehicle_empty_fails_iff : forall e s n ty s' res,
  step e s (CreateVehicleEmpty n ty) = (s', res) ->
  (res = Exc <-> taken s n \/ ty <> "f1-3dof").
Proof. exact create_empty_fails. Qed.

Theorem C04_create_track_fails_iff : forall e s n file s' res,
  step e s (CreateTrackFromXml n file) = (s', res) ->
  (res = Exc <-> taken s n \/ @loaded_track K F T N file = None).
Proof. exact create_track_fails. Qed.

Theorem C04_copy_fails_iff : forall e s a b s' res,
  step e s (CopyVariable a b) = (s', res) -> (res = Exc <-> taken s b \/ ~ taken s a).
Proof. exact copy_fails. Qed.

Theorem C04_move_fails_iff : forall e s a b s' res,
  step e s (MoveVariable a b) = (s', res) -> (res = Exc <-> taken s b \/ ~ taken s a).
Proof. exact move_fails. Qed.

(** *** C05 *)
Theorem C05_copy_equal : forall e s a b s',
  one_kind s -> step e s (CopyVariable a b) = (s', Ret VUnit) ->
  free s b /\ taken s a /\ (forall v, holds s' b v <-> holds s a v) /\
  (forall n v, n <> b -> (holds s' n v <-> holds s n v)).
Proof. exact copy_success. Qed.

Theorem C05_copy_independent : forall e s a b s' cs s'' rs,
  one_kind s -> step e s (CopyVariable a b) = (s', Ret VUnit) -> run e s' cs = (s'', rs) ->
  (Forall (fun c => unrelated c b) cs -> forall v, holds s'' b v <-> holds s a v) /\
  (Forall (fun c => unrelated c a) cs -> forall v, holds s'' a v <-> holds s a v).
Proof. exact copy_independent. Qed.

(** *** C06 *)
Theorem C06_move_renames : forall e s a b s',
  one_kind s -> step e s (MoveVariable a b) = (s', Ret VUnit) ->
  (forall v, holds s' b v <-> holds s a v) /\ free s' a /\
  (forall n v, n <> a -> n <> b -> (holds s' n v <-> holds s n v)).
Proof. exact move_success. Qed.

Theorem C06_move_onto_taken : forall e s a b s' res,
  taken s b -> step e s (MoveVariable a b) = (s', res) -> res = Exc /\ s' = s.
Proof. exact move_taken. Qed.

Theorem C06_move_onto_itself : forall e s a s' res,
  step e s (MoveVariable a a) = (s', res) -> res = Exc /\ s' = s.
Proof. exact move_self. Qed.

(** *** C07 *)
Theorem C07_delete_plain_name : forall e s p,
  all_chars plain p ->
  exists s', step e s (DeleteVariable p) = (s', Ret VUnit) /\
    forall n v, holds s' n v <-> holds s n v /\ n <> p.
Proof. exact delete_plain. Qed.

(** *** C08 *)
Theorem C08_delete_wildcard : forall e s p,
  all_chars plain_or_star p ->
  exists s', step e s (DeleteVariable p) = (s', Ret VUnit) /\
    forall n v, holds s' n v <-> holds s n v /\ ~ glob_name p n.
Proof. exact delete_glob. Qed.

(** *** C09: what is removed is every name equal to the pattern up to the
    characters at the positions of the dots *)
Theorem C09_delete_dotted_partial : forall e s p,
  all_chars plain_or_dot p ->
  exists s', step e s (DeleteVariable p) = (s', Ret VUnit) /\
    forall n v, holds s' n v <-> holds s n v /\ ~ dotted_name p n.
Proof. exact delete_dotted. Qed.

(** *** C10 *)
Theorem C10_variable_type_agrees : forall e s n, one_kind s ->
  (variable_type s n = Ret (VStr "scalar") <-> exists x, download_scalar s n = Ret (VNum x)) /\
  (variable_type s n = Ret (VStr "vector") <-> exists l, download_vector_size s n = Ret (VNat l)) /\
  (variable_type s n = Ret (VStr "track") <-> exists x, track_download_length e s n = Ret (VNum x)) /\
  (variable_type s n = Ret (VStr "f1-3dof") <-> exists c, holds s n (VarF1 c)) /\
  (variable_type s n = Ret (VStr "kart-6dof") <-> exists k, holds s n (VarKart k)) /\
  (variable_type s n = Exc <-> free s n) /\
  (variable_type s n = Exc \/ exists t, variable_type s n = Ret (VStr t)).
Proof. exact variable_type_agrees. Qed.

(** *** C15 *)
Theorem C15_laptime_frame : forall e s n tr r s' res,
  step e s (OptimalLaptime n tr r) = (s', res) ->
  (forall n' v, n' <> n -> holds s n' v -> holds s' n' v) /\
  ((exists o, laptime_writes r o /\ taken s o) ->
   ((exists k, holds s n (VarKart k)) \/ exists c, holds s n (VarF1 c)) ->
   res = Exc /\ forall n' v, n' <> n -> (holds s' n' v <-> holds s n' v)).
Proof. exact laptime_outputs. Qed.

Theorem C15_laptime_stores_outputs : forall e s n tr r s',
  (forall v l, lr_vector r v = Some l -> no_slash v) ->
  (exists k, holds s n (VarKart k)) \/ (exists c, holds s n (VarF1 c)) ->
  step e s (OptimalLaptime n tr r) = (s', Ret VUnit) ->
  (forall v, v ∈ lr_variables r -> stored_output r s' v) /\
  (lr_sensitivity r = true -> NoDup (lr_aliases r) ->
   forall v, v ∈ lr_variables r -> stored_sensitivity r s' v).
Proof. exact laptime_success. Qed.

(** *** C16: true when every requested name is one the run can produce *)
Theorem C16_laptime_atomic_partial : forall e s n tr r s',
  (forall v, v ∈ lr_variables r -> known_name r v) ->
  step e s (OptimalLaptime n tr r) = (s', Exc) ->
  forall n' v, n' <> n -> (holds s' n' v <-> holds s n' v).
Proof. exact laptime_atomic. Qed.

(** *** C17: with fresh output names everything is stored *)
Theorem C17_preprocessor_fresh_partial : forall s (r : prep_run T N) s' res,
  pr_computed r = true -> pr_xml r <> Some false ->
  (forall n, prep_writes r n -> free s n) ->
  circuit_preprocessor s r = (s', res) ->
  res = Ret VUnit /\
  (forall n, pr_table r = Some n -> holds s' n (VarTrack (pr_track r))) /\
  (forall p x, pr_prefix r = Some p -> x ∈ prep_vector_names ->
     holds s' (p +:+ x) (VarVector (pr_output r x))).
Proof. exact prep_success_cond. Qed.

(** *** C18: the half of the claim that holds *)
Theorem C18_declare_reported_partial : forall e s n p a x,
  (forall k, ~ holds s n (VarKart k)) -> (forall c, ~ holds s n (VarF1 c)) ->
  step e s (VehicleDeclareConstant n p a x) = (s, Exc).
Proof. exact declare_unknown. Qed.

Theorem C18_declare_variable_reported_partial : forall e s n p aliases values mesh,
  (forall k, ~ holds s n (VarKart k)) -> (forall c, ~ holds s n (VarF1 c)) ->
  step e s (VehicleDeclareVariable n p aliases values mesh) = (s, Exc).
Proof. exact declare_variable_unknown. Qed.

(** everything else returns normally without doing anything *)
Theorem C18_vehicle_calls_silent : forall e s n,
  (forall k, ~ holds s n (VarKart k)) -> (forall c, ~ holds s n (VarF1 c)) ->
  (forall tr, step e s (VehicleChangeTrack n tr) = (s, Ret VUnit)) /\
  (forall tr uc ok, step e s (PropagateVehicle n tr uc ok) = (s, Ret VUnit)) /\
  (forall ok, step e s (SteadyState n ok) = (s, Ret VUnit)) /\
  (forall ok, step e s (GgDiagram n ok) = (s, Ret VUnit)) /\
  (forall tr r, step e s (OptimalLaptime n tr r) = (s, Ret VUnit)).
Proof. exact vehicle_calls_unknown. Qed.

Theorem C18_set_parameter_silent : forall e s n p x,
  (forall c, ~ holds s n (VarF1 c)) ->
  step e s (VehicleSetParameter n p x) = (s, Ret VUnit).
Proof. exact set_parameter_unknown. Qed.

End Theorems.

(** ** Refutations on reachable stores *)
Theorem C02_preprocessor_unique_refuted :
  exists cs n v w, let s := (run env0 empty0 cs).1 in
  holds s n v /\ holds s n w /\ v <> w.
Proof.
  exists [CreateScalar "a" 1; CircuitPreprocessor (prep0 (Some "a") None)], "a", (VarScalar 1), (VarTrack 9).
  repeat split; vm_compute; congruence.
Qed.

Theorem C09_delete_dotted_refuted :
  exists s p n v, all_chars plain_or_dot p /\ n <> p /\ holds s n v /\
    free (step env0 s (DeleteVariable p)).1 n.
Proof.
  exists (run env0 empty0 [CreateScalar "run.x" 1; CreateScalar "run_x" 2]).1, "run.x", "run_x", (VarScalar 2).
  split; [solve_chars|]. split; [discriminate|]. split; [vm_compute; reflexivity|].
  intros [] H; vm_compute in H; discriminate.
Qed.

Theorem C16_laptime_atomic_refuted :
  exists cs n tr r o v, let s := (run env0 empty0 cs).1 in
  let '(s', res) := step env0 s (OptimalLaptime n tr r) in
  res = Exc /\ free s o /\ holds s' o v.
Proof.
  exists prelude0, "car", "catalunya", (run0 ["laptime"; "unknown"]), "run/laptime", (VarScalar 80).
  vm_compute. repeat split. intros [] H; discriminate.
Qed.

Theorem C17_preprocessor_atomic_refuted :
  exists cs r o v, let s := (run env0 empty0 cs).1 in
  let '(s', res) := step env0 s (CircuitPreprocessor r) in
  res = Exc /\ free s o /\ holds s' o v.
Proof.
  exists [CreateVector "p/nl" 1 [1]], (prep0 (Some "track") (Some "p/")), "track", (VarTrack 9).
  vm_compute. repeat split. intros [] H; discriminate.
Qed.

Theorem C18_unknown_vehicle_refuted :
  exists cs n p x, let s := (run env0 empty0 cs).1 in
  (forall v, ~ holds s n v) /\ step env0 s (VehicleSetParameter n p x) = (s, Ret VUnit).
Proof.
  exists prelude0, "no_such_car", "vehicle/chassis/mass", 800.
  split; [|vm_compute; reflexivity]. intros [] H; vm_compute in H; discriminate.
Qed.

(** ** Hypotheses are met by concrete non-trivial cases *)
Example store0_contents :
  holds store0 "car" (VarF1 7) /\ holds store0 "catalunya" (VarTrack 3) /\
  holds store0 "x" (VarScalar 1) /\ holds store0 "v" (VarVector [4;5]).
Proof. vm_compute. auto. Qed.

Example C01_case : Forall not_preprocessor prelude0 /\ Forall plain_outputs prelude0 /\ one_kind store0.
Proof.
  assert (A : Forall not_preprocessor prelude0) by (repeat constructor).
  assert (B : Forall plain_outputs prelude0) by (repeat constructor).
  repeat split; auto. unfold store0.
  destruct (run env0 empty0 prelude0) as [s' rs] eqn:E.
  exact (C01_names_unique env0 prelude0 empty0 s' rs B A C01_names_unique_initially E).
Qed.

Example C01_laptime_case : plain_outputs (K:=nat) (F:=nat) (T:=nat)
    (OptimalLaptime "car" "catalunya" (run0 ["laptime"; "u"; "integral_quantities.energy"])).
Proof.
  intros v l H. simpl in H. destruct (String.eqb_spec v "u") as [->|]; [|discriminate].
  intro Hin. simpl in Hin. intuition discriminate.
Qed.

Example C02_case : forall n v, pr_table (prep0 (Some "t2") (Some "p/")) = Some n -> ~ holds store0 n v.
Proof. intros n [] [= <-] H; vm_compute in H; discriminate. Qed.

Example C03_case : Forall supported (prelude0 ++ [CopyVariable "x" "y"; DeleteVariable "x*";
    DownloadScalar "y"; DownloadVector "v" 2; VariableType "car"]) /\
  (run env0 empty0 (prelude0 ++ [CopyVariable "x" "y"; DeleteVariable "x*";
    DownloadScalar "y"; DownloadVector "v" 2; VariableType "car"])).2 =
  [Ret VUnit; Ret VUnit; Ret VUnit; Ret VUnit; Ret VUnit; Ret VUnit; Ret (VNum 1);
   Ret (VVec [4;5]); Ret (VStr "f1-3dof")].
Proof.
  split; [|vm_compute; reflexivity].
  unfold prelude0. simpl app.
  repeat match goal with |- Forall _ (_ :: _) => apply Forall_cons; split end; simpl; try exact I; try lia.
  - solve_chars.
  - apply Forall_nil. exact I.
Qed.

Example C04_case : taken store0 "x" /\ ~ taken store0 "y" /\
  step env0 store0 (CopyVariable "x" "car") = (store0, Exc).
Proof.
  split; [exists (VarScalar 1); vm_compute; reflexivity|].
  split; [intros [[] H]; vm_compute in H; discriminate|vm_compute; reflexivity].
Qed.

Example C05_case : let '(s', res) := step env0 store0 (CopyVariable "car" "car2") in
  res = Ret VUnit /\
  Forall (fun c => unrelated (K:=nat) (F:=nat) (T:=nat) c "car2")
    [VehicleSetParameter "car" "m" 3; DeleteVariable "x*"; MoveVariable "car" "car3"].
Proof.
  vm_compute step. split; [reflexivity|].
  repeat match goal with |- Forall _ (_ :: _) => apply Forall_cons; split end.
  - simpl. discriminate.
  - split; [solve_chars|]. unfold glob_name. simpl. intro H. inversion H.
  - split; discriminate.
  - apply Forall_nil. exact I.
Qed.

Example C06_case : (step env0 store0 (MoveVariable "car" "car2")).2 = Ret VUnit.
Proof. vm_compute. reflexivity. Qed.

Example C07_case : all_chars plain "run/chassis" /\ all_chars plain_or_star "run/*" /\
  all_chars plain_or_dot "run.x" /\ glob_name "run/*" "run/chassis" /\ ~ glob_name "run/*" "ran/chassis".
Proof.
  split; [solve_chars|]. split; [solve_chars|]. split; [solve_chars|].
  split; [apply glob_case_yes|apply glob_case_no].
Qed.

Example C10_case : one_kind store0 /\ variable_type store0 "catalunya" = Ret (VStr "track").
Proof. split; [apply C01_case|vm_compute; reflexivity]. Qed.

Example C15_case :
  let '(s', res) := step env0 store0 (OptimalLaptime "car" "catalunya"
      (run0 ["laptime"; "u"; "integral_quantities.energy"])) in
  res = Ret VUnit /\ holds s' "run/u" (VarVector [1;2;3]) /\
  holds s' "run/integral_quantities.energy" (VarScalar 5) /\
  holds s' "run/derivatives/laptime/mass" (VarScalar 0).
Proof. vm_compute. auto. Qed.

Example C16_case : forall v, v ∈ lr_variables (run0 ["laptime"; "u"; "integral_quantities.energy"]) ->
  known_name (run0 ["laptime"; "u"; "integral_quantities.energy"]) v.
Proof.
  intros v Hv. simpl in Hv. rewrite !elem_of_cons, elem_of_nil in Hv.
  destruct Hv as [->|[->|[->|[]]]].
  - now left.
  - right. right. split; [discriminate|vm_compute; discriminate].
  - right. left. exists "energy". split; [reflexivity|vm_compute; discriminate].
Qed.

Example C17_case : let '(s', res) := step env0 store0 (CircuitPreprocessor (prep0 (Some "t2") (Some "p/"))) in
  res = Ret VUnit /\ holds s' "p/nl" (VarVector [2]).
Proof. vm_compute. auto. Qed.

Print Assumptions C01_names_unique.
Print Assumptions C01_names_unique_initially.
Print Assumptions C02_preprocessor_unique_partial.
Print Assumptions C02_preprocessor_unique_refuted.
Print Assumptions C03_store_is_one_map.
Print Assumptions C03_initially_empty.
Print Assumptions C04_failure_changes_nothing.
Print Assumptions C04_create_scalar_fails_iff.
Print Assumptions C04_create_vector_fails_iff.
Print Assumptions C04_create_vehicle_fails_iff.
Print Assumptions C04_create_vehicle_empty_fails_iff.
Print Assumptions C04_create_track_fails_iff.
Print Assumptions C04_copy_fails_iff.
Print Assumptions C04_move_fails_iff.
Print Assumptions C05_copy_equal.
Print Assumptions C05_copy_independent.
Print Assumptions C06_move_renames.
Print Assumptions C06_move_onto_taken.
Print Assumptions C06_move_onto_itself.
Print Assumptions C07_delete_plain_name.
Print Assumptions C08_delete_wildcard.
Print Assumptions C09_delete_dotted_partial.
Print Assumptions C09_delete_dotted_refuted.
Print Assumptions C10_variable_type_agrees.
Print Assumptions C15_laptime_frame.
Print Assumptions C15_laptime_stores_outputs.
Print Assumptions C16_laptime_atomic_partial.
Print Assumptions C16_laptime_atomic_refuted.
Print Assumptions C17_preprocessor_fresh_partial.
Print Assumptions C17_preprocessor_atomic_refuted.
Print Assumptions C18_declare_reported_partial.
Print Assumptions C18_declare_variable_reported_partial.
Print Assumptions C18_vehicle_calls_silent.
Print Assumptions C18_set_parameter_silent.
Print Assumptions C18_unknown_vehicle_refuted.
