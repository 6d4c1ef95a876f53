(** Property theorems C19-C22 and C64: position-dependent parameters. *)
From Coq Require Import String QArith Arith List Lia.
From Verif Require Import M_Param S_Param L_Param.
Import ListNotations.
Local Open Scope Q_scope.

(** *** C19 *)
Theorem C19_parameter_between_declared_values : forall path aliases values mesh p s lo hi,
  make_varying path aliases values mesh = Some p ->
  (forall v, In v values -> lo <= v /\ v <= hi) ->
  exists v, par_eval p s = Some v /\ lo <= v /\ v <= hi.
Proof. exact varying_bounded. Qed.

(** *** C20 *)
Theorem C20_linear_between_mesh_points_partial : forall path aliases values mesh p i s0 v0 s1 v1 s,
  make_varying path aliases values mesh = Some p ->
  declared values mesh i s0 v0 -> declared values mesh (S i) s1 v1 -> s0 <= s -> s < s1 ->
  exists v, par_eval p s = Some v /\ on_line s0 v0 s1 v1 s v.
Proof. exact varying_linear. Qed.

Theorem C20_value_at_mesh_points_partial : forall path aliases values mesh p i s0 v0,
  make_varying path aliases values mesh = Some p ->
  declared values mesh i s0 v0 -> S i <> length mesh ->
  exists v, par_eval p s0 = Some v /\ v == v0.
Proof. exact varying_node. Qed.

(** before the first point: the first declared value, whatever that point refers to *)
Theorem C20_before_first_partial : forall path aliases values mesh p s s0 k v,
  make_varying path aliases values mesh = Some p ->
  nth_error mesh 0 = Some (s0, k) -> s < s0 -> nth_error values 0 = Some v ->
  par_eval p s = Some v.
Proof. exact varying_before. Qed.

(** from the last point on: the last declared value, whatever that point refers to *)
Theorem C20_after_last_partial : forall path aliases values mesh p s i s0 k v,
  make_varying path aliases values mesh = Some p ->
  nth_error mesh i = Some (s0, k) -> S i = length mesh -> s0 <= s ->
  nth_error values (length values - 1) = Some v ->
  par_eval p s = Some v.
Proof. exact varying_after. Qed.

Theorem C20_end_value_refuted : exists path aliases values mesh p s0 v0,
  make_varying path aliases values mesh = Some p /\
  declared values mesh (length mesh - 1) s0 v0 /\
  exists v, par_eval p s0 = Some v /\ ~ v == v0.
Proof.
  exists "vehicle/chassis/mass"%string, ["m0"; "m1"]%string, [1; 2], [(0, 0%nat); (100, 1%nat); (200, 0%nat)].
  eexists _, 200, 1. split; [vm_compute; reflexivity|]. split; [exists 0%nat; split; reflexivity|].
  exists 2. split; [vm_compute; reflexivity|]. discriminate.
Qed.

Theorem C20_start_value_refuted : exists path aliases values mesh p s s0 v0,
  make_varying path aliases values mesh = Some p /\
  declared values mesh 0 s0 v0 /\ s < s0 /\
  exists v, par_eval p s = Some v /\ ~ v == v0.
Proof.
  exists "vehicle/chassis/mass"%string, ["m0"; "m1"]%string, [1; 2], [(10, 1%nat); (100, 0%nat)].
  eexists _, 0, 10, 2. split; [vm_compute; reflexivity|]. split; [exists 1%nat; split; reflexivity|].
  split; [reflexivity|]. exists 1. split; [vm_compute; reflexivity|]. discriminate.
Qed.

(** *** C21 *)
Theorem C21_constructor_accepts_well_formed : forall path aliases values mesh,
  (exists p, make_varying path aliases values mesh = Some p) <-> well_formed_mesh aliases values mesh.
Proof. exact constructor_accepts. Qed.

(** *** C22 *)
Theorem C22_set_then_get : forall ps inputs, length inputs = number_of_parameters ps ->
  exists ps', set_all ps inputs = Some ps' /\ get_all ps' = inputs /\ Forall2 same_but_values ps ps'.
Proof. exact set_all_get. Qed.

Theorem C22_get_then_set : forall ps, set_all ps (get_all ps) = Some ps.
Proof. exact get_set_all. Qed.

(** a vector that is too short is read past its end, not rejected *)
Theorem C22_short_vector_refuted : forall ps inputs,
  (length inputs < number_of_parameters ps)%nat -> set_all ps inputs = None.
Proof. exact set_all_short. Qed.

(** a vector that is too long is accepted *)
Theorem C22_long_vector_refuted : forall ps inputs extra, length inputs = number_of_parameters ps ->
  set_all ps (inputs ++ extra) = set_all ps inputs.
Proof. exact set_all_long. Qed.

(** *** C64 *)
Theorem C64_declared_parameters : forall cs, let ps := add_many [] cs in
  NoDup (map par_path ps) /\ length (get_all_aliases ps) = number_of_parameters ps /\
  (forall k a, nth_error (get_all_aliases ps) k = Some a ->
     exists p i, In p ps /\ nth_error (par_aliases p) i = Some a /\
                 nth_error (par_values p) i = nth_error (get_all ps) k) /\
  (forall p s, In p ps -> exists v, par_eval p s = Some v).
Proof. exact added_aligned. Qed.

Theorem C64_duplicate_rejected : forall ps c p, In p ps -> par_path p = call_path c ->
  add_parameter ps (call_path c) (call_make c) = None.
Proof. exact add_duplicate. Qed.

(** *** Cases *)
Definition mesh1 : list (Q * nat) := [(0, 0%nat); (100, 1%nat); (200, 0%nat); (250, 2%nat)].
Definition values1 : list Q := [1; 3; 2].
Definition aliases1 : list string := ["a"; "b"; "c"]%string.

Example C19_case : exists p, make_varying "mass" aliases1 values1 mesh1 = Some p /\
  par_eval p 50 = Some (1 + (50 - 0) / (100 - 0) * (3 - 1)) /\
  (forall v, In v values1 -> 1 <= v /\ v <= 3).
Proof.
  eexists. split; [vm_compute; reflexivity|]. split; [reflexivity|].
  intros v H. simpl in H. intuition subst; discriminate.
Qed.

Example C20_case : declared values1 mesh1 1 100 3 /\ declared values1 mesh1 2 200 1.
Proof. split; [exists 1%nat|exists 0%nat]; split; reflexivity. Qed.

Example C21_case : well_formed_mesh aliases1 values1 mesh1 /\
  ~ well_formed_mesh aliases1 values1 [(0, 0%nat); (0, 1%nat); (5, 2%nat)].
Proof.
  split; [apply (C21_constructor_accepts_well_formed "mass"); eexists; vm_compute; reflexivity|].
  intro H. apply (C21_constructor_accepts_well_formed "mass") in H as [p Hp]. vm_compute in Hp. discriminate.
Qed.

Example C22_case : let ps := add_many [] [AddConstant "cl" "cl" 3; AddVarying "mass" aliases1 values1 mesh1] in
  number_of_parameters ps = 4%nat /\
  option_map get_all (set_all ps [9; 8; 7; 6]) = Some [9; 8; 7; 6].
Proof. vm_compute. auto. Qed.

Example C64_case : let ps := add_many []
    [AddConstant "cl" "cl" 3; AddVarying "mass" aliases1 values1 mesh1; AddConstant "mass" "m" 4] in
  map par_path ps = ["cl"; "mass"]%string /\ get_all_aliases ps = ["cl"; "a"; "b"; "c"]%string.
Proof. vm_compute. auto. Qed.

Print Assumptions C19_parameter_between_declared_values.
Print Assumptions C20_linear_between_mesh_points_partial.
Print Assumptions C20_value_at_mesh_points_partial.
Print Assumptions C20_before_first_partial.
Print Assumptions C20_after_last_partial.
Print Assumptions C20_end_value_refuted.
Print Assumptions C20_start_value_refuted.
Print Assumptions C21_constructor_accepts_well_formed.
Print Assumptions C22_set_then_get.
Print Assumptions C22_get_then_set.
Print Assumptions C22_short_vector_refuted.
Print Assumptions C22_long_vector_refuted.
Print Assumptions C64_declared_parameters.
Print Assumptions C64_duplicate_rejected.
