(** Concrete cases that meet the hypotheses of theorems of P_Store (C08, C09, C18), P_Tire
    (C76), P_Car (C80) and P_Vehicle (C86). *)
From stdpp Require Import base strings gmap list.
From Coq Require Import ZArith Ascii.
From Verif Require Import M_Regex S_Regex M_Store S_Store L_Store P_Store.

(** ** The store: a table of two runs, the pattern of one of them *)
Definition runs0 := (run env0 empty0 [CreateScalar "run/x" 1; CreateScalar "run/y" 2; CreateScalar "ran/x" 3; CreateVector "run/v" 2 [4;5]]).1.

Example C08_case : all_chars plain_or_star "run/*" /\ holds runs0 "run/x" (VarScalar 1) /\ holds runs0 "run/v" (VarVector [4;5]) /\
  holds runs0 "ran/x" (VarScalar 3) /\
  (forall v, ~ holds (step env0 runs0 (DeleteVariable "run/*")).1 "run/x" v) /\
  holds (step env0 runs0 (DeleteVariable "run/*")).1 "ran/x" (VarScalar 3).
Proof.
  split; [apply C07_case|]. do 3 (split; [vm_compute; reflexivity|]).
  split; [intros [] H; vm_compute in H; discriminate | vm_compute; reflexivity].
Qed.

Example C09_case : all_chars plain_or_dot "run.x" /\ dotted_name "run.x" "run/x" /\ ~ dotted_name "run.x" "ran/x" /\
  (forall v, ~ holds (step env0 runs0 (DeleteVariable "run.x")).1 "run/x" v) /\
  holds (step env0 runs0 (DeleteVariable "run.x")).1 "ran/x" (VarScalar 3).
Proof.
  split; [apply C07_case|].
  assert (A : forall v, ~ holds (step env0 runs0 (DeleteVariable "run.x")).1 "run/x" v) by (intros [] H; vm_compute in H; discriminate).
  assert (B : holds (step env0 runs0 (DeleteVariable "run.x")).1 "ran/x" (VarScalar 3)) by (vm_compute; reflexivity).
  split; [|split; [|split; assumption]].
  - unfold dotted_name; cbn.
    repeat match goal with |- dotted (?a :: _) (?b :: _) => first [apply dotted_chr; [discriminate|] | apply dotted_dot; [split; intros [H|[]]; discriminate|]] end. apply dotted_nil.
  - unfold dotted_name; cbn. intro H. inversion H; subst. match goal with K : dotted (_ :: _) (_ :: _) |- _ => inversion K end.
Qed.

(** A name that is no vehicle: a track of the store. *)
Example C18_case : holds store0 "catalunya" (VarTrack 3) /\
  (forall k, ~ holds store0 "catalunya" (VarKart k)) /\ (forall c, ~ holds store0 "catalunya" (VarF1 c)).
Proof. split; [vm_compute; reflexivity|]. split; intros x H; vm_compute in H; discriminate. Qed.

From Coq Require Import Reals Lra.
From Coquelicot Require Import Coquelicot.
From Verif Require Import M_Vec M_Tire M_Car M_Vehicle S_Vehicle P_Tire P_Car P_Vehicle.
Local Open Scope R_scope.

(** ** The slip of the largest force *)
Example C76_case : exists kappa, 1 < q_Qx limebeer_tire /\ 0 < kappa /\
  combined_slip limebeer_tire kappa 0 3000 = tan (PI / (2 * q_Qx limebeer_tire)) / q_Sx limebeer_tire.
Proof.
  pose proof PI_RGT_0 as P0. pose proof PI_4 as P4.
  set (r := tan (PI / (2 * q_Qx limebeer_tire)) / q_Sx limebeer_tire).
  assert (T : 1 < tan (PI / (2 * q_Qx limebeer_tire))).
  { rewrite <- tan_PI4. apply tan_increasing; cbn [q_Qx limebeer_tire]; lra. }
  assert (A : PI / 4 < atan (19 / 10)) by (rewrite <- atan_1; apply atan_increasing; lra).
  assert (S : 0 < q_Sx limebeer_tire < 2).
  { unfold q_Sx; cbn [q_Qx limebeer_tire]. split.
    - apply Rdiv_lt_0_compat; lra.
    - apply (Rmult_lt_reg_r (2 * atan (19 / 10))); [lra|]. field_simplify; lra. }
  assert (Hr : 1 / 2 < r).
  { unfold r. apply (Rmult_lt_reg_r (q_Sx limebeer_tire)); [lra|].
    replace (tan (PI / (2 * q_Qx limebeer_tire)) / q_Sx limebeer_tire * q_Sx limebeer_tire) with (tan (PI / (2 * q_Qx limebeer_tire))) by (field; lra). lra. }
  destruct (C48_limebeer 3000 ltac:(lra)) as (Hk & Hl & _).
  assert (E : 0 < 1 / 10 ^ 12 < 1 / 100) by (simpl; lra).
  exists (maximum_kappa limebeer_tire 3000 * sqrt (r * r - 1 / 10 ^ 12)).
  split; [cbn; lra|]. split; [apply Rmult_lt_0_compat; [exact Hk | apply sqrt_lt_R0; nra]|].
  unfold combined_slip. cbv zeta.
  replace (maximum_kappa limebeer_tire 3000 * sqrt (r * r - 1 / 10 ^ 12) / maximum_kappa limebeer_tire 3000) with (sqrt (r * r - 1 / 10 ^ 12)) by (field; lra).
  rewrite sqrt_sqrt by nra.
  replace (r * r - 1 / 10 ^ 12 + 0 / maximum_lambda limebeer_tire 3000 * (0 / maximum_lambda limebeer_tire 3000) + 1 / 10 ^ 12) with (r * r) by (field; lra).
  apply sqrt_square. lra.
Qed.

(** ** An engine given by its maximum power, wheels that speed up *)
Example C80_case : let e := a_engine f1_rear_axle in e_direct e = false /\ e_only_max e = true /\
  100 + 2 * 3 <> 0 /\ is_derive (fun s => s / 10) 3 (1 / 10) /\ is_derive (fun s => 100 + 2 * s) 3 2.
Proof.
  cbn. split; [reflexivity|]. split; [reflexivity|]. split; [lra|].
  split; auto_derive; try exact I; field.
Qed.

(** ** Accelerations of 2 and 3 m/s2 at 50 m/s: the forces are those times the mass *)
Example C86_case : let F := V (660 * 2) (660 * 3) 0 in
  let mo := equations3 f1_chassis F vzero (50 * cos 0) (- (50) * sin 0) 0 (V 0 0 (passed AUTODIFF (981 / 100) 3 * (981 / 100) / 50)) in
  c_mass f1_chassis <> 0 /\ f1_constraint_4 (981 / 100) 0 (mo_a mo) = 0 /\
  f1_constraint_5 (981 / 100) (passed AUTODIFF (981 / 100) 2) 0 (mo_a mo) = 0.
Proof.
  cbv zeta. split; [cbn; lra|].
  unfold f1_constraint_4, f1_constraint_5, equations3, passed; cbn [mo_a vx vy vz c_mass c_com f1_chassis].
  rewrite cos_0, sin_0. split; field.
Qed.

Example C86_kart_case : forall fl, let F := V (300 * 2) (300 * 3) 0 in
  let a := newton6 300 F (V 0 0 (passed fl 1 3 / 20)) (V (20 * cos 0) (- (20) * sin 0) 0) in
  kart_constraint_4 0 a = 0 /\ kart_constraint_5 (passed fl 1 2) 0 a = 0.
Proof.
  intros fl F a. unfold a, F, kart_constraint_4, kart_constraint_5, newton6, passed, vadd, vopp, vscale, cross; cbn [vx vy vz].
  rewrite cos_0, sin_0. destruct fl; split; field.
Qed.
