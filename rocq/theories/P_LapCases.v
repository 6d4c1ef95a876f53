(** A concrete case of C152: a closed lap over two points of a flat circuit, with a limit on
    the boost of the lap, starting at 0 and again at 40. *)
From Coq Require Import Reals Lra List.
From Verif Require Import M_Vec M_Tire M_Car M_Road M_F1 M_Feasible M_RealLap S_F1 S_RealLap P_Tire P_Car P_F1 P_RealLap.
Import ListNotations.
Local Open Scope R_scope.

Definition ring_road : circuit := Circuit (fun _ => flat_point (V 0 0 0) 0 0) (fun _ => 5) (fun _ => 5).
Definition before_line : list (R * f1_point) := [(0, gliding_point 50 0)].
Definition after_line : list (R * f1_point) := [(40, gliding_point 50 1)].

Example C152_case : periodic_circuit 100 ring_road /\ periodic 100 gliding_low /\ periodic 100 gliding_high /\
  starts_at 0 before_line /\ starts_at 40 after_line /\
  lap_feasible (1 / 2) [(5%nat, (0, 2))] true 100
    (f1_lap positive_part same_sign (981 / 100) gliding_car ring_road false gliding_low gliding_high (before_line ++ after_line)).
Proof.
  assert (Same : forall s u b, f1_point_eval positive_part same_sign (981 / 100) gliding_car ring_road false gliding_low gliding_high s (gliding_point u b) =
    f1_point_eval positive_part same_sign (981 / 100) gliding_car straight false gliding_low gliding_high 0 (gliding_point u b)) by reflexivity.
  split; [repeat split|]. split; [intros s; reflexivity|]. split; [intros s; reflexivity|]. split; [reflexivity|]. split; [reflexivity|].
  destruct (gliding_evaluation 50 0 0 ltac:(lra) ltac:(lra)) as (A1 & A2 & A3 & A4 & A5 & A6 & A7 & A8).
  destruct (gliding_evaluation 50 1 0 ltac:(lra) ltac:(lra)) as (B1 & B2 & B3 & B4 & B5 & B6 & B7 & B8).
  unfold lap_feasible, f1_lap, before_line, after_line. cbn [app map fst snd]. rewrite !Same. split; [|split].
  - unfold mesh_elements. cbn [inner_elements closing_element app last fst snd]. constructor; [|constructor; [|constructor]]; apply gliding_elements; assumption.
  - unfold variables_hold. constructor; [exact A6|]. constructor; [exact B6 | constructor].
  - constructor; [|constructor]. cbn [fst snd]. unfold lap_integral. cbn [map fst snd inner_elements closing_element last]. unfold total; cbn [fold_right]. rewrite A8, B8. lra.
Qed.
