(** Specification side for the optimal laptime problem. *)
From Coq Require Import QArith Bool Arith List.
From Verif Require Import M_Controls M_Laptime.
Import ListNotations.
Local Open Scope nat_scope.

(** The sizes fixed by the types of the C++ code: std::array members, and the time
    followed by the lateral displacement among the inputs. *)
Definition sizes_ok (m : car) (o : options) : Prop :=
  in_time m + 1 < n_inputs m /\
  length (o_inputs_lb o) = n_inputs m /\ length (o_inputs_ub o) = n_inputs m /\
  length (o_controls_lb o) = n_controls m /\ length (o_controls_ub o) = n_controls m /\
  length (controls_def m) = n_controls m.

(** A guess that passes the checks of the constructor: [cs] is what the check of the
    control variables leaves. *)
Definition guess_ok (direct : bool) (m : car) (s : list Q) (inputs : list (list Q)) (cs : list control_variable) : Prop :=
  (exists cs0, check_controls cs0 = Ok cs) /\
  check_sizes direct (length s) inputs cs = Ok tt /\
  2 <= length s /\ length cs = n_controls m /\
  (forall r, In r inputs -> length r = n_inputs m).

(** Input [j] of point [i]. *)
Definition at2 (l : list (list Q)) (i j : nat) : Q := nth j (nth i l []) 0%Q.

Definition value (c : control_variable) (i : nat) : Q := nth i (c_values c) 0%Q.
Definition rate (c : control_variable) (i : nat) : Q := nth i (c_rates c) 0%Q.

(** No control is optimised as a single constant. *)
Definition no_constant (cs : list control_variable) : Prop := forall c, In c cs -> c_kind c <> CONSTANT.

(** Every full-mesh control has bounds for its derivative. *)
Definition rates_bounded (m : car) (cs : list control_variable) : Prop :=
  forall j c, nth_error cs j = Some c -> c_kind c = FULL_MESH -> j < length (rate_lb m) /\ j < length (rate_ub m).

(** Two guesses with the same inputs at the points from [off] on, times aside, the same
    control values and, in the derivative formulation, the same control derivatives. *)
Definition same_unknowns (m : car) (off n : nat) (i1 i2 : list (list Q)) (c1 c2 : list control_variable) : Prop :=
  (forall i j, off <= i < n -> j < n_inputs m -> j <> in_time m -> at2 i1 i j = at2 i2 i j) /\
  (forall j c c', nth_error c1 j = Some c -> nth_error c2 j = Some c' ->
     (forall i, (c_kind c = FULL_MESH -> off <= i) -> value c i = value c' i) /\
     (forall i, off <= i -> rate c i = rate c' i)).

Definition between (b : Q * Q) (v : Q) : Prop := (fst b <= v)%Q /\ (v <= snd b)%Q.

(** Every unknown lies between the bounds the user gave for it: inputs and controls
    between those of the options, the lateral displacement between the track limits at
    the arclength of the point, and the control derivatives between those of the car. *)
Definition respects_bounds (m : car) (o : options) (s : list Q) (direct closed : bool)
  (ins : list (list Q)) (cs : list control_variable) : Prop :=
  (forall i j, offset closed <= i < length s -> j < n_inputs m -> j <> in_time m -> j <> in_time m + 1 ->
     between (nth j (o_inputs_lb o) 0%Q, nth j (o_inputs_ub o) 0%Q) (at2 ins i j)) /\
  (forall i, offset closed <= i < length s ->
     between ((- left_limit m (nth i s 0))%Q, right_limit m (nth i s 0%Q)) (at2 ins i (in_time m + 1))) /\
  (forall j c, nth_error cs j = Some c ->
     (forall i, i < length (c_values c) -> (c_kind c = FULL_MESH -> offset closed <= i) ->
        between (nth j (o_controls_lb o) 0%Q, nth j (o_controls_ub o) 0%Q) (value c i)) /\
     (direct = false -> c_kind c = FULL_MESH -> forall i, offset closed <= i < length s ->
        between (nth j (rate_lb m) 0%Q, nth j (rate_ub m) 0%Q) (rate c i))).

(** [x] lies between the bounds, entry by entry. *)
Definition within (es : list entry) (x : list Q) : Prop :=
  length x = length es /\ forall k, k < length x -> between (snd (nth k es (0, (0, 0))%Q)) (nth k x 0%Q).

(** The fixed first point of an open simulation: the inputs of the guess at the first
    point and the controls (and their derivatives) evaluated there. *)
Definition start_of (direct : bool) (m : car) (s : list Q) (inputs : list (list Q)) (cs : list control_variable)
  (q0 u0 du0 : list Q) : Prop :=
  q0 = nth 0 inputs [] /\
  if direct then control_array_at_s cs (controls_def m) 0 (nth 0 s 0%Q) = Ok u0
  else control_array_and_derivative_at_s cs (controls_def m) 0 (nth 0 s 0%Q) = Ok (u0, du0).
