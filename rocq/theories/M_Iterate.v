(** Model of the object the solver evaluates (src/core/applications/optimal_laptime.h, classes
    FG, FG_direct and FG_derivative; optimal_laptime.hpp) as what it is in the code: an object
    with a car and with vectors that survive from one evaluation to the next. M_Laptime models
    one evaluation as a function; here every member is kept, with what earlier evaluations left
    in it, and so is the vector the caller hands over for the results. *)
From Coq Require Import QArith Bool Arith List.
From Verif Require Import M_Controls M_Laptime M_Export.
Import ListNotations.
Local Open Scope nat_scope.

(** What is read from the car after an evaluation: the states and their derivatives
    (optimal_laptime.hpp:1310-1312), the extra constraints (1344) and the integral quantities
    (1317). *)
Record measured := Measured { q_states : list Q; q_dstates : list Q; q_extra : list Q; q_integral : list Q }.

(** The car held by the object: its members [H], an evaluation (inputs, controls, arclength),
    which may change any of them, and set_all_parameters
    (src/core/vehicles/dynamic_model.h:28). *)
Record machine (H : Type) := Machine {
  advance : H -> list Q -> list Q -> Q -> H * measured;
  set_all : list Q -> H -> H }.
Arguments Machine {H} _ _.
Arguments advance {H} _ _ _ _ _.
Arguments set_all {H} _ _ _.

(** models: the members of FG that change, optimal_laptime.h:224-243. *)
Record object (H : Type) := Object {
  o_car : H;
  o_ins : list (list Q);
  o_cs : list control_variable;
  o_states : list (list Q);
  o_dstates : list (list Q);
  o_integrands : list (list Q);
  o_values : list Q }.
Arguments Object {H} _ _ _ _ _ _ _.
Arguments o_car {H} _.
Arguments o_ins {H} _.
Arguments o_cs {H} _.
Arguments o_states {H} _.
Arguments o_dstates {H} _.
Arguments o_integrands {H} _.
Arguments o_values {H} _.

Section Iterate.
Context {H : Type} (M : machine H).
Context (m : car) (sigma : Q) (s : list Q) (cs : list control_variable) (ib : list integral_bound).
Context (direct closed : bool) (q0 u0 du0 : list Q) (n_states : nat).

Definition with_car (ob : object H) (h : H) : object H :=
  Object h (o_ins ob) (o_cs ob) (o_states ob) (o_dstates ob) (o_integrands ob) (o_values ob).
Definition with_config (ob : object H) (cf : list (list Q) * list control_variable) : object H :=
  Object (o_car ob) (fst cf) (snd cf) (o_states ob) (o_dstates ob) (o_integrands ob) (o_values ob).
Definition with_values (ob : object H) (v : list Q) : object H :=
  Object (o_car ob) (o_ins ob) (o_cs ob) (o_states ob) (o_dstates ob) (o_integrands ob) v.

(** models: the constructor of FG, optimal_laptime.h:190-207. [cs] are the controls of the guess,
    [n_states] the number of states. *)
Definition new_object (h : H) : object H :=
  let n := length s in
  Object h (repeat (repeat 0%Q (n_inputs m)) n) (map clear_control cs)
    (repeat (repeat 0%Q n_states) n) (repeat (repeat 0%Q n_states) n)
    (repeat (map (fun _ => 0%Q) ib) n) (map (fun _ => 0%Q) ib).

(** models: the loading of the vector into the members, optimal_laptime.hpp:1247-1306 and
    1447-1516. *)
Definition load_vector (x : list Q) (ob : object H) : res (object H) :=
  bind (if closed then Ok (o_ins ob, o_cs ob) else start_point m direct q0 u0 du0 (o_ins ob, o_cs ob)) (fun cf =>
  bind (for_range (offset closed) (length s) (load_point m x direct) (0, cf)) (fun st =>
  bind (for_range 0 (n_controls m) (load_rest x) st) (fun st => Ok (with_config ob (snd st))))).

(** models: _car(_inputs[i],_controls.control_array_at_s(_car,i,_s[i]),_s[i]),
    optimal_laptime.hpp:1310, 1325, 1390, 1520, 1535, 1624. *)
Definition evaluate_car (ob : object H) (i : nat) : res (object H * measured) :=
  bind (rd (o_ins ob) i) (fun row => bind (rd s i) (fun si =>
  bind (control_array_at_s (o_cs ob) (controls_def m) i si) (fun u =>
  let '(h, q) := advance M (o_car ob) row u si in Ok (with_car ob h, q)))).

(** models: _states[i] = ..., _dstates_dt[i] = ..., optimal_laptime.hpp:1311-1312, 1326-1327,
    1521-1522, 1536-1537. *)
Definition record_states (i : nat) (q : measured) (ob : object H) : res (object H) :=
  bind (set_at (o_states ob) i (q_states q)) (fun st =>
  bind (set_at (o_dstates ob) i (q_dstates q)) (fun ds =>
  Ok (Object (o_car ob) (o_ins ob) (o_cs ob) st ds (o_integrands ob) (o_values ob)))).

(** models: _integral_quantities_integrands[i] = ..., optimal_laptime.hpp:1317, 1352, 1527, 1588. *)
Definition record_integrand (i : nat) (q : measured) (ob : object H) : res (object H) :=
  bind (rd (o_dstates ob) i) (fun d => bind (rd d (st_time m)) (fun dt =>
  bind (set_at (o_integrands ob) i (vscale dt (q_integral q))) (fun g =>
  Ok (Object (o_car ob) (o_ins ob) (o_cs ob) (o_states ob) (o_dstates ob) g (o_values ob))))).

(** The members as the lines that write the constraints see them: what the vectors hold at each
    point, old or new, and the extra constraints the car holds at present. *)
Definition seen (ob : object H) (q : measured) : list evaluation :=
  map (fun t => MkEval (fst (fst t)) (snd (fst t)) (q_extra q) (snd t))
      (combine (combine (o_states ob) (o_dstates ob)) (o_integrands ob)).

(** models: the turn [i] of the loop over the points, optimal_laptime.hpp:1323-1355 and
    1533-1591. *)
Definition point_turn (integ : bool) (i : nat) (w : object H * fg_state) : res (object H * fg_state) :=
  let '(ob, st) := w in
  bind (evaluate_car ob i) (fun oq => let '(ob, q) := oq in
  bind (record_states i q ob) (fun ob =>
  bind (rd s i) (fun si => bind (rd s (i - 1)) (fun sp =>
  bind (fg_element m sigma (o_cs ob) direct (seen ob q) (si - sp)%Q (i - 1) i (i - i) st) (fun st =>
  if integ then
    bind (record_integrand i q ob) (fun ob =>
    bind (integral_element sigma (seen ob q) (si - sp)%Q (i - 1) i st) (fun st => Ok (ob, st)))
  else Ok (ob, st)))))).

(** models: the closing element, optimal_laptime.hpp:1370-1411 and 1594-1648. The car is evaluated
    again at the first point (1390, 1624) for the extra constraints; the vectors keep what the
    loop wrote. *)
Definition closing_turn (integ : bool) (w : object H * fg_state) : res (object H * fg_state) :=
  let '(ob, st) := w in
  let last := length s - 1 in
  bind (rd s last) (fun sl =>
  let ds := (track_length m - sl)%Q in
  bind (evaluate_car ob 0) (fun oq => let '(ob, q) := oq in
  bind (fg_element m sigma (o_cs ob) direct (seen ob q) ds last 0 last st) (fun st =>
  bind (if direct then for_each (o_cs ob) (add_value_penalty ds last 0) st else Ok st) (fun st =>
  bind (if integ then integral_element sigma (seen ob q) ds 0 last st else Ok st) (fun st => Ok (ob, st)))))).

(** models: FG_direct::compute and FG_derivative::compute, optimal_laptime.hpp:1223-1420 and
    1423-1657. [fgv] is the vector of the caller, with whatever it holds; what is returned beside
    the object is that vector afterwards. *)
Definition compute (integ : bool) (ob : object H) (x fgv : list Q) : res (object H * list Q) :=
  bind (load_vector x ob) (fun ob =>
  match fgv with
  | [] => UB
  | _ :: gs =>
    bind (evaluate_car ob 0) (fun oq => let '(ob, q) := oq in
    bind (record_states 0 q ob) (fun ob =>
    bind (if integ then record_integrand 0 q ob else Ok ob) (fun ob =>
    let st0 := (0%Q, ((0, gs), if integ then map (fun _ => 0%Q) (o_values ob) else o_values ob)) in
    bind (for_range 1 (length s) (point_turn integ) (ob, st0)) (fun w => let '(ob, st) := w in
    bind (if direct
          then for_each (o_cs ob) (fun c => for_range 1 (length s) (fun i st =>
                 bind (rd s i) (fun si => bind (rd s (i - 1)) (fun sp => add_value_penalty (si - sp)%Q (i - 1) i c st)))) st
          else Ok st) (fun st =>
    bind (if closed then closing_turn integ (ob, st) else Ok (ob, st)) (fun w => let '(ob, st) := w in
    bind (if integ then for_each (restricted_quantities ib (snd (snd st))) put_fg st else Ok st) (fun st =>
    Ok (with_values ob (snd (snd st)), fst st :: snd (fst (snd st))))))))))
  end).

(** models: operator()(fg, x), optimal_laptime.h:281-287 and 329-335. *)
Definition operator_x (ob : object H) (x fgv : list Q) : res (object H * list Q) :=
  compute (0 <? n_restricted ib) ob x fgv.

(** models: operator()(fg, x, p), optimal_laptime.h:274-279 and 322-327. *)
Definition operator_xp (ob : object H) (p x fgv : list Q) : res (object H * list Q) :=
  operator_x (with_car ob (set_all M p (o_car ob))) x fgv.

(** models: export_solution, optimal_laptime.hpp:172-241: the exported inputs, controls and
    integral quantities. *)
Definition export_object (ob : object H) (x : list Q) : res (object H * (exported * list Q)) :=
  let out := map clear_control cs in
  bind (compute true ob x (repeat 0%Q (S (n_constraints direct closed m (length s) cs ib)))) (fun r => let '(ob, _) := r in
  bind (all_ok (map (export_row m (o_ins ob)) (seq 0 (length s)))) (fun ins' =>
  bind (all_ok (map (fun j => bind (rd (o_cs ob) j) (fun c => bind (rd out j) (export_control c))) (seq 0 (n_controls m))))
    (fun cs' => Ok (ob, ((ins', cs'), o_values ob))))).

(** The uses of the object between its construction and its end: evaluations by the solver,
    evaluations by the sensitivity analysis, which hands over the parameters, and exports. *)
Inductive call :=
| Evaluate (x fgv : list Q)
| EvaluateAt (p x fgv : list Q)
| Export (x : list Q).

Definition do_call (ob : object H) (c : call) : res (object H) :=
  match c with
  | Evaluate x fgv => bind (operator_x ob x fgv) (fun r => Ok (fst r))
  | EvaluateAt p x fgv => bind (operator_xp ob p x fgv) (fun r => Ok (fst r))
  | Export x => bind (export_object ob x) (fun r => Ok (fst r))
  end.

Definition do_calls (cl : list call) (ob : object H) : res (object H) := for_each cl (fun c ob => do_call ob c) ob.
End Iterate.
