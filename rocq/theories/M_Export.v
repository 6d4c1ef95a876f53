(** Model of what Optimal_laptime does once the solver has returned
    (src/core/applications/optimal_laptime.hpp): the success flag, the optimality check
    and the sensitivities, the exported inputs and controls, and the derivatives with
    respect to every declared parameter. The solver and the sensitivity analysis are
    lion's: their results are parameters. Times, coordinates and the derivatives of the
    time are in M_Laptime and M_Sens. *)
From Coq Require Import QArith Bool Arith List.
From Verif Require Import M_Controls M_Laptime.
Import ListNotations.
Local Open Scope nat_scope.

(** models: std::transform(src.cbegin(), src.cend(), dst.begin(), Value),
    optimal_laptime.hpp:211-227: writes past a destination that is too short. *)
Definition copy_into (src dst : list Q) : res (list Q) :=
  if length src <=? length dst then Ok (src ++ skipn (length src) dst) else UB.

(** models: one turn of the loop over the controls of export_solution,
    optimal_laptime.hpp:206-235. [c] is the control held by the objective, [out] the one
    that is exported, already cleared. *)
Definition export_control (c out : control_variable) : res control_variable :=
  match c_kind out with
  | CONSTANT | HYPERMESH => bind (copy_into (c_values c) (c_values out)) (fun v => Ok (set_values out v))
  | FULL_MESH =>
      bind (copy_into (c_values c) (c_values out)) (fun v =>
      bind (copy_into (c_rates c) (c_rates out)) (fun r => Ok (set_rates (set_values out v) r)))
  | DONT_OPTIMIZE => Ok out
  end.

(** The inputs and the controls that are exported. *)
Definition exported := (list (list Q) * list control_variable)%type.

Section Export.
Context (m : car) (direct closed : bool) (q0 u0 du0 : list Q) (n : nat).

(** models: one row of the inputs, optimal_laptime.hpp:200-202. *)
Definition export_row (ins : list (list Q)) (i : nat) : res (list Q) :=
  bind (rd ins i) (fun row => all_ok (map (rd row) (seq 0 (n_inputs m)))).

(** models: export_solution, optimal_laptime.hpp:172-241, without the integral
    quantities. [cs] are the controls of the object, whose structure is kept. *)
Definition export_solution (cs : list control_variable) (x : list Q) : res exported :=
  let out := map clear_control cs in
  bind (unpack m x direct closed q0 u0 du0 n cs) (fun st =>
  let '(_, (ins, fcs)) := st in
  bind (all_ok (map (export_row ins) (seq 0 n))) (fun ins' =>
  bind (all_ok (map (fun j => bind (rd fcs j) (fun c => bind (rd out j) (export_control c))) (seq 0 (n_controls m))))
    (fun cs' => Ok (ins', cs')))).

(** models: v.resize(k), optimal_laptime.hpp:586-587 and 1068-1069. *)
Definition resize (k : nat) (v : list Q) : list Q := firstn k v ++ repeat 0%Q (k - length v).

(** What the solver returns: whether it succeeded and the point it stopped at. *)
Record solver_result := Solved { sv_success : bool; sv_x : list Q }.

(** What the sensitivity analysis returns for the parameters handed over: whether the
    optimality check passes, and for each of those parameters the derivatives of the
    solution followed by those of slacks and multipliers. *)
Record analysis := Analysis { an_optimal : bool; an_rows : list (list Q) }.

(** What the object holds afterwards. *)
Record lap_result := LapResult {
  l_success : bool;
  l_solution : exported;
  l_derivatives : list exported }.

(** models: the parameters handed to the sensitivity analysis: all of the declared ones at
    optimal_laptime.hpp:568, and none at 1050, where the constructor without a parameter
    vector is called. *)
Definition handed_over {P} (declared : list P) : list P := if direct then declared else [].

(** models: optimal_laptime.hpp:557-689 (direct) and 1040-1178 (derivative), without the
    time and the coordinates. [cs] are the controls of the guess; those of the solution
    take their place at 596 and 1076, before the derivatives are exported, with the same
    structure. [previous] are the derivatives the object held before. *)
Definition after_solve {P} (throw_if_fail check : bool) (declared : list P) (analyse : list P -> analysis)
  (cs : list control_variable) (previous : list exported) (r : solver_result) : res lap_result :=
  if negb (sv_success r) && throw_if_fail then Throw
  else
  bind (if check
        then let a := analyse (handed_over declared) in
             if an_optimal a then Ok (map (resize (n_variables direct closed m n cs)) (an_rows a)) else Throw
        else Ok []) (fun dx =>
  bind (export_solution cs (sv_x r)) (fun sol =>
  bind (if check
        then all_ok (map (fun i =>
               bind (rd dx i) (fun row => bind (export_solution (snd sol) row) (fun d =>
               clean_sensitivity closed (fst d) (snd d)))) (seq 0 (length declared)))
        else Ok previous) (fun ds =>
  Ok (LapResult (sv_success r) sol ds)))).
End Export.
