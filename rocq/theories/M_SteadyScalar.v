(** Model of the steady states, searches and g-g diagram with plain numbers
    (src/core/applications/steady_state.hpp, the versions enabled for Timeseries_t = scalar), at a fixed
    speed. The solver of equations and the optimiser (lion library, not in the repository) are arbitrary
    functions that answer or throw. Unknowns are as in M_Steady. Numbers are exact rationals. *)
From Coq Require Import ZArith QArith Bool Arith List.
From Verif Require Import M_Controls M_Laptime M_Steady.
Import ListNotations.
Local Open Scope Q_scope.

Section Scalar.
Context {X : Type}.

(** The solver at given accelerations from an initial point, and the optimisers: maximum lateral acceleration, maximum
    and minimum longitudinal acceleration at a given lateral one. *)
Record scalar_solvers := ScalarSolvers {
  sc_guess : X;                              (* steady_state_initial_guess() *)
  sc_steady : Q -> Q -> X -> bool * X;
  sc_lat : point X -> box -> box -> res (answer X);
  sc_max : Q -> point X -> box -> res (answer X);
  sc_min : Q -> point X -> box -> res (answer X)
}.

(** models: the loop over the steps, steady_state.hpp:30-40: step [i] of [n] asks for the part i/n of both
    accelerations, from the answer of the previous one; options.throw_if_fail makes the solver throw. *)
Fixpoint steps (sv : scalar_solvers) (ax ay : Q) (n left i : nat) (throw : bool) (ok : bool) (x : X) : res (bool * X) :=
  match left with
  | O => Ok (ok, x)
  | S left' =>
      let factor := inject_Z (Z.of_nat i) / inject_Z (Z.of_nat n) in
      let '(ok', x') := sc_steady sv (factor * ax) (factor * ay) x in
      if throw && negb ok' then Throw else steps sv ax ay n left' (S i) throw ok' x'
  end.

(** models: solve, steady_state.hpp:11-61. Without steps the array x of lines 44-45 is never given a value. *)
Definition scalar_solve (sv : scalar_solvers) (ax ay : Q) (n : nat) (x0 : option X) (throw : bool) : res (solution X) :=
  let x := match x0 with None => sc_guess sv | Some x => x end in
  match n with
  | O => UB
  | _ => bind (steps sv ax ay n n 1 throw false x) (fun '(ok, x) => Ok (Solution ok ax ay x))
  end.

(** models: solve_max_lat_acc, steady_state.hpp:127-161. *)
Definition scalar_max_lat (sv : scalar_solvers) : res (solution X) :=
  bind (scalar_solve sv 0 0 1 None true) (fun r0 =>
  bind (sc_lat sv (Point (s_rest r0) 0 0) (Box (- (2)) 2) (Box (- (20)) 20)) (fun a =>
  Ok (Solution (an_ok a) (pt_ax (an_x a)) (pt_ay (an_x a)) (pt_rest (an_x a))))).

Definition scalar_solution (ay : Q) (a : answer X) : solution X :=
  Solution (an_ok a) (pt_ax (an_x a)) ay (pt_rest (an_x a)).

(** models: solve_max_lon_acc, steady_state.hpp:298-364; [u] is acceleration_units, which only divides the
    initial value of the unknown. *)
Definition scalar_max_lon (u : Q) (sv : scalar_solvers) (ay : Q) : res (solution X * solution X) :=
  bind (scalar_solve sv 0 0 1 None true) (fun r0 =>
  bind (scalar_max_lat sv) (fun rl =>
  if Qlt_bool (s_ay rl) ay then Throw
  else
  bind (scalar_solve sv (s_ax rl * ay / s_ay rl) ay 1 (Some (s_rest r0)) true) (fun rs =>
  let x0 := Point (s_rest rs) (s_ax rs / u) 0 in
  bind (sc_max sv ay x0 (Box (- (2)) 10)) (fun amax =>
  bind (sc_min sv ay x0 (Box (- (10)) 2)) (fun amin =>
  Ok (scalar_solution ay amax, scalar_solution ay amin)))))).

(** models: one turn of the loop of gg_diagram, steady_state.hpp:620-675. The state is (solution_max, solution_min,
    result_ss_ay); line 675 declares a new variable, so [x0] stays. *)
Definition scalar_gg_body (sv : scalar_solvers) (x0 : X) (rl : solution X) (ay_gg : list Q) (i : nat)
  (st : list (solution X) * list (solution X) * solution X) : res (list (solution X) * list (solution X) * solution X) :=
  let '(smax, smin, rss) := st in
  bind (rd ay_gg i) (fun ay =>
  bind (scalar_solve sv (s_ax rl * ay / s_ay rl) ay 1 (Some x0) false) (fun cand =>
  let rss' := if s_ok cand then cand else rss in
  let p := Point (s_rest rss') (s_ax rss') 0 in
  bind (sc_max sv ay p (Box (s_ax rl - (1#2)) 8)) (fun amax =>
  bind (wr smax i (scalar_solution ay amax)) (fun smax' =>
  bind (sc_min sv ay p (Box (- (8)) (s_ax rl + (1#2)))) (fun amin =>
  bind (wr smin i (scalar_solution ay amin)) (fun smin' => Ok (smax', smin', rss'))))))).

(** models: gg_diagram, steady_state.hpp:588-680. *)
Definition scalar_gg (sv : scalar_solvers) (d0 : solution X) (n : nat) : res (list (solution X) * list (solution X)) :=
  bind (scalar_solve sv 0 0 1 None true) (fun r0 =>
  bind (scalar_max_lat sv) (fun rl =>
  let ay_gg := linspace 0 (s_ay rl) n in
  bind (for_range 0 n (scalar_gg_body sv (s_rest r0) rl ay_gg) (repeat d0 n, repeat d0 n, r0))
    (fun '(smax, smin, _) => Ok (smax, smin)))).
End Scalar.
Arguments scalar_solvers : clear implicits.
