(** Model of an optimal lap time computation from the checks of the constructor to the object that is returned
    (src/core/applications/optimal_laptime.hpp), and of the object kept between calls for warm starts
    (src/main/c/fastestlapc.cpp). The solver is a function from what it is handed to what it answers. Times and
    coordinates of the lap are in M_Laptime and M_Road. *)
From Coq Require Import QArith ZArith String Bool Arith List.
From Verif Require Import M_Controls M_Laptime M_Export.
Import ListNotations.
Local Open Scope nat_scope.
Local Open Scope string_scope.

(** models: the part of Options that concerns the solver, optimal_laptime.h:42-50. *)
Record solver_options := SolverOptions {
  so_print_level : Z; so_max_iter : Z; so_throw : bool; so_check : bool; so_retape : bool;
  so_tol : Q; so_viol_tol : Q; so_acceptable_tol : Q }.

(** models: the options set by compute_optimal_laptime, fastestlapc.cpp:1521-1528, on top of the defaults of
    optimal_laptime.h:42-50. *)
Definition api_options (print_level : Z) (sensitivity : bool) : solver_options :=
  SolverOptions print_level 3000 true sensitivity false (1 # 10 ^ 10) (1 # 10 ^ 10) (1 # 10 ^ 8).

(** models: the text of options, optimal_laptime.hpp:526-541 and 1013-1027, line by line and word by word.
    [show_int] and [show_num] print numbers, the latter with 17 digits. *)
Definition option_text (show_int : Z -> string) (show_num : Q -> string) (o : solver_options) : list (list string) :=
  [["Integer"; "print_level"; show_int (so_print_level o)];
   ["Integer"; "max_iter"; show_int (so_max_iter o)];
   ["String"; "sb"; "yes"];
   ["Sparse"; "true"; "forward"]] ++
  (if so_retape o then [["Retape"; "true"]] else []) ++
  [["Numeric"; "tol"; show_num (so_tol o)];
   ["Numeric"; "constr_viol_tol"; show_num (so_viol_tol o)];
   ["Numeric"; "acceptable_tol"; show_num (so_acceptable_tol o)]].

(** What ipopt_cppad_solve is handed: the text of options, the object with the objective and constraints (its
    formulation, mesh, fixed first point, structure of the controls, integral quantities and sigma), the start
    vector, the bounds of variables and constraints and, for a warm start, the multipliers lambda, zl and zu. *)
Record request := Request {
  rq_options : list (list string);
  rq_direct : bool; rq_closed : bool; rq_mesh : list Q;
  rq_q0 : list Q; rq_u0 : list Q; rq_du0 : list Q;
  rq_controls : list control_variable; rq_integrals : list integral_bound; rq_sigma : Q;
  rq_start : list Q; rq_bounds : list (Q * Q); rq_cbounds : list (Q * Q);
  rq_multipliers : option (list Q * list Q * list Q) }.

(** What it answers: ipopt_cppad_result. *)
Record answer := Answer {
  aw_success : bool; aw_iterations : nat; aw_x : list Q; aw_zl : list Q; aw_zu : list Q; aw_lambda : list Q }.

(** The members of Optimal_laptime this is about, optimal_laptime_data.h:32-62. *)
Record lap := Lap {
  lp_mesh : list Q; lp_closed : bool; lp_direct : bool; lp_inputs : list (list Q); lp_controls : list control_variable;
  lp_zl : list Q; lp_zu : list Q; lp_lambda : list Q;
  lp_success : bool; lp_iterations : nat; lp_derivatives : list exported }.

(** What a constructor is given: mesh, kind of simulation and initial values. *)
Record start := Start {
  sp_mesh : list Q; sp_closed : bool; sp_direct : bool; sp_inputs : list (list Q); sp_controls : list control_variable }.

Section Solve.
Context (show_int : Z -> string) (show_num : Q -> string).

(** models: the first part of compute_direct and compute_derivative, up to the call of the solver,
    optimal_laptime.hpp:318-551 and 774-1036. [s], [cs] are the mesh and the controls left by the checks;
    [warm] are zl, zu and lambda of the warm start constructor. *)
Definition prepare (m : car) (o : options) (so : solver_options) (s : list Q) (inputs : list (list Q))
  (cs : list control_variable) (ib : list integral_bound) (warm : option (list Q * list Q * list Q))
  (direct closed : bool) : res request :=
  bind (rd s 0) (fun s0 =>
  bind (if direct then bind (control_array_at_s cs (controls_def m) 0 s0) (fun u => Ok (u, []))
        else control_array_and_derivative_at_s cs (controls_def m) 0 s0) (fun u =>
  bind (rd inputs 0) (fun q0 =>
  bind (pack m o s inputs cs direct closed) (fun es =>
  bind (constraint_bounds m s cs ib direct closed) (fun bs =>
  bind (match warm with
        | None => Ok tt
        | Some (zl, zu, lambda) =>
            check_warm_start (n_variables direct closed m (length s) cs) (n_constraints direct closed m (length s) cs ib) zl zu lambda
        end) (fun _ =>
  Ok (Request (option_text show_int show_num so) direct closed s q0 (fst u) (snd u) cs ib (o_sigma o)
        (map fst es) (map snd es) bs
        (match warm with None => None | Some (zl, zu, lambda) => Some (lambda, zl, zu) end)))))))).

(** models: Optimal_laptime::compute, optimal_laptime.hpp:242-270: the car must be ready, and the formulation is
    selected by the two members. *)
Definition compute (ready : bool) (m : car) (o : options) (so : solver_options) (s : list Q) (inputs : list (list Q))
  (cs : list control_variable) (ib : list integral_bound) (warm : option (list Q * list Q * list Q))
  (is_direct is_closed : bool) : res request :=
  if negb ready then Throw
  else if is_direct
       then if is_closed then prepare m o so s inputs cs ib warm true true
            else prepare m o so s inputs cs ib warm true false
       else if is_closed then prepare m o so s inputs cs ib warm false true
            else prepare m o so s inputs cs ib warm false false.

(** models: the two constructors, optimal_laptime.hpp:8-55, with check_inputs, 58-161, up to the call of the
    solver. *)
Definition requested (ready : bool) (m : car) (o : options) (so : solver_options) (p : start)
  (warm : option (list Q * list Q * list Q)) : res request :=
  bind (check_controls (sp_controls p)) (fun cs =>
  bind (check_mesh (sp_closed p) (track_length m) (sp_mesh p)) (fun s =>
  bind (check_sizes (sp_direct p) (length s) (sp_inputs p) cs) (fun _ =>
  bind (set_integrals (integral_names m) (o_integral o)) (fun ib =>
  compute ready m o so s (sp_inputs p) cs ib warm (sp_direct p) (sp_closed p))))).

(** models: compute_direct and compute_derivative after the solver, optimal_laptime.hpp:554-730 and 1038-1231:
    see M_Export; the multipliers are kept, optimal_laptime.hpp:637-647 and 1127-1137. *)
Definition finish {P} (m : car) (so : solver_options) (declared : list P) (analyse : list P -> analysis)
  (rq : request) (a : answer) : res lap :=
  bind (after_solve m (rq_direct rq) (rq_closed rq) (rq_q0 rq) (rq_u0 rq) (rq_du0 rq) (length (rq_mesh rq))
          (so_throw so) (so_check so) declared analyse (rq_controls rq) [] (Solved (aw_success a) (aw_x a))) (fun l =>
  Ok (Lap (rq_mesh rq) (rq_closed rq) (rq_direct rq) (fst (l_solution l)) (snd (l_solution l))
        (aw_zl a) (aw_zu a) (aw_lambda a) (l_success l) (aw_iterations a) (l_derivatives l))).

(** The whole constructor. *)
Definition construct {P} (ready : bool) (m : car) (o : options) (so : solver_options) (declared : list P)
  (analyse : list P -> analysis) (solver : request -> answer) (p : start) (warm : option (list Q * list Q * list Q)) : res lap :=
  bind (requested ready m o so p warm) (fun rq => finish m so declared analyse rq (solver rq)).

(** ** The object kept for warm starts *)

(** models: the two static objects of get_warm_start, fastestlapc.cpp:58-71. They start as default constructed
    objects with static storage: no points and controls of the first kind without values. *)
Record cache := Cache { k_f1 : lap; k_kart : lap }.
Definition empty_lap (n_controls : nat) : lap :=
  Lap [] false false [] (repeat (MkControl DONT_OPTIMIZE [] [] [] 0%Q) n_controls) [] [] [] false 0 [].
Definition initial_cache (f1_controls kart_controls : nat) : cache := Cache (empty_lap f1_controls) (empty_lap kart_controls).
Definition kept (kart : bool) (k : cache) : lap := if kart then k_kart k else k_f1 k.
Definition keep (kart : bool) (l : lap) (k : cache) : cache := if kart then Cache (k_f1 k) l else Cache l (k_kart k).

(** One call of optimal_laptime for a vehicle that exists: which type of vehicle, the car on its track, the options,
    the start built from the steady state (M_Options), the solver, and whether writing the file and storing the
    results return normally (M_Store). *)
Record call (P : Type) := Call {
  cl_kart : bool; cl_ready : bool; cl_car : car; cl_options : options; cl_solver_options : solver_options;
  cl_declared : list P; cl_analyse : list P -> analysis; cl_solver : request -> answer;
  cl_cold : start; cl_warm : bool; cl_save : bool; cl_stored : bool }.
Global Arguments cl_kart {P}. Global Arguments cl_ready {P}. Global Arguments cl_car {P}. Global Arguments cl_options {P}.
Global Arguments cl_solver_options {P}. Global Arguments cl_declared {P}. Global Arguments cl_analyse {P}. Global Arguments cl_solver {P}.
Global Arguments cl_cold {P}. Global Arguments cl_warm {P}. Global Arguments cl_save {P}. Global Arguments cl_stored {P}.

(** models: what the constructors are given, fastestlapc.cpp:1539-1568. *)
Definition call_start {P} (k : cache) (c : call P) : start * option (list Q * list Q * list Q) :=
  if cl_warm c
  then let w := kept (cl_kart c) k in
       (Start (lp_mesh w) (lp_closed w) (lp_direct w) (lp_inputs w) (lp_controls w), Some (lp_zl w, lp_zu w, lp_lambda w))
  else (cl_cold c, None).
Definition call_request {P} (k : cache) (c : call P) : res request :=
  let '(p, warm) := call_start k c in
  requested (cl_ready c) (cl_car c) (cl_options c) (cl_solver_options c) p warm.

(** models: compute_optimal_laptime, fastestlapc.cpp:1539-1714: the lap is computed, written and stored, and kept
    at the very end. *)
Definition optimal_laptime {P} (k : cache) (c : call P) : cache * res lap :=
  let '(p, warm) := call_start k c in
  match construct (cl_ready c) (cl_car c) (cl_options c) (cl_solver_options c) (cl_declared c) (cl_analyse c) (cl_solver c) p warm with
  | Ok l => if cl_stored c then (if cl_save c then keep (cl_kart c) l k else k, Ok l) else (k, Throw)
  | Throw => (k, Throw)
  | UB => (k, UB)
  end.

(** A history of calls: the object kept and the results, in the order of the calls. *)
Fixpoint run_calls {P} (k : cache) (cs : list (call P)) : cache * list (res lap) :=
  match cs with
  | [] => (k, [])
  | c :: cs' => let '(k1, r) := optimal_laptime k c in let '(k2, rs) := run_calls k1 cs' in (k2, r :: rs)
  end.
End Solve.
