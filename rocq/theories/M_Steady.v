(** Model of the searches for extreme accelerations and of the g-g diagram with automatic
    differentiation (src/core/applications/steady_state.hpp), at a fixed speed.
    The optimiser (Ipopt through ipopt_cppad_solve) is an arbitrary function; a vector of
    unknowns is an accelerations pair and a rest of arbitrary type [X]. The conversions between
    unknowns, inputs and controls (get_x, get_inputs, get_controls) are left out: inputs and
    controls of a solution are represented by the unknowns they were computed from. Numbers are
    exact rationals. *)
From Coq Require Import ZArith QArith Qabs Bool Arith List.
From Verif Require Import M_Controls M_Laptime.
Import ListNotations.
Local Open Scope Q_scope.

Definition Qlt_bool (a b : Q) : bool := negb (Qle_bool b a).

(** Bounds of one acceleration. *)
Record box := Box { lo : Q; hi : Q }.

Section Steady.
Context {X : Type}.

(** Unknowns: the last one or two are the accelerations (pt_ay is not used in the searches at given
    lateral acceleration). *)
Record point := Point { pt_rest : X; pt_ax : Q; pt_ay : Q }.
(** models: ipopt_cppad_result: status == success and x. *)
Record answer := Answer { an_ok : bool; an_x : point }.
(** models: Steady_state::Solution, steady_state.h:17-26, without the speed. *)
Record solution := Solution { s_ok : bool; s_ax : Q; s_ay : Q; s_rest : X }.

(** models: [std::abs(a - b) < tol]. *)
Definition near (a b tol : Q) : bool := Qlt_bool (Qabs (a - b)) tol.

(** models: one test of the retry loops, e.g. steady_state.hpp:208-214: move the lower bound
    down by a quarter of the width when the result is close to it. *)
Definition widen_low (tol : Q) (b : box) (x : Q) : box * bool :=
  if near (lo b) x tol then (Box (lo b - (1#4) * (hi b - lo b)) (hi b), true) else (b, false).
(** models: steady_state.hpp:216-222. *)
Definition widen_high (tol : Q) (b : box) (x : Q) : box * bool :=
  if near (hi b) x tol then (Box (lo b) (hi b + (1#4) * (hi b - lo b)), true) else (b, false).

(** models: the retry loop of solve_max_lat_acc, steady_state.hpp:201-244, as the list of the attempts
    made (bounds of ax, bounds of ay, answer). [k] is the number of the attempt. *)
Fixpoint lat_loop (left k : nat) (solver : nat -> point -> box -> box -> answer) (x0 : point) (bx bA : box)
  : list (box * box * answer) :=
  match left with
  | O => []
  | S left' =>
      let a := solver k x0 bx bA in
      let '(bx1, f1) := widen_low (1#10) bx (pt_ax (an_x a)) in
      let '(bx2, f2) := widen_high (1#10) bx1 (pt_ax (an_x a)) in
      let '(by1, f3) := widen_low (1#10) bA (pt_ay (an_x a)) in
      let '(by2, f4) := widen_high (1#10) by1 (pt_ay (an_x a)) in
      (bx, bA, a) :: (if f1 || f2 || f3 || f4
                      then lat_loop left' (S k) solver (an_x a) bx2 by2 else [])
  end.

(** models: the loop for the maximum of solve_max_lon_acc, steady_state.hpp:438-460; the initial
    point is not updated. *)
Fixpoint lon_max_loop (left k : nat) (solver : nat -> point -> box -> answer) (x0 : point) (b : box)
  : list (box * answer) :=
  match left with
  | O => []
  | S left' =>
      let a := solver k x0 b in
      let f1 := near (lo b) (pt_ax (an_x a)) (1#100) in
      let b1 := if f1 then Box (lo b * 2) (hi b) else b in
      let f2 := near (hi b1) (pt_ax (an_x a)) (1#5) in
      let b2 := if f2 then Box (lo b1) (hi b1 * (6#5)) else b1 in
      (b, a) :: (if f1 || f2 then lon_max_loop left' (S k) solver x0 b2 else [])
  end.

(** models: the loop for the minimum, steady_state.hpp:528-546: an unsuccessful answer is also
    tried again. *)
Fixpoint lon_min_loop (left k : nat) (solver : nat -> point -> box -> answer) (x0 : point) (b : box)
  : list (box * answer) :=
  match left with
  | O => []
  | S left' =>
      let a := solver k x0 b in
      let '(b1, f) := widen_low 1 b (pt_ax (an_x a)) in
      (b, a) :: (if negb f && an_ok a then [] else lon_min_loop left' (S k) solver (if f then an_x a else x0) b1)
  end.

(** The solvers: steady state at given accelerations (scaled) from an optional initial
    point; maximum lateral acceleration; maximum and minimum longitudinal acceleration
    at a given (scaled) lateral one. *)
Record solvers := Solvers {
  sv_steady : Q -> Q -> option X -> bool * X;
  sv_lat : nat -> point -> box -> box -> answer;
  sv_max : Q -> nat -> point -> box -> answer;
  sv_min : Q -> nat -> point -> box -> answer
}.

(** models: solve, steady_state.hpp:63-125. *)
Definition solve (u : Q) (sv : solvers) (ax ay : Q) (x0 : option X) : solution :=
  let '(ok, x) := sv_steady sv (ax / u) (ay / u) x0 in Solution ok ax ay x.

(** models: the initial bounds of solve_max_lat_acc, steady_state.hpp:180-181 (the same for both). *)
Definition lat_box (u : Q) : box := Box (- (2) / u) (20 / u).

Definition lat_attempts (u : Q) (sv : solvers) : list (box * box * answer) :=
  let r0 := solve u sv 0 0 None in
  lat_loop 32 0 (sv_lat sv) (Point (s_rest r0) 0 0) (lat_box u) (lat_box u).

(** The answer of the last attempt. *)
Definition last_answer {B} (l : list (B * answer)) (d : answer) : answer :=
  match rev l with (_, a) :: _ => a | [] => d end.

(** models: solve_max_lat_acc, steady_state.hpp:164-293. [d] is the state of the result before the
    first attempt; there always is one. *)
Definition solve_max_lat_acc (u : Q) (sv : solvers) (d : answer) : solution :=
  let a := last_answer (lat_attempts u sv) d in
  Solution (an_ok a) (pt_ax (an_x a) * u) (pt_ay (an_x a) * u) (pt_rest (an_x a)).

(** models: the bounds of solve_max_lon_acc, steady_state.hpp:413-414 and 508-515. *)
Definition lon_max_box (u : Q) : box := Box (- (2) / u) (10 / u).
Definition lon_min_box (u ax_lat : Q) : box :=
  let b := Box (ax_lat / u - 10 / u) (ax_lat / u) in
  if Qlt_bool (hi b - (1#1000)) (lo b) then Box (hi b - 10 / u) (hi b) else b.

Definition lon_solution (u ay : Q) (a : answer) : solution :=
  Solution (an_ok a) (pt_ax (an_x a) * u) ay (pt_rest (an_x a)).

(** models: solve_max_lon_acc, steady_state.hpp:369-585. *)
Definition solve_max_lon_acc (u : Q) (sv : solvers) (d : answer) (ay : Q) : res (solution * solution) :=
  let r0 := solve u sv 0 0 None in
  let rl := solve_max_lat_acc u sv d in
  if Qlt_bool (s_ay rl) ay then Throw
  else
    let rs := solve u sv (s_ax rl * ay / s_ay rl) ay (Some (s_rest r0)) in
    let x0 := Point (s_rest rs) (s_ax rs / u) 0 in
    let amax := last_answer (lon_max_loop 8 0 (sv_max sv (ay / u)) x0 (lon_max_box u)) d in
    let amin := last_answer (lon_min_loop 30 0 (sv_min sv (ay / u)) x0 (lon_min_box u (s_ax rl))) d in
    Ok (lon_solution u ay amax, lon_solution u ay amin).

(** models: linspace of the lion library (not in the repository): [n] equally spaced numbers. *)
Definition linspace (a b : Q) (n : nat) : list Q :=
  map (fun i => a + inject_Z (Z.of_nat i) * (b - a) / inject_Z (Z.of_nat (n - 1))) (seq 0 n).

(** Assignment to an element of a vector. *)
Definition wr {A} (l : list A) (i : nat) (a : A) : res (list A) :=
  if Nat.ltb i (length l) then Ok (firstn i l ++ a :: skipn (S i) l) else UB.

(** models: [n_points - 1] in [size_t]. *)
Definition size_pred (n : nat) : nat := Z.to_nat ((Z.of_nat n - 1) mod 2 ^ 64).

(** models: one turn of the loop of gg_diagram, steady_state.hpp:714-874. The state is (solution_max, solution_min,
    result_ss_ay). The initial point [x0] of the steady state is never updated: line 873 declares
    a new variable. *)
Definition gg_body (u : Q) (sv : solvers) (x0 : X) (rl rmax rmin : solution) (ay_gg : list Q) (i : nat)
  (st : list solution * list solution * solution) : res (list solution * list solution * solution) :=
  let '(smax, smin, rss) := st in
  bind (rd ay_gg i) (fun ay =>
  let cand := solve u sv (s_ax rl * ay / s_ay rl) ay (Some x0) in
  let rss' := if s_ok cand then cand else rss in
  let p := Point (s_rest rss') (s_ax rss' / u) 0 in
  let amax := sv_max sv (ay / u) 0 p (Box (s_ax rl / u - (1#2) / u) (s_ax rmax / u + (1#10) / u)) in
  bind (wr smax i (lon_solution u ay amax)) (fun smax' =>
  let bmin := Box (s_ax rmin / u - (1#10) / u) (s_ax rl / u + (1#10) / u) in
  let amin := sv_min sv (ay / u) 0 p bmin in
  bind (if an_ok amin then Ok amin
        else if Nat.ltb 0 i then
               bind (rd smin (i - 1)) (fun q => Ok (sv_min sv (ay / u) 1 (Point (s_rest q) (s_ax q / u) 0) bmin))
             else Ok amin) (fun amin' =>
  bind (wr smin i (lon_solution u ay amin')) (fun smin' => Ok (smax', smin', rss'))))).

(** models: gg_diagram, steady_state.hpp:683-881. *)
Definition gg_diagram (u : Q) (sv : solvers) (d : answer) (d0 : solution) (n : nat)
  : res (list solution * list solution) :=
  let r0 := solve u sv 0 0 None in
  let rl := solve_max_lat_acc u sv d in
  let ay_gg := linspace 0 (s_ay rl) n in
  bind (solve_max_lon_acc u sv d 0) (fun '(rmax, rmin) =>
  bind (for_range 0 (size_pred n) (gg_body u sv (s_rest r0) rl rmax rmin ay_gg)
          (repeat d0 n, repeat d0 n, r0)) (fun '(smax, smin, _) =>
  (* solution_max.back() = ..., solution_min.back() = ... *)
  match smax, smin with
  | [], _ | _, [] => UB
  | _, _ => bind (wr smax (length smax - 1) rl) (fun smax' =>
            bind (wr smin (length smin - 1) rl) (fun smin' => Ok (smax', smin')))
  end)).

(** models: compute_gg_diagram, fastestlapc.cpp:1097-1108: the numbers written to the three arrays of the caller.
    [n_points] is an int; negative numbers are left out. *)
Definition c_gg_diagram (u : Q) (sv : solvers) (d : answer) (d0 : solution) (n : nat)
  : res (list Q * list Q * list Q) :=
  bind (gg_diagram u sv d d0 n) (fun '(smax, smin) =>
  Ok (map s_ay smax, map s_ax smax, map s_ax smin)).

End Steady.
Arguments point : clear implicits.
Arguments answer : clear implicits.
Arguments solution : clear implicits.
Arguments solvers : clear implicits.
