(** Model of the optimal laptime problem handed to the NLP solver
    (src/core/applications/optimal_laptime.h and optimal_laptime.hpp): input checks,
    packing of the initial guess and bounds, unpacking inside of the objective, the
    objective and the constraints, the exported laptime and integral quantities, and
    the clean-up of the sensitivities. The solver itself is not modelled. *)
From Coq Require Import QArith Qabs ZArith String Bool Arith List.
From Verif Require Import M_Controls.
Import ListNotations.
Local Open Scope nat_scope.

(** for (size_t i = a; i < b; ++i) *)
Fixpoint loop {S} (n a : nat) (body : nat -> S -> res S) (st : S) : res S :=
  match n with
  | 0 => Ok st
  | Datatypes.S n' => bind (body a st) (loop n' (Datatypes.S a) body)
  end.
Definition for_range {S} (a b : nat) (body : nat -> S -> res S) (st : S) : res S := loop (b - a) a body st.

(** for (const auto& x : l) *)
Fixpoint for_each {A S} (l : list A) (body : A -> S -> res S) (st : S) : res S :=
  match l with
  | [] => Ok st
  | x :: l' => bind (body x st) (for_each l' body)
  end.

(** v[k] = a; k.increment();  with [k] and [v] the state *)
Definition put {A} (a : A) (st : nat * list A) : res (nat * list A) :=
  if fst st <? length (snd st)
  then Ok (Datatypes.S (fst st), firstn (fst st) (snd st) ++ a :: skipn (Datatypes.S (fst st)) (snd st))
  else UB.

(** l[i] = a *)
Definition set_at {A} (l : list A) (i : nat) (a : A) : res (list A) :=
  if i <? length l then Ok (firstn i l ++ a :: skipn (Datatypes.S i) l) else UB.

(** What the laptime problem uses of a car (Dynamic_model_t): sizes, the index of the
    time among the inputs and among the states, the equations, the extra constraints
    and their bounds, the integral quantities, the road, the default controls and the
    bounds of the control derivatives. *)
Record car := MkCar {
  n_inputs : nat;
  n_controls : nat;
  in_time : nat;
  st_time : nat;
  n_extra : nat;
  integral_names : list string;
  eval_states : list Q -> list Q -> Q -> list Q;
  eval_dstates : list Q -> list Q -> Q -> list Q;
  eval_extra : list Q -> list Q -> Q -> list Q;
  eval_integral : list Q -> list Q -> Q -> list Q;
  differential_ids : list nat;
  algebraic_ids : list nat;
  extra_lb : Q -> list Q;
  extra_ub : Q -> list Q;
  track_length : Q;
  left_limit : Q -> Q;
  right_limit : Q -> Q;
  controls_def : list Q;
  rate_lb : list Q;
  rate_ub : list Q }.

(** models: Integral_quantity, optimal_laptime.h:127-134 (name and value are kept
    elsewhere). *)
Record integral_bound := MkBound { ib_restrict : bool; ib_lower : Q; ib_upper : Q }.

(** models: the part of Options used here, optimal_laptime.h:33-60. *)
Record options := MkOptions {
  o_sigma : Q;
  o_inputs_lb : list Q; o_inputs_ub : list Q;
  o_controls_lb : list Q; o_controls_ub : list Q;
  o_integral : list (string * (Q * Q)) }.

(** std::numeric_limits<double>::max() *)
Definition dbl_max : Q := inject_Z (2 ^ 1024 - 2 ^ 971)%Z.

Definition tol (k : positive) : Q := 1 # (10 ^ k).

(** models: Optimal_laptime::check_inputs, the part on the arclengths,
    optimal_laptime.hpp:69-101. Returns the mesh as stored. *)
Definition check_mesh (closed : bool) (L : Q) (s : list Q) : res (list Q) :=
  if length s <=? 1 then Throw
  else
    let front := nth 0 s 0%Q in
    let back := nth (length s - 1) s 0%Q in
    if closed then
      if Qlt_bool (tol 12) (Qabs front) then Throw
      else if Qlt_bool (L - tol 10) back then Throw
      else Ok (0%Q :: tl s)
    else
      if Qlt_bool front (- tol 12) then Throw
      else if Qlt_bool L back then Throw
      else Ok s.

(** models: check_inputs, the part on the sizes, optimal_laptime.hpp:102-127. *)
Definition check_size_control (direct : bool) (n : nat) (c : control_variable) : res unit :=
  if kind_eqb (c_kind c) FULL_MESH then
    if negb (length (c_values c) =? n) then Throw
    else if direct
         then if negb (length (c_rates c) =? 0) then Throw else Ok tt
         else if negb (length (c_rates c) =? n) then Throw else Ok tt
  else Ok tt.
Definition check_sizes (direct : bool) (n : nat) (inputs : list (list Q)) (cs : list control_variable) : res unit :=
  if negb (length inputs =? n) then Throw
  else for_each cs (fun c _ => check_size_control direct n c) tt.

Fixpoint find_index (x : string) (l : list string) : option nat :=
  match l with
  | [] => None
  | y :: l' => if String.eqb y x then Some 0 else option_map S (find_index x l')
  end.

(** models: check_inputs, the part on the integral constraints,
    optimal_laptime.hpp:129-161. *)
Definition set_integrals (names : list string) (conf : list (string * (Q * Q))) : res (list integral_bound) :=
  for_each conf (fun c ib =>
    match find_index (fst c) names with
    | None => Throw
    | Some i => set_at ib i (MkBound true (fst (snd c)) (snd (snd c)))
    end) (map (fun _ => MkBound false (- dbl_max) dbl_max) names).

(** models: get_n_restricted, optimal_laptime.h:141. *)
Definition n_restricted (ib : list integral_bound) : nat := length (filter ib_restrict ib).

(** models: get_restricted_quantities, optimal_laptime.h:143-153. *)
Definition restricted_quantities (ib : list integral_bound) (values : list Q) : list Q :=
  map snd (filter (fun p => ib_restrict (fst p)) (combine ib values)).

(** models: n_elements, optimal_laptime.hpp:74. *)
Definition n_elements (closed : bool) (n : nat) : nat := if closed then n else n - 1.

(** models: n_variables_per_point and n_constraints_per_element,
    optimal_laptime_data.h:20-30; number of variables and constraints of FG_direct and
    FG_derivative, optimal_laptime.h:263-270 and 311-318. *)
Definition n_variables (direct closed : bool) (m : car) (n : nat) (cs : list control_variable) : nat :=
  n_elements closed n * (n_inputs m - 1 + (if direct then 1 else 2) * count_full cs)
  + count_constant cs + count_hypermesh_points cs.
Definition n_constraints (direct closed : bool) (m : car) (n : nat) (cs : list control_variable)
  (ib : list integral_bound) : nat :=
  n_elements closed n * (n_inputs m - 1 + n_extra m + (if direct then 0 else count_full cs))
  + n_restricted ib.

Definition offset (closed : bool) : nat := if closed then 0 else 1.

(** ** Packing: initial point and bounds of the variables *)

(** One entry of the vectors x_start, x_lb and x_ub, which are filled together. *)
Definition entry := (Q * (Q * Q))%type.

Section Pack.
Variables (m : car) (o : options) (s : list Q) (inputs : list (list Q)) (cs : list control_variable).

(** models: optimal_laptime.hpp:336-342, 356-362, 789-795 and 809-815. *)
Definition put_input (i j : nat) (st : nat * list entry) : res (nat * list entry) :=
  bind (rd inputs i) (fun row => bind (rd row j) (fun v =>
  bind (rd (o_inputs_lb o) j) (fun lb => bind (rd (o_inputs_ub o) j) (fun ub => put (v, (lb, ub)) st)))).

(** models: optimal_laptime.hpp:350-353 and 803-806 (lateral displacement follows the time). *)
Definition put_lateral (i : nat) (st : nat * list entry) : res (nat * list entry) :=
  bind (rd inputs i) (fun row => bind (rd row (in_time m + 1)) (fun v =>
  bind (rd s i) (fun si => put (v, ((- left_limit m si)%Q, right_limit m si)) st))).

(** models: optimal_laptime.hpp:365-374 and 818-827. *)
Definition put_full (i j : nat) (st : nat * list entry) : res (nat * list entry) :=
  bind (rd cs j) (fun c =>
  if kind_eqb (c_kind c) FULL_MESH then
    bind (rd (c_values c) i) (fun v => bind (rd (o_controls_lb o) j) (fun lb =>
    bind (rd (o_controls_ub o) j) (fun ub => put (v, (lb, ub)) st)))
  else Ok st).

(** models: optimal_laptime.hpp:830-839. *)
Definition put_rate (i j : nat) (st : nat * list entry) : res (nat * list entry) :=
  bind (rd cs j) (fun c =>
  if kind_eqb (c_kind c) FULL_MESH then
    bind (rd (c_rates c) i) (fun v => bind (rd (rate_lb m) j) (fun lb =>
    bind (rd (rate_ub m) j) (fun ub => put (v, (lb, ub)) st)))
  else Ok st).

(** models: the loop at optimal_laptime.hpp:383-389 (also 393-399, 848-854, 857-863). *)
Definition put_values (c : control_variable) (j : nat) (st : nat * list entry) : res (nat * list entry) :=
  for_range 0 (length (c_values c)) (fun i st =>
    bind (rd (c_values c) i) (fun v => bind (rd (o_controls_lb o) j) (fun lb =>
    bind (rd (o_controls_ub o) j) (fun ub => put (v, (lb, ub)) st)))) st.

(** models: optimal_laptime.hpp:335-374. *)
Definition put_point_direct (i : nat) (st : nat * list entry) : res (nat * list entry) :=
  bind (for_range 0 (in_time m) (put_input i) st) (fun st =>
  bind (put_lateral i st) (fun st =>
  bind (for_range (in_time m + 2) (n_inputs m) (put_input i) st) (fun st =>
  for_range 0 (n_controls m) (put_full i) st))).

(** models: optimal_laptime.hpp:377-404. *)
Definition put_rest_direct (j : nat) (st : nat * list entry) : res (nat * list entry) :=
  bind (rd cs j) (fun c =>
  match c_kind c with
  | CONSTANT => put_values c j st
  | HYPERMESH => put_values c j st
  | _ => Ok st
  end).

(** models: optimal_laptime.hpp:788-839. *)
Definition put_point_derivative (i : nat) (st : nat * list entry) : res (nat * list entry) :=
  bind (put_point_direct i st) (fun st => for_range 0 (n_controls m) (put_rate i) st).

(** models: optimal_laptime.hpp:842-867. There is no break after the CONSTANT case. *)
Definition put_rest_derivative (j : nat) (st : nat * list entry) : res (nat * list entry) :=
  bind (rd cs j) (fun c =>
  match c_kind c with
  | CONSTANT => bind (put_values c j st) (put_values c j)
  | HYPERMESH => put_values c j st
  | _ => Ok st
  end).

(** models: optimal_laptime.hpp:325-404 with the check at 485-491, and the same lines of
    compute_derivative, 778-867 and 969-975. *)
Definition pack (direct closed : bool) : res (list entry) :=
  let nv := n_variables direct closed m (length s) cs in
  let x0 := repeat (0%Q, ((- dbl_max)%Q, dbl_max)) nv in
  bind (for_range (offset closed) (length s)
          (if direct then put_point_direct else put_point_derivative) (0, x0)) (fun st =>
  bind (for_range 0 (n_controls m)
          (if direct then put_rest_direct else put_rest_derivative) st) (fun st =>
  if fst st =? nv then Ok (snd st) else Throw)).
End Pack.

(** ** Unpacking inside of the objective *)

(** The counter, the inputs and the controls held by FG. *)
Definition unpacked := (nat * (list (list Q) * list control_variable))%type.

Section Unpack.
Variables (m : car) (x : list Q).

(** models: _inputs[i][j] = x[k++], optimal_laptime.hpp:1272-1277 and 1474-1479. *)
Definition load_input (i j : nat) (st : unpacked) : res unpacked :=
  let '(k, (ins, cs)) := st in
  bind (rd x k) (fun v => bind (rd ins i) (fun row => bind (set_at row j v) (fun row' =>
  bind (set_at ins i row') (fun ins' => Ok (S k, (ins', cs)))))).

(** models: control_variable.controls[i] = x[k++] for control [j],
    optimal_laptime.hpp:1283, 1294, 1298, 1485, 1503, 1507. *)
Definition load_value (i j : nat) (st : unpacked) : res unpacked :=
  let '(k, (ins, cs)) := st in
  bind (rd x k) (fun v => bind (rd cs j) (fun c => bind (set_at (c_values c) i v) (fun vs =>
  bind (set_at cs j (set_values c vs)) (fun cs' => Ok (S k, (ins, cs')))))).

(** models: control_variable.dcontrols_dt[i] = x[k++] for control [j],
    optimal_laptime.hpp:1492. *)
Definition load_rate (i j : nat) (st : unpacked) : res unpacked :=
  let '(k, (ins, cs)) := st in
  bind (rd x k) (fun v => bind (rd cs j) (fun c => bind (set_at (c_rates c) i v) (fun vs =>
  bind (set_at cs j (set_rates c vs)) (fun cs' => Ok (S k, (ins, cs')))))).

Definition if_full (load : nat -> nat -> unpacked -> res unpacked) (i j : nat) (st : unpacked) : res unpacked :=
  bind (rd (snd (snd st)) j) (fun c => if kind_eqb (c_kind c) FULL_MESH then load i j st else Ok st).

(** models: optimal_laptime.hpp:1271-1284 (direct) and 1473-1493 (derivative). *)
Definition load_point (direct : bool) (i : nat) (st : unpacked) : res unpacked :=
  bind (for_range 0 (in_time m) (load_input i) st) (fun st =>
  bind (for_range (in_time m + 1) (n_inputs m) (load_input i) st) (fun st =>
  bind (for_range 0 (n_controls m) (if_full load_value i) st) (fun st =>
  if direct then Ok st else for_range 0 (n_controls m) (if_full load_rate i) st))).

(** models: optimal_laptime.hpp:1290-1302 and 1499-1511. *)
Definition load_rest (j : nat) (st : unpacked) : res unpacked :=
  bind (rd (snd (snd st)) j) (fun c =>
  match c_kind c with
  | CONSTANT => for_range 0 (length (c_values c)) (fun i => load_value i j) st
  | HYPERMESH => for_range 0 (length (c_values c)) (fun i => load_value i j) st
  | _ => Ok st
  end).

(** models: the stored initial condition of open simulations,
    optimal_laptime.hpp:1250-1263 and 1450-1466. *)
Definition start_control (direct : bool) (u0 du0 : list Q) (j : nat) (cs : list control_variable)
  : res (list control_variable) :=
  bind (rd cs j) (fun c =>
  if kind_eqb (c_kind c) FULL_MESH then
    bind (rd u0 j) (fun u => bind (set_at (c_values c) 0 u) (fun vs =>
    if direct then set_at cs j (set_values c vs)
    else bind (rd du0 j) (fun du => bind (set_at (c_rates c) 0 du) (fun rs =>
         set_at cs j (set_rates (set_values c vs) rs)))))
  else Ok cs).
Definition start_point (direct : bool) (q0 u0 du0 : list Q) (cf : list (list Q) * list control_variable)
  : res (list (list Q) * list control_variable) :=
  bind (set_at (fst cf) 0 q0) (fun ins =>
  bind (for_range 0 (n_controls m) (start_control direct u0 du0) (snd cf)) (fun cs => Ok (ins, cs))).

(** models: the loading part of FG_direct::compute and FG_derivative::compute,
    optimal_laptime.hpp:1247-1306 and 1447-1516, on the vectors as constructed
    (optimal_laptime.h:203-207: inputs and controls full of zeros). [q0], [u0], [du0]
    are the initial point of open simulations. The asserted final counter is
    returned. *)
Definition unpack (direct closed : bool) (q0 u0 du0 : list Q) (n : nat) (cs : list control_variable) : res unpacked :=
  let cf := (repeat (repeat 0%Q (n_inputs m)) n, map clear_control cs) in
  bind (if closed then Ok cf else start_point direct q0 u0 du0 cf) (fun cf =>
  bind (for_range (offset closed) n (load_point direct) (0, cf)) (fun st =>
  for_range 0 (n_controls m) load_rest st)).
End Unpack.

(** ** Bounds of the constraints *)

Section Constraint_bounds.
Variables (m : car) (s : list Q) (cs : list control_variable) (ib : list integral_bound).

(** models: optimal_laptime.hpp:415-440 and the bodies 877-914. [si] is the arclength
    given to optimal_laptime_extra_constraints_bounds. *)
Definition put_bounds_element (direct : bool) (si : Q) (st : nat * list (Q * Q)) : res (nat * list (Q * Q)) :=
  bind (for_range 0 (length (differential_ids m)) (fun _ => put (0%Q, 0%Q)) st) (fun st =>
  bind (for_range 0 (length (algebraic_ids m)) (fun _ => put (0%Q, 0%Q)) st) (fun st =>
  bind (for_range 0 (n_extra m) (fun j st =>
          bind (rd (extra_lb m si) j) (fun lb => bind (rd (extra_ub m si) j) (fun ub => put (lb, ub) st))) st) (fun st =>
  if direct then Ok st
  else for_range 0 (n_controls m) (fun j st =>
         bind (rd cs j) (fun c => if kind_eqb (c_kind c) FULL_MESH then put (0%Q, 0%Q) st else Ok st)) st))).

(** models: optimal_laptime.hpp:406-483, 493-498 and 869-982. *)
Definition constraint_bounds (direct closed : bool) : res (list (Q * Q)) :=
  let nc := n_constraints direct closed m (length s) cs ib in
  bind (for_range 1 (length s) (fun i st => bind (rd s i) (fun si => put_bounds_element direct si st))
          (0, repeat (0%Q, 0%Q) nc)) (fun st =>
  bind (if closed then bind (rd s 0) (fun s0 => put_bounds_element direct s0 st) else Ok st) (fun st =>
  bind (for_each ib (fun q st => if ib_restrict q then put (ib_lower q, ib_upper q) st else Ok st) st) (fun st =>
  if fst st =? nc then Ok (snd st) else Throw))).
End Constraint_bounds.

(** ** Objective and constraints *)

(** What the objective records of the car evaluated at a point: states, their
    derivatives with respect to the arclength, extra constraints, and the integrands of
    the integral quantities. The extra constraints and the integral quantities are read
    from the car right after it is evaluated at the point (optimal_laptime.hpp:1343-1352,
    1389-1394), so that they are functions of the same arguments. *)
Record evaluation := MkEval { e_states : list Q; e_dstates : list Q; e_extra : list Q; e_integrands : list Q }.

Definition vscale (a : Q) (v : list Q) : list Q := map (Qmult a) v.
Fixpoint vadd (v w : list Q) : list Q :=
  match v, w with
  | a :: v', b :: w' => (a + b)%Q :: vadd v' w'
  | _, _ => []
  end.

Section Objective.
Variables (m : car) (sigma : Q) (s : list Q) (cs : list control_variable) (ib : list integral_bound).

(** models: one evaluation of the car, optimal_laptime.hpp:1310-1318, 1325-1327, 1352 and 1520-1529. *)
Definition evaluate_point (inputs : list (list Q)) (i : nat) : res evaluation :=
  bind (rd inputs i) (fun row => bind (rd s i) (fun si =>
  bind (control_array_at_s cs (controls_def m) i si) (fun u =>
  let d := eval_dstates m row u si in
  bind (rd d (st_time m)) (fun dt =>
  Ok (MkEval (eval_states m row u si) d (eval_extra m row u si) (vscale dt (eval_integral m row u si))))))).
Definition evaluate_all (inputs : list (list Q)) : res (list evaluation) :=
  all_ok (map (evaluate_point inputs) (seq 0 (length s))).

(** fg[0], then the counter and the constraints fg[1..], then the integral quantities. *)
Definition fg_state := (Q * ((nat * list Q) * list Q))%type.

Definition put_fg (v : Q) (st : fg_state) : res fg_state :=
  let '(obj, (cv, ints)) := st in bind (put v cv) (fun cv => Ok (obj, (cv, ints))).
Definition add_obj (v : Q) (st : fg_state) : fg_state := let '(obj, rest) := st in ((obj + v)%Q, rest).
Definition add_ints (v : list Q) (st : fg_state) : fg_state :=
  let '(obj, (cv, ints)) := st in (obj, (cv, vadd ints v)).

(** models: optimal_laptime.hpp:1337-1338, 1383-1384, 1560-1561, 1618-1619. *)
Definition put_differential (ds : Q) (el er : evaluation) (id : nat) (st : fg_state) : res fg_state :=
  bind (rd (e_states er) id) (fun qr => bind (rd (e_states el) id) (fun ql =>
  bind (rd (e_dstates el) id) (fun dl => bind (rd (e_dstates er) id) (fun dr =>
  put_fg (qr - ql - ds * ((1 - sigma) * dl + sigma * dr))%Q st)))).
(** models: optimal_laptime.hpp:1340-1341, 1386-1387, 1563-1564, 1621-1622. *)
Definition put_algebraic (dt_right : Q) (er : evaluation) (id : nat) (st : fg_state) : res fg_state :=
  bind (rd (e_dstates er) id) (fun dr => put_fg (dr / dt_right)%Q st).
(** models: optimal_laptime.hpp:1344-1347, 1389-1394, 1567-1570, 1625-1629. *)
Definition put_extra (er : evaluation) (j : nat) (st : fg_state) : res fg_state :=
  bind (rd (e_extra er) j) (fun v => put_fg v st).
(** models: optimal_laptime.hpp:1573-1583, 1632-1641. [l] and [r] are the indices of the
    two ends. *)
Definition put_control_rate (ds dt_left dt_right : Q) (l r : nat) (c : control_variable) (st : fg_state) : res fg_state :=
  if kind_eqb (c_kind c) FULL_MESH then
    bind (rd (c_values c) r) (fun vr => bind (rd (c_values c) l) (fun vl =>
    bind (rd (c_rates c) l) (fun rl => bind (rd (c_rates c) r) (fun rr =>
    put_fg (vr - vl - ds * ((1 - sigma) * rl * dt_left + sigma * rr * dt_right))%Q st))))
  else Ok st.
(** models: optimal_laptime.hpp:1547-1555, 1605-1613: the squared derivatives at the
    indices [a] and [b]. *)
Definition add_rate_penalty (ds : Q) (a b : nat) (c : control_variable) (st : fg_state) : res fg_state :=
  if kind_eqb (c_kind c) FULL_MESH then
    bind (rd (c_rates c) a) (fun ra => bind (rd (c_rates c) b) (fun rb =>
    Ok (add_obj ((1 # 2) * c_dissipation c * (ra * ra + rb * rb) * ds)%Q st)))
  else Ok st.
(** models: optimal_laptime.hpp:1357-1368 and 1397-1404. *)
Definition add_value_penalty (ds : Q) (l r : nat) (c : control_variable) (st : fg_state) : res fg_state :=
  if kind_eqb (c_kind c) FULL_MESH then
    bind (rd (c_values c) r) (fun vr => bind (rd (c_values c) l) (fun vl =>
    let derivative := ((vr - vl) / ds)%Q in
    Ok (add_obj (c_dissipation c * (derivative * derivative) * ds)%Q st)))
  else Ok st.

(** models: the body of the loops at optimal_laptime.hpp:1323-1355 and 1534-1591 up to the
    integral quantities, and the closing elements 1372-1394 and 1597-1641. [l] and [r]
    are the two ends, [ds] the length; [pen] is the index whose squared control
    derivative is paired with that of [r] in the penalty of the derivative
    formulation. *)
Definition fg_element (direct : bool) (evs : list evaluation) (ds : Q) (l r pen : nat) (st : fg_state) : res fg_state :=
  bind (rd evs l) (fun el => bind (rd evs r) (fun er =>
  bind (rd (e_dstates el) (st_time m)) (fun dtl => bind (rd (e_dstates er) (st_time m)) (fun dtr =>
  let st := add_obj (ds * ((1 - sigma) * dtl + sigma * dtr))%Q st in
  bind (if direct then Ok st else for_each cs (add_rate_penalty ds pen r) st) (fun st =>
  bind (for_each (differential_ids m) (put_differential ds el er) st) (fun st =>
  bind (for_each (algebraic_ids m) (put_algebraic dtr er) st) (fun st =>
  bind (for_range 0 (n_extra m) (put_extra er) st) (fun st =>
  if direct then Ok st else for_each cs (put_control_rate ds dtl dtr l r) st)))))))).

(** models: _integral_quantities_values += ..., optimal_laptime.hpp:1353, 1409, 1589 and 1646. [a] is
    the point weighted with 1 - sigma and [b] the one weighted with sigma. *)
Definition integral_element (evs : list evaluation) (ds : Q) (a b : nat) (st : fg_state) : res fg_state :=
  bind (rd evs a) (fun ea => bind (rd evs b) (fun eb =>
  Ok (add_ints (vscale ds (vadd (vscale (1 - sigma) (e_integrands ea)) (vscale sigma (e_integrands eb)))) st))).

(** models: FG_direct::compute and FG_derivative::compute after loading,
    optimal_laptime.hpp:1309-1417 and 1519-1654. [integ] is the template argument
    compute_integrated_quantities. In the loop the derivative formulation writes
    dcontrols_dt[i-i]. In the closing element the integral quantities weight the front
    with 1 - sigma and the back with sigma. *)
Definition fg_compute (direct closed integ : bool) (evs : list evaluation) : res fg_state :=
  let n := length s in
  let nc := n_constraints direct closed m n cs ib in
  let st0 := (0%Q, ((0, repeat 0%Q nc), map (fun _ => 0%Q) ib)) in
  let last := n - 1 in
  bind (for_range 1 n (fun i st =>
          bind (rd s i) (fun si => bind (rd s (i - 1)) (fun sp =>
          bind (fg_element direct evs (si - sp)%Q (i - 1) i (i - i) st) (fun st =>
          if integ then integral_element evs (si - sp)%Q (i - 1) i st else Ok st)))) st0) (fun st =>
  bind (if direct
        then for_each cs (fun c => for_range 1 n (fun i st =>
               bind (rd s i) (fun si => bind (rd s (i - 1)) (fun sp => add_value_penalty (si - sp)%Q (i - 1) i c st)))) st
        else Ok st) (fun st =>
  bind (if closed
        then bind (rd s last) (fun sl =>
             let ds := (track_length m - sl)%Q in
             bind (fg_element direct evs ds last 0 last st) (fun st =>
             bind (if direct then for_each cs (add_value_penalty ds last 0) st else Ok st) (fun st =>
             if integ then integral_element evs ds 0 last st else Ok st)))
        else Ok st) (fun st =>
  if integ then for_each (restricted_quantities ib (snd (snd st))) put_fg st else Ok st))).

(** models: time recovered for the solution, optimal_laptime.hpp:605-634 and 1095-1124.
    [t0] is the time of the first exported input. Returns the times of the points and
    the laptime. *)
Definition export_time (closed : bool) (evs : list evaluation) (t0 : Q) : res (list Q * Q) :=
  let n := length s in
  bind (rd evs 0) (fun e0 => bind (rd (e_dstates e0) (st_time m)) (fun dt0 =>
  bind (for_range 1 n (fun i st =>
          let '(times, prev) := st in
          bind (rd evs i) (fun e => bind (rd (e_dstates e) (st_time m)) (fun dt =>
          bind (rd times (i - 1)) (fun tp => bind (rd s i) (fun si => bind (rd s (i - 1)) (fun sp =>
          Ok (times ++ [(tp + (si - sp) * (sigma * dt + (1 - sigma) * prev))%Q], dt)))))))
        ([t0], dt0)) (fun st =>
  let '(times, prev) := st in
  bind (rd times (n - 1)) (fun tl => bind (rd s (n - 1)) (fun sl =>
  Ok (times, if closed then (tl + (track_length m - sl) * ((1 - sigma) * prev + sigma * dt0))%Q else tl)))))).
End Objective.

(** ** Sensitivities *)

(** models: the clean-up of the derivatives with respect to one parameter in open
    simulations, optimal_laptime.hpp:664-670 and 1154-1160. [dcs] holds one entry per
    control variable. *)
Definition clean_sensitivity (closed : bool) (dinputs : list (list Q)) (dcs : list control_variable)
  : res (list (list Q) * list control_variable) :=
  if closed then Ok (dinputs, dcs)
  else match dinputs, dcs with
       | r :: rows, c :: cs => Ok (map (fun _ => 0%Q) r :: rows, clear_control c :: cs)
       | _, _ => UB
       end.

(** models: warm start, optimal_laptime.hpp:501-523 and 985-1008. *)
Definition check_warm_start (nv nc : nat) (zl zu lambda : list Q) : res unit :=
  if negb (length zl =? nv) then Throw
  else if negb (length zu =? nv) then Throw
  else if negb (length lambda =? nc) then Throw
  else Ok tt.

(** models: FG_direct::operator() and FG_derivative::operator(),
    optimal_laptime.h:281-287 and 329-335. *)
Definition fg_call (m : car) (sigma : Q) (s : list Q) (cs : list control_variable) (ib : list integral_bound)
  (direct closed : bool) (evs : list evaluation) : res fg_state :=
  fg_compute m sigma s cs ib direct closed (0 <? n_restricted ib) evs.
