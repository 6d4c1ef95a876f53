(** Model of the optimisation problem of the circuit preprocessor
    (src/core/applications/circuit_preprocessor.h and .hpp): conversion and trimming of the GPS
    coordinates, initial angles, packing of the start vector and of the bounds, the objective and
    the constraints handed to the NLP solver, and the circuit loaded from the solution. Real
    numbers instead of doubles. The solver, find_closest_point, atan2, wrap_to_pi and rotmat2ea
    are outside of the repository: function parameters, or inputs. *)
From Coq Require Import Reals Bool Arith.
From Coq Require Import List.
From Verif Require Import M_Controls M_Laptime M_Vec M_Road M_Errors.
Import ListNotations.
Local Open Scope R_scope.

(** ** Options, names *)

(** models: the weights and bounds of Circuit_preprocessor::Options, circuit_preprocessor.h:27-44. *)
Record weights := Weights {
  eps_d : R; eps_k : R; eps_n : R; eps_c : R; eps_pitch : R; eps_roll : R;
  max_yaw_dot : R; max_dyaw_dot : R; max_dn : R }.

(** models: state_names and control_names, circuit_preprocessor.h:236-261. [el] is true for
    elevation_computation_names, false for flat_computation_names. *)
Definition n_states (el : bool) : nat := if el then 11 else 6.
Definition n_ctrls (el : bool) : nat := if el then 5 else 3.
Definition st_x : nat := 0.
Definition st_y : nat := 1.
Definition st_z : nat := 2.
Definition st_yaw (el : bool) : nat := if el then 3 else 2.
Definition st_pitch : nat := 4.
Definition st_roll : nat := 5.
Definition st_yaw_dot (el : bool) : nat := if el then 6 else 3.
Definition st_pitch_dot : nat := 7.
Definition st_roll_dot : nat := 8.
Definition st_nl (el : bool) : nat := if el then 9 else 4.
Definition st_nr (el : bool) : nat := if el then 10 else 5.
Definition ct_dyaw_dot : nat := 0.
Definition ct_dpitch_dot : nat := 1.
Definition ct_droll_dot : nat := 2.
Definition ct_dnl (el : bool) : nat := if el then 3 else 1.
Definition ct_dnr (el : bool) : nat := if el then 4 else 2.

(** Element of a std::array at one of the indices above. *)
Definition at_ (l : list R) (i : nat) : R := nth i l 0.

(** models: FG::FG, number of variables and of constraints, circuit_preprocessor.h:281-282. *)
Definition n_variables (el : bool) (n_points : nat) : nat := 1 + (n_states el + n_ctrls el) * n_points.
Definition n_constraints (closed el : bool) (n_elements : nat) : nat :=
  1 + n_states el * n_elements + (if closed then 0 else 1).

(** Euler angles of a state; the flat problem has no pitch and no roll. *)
Definition st_euler (el : bool) (q : list R) : euler :=
  Euler (at_ q (st_yaw el)) (if el then at_ q st_pitch else 0) (if el then at_ q st_roll else 0).

(** models: FG::equations, circuit_preprocessor.h:291-314. *)
Definition equations (el : bool) (q u : list R) : list R :=
  if el then
    [ cos (at_ q (st_yaw el)) * cos (at_ q st_pitch);
      sin (at_ q (st_yaw el)) * cos (at_ q st_pitch);
      - sin (at_ q st_pitch);
      at_ q (st_yaw_dot el); at_ q st_pitch_dot; at_ q st_roll_dot;
      at_ u ct_dyaw_dot; at_ u ct_dpitch_dot; at_ u ct_droll_dot;
      at_ u (ct_dnl el); at_ u (ct_dnr el) ]
  else
    [ cos (at_ q (st_yaw el)); sin (at_ q (st_yaw el)); at_ q (st_yaw_dot el);
      at_ u ct_dyaw_dot; at_ u (ct_dnl el); at_ u (ct_dnr el) ].

(** models: FG::get_coordinates, circuit_preprocessor.h:316-337. *)
Definition get_coordinates (el : bool) (q : list R) (n : R) : vec :=
  if el then coordinates (V (at_ q st_x) (at_ q st_y) (at_ q st_z)) (st_euler el q) n
  else coordinates_flat (at_ q st_x) (at_ q st_y) (at_ q (st_yaw el)) n.

(** ** The objective and the constraints *)

(** Reading [n] consecutive elements from [k] on. *)
Definition read_n (x : list R) (k n : nat) : res (list R) := all_ok (map (fun j => rd x (k + j)) (seq 0 n)).

(** models: loading of the states and controls, circuit_preprocessor.hpp:1481-1500 (and, by
    offsets, 648-651): [n] points from position [k] on. *)
Fixpoint load_points (el : bool) (x : list R) (k n : nat) : res (list (list R * list R)) :=
  match n with
  | O => Ok []
  | S n' =>
      bind (read_n x k (n_states el)) (fun q =>
      bind (read_n x (k + n_states el) (n_ctrls el)) (fun u =>
      bind (load_points el x (k + n_states el + n_ctrls el) n') (fun t => Ok ((q, u) :: t))))
  end.

(** A point of the scheme: state, controls, the right-hand sides, and the squared distances of
    its two boundary points and of its centre to the measured curves. *)
Record node := Node { nq : list R; nu : list R; ndq : list R; nd_left : R; nd_right : R; nd_center : R }.

Section Fg.
  (** find_closest_point of lion: curve, point, whether the curve is closed, node to start from;
      returns the squared distance and the two nodes around the closest point. The maximum
      distance and the closest point itself are left out. *)
  Context (closest : list vec -> vec -> bool -> nat -> R * (nat * nat)).

  (** models: the distances of all points to a curve, circuit_preprocessor.hpp:1513-1515 and
      1526-1528: the search starts at the smaller of the two nodes found for the previous
      point, and the curve is passed as closed. *)
  Fixpoint distances (curve : list vec) (start : nat) (points : list vec) : list R :=
    match points with
    | [] => []
    | p :: points' =>
        let r := closest curve p true start in
        fst r :: distances curve (Nat.min (fst (snd r)) (snd (snd r))) points'
    end.

  (** models: the nodes computed at circuit_preprocessor.hpp:1505-1528. *)
  Definition nodes (el : bool) (left_curve right_curve center_curve : list vec)
             (pts : list (list R * list R)) : list node :=
    let dl := distances left_curve 0 (map (fun p => get_coordinates el (fst p) (- at_ (fst p) (st_nl el))) pts) in
    let dr := distances right_curve 0 (map (fun p => get_coordinates el (fst p) (at_ (fst p) (st_nr el))) pts) in
    let dc := distances center_curve 0 (map (fun p => get_coordinates el (fst p) 0) pts) in
    map (fun t => let '(p, (a, (b, c))) := t in Node (fst p) (snd p) (equations el (fst p) (snd p)) a b c)
        (combine pts (combine dl (combine dr dc))).

  (** models: the terms added to fg[0] for one element, circuit_preprocessor.hpp:1530-1543, with
      [p] the previous and [n] the current point. *)
  Definition element_cost (el : bool) (w : weights) (ds : R) (p n : node) : R :=
    0.5 * ds * eps_d w * (nd_left n + nd_left p)
    + 0.5 * ds * eps_d w * (nd_right n + nd_right p)
    + 0.5 * ds * eps_c w * (nd_center n + nd_center p)
    + 0.5 * ds * eps_k w * (at_ (nu n) ct_dyaw_dot * at_ (nu n) ct_dyaw_dot + at_ (nu p) ct_dyaw_dot * at_ (nu p) ct_dyaw_dot)
    + 0.5 * ds * eps_n w * (at_ (nu n) (ct_dnl el) * at_ (nu n) (ct_dnl el) + at_ (nu p) (ct_dnl el) * at_ (nu p) (ct_dnl el))
    + 0.5 * ds * eps_n w * (at_ (nu n) (ct_dnr el) * at_ (nu n) (ct_dnr el) + at_ (nu p) (ct_dnr el) * at_ (nu p) (ct_dnr el))
    + (if el then
         0.5 * ds * eps_pitch w * (at_ (nu n) ct_dpitch_dot * at_ (nu n) ct_dpitch_dot + at_ (nu p) ct_dpitch_dot * at_ (nu p) ct_dpitch_dot)
         + 0.5 * ds * eps_roll w * (at_ (nu n) ct_droll_dot * at_ (nu n) ct_droll_dot + at_ (nu p) ct_droll_dot * at_ (nu p) ct_droll_dot)
       else 0).

  (** models: the terms added to fg[0] for the closing element, circuit_preprocessor.hpp:1556-1561,
      with [n] the first and [p] the last point. *)
  Definition closing_cost (el : bool) (w : weights) (ds : R) (p n : node) : R :=
    0.5 * ds * eps_d w * (nd_left n + nd_left p)
    + 0.5 * ds * eps_d w * (nd_right n + nd_right p)
    + 0.5 * ds * eps_c w * (nd_center n + nd_center p)
    + 0.5 * ds * eps_k w * (at_ (nu n) ct_dyaw_dot * at_ (nu n) ct_dyaw_dot + at_ (nu p) ct_dyaw_dot * at_ (nu p) ct_dyaw_dot)
    + 0.5 * ds * eps_n w * (at_ (nu n) (ct_dnl el) * at_ (nu n) (ct_dnl el) + at_ (nu p) (ct_dnl el) * at_ (nu p) (ct_dnl el))
    + 0.5 * ds * eps_n w * (at_ (nu n) (ct_dnr el) * at_ (nu n) (ct_dnr el) + at_ (nu p) (ct_dnr el) * at_ (nu p) (ct_dnr el)).

  (** models: the scheme equations of one element, circuit_preprocessor.hpp:1545-1547 and
      1563-1566; [turn] is added to the equation of the yaw. *)
  Definition element_defects (el : bool) (ds turn : R) (p n : node) : list R :=
    map (fun j => at_ (nq n) j - at_ (nq p) j - 0.5 * ds * (at_ (ndq p) j + at_ (ndq n) j)
                  + (if (j =? st_yaw el)%nat then turn else 0))
        (seq 0 (n_states el)).

  (** models: the loop over the elements, circuit_preprocessor.hpp:1518-1548. *)
  Definition inner_elements (el : bool) (w : weights) (factor : R) (ds : list R) (ns : list node)
             (n_points : nat) : res (R * list R) :=
    for_range 1 n_points (fun i st =>
      bind (rd ns i) (fun n =>
      bind (rd ns (i - 1)) (fun p =>
      bind (rd ds (i - 1)) (fun d =>
      Ok (fst st + element_cost el w (factor * d) p n,
          snd st ++ element_defects el (factor * d) 0 p n))))) (0, []).

  (** models: the constraint that a point lies on the line through the two ends of the start (or
      finish) line, circuit_preprocessor.hpp:1569-1581. *)
  Definition line_constraint (el : bool) (l r : vec) (q : list R) : R :=
    let p := vsub l r in vz (cross p (vsub (get_coordinates el q 0) r)) / dot p p.

  Definition front {A} (l : list A) : res A := rd l 0.
  Definition back {A} (l : list A) : res A := match l with [] => UB | _ => rd l (length l - 1) end.

  (** models: FG::operator(), circuit_preprocessor.hpp:1475-1584: the objective and the list of
      the constraints. [direction] is 1 (counterclockwise), -1 (clockwise) or 0. *)
  Definition fg (closed el : bool) (w : weights) (n_elements n_points : nat) (ds : list R)
             (left_curve right_curve center_curve : list vec) (direction : R) (x : list R) : res (R * list R) :=
    bind (rd x 0) (fun factor =>
    bind (load_points el x 1 n_points) (fun pts =>
    let ns := nodes el left_curve right_curve center_curve pts in
    bind (rd ns 0) (fun first =>
    bind (inner_elements el w factor ds ns n_points) (fun st =>
    bind (if closed
          then bind (back ds) (fun d => bind (rd ns (n_elements - 1)) (fun p =>
                 Ok (fst st + closing_cost el w (factor * d) p first,
                     snd st ++ element_defects el (factor * d) (2 * PI * direction) p first)))
          else Ok st) (fun st =>
    bind (front left_curve) (fun lf => bind (front right_curve) (fun rf =>
    let st := (fst st, snd st ++ [line_constraint el lf rf (nq first)]) in
    if closed then Ok st
    else bind (back left_curve) (fun lb => bind (back right_curve) (fun rb => bind (back ns) (fun n =>
           Ok (fst st, snd st ++ [line_constraint el lb rb (nq n)]))))))))))).
End Fg.

(** ** The circuit loaded from the solution *)

(** Quantities exported at one point. *)
Record track_point := TrackPoint {
  tp_center : vec; tp_left : vec; tp_right : vec;
  tp_angles : euler; tp_rates : euler; tp_accel : euler;
  tp_nl : R; tp_nr : R; tp_dnl : R; tp_dnr : R }.
Record circuit_out := CircuitOut { co_s : list R; co_length : R; co_points : list track_point }.

(** models: circuit_preprocessor.hpp:653-677. The entries of the flat problem without a
    counterpart stay at the zero they were created with (624-640). *)
Definition export_point (el : bool) (qu : list R * list R) : track_point :=
  let q := fst qu in let u := snd qu in
  TrackPoint (get_coordinates el q 0) (get_coordinates el q (- at_ q (st_nl el))) (get_coordinates el q (at_ q (st_nr el)))
    (st_euler el q)
    (Euler (at_ q (st_yaw_dot el)) (if el then at_ q st_pitch_dot else 0) (if el then at_ q st_roll_dot else 0))
    (Euler (at_ u ct_dyaw_dot) (if el then at_ u ct_dpitch_dot else 0) (if el then at_ u ct_droll_dot else 0))
    (at_ q (st_nl el)) (at_ q (st_nr el)) (at_ u (ct_dnl el)) (at_ u (ct_dnr el)).

(** models: circuit_preprocessor.hpp:622-678. [ds] are the lengths of the elements between
    consecutive points, [last_ds] that of the closing element (used only when closed). *)
Definition export_circuit (closed el : bool) (n_points : nat) (ds : list R) (last_ds : R) (x : list R) : res circuit_out :=
  bind (rd x 0) (fun factor =>
  bind (load_points el x 1 n_points) (fun pts =>
  let s := arclengths 0 factor ds in
  Ok (CircuitOut s (last s 0 + (if closed then last_ds * factor else 0)) (map (export_point el) pts)))).

(** ** Start vector and bounds *)

(** Values of the initial estimate at one point, circuit_preprocessor.hpp:291-306. *)
Record guess := Guess {
  g_x : R; g_y : R; g_z : R; g_yaw : R; g_pitch : R; g_roll : R;
  g_yaw_dot : R; g_pitch_dot : R; g_roll_dot : R; g_nl : R; g_nr : R;
  g_dyaw_dot : R; g_dpitch_dot : R; g_droll_dot : R; g_dnl : R; g_dnr : R }.

Definition DEG : R := PI / 180.

(** models: x[k++] = ... for one point, circuit_preprocessor.hpp:490-524. *)
Definition start_point (el : bool) (g : guess) : list R :=
  [g_x g; g_y g] ++ (if el then [g_z g] else []) ++ [g_yaw g] ++ (if el then [g_pitch g; g_roll g] else [])
  ++ [g_yaw_dot g] ++ (if el then [g_pitch_dot g; g_roll_dot g] else []) ++ [g_nl g; g_nr g] ++ [g_dyaw_dot g]
  ++ (if el then [g_dpitch_dot g; g_droll_dot g] else []) ++ [g_dnl g; g_dnr g].
(** models: x_lb[k_lb++] = ..., circuit_preprocessor.hpp:526-559. *)
Definition lower_point (el : bool) (w : weights) (g : guess) : list R :=
  [g_x g - 100; g_y g - 100] ++ (if el then [g_z g - 10] else []) ++ [g_yaw g - 30 * DEG]
  ++ (if el then [g_pitch g - 10 * DEG; g_roll g - 10 * DEG] else [])
  ++ [- max_yaw_dot w] ++ (if el then [- max_yaw_dot w; - max_yaw_dot w] else []) ++ [1; 1] ++ [- max_dyaw_dot w]
  ++ (if el then [- max_dyaw_dot w; - max_dyaw_dot w] else []) ++ [- max_dn w; - max_dn w].
(** models: x_ub[k_ub++] = ..., circuit_preprocessor.hpp:561-594. *)
Definition upper_point (el : bool) (w : weights) (g : guess) : list R :=
  [g_x g + 100; g_y g + 100] ++ (if el then [g_z g + 10] else []) ++ [g_yaw g + 30 * DEG]
  ++ (if el then [g_pitch g + 10 * DEG; g_roll g + 10 * DEG] else [])
  ++ [max_yaw_dot w] ++ (if el then [max_yaw_dot w; max_yaw_dot w] else []) ++ [g_nl g + g_nr g; g_nl g + g_nr g] ++ [max_dyaw_dot w]
  ++ (if el then [max_dyaw_dot w; max_dyaw_dot w] else []) ++ [max_dn w; max_dn w].
(** models: circuit_preprocessor.hpp:479-595. *)
Definition start_vector (el : bool) (gs : list guess) : list R := 1 :: flat_map (start_point el) gs.
Definition lower_vector (el : bool) (w : weights) (gs : list guess) : list R := 0.9 :: flat_map (lower_point el w) gs.
Definition upper_vector (el : bool) (w : weights) (gs : list guess) : list R := 1.11 :: flat_map (upper_point el w) gs.

(** ** Initial yaw *)

(** models: "make sure that yaw is continuous", circuit_preprocessor.hpp:369-371, with lion's
    wrap_to_pi a parameter; [prev] is the corrected yaw of the previous point. *)
Section Yaw.
  Context (wrap_to_pi : R -> R).
  Fixpoint unwrap_from (prev : R) (yaws : list R) : list R :=
    match yaws with
    | [] => []
    | y :: yaws' => let y' := prev + wrap_to_pi (y - prev) in y' :: unwrap_from y' yaws'
    end.
  Definition unwrap (yaws : list R) : list R := match yaws with [] => [] | y :: yaws' => y :: unwrap_from y yaws' end.
  (** models: the direction of a closed track, circuit_preprocessor.hpp:373-375. *)
  Definition track_direction (yaws : list R) : R :=
    let u := unwrap yaws in if Rlt_dec (nth 0 u 0) (last u 0) then 1 else -1.
End Yaw.

(** ** GPS coordinates *)

(** models: Coordinates, circuit_preprocessor.h:20-25. *)
Record coord := Coord { longitude : R; latitude : R; altitude : R }.
(** models: R_earth, circuit_preprocessor.h:222. *)
Definition R_earth : R := 6378388.

(** models: one point of transform_coordinates, circuit_preprocessor.hpp:260-281; [ref] is the
    first point of the right boundary. *)
Definition transform (ref c : coord) : vec :=
  V ((longitude c * DEG - longitude ref * DEG) * R_earth * cos (latitude ref * DEG))
    (- (latitude c * DEG - latitude ref * DEG) * R_earth)
    (- altitude c).
Definition transform_boundary (right boundary : list coord) : res (list vec) :=
  bind (front right) (fun ref => Ok (map (transform ref) boundary)).
(** models: position of a mesh size breakpoint, circuit_preprocessor.h:120-126: no altitude. *)
Definition transform_breakpoint (ref c : coord) : vec :=
  V ((longitude c * DEG - longitude ref * DEG) * R_earth * cos (latitude ref * DEG))
    (- (latitude c * DEG - latitude ref * DEG) * R_earth) 0.

(** ** Trimming to the start and finish points *)

(** Result of find_closest_point: the closest point and the two nodes around it. *)
Record near := Near { near_p : vec; near_i : nat; near_j : nat }.

(** models: the check that a point lies inside of the track, circuit_preprocessor.hpp:1438-1443. *)
Definition inside_check (p l r : vec) : bool :=
  if Rlt_dec (- 0.8 * norm (vsub p l) * norm (vsub p r)) (dot (vsub p l) (vsub p r)) then false else true.

(** models: one trimmed boundary, circuit_preprocessor.hpp:1452-1460 and 1463-1470. The unsigned
    [i - 1] of node 0 wraps around: the loop then runs out of the vector. *)
Definition trim_boundary (c : list coord) (st fin : near) : res (list coord) :=
  let i_start := if (near_i st =? near_j st)%nat then (near_j st + 1)%nat else near_j st in
  bind (if (near_i fin =? near_j fin)%nat
        then match near_i fin with O => UB | S k => Ok k end
        else Ok (near_i fin)) (fun i_finish =>
  bind (all_ok (map (rd c) (seq i_start (i_finish + 1 - i_start)))) (fun mid =>
  Ok (Coord (vx (near_p st)) (vy (near_p st)) 0 :: mid ++ [Coord (vx (near_p fin)) (vy (near_p fin)) 0]))).

(** models: trim_coordinates, circuit_preprocessor.hpp:1410-1472. *)
Section Trim.
  Context (near_to : list vec -> vec -> near).
  Definition flatten (c : coord) : vec := V (longitude c) (latitude c) 0.
  Definition trim (left_c right_c : list coord) (start finish : coord) : res (list coord * list coord) :=
    let vl := map flatten left_c in let vr := map flatten right_c in
    let ls := near_to vl (flatten start) in let rs := near_to vr (flatten start) in
    let lf := near_to vl (flatten finish) in let rf := near_to vr (flatten finish) in
    if negb (inside_check (flatten start) (near_p ls) (near_p rs)) then Throw
    else if negb (inside_check (flatten finish) (near_p lf) (near_p rf)) then Throw
    else if (near_i lf <? near_i ls)%nat then Throw
    else if (near_i rf <? near_i rs)%nat then Throw
    else bind (trim_boundary left_c ls lf) (fun l => bind (trim_boundary right_c rs rf) (fun r => Ok (l, r))).
End Trim.
