(** Model of the minimum curvature path (src/core/applications/minimum_curvature_path.h and .hpp):
    checks of the input, bounds, objective and constraints of the problem by polynomials, the
    exported path, the written lists, and the objective of the problem by arcs. Real numbers
    instead of doubles; the solver is not modelled; the polynomials of the circuit are given by
    their values at the points. *)
From Coq Require Import Reals Bool Arith.
From Coq Require Import List.
From Verif Require Import M_Controls M_Laptime M_Vec M_Road M_Preproc.
Import ListNotations.
Local Open Scope R_scope.

(** models: input_names, minimum_curvature_path.h:65-68. *)
Definition in_n : nat := 0.
Definition in_yaw : nat := 1.
Definition in_pitch : nat := 2.
Definition in_roll : nat := 3.
Definition in_yaw_dot : nat := 4.
Definition in_pitch_dot : nat := 5.
Definition in_roll_dot : nat := 6.
Definition in_delta : nat := 7.
Definition in_end : nat := 8.

(** models: number of elements, variables and constraints, minimum_curvature_path.hpp:59 and
    minimum_curvature_path.h:73-74. *)
Definition mc_elements (closed : bool) (n : nat) : nat := if closed then n else n - 1.
Definition mc_variables (closed : bool) (n : nat) : nat := (in_end - 1) * n + mc_elements closed n.
Definition mc_constraints (closed : bool) (n : nat) : nat := 6 * mc_elements closed n.

(** Values at one point of the circuit: centreline, angles, rates of the angles, distances to
    the limits (minimum_curvature_path.hpp:84-117). *)
Record geometry := Geometry { ge_r : vec; ge_e : euler; ge_de : euler; ge_nl : R; ge_nr : R }.

(** models: the checks on the arclength vector, minimum_curvature_path.hpp:61-80. An empty vector
    has no front. *)
Definition check_arclength (closed : bool) (L : R) (s : list R) : res (list R) :=
  match s with
  | [] => UB
  | s0 :: s' =>
      let sn := last s 0 in
      if closed then
        if Rlt_dec 1e-12 (Rabs s0) then Throw
        else if Rlt_dec (L - 1e-10) sn then Throw
        else Ok (0 :: s')
      else
        if Rlt_dec s0 (- 1e-12) then Throw
        else if Rlt_dec L sn then Throw
        else Ok s
  end.

(** models: the bounds of the seven variables of a point, minimum_curvature_path.hpp:140-167. *)
Definition mc_lower_point (g : geometry) : list R :=
  [ - ge_nl g; yaw (ge_e g) - 60 * DEG; pitch (ge_e g) - 30 * DEG; roll (ge_e g) - 30 * DEG;
    yaw (ge_de g) - 1; pitch (ge_de g) - 1; roll (ge_de g) - 1 ].
Definition mc_upper_point (g : geometry) : list R :=
  [ ge_nr g; yaw (ge_e g) + 60 * DEG; pitch (ge_e g) + 30 * DEG; roll (ge_e g) + 30 * DEG;
    yaw (ge_de g) + 1; pitch (ge_de g) + 1; roll (ge_de g) + 1 ].
Definition mc_start_point (g : geometry) : list R :=
  [ 0; yaw (ge_e g); pitch (ge_e g); roll (ge_e g); yaw (ge_de g); pitch (ge_de g); roll (ge_de g) ].

(** models: the length of element [i]: between points i and i+1, or the closing one,
    minimum_curvature_path.hpp:170-182. *)
Definition mc_ds (L : R) (s : list R) (i : nat) : R :=
  if (S i <? length s)%nat then nth (S i) s 0 - nth i s 0 else L - last s 0.

(** models: the whole start vector and bounds, minimum_curvature_path.hpp:121-182. Position
    8*i+k holds variable k of point i; 8*i+7 the length of element i. The vectors are filled by
    index in the code, in order of position here. *)
Definition mc_vector (point : geometry -> list R) (elem : R -> R) (closed : bool) (L : R) (s : list R)
           (gs : list geometry) : list R :=
  flat_map (fun ig => point (snd ig) ++
                      (if (fst ig <? mc_elements closed (length gs))%nat then [elem (mc_ds L s (fst ig))] else []))
           (combine (seq 0 (length gs)) gs).
Definition mc_start := mc_vector mc_start_point (fun d => d).
Definition mc_lower := mc_vector mc_lower_point (fun d => 0.05 * d).
Definition mc_upper := mc_vector mc_upper_point (fun d => 5 * d).

(** One point of the path: lateral displacement, angles, rates, position and curvature. *)
Record path_point := PathPoint { pp_n : R; pp_e : euler; pp_de : euler; pp_r : vec; pp_k : vec }.

(** models: loading of the variables and the auxiliary variables of a point,
    minimum_curvature_path.hpp:386-413; centreline and normal computed at 98-117. *)
Definition mc_point (x : list R) (i : nat) (g : geometry) : res path_point :=
  bind (rd x (in_end * i + in_n)) (fun n =>
  bind (rd x (in_end * i + in_yaw)) (fun yw =>
  bind (rd x (in_end * i + in_pitch)) (fun pt =>
  bind (rd x (in_end * i + in_roll)) (fun rl =>
  bind (rd x (in_end * i + in_yaw_dot)) (fun dyw =>
  bind (rd x (in_end * i + in_pitch_dot)) (fun dpt =>
  bind (rd x (in_end * i + in_roll_dot)) (fun drl =>
  let nv := normal (ge_e g) in
  Ok (PathPoint n (Euler yw pt rl) (Euler dyw dpt drl)
        (V (vx (ge_r g) + n * vx nv) (vy (ge_r g) + n * vy nv) (vz (ge_r g) + n * vz nv))
        (V (drl - sin pt * dyw)
           (cos rl * dpt + cos pt * sin rl * dyw)
           (- sin rl * dpt + cos pt * cos rl * dyw)))))))))).
Fixpoint mc_points (x : list R) (i : nat) (gs : list geometry) : res (list path_point) :=
  match gs with
  | [] => Ok []
  | g :: gs' => bind (mc_point x i g) (fun p => bind (mc_points x (S i) gs') (fun t => Ok (p :: t)))
  end.
Definition mc_deltas (x : list R) (n_elements : nat) : res (list R) :=
  all_ok (map (fun i => rd x (in_end * i + in_delta)) (seq 0 n_elements)).

(** models: the term of one element in the objective, minimum_curvature_path.hpp:421-422, [q] the
    current and [p] the previous point. *)
Definition mc_cost (ds : R) (p q : path_point) : R :=
  0.5 * ds * (vx (pp_k q) * vx (pp_k q) + vy (pp_k q) * vy (pp_k q) + vz (pp_k q) * vz (pp_k q)
              + vx (pp_k p) * vx (pp_k p) + vy (pp_k p) * vy (pp_k p) + vz (pp_k p) * vz (pp_k p)).
(** models: the term of the closing element, minimum_curvature_path.hpp:434-435. *)
Definition mc_closing_cost (ds : R) (p q : path_point) : R :=
  0.5 * ds * (yaw (pp_de p) * yaw (pp_de p) + yaw (pp_de q) * yaw (pp_de q)).
(** models: the constraints of one element, minimum_curvature_path.hpp:424-429 and 436-441. *)
Definition mc_defects (ds turn : R) (p q : path_point) : list R :=
  [ vx (pp_r q) - vx (pp_r p) - 0.5 * ds * (cos (yaw (pp_e q)) * cos (pitch (pp_e q)) + cos (yaw (pp_e p)) * cos (pitch (pp_e p)));
    vy (pp_r q) - vy (pp_r p) - 0.5 * ds * (sin (yaw (pp_e q)) * cos (pitch (pp_e q)) + sin (yaw (pp_e p)) * cos (pitch (pp_e p)));
    vz (pp_r q) - vz (pp_r p) - 0.5 * ds * (sin (pitch (pp_e q)) + sin (pitch (pp_e p)));
    yaw (pp_e q) - yaw (pp_e p) - 0.5 * ds * (yaw (pp_de q) + yaw (pp_de p)) + turn;
    pitch (pp_e q) - pitch (pp_e p) - 0.5 * ds * (pitch (pp_de q) + pitch (pp_de p));
    roll (pp_e q) - roll (pp_e p) - 0.5 * ds * (roll (pp_de q) + roll (pp_de p)) ].

Fixpoint mc_inner (ds : list R) (ps : list path_point) : R * list R :=
  match ds, ps with
  | d :: ds', p :: ((q :: _) as ps') =>
      let r := mc_inner ds' ps' in (mc_cost d p q + fst r, mc_defects d 0 p q ++ snd r)
  | _, _ => (0, [])
  end.

(** models: Fitness_fcn_by_polynomial::operator(), minimum_curvature_path.hpp:379-446. The sum of
    the inner elements is written from the last to the first. *)
Definition mc_fg (closed : bool) (gs : list geometry) (direction : R) (x : list R) : res (R * list R) :=
  let N := length gs in
  bind (mc_points x 0 gs) (fun ps =>
  bind (mc_deltas x (mc_elements closed N)) (fun ds =>
  let inner := mc_inner ds ps in
  if closed then
    bind (back ds) (fun d => bind (back ps) (fun p => bind (front ps) (fun q =>
    Ok (fst inner + mc_closing_cost d p q, snd inner ++ mc_defects d (2 * PI * direction) p q))))
  else Ok inner)).

(** models: the exported path, minimum_curvature_path.hpp:217-255. *)
Record path := Path { pa_delta : list R; pa_points : list path_point }.
Definition mc_export (closed : bool) (gs : list geometry) (x : list R) : res path :=
  bind (mc_points x 0 gs) (fun ps => bind (mc_deltas x (mc_elements closed (length gs))) (fun ds => Ok (Path ds ps))).

(** models: one list written by xml(), minimum_curvature_path.hpp:269-274: all elements but the
    last in a loop up to the unsigned [size()-1], then the last. *)
Definition write_list {A} (l : list A) : res (list A) :=
  match l with
  | [] => UB
  | _ => bind (all_ok (map (rd l) (seq 0 (length l - 1)))) (fun a => bind (back l) (fun b => Ok (a ++ [b])))
  end.

(** ** By arcs *)

(** models: Fitness_fcn::operator(), minimum_curvature_path.hpp:335-376, with [k2 s w dw d2w] for
    Track_by_arcs::pseudo_curvature2_at and L the length of the track. *)
Section ByArcs.
  Context (k2 : R -> R -> R -> R -> R) (L : R).
  Definition arcs_dw (N : nat) (w : list R) (i : nat) : res (R * R) :=
    let inv_ds := 1 / (L / INR N) in
    let step a c b := ((b - a) * 0.5 * inv_ds, (b + a - 2 * c) * inv_ds * inv_ds) in
    if (i =? 0)%nat then
      bind (rd w 1) (fun b => bind (rd w (N - 1)) (fun a => bind (rd w 0) (fun c => Ok (step a c b))))
    else if (i =? N - 1)%nat then
      bind (rd w 0) (fun b => bind (rd w (N - 2)) (fun a => bind (rd w (N - 1)) (fun c => Ok (step a c b))))
    else
      bind (rd w (i + 1)) (fun b => bind (rd w (i - 1)) (fun a => bind (rd w i) (fun c => Ok (step a c b)))).
  Definition arcs_fg (N : nat) (w : list R) : res R :=
    match N with
    | O => UB
    | _ => 
      let ds := L / INR N in
      for_range 0 N (fun i acc =>
        bind (arcs_dw N w i) (fun d => bind (rd w i) (fun wi =>
        Ok (acc + k2 (INR i * ds) wi (fst d) (snd d) * ds)))) 0
    end.
End ByArcs.
