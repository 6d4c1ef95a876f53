(** Model of the control variables of an optimal laptime simulation
    (src/core/applications/detail/optimal_laptime_control_variable.h and
    optimal_laptime_control_variables.h). Numbers are rationals. *)
From Coq Require Import QArith Bool Arith List.
Import ListNotations.
Local Open Scope nat_scope.

(** Outcome of a piece of C++ code: a value, an exception, or undefined behaviour
    (an index outside of a vector). *)
Inductive res (A : Type) := Ok (a : A) | Throw | UB.
Arguments Ok {A}. Arguments Throw {A}. Arguments UB {A}.

Definition bind {A B} (r : res A) (f : A -> res B) : res B :=
  match r with Ok a => f a | Throw => Throw | UB => UB end.

(** Reading element [i] of a vector. *)
Definition rd {A} (l : list A) (i : nat) : res A :=
  match nth_error l i with Some a => Ok a | None => UB end.

Fixpoint all_ok {A} (l : list (res A)) : res (list A) :=
  match l with
  | [] => Ok []
  | r :: l' => bind r (fun a => bind (all_ok l') (fun t => Ok (a :: t)))
  end.

Definition Qlt_bool (a b : Q) : bool := negb (Qle_bool b a).

(** models: Optimal_control_type, optimal_laptime_constants.h. *)
Inductive control_kind := DONT_OPTIMIZE | CONSTANT | HYPERMESH | FULL_MESH.

Definition kind_eqb (a b : control_kind) : bool :=
  match a, b with
  | DONT_OPTIMIZE, DONT_OPTIMIZE | CONSTANT, CONSTANT | HYPERMESH, HYPERMESH | FULL_MESH, FULL_MESH => true
  | _, _ => false
  end.

(** models: Control_variable, optimal_laptime_control_variable.h:14-20. *)
Record control_variable := MkControl {
  c_kind : control_kind;
  c_hypermesh : list Q;
  c_values : list Q;
  c_rates : list Q;
  c_dissipation : Q }.

Definition set_values (c : control_variable) (v : list Q) : control_variable :=
  MkControl (c_kind c) (c_hypermesh c) v (c_rates c) (c_dissipation c).
Definition set_rates (c : control_variable) (v : list Q) : control_variable :=
  MkControl (c_kind c) (c_hypermesh c) (c_values c) v (c_dissipation c).
Definition set_dissipation (c : control_variable) (d : Q) : control_variable :=
  MkControl (c_kind c) (c_hypermesh c) (c_values c) (c_rates c) d.

(** models: std::upper_bound (the halving loop of the standard library), called at
    optimal_laptime_control_variable.h:72. [fuel] bounds the number of halvings. *)
Fixpoint upper_bound_loop (fuel : nat) (l : list Q) (first len : nat) (v : Q) : nat :=
  match fuel with
  | 0 => first
  | S f =>
      if len =? 0 then first
      else let half := len / 2 in
           let mid := first + half in
           if Qlt_bool v (nth mid l 0%Q)
           then upper_bound_loop f l first half v
           else upper_bound_loop f l (mid + 1) (len - half - 1) v
  end.

Definition upper_bound (l : list Q) (v : Q) : nat :=
  upper_bound_loop (length l) l 0 (length l) v.

(** models: Control_variable::get_hypermesh_position_for_s,
    optimal_laptime_control_variable.h:69-83. The message of the exception reads
    [s_hypermesh.front()], which is undefined for an empty hypermesh. *)
Definition hypermesh_position (mesh : list Q) (s : Q) : res nat :=
  let it := upper_bound mesh s in
  if it =? 0 then match mesh with [] => UB | _ => Throw end
  else Ok (it - 1).

(** models: Control_variable::get_hypermesh_control_value_for_s,
    optimal_laptime_control_variable.h:87-95. *)
Definition hypermesh_value (c : control_variable) (s : Q) : res Q :=
  if kind_eqb (c_kind c) HYPERMESH
  then bind (hypermesh_position (c_hypermesh c) s) (fun i => rd (c_values c) i)
  else Throw.

(** models: Control_variable::get_hypermesh_control_value_and_derivative_for_s,
    optimal_laptime_control_variable.h:99-108. *)
Definition hypermesh_value_and_rate (c : control_variable) (s : Q) : res (Q * Q) :=
  if kind_eqb (c_kind c) HYPERMESH
  then bind (hypermesh_position (c_hypermesh c) s) (fun i =>
       bind (rd (c_values c) i) (fun v => bind (rd (c_rates c) i) (fun r => Ok (v, r))))
  else Throw.

(** models: Control_variable::clear, optimal_laptime_control_variable.h:112-118. *)
Definition clear_control (c : control_variable) : control_variable :=
  set_rates (set_values c (map (fun _ => 0%Q) (c_values c))) (map (fun _ => 0%Q) (c_rates c)).

Definition is_nil {A} (l : list A) : bool := match l with [] => true | _ => false end.

(** models: one turn of the loop of Control_variables::check_inputs,
    optimal_laptime_control_variables.h:53-124. *)
Definition check_control (c : control_variable) : res control_variable :=
  match c_kind c with
  | DONT_OPTIMIZE =>
      if negb (is_nil (c_hypermesh c)) then Throw
      else if negb (is_nil (c_values c)) then Throw
      else if negb (is_nil (c_rates c)) then Throw
      else Ok (set_dissipation c 0)
  | CONSTANT =>
      if negb (is_nil (c_hypermesh c)) then Throw
      else if negb (length (c_values c) =? 1) then Throw
      else if negb (is_nil (c_rates c)) then Throw
      else Ok (set_dissipation c 0)
  | HYPERMESH =>
      if negb (length (c_hypermesh c) =? length (c_values c)) then Throw
      else if negb (is_nil (c_rates c)) then Throw
      else Ok (set_dissipation c 0)
  | FULL_MESH =>
      if negb (is_nil (c_hypermesh c)) then Throw
      else if negb (length (c_values c) =? length (c_rates c)) && negb (is_nil (c_rates c)) then Throw
      else if Qlt_bool (c_dissipation c) 0 then Throw
      else Ok c
  end.

(** models: Control_variables::check (without the counts, which are
    [count_constant], [count_hypermesh_points] and [count_full] of the result),
    optimal_laptime_control_variables.h:51-158 and 266-271. *)
Definition check_controls (cs : list control_variable) : res (list control_variable) :=
  all_ok (map check_control cs).

(** models: Control_variables::compute_statistics,
    optimal_laptime_control_variables.h:129-158. *)
Fixpoint count_constant (cs : list control_variable) : nat :=
  match cs with
  | [] => 0
  | c :: cs' => (match c_kind c with CONSTANT => 1 | _ => 0 end) + count_constant cs'
  end.
Fixpoint count_hypermesh_points (cs : list control_variable) : nat :=
  match cs with
  | [] => 0
  | c :: cs' => (match c_kind c with HYPERMESH => length (c_hypermesh c) | _ => 0 end) + count_hypermesh_points cs'
  end.
Fixpoint count_full (cs : list control_variable) : nat :=
  match cs with
  | [] => 0
  | c :: cs' => (match c_kind c with FULL_MESH => 1 | _ => 0 end) + count_full cs'
  end.

(** models: one turn of the loop of Control_variables::control_array_at_s,
    optimal_laptime_control_variables.h:199-219. [d] is the default value. *)
Definition control_at_s (c : control_variable) (d : Q) (i : nat) (s : Q) : res Q :=
  match c_kind c with
  | DONT_OPTIMIZE => Ok d
  | CONSTANT => rd (c_values c) 0
  | HYPERMESH => hypermesh_value c s
  | FULL_MESH => rd (c_values c) i
  end.

(** models: Control_variables::control_array_at_s,
    optimal_laptime_control_variables.h:190-222. [defaults] has one entry per control
    (controls_def of the car). *)
Definition control_array_at_s (cs : list control_variable) (defaults : list Q) (i : nat) (s : Q) : res (list Q) :=
  all_ok (map (fun cd => control_at_s (fst cd) (snd cd) i s) (combine cs defaults)).

(** models: the derivative part of Control_variables::control_array_and_derivative_at_s,
    optimal_laptime_control_variables.h:228-262; the values are those of
    [control_array_at_s]. *)
Definition rate_at (c : control_variable) (i : nat) : res Q :=
  match c_kind c with
  | FULL_MESH => rd (c_rates c) i
  | _ => Ok 0%Q
  end.
Definition control_array_and_derivative_at_s (cs : list control_variable) (defaults : list Q) (i : nat) (s : Q)
  : res (list Q * list Q) :=
  bind (control_array_at_s cs defaults i s) (fun v =>
  bind (all_ok (map (fun c => rate_at c i) cs)) (fun r => Ok (v, r))).
