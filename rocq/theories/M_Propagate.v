(** Model of the buffers and options of propagate_vehicle (src/main/c/fastestlapc.cpp:999-1062). The step of the scheme is lion's
    (third party): a parameter. What the function does to the stored vehicles is also in M_Store. Numbers are rationals. *)
From Coq Require Import String QArith Qround ZArith Bool Arith List.
From Verif Require Import M_Controls M_Options.
Import ListNotations.
Local Open Scope string_scope.
Local Open Scope nat_scope.

(** models: the conversion of a number to an integer in C++: towards zero. The type of lion's option max_iter is taken to hold it. *)
Definition to_integer (x : Q) : Z := if Qle_bool 0 x then Qfloor x else Qceiling x.

(** models: Crank_nicolson::Options (lion), with the members that the function sets. *)
Record step_options := StepOptions { o_sigma : Q; o_max_iter : Z; o_tolerance : Q; o_relaxation : Q }.

(** models: std::copy_n from a buffer of the caller into an array: reading past its end is undefined. *)
Definition copy_in {A} (n : nat) (buffer : list A) : res (list A) := if length buffer <? n then UB else Ok (firstn n buffer).
(** models: std::copy_n of an array into a buffer of the caller. *)
Definition copy_out {A} (values buffer : list A) : res (list A) :=
  if length buffer <? length values then UB else Ok (values ++ skipn (length values) buffer)%list.

(** models: the parsing of the options, fastestlapc.cpp:1011-1023. [text] is empty or parsed by lion ([parse]: None when it throws). *)
Definition read_step_options (parse : string -> option xml) (rds : readers) (defaults : step_options) (text : string) : res step_options :=
  if String.eqb text "" then Ok defaults else
  bind (need (parse text)) (fun doc =>
  bind (read_option doc ["options"; "sigma"] (r_num rds) (o_sigma defaults)) (fun sigma =>
  bind (read_option doc ["options"; "max_iter"] (fun t => option_map to_integer (r_num rds t)) (o_max_iter defaults)) (fun iters =>
  bind (read_option doc ["options"; "error_tolerance"] (r_num rds) (o_tolerance defaults)) (fun tol =>
  bind (read_option doc ["options"; "relaxation_factor"] (r_num rds) (o_relaxation defaults)) (fun relax =>
  Ok (StepOptions sigma iters tol relax)))))).

Section Vehicles.
Context {C T : Type}.

(** models: a type of vehicle: number_of_inputs and number_of_controls, Crank_nicolson::take_step(car, u, u_next, q, s, ds, opts) of lion, which
    changes q or throws, and change_track, which keeps the track also when it throws (lot2016kart.h:57-69). *)
Record vehicle_class := VehicleClass {
  vc_inputs : nat; vc_controls : nat;
  vc_step : C -> list Q -> list Q -> list Q -> Q -> Q -> step_options -> res (list Q);
  vc_track : C -> T -> C * bool }.
(** models: the members of limebeer2014f1_all and lot2016kart_all that the function uses. *)
Record stored_vehicle := Stored { sv_cartesian : C; sv_curvilinear : C; sv_scalar : C }.

Variables (parse : string -> option xml) (rds : readers) (defaults : step_options).

(** models: compute_propagation, fastestlapc.cpp:999-1025. The car is passed by value: the stored one does not change. The result is the
    new content of the buffer of the states. *)
Definition compute_propagation (k : vehicle_class) (car : C) (q u : list Q) (s ds : Q) (u_next : list Q) (text : string) : res (list Q) :=
  bind (copy_in (vc_inputs k) q) (fun q0 =>
  bind (copy_in (vc_controls k) u) (fun u0 =>
  bind (copy_in (vc_controls k) u_next) (fun u1 =>
  bind (read_step_options parse rds defaults text) (fun o =>
  bind (vc_step k car u0 u1 q0 s ds o) (fun q1 => copy_out q1 q))))).

(** models: a branch of propagate_vehicle for a vehicle that is in its table, fastestlapc.cpp:1034-1045, 1047-1058: the vehicle as it is
    stored afterwards, and what happens. *)
Definition propagate_stored (k : vehicle_class) (track : option T) (v : stored_vehicle) (q u : list Q) (s ds : Q) (u_next : list Q)
  (use_circuit : bool) (text : string) : stored_vehicle * res (list Q) :=
  if use_circuit then
    match track with
    | None => (v, Throw)
    | Some t =>
      let '(c1, ok1) := vc_track k (sv_curvilinear v) t in
      if negb ok1 then (Stored (sv_cartesian v) c1 (sv_scalar v), Throw) else
      let '(c2, ok2) := vc_track k (sv_scalar v) t in
      let v' := Stored (sv_cartesian v) c1 c2 in
      if negb ok2 then (v', Throw) else (v', compute_propagation k c1 q u s ds u_next text)
    end
  else (v, compute_propagation k (sv_cartesian v) q u s ds u_next text).

(** models: propagate_vehicle, fastestlapc.cpp:1028-1062: the kart's table first; nothing for a name that is in neither table. *)
Definition propagate (kart_class f1_class : vehicle_class) (karts f1s : string -> option stored_vehicle) (tracks : string -> option T)
  (name track_name : string) (q u : list Q) (s ds : Q) (u_next : list Q) (use_circuit : bool) (text : string)
  : option stored_vehicle * res (list Q) :=
  match karts name with
  | Some v => let '(v', r) := propagate_stored kart_class (tracks track_name) v q u s ds u_next use_circuit text in (Some v', r)
  | None =>
    match f1s name with
    | Some v => let '(v', r) := propagate_stored f1_class (tracks track_name) v q u s ds u_next use_circuit text in (Some v', r)
    | None => (None, Ok q)
    end
  end.
End Vehicles.
Arguments vehicle_class : clear implicits.
Arguments stored_vehicle : clear implicits.
