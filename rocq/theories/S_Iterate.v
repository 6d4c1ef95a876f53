(** Specification side for the object evaluated by the solver. *)
From Coq Require Import QArith Bool Arith List.
From Verif Require Import M_Controls S_Controls M_Laptime S_Laptime S_Colloc M_Iterate.
Import ListNotations.
Local Open Scope nat_scope.

(** The car of the object gives results that depend on the values of its parameters and on the
    arguments, not on what its other members hold; an evaluation keeps the parameters and
    set_all_parameters replaces them (C122 is this for the vehicles of the library). *)
Definition memoryless {H} (M : machine H) (values : H -> list Q) (E : list Q -> list Q -> list Q -> Q -> measured)
  (np : nat) : Prop :=
  (forall h r u si, snd (advance M h r u si) = E (values h) r u si) /\
  (forall h r u si, values (fst (advance M h r u si)) = values h) /\
  (forall p h, length p = np -> values (set_all M p h) = p).

(** Results of the sizes fixed by the types of the C++ code. *)
Definition results_sized (m : car) (ib : list integral_bound) (E : list Q -> list Q -> list Q -> Q -> measured) : Prop :=
  forall p r u si,
    (forall id, In id (st_time m :: differential_ids m ++ algebraic_ids m) ->
       id < length (q_states (E p r u si)) /\ id < length (q_dstates (E p r u si))) /\
    length (q_extra (E p r u si)) = n_extra m /\ length (q_integral (E p r u si)) = length ib.

(** Every mesh of a hypermesh control is increasing and starts at the first point or before. *)
Definition hypermeshes_cover (s : list Q) (cs : list control_variable) : Prop :=
  forall c, In c cs -> c_kind c = HYPERMESH ->
    c_hypermesh c <> [] /\ sorted (c_hypermesh c) /\ forall si, In si s -> (nth 0 (c_hypermesh c) 0 <= si)%Q.

(** Vectors of the sizes the object declares. *)
Definition call_sized (nv nc np : nat) (c : call) : Prop :=
  match c with
  | Evaluate x fgv => length x = nv /\ length fgv = S nc
  | EvaluateAt p x fgv => length p = np /\ length x = nv /\ length fgv = S nc
  | Export x => length x = nv
  end.

(** The parameters in force after some calls: those handed over last, and the first ones when
    none were. *)
Definition in_force (p : list Q) (cl : list call) : list Q :=
  fold_left (fun p c => match c with EvaluateAt p' _ _ => p' | _ => p end) cl p.

(** The car of M_Laptime with the parameters [p]. *)
Definition car_with (m : car) (E : list Q -> list Q -> list Q -> Q -> measured) (p : list Q) : car :=
  MkCar (n_inputs m) (n_controls m) (in_time m) (st_time m) (n_extra m) (integral_names m)
    (fun r u si => q_states (E p r u si)) (fun r u si => q_dstates (E p r u si))
    (fun r u si => q_extra (E p r u si)) (fun r u si => q_integral (E p r u si))
    (differential_ids m) (algebraic_ids m) (extra_lb m) (extra_ub m) (track_length m) (left_limit m) (right_limit m)
    (controls_def m) (rate_lb m) (rate_ub m).

(** The evaluation of M_Laptime, which has no members: the inputs and controls come from the
    vector and from vectors full of zeros, and the car is evaluated once at every point. *)
Definition fresh_evaluation (m : car) (sigma : Q) (s : list Q) (cs : list control_variable) (ib : list integral_bound)
  (direct closed : bool) (q0 u0 du0 : list Q) (E : list Q -> list Q -> list Q -> Q -> measured) (integ : bool)
  (p x : list Q) : res fg_state :=
  bind (unpack m x direct closed q0 u0 du0 (length s) cs) (fun st => let '(_, (ins, fcs)) := st in
  bind (evaluate_all (car_with m E p) s fcs ins) (fun evs =>
  fg_compute (car_with m E p) sigma s fcs ib direct closed integ evs)).

(** What the construction of the object needs: a guess that passes the checks of the constructor
    (C28), a start point of the right size when the lap is open, and the three conditions above. *)
Record built {H} (M : machine H) (m : car) (s : list Q) (inputs : list (list Q)) (cs : list control_variable)
  (ib : list integral_bound) (direct closed : bool) (q0 u0 du0 : list Q)
  (values : H -> list Q) (E : list Q -> list Q -> list Q -> Q -> measured) (np : nat) : Prop := {
  b_time : in_time m + 1 < n_inputs m;
  b_guess : guess_ok direct m s inputs cs;
  b_car : car_ok m;
  b_start : closed = false -> length q0 = n_inputs m /\ length u0 = n_controls m /\ (direct = false -> length du0 = n_controls m);
  b_memoryless : memoryless M values E np;
  b_results : results_sized m ib E;
  b_meshes : hypermeshes_cover s cs }.
