(** Specification for the stage after the solver: the problem that was handed to it, and
    when a lap is the point the solver returned. *)
From Coq Require Import QArith Bool Arith List.
From Verif Require Import M_Controls M_Laptime S_Laptime.
Import ListNotations.
Local Open Scope nat_scope.

(** The problem built for a guess that passes the checks: [es] are the initial point and
    the bounds handed to the solver, [q0], [u0], [du0] the fixed first point of open
    simulations. *)
Record problem (m : car) (o : options) (direct closed : bool) (s : list Q) (inputs : list (list Q))
  (cs : list control_variable) (q0 u0 du0 : list Q) (es : list entry) : Prop := {
  p_sizes : sizes_ok m o;
  p_guess : guess_ok direct m s inputs cs;
  p_start : closed = false -> start_of direct m s inputs cs q0 u0 du0;
  p_pack : pack m o s inputs cs direct closed = Ok es }.

(** A lap is described by the vector [x] of the problem: building the problem for it gives
    the initial point [x], with the bounds of the problem. *)
Definition described_by (m : car) (o : options) (direct closed : bool) (s : list Q)
  (lap : list (list Q) * list control_variable) (es : list entry) (x : list Q) : Prop :=
  exists es', pack m o s (fst lap) (snd lap) direct closed = Ok es' /\ map fst es' = x /\ map snd es' = map snd es.

(** The controls of the lap are optimised in the way the user asked for. *)
Definition same_kinds (cs cs' : list control_variable) : Prop :=
  length cs' = length cs /\
  forall j c c', nth_error cs j = Some c -> nth_error cs' j = Some c' ->
    c_kind c' = c_kind c /\ c_hypermesh c' = c_hypermesh c /\ c_dissipation c' = c_dissipation c.

Definition all_zero (l : list Q) : Prop := forall v, In v l -> v = 0%Q.
