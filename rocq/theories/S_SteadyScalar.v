(** Specification for C136. *)
From Coq Require Import ZArith QArith Qminmax Bool Arith List.
From Verif Require Import M_Controls M_Steady M_SteadyScalar.
Import ListNotations.
Local Open Scope Q_scope.

Section Spec.
Context {X : Type}.

(** The points [xs] lead from [x0] to [x] in [n] steps: point [i] answers for the part i/n of both accelerations, started
    from point [i-1]; with [all], every step is solved; [ok] is the success of the last one. *)
Definition reached (steady : Q -> Q -> X -> bool * X) (ax ay : Q) (n : nat) (x0 : X) (all ok : bool) (x : X) : Prop :=
  exists pts : list (bool * X), length pts = n /\
    (forall i b y, nth_error pts i = Some (b, y) ->
       exists x', (x' = x0 /\ i = 0%nat \/ exists b', (1 <= i)%nat /\ nth_error pts (i - 1) = Some (b', x')) /\
       (b, y) = steady ((inject_Z (Z.of_nat (S i)) / inject_Z (Z.of_nat n)) * ax)
                       ((inject_Z (Z.of_nat (S i)) / inject_Z (Z.of_nat n)) * ay) x' /\
       (all = true -> b = true)) /\
    nth_error pts (n - 1) = Some (ok, x).

(** An exact optimiser, as in S_Steady, that may be started anywhere. *)
Definition maximises_to (f_lo f_hi : Q) (solver : point X -> box -> res (answer X)) : Prop :=
  forall p b, lo b <= hi b -> lo b <= f_hi -> f_lo <= hi b ->
    exists a, solver p b = Ok a /\ an_ok a = true /\ pt_ax (an_x a) == Qmin f_hi (hi b).
Definition minimises_to (f_lo f_hi : Q) (solver : point X -> box -> res (answer X)) : Prop :=
  forall p b, lo b <= hi b -> lo b <= f_hi -> f_lo <= hi b ->
    exists a, solver p b = Ok a /\ an_ok a = true /\ pt_ax (an_x a) == Qmax f_lo (lo b).
End Spec.
