(** Specification for C59, C60 and C90. *)
From Coq Require Import ZArith QArith Qabs Qminmax Bool Arith List.
From Verif Require Import M_Steady.
Import ListNotations.
Local Open Scope Q_scope.

(** Box [b] is a proper interval / lies inside [b']. *)
Definition proper (b : box) : Prop := lo b < hi b.
Definition inside (b b' : box) : Prop := lo b' <= lo b /\ hi b <= hi b'.

(** Every element of a list is related to the next one. *)
Definition consecutive {A} (R : A -> A -> Prop) (l : list A) : Prop :=
  forall i a b, nth_error l i = Some a -> nth_error l (S i) = Some b -> R a b.

(** [x] is at least [tol] away from both ends / the lower end. *)
Definition clear_of_low (tol x : Q) (b : box) : Prop := tol <= Qabs (lo b - x).
Definition clear_of_high (tol x : Q) (b : box) : Prop := tol <= Qabs (hi b - x).

(** The last element. *)
Definition is_last {A} (l : list A) (a : A) : Prop := exists l', l = l' ++ [a].

Section Spec.
Context {X : Type}.

(** An exact optimiser for an acceleration that can be anything between [f_lo] and [f_hi]: when
    some value lies within the bounds it succeeds and returns the largest (smallest) one. *)
Definition maximises (f_lo f_hi : Q) (solver : nat -> point X -> box -> answer X) : Prop :=
  forall k p b, lo b <= hi b -> lo b <= f_hi -> f_lo <= hi b ->
    an_ok (solver k p b) = true /\ pt_ax (an_x (solver k p b)) == Qmin f_hi (hi b).
Definition minimises (f_lo f_hi : Q) (solver : nat -> point X -> box -> answer X) : Prop :=
  forall k p b, lo b <= hi b -> lo b <= f_hi -> f_lo <= hi b ->
    an_ok (solver k p b) = true /\ pt_ax (an_x (solver k p b)) == Qmax f_lo (lo b).

(** The optimiser stays within the bounds it is given, when they are in order. *)
Definition respects (solver : nat -> point X -> box -> answer X) : Prop :=
  forall k p b, lo b <= hi b -> lo b <= pt_ax (an_x (solver k p b)) /\ pt_ax (an_x (solver k p b)) <= hi b.

(** The attempts of a search, as pairs of bounds and answers: attempt number [i] asked the optimiser
    (from some initial point), and the bounds only ever grow. *)
Definition asked {B} (solver : nat -> point X -> B -> answer X) (l : list (B * answer X)) : Prop :=
  forall i b a, nth_error l i = Some (b, a) -> exists p, a = solver i p b.
Definition widening (l : list (box * answer X)) : Prop :=
  Forall (fun s => proper (fst s)) l /\ consecutive (fun s t => inside (fst s) (fst t)) l.

(** Solution [r] is the last answer of the search, in metres per second squared. *)
Definition reports (u : Q) (r : solution X) (a : answer X) : Prop :=
  s_ok r = an_ok a /\ s_ax r == pt_ax (an_x a) * u.

End Spec.
