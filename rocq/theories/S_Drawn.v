(** Specification side of the drawn lap: segments, and the boundaries of a circuit as the preprocessor stores
    them. *)
From Coq Require Import QArith Reals Qreals List.
From Verif Require Import M_Vec M_Road M_Kerb M_Mesh M_Track S_Track.
Import ListNotations.
Local Open Scope R_scope.

(** The point lies on the straight segment from [a] to [b]. *)
Definition on_segment (a b p : vec) : Prop :=
  exists l, 0 <= l <= 1 /\ p = vadd a (vscale l (vsub b a)).

(** Rational coordinates and angles as real ones. *)
Definition real_point (p : point) : vec := V (Q2R (fst (fst p))) (Q2R (snd (fst p))) (Q2R (snd p)).
Definition real_angles (a : Q * Q * Q) : euler := Euler (Q2R (fst (fst a))) (Q2R (snd (fst a))) (Q2R (snd a)).

(** Heading, pitch and roll of the circuit at its point [i]; no pitch and roll without elevation. *)
Definition circuit_angles (c : circuit) (i : nat) : euler :=
  real_angles (nth i (ci_yaw c) 0%Q, if ci_elevation c then nth i (ci_pitch c) 0%Q else 0%Q,
               if ci_elevation c then nth i (ci_roll c) 0%Q else 0%Q).

(** The boundaries are those the preprocessor stores: at the distances [nl] and [nr] of the centreline, to the
    left and to the right. *)
Definition boundaries_of_preprocessor (c : circuit) : Prop :=
  forall i, (i < ci_n c)%nat ->
    real_point (nth i (ci_left c) origin) = left_point (real_point (nth i (ci_center c) origin)) (circuit_angles c i) (Q2R (nth i (ci_nl c) 0%Q)) /\
    real_point (nth i (ci_right c) origin) = right_point (real_point (nth i (ci_center c) origin)) (circuit_angles c i) (Q2R (nth i (ci_nr c) 0%Q)).

(** No kerb in use at the arclength [s]. *)
Definition no_used_kerb (ks : list kerb) (s : Q) : Prop :=
  forall k, In k ks -> k_used k = true -> (s <= k_start k - (1 # 10 ^ 12) \/ k_finish k + (1 # 10 ^ 12) <= s)%Q.
