(** What the theorems on the sectors of a lap say. *)
From Coq Require Import Reals List.
From Verif Require Import M_RealLap.
Import ListNotations.
Local Open Scope R_scope.

(** The points of a lap from [m] to [z], with [between_them] in between. *)
Definition sector {P : Type} (m : R * P) (between_them : list (R * P)) (z : R * P) : list (R * P) := m :: between_them ++ [z].
(** A lap that is allowed and that has the lowest value of the laps with the same mesh that are. *)
Definition fastest {P : Type} (allowed : list (R * P) -> Prop) (value : list (R * P) -> R) (pts : list (R * P)) : Prop :=
  allowed pts /\ forall pts', map fst pts' = map fst pts -> allowed pts' -> value pts <= value pts'.
(** The same for the way from one point to another, and for that from one point on. *)
Definition fastest_between {P : Type} (allowed : list (R * P) -> Prop) (value : list (R * P) -> R) (m z : R * P) (l : list (R * P)) : Prop :=
  allowed (sector m l z) /\ forall l', map fst l' = map fst l -> allowed (sector m l' z) -> value (sector m l z) <= value (sector m l' z).
Definition fastest_from {P : Type} (allowed : list (R * P) -> Prop) (value : list (R * P) -> R) (m : R * P) (l : list (R * P)) : Prop :=
  allowed (m :: l) /\ forall l', map fst l' = map fst l -> allowed (m :: l') -> value (m :: l) <= value (m :: l').
(** [used] takes as much of each of the restricted quantities as [taken]; both are open laps. *)
Definition uses_as_much (sigma L : R) (restricted : list (nat * (R * R))) (taken used : list (R * point_eval)) : Prop :=
  Forall (fun q => lap_integral sigma false L (fst q) used = lap_integral sigma false L (fst q) taken) restricted.
