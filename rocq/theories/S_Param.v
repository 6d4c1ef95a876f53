(** Specification of varying parameters. *)
From Coq Require Import String List QArith Arith.
From Verif Require Import M_Param.
Import ListNotations.
Local Open Scope Q_scope.

(** Consecutive mesh points have increasing arclength. *)
Definition strictly_increasing (mesh : list (Q * nat)) : Prop :=
  forall i a b, nth_error mesh i = Some a -> nth_error mesh (S i) = Some b -> fst a < fst b.

(** Everything the constructor must check. *)
Definition well_formed_mesh (aliases : list string) (values : list Q) (mesh : list (Q * nat)) : Prop :=
  (2 <= length values)%nat /\ length aliases = length values /\ strictly_increasing mesh /\
  (forall s i, In (s, i) mesh -> (i < length values)%nat) /\
  (forall i, (i < length values)%nat -> exists s, In (s, i) mesh).

(** The value declared for mesh point [i]. *)
Definition declared (values : list Q) (mesh : list (Q * nat)) (i : nat) (s v : Q) : Prop :=
  exists k, nth_error mesh i = Some (s, k) /\ nth_error values k = Some v.

(** [v] is the height at [s] of the straight line through (s0,v0) and (s1,v1). *)
Definition on_line (s0 v0 s1 v1 s v : Q) : Prop := (v - v0) * (s1 - s0) == (s - s0) * (v1 - v0).

(** [q] is [p] with possibly other values, as many as before. *)
Definition same_but_values (p q : parameter) : Prop :=
  par_path p = par_path q /\ par_aliases p = par_aliases q /\ par_mesh p = par_mesh q /\
  length (par_values p) = length (par_values q).
