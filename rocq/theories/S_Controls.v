(** Specification side for the control variables: sorted meshes and the value in
    force at an arclength. *)
From Coq Require Import QArith List.
Import ListNotations.
Local Open Scope nat_scope.

(** The mesh points do not decrease. *)
Definition sorted (l : list Q) : Prop :=
  forall i j, i <= j -> j < length l -> (nth i l 0 <= nth j l 0)%Q.

(** [v] is the value attached to the last mesh point at or before [s]. *)
Definition value_in_force (mesh values : list Q) (s v : Q) : Prop :=
  exists i, i < length mesh /\ nth_error values i = Some v /\ (nth i mesh 0 <= s)%Q /\
            forall j, i < j -> j < length mesh -> (s < nth j mesh 0)%Q.

(** [s] lies before every point of the mesh. *)
Definition before_all (mesh : list Q) (s : Q) : Prop :=
  forall j, j < length mesh -> (s < nth j mesh 0)%Q.
