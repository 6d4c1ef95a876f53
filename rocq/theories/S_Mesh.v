(** Specification side of the mesh generation. *)
From Coq Require Import QArith Arith List.
From Verif Require Import M_Mesh.
Import ListNotations.
Local Open Scope nat_scope.

Definition node (m : list Q) (i : nat) : Q := nth i m 0%Q.
Definition size_of (m : list Q) (i : nat) : Q := (node m (S i) - node m i)%Q.

(** A mesh of an open interval [0, L]: starts at 0, strictly increasing, ends at L. *)
Definition covers (m : list Q) (L : Q) : Prop :=
  2 <= length m /\ (node m 0 == 0)%Q /\ (node m (length m - 1) == L)%Q /\
  (forall i, S i < length m -> (node m i < node m (S i))%Q).

(** What a mesh of a track of length L looks like: an open track has the end point, in a
    closed one it is left out (the first point closes the track). *)
Definition track_mesh (closed : bool) (r : mesh_result) (L : Q) : Prop :=
  (mr_length r == L)%Q /\ covers (if closed then mr_s r ++ [mr_length r] else mr_s r) L.

(** A table of sizes: increasing arclengths from 0, sizes between d and D. *)
Definition size_table (tab : list (Q * Q)) (d D : Q) : Prop :=
  tab <> [] /\ (fst (nth 0 tab (0, 0)) == 0)%Q /\
  (forall i, S i < length tab -> (fst (nth i tab (0, 0)) < fst (nth (S i) tab (0, 0)))%Q) /\
  (forall i, i < length tab -> (d <= snd (nth i tab (0, 0)) <= D)%Q).

(** Two neighbouring sizes within the ratio r of each other. *)
Definition graded (r a b : Q) : Prop := (a <= r * b /\ b <= r * a)%Q.

(** Outcome of a loop run with enough fuel. *)
Definition yields {A} (run : nat -> option A) (x : A) : Prop :=
  (exists fuel, run fuel = Some x) /\ (forall fuel y, run fuel = Some y -> y = x).
Definition never_ends {A} (run : nat -> option A) : Prop := forall fuel, run fuel = None.

(** All the points of a track mesh, with the end point. *)
Definition all_points (closed : bool) (r : mesh_result) : list Q :=
  if closed then mr_s r ++ [mr_length r] else mr_s r.
