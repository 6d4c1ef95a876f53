(** Vectors and matrices of lion (Vector3d, Matrix3x3), which are not in the repository:
    their usual meaning over the reals. *)
From Coq Require Import Reals.
Local Open Scope R_scope.

Record vec := V { vx : R; vy : R; vz : R }.
Definition vadd (a b : vec) : vec := V (vx a + vx b) (vy a + vy b) (vz a + vz b).
Definition vsub (a b : vec) : vec := V (vx a - vx b) (vy a - vy b) (vz a - vz b).
Definition vscale (k : R) (a : vec) : vec := V (k * vx a) (k * vy a) (k * vz a).
Definition vopp (a : vec) : vec := V (- vx a) (- vy a) (- vz a).
Definition dot (a b : vec) : R := vx a * vx b + vy a * vy b + vz a * vz b.
Definition cross (a b : vec) : vec :=
  V (vy a * vz b - vz a * vy b) (vz a * vx b - vx a * vz b) (vx a * vy b - vy a * vx b).
Definition norm (a : vec) : R := sqrt (dot a a).
Definition vzero : vec := V 0 0 0.

(** A matrix by its columns. *)
Record mat := M3 { col1 : vec; col2 : vec; col3 : vec }.
Definition mapply (m : mat) (a : vec) : vec :=
  vadd (vadd (vscale (vx a) (col1 m)) (vscale (vy a) (col2 m))) (vscale (vz a) (col3 m)).
Definition mtapply (m : mat) (a : vec) : vec := V (dot (col1 m) a) (dot (col2 m) a) (dot (col3 m) a).
Definition mmul (m n : mat) : mat := M3 (mapply m (col1 n)) (mapply m (col2 n)) (mapply m (col3 n)).

(** Elementary rotations. *)
Definition rot_z (t : R) : mat := M3 (V (cos t) (sin t) 0) (V (- sin t) (cos t) 0) (V 0 0 1).
Definition rot_y (t : R) : mat := M3 (V (cos t) 0 (- sin t)) (V 0 1 0) (V (sin t) 0 (cos t)).
Definition rot_x (t : R) : mat := M3 (V 1 0 0) (V 0 (cos t) (sin t)) (V 0 (- sin t) (cos t)).
