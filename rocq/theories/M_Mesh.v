(** Model of the mesh generation of the circuit preprocessor
    (src/core/applications/circuit_preprocessor.hpp). Exact rationals instead of doubles.
    The arclengths of the mesh are modelled, not the interpolated points. *)
From Coq Require Import QArith Bool Arith List.
From Verif Require Import M_Controls.
Import ListNotations.
Local Open Scope Q_scope.

(** models: the restriction of the size ratio of adjacent cells,
    circuit_preprocessor.hpp:1181-1185 (and 1244-1248, 1310-1314, 1373-1377). *)
Definition clamp_ds (r prev ds : Q) : Q :=
  if Qlt_bool (r * prev) ds then r * prev
  else if Qlt_bool ds (prev / r) then prev / r
  else ds.

(** models: the while loop, circuit_preprocessor.hpp:1176-1191 (and 1239-1255, 1305-1320,
    1368-1384). [f] is the requested size at a mesh arclength, [prev] is ds_prev. The mesh
    is kept with the last point first. [None]: not finished within [fuel] turns. *)
Fixpoint mesh_loop (fuel : nat) (f : Q -> Q) (r s_end : Q) (mesh : list Q) (prev : Q) : option (list Q) :=
  match mesh with
  | [] => None
  | back :: _ =>
      if Qlt_bool back s_end then
        match fuel with
        | O => None
        | S fuel' =>
            let ds := clamp_ds r prev (f back) in
            mesh_loop fuel' f r s_end ((back + ds) :: mesh) ds
        end
      else Some mesh
  end.

(** models: the squash of the last six elements, circuit_preprocessor.hpp:1194-1200 (and
    1257-1265, 1323-1329, 1386-1394). With fewer than seven points size() - 7 wraps around
    and the access is out of bounds. The mesh is in order, first point first. *)
Definition squash (s_end : Q) (mesh : list Q) : res (list Q) :=
  if (length mesh <? 7)%nat then UB
  else
    let base := nth (length mesh - 7) mesh 0 in
    let ds := (s_end - base) / 6 in
    Ok (firstn (length mesh - 6) mesh ++ map (fun i => base + inject_Z (Z.of_nat (i + 1)) * ds) (seq 0 6)).

(** What compute_averaged_centerline returns about the mesh: Centerline.s and
    Centerline.track_length. *)
Record mesh_result := MkMesh { mr_s : list Q; mr_length : Q }.

(** models: the end of compute_averaged_centerline, circuit_preprocessor.hpp:1267-1277 (and
    1396-1406): track length = last point; a closed track drops the last point. *)
Definition finish_mesh (closed : bool) (mesh : list Q) : mesh_result :=
  MkMesh (if closed then removelast mesh else mesh) (last mesh 0).

(** models: compute_averaged_centerline with breakpoints, circuit_preprocessor.hpp:1156-1278:
    the mesh starts with {0, ds0} where ds0 is the size of the first breakpoint. [f] stands
    for compute_ds_for_coordinates at the mesh point (a function of its arclength). *)
Definition mesh_breakpoints (fuel : nat) (closed : bool) (f : Q -> Q) (ds0 r s_end : Q) : option (res mesh_result) :=
  match mesh_loop fuel f r s_end [ds0; 0] ds0 with
  | None => None
  | Some m => Some (bind (squash s_end (rev m)) (fun m' => Ok (finish_mesh closed m')))
  end.

(** models: sPolynomial f_ds(s_distribution, ds_distribution, 1, false),
    circuit_preprocessor.hpp:1287. lion is not in the repository: assumed to be the
    piecewise linear interpolation of the table (s, ds); constant before the first node and
    after the last one (never evaluated there when the table starts at 0). *)
Fixpoint pwl (tab : list (Q * Q)) (s : Q) : Q :=
  match tab with
  | [] => 0
  | (s0, v0) :: tab' =>
      match tab' with
      | [] => v0
      | (s1, v1) :: _ =>
          if Qlt_bool s s0 then v0
          else if Qlt_bool s s1 then v0 + (s - s0) / (s1 - s0) * (v1 - v0)
          else pwl tab' s
      end
  end.
(** models: circuit_preprocessor.hpp:1307 and 1370: f_ds(s) before the end of the table, its
    last size from there on. *)
Definition table_size (tab : list (Q * Q)) (s : Q) : Q :=
  if Qlt_bool s (fst (last tab (0, 0))) then pwl tab s else snd (last tab (0, 0)).

(** models: compute_averaged_centerline with a size distribution,
    circuit_preprocessor.hpp:1281-1407: the mesh starts with {0} and ds_prev = f_ds(0). *)
Definition mesh_distribution (fuel : nat) (closed : bool) (tab : list (Q * Q)) (r s_end : Q) : option (res mesh_result) :=
  match mesh_loop fuel (table_size tab) r s_end [0] (pwl tab 0) with
  | None => None
  | Some m => Some (bind (squash s_end (rev m)) (fun m' => Ok (finish_mesh closed m')))
  end.

(** models: linspace(0, L, n+1) as used in the equally-spaced version,
    circuit_preprocessor.hpp:1088-1153 (lines 1104, 1139): lion's linspace, n+1 points with
    the step L/n. *)
Definition mesh_equispaced (closed : bool) (n : nat) (L : Q) : mesh_result :=
  let pts := map (fun i => inject_Z (Z.of_nat i) * (L / inject_Z (Z.of_nat n))) (seq 0 (n + 1)) in
  MkMesh (if closed then removelast pts else pts) L.

(** Points of space and the squared distance (comparing norms is comparing squares). *)
Definition point : Type := (Q * Q * Q)%type.
Definition dist2 (a b : point) : Q :=
  let '(ax, ay, az) := a in let '(bx, by_, bz) := b in
  (ax - bx) * (ax - bx) + (ay - by_) * (ay - by_) + (az - bz) * (az - bz).

(** models: who_is_ahead, circuit_preprocessor.hpp:1613-1628. The index pairs are those of
    the curve nodes around a projected point. *)
Definition who_is_ahead (i1 i2 : nat * nat) (p1 p2 p_ref : point) : nat :=
  if (fst i1 =? fst i2)%nat && (snd i1 =? snd i2)%nat then
    if (fst i1 =? snd i1)%nat then 1
    else if Qlt_bool (dist2 p2 p_ref) (dist2 p1 p_ref) then 1 else 2
  else if (fst i1 <? fst i2)%nat then 2 else 1.

(** models: compute_ds_for_coordinates, circuit_preprocessor.hpp:1586-1611. [proj] stands for
    lion's find_closest_point on the curve: the projected point and its two nodes. [size()-1]
    of an empty list of breakpoints wraps around: UB. *)
Section Breakpoints.
  Context (proj : point -> point * (nat * nat)).
  Fixpoint search_break (q : point * (nat * nat)) (bs : list (point * Q)) (prev : Q) : Q :=
    match bs with
    | [] => prev
    | (b, v) :: bs' =>
        if (who_is_ahead (snd (proj b)) (snd q) (fst (proj b)) (fst q) b =? 1)%nat then prev
        else search_break q bs' v
    end.
  Definition compute_ds (p : point) (bs : list (point * Q)) : res Q :=
    match bs with
    | [] => UB
    | (_, v) :: bs' => Ok (search_break (proj p) bs' v)
    end.
End Breakpoints.
