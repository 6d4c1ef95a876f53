(** Position-dependent parameters evaluated in double precision
    (src/core/foundation/model_parameter.h:51-77).

    Every operation is the exact one followed by rounding to the nearest binary64 number, ties to
    even (Flocq's generic format with gradual underflow). Overflow is not modelled: the format has
    no largest number. [lion]'s [scalar] is [double]; for the automatic differentiation type the
    value is computed by the same operations. *)
From Coq Require Import Reals ZArith List.
From Flocq Require Import Core.
Import ListNotations.
Local Open Scope R_scope.

(** models: the exponents and the significands of binary64. *)
Definition binary64 : Z -> Z := FLT_exp (-1074) 53.
(** A real number that is a double. *)
Definition double (x : R) : Prop := generic_format radix2 binary64 x.
(** models: the rounding of one operation. *)
Definition rnd (x : R) : R := round radix2 binary64 ZnearestE x.
Definition fadd (x y : R) : R := rnd (x + y).
Definition fsub (x y : R) : R := rnd (x - y).
Definition fmul (x y : R) : R := rnd (x * y).
Definition fdiv (x y : R) : R := rnd (x / y).

(** models: the linear blend, model_parameter.h:73-74. *)
Definition blend (vl vr sl sr s : R) : R :=
  let xi := fdiv (fsub s sl) (fsub sr sl) in
  fadd vl (fmul xi (fsub vr vl)).

(** models: std::upper_bound (model_parameter.h:60): number of leading mesh points that are not
    after [s]; a scan instead of the binary search. *)
Fixpoint upper_bound (mesh : list (R * nat)) (s : R) : nat :=
  match mesh with
  | [] => O
  | a :: rest => if Rle_dec (fst a) s then S (upper_bound rest s) else O
  end.

(** models: operator()(s), model_parameter.h:51-77; [None] for an access outside of a vector. *)
Definition eval_rounded (values : list R) (mesh : list (R * nat)) (s : R) : option R :=
  if Nat.eqb (length values) 1 then nth_error values 0
  else
    let it := upper_bound mesh s in
    if Nat.eqb it 0 then nth_error values 0
    else if Nat.eqb it (length mesh) then nth_error values (length values - 1)
    else match nth_error mesh (it - 1), nth_error mesh it with
         | Some (sl, il), Some (sr, ir) =>
             match nth_error values il, nth_error values ir with
             | Some vl, Some vr => Some (blend vl vr sl sr s)
             | _, _ => None
             end
         | _, _ => None
         end.

(** ** The mesh of the circuit preprocessor *)

(** models: the restriction of the size ratio of adjacent cells, circuit_preprocessor.hpp:1181-1185 (and
    1244-1248, 1310-1314, 1373-1377). *)
Definition clamp_rounded (r prev ds : R) : R :=
  if Rlt_dec (fmul r prev) ds then fmul r prev
  else if Rlt_dec ds (fdiv prev r) then fdiv prev r
  else ds.

(** models: the while loop, circuit_preprocessor.hpp:1176-1191 (and 1239-1255, 1305-1320, 1368-1384). [f] is
    the requested size at a mesh arclength, [prev] is ds_prev. The mesh is kept with the last point
    first. [None]: not finished within [fuel] turns. *)
Fixpoint loop_rounded (fuel : nat) (f : R -> R) (r s_end : R) (mesh : list R) (prev : R) : option (list R) :=
  match mesh with
  | [] => None
  | back :: _ =>
      if Rlt_dec back s_end then
        match fuel with
        | O => None
        | S fuel' =>
            let ds := clamp_rounded r prev (f back) in
            loop_rounded fuel' f r s_end (fadd back ds :: mesh) ds
        end
      else Some mesh
  end.

(** models: the squash of the last six elements, circuit_preprocessor.hpp:1194-1200 (and 1257-1265,
    1323-1329, 1386-1394), with the last point first before and after. [None]: with fewer than seven points
    size() - 7 wraps around and the access is out of bounds. *)
Definition squashed (s_end base : R) (i : R) : R := fadd base (fmul i (fdiv (fsub s_end base) 6)).
Definition squash_rounded (s_end : R) (mesh : list R) : option (list R) :=
  match mesh with
  | _ :: _ :: _ :: _ :: _ :: _ :: base :: rest =>
      Some (map (squashed s_end base) [6; 5; 4; 3; 2; 1] ++ base :: rest)
  | _ => None
  end.

(** models: the positions of the mesh in compute_averaged_centerline before the closing point is removed, with
    breakpoints (circuit_preprocessor.hpp:1156-1265: the mesh starts with {0, ds0}) and with a distribution of
    sizes (1281-1394: it starts with {0}). The outer option: the loop has ended; the inner one: it made seven
    points. The order is that of the mesh. *)
Definition mesh_rounded (fuel : nat) (breakpoints : bool) (f : R -> R) (ds0 r s_end : R) : option (option (list R)) :=
  match loop_rounded fuel f r s_end (if breakpoints then [ds0; 0] else [0]) ds0 with
  | None => None
  | Some m => Some (option_map (@rev R) (squash_rounded s_end m))
  end.

(** ** Numbers written to files *)

Definition ten : radix := Build_radix 10 eq_refl.
(** models: operator<< of a stream with precision(17): circuit_preprocessor.hpp:765 and 783-1010,
    optimal_laptime_data.h:165 and 192-335. The number that is written: the nearest one with 17 significant
    decimal digits. The C library is taken to round correctly. *)
Definition written17 (x : R) : R := round ten (FLX_exp 17) ZnearestE x.
(** models: std::to_string, used at circuit_preprocessor.hpp:806-813, kerb.h:182-184 and
    optimal_laptime_data.h:190: six decimals. *)
Definition to_string (x : R) : R := round ten (FIX_exp (-6)) ZnearestE x.
(** models: reading a number from its text: the nearest double. *)
Definition read_text (y : R) : R := rnd y.
