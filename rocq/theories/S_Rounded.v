(** Vocabulary of the property on position-dependent parameters in double precision. *)
From Coq Require Import Reals List Sorted.
From Flocq Require Import Core.
Import ListNotations.
Local Open Scope R_scope.

(** A binary64 number (Flocq's format: 53 bits, smallest exponent -1074; no largest number). *)
Definition is_double (x : R) : Prop := generic_format radix2 (FLT_exp (-1074) 53) x.

(** A declaration accepted by the library: at least two values, increasing positions, every
    position refers to a value. All numbers are doubles. *)
Record declared (values : list R) (mesh : list (R * nat)) : Prop := {
  enough   : (2 <= length values)%nat;
  ordered  : StronglySorted Rlt (map fst mesh);
  existing : forall p, In p mesh -> (snd p < length values)%nat;
  doubles  : Forall is_double values /\ Forall (fun p => is_double (fst p)) mesh }.

(** [s] lies between two consecutive positions [sl] and [sr], where the values [vl] and [vr] are
    declared. *)
Definition between_positions (values : list R) (mesh : list (R * nat)) (s sl sr vl vr : R) : Prop :=
  exists k il ir, nth_error mesh k = Some (sl, il) /\ nth_error mesh (S k) = Some (sr, ir) /\
    nth_error values il = Some vl /\ nth_error values ir = Some vr /\ sl <= s < sr.
