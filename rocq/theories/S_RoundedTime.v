(** Vocabulary of the property on the time of a lap in double precision. *)
From Coq Require Import Reals List.
From Verif Require Import S_Rounded.
Import ListNotations.
Local Open Scope R_scope.

Definition entry (v : list R) (i : nat) : R := nth i v 0.

(** A lap that moves forwards: at least one point, increasing positions that end before the track does if it is closed, no negative
    derivative of the time with respect to the arclength, a scheme between the explicit and the implicit Euler rule. All
    numbers are doubles. *)
Record forward_lap (closed : bool) (sigma L : R) (s d : list R) : Prop := {
  fl_sizes   : (1 <= length s)%nat /\ length d = length s;
  fl_doubles : is_double sigma /\ is_double L /\ Forall is_double s /\ Forall is_double d;
  fl_sigma   : 0 <= sigma <= 1;
  fl_order   : forall i, (S i < length s)%nat -> entry s i < entry s (S i);
  fl_end     : closed = true -> entry s (length s - 1) < L;
  fl_rates   : forall i, (i < length s)%nat -> 0 <= entry d i }.

(** No element and no derivative is below [2 ^ -100] (about [10 ^ -30]), and no weight of the scheme either, unless it is 0. *)
Record not_tiny (closed : bool) (sigma L : R) (s d : list R) : Prop := {
  nt_sigma : sigma = 0 \/ / 2 ^ 100 <= sigma;
  nt_steps : forall i, (S i < length s)%nat -> / 2 ^ 100 <= entry s (S i) - entry s i;
  nt_end   : closed = true -> / 2 ^ 100 <= L - entry s (length s - 1);
  nt_rates : forall i, (i < length s)%nat -> / 2 ^ 100 <= entry d i }.

(** The same quadrature without rounding: time of point [k] and of the lap. *)
Definition exact_element (sigma : R) (length left right : R) : R := length * ((1 - sigma) * left + sigma * right).
Definition exact_time (sigma : R) (s d : list R) (t0 : R) (k : nat) : R :=
  t0 + fold_right Rplus 0
         (map (fun i => exact_element sigma (entry s (S i) - entry s i) (entry d i) (entry d (S i))) (seq 0 k)).
Definition exact_laptime (closed : bool) (sigma L : R) (s d : list R) (t0 : R) : R :=
  let last := (length s - 1)%nat in
  exact_time sigma s d t0 last +
  if closed then exact_element sigma (L - entry s last) (entry d last) (entry d 0) else 0.
