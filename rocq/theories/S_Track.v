(** Specification side of circuit files and tracks. *)
From Coq Require Import String QArith ZArith Bool Arith List.
From Verif Require Import M_Controls M_Kerb M_Mesh M_Track.
Import ListNotations.
Local Open Scope Q_scope.

(** A circuit with at least one point whose vectors all have one entry per point, and with
    measured boundaries. This is what the preprocessor computes, with or without elevation. *)
Definition well_formed (c : circuit) : Prop :=
  let n := ci_n c in
  (1 <= n)%nat /\
  (length (ci_s c) = n /\ length (ci_center c) = n /\ length (ci_left c) = n /\ length (ci_right c) = n) /\
  (ci_left_measured c <> [] /\ ci_right_measured c <> []) /\
  (length (ci_yaw c) = n /\ length (ci_pitch c) = n /\ length (ci_roll c) = n /\
   length (ci_dyaw c) = n /\ length (ci_dpitch c) = n /\ length (ci_droll c) = n /\
   length (ci_nl c) = n /\ length (ci_nr c) = n /\
   length (ci_d2yaw c) = n /\ length (ci_d2pitch c) = n /\ length (ci_d2roll c) = n /\
   length (ci_dnl c) = n /\ length (ci_dnr c) = n) /\
  (ci_kerbs c = false -> ci_left_kerb c = [] /\ ci_right_kerb c = []).

(** The arclengths increase, and end before the end of a closed lap. *)
Definition increasing (c : circuit) : Prop :=
  (forall i, (S i < ci_n c)%nat -> nth i (ci_s c) 0 < nth (S i) (ci_s c) 0) /\
  (ci_closed c = true -> nth (ci_n c - 1) (ci_s c) 0 < ci_length c).

(** The direction computed from the headings. *)
Definition heading_direction (c : circuit) : Z :=
  if ci_closed c then (if Qlt_le_dec (hd 0 (ci_yaw c)) (last (ci_yaw c) 0) then 1%Z else (-1)%Z) else 0%Z.

Definition flatten (p : point) : point := (fst (fst p), snd (fst p), 0).

(** What a file holds of a circuit: kerbs and costs with six decimals; without elevation neither
    heights nor pitch, roll and their derivatives. *)
Definition as_saved (c : circuit) : circuit :=
  let e := ci_elevation c in
  let pts v := if e then v else map flatten v in
  let opt (v : list Q) := if e then v else [] in
  let '(k1, k2, k3, k4) := ci_costs c in
  MkCircuit (ci_closed c) e (ci_length c) (ci_errors c) (round6 k1, round6 k2, round6 k3, round6 k4)
    (if e then (round6 (fst (ci_elevation_costs c)), round6 (snd (ci_elevation_costs c))) else (1000000, 1000000))
    (round6 (fst (ci_maxima c)), round6 (snd (ci_maxima c))) (ci_n c) (ci_s c)
    (pts (ci_center c)) (pts (ci_left c)) (pts (ci_right c)) (pts (ci_left_measured c)) (pts (ci_right_measured c))
    (ci_yaw c) (opt (ci_pitch c)) (opt (ci_roll c)) (ci_dyaw c) (opt (ci_dpitch c)) (opt (ci_droll c)) (ci_nl c) (ci_nr c)
    (ci_d2yaw c) (opt (ci_d2pitch c)) (opt (ci_d2roll c)) (ci_dnl c) (ci_dnr c) (heading_direction c) (ci_kerbs c)
    (map write_kerb (ci_left_kerb c)) (map write_kerb (ci_right_kerb c)).

(** A number with at most six decimals. *)
Definition six_decimals (x : Q) : Prop := exists z : Z, x == inject_Z z / inject_Z (10 ^ 6).
Definition six_decimals_kerb (k : kerb) : Prop := six_decimals (k_start k) /\ six_decimals (k_finish k) /\ six_decimals (k_width k).

Definition point_eq (a b : point) : Prop := fst (fst a) == fst (fst b) /\ snd (fst a) == snd (fst b) /\ snd a == snd b.
Definition origin : point := (0, 0, 0).
