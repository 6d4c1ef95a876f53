(** What the theorems on the laps with rates of the controls say. *)
From Coq Require Import Reals List.
From Verif Require Import M_F1 M_KartCar M_RealLap M_RateLap S_RealLap S_LapLimits.
Import ListNotations.
Local Open Scope R_scope.

(** The controls, by number. *)
Definition f1_control (k : nat) (p : f1_point) : R :=
  nth k [M_F1.i_delta (fp_in p); i_boost (fp_in p); M_F1.i_throttle (fp_in p); i_bias (fp_in p)] 0.
Definition kart_control (k : nat) (p : kart_point) : R := nth k [M_KartCar.i_delta (kp_in p); M_KartCar.i_throttle (kp_in p)] 0.

(** What is seen along a lap: at each point the time per unit of arclength and the value of a control. A closed lap ends as it starts. *)
Definition timeline {P : Type} (closed : bool) (L : R) (pace u : R -> P -> R) (pts : list (R * P)) : list (R * (R * R)) :=
  closed_up closed L (map (fun p => (fst p, (pace (fst p) (snd p), u (fst p) (snd p)))) pts).
(** The time that a piece of a lap takes. *)
Definition elapsed (sigma : R) (piece : list (R * (R * R))) : R := weighted sigma (map (fun p => (fst p, fst (snd p))) piece).
(** The rates of the first point. *)
Definition first_rates {P : Type} (pts : list (R * (P * list R))) : list R := match pts with p :: _ => snd (snd p) | [] => [] end.
Definition rate {P : Type} (k : nat) (_ : R) (p : P * list R) : R := nth k (snd p) 0.
Definition squared_rate {P : Type} (k : nat) (s : R) (p : P * list R) : R := rate k s p ^ 2.

(** The image of a lap in a mirror: the steering wheel turns to the other side. *)
Definition mirror_rates (w : list R) : list R := match w with d :: l => - d :: l | [] => [] end.
Definition mirror_rated_f1 (pts : list (R * (f1_point * list R))) : list (R * (f1_point * list R)) :=
  map (fun p => (fst p, (mirror_f1_point (fst (snd p)), mirror_rates (snd (snd p))))) pts.
Definition mirror_rated_kart (pts : list (R * (kart_point * list R))) : list (R * (kart_point * list R)) :=
  map (fun p => (fst p, (mirror_kart_point (fst (snd p)), mirror_rates (snd (snd p))))) pts.

(** The integral along the lap of the square of the rate of a control, by the trapezoidal rule: what the penalisation is for. *)
Definition effort {P : Type} (closed : bool) (L : R) (k : nat) (pts : list (R * (P * list R))) : R := along (1 / 2) closed L (squared_rate k) pts.
(** What is taken instead of it: half of it is the square of the first rate times the distance; the other half, squares at the end of each interval, and in the closing one that at its start. *)
Definition lopsided_effort {P : Type} (closed : bool) (L : R) (k : nat) (pts : list (R * (P * list R))) : R :=
  match pts with
  | [] => 0
  | a :: _ => let z := last pts a in
    (rate k 0 (snd a) ^ 2 * distance closed L pts + along 1 false L (squared_rate k) pts + if closed then (L - fst z) * rate k 0 (snd z) ^ 2 else 0) / 2
  end.
(** The sum over the controls of the mesh of a quantity times the dissipation of the control. *)
Definition penalised (dis : list R) (meshed : list nat) (f : nat -> R) : R := fold_right (fun k x => nth k dis 0 * f k + x) 0 meshed.
