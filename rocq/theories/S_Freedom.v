(** What the theorems on problems with fewer restrictions say. *)
From Coq Require Import Reals List Sorted.
From Verif Require Import M_F1 M_Kart6 M_KartCar M_RealLap S_RealLap S_LapLimits.
Import ListNotations.
Local Open Scope R_scope.

(** The same road with limits that are further away. *)
Definition wider_circuit (ci wide : circuit) : Prop :=
  forall s, ci_frame wide s = ci_frame ci s /\ ci_left ci s <= ci_left wide s /\ ci_right ci s <= ci_right wide s.
(** Each input and control of [l] is at most that of [h]. *)
Definition f1_inputs_le (l h : f1_input) : Prop :=
  Forall (fun f => f l <= f h) [i_fl; i_fr; i_rl; i_rr; i_u; i_v; i_yaw; i_zfl; i_zfr; i_zrl; i_zrr; M_F1.i_delta; i_boost; M_F1.i_throttle; i_bias].
Definition kart_inputs_le (l h : kart_input) : Prop :=
  Forall (fun f => f l <= f h) [i_omega; M_KartCar.i_delta; M_KartCar.i_throttle] /\
  Forall (fun f => f (i_state l) <= f (i_state h)) [q_u; q_v; q_omega; q_z; q_phi; q_mu; q_dz; q_dphi; q_dmu].
(** Bounds of the variables that are further apart; the second component bounds the heading angle. *)
Definition wider_f1_bounds (lo hi wlo whi : R -> f1_input * R) : Prop :=
  forall s, f1_inputs_le (fst (wlo s)) (fst (lo s)) /\ f1_inputs_le (fst (hi s)) (fst (whi s)) /\ snd (wlo s) <= snd (lo s) /\ snd (hi s) <= snd (whi s).
Definition wider_kart_bounds (lo hi wlo whi : R -> kart_input * R) : Prop :=
  forall s, kart_inputs_le (fst (wlo s)) (fst (lo s)) /\ kart_inputs_le (fst (hi s)) (fst (whi s)) /\ snd (wlo s) <= snd (lo s) /\ snd (hi s) <= snd (whi s).
(** Every limit of an integral quantity that is left is one of those before, or a wider one. *)
Definition fewer_limits (restricted left : list (nat * (R * R))) : Prop :=
  forall k a b, In (k, (a, b)) left -> exists a' b', In (k, (a', b')) restricted /\ a <= a' /\ b' <= b.
(** Lower penalisations, none of them negative. *)
Definition lower_dissipations (dis low : list R) : Prop := length low = length dis /\ forall k, 0 <= nth k low 0 <= nth k dis 0.
(** An increasing mesh, within the lap if it is closed. *)
Definition increasing_mesh (closed : bool) (L : R) (mesh : list R) : Prop := Sorted.StronglySorted Rlt (mesh ++ if closed then [L] else []).
(** A quantity that is the same at every point of a lap, as a control that is optimised as a constant. *)
Definition constant_along {P : Type} (f : P -> R) (pts : list (R * P)) : Prop := exists b, Forall (fun p => f (snd p) = b) pts.
(** A closed lap driven as an open one, from its first point to the first point again, at arclength [L]. *)
Definition driven_once {P : Type} (L : R) (first : R * P) (rest : list (R * P)) : list (R * P) := first :: rest ++ [(L, snd first)].
