(** What the theorems on the laps that satisfy the constraints say: sums along a lap, and what holds at its points. *)
From Coq Require Import Reals List Sorted.
From Verif Require Import M_Vec M_Tire M_Car M_Road M_F1 M_Kart6 M_KartCar M_RealLap.
Import ListNotations.
Local Open Scope R_scope.

(** *** Sums along a lap *)
(** A closed lap ends, at arclength [L], as it starts. *)
Definition closed_up {A : Type} (closed : bool) (L : R) (f : list (R * A)) : list (R * A) :=
  f ++ (if closed then match f with a :: _ => [(L, snd a)] | [] => [] end else []).
Definition values {P : Type} (g : R -> P -> R) (pts : list (R * P)) : list (R * R) := map (fun p => (fst p, g (fst p) (snd p))) pts.
(** The rule with weight [sigma] for the end of an interval: 0 is the rectangle of its start, 1/2 the trapezium, 1 the rectangle of its end. *)
Fixpoint weighted (sigma : R) (f : list (R * R)) : R :=
  match f with
  | (s, x) :: (((t, y) :: _) as rest) => (t - s) * ((1 - sigma) * x + sigma * y) + weighted sigma rest
  | _ => 0
  end.
Definition along {P : Type} (sigma : R) (closed : bool) (L : R) (g : R -> P -> R) (pts : list (R * P)) : R := weighted sigma (closed_up closed L (values g pts)).
(** The integral of the square of the slope, for values joined by straight segments. *)
Fixpoint roughness (f : list (R * R)) : R :=
  match f with
  | (s, x) :: (((t, y) :: _) as rest) => ((y - x) / (t - s)) ^ 2 * (t - s) + roughness rest
  | _ => 0
  end.
Definition wear {P : Type} (closed : bool) (L : R) (g : R -> P -> R) (pts : list (R * P)) : R := roughness (closed_up closed L (values g pts)).
Definition rising {P : Type} (closed : bool) (L : R) (pts : list (R * P)) : Prop := StronglySorted Rlt (map fst (closed_up closed L pts)).
(** From the first point to the last. *)
Definition distance {P : Type} (closed : bool) (L : R) (pts : list (R * P)) : R :=
  last (map fst (closed_up closed L pts)) 0 - hd 0 (map fst (closed_up closed L pts)).
(** The points chosen by the solver: the first of an open lap is given. *)
Definition chosen {P : Type} (closed : bool) (pts : list (R * P)) : list (R * P) := if closed then pts else tl pts.

(** *** At a point *)
(** Time per unit of arclength: the speed along the centreline, with curvature k, is (u cos a - v sin a)/(1 - n k). *)
Definition pace (k n alpha u v : R) : R := (1 - n * k) / (u * cos alpha - v * sin alpha).
Definition turning (ci : circuit) (s : R) : R := vz (curvature (fr_e (ci_frame ci s)) (fr_de (ci_frame ci s))).
Definition f1_pace (ci : circuit) (s : R) (p : f1_point) : R := pace (turning ci s) (fp_n p) (fp_alpha p) (i_u (fp_in p)) (i_v (fp_in p)).
Definition kart_pace (ci : circuit) (s : R) (p : kart_point) : R :=
  pace (turning ci s) (kp_n p) (kp_alpha p) (q_u (i_state (kp_in p))) (q_v (i_state (kp_in p))).
(** The car goes forwards, no faster than [V], and the inside of the corner is at most 1 - c times shorter than the centreline. *)
Definition moderate (c V k n alpha u v : R) : Prop := 0 < u * cos alpha - v * sin alpha /\ u * u + v * v <= V * V /\ c <= 1 - n * k.

Definition between (a x b : R) : Prop := a <= x <= b.
Definition f1_inputs_between (l i h : f1_input) : Prop :=
  Forall (fun f => between (f l) (f i) (f h))
    [i_fl; i_fr; i_rl; i_rr; i_u; i_v; i_yaw; i_zfl; i_zfr; i_zrl; i_zrr; M_F1.i_delta; i_boost; M_F1.i_throttle; i_bias].
Definition kart_inputs_between (l i h : kart_input) : Prop :=
  Forall (fun f => between (f l) (f i) (f h)) [i_omega; M_KartCar.i_delta; M_KartCar.i_throttle] /\
  Forall (fun f => between (f (i_state l)) (f (i_state i)) (f (i_state h))) [q_u; q_v; q_omega; q_z; q_phi; q_mu; q_dz; q_dphi; q_dmu].
(** Within the limits of the track. *)
Definition on_track (ci : circuit) (s n : R) : Prop := between (- ci_left ci s) n (ci_right ci s).
(** The side slip of a tyre at most the one of maximum force, without load or with the weight of the car. *)
Definition slips_little (t : wheel) (weight : R) (w : tire_state) : Prop :=
  Rabs (t_lambda w) <= maximum_lambda (w_model t) 0 \/ Rabs (t_lambda w) <= maximum_lambda (w_model t) weight.

(** *** Integral quantities of the Formula 1 car, per unit of time: the power of its engine (MW), the powers lost in its tyres (MW), its boost. *)
Definition friction_power (R0 : R) (w : tire_state) : R := vx (t_F w) * (t_omega w * R0 - vx (t_v w)) - vy (t_F w) * vy (t_v w).
Definition quantity (sp : R -> R -> R) (c : f1) (i : f1_input) (v : f1_eval) (k : nat) : R :=
  nth k [sp (M_F1.i_throttle i) (a_smooth (f_rear c)) * e_max_power_kW (a_engine (f_rear c)) / 1000;
         friction_power (w_R0 (f_fl c)) (v_fl v) / 1000000; friction_power (w_R0 (f_fr c)) (v_fr v) / 1000000;
         friction_power (w_R0 (f_rl c)) (v_rl v) / 1000000; friction_power (w_R0 (f_rr c)) (v_rr v) / 1000000; i_boost i] 0.
(** The track is flat. *)
Definition flat_circuit (ci : circuit) : Prop := forall s, pitch (fr_e (ci_frame ci s)) = 0 /\ roll (fr_e (ci_frame ci s)) = 0 /\
  pitch (fr_de (ci_frame ci s)) = 0 /\ roll (fr_de (ci_frame ci s)) = 0.
