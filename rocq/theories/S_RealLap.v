(** What the theorems on the laps of a whole car say: circuits seen in a mirror, circuits with another starting line, lap times that can be attained. *)
From Coq Require Import Reals List.
From Verif Require Import M_Vec M_Tire M_Car M_Road M_F1 M_Kart6 M_KartCar M_RealLap S_F1 S_KartCar.
Import ListNotations.
Local Open Scope R_scope.

(** *** Mirror images *)
(** Left and right limits change places. *)
Definition mirror_circuit (ci : circuit) : circuit := Circuit (fun s => mirror_point (ci_frame ci s)) (ci_right ci) (ci_left ci).
Definition mirror_f1_point (p : f1_point) : f1_point := F1Point (mirror_input (fp_in p)) (- fp_n p) (- fp_alpha p).
Definition mirror_kart_point (p : kart_point) : kart_point := KartPoint (mirror_kart_input (kp_in p)) (- kp_n p) (- kp_alpha p).
(** A lap of the image: the same points of the track, with mirrored variables. *)
Definition mirror_f1_lap (pts : list (R * f1_point)) : list (R * f1_point) := map (fun p => (fst p, mirror_f1_point (snd p))) pts.
Definition mirror_kart_points (pts : list (R * kart_point)) : list (R * kart_point) := map (fun p => (fst p, mirror_kart_point (snd p))) pts.

(** Lower bounds of the image from lower and upper bounds: of what changes its sign, the lower bound is minus the upper bound. Exchange them for
    the upper bounds of the image. *)
Definition mirror_f1_bounds (lo hi : R -> f1_input * R) (s : R) : f1_input * R :=
  let l := fst (lo s) in let h := fst (hi s) in
  (F1Input (i_fr l) (i_fl l) (i_rr l) (i_rl l) (i_u l) (- i_v h) (- i_yaw h) (i_zfr l) (i_zfl l) (i_zrr l) (i_zrl l)
           (- M_F1.i_delta h) (i_boost l) (M_F1.i_throttle l) (i_bias l), - snd (hi s)).
Definition mirror_kart_bounds (lo hi : R -> kart_input * R) (s : R) : kart_input * R :=
  let l := fst (lo s) in let h := fst (hi s) in let p := i_state l in let q := i_state h in
  (KartInput (MkState6 (q_u p) (- q_v q) (- q_omega q) (q_z p) (q_dz p) (q_mu p) (q_dmu p) (- q_phi q) (- q_dphi q)) (i_omega l)
             (- M_KartCar.i_delta h) (M_KartCar.i_throttle l), - snd (hi s)).
(** Integral quantities of the image: the energies of the left tyres are those of the right ones. *)
Definition mirror_quantity (k : nat) : nat := nth k [0; 2; 1; 4; 3]%nat k.
Definition mirror_restricted (l : list (nat * (R * R))) : list (nat * (R * R)) := map (fun q => (mirror_quantity (fst q), snd q)) l.

(** *** The value of a problem *)
(** [T] is the value of a lap at the points of [mesh] that satisfies every bound and constraint. [laps]: the evaluations of the laps of the car. *)
Definition attained {P : Type} (laps : list (R * P) -> list (R * point_eval)) (sigma : R) (dis : list R) (restricted : list (nat * (R * R)))
  (closed : bool) (L : R) (mesh : list R) (T : R) : Prop :=
  exists pts, map fst pts = mesh /\ lap_feasible sigma restricted closed L (laps pts) /\ lap_objective sigma dis closed L (laps pts) = T.
(** [T] is the best of them. *)
Definition best {P : Type} (laps : list (R * P) -> list (R * point_eval)) sigma dis restricted closed L mesh (T : R) : Prop :=
  attained laps sigma dis restricted closed L mesh T /\ forall T', attained laps sigma dis restricted closed L mesh T' -> T <= T'.

(** *** Another starting line *)
(** The circuit with its arclength measured from [d]. *)
Definition started_at (d : R) (ci : circuit) : circuit :=
  Circuit (fun s => ci_frame ci (s + d)) (fun s => ci_left ci (s + d)) (fun s => ci_right ci (s + d)).
(** A function along a closed circuit of length [L]. *)
Definition periodic {A : Type} (L : R) (f : R -> A) : Prop := forall s, f (s + L) = f s.
Definition periodic_circuit (L : R) (ci : circuit) : Prop := periodic L (ci_frame ci) /\ periodic L (ci_left ci) /\ periodic L (ci_right ci).
(** The lap [first ++ second] of a circuit of length [L], that starts at 0, as seen from a starting line at the head of [second], at
    arclength [d]. *)
Definition restarted {P : Type} (L d : R) (first second : list (R * P)) : list (R * P) :=
  map (fun p => (fst p - d, snd p)) second ++ map (fun p => (fst p + L - d, snd p)) first.
Definition starts_at {P : Type} (d : R) (pts : list (R * P)) : Prop := match pts with p :: _ => fst p = d | [] => False end.
