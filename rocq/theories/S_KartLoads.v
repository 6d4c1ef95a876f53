(** What the theorems on the loads of the kart say: loads of the four tyres and where they act. *)
From Coq Require Import Reals List.
From Verif Require Import M_Vec M_Tire M_Car M_Kart6 M_KartCar.
Import ListNotations.
Local Open Scope R_scope.

(** The load of a tyre: the force of the road on it, upwards (the axis z goes down). *)
Definition load (t : tire_state) : R := - vz (t_F t).
(** The points of the road below the wheels, forwards and to the right, and their loads. Axles do not move along them. *)
Definition loaded_points (c : kart) (v : kart_eval) : list (R * R * R) :=
  let f := k_front (c_body c) in let r := k_rear (c_body c) in let o := k_com (c_body c) in
  [ (vx o + vx f, vy o + vy f - b_track (c_front c) / 2, load (x_left (n_front v)));
    (vx o + vx f, vy o + vy f + b_track (c_front c) / 2, load (x_right (n_front v)));
    (vx o + vx r, vy o + vy r - b_track (c_rear c) / 2, load (x_left (n_rear v)));
    (vx o + vx r, vy o + vy r + b_track (c_rear c) / 2, load (x_right (n_rear v))) ].
Definition summed (f : R * R * R -> R) (l : list (R * R * R)) : R := fold_right (fun p t => f p + t) 0 l.
Definition all_load (l : list (R * R * R)) : R := summed (fun '(_, _, n) => n) l.
Definition forwards (l : list (R * R * R)) : R := summed (fun '(x, _, n) => x * n) l.
Definition to_the_right (l : list (R * R * R)) : R := summed (fun '(_, y, n) => y * n) l.
(** Height of the centre of mass over the road. *)
Definition height (c : kart) (i : kart_input) : R := - vz (k_com (c_body c)) - q_z (i_state i).
