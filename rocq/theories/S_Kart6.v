(** The motion of a rigid body on a flat road: Newton and Euler's laws in an inertial frame,
    with z pointing down as in the kart. *)
From Coq Require Import Reals.
From Coquelicot Require Import Coquelicot.
From Verif Require Import M_Vec.
Local Open Scope R_scope.

(** Derivative of a vector that depends on time. *)
Definition vderive (f : R -> vec) (t : R) : vec :=
  V (Derive (fun s => vx (f s)) t) (Derive (fun s => vy (f s)) t) (Derive (fun s => vz (f s)) t).

(** A motion: the point of the road below the centre of mass, the heading, the height and the
    pitch and roll angles, all functions of time. *)
Record motion := MkMotion { m_x : R -> R; m_y : R -> R; m_psi : R -> R; m_z : R -> R; m_mu : R -> R; m_phi : R -> R }.

Definition ground_point (k : motion) (t : R) : vec := V (m_x k t) (m_y k t) 0.
(** [h] is the height of the centre of mass at rest. *)
Definition mass_centre (h : R) (k : motion) (t : R) : vec := V (m_x k t) (m_y k t) (m_z k t - h).
(** Heading, then pitch, then roll. *)
Definition attitude (k : motion) (t : R) : mat := mmul (rot_z (m_psi k t)) (mmul (rot_y (m_mu k t)) (rot_x (m_phi k t))).
(** A point of the body, given by its coordinates from the centre of mass at rest. *)
Definition body_point (h : R) (k : motion) (p : vec) (t : R) : vec := vadd (mass_centre h k t) (mapply (attitude k t) p).

(** The angular velocity of the body. *)
Definition angular_velocity (k : motion) (t : R) : vec :=
  vadd (V 0 0 (Derive (m_psi k) t))
       (mapply (rot_z (m_psi k t))
          (vadd (V 0 (Derive (m_mu k) t) 0) (mapply (rot_y (m_mu k t)) (V (Derive (m_phi k) t) 0 0)))).

(** The inertia tensor of a body with a plane of symmetry and product of inertia [Ixz]. *)
Definition inertia (Ixx Iyy Izz Ixz : R) : mat := M3 (V Ixx 0 (- Ixz)) (V 0 Iyy 0) (V (- Ixz) 0 Izz).
Definition spin (J : mat) (k : motion) (t : R) : vec :=
  mapply (attitude k t) (mapply J (mtapply (attitude k t) (angular_velocity k t))).

(** Acceleration of the centre of mass and moment about the point of the road below it that the
    motion needs, in axes that turn with the heading. *)
Definition needed_acceleration (h : R) (k : motion) (t : R) : vec :=
  mtapply (rot_z (m_psi k t)) (vderive (vderive (mass_centre h k)) t).
Definition needed_moment (m h : R) (J : mat) (k : motion) (t : R) : vec :=
  mtapply (rot_z (m_psi k t))
    (vadd (vderive (spin J k) t)
          (cross (vsub (mass_centre h k t) (ground_point k t)) (vscale m (vderive (vderive (mass_centre h k)) t)))).

(** [f] and [g] agree to first order at 0. *)
Definition agree1 (f g : R -> R) : Prop := f 0 = g 0 /\ is_derive (fun e => f e - g e) 0 0.
Definition vagree1 (f g : R -> vec) : Prop :=
  agree1 (fun e => vx (f e)) (fun e => vx (g e)) /\ agree1 (fun e => vy (f e)) (fun e => vy (g e)) /\
  agree1 (fun e => vz (f e)) (fun e => vz (g e)).

(** The point of the road moves with velocity ([u], [v]) in axes that turn with the heading. *)
Definition rolls_on (k : motion) (u v : R -> R) : Prop :=
  (forall s, is_derive (m_x k) s (u s * cos (m_psi k s) - v s * sin (m_psi k s))) /\
  (forall s, is_derive (m_y k) s (u s * sin (m_psi k s) + v s * cos (m_psi k s))).

(** A motion whose height, pitch and roll are small: [e] times some functions. *)
Definition small_motion (x y psi c b a : R -> R) (e : R) : motion :=
  MkMotion x y psi (fun s => e * c s) (fun s => e * b s) (fun s => e * a s).
Definition smooth2 (f : R -> R) : Prop := forall s, ex_derive f s /\ ex_derive (Derive f) s.

(** A point seen from the point of the road below the centre of mass, in axes that turn with
    the heading. *)
Definition from_road (k : motion) (t : R) (p : vec) : vec := mtapply (rot_z (m_psi k t)) (vsub p (ground_point k t)).

(** The moment about the origin of forces with their points of application and of free
    torques. *)
Definition moment_sum (forces : list (vec * vec)) (torques : list vec) : vec :=
  List.fold_right vadd (List.fold_right vadd vzero torques) (List.map (fun pf => cross (fst pf) (snd pf)) forces).
