(** What the names of the outputs, inputs and controls of a vehicle stand for. *)
From Coq Require Import Reals String List.
From Verif Require Import M_Vec M_Tire M_Car M_Outputs.
Import ListNotations.
Local Open Scope string_scope.

Inductive axis := X | Y | Z.
Definition axis_name (a : axis) : string := match a with X => "x" | Y => "y" | Z => "z" end.
Definition along (a : axis) (v : vec) : R := match a with X => vx v | Y => vy v | Z => vz v end.

Inductive corner := FrontLeft | FrontRight | RearLeft | RearRight.
Definition corner_name (c : corner) : string :=
  match c with
  | FrontLeft => "front-axle.left-tire" | FrontRight => "front-axle.right-tire"
  | RearLeft => "rear-axle.left-tire" | RearRight => "rear-axle.right-tire"
  end.
Definition tyre_at (c : corner) (v : vehicle) : tyre :=
  match c with FrontLeft => v_fl v | FrontRight => v_fr v | RearLeft => v_rl v | RearRight => v_rr v end.

(** Of a tyre: where it is, how its contact point moves (in its own axes and in those of the frame it is in), its slips, the
    power it dissipates, the force on it (in its own axes and in the fixed ones), how fast it spins. *)
Inductive tyre_quantity := Where (a : axis) | Moves (a : axis) | MovesInCar (a : axis) | SideSlip | LongSlip | Dissipated
  | Force (a : axis) | ForceFixed (a : axis) | Spin.
Definition tyre_quantity_name (q : tyre_quantity) : string :=
  match q with
  | Where a => "position." ++ axis_name a
  | Moves a => "velocity." ++ axis_name a
  | MovesInCar a => "velocity.car_frame." ++ axis_name a
  | SideSlip => "lambda" | LongSlip => "true_kappa" | Dissipated => "dissipation"
  | Force a => "force." ++ axis_name a
  | ForceFixed a => "force.inertial." ++ axis_name a
  | Spin => "omega"
  end.
Definition tyre_value (q : tyre_quantity) (t : tyre) : R :=
  match q with
  | Where a => along a (y_position t)
  | Moves a => along a (t_v (y_state t))
  | MovesInCar a => along a (mapply (y_rotation t) (t_v (y_state t)))
  | SideSlip => t_lambda (y_state t) | LongSlip => t_kappa (y_state t)
  | Dissipated => dissipation (y_radius t) (y_state t)
  | Force a => along a (t_F (y_state t))
  | ForceFixed a => along a (mapply (y_absolute t) (t_F (y_state t)))
  | Spin => t_omega (y_state t)
  end.

(** A horizontal axis. *)
Inductive plane := PX | PY.
Definition plane_axis (p : plane) : axis := match p with PX => X | PY => Y end.
Inductive body_quantity := AccelLong | AccelLat | AccelYaw | TotalForce (a : axis) | TotalTorque (a : axis) | Position (p : plane)
  | Yaw | Understeer | Cd | Lift | Drag | DragAlong (p : plane) | Wind (p : plane) | Airspeed (p : plane).
Definition body_quantity_name (q : body_quantity) : string :=
  match q with
  | AccelLong => "acceleration.x" | AccelLat => "acceleration.y" | AccelYaw => "acceleration.yaw"
  | TotalForce a => "force." ++ axis_name a
  | TotalTorque a => "torque." ++ axis_name a
  | Position p => "position." ++ axis_name (plane_axis p)
  | Yaw => "attitude.yaw" | Understeer => "understeer_oversteer_indicator"
  | Cd => "aerodynamics.cd" | Lift => "aerodynamics.lift" | Drag => "aerodynamics.drag"
  | DragAlong p => "aerodynamics.drag." ++ axis_name (plane_axis p)
  | Wind p => "aerodynamics.wind_velocity_body." ++ axis_name (plane_axis p)
  | Airspeed p => "aerodynamics.aerodynamic_velocity." ++ axis_name (plane_axis p)
  end.
(** The yaw of the car is that of the road plus the angle to it. *)
Definition body_value (q : body_quantity) (b : body) : R :=
  match q with
  | AccelLong => longitudinal_acceleration (h_u b) (h_v b) (h_mass b) (h_force b)
  | AccelLat => lateral_acceleration (h_u b) (h_v b) (h_mass b) (h_force b)
  | AccelYaw => h_yaw_acceleration b
  | TotalForce a => along a (h_force b)
  | TotalTorque a => along a (h_torque b)
  | Position p => along (plane_axis p) (h_origin b)
  | Yaw => h_yaw b + h_heading b
  | Understeer => h_indicator b
  | Cd => ae_cd (h_aero b)
  | Lift => vz (lift_force (h_aero b) (h_Q b) (h_velocity b))
  | Drag => norm (drag_force (h_aero b) (h_Q b) (h_velocity b))
  | DragAlong p => along (plane_axis p) (drag_force (h_aero b) (h_Q b) (h_velocity b))
  | Wind p => along (plane_axis p) (wind_velocity (h_aero b) (h_Q b))
  | Airspeed p => along (plane_axis p) (aerodynamic_velocity (h_aero b) (h_Q b) (h_velocity b))
  end.

Inductive quantity := OfTyre (c : corner) (q : tyre_quantity) | OfBody (q : body_quantity).
Definition quantity_name (q : quantity) : string :=
  match q with
  | OfTyre c q => corner_name c ++ "." ++ tyre_quantity_name q
  | OfBody q => "chassis." ++ body_quantity_name q
  end.
Definition quantity_value (q : quantity) (v : vehicle) : R :=
  match q with OfTyre c q => tyre_value q (tyre_at c v) | OfBody q => body_value q (v_body v) end.

(** The entry of an array of numbers that an array of names calls [name]. *)
Definition called {A} (names : list string) (values : list A) (name : string) (x : A) : Prop :=
  exists i, nth_error names i = Some name /\ nth_error values i = Some x /\
    forall j, nth_error names j = Some name -> j = i.

(** What each input and each control of the Formula 1 car is. *)
Definition f1_meaning (r : f1_set) : list (string * option R) :=
  [("front-axle.left-tire.kappa", f_kappa_fl r); ("front-axle.right-tire.kappa", f_kappa_fr r);
   ("rear-axle.left-tire.kappa", f_kappa_rl r); ("rear-axle.right-tire.kappa", f_kappa_rr r);
   ("chassis.velocity.x", f_u r); ("chassis.velocity.y", f_v r); ("chassis.omega.z", f_yaw_rate r);
   ("chassis.force_z_fl_g", f_load_fl r); ("chassis.force_z_fr_g", f_load_fr r);
   ("chassis.force_z_rl_g", f_load_rl r); ("chassis.force_z_rr_g", f_load_rr r);
   ("time", f_time r); ("road.lateral-displacement", f_displacement r); ("road.track-heading-angle", f_heading r)].
Definition f1_control_meaning (r : f1_set) : list (string * option R) :=
  [("front-axle.steering-angle", f_steering r); ("rear-axle.boost", f_boost_control r);
   ("chassis.throttle", f_throttle_control r); ("chassis.brake-bias", f_bias r)].
(** And of the kart. *)
Definition kart_meaning (r : kart_set) : list (string * option R) :=
  [("rear-axle.omega", k_axle_speed r);
   ("chassis.velocity.x", k_u r); ("chassis.velocity.y", k_v r); ("chassis.velocity.z", k_dz r);
   ("chassis.omega.x", k_dphi r); ("chassis.omega.y", k_dmu r); ("chassis.omega.z", k_yaw_rate r);
   ("chassis.position.z", k_z r); ("chassis.attitude.phi", k_phi r); ("chassis.attitude.mu", k_mu r);
   ("time", k_time r); ("road.lateral-displacement", k_displacement r); ("road.track-heading-angle", k_heading r)].
Definition kart_control_meaning (r : kart_set) : list (string * option R) :=
  [("front-axle.steering-angle", k_steering r); ("rear-axle.throttle", k_throttle r)].
