(** Model of the reading of the options of optimal_laptime, of the problem built from them and of the
    vectors saved afterwards (src/main/c/fastestlapc.cpp:1129-1715).
    The xml library (lion, third party) is represented by trees and the functions below; the conversions from text are
    parameters. Numbers are rationals. *)
From Coq Require Import String QArith ZArith Bool Arith List.
From Verif Require Import M_Controls M_Laptime.
Import ListNotations.
Local Open Scope string_scope.
Local Open Scope nat_scope.

(** An xml element. *)
Inductive xml := Elem (name : string) (attributes : list (string * string)) (value : string) (children : list xml).
Definition x_name (e : xml) := let '(Elem n _ _ _) := e in n.
Definition x_attributes (e : xml) := let '(Elem _ a _ _) := e in a.
Definition x_value (e : xml) := let '(Elem _ _ v _) := e in v.
Definition x_children (e : xml) := let '(Elem _ _ _ c) := e in c.

(** models: lion Xml_element::has_child / get_child: the first child of that name. *)
Definition child (e : xml) (n : string) : option xml := find (fun c => String.eqb (x_name c) n) (x_children e).
(** models: lion Xml_document::has_element / get_element for a path whose first name is the one
    of the root. *)
Fixpoint descend (e : xml) (path : list string) : option xml :=
  match path with
  | [] => Some e
  | n :: p => match child e n with Some c => descend c p | None => None end
  end.
Definition element (doc : xml) (path : list string) : option xml :=
  match path with
  | [] => None
  | n :: p => if String.eqb (x_name doc) n then descend doc p else None
  end.
(** models: lion Xml_element::get_attribute. *)
Definition attribute (e : xml) (n : string) : option string :=
  option_map snd (find (fun a => String.eqb (fst a) n) (x_attributes e)).

(** Throws when there is nothing. *)
Definition need {A} (o : option A) : res A := match o with Some a => Ok a | None => Throw end.

(** The conversions from text used by get_value (None: throws) and trim. *)
Record readers := Readers {
  r_bool : string -> option bool;
  r_int : string -> option Z;
  r_num : string -> option Q;
  r_vec : string -> option (list Q);
  r_trim : string -> string
}.

(** What the reader takes from the class of the vehicle. *)
Record vehicle_info := VehicleInfo {
  v_key : string;
  v_inputs : list string;
  v_controls : list string;
  v_outputs : list string;
  v_integrals : list string;
  v_direct : bool;
  v_types : list string;
  v_dissipations : list Q;
  v_inputs_lb : list Q;
  v_inputs_ub : list Q;
  v_controls_lb : list Q;
  v_controls_ub : list Q
}.

(** models: the members of Optimal_laptime_configuration, fastestlapc.cpp:1379-1407. An uninitialised number is [None]. *)
Record config := Config {
  o_warm : bool; o_save_warm : bool; o_write_xml : bool; o_xml_name : string; o_print : Z;
  o_speed : Q; o_direct : bool; o_closed : bool; o_set_start : bool; o_sensitivity : bool; o_sigma : Q;
  o_prefix : string; o_save : list string; o_integrals : list (string * Q * Q);
  o_types : list string; o_dissipations : list Q; o_hypermeshes : list (list Q);
  o_q_start : list (option Q); o_u_start : list (option Q);
  o_inputs_lb : list Q; o_inputs_ub : list Q; o_controls_lb : list Q; o_controls_ub : list Q
}.

(** models: std::find followed by std::distance. *)
Fixpoint index_of (n : string) (l : list string) : option nat :=
  match l with
  | [] => None
  | m :: l' => if String.eqb m n then Some 0 else option_map S (index_of n l')
  end.

(** Assignment to an element of an array. *)
Fixpoint set_at {A} (l : list A) (i : nat) (a : A) : list A :=
  match l, i with
  | [], _ => []
  | _ :: l', 0 => a :: l'
  | b :: l', S i' => b :: set_at l' i' a
  end.

Section Read.
Context (rds : readers) (v : vehicle_info) (table : string -> option (list Q)).

(** models: [if ( doc.has_element(p) ) x = doc.get_element(q).get_value(...)], with [x = d] before. *)
Definition read_if {A} (doc : xml) (present from : list string) (read : string -> option A) (d : A) : res A :=
  match element doc present with
  | None => Ok d
  | Some _ => bind (need (element doc from)) (fun e => need (read (x_value e)))
  end.
Definition read_option {A} (doc : xml) (path : list string) (read : string -> option A) (d : A) : res A :=
  read_if doc path path read d.

(** models: the default list of variables, fastestlapc.cpp:1218-1232. *)
Definition all_variables : list string :=
  ((v_key v :: v_inputs v) ++ v_controls v ++ v_outputs v ++ "laptime" ::
   map (String.append "integral_quantities.") (v_integrals v))%list.

(** models: the output variables, fastestlapc.cpp:1205-1233. *)
Definition read_outputs (doc : xml) : res (string * list string) :=
  match element doc ["options"; "output_variables"] with
  | None => Ok ("run/", [])
  | Some _ =>
      bind (need (element doc ["options"; "output_variables"; "prefix"])) (fun p =>
      Ok (r_trim rds (x_value p),
          match element doc ["options"; "output_variables"; "variables"] with
          | Some e => map x_name (x_children e)
          | None => all_variables
          end))
  end.

(** models: std::copy of a vector into an array of [n] uninitialised numbers. *)
Definition copy_into (n : nat) (l : list Q) : res (list (option Q)) :=
  if Nat.leb (length l) n then Ok (map Some l ++ repeat None (n - length l))%list else UB.

(** models: the initial condition, fastestlapc.cpp:1239-1250. *)
Definition read_start (doc : xml) (closed : bool) : res (bool * list (option Q) * list (option Q)) :=
  let nq := length (v_inputs v) in
  let nu := length (v_controls v) in
  if closed then Ok (false, repeat None nq, repeat None nu)
  else
    bind (need (element doc ["options"; "initial_condition"])) (fun _ =>
    bind (need (element doc ["options"; "initial_condition"; "q"])) (fun eq =>
    bind (need (attribute eq "from_table")) (fun tq =>
    bind (need (table tq)) (fun vq =>
    bind (need (element doc ["options"; "initial_condition"; "u"])) (fun eu =>
    bind (need (attribute eu "from_table")) (fun tu =>
    bind (need (table tu)) (fun vu =>
    bind (copy_into nq vq) (fun q =>
    bind (copy_into nu vu) (fun u => Ok (true, q, u)))))))))).

(** models: one turn of the loop over the control variables, fastestlapc.cpp:1259-1293. *)
Definition read_control (e : xml) (st : list string * list Q * list (list Q))
  : res (list string * list Q * list (list Q)) :=
  let '(types, diss, hyper) := st in
  bind (need (index_of (x_name e) (v_controls v))) (fun i =>
  bind (need (attribute e "optimal_control_type")) (fun t =>
  let types' := set_at types i t in
  if String.eqb t "dont optimize" then Ok (types', diss, hyper)
  else if String.eqb t "constant" then Ok (types', diss, hyper)
  else if String.eqb t "hypermesh" then
    bind (need (child e "hypermesh")) (fun h =>
    bind (need (r_vec rds (x_value h))) (fun m => Ok (types', diss, set_at hyper i m)))
  else if String.eqb t "full-mesh" then
    match child e "dissipation" with
    | None => Ok (types', diss, hyper)
    | Some d => bind (need (r_num rds (x_value d))) (fun x => Ok (types', set_at diss i x, hyper))
    end
  else Throw)).

(** models: the control variables, fastestlapc.cpp:1257-1295. *)
Definition read_controls (doc : xml) : res (list string * list Q * list (list Q)) :=
  let start := (v_types v, v_dissipations v, repeat [] (length (v_controls v))) in
  match element doc ["options"; "control_variables"] with
  | None => Ok start
  | Some e => for_each (x_children e) read_control start
  end.

(** models: the integral constraints, fastestlapc.cpp:1298-1306. *)
Definition read_integral (e : xml) (st : list (string * Q * Q)) : res (list (string * Q * Q)) :=
  bind (need (child e "lower_bound")) (fun l => bind (need (r_num rds (x_value l))) (fun a =>
  bind (need (child e "upper_bound")) (fun u => bind (need (r_num rds (x_value u))) (fun b =>
  Ok (st ++ [(x_name e, a, b)])%list)))).
Definition read_integrals (doc : xml) : res (list (string * Q * Q)) :=
  match element doc ["options"; "integral_constraints"] with
  | None => Ok []
  | Some e => for_each (x_children e) read_integral []
  end.

(** models: the sanity check of the children, fastestlapc.cpp:1313-1337. *)
Definition bounds_children_ok (e : xml) : bool :=
  match map x_name (x_children e) with
  | [a] => String.eqb a "lower" || String.eqb a "upper"
  | [a; b] => (String.eqb a "lower" && String.eqb b "upper") || (String.eqb a "upper" && String.eqb b "lower")
  | _ => false
  end.

(** models: [if ( variable.has_child(n) ) l.at(i) = variable.get_child(n).get_value(scalar())]. *)
Definition set_bound (e : xml) (n : string) (i : nat) (l : list Q) : res (list Q) :=
  match child e n with
  | None => Ok l
  | Some c => bind (need (r_num rds (x_value c))) (fun x => Ok (set_at l i x))
  end.

(** models: one turn of the loop over the variable bounds, fastestlapc.cpp:1311-1374. The state is (inputs_lb, inputs_ub,
    controls_lb, controls_ub). *)
Definition read_bound (e : xml) (st : list Q * list Q * list Q * list Q) : res (list Q * list Q * list Q * list Q) :=
  let '(ql, qu, ul, uu) := st in
  if negb (bounds_children_ok e) then Throw
  else
    match index_of (x_name e) (v_inputs v) with
    | Some i => bind (set_bound e "lower" i ql) (fun ql' => bind (set_bound e "upper" i qu) (fun qu' => Ok (ql', qu', ul, uu)))
    | None =>
        match index_of (x_name e) (v_controls v) with
        | Some i => bind (set_bound e "lower" i ul) (fun ul' => bind (set_bound e "upper" i uu) (fun uu' => Ok (ql, qu, ul', uu')))
        | None => Throw
        end
    end.
Definition read_bounds (doc : xml) : res (list Q * list Q * list Q * list Q) :=
  let start := (v_inputs_lb v, v_inputs_ub v, v_controls_lb v, v_controls_ub v) in
  match element doc ["options"; "variable_bounds"] with
  | None => Ok start
  | Some e => for_each (x_children e) read_bound start
  end.

(** models: the default values of the members, fastestlapc.cpp:1379-1407. *)
Definition default_config : config :=
  Config false false false "optimal_laptime.xml" 0 50 (v_direct v) true false false (1#2) "run/" [] []
    (v_types v) (v_dissipations v) (repeat [] (length (v_controls v)))
    (repeat None (length (v_inputs v))) (repeat None (length (v_controls v)))
    (v_inputs_lb v) (v_inputs_ub v) (v_controls_lb v) (v_controls_ub v).

(** models: the constructor of Optimal_laptime_configuration, fastestlapc.cpp:1179-1376, for options that are not empty and
    have been parsed. *)
Definition read_options (doc : xml) : res config :=
  bind (read_option doc ["options"; "warm_start"] (r_bool rds) false) (fun warm =>
  bind (read_option doc ["options"; "save_warm_start"] (r_bool rds) false) (fun save_warm =>
  bind (read_option doc ["options"; "write_xml"] (r_bool rds) false) (fun write_xml =>
  bind (if write_xml then bind (need (element doc ["options"; "xml_file_name"])) (fun e => Ok (x_value e))
        else Ok "optimal_laptime.xml") (fun xml_name =>
  bind (read_option doc ["options"; "print_level"] (r_int rds) 0%Z) (fun print =>
  bind (read_outputs doc) (fun '(prefix, save) =>
  (* line 1235 tests one node and reads another *)
  bind (read_if doc ["options"; "steady_state_speed"] ["options"; "initial_speed"] (r_num rds) 50%Q) (fun speed =>
  bind (read_option doc ["options"; "closed_simulation"] (r_bool rds) true) (fun closed =>
  bind (read_start doc closed) (fun '(set_start, q, u) =>
  bind (read_option doc ["options"; "sigma"] (r_num rds) (1#2)%Q) (fun sigma =>
  bind (read_option doc ["options"; "compute_sensitivity"] (r_bool rds) false) (fun sens =>
  bind (read_controls doc) (fun '(types, diss, hyper) =>
  bind (read_integrals doc) (fun ints =>
  bind (read_bounds doc) (fun '(ql, qu, ul, uu) =>
  Ok (Config warm save_warm write_xml xml_name print speed (v_direct v) closed set_start sens sigma
        prefix save ints types diss hyper q u ql qu ul uu))))))))))))))).

(** models: the constructor with its text: [parse] is Xml_document::parse. *)
Definition configuration (parse : string -> option xml) (text : string) : res config :=
  if String.eqb text "" then Ok default_config else bind (need (parse text)) read_options.

End Read.

(** models: the names of the Formula 1 car (curvilinear), chassis/axle_car_3dof.hpp:308-330, chassis/chassis.hpp:359-373,
    chassis/chassis_car_3dof.hpp:244-267, vehicles/road_curvilinear.hpp, vehicles/limebeer2014f1.h:289, with the default types and
    dissipations of fastestlapc.cpp:1422-1440. The output names and the bounds are parameters. *)
Definition f1_info (outputs : list string) (ql qu ul uu : list Q) : vehicle_info :=
  VehicleInfo "road.arclength"
    ["front-axle.left-tire.kappa"; "front-axle.right-tire.kappa"; "rear-axle.left-tire.kappa"; "rear-axle.right-tire.kappa";
     "chassis.velocity.x"; "chassis.velocity.y"; "chassis.omega.z";
     "chassis.force_z_fl_g"; "chassis.force_z_fr_g"; "chassis.force_z_rl_g"; "chassis.force_z_rr_g";
     "time"; "road.lateral-displacement"; "road.track-heading-angle"]
    ["front-axle.steering-angle"; "rear-axle.boost"; "chassis.throttle"; "chassis.brake-bias"]
    outputs ["engine-energy"; "tire-fl-energy"; "tire-fr-energy"; "tire-rl-energy"; "tire-rr-energy"; "boost-time"]
    true ["full-mesh"; "dont optimize"; "full-mesh"; "dont optimize"] [50; 16#1000; 16#1000; 0]%Q ql qu ul uu.

(** *** The problem *)

(** A number that may be uninitialised. *)
Definition num := option Q.

(** models: Control_variable with numbers that may be uninitialised; see M_Controls. *)
Record guess := Guess { g_kind : control_kind; g_mesh : list Q; g_values : list num; g_rates : list num; g_dissipation : Q }.

(** models: one turn of construct_control_variables, fastestlapc.cpp:1453-1484. An
    unknown type leaves the default of Control_variable (not reachable, types are checked when read). *)
Definition guess_control (direct : bool) (n : nat) (type : string) (diss : Q) (hyper : list Q) (u : Q) : guess :=
  if String.eqb type "dont optimize" then Guess DONT_OPTIMIZE [] [] [] 0
  else if String.eqb type "constant" then Guess CONSTANT [] [Some u] [] 0
  else if String.eqb type "hypermesh" then Guess HYPERMESH hyper (repeat (Some u) (length hyper)) [] 0
  else if String.eqb type "full-mesh" then
    Guess FULL_MESH [] (repeat (Some u) n) (if direct then [] else repeat (Some 0%Q) n) diss
  else Guess DONT_OPTIMIZE [] [] [] 0.

Fixpoint map4 {A B C D E} (f : A -> B -> C -> D -> E) (la : list A) (lb : list B) (lc : list C) (ld : list D) : list E :=
  match la, lb, lc, ld with
  | a :: la', b :: lb', c :: lc', d :: ld' => f a b c d :: map4 f la' lb' lc' ld'
  | _, _, _, _ => []
  end.

(** models: construct_control_variables, fastestlapc.cpp:1444-1488. *)
Definition guess_controls (c : config) (n : nat) (u : list Q) : list guess :=
  map4 (guess_control (o_direct c) n) (o_types c) (o_dissipations c) (o_hypermeshes c) u.

(** models: an assignment to .front(). *)
Definition set_front {A} (l : list A) (a : A) : res (list A) :=
  match l with [] => UB | _ :: l' => Ok (a :: l') end.

(** models: the loop that sets the starting controls, fastestlapc.cpp:1549-1556. *)
Fixpoint start_controls (gs : list guess) (us : list num) : res (list guess) :=
  match gs, us with
  | g :: gs', u :: us' =>
      bind (if kind_eqb (g_kind g) FULL_MESH
            then bind (set_front (g_values g) u) (fun vs => Ok (Guess (g_kind g) (g_mesh g) vs (g_rates g) (g_dissipation g)))
            else Ok g) (fun g' =>
      bind (start_controls gs' us') (fun t => Ok (g' :: t)))
  | [], _ => Ok []
  | _, [] => UB
  end.

(** A problem handed to Optimal_laptime: mesh, closed or open, direct or not, initial values of inputs and controls. *)
Record problem := Problem {
  b_mesh : list Q; b_closed : bool; b_direct : bool; b_inputs : list (list num); b_controls : list guess
}.

(** models: parts (4) to (5.2.b) of compute_optimal_laptime, fastestlapc.cpp:1507-1568: the problem handed to the
    constructor of Optimal_laptime. [steady] is the steady state at a given speed (in km/h), [warm] the data of the last run that
    was saved. The options of the solver are left out. *)
Definition build (kart : bool) (steady : Q -> list Q * list Q) (warm : problem) (c : config) (mesh : list Q) : res problem :=
  let n := length mesh in
  let '(q, u0) := steady (o_speed c) in
  let u := if kart then set_at u0 1 0%Q else u0 in
  if o_warm c then Ok warm
  else
    let q0 := repeat (map Some q) n in
    let gs := guess_controls c n u in
    if o_set_start c then
      bind (set_front q0 (o_q_start c)) (fun q0' =>
      bind (start_controls gs (o_u_start c)) (fun gs' => Ok (Problem mesh (o_closed c) (o_direct c) q0' gs')))
    else Ok (Problem mesh (o_closed c) (o_direct c) q0 gs).

(** *** What is saved *)

(** A solution: the mesh it was computed on, inputs at each point, controls (checked), and the sensitivities of the inputs
    (parameter, point, input). *)
Record outcome := Outcome {
  w_mesh : list Q; w_inputs : list (list Q); w_controls : list control_variable; w_sens : list (list (list Q))
}.

(** models: one entry of a saved vector, fastestlapc.cpp:1653-1677. [outputs] is the map of outputs of
    the car for given inputs, controls and arclength. *)
Definition saved_value (v : vehicle_info) (outputs : list Q -> list Q -> Q -> string -> option Q)
  (q u : list Q) (s : Q) (name : string) : res Q :=
  if String.eqb name (v_key v) then Ok s
  else match index_of name (v_inputs v) with
       | Some j => rd q j
       | None => match index_of name (v_controls v) with
                 | Some j => rd u j
                 | None => need (outputs q u s name)
                 end
       end.

(** models: the loop over the points, fastestlapc.cpp:1643-1679, for one variable; [s] is the array of the
    caller. *)
Definition saved_point (v : vehicle_info) outputs (defaults : list Q) (w : outcome) (s : list Q) (name : string) (i : nat) : res Q :=
  bind (rd s i) (fun si =>
  bind (control_array_at_s (w_controls w) defaults i si) (fun u =>
  bind (rd (w_inputs w) i) (fun q => saved_value v outputs q u si name))).
Definition saved_vector (v : vehicle_info) outputs (defaults : list Q) (w : outcome) (s : list Q) (name : string) : res (list Q) :=
  all_ok (map (saved_point v outputs defaults w s name) (seq 0 (length s))).

(** models: the saved derivative of a variable with respect to parameter [p], fastestlapc.cpp:1689-1709; [iu] and [it] are the
    positions of the speed and of the time among the inputs. *)
Definition saved_derivative (iu it : nat) (w : outcome) (n : nat) (name : string) (p : nat) : res (list Q) :=
  all_ok (map (fun i =>
    if String.eqb name "chassis.velocity.x" then bind (rd (w_sens w) p) (fun a => bind (rd a i) (fun b => rd b iu))
    else if String.eqb name "time" then bind (rd (w_sens w) p) (fun a => bind (rd a i) (fun b => rd b it))
    else Ok 0%Q) (seq 0 n)).

(** *** Options of circuit_preprocessor *)

Inductive circuit_mode := EQUALLY_SPACED | REFINED.

(** models: the members of Circuit_preprocessor_configuration, fastestlapc.cpp:1902-1930; the optional
    names are [None] when the corresponding output is not asked for. *)
Record circuit_config := CircuitConfig {
  k_left : string; k_right : string; k_mode : circuit_mode; k_closed : bool; k_elements : Z;
  k_s : list Q; k_ds : list Q;
  k_eps_k : Q; k_eps_n : Q; k_eps_d : Q; k_eps_c : Q; k_yaw : Q; k_dyaw : Q; k_print : Q;
  k_xml : option string; k_prefix : option string; k_insert : option string
}.

Section ReadCircuit.
(** the default costs and bounds: curvature, smoothness, errors, centreline, yaw, rate of yaw. *)
Context (rds : readers) (e_k e_n e_d e_c yaw dyaw : Q).

(** models: lines 1862-1876: an option under options/optimization. *)
Definition read_weight (doc : xml) (n : string) (d : Q) : res Q :=
  match element doc ["options"; "optimization"] with
  | None => Ok d
  | Some _ => read_option doc ["options"; "optimization"; n] (r_num rds) d
  end.

Definition read_name (doc : xml) (path : list string) : res (option string) :=
  Ok (option_map x_value (element doc path)).

(** models: the constructor of Circuit_preprocessor_configuration, fastestlapc.cpp:1802-1899. *)
Definition read_circuit (doc : xml) : res circuit_config :=
  bind (need (element doc ["options"; "kml_files"])) (fun _ =>
  bind (need (element doc ["options"; "kml_files"; "left"])) (fun l =>
  bind (need (element doc ["options"; "kml_files"; "right"])) (fun r =>
  bind (need (element doc ["options"; "mode"])) (fun m =>
  bind (if String.eqb (x_value m) "equally-spaced" then Ok EQUALLY_SPACED
        else if String.eqb (x_value m) "refined" then Ok REFINED else Throw) (fun mode =>
  bind (need (element doc ["options"; "is_closed"])) (fun c =>
  bind (need (r_bool rds (x_value c))) (fun closed =>
  bind (match closed, mode with false, REFINED => Throw | _, _ => Ok tt end) (fun _ =>
  bind (match mode with
        | EQUALLY_SPACED =>
            bind (need (element doc ["options"; "number_of_elements"])) (fun e =>
            bind (need (r_int rds (x_value e))) (fun n => Ok (n, [], [])))
        | REFINED =>
            bind (need (element doc ["options"; "mesh_refinement"])) (fun _ =>
            bind (need (element doc ["options"; "mesh_refinement"; "s"])) (fun es =>
            bind (need (element doc ["options"; "mesh_refinement"; "ds"])) (fun ed =>
            bind (need (r_vec rds (x_value es))) (fun s =>
            bind (need (r_vec rds (x_value ed))) (fun ds => Ok (0%Z, s, ds))))))
        end) (fun '(n, s, ds) =>
  bind (read_weight doc "cost_curvature" e_k) (fun xk =>
  bind (read_weight doc "cost_track_limits_smoothness" e_n) (fun xn =>
  bind (read_weight doc "cost_track_limits_errors" e_d) (fun xd =>
  bind (read_weight doc "cost_centerline" e_c) (fun xc =>
  bind (read_weight doc "maximum_yaw_dot" yaw) (fun xy =>
  bind (read_weight doc "maximum_dyaw_dot" dyaw) (fun xdy =>
  bind (read_option doc ["options"; "print_level"] (r_num rds) 0%Q) (fun print =>
  bind (read_name doc ["options"; "xml_file_name"]) (fun xml_name =>
  bind (match element doc ["options"; "output_variables"] with
        | None => Ok None
        | Some _ => bind (need (element doc ["options"; "output_variables"; "prefix"])) (fun e => Ok (Some (x_value e)))
        end) (fun prefix =>
  bind (read_name doc ["options"; "insert_table_name"]) (fun ins =>
  Ok (CircuitConfig (x_value l) (x_value r) mode closed n s ds xk xn xd xc xy xdy print xml_name prefix ins)))))))))))))))))))).

(** models: the choice of the constructor, fastestlapc.cpp:1961-1985: [None] is "Not implemented". *)
Definition circuit_constructor (k : circuit_config) : option circuit_mode :=
  match k_mode k with
  | EQUALLY_SPACED => if k_closed k then Some EQUALLY_SPACED else None
  | REFINED => Some REFINED
  end.

End ReadCircuit.
