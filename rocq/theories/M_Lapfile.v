(** Model of a lap as a file: Optimal_laptime_data::xml and Optimal_laptime_data::construct_from_xml
    (src/core/applications/detail/optimal_laptime_data.h:66-339). Numbers are exact rationals
    instead of doubles. Texts written with 17 digits read back as the same number; std::to_string
    writes six decimals. An element without text reads as the empty vector. Integers are not
    turned into text. *)
From Coq Require Import String QArith Bool Arith List.
From Verif Require Import M_Controls M_Laptime M_Track.
Import ListNotations.
Local Open Scope string_scope.

(** models: the data members of Optimal_laptime_data, optimal_laptime_data.h:33-63. The number of
    iterations has no initialiser: [None] when nothing was assigned to it. n_elements is a
    function of the others ([n_elements] of M_Laptime); the vectors of optimization_data that
    are neither written nor read, success and warm_start are left out. *)
Record lap := MkLap {
  l_closed : bool;
  l_direct : bool;
  l_points : nat;
  l_s : list Q;
  l_inputs : list (list Q);
  l_controls : list control_variable;
  l_x : list Q; l_y : list Q; l_psi : list Q;
  l_iterations : option nat;
  l_zl : list Q; l_zu : list Q; l_lambda : list Q;
  l_laptime : Q }.

(** One child of "control_variables": its attribute and its children. *)
Record control_node := MkNode { cn_type : string; cn_fields : list (string * list Q) }.

(** models: the tree. The children of the root other than "control_variables" and
    "optimization_data" (no state has these names) are in [ld_fields], in the order written. *)
Record lap_doc := MkLapDoc {
  ld_points : nat;
  ld_type : string;
  ld_direct : string;
  ld_fields : list (string * list Q);
  ld_controls : list (string * control_node);
  ld_variables : nat; ld_constraints : nat; ld_iterations : nat;
  ld_multipliers : list (string * list Q) }.

(** models: Dynamic_model_t::get_state_and_control_names and N_OL_EXTRA_CONSTRAINTS. *)
Record names := MkNames { k_key : string; k_inputs : list string; k_controls : list string; k_extra : nat }.

(** models: "for (j = 0; j < v.size()-1; ++j) s_out << v[j] << sep; s_out << v.back()". *)
Definition write_all {A} (v : list A) : res (list A) := write_vector (length v) v.

(** models: the element of one control variable, optimal_laptime_data.h:211-265. *)
Definition write_control (direct : bool) (c : control_variable) : res control_node :=
  match c_kind c with
  | DONT_OPTIMIZE => Ok (MkNode "dont optimize" [("values", [])])
  | CONSTANT => bind (rd (c_values c) 0) (fun v => Ok (MkNode "constant" [("values", [v])]))
  | HYPERMESH => bind (write_all (c_values c)) (fun v => bind (write_all (c_hypermesh c)) (fun h =>
      Ok (MkNode "hypermesh" [("values", v); ("hypermesh", h)])))
  | FULL_MESH => bind (write_all (c_values c)) (fun v =>
      if direct then Ok (MkNode "full-mesh" [("values", v)])
      else bind (write_all (c_rates c)) (fun r => Ok (MkNode "full-mesh" [("values", v); ("derivatives", r)])))
  end.

(** models: n_variables_per_point and n_constraints_per_element, optimal_laptime_data.h:20-30. *)
Definition variables_per_point (direct : bool) (n_inputs : nat) (cs : list control_variable) : nat :=
  n_inputs - 1 + (if direct then 1 else 2) * count_full cs.
Definition constraints_per_element (direct : bool) (n_inputs n_extra : nat) (cs : list control_variable) : nat :=
  n_inputs - 1 + n_extra + (if direct then 0 else count_full cs).

(** models: one state, optimal_laptime_data.h:197-206. *)
Definition write_input (inputs : list (list Q)) (iq : nat * string) : res (string * list Q) :=
  bind (all_ok (map (fun row => rd row (fst iq)) inputs)) (fun col =>
  bind (write_all col) (fun v => Ok (snd iq, v))).

(** models: Optimal_laptime_data::xml, optimal_laptime_data.h:158-339. The iterations are written
    as they are: reading the member before anything is assigned to it is undefined. *)
Definition save_lap (nm : names) (l : lap) : res lap_doc :=
  let n := length (l_inputs l) in
  bind (write_all (l_s l)) (fun s =>
  bind (all_ok (map (write_input (l_inputs l)) (combine (seq 0 (length (k_inputs nm))) (k_inputs nm)))) (fun qs =>
  bind (all_ok (map (fun uc => bind (write_control (l_direct l) (snd uc)) (fun e => Ok (fst uc, e)))
                    (combine (k_controls nm) (l_controls l)))) (fun us =>
  bind (write_vector n (l_x l)) (fun x => bind (write_vector n (l_y l)) (fun y => bind (write_vector n (l_psi l)) (fun psi =>
  bind (match l_iterations l with Some i => Ok i | None => UB end) (fun iterations =>
  bind (write_all (l_zl l)) (fun zl => bind (write_all (l_zu l)) (fun zu => bind (write_all (l_lambda l)) (fun lambda =>
  Ok (MkLapDoc (l_points l) (if l_closed l then "closed" else "open") (if l_direct l then "true" else "false")
       (("laptime", [round6 (l_laptime l)]) :: (k_key nm, s) :: qs ++ [("x", x); ("y", y); ("psi", psi)]) us
       (variables_per_point (l_direct l) (length (k_inputs nm)) (l_controls l))
       (constraints_per_element (l_direct l) (length (k_inputs nm)) (k_extra nm) (l_controls l)) iterations
       [("zl", zl); ("zu", zu); ("lambda", lambda)]))))))))))).

Definition node (us : list (string * control_node)) (u : string) : res control_node :=
  match find (fun x => String.eqb (fst x) u) us with Some x => Ok (snd x) | None => Throw end.
Definition has_field (fs : list (string * list Q)) (name : string) : bool := existsb (fun f => String.eqb (fst f) name) fs.

(** models: one control variable, optimal_laptime_data.h:109-141 (the hypermesh is read twice). The
    members that are not read keep the zero of the value initialisation at line 108. *)
Definition read_control_node (direct : bool) (us : list (string * control_node)) (u : string) : res control_variable :=
  bind (node us u) (fun e =>
  bind (if String.eqb (cn_type e) "dont optimize" then Ok DONT_OPTIMIZE
        else if String.eqb (cn_type e) "constant" then Ok CONSTANT
        else if String.eqb (cn_type e) "hypermesh" then Ok HYPERMESH
        else if String.eqb (cn_type e) "full-mesh" then Ok FULL_MESH else Throw) (fun kind =>
  bind (field (cn_fields e) "values") (fun v =>
  bind (if kind_eqb kind HYPERMESH then field (cn_fields e) "hypermesh" else Ok []) (fun h =>
  bind (if negb direct && has_field (cn_fields e) "derivatives" then field (cn_fields e) "derivatives" else Ok []) (fun r =>
  Ok (MkControl kind h v r 0)))))).

(** models: Optimal_laptime_data::construct_from_xml, optimal_laptime_data.h:66-153. *)
Definition load_lap (nm : names) (d : lap_doc) : res lap :=
  bind (if String.eqb (ld_type d) "closed" then Ok true else if String.eqb (ld_type d) "open" then Ok false else Throw) (fun closed =>
  bind (if String.eqb (ld_direct d) "true" then Ok true else if String.eqb (ld_direct d) "false" then Ok false else Throw) (fun direct =>
  let n := ld_points d in
  bind (number (ld_fields d) "laptime") (fun laptime =>
  bind (field (ld_fields d) (k_key nm)) (fun s =>
  bind (all_ok (map (fun q => bind (field (ld_fields d) q) (fun v => all_ok (map (rd v) (seq 0 n)))) (k_inputs nm))) (fun cols =>
  bind (all_ok (map (read_control_node direct (ld_controls d)) (k_controls nm))) (fun cs0 =>
  bind (check_controls cs0) (fun cs =>
  bind (field (ld_fields d) "x") (fun x => bind (field (ld_fields d) "y") (fun y => bind (field (ld_fields d) "psi") (fun psi =>
  bind (field (ld_multipliers d) "zl") (fun zl => bind (field (ld_multipliers d) "zu") (fun zu => bind (field (ld_multipliers d) "lambda") (fun lambda =>
  Ok (MkLap closed direct n s (map (fun j => map (fun c => nth j c 0%Q) cols) (seq 0 n)) cs x y psi None zl zu lambda laptime)))))))))))))).
