{
 "claims": [
  {
   "property": "C01",
   "status": "proved",
   "theorems": [
    "C01_names_unique",
    "C01_names_unique_initially"
   ],
   "note": "Invariant by induction over histories of all modelled API calls except circuit_preprocessor (C02). Hypothesis plain_outputs: names of states/controls/outputs contain no '/', true of every name in the code."
  },
  {
   "property": "C02",
   "status": "partial",
   "theorems": [
    "C02_preprocessor_unique_partial",
    "C02_preprocessor_unique_refuted"
   ],
   "note": "Refuted for the code: circuit_preprocessor only looks in the table it writes to. The partial theorem gives uniqueness when the names used are not names of another kind."
  },
  {
   "property": "C03",
   "status": "proved",
   "theorems": [
    "C03_store_is_one_map",
    "C03_initially_empty"
   ],
   "note": "Forward simulation from the five tables to one finite map, for every history of supported calls; optimal_laptime and circuit_preprocessor are covered by C15-C17."
  },
  {
   "property": "C04",
   "status": "proved",
   "theorems": [
    "C04_failure_changes_nothing",
    "C04_create_scalar_fails_iff",
    "C04_create_vector_fails_iff",
    "C04_create_vehicle_fails_iff",
    "C04_create_vehicle_empty_fails_iff",
    "C04_create_track_fails_iff",
    "C04_copy_fails_iff",
    "C04_move_fails_iff"
   ],
   "note": "Atomicity on failure for all seven creating calls, and exact failure conditions of each."
  },
  {
   "property": "C05",
   "status": "proved",
   "theorems": [
    "C05_copy_equal",
    "C05_copy_independent"
   ],
   "note": "Equality at the copy and independence under every later history that does not name the variable."
  },
  {
   "property": "C06",
   "status": "proved",
   "theorems": [
    "C06_move_renames",
    "C06_move_onto_taken",
    "C06_move_onto_itself"
   ],
   "note": ""
  },
  {
   "property": "C07",
   "status": "proved",
   "theorems": [
    "C07_delete_plain_name"
   ],
   "note": ""
  },
  {
   "property": "C08",
   "status": "proved",
   "theorems": [
    "C08_delete_wildcard"
   ],
   "note": "Regex engine modelled by derivatives, wildcards specified by an inductive relation."
  },
  {
   "property": "C09",
   "status": "partial",
   "theorems": [
    "C09_delete_dotted_partial",
    "C09_delete_dotted_refuted"
   ],
   "note": "Refuted: a dot matches any character, so deleting run.x also deletes run_x. Partial theorem: exactly the names equal up to the characters at dots are removed."
  },
  {
   "property": "C10",
   "status": "proved",
   "theorems": [
    "C10_variable_type_agrees"
   ],
   "note": ""
  },
  {
   "property": "C11",
   "status": "proved",
   "theorems": [
    "C11_download_vector_buffer",
    "C11_download_vector_negative",
    "C11_track_data_buffer"
   ],
   "note": "Negative n is rejected provided vectors have fewer than 2^63 elements."
  },
  {
   "property": "C12",
   "status": "partial",
   "theorems": [
    "C12_print_to_string_partial",
    "C12_print_to_string_refuted",
    "C12_print_to_string_negative_refuted"
   ],
   "note": "Refuted when the text has exactly n_char characters (one byte past the end) and for negative n_char; proved for all other sizes."
  },
  {
   "property": "C13",
   "status": "partial",
   "theorems": [
    "C13_get_names_partial",
    "C13_get_names_refuted"
   ],
   "note": "Refuted for n_char = 0; proved for every n_char >= 1."
  },
  {
   "property": "C14",
   "status": "partial",
   "theorems": [
    "C14_variable_type_partial",
    "C14_variable_type_refuted"
   ],
   "note": "Refuted: str_len_max is ignored. Proved for buffers of at least 10 bytes."
  },
  {
   "property": "C15",
   "status": "proved",
   "theorems": [
    "C15_laptime_frame",
    "C15_laptime_stores_outputs"
   ],
   "note": "Frame, name check and value of every requested output and sensitivity."
  },
  {
   "property": "C16",
   "status": "partial",
   "theorems": [
    "C16_laptime_atomic_partial",
    "C16_laptime_atomic_refuted"
   ],
   "note": "Refuted: an unknown output name throws after laptime and integral quantities were stored. Proved when every requested name is known."
  },
  {
   "property": "C17",
   "status": "partial",
   "theorems": [
    "C17_preprocessor_fresh_partial",
    "C17_preprocessor_atomic_refuted"
   ],
   "note": "Refuted: a taken vector name throws after the track was stored. With fresh names all outputs are stored."
  },
  {
   "property": "C18",
   "status": "partial",
   "theorems": [
    "C18_declare_reported_partial",
    "C18_declare_variable_reported_partial",
    "C18_vehicle_calls_silent",
    "C18_set_parameter_silent",
    "C18_unknown_vehicle_refuted"
   ],
   "note": "Refuted for vehicle_set_parameter (silently ignored); proved for vehicle_declare_new_constant_parameter."
  },
  {
   "property": "C19",
   "status": "proved",
   "theorems": [
    "C19_parameter_between_declared_values"
   ],
   "note": "Value between the two neighbouring values, all arclengths."
  },
  {
   "property": "C20",
   "status": "partial",
   "theorems": [
    "C20_linear_between_mesh_points_partial",
    "C20_value_at_mesh_points_partial",
    "C20_before_first_partial",
    "C20_after_last_partial",
    "C20_end_value_refuted",
    "C20_start_value_refuted"
   ],
   "note": "Node values and linear blend proved; before the first / after the last node the code uses values.front()/values.back() instead of the value of that node: refuted."
  },
  {
   "property": "C21",
   "status": "proved",
   "theorems": [
    "C21_constructor_accepts_well_formed"
   ],
   "note": "Exactly the documented inconsistencies are rejected."
  },
  {
   "property": "C22",
   "status": "partial",
   "theorems": [
    "C22_set_then_get",
    "C22_get_then_set",
    "C22_short_vector_refuted",
    "C22_long_vector_refuted"
   ],
   "note": "Round trip proved. In a release build a wrong length is not rejected (short input is read past its end, long input accepted): refuted."
  },
  {
   "property": "C23",
   "status": "partial",
   "theorems": [
    "C23_set_parameter_exact",
    "C23_stored_paths",
    "C23_ready_partial",
    "C23_ready_means_all_set_refuted"
   ],
   "note": "Exact effect of set_parameter proved for every path. Readiness: proved exactly which parameters it checks; 'ready iff all set' refuted (brakes, engine and boost power, wind are never checked)."
  },
  {
   "property": "C24",
   "status": "proved",
   "theorems": [
    "C24_representations_agree"
   ],
   "note": "Induction over histories that may evaluate single representations in between."
  },
  {
   "property": "C25",
   "status": "partial",
   "theorems": [
    "C25_saved_file_rejected_refuted",
    "C25_reload_partial",
    "C25_wind_lost_refuted"
   ],
   "note": "Refuted: the saved file lacks the type attributes and is rejected; wind is not saved. With the attributes added by hand everything else round trips."
  },
  {
   "property": "C26",
   "status": "partial",
   "theorems": [
    "C26_hypermesh_lookup_partial",
    "C26_value_in_force_unique",
    "C26_found_from_first_point_on_partial",
    "C26_lookup_in_bounds_partial",
    "C26_empty_hypermesh_refuted"
   ],
   "note": "Proved for non-empty hypermeshes. A hypermesh without points passes the check and its lookup reads front() of an empty vector: refuted."
  },
  {
   "property": "C27",
   "status": "partial",
   "theorems": [
    "C27_checked_reads_in_bounds_partial",
    "C27_checked_values_found_partial",
    "C27_value_of_each_kind",
    "C27_checked_rates_found_partial",
    "C27_counts",
    "C27_check_idempotent",
    "C27_value_and_rate_lookup_refuted",
    "C27_empty_hypermesh_refuted"
   ],
   "note": "Reads in bounds, values found, counts and idempotence proved for non-empty hypermeshes; refuted for empty ones and for the unused value-and-rate lookup."
  },
  {
   "property": "C28",
   "status": "proved",
   "theorems": [
    "C28_pack_size",
    "C28_round_trip",
    "C28_unpack_then_pack",
    "C28_bounds"
   ],
   "note": "Packing succeeds with the declared size, unpack after pack and pack after unpack, and the bounds belong to the packed quantities, for every mesh size and mix of controls, open and closed."
  },
  {
   "property": "C29",
   "status": "partial",
   "theorems": [
    "C29_pack_size_partial",
    "C29_round_trip_partial",
    "C29_unpack_then_pack_partial",
    "C29_bounds_partial",
    "C29_constant_control_refuted",
    "C29_rate_bounds_refuted"
   ],
   "note": "Refuted with a CONSTANT control (missing break: every such problem overruns the vectors) and with a fourth full-mesh control of the f1 (three bounds). Everything proved for the direct formulation is proved without those."
  },
  {
   "property": "C30",
   "status": "proved",
   "theorems": [
    "C30_evaluations",
    "C30_bounds_aligned"
   ],
   "note": "Feasibility of the constraint vector between the bound vector is equivalent to the discretised equations, extra constraints and integral limits, for every mesh, open or closed, both formulations."
  },
  {
   "property": "C31",
   "status": "proved",
   "theorems": [
    "C31_laptime_is_objective"
   ],
   "note": "Exported times and lap time are the quadrature of dt/ds; objective = lap time minus initial time plus the penalties."
  },
  {
   "property": "C32",
   "status": "partial",
   "theorems": [
    "C32_open",
    "C32_closed_partial",
    "C32_closed_half_partial",
    "C32_quadrature_rotation",
    "C32_start_line_half_partial",
    "C32_refuted"
   ],
   "note": "Refuted for sigma different from 1/2 on closed tracks (weights exchanged on the closing element); exact discrepancy, the open case, sigma = 1/2 and invariance under a change of starting line proved."
  },
  {
   "property": "C33",
   "status": "partial",
   "theorems": [
    "C33_direct",
    "C33_derivative_partial",
    "C33_two_points_partial",
    "C33_refuted"
   ],
   "note": "Refuted for the derivative formulation with three or more points (left value always that of the first point); exact discrepancy, two-point meshes and the direct formulation proved."
  },
  {
   "property": "C34",
   "status": "partial",
   "theorems": [
    "C34_accepted_partial",
    "C34_refuted"
   ],
   "note": "Accepted meshes characterised exactly; strict increase, positive element lengths and inner points within the track are refuted."
  },
  {
   "property": "C35",
   "status": "partial",
   "theorems": [
    "C35_returned_refuted",
    "C35_inputs_partial",
    "C35_closed",
    "C35_refuted"
   ],
   "note": "Refuted: all entries of the first control are zeroed and the first point of the other controls is not. Proved for the inputs and the closed case."
  },
  {
   "property": "C36",
   "status": "proved",
   "theorems": [
    "C36_kerbs_ordered",
    "C36_compute_never_throws",
    "C36_compute_can_throw",
    "C36_evaluate_inside",
    "C36_evaluate_outside"
   ],
   "note": "Order, disjointness, endpoints at input points, no exception for points at least 1e-8 apart, evaluation inside and outside."
  },
  {
   "property": "C37",
   "status": "partial",
   "theorems": [
    "C37_kerb_iff_run_partial",
    "C37_one_kerb_per_run_partial",
    "C37_trailing_run_refuted",
    "C37_no_kerb_lost_refuted"
   ],
   "note": "Refuted for a run that reaches the last point: it never yields a kerb. Proved exactly for every closed run, including the decision interior/exterior, width and use."
  },
  {
   "property": "C38",
   "status": "partial",
   "theorems": [
    "C38_distribution_mesh_partial",
    "C38_breakpoints_mesh_partial",
    "C38_equispaced_mesh",
    "C38_generation_ends",
    "C38_short_track_refuted",
    "C38_short_track_breakpoints_refuted",
    "C38_nonpositive_first_size_never_ends"
   ],
   "note": "Termination, start, strict increase and exact end proved for tracks longer than five of the largest elements (both refinement versions) and for equally spaced meshes. On tracks shorter than five of the smallest elements the code reads out of bounds: refuted. A non-positive first size never ends."
  },
  {
   "property": "C39",
   "status": "partial",
   "theorems": [
    "C39_grading_partial",
    "C39_constant_size",
    "C39_tail_refuted"
   ],
   "note": "Refuted where the six squashed elements begin (up to r^6). Proved elsewhere, with the exact bounds at the joint, and everywhere for a constant size."
  },
  {
   "property": "C40",
   "status": "proved",
   "theorems": [
    "C40_boundary_points",
    "C40_left_is_left",
    "C40_flat_computation"
   ],
   "note": "Flat and elevation computations; real numbers."
  },
  {
   "property": "C41",
   "status": "proved",
   "theorems": [
    "C41_max_is_largest",
    "C41_l2_is_mean_square",
    "C41_l2_at_most_max",
    "C41_zero_iff_all_match"
   ],
   "note": "Distances to the measured boundary come from lion (find_closest_point) and are inputs; real numbers."
  },
  {
   "property": "C42",
   "status": "partial",
   "theorems": [
    "C42_flat_track_save_refuted",
    "C42_save_partial"
   ],
   "note": "Refuted for every track loaded from a 2D file (pitch.back() of an empty vector). Circuits whose vectors are all filled are saved without reading out of bounds."
  },
  {
   "property": "C43",
   "status": "proved",
   "theorems": [
    "C43_frame_right_handed",
    "C43_body_axes_right_handed"
   ],
   "note": "All angles; also the body axes."
  },
  {
   "property": "C44",
   "status": "proved",
   "theorems": [
    "C44_curvature_rotates_frame",
    "C44_position_moves_with_body_velocity",
    "C44_body_turns_with_yaw_rate",
    "C44_road_angle_rates",
    "C44_cartesian_rates"
   ],
   "note": "For every differentiable centreline parametrised by arclength: derivative of the position, rotation of the body, rates of the road angles, curvature as rotation rate of the frame; cartesian road."
  },
  {
   "property": "C45",
   "status": "partial",
   "theorems": [
    "C45_accepted",
    "C45_smooth_partial",
    "C45_unit_tangent",
    "C45_curvature_partial",
    "C45_length",
    "C45_yaw_partial",
    "C45_offset_partial",
    "C45_refuted"
   ],
   "note": "Position differentiable at every arclength with the reported unit tangent as derivative, tangent continuous, declared curvature inside every segment, yaw, offset curves and total length, for every list of proper segments with radii up to 1e10. False beyond: such corners are followed as straights (C45_refuted)."
  },
  {
   "property": "C46",
   "status": "partial",
   "theorems": [
    "C46_heading_between_mesh_points_partial",
    "C46_last_element_unwinds_partial",
    "C46_closing_heading_refuted"
   ],
   "note": "Refuted on the last element of a closed track: the first heading is appended without the full turn. Proved on all other elements, with the exact values on the last one."
  },
  {
   "property": "C47",
   "status": "partial",
   "theorems": [
    "C47_simple_ellipse",
    "C47_standard_partial",
    "C47_standard_refuted"
   ],
   "note": "Simple model: proved for every parameter, slip and load. Standard model: each force below its own peak; the ellipse is refuted (no combined factors are required)."
  },
  {
   "property": "C48",
   "status": "partial",
   "theorems": [
    "C48_simple_partial",
    "C48_simple_spin_partial",
    "C48_simple_refuted",
    "C48_standard_partial",
    "C48_standard_refuted"
   ],
   "note": "Proved where the peak slips are positive and shape factors are at most 2 (both updates, both models). Refuted beyond: the peak slip of the F1 tyre becomes negative with the load, and the shape factor 2.3 of the kart changes the sign of the force at large slips."
  },
  {
   "property": "C49",
   "status": "proved",
   "theorems": [
    "C49_simple",
    "C49_standard"
   ],
   "note": "Both tyre models, all parameters."
  },
  {
   "property": "C50",
   "status": "proved",
   "theorems": [
    "C50_power",
    "C50_bound",
    "C50_brakes",
    "C50_kart"
   ],
   "note": ""
  },
  {
   "property": "C51",
   "status": "proved",
   "theorems": [
    "C51_continuous",
    "C51_nonnegative",
    "C51_ends"
   ],
   "note": "Power curves with non-negative power at both ends."
  },
  {
   "property": "C52",
   "status": "proved",
   "theorems": [
    "C52_newton_euler",
    "C52_energy"
   ],
   "note": ""
  },
  {
   "property": "C53",
   "status": "proved",
   "theorems": [
    "C53_gravity_is_the_weight"
   ],
   "note": ""
  },
  {
   "property": "C54",
   "status": "proved",
   "theorems": [
    "C54_drag_along_wind",
    "C54_still_air",
    "C54_relative"
   ],
   "note": "The magnitude uses the two components along and across the car, so its formula is proved where the relative wind has no component along the vertical of the car."
  },
  {
   "property": "C55",
   "status": "proved",
   "theorems": [
    "C55_roll_balance",
    "C55_compressive"
   ],
   "note": ""
  },
  {
   "property": "C56",
   "status": "partial",
   "theorems": [
    "C56_equilibrium",
    "C56_seen_partial",
    "C56_refuted"
   ],
   "note": "Equilibrium proved. The deflection seen by the left tyre of the steered axle is the computed one only if the steering coefficients are opposite (they are in the kart files): refuted otherwise."
  },
  {
   "property": "C57",
   "status": "proved",
   "theorems": [
    "C57_f1_round_trip",
    "C57_f1_state",
    "C57_kart_round_trip",
    "C57_kart_state"
   ],
   "note": "Both cars; also: every entry of the arrays is written, the car moves along X, unused controls keep their defaults."
  },
  {
   "property": "C58",
   "status": "proved",
   "theorems": [
    "C58_partition",
    "C58_f1",
    "C58_kart",
    "C58_flat_states_vanish"
   ],
   "note": "Every number of states, position of the time and list of algebraic equations; on flat roads the algebraic equations are those of quantities that are identically zero."
  },
  {
   "property": "C59",
   "status": "partial",
   "theorems": [
    "C59_lateral_search",
    "C59_longitudinal_searches",
    "C59_c_api_reports_failures_refuted"
   ],
   "note": "Bounds, number of attempts and the reported status proved for the three searches and every optimiser. Refuted at the C interface: gg_diagram writes values of failed attempts without telling."
  },
  {
   "property": "C60",
   "status": "partial",
   "theorems": [
    "C60_points_partial",
    "C60_increasing_partial",
    "C60_one_point_refuted",
    "C60_no_point_refuted",
    "C60_negative_throws",
    "C60_within_partial",
    "C60_extremes_partial",
    "C60_growing_cut_refuted",
    "C60_arrays_partial"
   ],
   "note": "Proved for n >= 1 (n >= 2 for the start at zero) and a maximum lateral acceleration that is not negative. Refuted: n = 0 is undefined behaviour instead of an error, n = 1 gives the maximum point only; extremes that grow with the lateral acceleration are cut."
  },
  {
   "property": "C61",
   "status": "partial",
   "theorems": [
    "C61_rejected_track_kept_refuted",
    "C61_rejected_by_laptime_refuted",
    "C61_accepted_partial",
    "C61_only_the_vehicle_partial"
   ],
   "note": "Refuted for every kart and every elevated track (vehicle_change_track and optimal_laptime): the AD copy has the rejected track, the scalar copy the old one. Accepted changes and the frame are proved."
  },
  {
   "property": "C62",
   "status": "partial",
   "theorems": [
    "C62_single_values_partial",
    "C62_output_variables",
    "C62_control_variables_partial",
    "C62_integral_constraints",
    "C62_variable_bounds_partial",
    "C62_steady_state_speed_refuted",
    "C62_steady_state_speed_rejected_refuted",
    "C62_initial_speed_ignored_refuted",
    "C62_problem_partial",
    "C62_warm_start_ignores_options_refuted"
   ],
   "note": "All single-valued options but one, output variables, control variables, integral constraints and bounds proved, for documents whose nodes have different names. Refuted: steady_state_speed is read from initial_speed (and throws without it); warm starts ignore closed_simulation, the initial condition, the control variables and the mesh of the call."
  },
  {
   "property": "C63",
   "status": "partial",
   "theorems": [
    "C63_output_names_partial",
    "C63_output_names_refuted"
   ],
   "note": "Refuted: n_char is ignored. Proved when every name fits."
  },
  {
   "property": "C64",
   "status": "proved",
   "theorems": [
    "C64_declared_parameters",
    "C64_duplicate_rejected"
   ],
   "note": "Invariant by induction over the declarations."
  },
  {
   "property": "C65",
   "status": "proved",
   "theorems": [
    "C65_set_parameter_wins"
   ],
   "note": "For every history and arclength."
  },
  {
   "property": "C66",
   "status": "partial",
   "theorems": [
    "C66_unknown_path_accepted_refuted"
   ],
   "note": "Refuted: accepted, and every later evaluation throws, in every state."
  },
  {
   "property": "C67",
   "status": "proved",
   "theorems": [
    "C67_warm_start"
   ],
   "note": ""
  },
  {
   "property": "C68",
   "status": "proved",
   "theorems": [
    "C68_integral_names"
   ],
   "note": ""
  },
  {
   "property": "C69",
   "status": "partial",
   "theorems": [
    "C69_size_of_last_breakpoint_partial",
    "C69_same_segment_refuted",
    "C69_breakpoint_ahead_refuted"
   ],
   "note": "Refuted inside the segment that contains the breakpoint (the point always wins the comparison). Proved for points on other segments."
  },
  {
   "property": "C72",
   "status": "partial",
   "theorems": [
    "C72_values_at_mesh_points_partial",
    "C72_kerb_widening",
    "C72_closed_track_ends_at_first_point",
    "C72_pitch_rate_is_second_derivative",
    "C72_pitch_rate_refuted"
   ],
   "note": "Refuted for pitch and roll rates (the second derivatives are used). Proved for position, angles, yaw rate, widths with kerbs and the end of closed tracks."
  },
  {
   "property": "C73",
   "status": "partial",
   "theorems": [
    "C73_save_then_load_partial",
    "C73_same_track_partial",
    "C73_reload_moves_track_limits_refuted"
   ],
   "note": "Refuted: kerb ends are written with six decimals and the mesh point at the start of a kerb may lose it. Exact content after save and load proved, and the same track when kerbs have at most six decimals (with elevation)."
  },
  {
   "property": "C74",
   "status": "partial",
   "theorems": [
    "C74_closed_partial",
    "C74_refuted"
   ],
   "note": "True when the declared segments lead back to the start; a last straight that points elsewhere is accepted (C74_refuted)."
  },
  {
   "property": "C75",
   "status": "partial",
   "theorems": [
    "C75_unknown_rejected_partial",
    "C75_refuted"
   ],
   "note": "Rejected unless it is the last one, which is silently ignored (C75_refuted)."
  },
  {
   "property": "C76",
   "status": "partial",
   "theorems": [
    "C76_peak_partial",
    "C76_refuted"
   ],
   "note": "Refuted with the F1 parameters for every load: another slip gives over one percent more force (the factor S is pi/(2 atan Q) where the peak needs tan(pi/(2 Q))). Where the peak is, and that nothing exceeds it, is proved."
  },
  {
   "property": "C71",
   "status": "partial",
   "theorems": [
    "C71_partial",
    "C71_refuted"
   ],
   "note": "Moments of the axles are right. The aerodynamic one is not: its arm is measured from twice the centre of mass (C71_refuted)."
  },
  {
   "property": "C77",
   "status": "proved",
   "theorems": [
    "C77_accelerations"
   ],
   "note": ""
  },
  {
   "property": "C78",
   "status": "partial",
   "theorems": [
    "C78_mirror_partial",
    "C78_refuted",
    "C78_meaning"
   ],
   "note": "Refuted in a straight line, where the sign follows the right-hand turn. Proved for every turn."
  },
  {
   "property": "C79",
   "status": "partial",
   "theorems": [
    "C79_power_partial",
    "C79_refuted"
   ],
   "note": "Refuted with a deflected tyre, as those of the kart: wheel torque uses the full radius minus the deflection and the dissipation the full radius. Exact balance proved."
  },
  {
   "property": "C80",
   "status": "partial",
   "theorems": [
    "C80_max_power_partial",
    "C80_refuted"
   ],
   "note": "With maximum power proved. With a power curve the slope of the curve is missing (C80_refuted); the cars of the database use the maximum power."
  },
  {
   "property": "C70",
   "status": "partial",
   "theorems": [
    "C70_refuted",
    "C70_partial",
    "C70_all_listed"
   ],
   "note": "Refuted: the default vertical loads of the F1 are +0.25 with bounds [-3,-0.01]. True for everything else."
  },
  {
   "property": "C81",
   "status": "partial",
   "theorems": [
    "C81_refuted",
    "C81_partial"
   ],
   "note": "Refuted: the F1 gives three bounds for four controls; a full-mesh brake bias reads out of range for every mesh. Proved when the brake bias is not full mesh."
  },
  {
   "property": "C82",
   "status": "proved",
   "theorems": [
    "C82_kart_states"
   ],
   "note": ""
  },
  {
   "property": "C83",
   "status": "partial",
   "theorems": [
    "C83_refuted",
    "C83_partial",
    "C83_wheels_partial",
    "C83_wheels_refuted"
   ],
   "note": "Refuted: the constraint ignores the distance of the axles to the centre of mass. Exact excess proved, also for points of the car and limits of the track in space (C83_wheels_refuted: for every front axle ahead of the reference point and every track wide enough; C83_wheels_partial)."
  },
  {
   "property": "C84",
   "status": "proved",
   "theorems": [
    "C84_f1",
    "C84_kart"
   ],
   "note": ""
  },
  {
   "property": "C85",
   "status": "partial",
   "theorems": [
    "C85_mirror_partial",
    "C85_mirror_refuted",
    "C85_sign"
   ],
   "note": "Mirror symmetry refuted in a straight line, proved in every turn; sign and size proved."
  },
  {
   "property": "C86",
   "status": "partial",
   "theorems": [
    "C86_autodiff",
    "C86_scalar_refuted",
    "C86_kart"
   ],
   "note": "Proved with automatic differentiation (the C interface) and for the kart. With double the F1 gets g0 times the request (C86_scalar_refuted)."
  },
  {
   "property": "C87",
   "status": "partial",
   "theorems": [
    "C87_flat",
    "C87_odd_partial",
    "C87_refuted"
   ],
   "note": "Proved on flat tracks and on closed tracks with an odd number of points and the trapezoidal rule; refuted for every even number of points with elevation (any alternating imbalance is accepted)."
  },
  {
   "property": "C88",
   "status": "partial",
   "theorems": [
    "C88_copies_agree_partial",
    "C88_copies_agree_flat_partial",
    "C88_kart_tracks_refuted"
   ],
   "note": "Parameters: proved for every history. Tracks: proved for F1, for karts when all tracks are flat; refuted for karts after a rejected track."
  },
  {
   "property": "C89",
   "status": "proved",
   "theorems": [
    "C89_vehicle_keeps_its_track"
   ],
   "note": ""
  },
  {
   "property": "C90",
   "status": "partial",
   "theorems": [
    "C90_maximum_partial",
    "C90_minimum_partial",
    "C90_strong_drag_refuted",
    "C90_clipped_refuted"
   ],
   "note": "Proved for maxima between -2 and 35.8 m/s2 and minima within 10*1.25^29 of the upper bound. Refuted outside: a car that decelerates at full throttle by more than 2 m/s2 gets no solution; larger maxima are reported solved at the artificial bound."
  },
  {
   "property": "C91",
   "status": "partial",
   "theorems": [
    "C91_initial_condition_partial",
    "C91_short_vector_refuted",
    "C91_long_vector_refuted",
    "C91_needed"
   ],
   "note": "Proved for tables with the sizes of the problem. Refuted: shorter vectors leave uninitialised numbers in the initial state, longer ones are copied past the end of the array."
  },
  {
   "property": "C92",
   "status": "partial",
   "theorems": [
    "C92_saved_vectors_partial",
    "C92_inputs_saved_partial",
    "C92_warm_start_reads_outside_refuted",
    "C92_warm_start_other_mesh_refuted"
   ],
   "note": "Proved when the solution was computed on the mesh of the call. Refuted with warm start: a saved run with fewer points is read out of range, one with other points is saved next to the arclength of the call."
  },
  {
   "property": "C93",
   "status": "partial",
   "theorems": [
    "C93_saved_derivatives_partial",
    "C93_other_derivatives_refuted"
   ],
   "note": "Proved for chassis.velocity.x and time; refuted for every other variable: zeros are stored."
  },
  {
   "property": "C94",
   "status": "partial",
   "theorems": [
    "C94_circuit_options",
    "C94_open_circuit_refuted",
    "C94_closed_processed_partial"
   ],
   "note": "Reading proved for all documents; closed circuits are processed. Refuted: open equally-spaced circuits pass the reader but have no implementation."
  },
  {
   "property": "C95",
   "status": "partial",
   "theorems": [
    "C95_pieces_partial",
    "C95_names_partial",
    "C95_declared_partial",
    "C95_trailing_space_refuted",
    "C95_empty_name_refuted",
    "C95_inner_spaces_refuted"
   ],
   "note": "Proved for names without white space at their ends, double spaces or line terminators, with any spaces before each; also the exact result for every text without blank pieces. Refuted: spaces before a semicolon stay in the alias, an empty name swallows its semicolon into the next alias, double spaces are collapsed in the last name only."
  },
  {
   "property": "C96",
   "status": "proved",
   "theorems": [
    "C96_trim",
    "C96_trim_idempotent"
   ],
   "note": "For all texts."
  },
  {
   "property": "C97",
   "status": "proved",
   "theorems": [
    "C97_all_reads_in_range",
    "C97_solution_is_a_road",
    "C97_boundaries"
   ],
   "note": "The search for the closest point of a polygon is a function parameter with no hypothesis; the solver result is any vector."
  },
  {
   "property": "C98",
   "status": "partial",
   "theorems": [
    "C98_objective_partial",
    "C98_objective_of_circuit_partial",
    "C98_closing_element_refuted",
    "C98_open_distance_refuted"
   ],
   "note": "Refuted on closed circuits with elevation: the closing element leaves out the pitch and roll terms; on open circuits the distances are those to closed polygons. Proved for flat or open circuits, relative to the search used."
  },
  {
   "property": "C99",
   "status": "partial",
   "theorems": [
    "C99_start_vector_is_the_estimate",
    "C99_returned_circuit_in_bounds",
    "C99_narrow_track_refuted"
   ],
   "note": "Start vector and consequences of the bounds proved. Refuted: where the estimate is narrower than one metre no vector meets the bounds."
  },
  {
   "property": "C100",
   "status": "partial",
   "theorems": [
    "C100_gps_round_trip",
    "C100_origin_and_axes",
    "C100_meridian_refuted",
    "C100_breakpoint_altitude_refuted"
   ],
   "note": "Round trip, origin and axes proved. Refuted: a track across the 180th meridian is torn; a mesh breakpoint loses its altitude and may be moved to another vertex."
  },
  {
   "property": "C101",
   "status": "partial",
   "theorems": [
    "C101_trimmed_boundary_partial",
    "C101_inside_partial",
    "C101_on_segment_partial",
    "C101_end_altitude_refuted",
    "C101_first_node_refuted",
    "C101_finish_behind_start_refuted"
   ],
   "note": "Trimmed boundary proved when the finish is not on the first node. Refuted: ends are put at altitude 0; a finish on the first node reads outside of the vector; a finish behind the start on the same segment is accepted."
  },
  {
   "property": "C102",
   "status": "partial",
   "theorems": [
    "C102_yaw_continuous",
    "C102_direction_partial",
    "C102_figure_of_eight_refuted"
   ],
   "note": "Continuity proved; direction proved for loops with one turn. Refuted for a figure of eight: the closing constraint then asks for a whole turn in one element."
  },
  {
   "property": "C103",
   "status": "partial",
   "theorems": [
    "C103_all_reads_in_range",
    "C103_start_is_the_centreline",
    "C103_path_inside_track",
    "C103_decreasing_arclength_refuted"
   ],
   "note": "Proved for the path, the start and the reads. Refuted: accepted arclength vectors that go back give bounds that nothing meets."
  },
  {
   "property": "C104",
   "status": "partial",
   "theorems": [
    "C104_solution_is_a_path_partial",
    "C104_climb_refuted",
    "C104_slope_refuted"
   ],
   "note": "Plan, angles and closing proved; height proved where the path is level. Refuted: the height constraint has the opposite sign of the tangent, so the exact centreline of a slope is rejected."
  },
  {
   "property": "C105",
   "status": "partial",
   "theorems": [
    "C105_objective_partial",
    "C105_closing_element_refuted"
   ],
   "note": "Proved on open circuits and on closed circuits that are flat at the line. Refuted: the closing element counts the yaw rate only."
  },
  {
   "property": "C106",
   "status": "partial",
   "theorems": [
    "C106_accepted_arclength",
    "C106_empty_arclength_refuted",
    "C106_written_list_partial",
    "C106_arcs_path_file_refuted",
    "C106_arcs_objective_partial",
    "C106_arcs_few_points_refuted"
   ],
   "note": "Accepted vectors, non-empty lists and two or more points proved. Refuted: an empty vector has no front; writing the path of a track by arcs reads empty lists; fewer than two points read outside of the vector."
  },
  {
   "property": "C107",
   "status": "partial",
   "theorems": [
    "C107_saved_and_reloaded_partial",
    "C107_warm_start_from_file",
    "C107_laptime_refuted",
    "C107_dissipation_refuted",
    "C107_save_again_refuted",
    "C107_empty_hypermesh_refuted"
   ],
   "note": "States, controls, mesh, trajectory, multipliers and acceptance as a warm start proved for every computed lap. Refuted: the lap time is cut to six decimals, dissipations are lost, a loaded lap holds an unset number of iterations that xml() reads, an accepted empty hypermesh cannot be written."
  },
  {
   "property": "C108",
   "status": "partial",
   "theorems": [
    "C108_lap_downloaded_partial",
    "C108_laptime_missing_refuted",
    "C108_listed_variables_refuted",
    "C108_no_output_variables_refuted"
   ],
   "note": "Proved when the options give a prefix and do not list the variables: all vectors of the lap. Refuted: the lap time (and integral quantities) are not in the list; listed variables are never returned; without output variables the Python call fails although the library accepted the options."
  },
  {
   "property": "C109",
   "status": "proved",
   "theorems": [
    "C109_vector_round_trip",
    "C109_scalar_round_trip",
    "C109_create_fails_iff"
   ],
   "note": "Lists of 2^31 numbers or more are out of the range of the int that carries their size."
  },
  {
   "property": "C110",
   "status": "partial",
   "theorems": [
    "C110_newton_partial",
    "C110_euler_partial",
    "C110_lateral_velocity_refuted",
    "C110_accelerations_determined"
   ],
   "note": "Newton exactly; Euler to first order also in the lateral velocity. Refuted when the lateral velocity is not small (the height enters only some terms). The kart refuses elevated tracks (C61), so flat roads are all it sees."
  },
  {
   "property": "C111",
   "status": "partial",
   "theorems": [
    "C111_wheel_heights_partial",
    "C111_horizontal_position_refuted",
    "C111_total_torque"
   ],
   "note": "Heights, vertical velocities and the total torque proved; refuted for the horizontal positions, which do not move with pitch and roll although the axles are below the centre of mass."
  },
  {
   "property": "C112",
   "status": "proved",
   "theorems": [
    "C112_times",
    "C112_lap_time",
    "C112_time_derivatives",
    "C112_lap_time_derivative"
   ],
   "note": "The lap is the sigma quadrature of the time per unit of arclength; the derivatives of the inputs are taken as those of the solution (Sensitivity_analysis of lion is not in the repository)."
  },
  {
   "property": "C113",
   "status": "proved",
   "theorems": [
    "C113_chassis_states",
    "C113_road_states",
    "C113_cartesian"
   ],
   "note": "The chassis is any function of what the road hands over; its equations are C52, C110."
  },
  {
   "property": "C114",
   "status": "partial",
   "theorems": [
    "C114_equations_partial",
    "C114_position_ignored_refuted"
   ],
   "note": "Proved at s = 0 and for vehicles that do not depend on the position; refuted elsewhere: the function is recorded at 0. CppAD is assumed to return values and derivatives row by row."
  },
  {
   "property": "C115",
   "status": "partial",
   "theorems": [
    "C115_evaluations_leave_no_trace_partial",
    "C115_saved_file_partial",
    "C115_saved_file_refuted"
   ],
   "note": "Later evaluations are unaffected, and without declared parameters the saved file is too; refuted for the saved file when a parameter is declared. The parameters of the car are modelled here; that the intermediate results kept in its members do not matter is C122."
  },
  {
   "property": "C116",
   "status": "proved",
   "theorems": [
    "C116_poses_of_a_car",
    "C116_copy_has_the_same_poses",
    "C116_vehicles_are_independent"
   ],
   "note": "The pose of a frame is any type with any composition; the other members of a vehicle are values."
  },
  {
   "property": "C117",
   "status": "partial",
   "theorems": [
    "C117_no_destruction_partial",
    "C117_outliving_copy_refuted"
   ],
   "note": "Proved for programs that destroy nothing; refuted when the source of a copy is destroyed first: the axle of the copy still hangs from the inertial frame of the source."
  },
  {
   "property": "C118",
   "status": "proved",
   "theorems": [
    "C118_limits_after_history",
    "C118_reported",
    "C118_downloads_unchanged",
    "C118_vehicle_uses_the_limits"
   ],
   "note": "The polynomials of lion are built from two vectors or throw, and evaluated: any such functions."
  },
  {
   "property": "C119",
   "status": "partial",
   "theorems": [
    "C119_solution",
    "C119_failure_reported",
    "C119_completes",
    "C119_derivatives_partial",
    "C119_derivatives_refuted",
    "C119_none_declared_partial"
   ],
   "note": "False for the formulation with control derivatives (the default of the kart): it does not hand the parameters to the sensitivity analysis and reads past its result (C119_derivatives_refuted). The analysis of lion is any function that returns one row per parameter handed over."
  },
  {
   "property": "C120",
   "status": "proved",
   "theorems": [
    "C120_each_output_under_its_name",
    "C120_other_names_throw",
    "C120_published_names",
    "C120_no_two_quantities_share_a_name",
    "C120_f1_inputs_under_their_names",
    "C120_kart_inputs_under_their_names",
    "C120_names_never_collide",
    "C120_saved_under_its_name",
    "C120_python_names"
   ],
   "note": "The values of positions, rotation matrices, slips and forces are those of the frames and of M_Tire/M_Car; the scaling of slips and loads is in C66 and others."
  },
  {
   "property": "C121",
   "status": "proved",
   "theorems": [
    "C121_geometry_follows_the_parameters",
    "C121_tires_follow_the_parameters",
    "C121_tires_of_a_file",
    "C121_histories_do_not_matter",
    "C121_parameters_unchanged"
   ],
   "note": "The f1 only: the kart has no set_parameter on its axles, and the C API ignores the call for karts. The brake bias kept in the chassis is overwritten from the controls at each evaluation."
  },
  {
   "property": "C122",
   "status": "proved",
   "theorems": [
    "C122_evaluation_is_a_function_of_its_arguments_and_the_parameters",
    "C122_evaluation_keeps_what_was_prepared",
    "C122_histories_do_not_matter",
    "C122_evaluations_can_be_repeated",
    "C122_paths_of_the_f1"
   ],
   "note": "Formulas are arbitrary functions of what each line of the code reads; frames of lion are functions of what was last given to them. The members computed from parameters are covered by C121."
  },
  {
   "property": "C123",
   "status": "proved",
   "theorems": [
    "C123_any_history",
    "C123_same_answers"
   ],
   "note": "Forward simulation between the object with its members and the evaluation without members of M_Laptime (C28 to C31). The car is any machine with memory that gives results determined by parameters and arguments, which is C122. Hypermeshes are assumed increasing and to start at the first point or before."
  },
  {
   "property": "C124",
   "status": "proved",
   "theorems": [
    "C124_what_the_constraints_say",
    "C124_peak_slip_allowed",
    "C124_every_gripping_state_is_allowed",
    "C124_heavy_loads",
    "C124_kart"
   ],
   "note": "Proved in full. C124_heavy_loads adds that for loads beyond the weight of the car the limit covers the slip of maximum force exactly when it does not grow with the load. That the wheels stay on the track is C83."
  },
  {
   "property": "C125",
   "status": "proved",
   "theorems": [
    "C125_laid_on_the_points",
    "C125_slopes_with_elevation",
    "C125_limits",
    "C125_the_solver_starts_there",
    "C125_the_whole_estimate",
    "C125_flat"
   ],
   "note": "rotmat2ea, wrap_to_pi and atan2 are functions with the usual contract; the example defines such functions and proves the contract for them (some_angles, some_wrap, some_atan2). Points closer than double precision and vectors of null norm are excluded by hypothesis. The slope of the closing element is taken over the distance between last and first point, as in the code."
  },
  {
   "property": "C126",
   "status": "partial",
   "theorems": [
    "C126_between_partial",
    "C126_exact_positions_partial",
    "C126_rounding",
    "C126_monotone",
    "C126_exact",
    "C126_between_refuted"
   ],
   "note": "Code defect: when position minus left position rounds to the same double as the width of the interval, the value can leave the interval (refuted with a witness); proved inside it otherwise, and within 2^-52 of the difference always. Doubles are Flocq's FLT format (53 bits, least exponent -1074, ties to even): no overflow, NaN or infinity, no contraction to fused multiply-add."
  },
  {
   "property": "C127",
   "status": "partial",
   "theorems": [
    "C127_generation_ends",
    "C127_mesh_partial",
    "C127_end_refuted",
    "C127_tiny_sizes_refuted"
   ],
   "note": "Code defects: the last position can be one unit past the end of the curve (refuted with a witness), and sizes below half a unit of the position never end (refuted); proved equal to the end within 5*2^-53 relative for sizes of at least 2^-48 of the length."
  },
  {
   "property": "C128",
   "status": "partial",
   "theorems": [
    "C128_seventeen_digits",
    "C128_to_string_close",
    "C128_six_decimals_partial",
    "C128_to_string_refuted"
   ],
   "note": "Code defect: what goes through std::to_string keeps six decimals only (refuted with 2^-30, read back as 0); proved within a millionth, and exact for numbers given with at most six decimals below 10^9. Everything written through a stream of precision 17 is read back exactly. The text conversions of the C++ library are taken as correctly rounded."
  },
  {
   "property": "C129",
   "status": "partial",
   "theorems": [
    "C129_accepted_exactly",
    "C129_holds_the_file",
    "C129_engine_power_partial",
    "C129_set_exact_partial",
    "C129_declared_parameters_partial",
    "C129_four_representations",
    "C129_saved_partial",
    "C129_no_engine_refuted",
    "C129_file_number_not_settable_refuted",
    "C129_saved_not_readable_refuted"
   ],
   "note": "Code defects, each refuted: a file without engine or brakes is accepted, and the throttle is then the torque in N.m; the tracks, stiffnesses, inertia, beta-steering, engine power, brake torque and the three positions of the file can be neither set nor declared (a declaration is accepted and every later evaluation throws); the saved file lacks them and is always rejected. vehicle_set_parameter on a kart does nothing and reports nothing (C18). Proved for all other paths."
  },
  {
   "property": "C130",
   "status": "partial",
   "theorems": [
    "C130_pattern",
    "C130_quoted_name_partial",
    "C130_malformed",
    "C130_quoted_star_refuted"
   ],
   "note": "Code defect: a quoted star is rewritten like any other, so a name with a star cannot be removed by quoting it and other variables are removed instead (refuted with a witness); proved for all names without a star and all patterns that do not quote the star. Bracket expressions, counted repetitions, anchors and class escapes are outside the model of std::regex."
  },
  {
   "property": "C131",
   "status": "proved",
   "theorems": [
    "C131_drawn_between_boundaries",
    "C131_drawn_with_kerbs",
    "C131_room_for_the_car"
   ],
   "note": "Composition of the bounds of the optimisation (C28, C29), the track made from a circuit (C72), the frame of the road (C40) and the extra constraints of the f1 (C124), at the points of the circuit."
  },
  {
   "property": "C132",
   "status": "proved",
   "theorems": [
    "C132_options",
    "C132_request",
    "C132_not_ready",
    "C132_accepted",
    "C132_answer",
    "C132_failure_thrown",
    "C132_completes"
   ],
   "note": "The text of options is modelled line by line; numbers are printed by arbitrary functions. The solver is any function from the request to an answer with a vector of the right size."
  },
  {
   "property": "C133",
   "status": "partial",
   "theorems": [
    "C133_kept",
    "C133_warm_start",
    "C133_cold_start",
    "C133_nothing_kept",
    "C133_resumes",
    "C133_other_integrals",
    "C133_mesh_asked_for_refuted"
   ],
   "note": "Code defect: the kept lap belongs to the type of vehicle, so the mesh, the kind of simulation and the track of a warm start are those of the kept lap and what the call asks for is not used (refuted). Everything else is proved for all histories."
  },
  {
   "property": "C134",
   "status": "proved",
   "theorems": [
    "C134_listing",
    "C134_listing_faithful",
    "C134_prints_something",
    "C134_text",
    "C134_file",
    "C134_output",
    "C134_short_array"
   ],
   "note": "Orders of iteration are arbitrary; sizes are written by any function that writes different sizes differently, on one line and without brackets (proved of decimal numbers). C134_line_feed_needed shows why names with a line feed are left out; C134_short_array that arrays shorter than the vehicle asks for are read past their end."
  },
  {
   "property": "C135",
   "status": "proved",
   "theorems": [
    "C135_questions_change_nothing",
    "C135_listing"
   ],
   "note": "The assumption that evaluating changes no member that matters is C122 for the members and C115 for the files (false there for vehicles with declared parameters). Results of solvers are any functions of the variables."
  },
  {
   "property": "C136",
   "status": "partial",
   "theorems": [
    "C136_steady_state_partial",
    "C136_last_step_partial",
    "C136_no_steps_refuted",
    "C136_lateral_partial",
    "C136_longitudinal_partial",
    "C136_diagram_partial",
    "C136_always_a_diagram_partial",
    "C136_extremes_partial",
    "C136_same_equations_partial",
    "C136_cut_refuted"
   ],
   "note": "Two parts are false of the code: with no steps the state returned was never given a value (C136_no_steps_refuted), and extremes beyond the fixed bounds (8 in the diagram, 10 in the searches) are cut and marked as solved (C136_cut_refuted). Everything else is proved for every number of steps and points and any solvers; true extremes are proved within the fixed bounds with exact optimisers."
  },
  {
   "property": "C137",
   "status": "proved",
   "theorems": [
    "C137_track",
    "C137_plane",
    "C137_symmetric_car",
    "C137_laps",
    "C137_diagram"
   ],
   "note": "Proved for the whole evaluation: chassis, axles, tyres, air, gravity and road. The rigid-body kinematics of the frames of lion are part of the model."
  },
  {
   "property": "C138",
   "status": "proved",
   "theorems": [
    "C138_power",
    "C138_energy",
    "C138_bound",
    "C138_gain"
   ],
   "note": "The balance is proved for every motion on the plane; the bound assumes what C48 needs of the tyres, still air, and a centre of pressure that does not move against the car."
  },
  {
   "property": "C139",
   "status": "proved",
   "theorems": [
    "C139_anywhere",
    "C139_flat_track",
    "C139_yaw_rate"
   ],
   "note": "Proved for the whole evaluation on the plane and on flat tracks; the yaw rate on every track."
  },
  {
   "property": "C140",
   "status": "partial",
   "theorems": [
    "C140_position",
    "C140_newton",
    "C140_euler_partial",
    "C140_wheels",
    "C140_load_transfer",
    "C140_moment_of_the_air_refuted"
   ],
   "note": "Everything is proved but the moment of the air, which the code does not take about the centre of mass (C140_moment_of_the_air_refuted; the same defect as C71): C140_euler_partial states the law with the term that the code has."
  },
  {
   "property": "C141",
   "status": "partial",
   "theorems": [
    "C141_track_partial",
    "C141_plane_partial",
    "C141_symmetric_kart",
    "C141_laps_partial",
    "C141_diagram",
    "C141_straight",
    "C141_uneven_steering_refuted"
   ],
   "note": "Proved for karts whose steering raises one front wheel as much as it lowers the other, as in the two files of the database. The two parameters are independent, and for others it is false: the code takes the displacement of the right wheel for both (C141_uneven_steering_refuted)."
  },
  {
   "property": "C142",
   "status": "proved",
   "theorems": [
    "C142_anywhere",
    "C142_flat_track",
    "C142_newton",
    "C142_moment",
    "C142_euler",
    "C142_axle",
    "C142_slips",
    "C142_depths",
    "C142_loads"
   ],
   "note": "linsolve (of lion) is a parameter: all that is asked is that it solves systems whose determinant is not 0; Cramer's rule is shown to do it."
  },
  {
   "property": "C143",
   "status": "partial",
   "theorems": [
    "C143_left_partial",
    "C143_right_partial",
    "C143_last_stretch_refuted",
    "C143_never_throws",
    "C143_sides_apart",
    "C143_mirror",
    "C143_inside",
    "C143_outside",
    "C143_off"
   ],
   "note": "The stretch that reaches the last point has no kerb (C143_last_stretch_refuted, C37). Exact rationals instead of doubles."
  },
  {
   "property": "C144",
   "status": "proved",
   "theorems": [
    "C144_slips",
    "C144_throttle",
    "C144_brakes",
    "C144_grip",
    "C144_diagram",
    "C144_power"
   ],
   "note": "Real numbers. The pedals with the smooth functions at their limit; the power for engines of constant power, tyres in their range and the wheels at constant spin."
  },
  {
   "property": "C145",
   "status": "partial",
   "theorems": [
    "C145_data",
    "C145_unknown_track",
    "C145_length",
    "C145_coordinates",
    "C145_diagram_partial",
    "C145_negative",
    "C145_unknown_vehicle_refuted",
    "C145_output_refuted"
   ],
   "note": "gg_diagram of an unknown vehicle returns zeros (C145_unknown_vehicle_refuted); vehicle_get_output drops the result of the C function (C145_output_refuted)."
  },
  {
   "property": "C146",
   "status": "partial",
   "theorems": [
    "C146_energy_partial",
    "C146_slope",
    "C146_gain",
    "C146_energy_refuted"
   ],
   "note": "The torque of the air is not taken about the centre of mass, so over a crest the drag gives power to the car (C146_energy_refuted); C146_energy_partial is the exact balance with that term named, C146_slope and C146_gain hold as stated where the surface of the road is plane."
  },
  {
   "property": "C147",
   "status": "proved",
   "theorems": [
    "C147_grip",
    "C147_front",
    "C147_diagram"
   ],
   "note": "The coefficient of friction of a driven tyre bounds both of its peaks together: the standard model has no ellipse of friction (C47_standard_refuted)."
  },
  {
   "property": "C148",
   "status": "partial",
   "theorems": [
    "C148_power_partial",
    "C148_energy_partial",
    "C148_bound_partial",
    "C148_turn_partial",
    "C148_gain_partial",
    "C148_energy_refuted"
   ],
   "note": "The exact balance is proved, with one more term, and bounds with it: the arm of the force of a tyre is R0 - w for the axle and R0 for the slip (C79), so each rear tyre gives Fx w omega from nowhere. Refuted without it: a kart without engine, brakes and air, whose axle turns a little fast, gains energy. In steady turns the excess is at most the factor R0 / (R0 - w)."
  },
  {
   "property": "C149",
   "status": "partial",
   "theorems": [
    "C149_options",
    "C149_plane_partial",
    "C149_circuit_partial",
    "C149_unknown_refuted"
   ],
   "note": "Proved for vehicles that exist; the step itself is lion's (third party), a parameter. Refuted for names in neither table: the call returns without an error and without a step (C18)."
  },
  {
   "property": "C150",
   "status": "proved",
   "theorems": [
    "C150_minimised",
    "C150_forwards",
    "C150_strictly",
    "C150_accuracy",
    "C150_objective"
   ],
   "note": "Numbers are doubles without a largest one (no overflow). The accuracy needs elements, derivatives and weights of at least 2^-100 (a weight may be 0), so that no product underflows; with penalisations also rates and changes of the controls that are 0 or at least 2^-100, and elements of at most 2^100. The exact value of the derivative formulation takes the left rates that the program takes (see C154)."
  },
  {
   "property": "C151",
   "status": "proved",
   "theorems": [
    "C151_laps",
    "C151_times",
    "C151_best",
    "C151_kart_laps",
    "C151_kart_times"
   ],
   "note": "In real numbers, for the direct formulation with controls that are optimised on the full mesh or given. The kart: steering raises one wheel as much as it lowers the other (C141), and its equations of roll, pitch and yaw have one solution."
  },
  {
   "property": "C152",
   "status": "partial",
   "theorems": [
    "C152_f1_partial",
    "C152_kart",
    "C152_restricted_refuted"
   ],
   "note": "False of the code when an integral quantity is restricted and sigma is not 1/2: the closing element exchanges the weights (C152_restricted_refuted, see C32). Proved with sigma = 1/2 or no restricted quantity, for the Formula 1 car and the kart. In real numbers, direct formulation."
  },
  {
   "property": "C153",
   "status": "proved",
   "theorems": [
    "C153_value",
    "C153_fastest",
    "C153_within",
    "C153_gain",
    "C153_limited",
    "C153_engine",
    "C153_grip",
    "C153_kart_value",
    "C153_kart_fastest",
    "C153_kart_within",
    "C153_kart_gain"
   ],
   "note": "In real numbers, for the direct formulation with controls that are optimised on the full mesh or given. The limited quantities: on open laps, and on closed ones with sigma = 1/2, the default; the weights of the closing element are the subject of C32 and C152."
  },
  {
   "property": "C154",
   "status": "partial",
   "theorems": [
    "C154_rest",
    "C154_kart_rest",
    "C154_direct",
    "C154_rates",
    "C154_turned",
    "C154_value_partial",
    "C154_fastest",
    "C154_mirror",
    "C154_restart_partial",
    "C154_value_refuted",
    "C154_restart_refuted",
    "C154_kart_direct",
    "C154_kart_rates",
    "C154_kart_turned",
    "C154_kart_value_partial",
    "C154_kart_mirror",
    "C154_kart_restart_partial"
   ],
   "note": "The clause on the value is false of the code (dcontrols_dt[i-i], optimal_laptime.hpp:1553): C154_value_refuted and C154_restart_refuted; C154_value_partial and C154_kart_value_partial say what is minimised instead, and the partial theorems on another starting line keep the constraints, and the value without dissipations. The limits of the rates, the sums of the rates, the direct formulation and the mirror images are proved in full. In real numbers; the brake bias has no limits in the code (C81), and the first point of an open lap is given, so that its rates are a hypothesis."
  },
  {
   "property": "C155",
   "status": "partial",
   "theorems": [
    "C155_never_faster",
    "C155_kart_never_faster",
    "C155_attained",
    "C155_best",
    "C155_open_partial",
    "C155_constant",
    "C155_rates",
    "C155_kart_attained",
    "C155_kart_best",
    "C155_kart_open",
    "C155_kart_constant",
    "C155_kart_rates",
    "C155_open_refuted"
   ],
   "note": "The clause on open laps is false of the code when an integral quantity is restricted and sigma is not 1/2 (the weights of the closing element are exchanged, optimal_laptime.hpp:1409): C155_open_refuted; C155_open_partial holds without restricted quantities or with the trapezoidal rule. The other clauses are proved in full. In real numbers; of the problem, not of the local optimum at which Ipopt may stop."
  },
  {
   "property": "C156",
   "status": "proved",
   "theorems": [
    "C156_position",
    "C156_car",
    "C156_laps",
    "C156_rates",
    "C156_best",
    "C156_still_air",
    "C156_kart",
    "C156_kart_laps",
    "C156_kart_rates"
   ],
   "note": "In real numbers. Frames of the circuit are given by its centreline, Euler angles and their derivatives, as the program takes them."
  },
  {
   "property": "C157",
   "status": "proved",
   "theorems": [
    "C157_lap",
    "C157_time",
    "C157_turn",
    "C157_best",
    "C157_only_turns",
    "C157_kart_lap",
    "C157_kart_time",
    "C157_kart_turn",
    "C157_kart_best",
    "C157_kart_only_turns",
    "C157_rate_lap",
    "C157_rate_time",
    "C157_rate_turn",
    "C157_kart_rate_lap",
    "C157_kart_rate_time",
    "C157_kart_rate_turn"
   ],
   "note": "In real numbers, both formulations, without limits on the integral quantities."
  },
  {
   "property": "C158",
   "status": "proved",
   "theorems": [
    "C158_parts",
    "C158_replaced",
    "C158_sectors",
    "C158_rest",
    "C158_rate_sectors",
    "C158_rate_rest",
    "C158_kart_parts",
    "C158_kart_replaced",
    "C158_kart_sectors",
    "C158_kart_rest",
    "C158_kart_rate_sectors",
    "C158_kart_rate_rest"
   ],
   "note": "In real numbers; controls on the full mesh. For the derivative formulation only alternatives with the same mesh, which is what an optimum is compared with."
  },
  {
   "property": "C159",
   "status": "proved",
   "theorems": [
    "C159_weight",
    "C159_transfer",
    "C159_straight"
   ],
   "note": "In real numbers, on the plane (a flat track: C142). The terms with the vertical displacement are what the equations of the code have (C110): they vanish at the reference height and, in a steady turn without lateral velocity, at every height."
  }
 ]
}