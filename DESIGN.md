# Formal model of fastest-lap in Rocq (Coq 8.16.1)

The source is read as text from `/repo` (never built or run). The Coq
development lives in `rocq/theories`. Every model definition carries a comment
`(* models: <file>:<lines> *)` plus the simplifications made.

## Layout

| files | content |
|---|---|
| `M_*.v` | models: executable definitions (stores, index layouts, meshes, kerbs; over `Q`) or real-valued definitions (geometry, tyres, dynamics; over `R`) |
| `S_*.v` | small independent specifications used in the theorem statements |
| `L_*.v` | lemmas and proofs |
| `P_*.v` | property theorems only: `Theorem ... Proof. exact lemma. Qed.`, `Print Assumptions`, and an `Example` showing that the hypotheses are satisfiable (those of C08, C09, C18, C76, C80, C86 are in `P_Cases.v`, that of C152 in `P_LapCases.v`) |

## Conventions

* Undefined behaviour (out-of-bounds, buffer overflow) is a distinct outcome
  constructor (`UB`), a C++ exception is another one (`Throw`). Theorems about
  safety say "the outcome is not `UB`".
* `int` -> `size_t` conversions are written with an explicit `mod 2^64` where the
  property is about them.
* A property which is false of the code gets a theorem `..._refuted` with a
  witness, and, next to it, the strongest true version that could be proved.
  The manifest status of such a property is `partial`.
* Floating point numbers are idealised: `Q` in executable models, `R` when
  square roots or trigonometric functions occur. Rounding, NaN and infinities
  are outside the model. Division by zero is never silently used: theorems carry
  the hypothesis that the denominator is nonzero.
* The third-party library `lion` (XML, polynomials, frames, `smooth_pos`, ...) is
  not in the repository. What is assumed about it appears as an explicit
  hypothesis of the theorem or as a definition marked `lion`.
* IPOPT/CppAD are oracles: theorems quantify over every possible answer.

## Plan per property

| id | what is modelled | how it is proved |
|---|---|---|
| C01 | five tables as finite maps, every API call as `step` | invariant by induction over the call history |
| C02 | the preprocessor's output phase | refutation by a concrete store; invariant under a freshness hypothesis |
| C03 | same state machine | refinement to one finite map `name -> variable` |
| C04 | same | case analysis of `step`; exact failure conditions |
| C05 C06 | same | frame lemmas, induction over later histories |
| C07 C08 C09 | `regex_replace` + ECMAScript matcher for literal, `.`, `*` patterns | matcher equivalent to a declarative glob relation; refutation for dots |
| C10 | `variable_type` lookup order | from the invariant of C01 |
| C11-C14 | byte/element buffers with explicit capacity | case analysis with `mod 2^64` arithmetic; refutations |
| C15 C16 | output phase of `compute_optimal_laptime` as a fold over requested names | induction over the request list; refutation of atomicity |
| C17 | output phase of `circuit_preprocessor` | refutation; conditional atomicity |
| C18 | vehicle operations | refutation (silent no-op) |
| C19-C21 | `Model_parameter` over `Q` | induction over the mesh; refutation for the end value |
| C22 | `Model_parameters` as list of lists | induction (concat/split round trip) |
| C23-C25 | parameter tree of the f1 car: paths, routing by prefix, used flags, xml | refinement of routing to a flat map; refutation for wind parameters |
| C26 C27 | control variables | induction over the hypermesh |
| C28-C30 | flat NLP layouts of both formulations | induction over points and controls; refutation for CONSTANT controls in the derivative formulation |
| C31-C33 | objective, laptime, integral quantities, penalty | sums over lists in `R`/`Q`; refutations |
| C34 C35 | `check_inputs`, sensitivity clean-up | case analysis; refutations |
| C36 C37 | kerbs over `Q` | invariant of the scanning loop; refutation |
| C38 C39 | mesh growth and squash over `Q` | invariant, termination measure; refutation of grading at the tail |
| C40 C41 | boundary geometry and error norms over `R` | algebra, induction |
| C42 | load/save of a flat circuit with explicit vector lengths | refutation |
| C43 C44 | Frenet frame and kinematics over `R` | trigonometric identities, derivatives |
| C45 | arcs over `R` | induction over segments, derivatives |
| C46 | closing of the polynomial track | refutation; continuity at nodes |
| C47-C49 | Pacejka "simple" model over `R` | real analysis |
| C50 C51 | axle torque split, engine | real algebra |
| C52-C55 | chassis 3-dof | real algebra and trigonometry |
| C56 | 6-dof axle | field arithmetic |
| C57 | steady-state variables | algebra |
| C58 | classification of equations | finite, computed, lifted |
| C59 C60 | retry loops with an oracle | induction over attempts |
| C61 C88 C89 | the four copies of a car inside the store (`M_Fleet`) | invariants over histories; refutations for the kart |
| C62 C91-C94 | option readers over XML trees, problem built from them, vectors saved | inversion of the readers, loop invariants; refutations |
| C63 | output-name buffers | as C11-C14 |
| C64-C66 | declared parameters | invariants over declarations; refutation |
| C67 C68 | warm start sizes, integral constraints by name | case analysis |
| C69 | breakpoints of the mesh size | case analysis on the comparison; refutations |
| C70 C81 | default values, bounds, rate bounds | evaluation over the reals; refutations |
| C71 C77 C78 C79 C80 | chassis moments, accelerations, understeer, tyre power, AD of the engine | real algebra; refutations |
| C72 C73 | track from circuit, circuit file round trip | induction over the vectors; refutations |
| C74 C75 | tracks of arcs: closure, unknown segments | induction; refutations |
| C76 | peak of the tyre curve | real analysis, interval bounds of atan; refutation |
| C82 C83 C84 C85 C86 C87 | kart states, track limits, steady-state constraints, understeer sign, units, roll balance | algebra, induction over points; refutations |
| C90 | accelerations found by the searches | induction over the attempts with a perfect optimiser; refutations |
| C95 C96 | splitting of alias texts, trimming | induction over the text; refutations |
| C97-C99 | optimisation problem of the circuit preprocessor: layout, constraints, objective, bounds, export | loop equations for vectors of any size, then membership of each defect; refutations |
| C100-C102 | GPS transformation, trimming, yaw correction, direction | real algebra, list induction; refutations |
| C103-C106 | minimum curvature path: layout, bounds, constraints, objective, input checks, written lists, arcs version | as C97; refutations |
| C107 | lap file: writer, reader, checks after reading | document computed for every lap, then read back; refutations |
| C108 C109 | Python module: storing, listing, downloading, names returned with a lap | the wrapper composed with the model of the C library; histories by induction; refutations |
| C110 C111 | kart: Newton and Euler equations, positions of the wheels, total torque | derivative at zero of the difference with rigid body mechanics written in an inertial frame; linear algebra; refutations |
| C112 | times, lap time and their derivatives by a parameter | derivative of the sum over the mesh, by induction on the mesh (Coquelicot) |
| C113 | scaling of the derivatives by dtime/ds, what the road tells the chassis | chain rule for any motion |
| C114 | `equations()`: recorded function, layout of the flat arrays of CppAD | indices; refutation away from s = 0 |
| C115 | declared parameters written into the car by an evaluation | simulation between the histories with and without evaluations; refutation for the saved file |
| C116 | frames as memory with parent pointers; construction, copy, assignment, destruction of vehicles | invariant over all programs: a vehicle alive is whole and its pointers stay inside it |
| C117 | the same for the one-axle model, whose copy operations are generated by the compiler | invariant without destructions; refutation with one |
| C118 | tracks of the store as widths and corrections; the C call that sets them | induction over the calls, with C89 for the vehicle |
| C119 | the stage after the solver: success flag, optimality check, export of the solution and of a derivative per parameter | round trip with the packing of C28/C29; the derivative formulation is refuted for every problem with a declared parameter |
| C120 | the maps of outputs of tyres, axles and chassis with their merging, the names of inputs and controls and what is set from each | the merged map is the list of the quantities; distinctness of all names decided once, then lookups in any permutation |
| C121 | the members computed from parameters (tyre positions, frame origins, tyre-model constants) beside the parameter tree, refreshed by the branches of set_parameter that refresh them | invariant over histories (computed members = their formulas on the present groups), then lookup by path |
| C122 | every assignment of an evaluation of the four vehicle models as (member written, members/parameters/arguments read), with the right hand sides as arbitrary functions | def-before-use analysis proved sound for all interpretations and run on the programs by the kernel; induction over declared parameters and over histories |
| C123 | the object evaluated by the solver with all its members and the vector of the caller: loading, evaluation of a car with memory, recording, constraints, closing element, integral quantities, export | forward simulation against the evaluation of `M_Laptime` (the constraints written so far agree, stale entries are all overwritten), invariant over histories of calls |
| C124 | bounds and values of the extra constraints of both vehicles, over the reals | the six pairs of bounds against the slips and the positions of points of the car in the frame of the road (orthonormality); monotone peak slip |
| C125 | the initial estimate of the preprocessor: tangents, binormals, normals, Euler angles, first and second differences, widths, flat and with elevation; the conversion to angles is any inverse of the road frame (one is defined and proved) | vector algebra for the frame, telescoping sums for the slopes, composed with C99 and C102 |
| C126 | the interpolation of a declared parameter with every operation rounded to a double (Flocq's FLT format, round to nearest even) | monotonicity of rounding, bounds of the quotient below one, error of the difference; refutation by evaluating one tie |
| C127 | the loop that generates a mesh and the squeeze of its last positions, rounded | every position gains half a smallest size at least (ulp bounds), so the loop ends; error analysis of the squeeze; refutation by evaluating a curve of six elements |
| C128 | numbers as written with 17 significant digits or six decimals and read back, both roundings | half a unit of the last decimal digit is below half a unit of the last bit, hence the nearest double is the original |
| C129 | parameter tree of the kart: reading, inherited `set_parameter`, saving, the four copies with declared parameters (`M_KartTree`) | each group is read or missed as a whole; routing by prefixes that exclude each other; invariant over the history (stored numbers agree with the file outside the declared paths); refutations by concrete files |
| C130 | patterns as trees with their text and meaning (`S_Pattern`), parsed by `M_Regex` | mutual induction over the tree: the parser reaches a frame whose language is the meaning; refutation for the quoted star |
| C131 | composition of the optimisation bounds, the track made from a circuit and the position of the road frame (`S_Drawn`: segments, stored boundaries) | C28/C29, C72, C40 and C124 combined over the reals |
| C132 | the request to the solver: option text, start, bounds, multipliers, dispatch over formulation and kind of simulation; any answer (`S_Solve`: values of options, bounds of the user) | composition of the stages, round trip with the packing of C28/C29 |
| C133 | the static object of `get_warm_start` over lists of calls of both vehicle types, failing at any stage | invariant by induction over the history (the last completed call that saved); the mesh asked for is refuted |
| C134 | `print_variables`, `print_variable`, `vehicle_get_output`, `vehicle_save_as_xml` as functions of the tables in any order of iteration (`S_Query`: what a listing says) | reading the text back: the listing determines names, types and sizes |
| C135 | programs of API calls with questions anywhere, evaluation of the stored vehicle included | simulation by induction over the program: erasing the questions leaves the answers and the tables |
| C136 | `solve`, `solve_max_lat_acc`, `solve_max_lon_acc`, `gg_diagram` with plain numbers, arbitrary solvers (`S_SteadyScalar`: a state reached in steps, exact optimisers) | induction over the steps and invariant of the loop over the points; no steps and the fixed bounds are refuted |
| C137 | a whole evaluation of the Formula 1 car on a track and on the plane, put together from `M_Tire`, `M_Car`, `M_Road` (`S_F1`: mirror images of vectors, turns, cars, inputs, points and laps) | mirror lemmas for every part, composed; derivatives of mirrored laps |
| C138 | the same evaluation on the plane, the energy of chassis and wheels (`S_F1`: energy, power of wheels, slip and air) | power balance by algebra over the tyre forces, derivative of the energy along a motion, mean value theorem; bounds from C48 and C50 |
| C139 | the same evaluation on both roads (`S_F1`: a flat track, a turned wind) | rotations about the vertical compose; the two roads give the chassis the same frame |
| C140 | laps of the whole car on any track, seen in fixed axes (`S_Newton`: position and velocity of the mass, angular momentum, forces and moments of the tyres) | the derivative of the axes of the car along the track is its angular velocity (`axes_turn`); the states are differentiated component by component |
| C141 | `M_KartCar`: the whole evaluation of the kart, put together from `M_Kart6`, `M_Car`, `M_Tire` and `M_Road`; lion's linsolve a parameter | every part commutes with the mirror image; the angular accelerations by the uniqueness of the solution of Euler's system (C110) |
| C142 | the same; a motion on the plane is a function of time whose states have the derivatives of the model | the frames of a flat road leave heights alone; `C110_newton_partial` and `C110_accelerations_determined` are used on the evaluation; the wheels' torques are moved to their points of the road; `C142_slips` and `C142_depths` by unfolding one axle on the flat road, `C142_loads` by the derivative of the depth along the motion |
| C143 | the samples of the two kerb tables of a circuit (`M_CircuitKerbs`) on top of `M_Kerb` | the samples above the threshold are the points near a boundary, then C37; the mirror image by a relation between samples that the loop preserves; inside and outside by bounds on the trapezoidal sum |
| C144 | the evaluation of the whole car (`M_F1`) seen from its wheels (`S_F1Wheels`: how a wheel rolls, grip, drag, downforce) | the yaw rate of the frame (C139) and the height of the contact point; the ellipse of friction (C47) in every direction, summed over the wheels, then the equations of a steady turn; the power balance (C138) of a car without air, plus the drag |
| C145 | the tables of names of the C library and the functions of the Python module that use them (`M_PyTrack`), on top of `M_Store`, `M_Buffers`, `M_Python` | cases on the names; an array of the right size is filled whole |
| C146 | nothing new: the whole car on a track of `M_F1`, with the laws of C140; the energy is defined in `S_Hill` from the states that the car reports | the rates of C140 dotted with the velocities, a force at a point gives what it and its moment give; the mean value theorem for a stretch |
| C147 | nothing new: the whole kart of `M_KartCar`; the coefficient of friction and the loads are defined in `S_KartGrip` | each tyre is within its circle of friction (C47), the sum over the wheels, and the balance of forces of a steady state |
| C148 | nothing new: the whole kart of `M_KartCar`; energy and powers are defined in `S_KartEnergy` | the power of each wheel at its point of the road (C142), Newton's and Euler's equations and the spin of the axle add up; the slip loses energy (C48); a state of a kart with pressed tyres refutes the balance without the extra term |
| C149 | `M_Propagate`: the buffers and options of propagate_vehicle; lion's step is a parameter | case analysis of the code against what the text asks for; a name in no table refutes the report of errors |
| C150 | `M_RoundedTime`: times, lap time and objective with every operation rounded to binary64 (`M_Rounded`) | monotonicity of rounding; induction over the points with the factors (1 ± 2^-53)^k; sums of doubles have no underflow; penalisations by the same factors, products being zero or large |
| C151 | `M_RealLap`: objective, constraints, bounds and integral quantities of the problem in real numbers, from evaluations of any car; evaluations of `M_F1` and `M_KartCar` | the evaluation of the image is a signed permutation of the evaluation (from C137, C141); residuals, bounds and quantities follow, element by element |
| C152 | the same; the lap cut in two and put together again, on the circuit with its arclength measured from the cut | the elements are a permutation of the elements; sums and universal statements do not depend on the order. Refuted for restricted quantities with sigma = 0 |
| C153 | the problem of C151; small specification: sums along a lap by the rule with weight sigma, squared slopes, points chosen by the solver, limits at a point | the mesh with its closing point has the elements of the problem; telescoping of the residuals; bounds of weighted sums; on a flat track the evaluation is that of the plane (C139) and the grip is that of C144 |
| C154 | the derivative formulation over the problem of C151: each control of the mesh has an equation as those of the integrated states, and its rate is a variable with bounds; the penalisation as it is written | the lemmas of C151-C153 on the extended evaluations; telescoping of the equations of the controls over any piece of the lap, compared with the bounds times the time; the clause on the value refuted (dcontrols_dt[i-i]); controls at rest: their equations have residuals 0 with rates 0, the others are those of the direct formulation |
| C155 | The problems of M_RealLap and M_RateLap; small specification: wider circuits and bounds, fewer limits, lower penalisations | evaluations that differ only by wider bounds are related point by point; constraints, variables, integral quantities and value are monotone in that relation, so that attained and best values are. Laps with rates against direct laps: C154 without the rates, and penalisations that are not negative. Closed laps against open laps: the elements of the mesh are the same list. Refuted with the gliding car for restricted quantities and sigma = 0. C155_case shows two problems whose best laps take 2 and 5/4. |
| C156 | the problems of M_RealLap and M_RateLap and the car and the kart of M_F1 and M_KartCar; small specification: a rigid motion of the ground about the vertical, applied to centreline and heading | the angles enter the car through gravity (pitch and roll), curvature (pitch, roll and derivatives) and the wind; the rotation of the frame composed with that of the wind cancels; the evaluations at each point are equal, so problems and best values are |
| C157 | Laps with the same variables at each point of a flat circuit of constant curvature, against the steady states of the same car on the plane | Every point of the circle is one reference point moved and turned (C156), so all the evaluations of the lap are the same one; its rates are those of the plane per unit of length (C139, C142), and they vanish exactly when the constraints of an element of positive length hold; the value is the one of C153 with constant integrands; with rates, the equations of the controls add that the rates vanish (C154) |
| C158 | Laps of the optimal laptime problem with a sector replaced by another one between the same points; parts of open laps; both formulations | The elements of a lap are those before, in and after the sector, and the closing element does not see its inside; sums and conjunctions over the elements split in the same way. In the derivative formulation the left rates that the program takes (C154) drop out of differences of laps with the same mesh |
| C159 | Loads of the four tyres of the whole kart on the plane (`M_KartCar`) | The torque of a tyre puts its force at the point where it touches the road, at height 0, so the moment given to the chassis is that of the loads and of the air; with no angular accelerations the equations of roll and pitch (solved by linsolve) say what it is |

## What is modelled, and where

| source | lines modelled | module |
|---|---|---|
| `src/main/c/fastestlapc.cpp` | tables and every exported call but `set_print_level` and `vehicle_equations` (empty in the code) | `M_Store`, `M_Fleet`, `M_Buffers`, `M_Regex`, `M_Alias`, `M_Options`, `M_Solve`, `M_Query` |
| `src/core/foundation/model_parameter.h`, `dynamic_model.h` | all | `M_Param`, `M_Tree`, `M_Rounded` |
| `src/core/applications/detail/optimal_laptime_control_variable(s).h` | all | `M_Controls` |
| `src/core/applications/optimal_laptime.hpp` | checks, packing and unpacking of both formulations, objective, constraints, bounds, lap time, integral quantities, export, sensitivities, members kept between evaluations | `M_Laptime` (lemmas in `L_Pack*`, `L_Colloc*`), `M_Export`, `M_Sens`, `M_Iterate`, `M_Solve` |
| `src/core/applications/detail/optimal_laptime_data.h` | all | `M_Lapfile`, `M_Laptime` |
| `src/core/applications/steady_state.hpp` | scalar and AD `solve`, `solve_max_lat_acc`, `solve_max_lon_acc`, `gg_diagram` (both) as searches with an arbitrary optimiser | `M_Steady`, `M_SteadyScalar`, `M_Vehicle` |
| `src/core/applications/circuit_preprocessor.h(pp)` | mesh generation, boundary points, error norms, XML reading and writing, GPS transformation, trimming, optimisation problem, bounds, export | `M_Mesh`, `M_Road`, `M_Errors`, `M_Track`, `M_Preproc`, `M_Estimate`, `M_Rounded` |
| `src/core/applications/minimum_curvature_path.h(pp)` | all but the choice of solver options | `M_MinCurv` |
| `src/core/vehicles/kerb.h` | all but plotting | `M_Kerb` |
| `src/core/vehicles/track_by_polynomial.h(pp)`, `track_by_arcs.h(pp)` | construction and evaluation, corrections of the limits | `M_Track`, `M_Arcs`, `M_Limits` |
| `src/core/vehicles/road*.h(pp)` | kinematics | `M_Road` |
| `src/core/vehicles/dynamic_model_car.h(pp)`, `limebeer2014f1.h`, `lot2016kart.h` | layouts, parameters, XML, steady-state equations, constraints, equation classification, track changes, a whole evaluation of the Formula 1 car, scaling to arclength, Jacobians | `M_Tree`, `M_KartTree`, `M_F1`, `M_Vehicle`, `M_Fleet`, `M_Balance`, `M_Feasible`, `M_Sens` |
| `src/core/chassis/*.h(pp)`, `src/core/actuators/*` | parameter trees, torques, forces, moments, equations of motion (3 dof), springs and equations of motion (6 dof), aerodynamics, indicator, frames and copy operations, names and outputs | `M_KartTree`, `M_Tree`, `M_Derived`, `M_Flow`, `M_Car`, `M_Kart6`, `M_Frames`, `M_Outputs` |
| `src/main/python/fastest_lap.py` | `create_scalar`, `create_vector`, `variable_type`, `download_*`, `vehicle_type_get_names`, `optimal_laptime` | `M_Python` |
| `src/core/tire/*.h(pp)` | both Pacejka models, slips, forces, dissipation, outputs | `M_Tire`, `M_Outputs` |

Not modelled: the numerical solvers (Ipopt, CppAD: arbitrary functions in the
model), the library `lion`, floating-point rounding (but in `M_Rounded`: parameters declared by values, mesh generation and numbers in files, with Flocq's format of doubles, without overflow, infinities and NaN; everything else is over the reals), the plotting scripts, the other
Python functions (each a single C call), the Matlab wrappers, `dynamic_model_powered_axle` (but for its frames: it uses the names `input_state_names`, which no other class has, so it cannot be instantiated, and its test is commented out), terminal output, and the parts of the
files above that the citations in the models do not mention.

## Trusted base

Coq's kernel; the reading of the C++ source recorded in the citations; the
idealisations above; the assumptions printed by `Print Assumptions`, listed for every
theorem at the end of this file: none for the discrete files, and for files over `R` the axioms of the
standard library's real numbers and the ones they are used with
(`ClassicalDedekindReals.sig_forall_dec`, `ClassicalDedekindReals.sig_not_dec`,
`FunctionalExtensionality.functional_extensionality_dep`, `Classical_Prop.classic`).
No axiom is added by this development.

## Findings

The properties the code does not have, each with a machine-checked counterexample
(`..._refuted`), are described in the notes of `MANIFEST.json`; the strongest version that
does hold is proved beside it (`..._partial`).

## Assumptions of every theorem

Output of `Print Assumptions`, grouped. Nothing but axioms of the standard library occurs.

* **closed under the global context** (no axioms) — 326 theorems: C95_pieces_partial, C95_names_partial, C95_declared_partial, C95_trailing_space_refuted, C95_empty_name_refuted, C95_inner_spaces_refuted, C96_trim, C96_trim_idempotent, C87_flat, C87_odd_partial, C87_refuted, C81_refuted, C81_partial, C11_download_vector_buffer, C11_download_vector_negative, C11_track_data_buffer, C12_print_to_string_partial, C12_print_to_string_refuted, C12_print_to_string_negative_refuted, C13_get_names_partial, C13_get_names_refuted, C14_variable_type_partial, C14_variable_type_refuted, C63_output_names_partial, C63_output_names_refuted, C143_left_partial, C143_right_partial, C143_last_stretch_refuted, C143_never_throws, C143_sides_apart, C143_mirror, C143_inside, C143_outside, C143_off, C26_hypermesh_lookup_partial, C26_value_in_force_unique, C26_found_from_first_point_on_partial, C26_lookup_in_bounds_partial, C26_empty_hypermesh_refuted, C27_checked_reads_in_bounds_partial, C27_checked_values_found_partial, C27_value_of_each_kind, C27_checked_rates_found_partial, C27_counts, C27_check_idempotent, C27_value_and_rate_lookup_refuted, C27_empty_hypermesh_refuted, C28_pack_size, C28_round_trip, C28_unpack_then_pack, C28_bounds, C29_pack_size_partial, C29_round_trip_partial, C29_unpack_then_pack_partial, C29_bounds_partial, C29_constant_control_refuted, C29_rate_bounds_refuted, C119_solution, C119_failure_reported, C119_completes, C119_derivatives_partial, C119_derivatives_refuted, C119_none_declared_partial, C35_returned_refuted, C61_rejected_track_kept_refuted, C61_rejected_by_laptime_refuted, C61_accepted_partial, C61_only_the_vehicle_partial, C88_copies_agree_partial, C88_copies_agree_flat_partial, C89_vehicle_keeps_its_track, C88_kart_tracks_refuted, C122_evaluation_is_a_function_of_its_arguments_and_the_parameters, C122_evaluation_keeps_what_was_prepared, C122_histories_do_not_matter, C122_evaluations_can_be_repeated, C122_paths_of_the_f1, C116_poses_of_a_car, C116_copy_has_the_same_poses, C116_vehicles_are_independent, C117_no_destruction_partial, C117_outliving_copy_refuted, C123_any_history, C123_same_answers, C129_accepted_exactly, C129_holds_the_file, C129_engine_power_partial, C129_set_exact_partial, C129_declared_parameters_partial, C129_four_representations, C129_saved_partial, C129_no_engine_refuted, C129_file_number_not_settable_refuted, C129_saved_not_readable_refuted, C36_kerbs_ordered, C36_compute_never_throws, C36_compute_can_throw, C36_evaluate_inside, C36_evaluate_outside, C37_kerb_iff_run_partial, C37_one_kerb_per_run_partial, C37_trailing_run_refuted, C37_no_kerb_lost_refuted, C107_saved_and_reloaded_partial, C107_warm_start_from_file, C107_laptime_refuted, C107_dissipation_refuted, C107_save_again_refuted, C107_empty_hypermesh_refuted, C30_evaluations, C30_bounds_aligned, C31_laptime_is_objective, C32_open, C32_closed_partial, C32_closed_half_partial, C32_quadrature_rotation, C32_start_line_half_partial, C32_refuted, C33_direct, C33_derivative_partial, C33_two_points_partial, C33_refuted, C34_accepted_partial, C34_refuted, C35_inputs_partial, C35_closed, C35_refuted, C67_warm_start, C68_integral_names, C118_limits_after_history, C118_reported, C118_downloads_unchanged, C118_vehicle_uses_the_limits, C38_distribution_mesh_partial, C38_breakpoints_mesh_partial, C38_equispaced_mesh, C38_generation_ends, C38_short_track_refuted, C38_short_track_breakpoints_refuted, C38_nonpositive_first_size_never_ends, C39_grading_partial, C39_constant_size, C39_tail_refuted, C69_size_of_last_breakpoint_partial, C69_same_segment_refuted, C69_breakpoint_ahead_refuted, C106_empty_arclength_refuted, C106_written_list_partial, C106_arcs_path_file_refuted, C115_evaluations_leave_no_trace_partial, C115_saved_file_partial, C115_saved_file_refuted, C62_single_values_partial, C62_output_variables, C62_control_variables_partial, C62_integral_constraints, C62_variable_bounds_partial, C62_steady_state_speed_refuted, C62_steady_state_speed_rejected_refuted, C62_initial_speed_ignored_refuted, C62_problem_partial, C62_warm_start_ignores_options_refuted, C91_initial_condition_partial, C91_short_vector_refuted, C91_long_vector_refuted, C91_needed, C92_saved_vectors_partial, C92_inputs_saved_partial, C92_warm_start_reads_outside_refuted, C92_warm_start_other_mesh_refuted, C93_saved_derivatives_partial, C93_other_derivatives_refuted, C94_circuit_options, C94_open_circuit_refuted, C94_closed_processed_partial, C120_no_two_quantities_share_a_name, C120_f1_inputs_under_their_names, C120_kart_inputs_under_their_names, C19_parameter_between_declared_values, C20_linear_between_mesh_points_partial, C20_value_at_mesh_points_partial, C20_before_first_partial, C20_after_last_partial, C20_end_value_refuted, C20_start_value_refuted, C21_constructor_accepts_well_formed, C22_set_then_get, C22_get_then_set, C22_short_vector_refuted, C22_long_vector_refuted, C64_declared_parameters, C64_duplicate_rejected, C130_pattern, C130_quoted_name_partial, C130_malformed, C130_quoted_star_refuted, C101_first_node_refuted, C149_options, C149_plane_partial, C149_circuit_partial, C149_unknown_refuted, C145_data, C145_unknown_track, C145_length, C145_coordinates, C145_diagram_partial, C145_negative, C145_unknown_vehicle_refuted, C145_output_refuted, C108_lap_downloaded_partial, C108_laptime_missing_refuted, C108_listed_variables_refuted, C108_no_output_variables_refuted, C109_vector_round_trip, C109_scalar_round_trip, C109_create_fails_iff, C134_listing, C134_listing_faithful, C134_prints_something, C134_text, C134_file, C134_output, C134_short_array, C135_questions_change_nothing, C135_listing, C132_options, C132_request, C132_not_ready, C132_accepted, C132_answer, C132_failure_thrown, C132_completes, C133_kept, C133_warm_start, C133_cold_start, C133_nothing_kept, C133_resumes, C133_other_integrals, C133_mesh_asked_for_refuted, C59_lateral_search, C59_longitudinal_searches, C59_c_api_reports_failures_refuted, C60_points_partial, C60_increasing_partial, C60_one_point_refuted, C60_no_point_refuted, C60_negative_throws, C60_within_partial, C60_extremes_partial, C90_maximum_partial, C90_minimum_partial, C90_strong_drag_refuted, C90_clipped_refuted, C60_growing_cut_refuted, C60_arrays_partial, C136_steady_state_partial, C136_last_step_partial, C136_no_steps_refuted, C136_lateral_partial, C136_longitudinal_partial, C136_diagram_partial, C136_always_a_diagram_partial, C136_extremes_partial, C136_same_equations_partial, C136_cut_refuted, C01_names_unique, C01_names_unique_initially, C02_preprocessor_unique_partial, C03_store_is_one_map, C03_initially_empty, C04_failure_changes_nothing, C04_create_scalar_fails_iff, C04_create_vector_fails_iff, C04_create_vehicle_fails_iff, C04_create_vehicle_empty_fails_iff, C04_create_track_fails_iff, C04_copy_fails_iff, C04_move_fails_iff, C05_copy_equal, C05_copy_independent, C06_move_renames, C06_move_onto_taken, C06_move_onto_itself, C07_delete_plain_name, C08_delete_wildcard, C09_delete_dotted_partial, C10_variable_type_agrees, C15_laptime_frame, C15_laptime_stores_outputs, C16_laptime_atomic_partial, C17_preprocessor_fresh_partial, C18_declare_reported_partial, C18_declare_variable_reported_partial, C18_vehicle_calls_silent, C18_set_parameter_silent, C02_preprocessor_unique_refuted, C09_delete_dotted_refuted, C16_laptime_atomic_refuted, C17_preprocessor_atomic_refuted, C18_unknown_vehicle_refuted, C42_flat_track_save_refuted, C42_save_partial, C73_save_then_load_partial, C73_same_track_partial, C73_reload_moves_track_limits_refuted, C72_values_at_mesh_points_partial, C72_kerb_widening, C72_closed_track_ends_at_first_point, C72_pitch_rate_is_second_derivative, C72_pitch_rate_refuted, C46_heading_between_mesh_points_partial, C46_last_element_unwinds_partial, C46_closing_heading_refuted, C23_set_parameter_exact, C23_stored_paths, C23_ready_partial, C23_ready_means_all_set_refuted, C24_representations_agree, C25_saved_file_rejected_refuted, C25_reload_partial, C25_wind_lost_refuted, C65_set_parameter_wins, C66_unknown_path_accepted_refuted, C58_partition, C58_f1, C58_kart

* `ClassicalDedekindReals.sig_forall_dec` — 2 theorems: C101_trimmed_boundary_partial, C82_kart_states

* `ClassicalDedekindReals.sig_forall_dec`, `FunctionalExtensionality.functional_extensionality_dep` — 24 theorems: C50_power, C50_bound, C50_brakes, C50_kart, C51_continuous, C51_nonnegative, C51_ends, C52_newton_euler, C71_partial, C71_refuted, C55_roll_balance, C55_compressive, C56_equilibrium, C56_seen_partial, C56_refuted, C79_power_partial, C79_refuted, C124_kart, C110_accelerations_determined, C111_total_torque, C106_accepted_arclength, C106_arcs_objective_partial, C106_arcs_few_points_refuted, C44_road_angle_rates

* `ClassicalDedekindReals.sig_forall_dec`, `ClassicalDedekindReals.sig_not_dec`, `FunctionalExtensionality.functional_extensionality_dep` — 97 theorems: C45_accepted, C45_unit_tangent, C45_length, C74_closed_partial, C75_unknown_rejected_partial, C75_refuted, C80_refuted, C54_drag_along_wind, C54_still_air, C54_relative, C131_drawn_between_boundaries, C131_drawn_with_kerbs, C131_room_for_the_car, C41_max_is_largest, C41_l2_is_mean_square, C41_l2_at_most_max, C41_zero_iff_all_match, C125_laid_on_the_points, C125_slopes_with_elevation, C125_limits, C125_the_solver_starts_there, C125_the_whole_estimate, C125_flat, C139_yaw_rate, C124_what_the_constraints_say, C83_wheels_partial, C83_wheels_refuted, C124_peak_slip_allowed, C124_every_gripping_state_is_allowed, C124_heavy_loads, C103_all_reads_in_range, C103_start_is_the_centreline, C103_path_inside_track, C103_decreasing_arclength_refuted, C104_solution_is_a_path_partial, C104_climb_refuted, C104_slope_refuted, C105_objective_partial, C105_closing_element_refuted, C156_position, C156_still_air, C120_each_output_under_its_name, C120_other_names_throw, C120_published_names, C120_names_never_collide, C120_saved_under_its_name, C120_python_names, C97_all_reads_in_range, C97_solution_is_a_road, C97_boundaries, C98_objective_partial, C98_objective_of_circuit_partial, C98_closing_element_refuted, C98_open_distance_refuted, C99_start_vector_is_the_estimate, C99_returned_circuit_in_bounds, C99_narrow_track_refuted, C100_gps_round_trip, C100_origin_and_axes, C100_meridian_refuted, C100_breakpoint_altitude_refuted, C101_inside_partial, C101_on_segment_partial, C101_end_altitude_refuted, C101_finish_behind_start_refuted, C102_yaw_continuous, C102_direction_partial, C102_figure_of_eight_refuted, C43_frame_right_handed, C43_body_axes_right_handed, C40_boundary_points, C40_left_is_left, C40_flat_computation, C44_cartesian_rates, C53_gravity_is_the_weight, C112_times, C112_lap_time, C113_chassis_states, C113_road_states, C113_cartesian, C114_equations_partial, C114_position_ignored_refuted, C57_f1_round_trip, C57_f1_state, C57_kart_round_trip, C57_kart_state, C58_flat_states_vanish, C70_refuted, C70_partial, C70_all_listed, C83_refuted, C83_partial, C84_f1, C84_kart, C86_autodiff, C86_scalar_refuted, C86_kart

* `ClassicalDedekindReals.sig_forall_dec`, `ClassicalDedekindReals.sig_not_dec`, `Classical_Prop.classic`, `FunctionalExtensionality.functional_extensionality_dep` — 200 theorems: C45_smooth_partial, C45_curvature_partial, C45_yaw_partial, C45_offset_partial, C45_refuted, C74_refuted, C80_max_power_partial, C52_energy, C77_accelerations, C78_mirror_partial, C78_refuted, C78_meaning, C157_lap, C157_time, C157_turn, C157_best, C157_only_turns, C157_kart_lap, C157_kart_time, C157_kart_turn, C157_kart_best, C157_kart_only_turns, C157_rate_lap, C157_rate_time, C157_rate_turn, C157_kart_rate_lap, C157_kart_rate_time, C157_kart_rate_turn, C121_geometry_follows_the_parameters, C121_tires_follow_the_parameters, C121_tires_of_a_file, C121_histories_do_not_matter, C121_parameters_unchanged, C128_seventeen_digits, C128_to_string_close, C128_six_decimals_partial, C128_to_string_refuted, C137_track, C137_plane, C137_symmetric_car, C137_laps, C137_diagram, C138_power, C138_energy, C138_bound, C138_gain, C139_anywhere, C139_flat_track, C144_slips, C144_throttle, C144_brakes, C144_grip, C144_diagram, C144_power, C155_attained, C155_best, C155_open_partial, C155_constant, C155_rates, C155_kart_attained, C155_kart_best, C155_kart_open, C155_kart_constant, C155_kart_rates, C155_open_refuted, C146_energy_partial, C146_slope, C146_gain, C146_energy_refuted, C110_newton_partial, C110_euler_partial, C110_lateral_velocity_refuted, C111_wheel_heights_partial, C111_horizontal_position_refuted, C141_track_partial, C141_plane_partial, C141_symmetric_kart, C141_laps_partial, C141_diagram, C141_straight, C142_anywhere, C142_flat_track, C142_newton, C142_moment, C142_euler, C142_axle, C142_slips, C142_depths, C142_loads, C141_uneven_steering_refuted, C148_power_partial, C148_energy_partial, C148_bound_partial, C148_turn_partial, C148_gain_partial, C148_energy_refuted, C147_grip, C147_front, C147_diagram, C159_weight, C159_transfer, C159_straight, C153_value, C153_fastest, C153_within, C153_gain, C153_limited, C153_engine, C153_grip, C153_kart_value, C153_kart_fastest, C153_kart_within, C153_kart_gain, C156_car, C156_laps, C156_rates, C156_best, C156_kart, C156_kart_laps, C156_kart_rates, C140_position, C140_newton, C140_euler_partial, C140_wheels, C140_load_transfer, C140_moment_of_the_air_refuted, C154_direct, C154_rates, C154_turned, C154_value_partial, C154_fastest, C154_mirror, C154_restart_partial, C154_value_refuted, C154_restart_refuted, C154_kart_direct, C154_kart_rates, C154_kart_turned, C154_kart_value_partial, C154_kart_mirror, C154_kart_restart_partial, C154_rest, C154_kart_rest, C155_never_faster, C155_kart_never_faster, C151_laps, C151_times, C151_best, C151_kart_laps, C151_kart_times, C152_f1_partial, C152_kart, C152_restricted_refuted, C44_curvature_rotates_frame, C44_position_moves_with_body_velocity, C44_body_turns_with_yaw_rate, C126_between_partial, C126_exact_positions_partial, C126_rounding, C126_monotone, C126_exact, C126_between_refuted, C150_minimised, C127_generation_ends, C127_mesh_partial, C127_end_refuted, C127_tiny_sizes_refuted, C150_forwards, C150_strictly, C150_accuracy, C150_objective, C158_parts, C158_replaced, C158_sectors, C158_rest, C158_rate_sectors, C158_rate_rest, C158_kart_parts, C158_kart_replaced, C158_kart_sectors, C158_kart_rest, C158_kart_rate_sectors, C158_kart_rate_rest, C112_time_derivatives, C112_lap_time_derivative, C47_simple_ellipse, C47_standard_partial, C47_standard_refuted, C48_simple_partial, C48_simple_spin_partial, C48_simple_refuted, C48_standard_partial, C48_standard_refuted, C49_simple, C49_standard, C76_peak_partial, C76_refuted, C85_mirror_partial, C85_mirror_refuted, C85_sign

