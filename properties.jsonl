{"id": "C01", "title": "A name denotes at most one variable", "statement": "After any history of calls to create_*, copy_variable, move_variable, delete_variable, vehicle_set_parameter and optimal_laptime, every name is held by at most one of the five variable kinds (kart, f1 car, track, scalar, vector), so variable_type, print_variable and the download functions all talk about the same object.", "quantifier": "all finite histories of API calls, with all names and payloads, including calls that throw", "why_tests_cant": "the invariant ranges over unboundedly long call histories and arbitrary strings", "anchors": ["src/main/c/fastestlapc.cpp:check_variable_exists_in_tables", "src/main/c/fastestlapc.cpp:copy_variable", "src/main/c/fastestlapc.cpp:move_variable", "src/main/c/fastestlapc.cpp:delete_variable", "src/main/c/fastestlapc.cpp:compute_optimal_laptime"]}
{"id": "C02", "title": "circuit_preprocessor also respects name uniqueness", "statement": "Running circuit_preprocessor never stores its track or its output vectors under a name that already denotes a variable of another kind.", "quantifier": "all store contents and all preprocessor configurations", "why_tests_cant": "needs all combinations of pre-existing names and output prefixes; a test picks fresh names", "anchors": ["src/main/c/fastestlapc.cpp:circuit_preprocessor (1990, 2006-2127)"]}
{"id": "C03", "title": "The internal memory is a map from names to values", "statement": "Any history of store operations behaves like a single finite map name -> variable: a download returns the value last stored under that name, operations on other names have no effect on it, and reads never change it.", "quantifier": "all histories of create/copy/move/delete/download/type operations, all names and values", "why_tests_cant": "refinement of five hash tables to one map must hold for every history", "anchors": ["src/main/c/fastestlapc.cpp:create_scalar", "src/main/c/fastestlapc.cpp:create_vector", "src/main/c/fastestlapc.cpp:download_scalar", "src/main/c/fastestlapc.cpp:download_vector", "src/main/c/fastestlapc.cpp:variable_type", "src/main/c/fastestlapc.cpp:copy_variable", "src/main/c/fastestlapc.cpp:move_variable"]}
{"id": "C04", "title": "A failing store operation changes nothing", "statement": "When create_scalar, create_vector, create_vehicle_*, create_track_from_xml, copy_variable or move_variable throws, the internal memory is exactly what it was before the call, and each of them throws exactly when the new name is taken (or the source is missing / the file or type is rejected).", "quantifier": "all stores, names, payloads and file contents", "why_tests_cant": "error atomicity has to be checked for every table content and every error path", "anchors": ["src/main/c/fastestlapc.cpp:create_vehicle_from_xml", "src/main/c/fastestlapc.cpp:create_vehicle_empty", "src/main/c/fastestlapc.cpp:create_track_from_xml", "src/main/c/fastestlapc.cpp:copy_variable", "src/main/c/fastestlapc.cpp:move_variable"]}
{"id": "C05", "title": "copy_variable produces an independent equal copy", "statement": "After a successful copy the new name holds a value equal to the source, the source is unchanged, and later operations on either name (set_parameter, move, delete) do not affect the other.", "quantifier": "all stores, all pairs of names, all later histories that do not name the copy", "why_tests_cant": "absence of aliasing must hold for every later history", "anchors": ["src/main/c/fastestlapc.cpp:copy_variable"]}
{"id": "C06", "title": "move_variable renames", "statement": "After a successful move_variable(old,new) exactly the binding of old has been renamed to new; every other name keeps its value. Moving a variable onto itself or onto an existing name throws and changes nothing.", "quantifier": "all stores and names", "why_tests_cant": "quantifies over all store contents", "anchors": ["src/main/c/fastestlapc.cpp:move_variable"]}
{"id": "C07", "title": "delete_variable with a plain name removes exactly that variable", "statement": "If the name contains no character that is special for regular expressions, delete_variable removes the variable of that name (if any), leaves all others, and never throws.", "quantifier": "all stores and all names without metacharacters", "why_tests_cant": "all names, including every near-miss of the deleted name", "anchors": ["src/main/c/fastestlapc.cpp:delete_variable"]}
{"id": "C08", "title": "delete_variable with wildcards removes exactly the matching names", "statement": "With '*' standing for any run of characters (other than line terminators), delete_variable(pattern) removes exactly the names matching the pattern, in every table, for patterns whose other characters are literal.", "quantifier": "all stores, all glob patterns with any number of '*'", "why_tests_cant": "the pattern language and the set of names are unbounded", "anchors": ["src/main/c/fastestlapc.cpp:delete_variable"]}
{"id": "C09", "title": "delete_variable treats dots literally", "statement": "Deleting a dotted name such as run.chassis.velocity.x removes no variable other than the one with exactly that name.", "quantifier": "all stores and all names made of letters, digits, '.', '/', '-', '_'", "why_tests_cant": "the failing inputs are pairs of names differing at a dot; a test with one name never sees them", "anchors": ["src/main/c/fastestlapc.cpp:delete_variable"]}
{"id": "C10", "title": "variable_type agrees with the download functions", "statement": "variable_type returns 'scalar' (resp. 'vector', 'track', a vehicle type) exactly when download_scalar (resp. download_vector, track_download_length, vehicle operations) on that name would find it, and throws exactly when no table has the name.", "quantifier": "all reachable stores and all names", "why_tests_cant": "depends on table lookup order, visible only for stores reachable by adversarial histories", "anchors": ["src/main/c/fastestlapc.cpp:variable_type", "src/main/c/fastestlapc.cpp:download_scalar", "src/main/c/fastestlapc.cpp:download_vector"]}
{"id": "C11", "title": "download_vector writes exactly the caller's buffer", "statement": "download_vector(data,n,name) either throws without writing or writes exactly n elements, equal to the stored vector; track_download_data likewise writes exactly n_points elements.", "quantifier": "all stored vectors, all n (including negative), all buffers", "why_tests_cant": "memory safety for every size", "anchors": ["src/main/c/fastestlapc.cpp:download_vector", "src/main/c/fastestlapc.cpp:track_download_data"]}
{"id": "C12", "title": "print_variable_to_string never writes past n_char bytes", "statement": "print_variable_to_string(buf,n_char,name) throws or writes at most n_char bytes including the terminator.", "quantifier": "all printed strings and all n_char values (including negative)", "why_tests_cant": "off-by-one at n_char equal to the string length and wrap-around for negative sizes", "anchors": ["src/main/c/fastestlapc.cpp:print_variable_to_string"]}
{"id": "C13", "title": "vehicle_type_get_names never writes past n_char bytes", "statement": "vehicle_type_get_names with buffers of n_char bytes either throws or writes each name with its terminator inside its buffer.", "quantifier": "all names and all n_char values", "why_tests_cant": "size_t wrap-around of n_char-1 only shows for n_char = 0", "anchors": ["src/main/c/fastestlapc.cpp:vehicle_type_get_names_generic"]}
{"id": "C14", "title": "variable_type respects str_len_max", "statement": "variable_type writes at most str_len_max bytes into the caller's buffer.", "quantifier": "all variables and all str_len_max", "why_tests_cant": "the parameter is ignored; a test with a large buffer cannot see it", "anchors": ["src/main/c/fastestlapc.cpp:variable_type"]}
{"id": "C15", "title": "optimal_laptime stores its outputs without touching other variables", "statement": "If optimal_laptime fails its name checks nothing is stored; whatever happens, no variable that existed before the call is modified; after success every requested output name is bound.", "quantifier": "all stores, all output configurations (prefix, variables, integral quantities, sensitivities)", "why_tests_cant": "all overlaps between requested names and existing names", "anchors": ["src/main/c/fastestlapc.cpp:compute_optimal_laptime"]}
{"id": "C16", "title": "optimal_laptime is all-or-nothing", "statement": "If optimal_laptime throws while storing its results, none of the results are stored.", "quantifier": "all output configurations", "why_tests_cant": "needs the error in the middle of the output phase", "anchors": ["src/main/c/fastestlapc.cpp:compute_optimal_laptime (1604-1709)"]}
{"id": "C17", "title": "circuit_preprocessor is all-or-nothing", "statement": "If circuit_preprocessor throws because an output name is taken, no result is stored.", "quantifier": "all stores and prefixes", "why_tests_cant": "needs every position of the clash among the 14 outputs", "anchors": ["src/main/c/fastestlapc.cpp:circuit_preprocessor"]}
{"id": "C18", "title": "Vehicle operations on an unknown vehicle are reported", "statement": "vehicle_set_parameter, vehicle_declare_new_constant_parameter and propagate_vehicle on a name that is not a supported vehicle raise an error instead of silently doing nothing.", "quantifier": "all stores and names", "why_tests_cant": "silence is indistinguishable from success in a test that does not read the value back", "anchors": ["src/main/c/fastestlapc.cpp:vehicle_set_parameter", "src/main/c/fastestlapc.cpp:propagate_vehicle"]}
{"id": "C19", "title": "A position-dependent parameter stays between its declared values", "statement": "For every arclength, the value of a variable parameter lies between the smallest and the largest declared value.", "quantifier": "all accepted values/mesh combinations and all arclengths", "why_tests_cant": "continuum of arclengths and unbounded meshes", "anchors": ["src/core/foundation/model_parameter.h:Model_parameter::operator()"]}
{"id": "C20", "title": "A position-dependent parameter takes the declared value at every mesh point and is linear in between", "statement": "At mesh point (s_i, k_i) with i not the last the parameter equals values[k_i]; between consecutive mesh points it is the straight line joining them; before the first (after the last) mesh point it equals the value attached to the first (last) mesh point.", "quantifier": "all accepted parameters, all arclengths", "why_tests_cant": "continuum of arclengths; mesh points re-using parameter indices", "anchors": ["src/core/foundation/model_parameter.h:Model_parameter::operator()"]}
{"id": "C21", "title": "The variable-parameter constructor accepts exactly well-formed meshes", "statement": "The constructor accepts a mesh iff there are at least two values, one alias per value, the arclengths are strictly increasing, each mesh point refers to an existing value and every value is used.", "quantifier": "all candidate meshes", "why_tests_cant": "all shapes of malformed meshes", "anchors": ["src/core/foundation/model_parameter.h:Model_parameter::Model_parameter"]}
{"id": "C22", "title": "set_all_parameters / get_all_parameters round trip", "statement": "Setting all scalar values of a parameter collection and reading them back returns the same vector, in the same order as the aliases, and changes nothing else; a vector of the wrong length is rejected.", "quantifier": "all parameter collections, all value vectors", "why_tests_cant": "arbitrary numbers of parameters with arbitrary numbers of values", "anchors": ["src/core/foundation/model_parameter.h:Model_parameters", "src/core/vehicles/dynamic_model.h:add_parameter"]}
{"id": "C23", "title": "set_parameter changes exactly the addressed parameter", "statement": "vehicle_set_parameter(path,value) changes the parameter with exactly that path and nothing else; a path that is not a parameter of the car raises an error and leaves the car unchanged; a car created empty becomes ready exactly when all its parameters have been set.", "quantifier": "all sequences of set_parameter calls, all paths and values", "why_tests_cant": "all strings as paths, including prefixes and extensions of valid paths", "anchors": ["src/core/chassis/chassis.hpp:set_parameter", "src/core/chassis/chassis_car_3dof.hpp:set_parameter", "src/core/chassis/axle_car_3dof.hpp:set_parameter", "src/core/chassis/axle.hpp:set_parameter"]}
{"id": "C24", "title": "The four internal car representations stay in sync", "statement": "After any sequence of set_parameter / declare_new_parameter calls (some failing), the scalar and AD, cartesian and curvilinear versions of an f1 car hold the same parameter values.", "quantifier": "all call sequences", "why_tests_cant": "all sequences including failing calls", "anchors": ["src/core/vehicles/limebeer2014f1.h:limebeer2014f1_all"]}
{"id": "C25", "title": "Saving and reloading a vehicle preserves its parameters", "statement": "vehicle_save_as_xml followed by create_vehicle_from_xml gives a vehicle with the same parameter values.", "quantifier": "all vehicles reachable by set_parameter", "why_tests_cant": "all parameter values and all set_parameter histories", "anchors": ["src/core/chassis/chassis.hpp:fill_xml", "src/core/chassis/chassis.h:get_extra_parameters_map", "src/main/c/fastestlapc.cpp:vehicle_save_as_xml"]}
{"id": "C26", "title": "Control hypermesh lookup is piecewise constant", "statement": "A hypermesh control evaluated at s takes the value of the last hypermesh point at or before s; before the first point an error is raised; the lookup never reads outside the value vector.", "quantifier": "all sorted hypermeshes and all arclengths", "why_tests_cant": "continuum of arclengths, arbitrary meshes", "anchors": ["src/core/applications/detail/optimal_laptime_control_variable.h"]}
{"id": "C27", "title": "Control-variable checks establish what the optimiser needs", "statement": "If the control-variable input check passes then every later access to control values at any mesh index or hypermesh interval is in bounds, and the reported counts of optimised controls and hypermesh points equal the numbers of optimised variables.", "quantifier": "all control-variable sets", "why_tests_cant": "all sizes and mixtures of control types", "anchors": ["src/core/applications/detail/optimal_laptime_control_variables.h:check_inputs"]}
{"id": "C28", "title": "Direct optimal control: the optimiser's vector round-trips", "statement": "In the direct formulation, packing the initial guess into the flat NLP vector and unpacking it inside the objective returns the same inputs and controls at every point, for open and closed tracks; the vector length equals the declared number of variables.", "quantifier": "all mesh sizes, all mixes of FULL_MESH/CONSTANT/HYPERMESH/DONT_OPTIMIZE controls, open and closed", "why_tests_cant": "index arithmetic must be right for every size", "anchors": ["src/core/applications/optimal_laptime.hpp:compute_direct", "src/core/applications/optimal_laptime.hpp:FG_direct::compute"]}
{"id": "C29", "title": "Derivative optimal control: the optimiser's vector round-trips", "statement": "Same as the direct formulation, for the formulation with control derivatives.", "quantifier": "all mesh sizes and control mixes", "why_tests_cant": "index arithmetic must be right for every size and control type", "anchors": ["src/core/applications/optimal_laptime.hpp:compute_derivative (845-866)", "src/core/applications/optimal_laptime.hpp:FG_derivative::compute"]}
{"id": "C30", "title": "Constraint bounds line up with constraint values", "statement": "The i-th constraint bound handed to the solver belongs to the i-th constraint value computed by the objective function (equations are bounded by zero, extra constraints by the limits at the arclength of the same point, integral quantities by the user's limits), and the number of each equals the declared number of constraints.", "quantifier": "all mesh sizes, open and closed, any number of extra constraints and restricted integral quantities", "why_tests_cant": "index arithmetic for every size", "anchors": ["src/core/applications/optimal_laptime.hpp:compute_direct (365-470)", "src/core/applications/optimal_laptime.hpp:FG_direct::compute"]}
{"id": "C31", "title": "The reported lap time is what was minimised", "statement": "The laptime reported equals the time part of the objective function evaluated at the returned solution (plus the initial time on open tracks), for every collocation weight sigma.", "quantifier": "all solutions, meshes, sigma, open and closed", "why_tests_cant": "a sum over an arbitrary mesh", "anchors": ["src/core/applications/optimal_laptime.hpp:compute_direct (563-650)", "src/core/applications/optimal_laptime.hpp:FG_direct::compute"]}
{"id": "C32", "title": "Integral quantities use the same quadrature on the closing element", "statement": "On a closed track an integral quantity is the sigma-weighted quadrature of its rate over all elements, including the closing one, so it is invariant when the starting line is moved to another mesh point.", "quantifier": "all closed meshes, all rates, all sigma in [0,1]", "why_tests_cant": "only visible for sigma different from 1/2 with asymmetric rates", "anchors": ["src/core/applications/optimal_laptime.hpp:1409", "src/core/applications/optimal_laptime.hpp:1646"]}
{"id": "C33", "title": "The control-derivative penalty integrates the derivative of every element", "statement": "In the derivative formulation the dissipation term is the trapezoidal quadrature of the squared control derivatives over the mesh.", "quantifier": "all meshes and derivative values", "why_tests_cant": "wrong only from the second element on", "anchors": ["src/core/applications/optimal_laptime.hpp:1553"]}
{"id": "C34", "title": "optimal_laptime accepts only admissible meshes", "statement": "A mesh accepted by optimal_laptime has at least two points within the track, starts at zero for closed tracks with the last point strictly before the finish line, and is strictly increasing so that all element lengths are positive.", "quantifier": "all meshes", "why_tests_cant": "all orderings of the mesh points", "anchors": ["src/core/applications/optimal_laptime.hpp:check_inputs"]}
{"id": "C35", "title": "Sensitivity post-processing pins only the fixed initial point", "statement": "For open simulations the sensitivity of the (fixed) first point is zero and all other entries are the computed derivatives.", "quantifier": "all solutions and numbers of controls", "why_tests_cant": "wrong index only affects controls with several points", "anchors": ["src/core/applications/optimal_laptime.hpp:665-670"]}
{"id": "C36", "title": "Kerb tables are ordered and disjoint", "statement": "Whatever the input, the kerbs computed for one side are ordered, do not overlap, have start before finish, and lie within the span of the input arclengths; kerb evaluation returns the width of the kerb containing s and 0 outside.", "quantifier": "all displacement/curvature profiles on increasing arclengths", "why_tests_cant": "arbitrary profiles", "anchors": ["src/core/vehicles/kerb.h:append_kerb", "src/core/vehicles/kerb.h:compute", "src/core/vehicles/kerb.h:evaluate_generic"]}
{"id": "C37", "title": "No kerb is lost at the end of the track", "statement": "Every maximal run of at least two consecutive points above the threshold yields a kerb.", "quantifier": "all profiles", "why_tests_cant": "only runs touching the end of the input are affected", "anchors": ["src/core/vehicles/kerb.h:compute"]}
{"id": "C38", "title": "Averaged-centerline mesh is increasing and ends exactly at the finish", "statement": "The mesh generated from a distribution of element sizes starts at the start arclength, is strictly increasing and ends exactly at the requested end, and generation terminates for every positive size distribution.", "quantifier": "all positive size distributions bounded away from zero, all track lengths", "why_tests_cant": "termination and ordering for every distribution", "anchors": ["src/core/applications/circuit_preprocessor.hpp:compute_averaged_centerline"]}
{"id": "C39", "title": "Mesh grading is bounded", "statement": "Consecutive element sizes of the generated mesh differ by at most the aspect-ratio limit.", "quantifier": "all size distributions", "why_tests_cant": "violations only at the squashed tail", "anchors": ["src/core/applications/circuit_preprocessor.hpp:compute_averaged_centerline"]}
{"id": "C40", "title": "Boundary coordinates are at the reported distances", "statement": "The left and right boundary points computed from centerline, heading, pitch and roll are at exactly nl and nr from the centerline, on opposite sides of it and on a line through it.", "quantifier": "all angles and widths", "why_tests_cant": "continuum of angles", "anchors": ["src/core/applications/circuit_preprocessor.h:get_coordinates"]}
{"id": "C41", "title": "Reported boundary errors are consistent", "statement": "The L2 boundary error never exceeds the maximum error and both are zero iff every point matches.", "quantifier": "all error vectors", "why_tests_cant": "arbitrary many points", "anchors": ["src/core/applications/circuit_preprocessor.hpp:681-728"]}
{"id": "C42", "title": "A flat track can be saved after loading", "statement": "create_track_from_xml of a 2D track followed by saving it as xml does not read outside its vectors.", "quantifier": "all 2D track files", "why_tests_cant": "the out-of-bounds read is undefined behaviour a test may not see", "anchors": ["src/core/applications/circuit_preprocessor.hpp:64-258", "src/core/applications/circuit_preprocessor.hpp:762-1086"]}
{"id": "C43", "title": "The Frenet frame is orthonormal", "statement": "Tangent, normal and binormal of the road are unit vectors, mutually orthogonal and right-handed for all Euler angles.", "quantifier": "all yaw, pitch and roll angles", "why_tests_cant": "continuum of angles", "anchors": ["src/core/vehicles/road_curvilinear.hpp:update_track"]}
{"id": "C44", "title": "Curvilinear kinematics reproduce the body velocity", "statement": "The time derivative of the car's position implied by the curvilinear states (dt/ds, lateral displacement rate, ground vertical velocity) equals the body velocity expressed in the track frame, and the heading rate equals the yaw rate minus the rotation of the track.", "quantifier": "all smooth tracks, positions and velocities", "why_tests_cant": "differential identity over all smooth tracks", "anchors": ["src/core/vehicles/road_curvilinear.hpp:update", "src/core/vehicles/road_curvilinear.h:curvature"]}
{"id": "C45", "title": "Tracks made of arcs are smooth and arclength-parametrised", "statement": "For every list of straights and corners the position is continuous, the tangent has unit length everywhere and is the derivative of the position, and curvature has the declared sign and radius.", "quantifier": "all lists of segments and all arclengths", "why_tests_cant": "arbitrary segment lists, continuum of arclengths", "anchors": ["src/core/vehicles/track_by_arcs.hpp"]}
{"id": "C46", "title": "The interpolated heading of a closed track is continuous across the finish line", "statement": "On a closed track the heading angle interpolated in the last element moves monotonically towards the heading of the first point (modulo full turns).", "quantifier": "all closed circuits", "why_tests_cant": "only visible between the last mesh point and the finish line", "anchors": ["src/core/vehicles/track_by_polynomial.hpp:110-127"]}
{"id": "C47", "title": "Tyre forces stay inside the friction ellipse", "statement": "For every slip and load the combined tyre force satisfies (Fx/mux)^2+(Fy/muy)^2 <= Fz^2, where mux, muy are the load-dependent peak friction coefficients, and those coefficients are at least the minimum friction.", "quantifier": "all slips, loads and tyre parameters", "why_tests_cant": "continuum of inputs", "anchors": ["src/core/tire/tire_pacejka.hpp:Pacejka_simple_model"]}
{"id": "C48", "title": "Tyres dissipate energy", "statement": "The power of the tyre contact forces over the sliding velocity is never positive, and it is zero when there is no slip; forces oppose the slip.", "quantifier": "all slips, loads, forward speeds", "why_tests_cant": "continuum of inputs", "anchors": ["src/core/tire/tire.hpp", "src/core/tire/tire_pacejka.hpp"]}
{"id": "C49", "title": "Tyre forces have the left/right and traction/braking symmetry", "statement": "Reversing the lateral slip reverses the lateral force and keeps the longitudinal one, and vice versa; without slip there is no force.", "quantifier": "all slips, loads and parameters", "why_tests_cant": "continuum of inputs", "anchors": ["src/core/tire/tire_pacejka.hpp"]}
{"id": "C50", "title": "Differential power balance", "statement": "The powered axle's wheel powers sum to the engine (and boost) power minus a non-negative differential dissipation when not braking, and brakes only remove power.", "quantifier": "all wheel speeds, throttle, brake bias and differential stiffness", "why_tests_cant": "continuum of inputs", "anchors": ["src/core/chassis/axle_car_3dof.hpp:update", "src/core/actuators/engine.hpp", "src/core/actuators/brake.h"]}
{"id": "C51", "title": "Engine curve extrapolation", "statement": "The engine torque is continuous in engine speed at both ends of the power curve, never negative outside the curve for non-negative throttle, and zero above 15/14 of the maximum speed.", "quantifier": "all power curves, throttle values and speeds", "why_tests_cant": "continuum of inputs", "anchors": ["src/core/actuators/engine.hpp:operator()"]}
{"id": "C52", "title": "Chassis dynamics conserve energy", "statement": "The 3-dof chassis equations are the Newton-Euler equations: the rate of change of kinetic energy computed from the reported accelerations equals the power of the total force and torque; the gyroscopic terms do no work.", "quantifier": "all velocities, angular rates, masses, inertias, forces", "why_tests_cant": "continuum of inputs", "anchors": ["src/core/chassis/chassis_car_3dof.hpp:update"]}
{"id": "C53", "title": "Gravity is the weight expressed in road axes", "statement": "For all road angles the gravity force is the rotation into road axes of a vertical vector of magnitude m*g.", "quantifier": "all yaw, pitch, roll and heading angles", "why_tests_cant": "continuum of angles", "anchors": ["src/core/chassis/chassis.hpp:get_gravity_force"]}
{"id": "C54", "title": "Aerodynamic drag opposes the relative wind", "statement": "Drag is parallel to the air velocity relative to the car, in still air it never does positive work on the car, it scales with the square of the speed, and lift does not depend on the direction of travel.", "quantifier": "all velocities, wind vectors and orientations", "why_tests_cant": "continuum of inputs", "anchors": ["src/core/chassis/chassis.hpp:get_aerodynamic_force"]}
{"id": "C55", "title": "Roll balance equation matches its definition", "statement": "The roll balance residual vanishes exactly when the front axle takes the fraction D of the total lateral load transfer, as documented; the tyre loads passed to the tyres are always of the compressive sign.", "quantifier": "all loads and coefficients", "why_tests_cant": "continuum of inputs", "anchors": ["src/core/chassis/chassis_car_3dof.hpp:131-134", "src/core/chassis/chassis_car_3dof.hpp:203"]}
{"id": "C56", "title": "Suspension springs are in equilibrium", "statement": "In the 6-dof axle the tyre, chassis and anti-roll springs are in vertical equilibrium on both sides, and the tyre deflection seen by the tyre model equals the computed one.", "quantifier": "all displacements, roll angles, steering angles and positive stiffnesses", "why_tests_cant": "continuum of inputs", "anchors": ["src/core/chassis/axle_car_6dof.hpp:update"]}
{"id": "C57", "title": "Steady-state variables round-trip", "statement": "Mapping the solver variables to inputs and controls and back with get_x is the identity; the resulting state has the requested speed and the yaw rate has the requested lateral acceleration.", "quantifier": "all solver vectors, accelerations and speeds", "why_tests_cant": "continuum of inputs", "anchors": ["src/core/vehicles/limebeer2014f1.h:steady_state_equations", "src/core/vehicles/limebeer2014f1.h:get_x"]}
{"id": "C58", "title": "Every state equation is used exactly once", "statement": "The classification of the state equations into differential and algebraic ones is a partition of all the car's states except time, for flat and for elevated tracks.", "quantifier": "all car models and tracks", "why_tests_cant": "combinatorial property of index sets for every layout", "anchors": ["src/core/vehicles/dynamic_model_car.h:classify_equations", "src/core/vehicles/limebeer2014f1.h:classify_equations"]}
{"id": "C59", "title": "Solver retries only ever widen the search box", "statement": "In the maximum acceleration searches every retry keeps lower <= upper, contains the previous box, terminates after the documented number of attempts, and never reports a result the solver did not mark as a success.", "quantifier": "all solver behaviours (treated as an oracle)", "why_tests_cant": "every possible sequence of solver outcomes", "anchors": ["src/core/applications/steady_state.hpp"]}
{"id": "C60", "title": "gg_diagram fills all points", "statement": "gg_diagram(n) writes n points with lateral acceleration increasing from zero to the maximum, for every n >= 1, and rejects n = 0.", "quantifier": "all n", "why_tests_cant": "all sizes including 0 and 1", "anchors": ["src/core/applications/steady_state.hpp:gg_diagram"]}
{"id": "C61", "title": "Changing to an elevated track is rejected cleanly by the kart", "statement": "When vehicle_change_track rejects a track for the kart, the kart keeps its previous track.", "quantifier": "all tracks and karts", "why_tests_cant": "error path state", "anchors": ["src/core/vehicles/lot2016kart.h:change_track"]}
{"id": "C62", "title": "optimal_laptime options are read from their own nodes", "statement": "The value used for each option is the one the user wrote in the node of that name.", "quantifier": "all option documents", "why_tests_cant": "every combination of present/absent options", "anchors": ["src/main/c/fastestlapc.cpp:Optimal_laptime_configuration (1235)"]}
{"id": "C63", "title": "vehicle_get_output_variable_names never writes past n_char bytes", "statement": "vehicle_get_output_variable_names(names,n_outputs,n_char,vehicle) with n_outputs arrays of n_char bytes either throws or writes each output name and its terminator inside its array.", "quantifier": "all vehicles, array sizes and output names", "why_tests_cant": "a test uses one generous buffer size; the claim is about every size", "anchors": ["src/main/c/fastestlapc.cpp:vehicle_get_output_variable_names"]}
{"id": "C64", "title": "Declared parameters stay well formed", "statement": "After any sequence of declarations of optimisation parameters (accepted or rejected), the declared parameters have pairwise distinct paths, the i-th alias names the i-th value, every query of any declared parameter at any arclength stays inside its tables, and declaring a path a second time is rejected and leaves everything as it was.", "quantifier": "every finite sequence of declarations, every arclength", "why_tests_cant": "ranges over all histories and all arclengths", "anchors": ["src/core/foundation/model_parameter.h:Model_parameter", "src/core/vehicles/dynamic_model.h: add_parameter"]}
{"id": "C65", "title": "set_parameter overrides a declared parameter everywhere", "statement": "After vehicle_set_parameter(path, v) succeeds, every later evaluation of any representation of the car, at any arclength, works with v for that path, even if that path was declared before as a position-dependent parameter.", "quantifier": "all histories of set/declare/evaluate calls, all arclengths, all four representations", "why_tests_cant": "all call histories and a continuum of arclengths", "anchors": ["src/core/vehicles/dynamic_model_car.hpp:Dynamic_model_car::set_parameter", "src/core/vehicles/dynamic_model_car.hpp:Dynamic_model_car::operator()"]}
{"id": "C66", "title": "Declaring a parameter with an unknown path is rejected", "statement": "vehicle_declare_new_*_parameter with a path the vehicle does not have fails and leaves the vehicle usable.", "quantifier": "all vehicles, all histories, all unknown paths", "why_tests_cant": "all unknown strings and histories", "anchors": ["src/core/vehicles/dynamic_model.h:add_parameter", "src/main/c/fastestlapc.cpp:vehicle_declare_new_constant_parameter"]}
{"id": "C67", "title": "Warm start multipliers must have the sizes of the problem", "statement": "A warm start is accepted exactly when the vectors of bound multipliers have one entry per variable and the vector of constraint multipliers one entry per constraint; otherwise an exception is raised before anything is computed.", "quantifier": "all sizes of the three vectors and of the problem", "why_tests_cant": "every combination of sizes", "anchors": ["src/core/applications/optimal_laptime.hpp:501-523", "src/core/applications/optimal_laptime.hpp:985-1008"]}
{"id": "C68", "title": "Integral constraints attach to the named quantity", "statement": "The limits given for a named integral quantity restrict that quantity and no other; the last mention wins, unmentioned quantities stay unrestricted, and an unknown name raises an exception.", "quantifier": "all lists of names and limits", "why_tests_cant": "all orders, repetitions and unknown names", "anchors": ["src/core/applications/optimal_laptime.hpp:check_inputs (129-161)"]}
{"id": "C69", "title": "Breakpoints of the mesh size apply from where they are placed", "statement": "In a mesh refined by breakpoints, the element size requested at a point of the boundary is that of the last breakpoint the boundary has passed before that point.", "quantifier": "all boundaries, lists of breakpoints ordered along the boundary, and points", "why_tests_cant": "only the relative position inside one boundary segment decides", "anchors": ["src/core/applications/circuit_preprocessor.hpp:compute_ds_for_coordinates", "src/core/applications/circuit_preprocessor.hpp:who_is_ahead"]}
{"id": "C72", "title": "The track has the values of the circuit at the mesh points", "statement": "At every mesh point the track built from a circuit returns the position, the angles, the rates of the angles and the widths of the circuit (plus the width of the used kerb there), and a closed track ends at its first point.", "quantifier": "all circuits with increasing arclengths, open or closed, with or without elevation, with any kerbs", "why_tests_cant": "any number of points and kerbs; ties at kerb ends", "anchors": ["src/core/vehicles/track_by_polynomial.hpp:78-153", "src/core/vehicles/track_by_polynomial.h:Frenet_frame"]}
{"id": "C73", "title": "Saving and loading a circuit gives the same circuit", "statement": "A circuit saved to XML and loaded again has the same geometry, and the track built from it is the same.", "quantifier": "all circuits with one entry per point in their vectors", "why_tests_cant": "all numbers, including those that six decimals cannot hold", "anchors": ["src/core/applications/circuit_preprocessor.hpp:64-258", "src/core/applications/circuit_preprocessor.hpp:762-1086", "src/core/vehicles/kerb.h:xml"]}
{"id": "C74", "title": "A closed track made of arcs ends where it starts", "statement": "A track of straights and corners built as closed has its last point on its first point.", "quantifier": "all lists of segments", "why_tests_cant": "arbitrary segment lists", "anchors": ["src/core/vehicles/track_by_arcs.hpp:Track_by_arcs (65-90)"]}
{"id": "C75", "title": "Unknown segments of a track made of arcs are rejected", "statement": "A track file with a node that is neither a straight nor a corner is rejected.", "quantifier": "all lists of nodes", "why_tests_cant": "arbitrary node lists and positions", "anchors": ["src/core/vehicles/track_by_arcs.hpp:Track_by_arcs (23-90)"]}
{"id": "C76", "title": "The declared slip of the friction peak is where the peak is", "statement": "With the simple tyre model the longitudinal force at a given load is largest at the slip given as that of the friction peak for that load.", "quantifier": "all loads, slips and tyre parameters", "why_tests_cant": "continuum of inputs and parameters", "anchors": ["src/core/tire/tire_pacejka.hpp:Pacejka_simple_model::initialise", "src/core/tire/tire_pacejka.h:Pacejka_simple_model"]}
{"id": "C71", "title": "Moments are taken about the centre of mass", "statement": "In the 3-dof chassis the total torque is the sum of the moments about the centre of mass of the forces of both axles and of the aerodynamic force at its application point.", "quantifier": "all positions, forces and torques", "why_tests_cant": "continuum of inputs", "anchors": ["src/core/chassis/chassis_car_3dof.hpp:154-164"]}
{"id": "C77", "title": "Reported accelerations are those of the motion", "statement": "On a flat road, the reported longitudinal acceleration is the time derivative of the speed and the reported lateral acceleration is the speed times the rate of turn of the velocity.", "quantifier": "all motions that follow the equations of motion", "why_tests_cant": "statement about derivatives along all trajectories", "anchors": ["src/core/chassis/chassis.h:get_longitudinal_acceleration", "src/core/chassis/chassis.h:get_lateral_acceleration"]}
{"id": "C78", "title": "Understeer indicator is mirror symmetric", "statement": "A car and its mirror image report the same understeer indicator; it is positive exactly when both front wheels are steered less than the ideal angles, negative when both are steered more, and its size is the smaller deviation.", "quantifier": "all speeds, yaw rates, steering angles and geometries", "why_tests_cant": "continuum of inputs", "anchors": ["src/core/chassis/chassis.hpp:291-337"]}
{"id": "C79", "title": "Power through a tyre is its dissipation", "statement": "The power that the contact force gives to the car plus the power that the reported torque gives to the wheel equals the reported dissipation.", "quantifier": "all tyre states", "why_tests_cant": "continuum of inputs", "anchors": ["src/core/tire/tire.hpp", "src/core/tire/tire.h"]}
{"id": "C80", "title": "Derivatives of the engine torque", "statement": "The derivative of the engine torque that automatic differentiation propagates is the derivative of the torque.", "quantifier": "all engines, throttle and speed signals", "why_tests_cant": "continuum of inputs; the optimizer converges slowly or to a wrong point instead of failing", "anchors": ["src/core/actuators/engine.hpp:operator()"]}
{"id": "C70", "title": "Default values lie within their bounds", "statement": "Every default input and control the car publishes lies between the lower and upper bound it publishes for it, and every input and control has one.", "quantifier": "all inputs and controls of both cars, all brake bias settings", "why_tests_cant": "finite but spread over seven files; parametric in the car settings", "anchors": ["src/core/chassis/chassis_car_3dof.hpp:set_state_and_control_upper_lower_and_default_values", "src/core/chassis/chassis_car_6dof.hpp:set_state_and_control_upper_lower_and_default_values"]}
{"id": "C81", "title": "Control rate bounds exist for every control", "statement": "In the derivative formulation every control optimised on the full mesh has bounds for its rate; setting up the problem reads no bound that does not exist.", "quantifier": "all meshes, guesses and control configurations", "why_tests_cant": "every combination of control types; reading out of range is not observable in general", "anchors": ["src/core/vehicles/limebeer2014f1.h:optimal_laptime_derivative_control_bounds", "src/core/applications/optimal_laptime.hpp"]}
{"id": "C82", "title": "The states of the kart are its inputs", "statement": "Evaluating the kart at any inputs returns them as states, and transform_states_to_inputs returns them again, so that ode(states) is the derivative of the same car.", "quantifier": "all input vectors", "why_tests_cant": "continuum of inputs", "anchors": ["src/core/vehicles/dynamic_model_car.hpp:transform_states_to_inputs", "src/core/chassis/chassis_car_6dof.hpp"]}
{"id": "C83", "title": "The track limits keep the wheels on the track", "statement": "If the track limit constraints of the optimal laptime hold, all wheels are between the track limits.", "quantifier": "all lateral displacements, headings and car geometries", "why_tests_cant": "continuum of states", "anchors": ["src/core/vehicles/limebeer2014f1.h:optimal_laptime_extra_constraints"]}
{"id": "C84", "title": "Steady-state constraints mean the reported accelerations", "statement": "For any forces the longitudinal and lateral accelerations the car reports equal the ones of the steady-state request up to exactly the residuals of the two acceleration constraints.", "quantifier": "all forces, speeds, slip angles and requests", "why_tests_cant": "continuum of states", "anchors": ["src/core/vehicles/limebeer2014f1.h:steady_state_equations", "src/core/vehicles/lot2016kart.h:steady_state_equations", "src/core/chassis/chassis.hpp:get_longitudinal_acceleration"]}
{"id": "C85", "title": "The understeer indicator is symmetric and its sign is meaningful", "statement": "The indicator of a manoeuvre and of its mirror image are equal; it is positive (negative) exactly when both wheels are steered less (more) than the ideal, and its size is the smaller difference.", "quantifier": "all curvatures, geometries and steering angles", "why_tests_cant": "continuum of states", "anchors": ["src/core/chassis/chassis.hpp:get_understeer_oversteer_indicator"]}
{"id": "C86", "title": "steady_state reaches the accelerations asked for", "statement": "A state that solves the equations set up by solve(v,ax,ay) has longitudinal and lateral accelerations ax and ay in m/s2, for both cars and both numeric types.", "quantifier": "all speeds and accelerations, both cars, double and CppAD", "why_tests_cant": "continuum of requests", "anchors": ["src/core/applications/steady_state.hpp:solve"]}
{"id": "C87", "title": "The roll balance holds at every mesh point", "statement": "In a solution of the optimal laptime problem the roll balance equation of the Formula 1 car holds at every point, on flat and on elevated tracks.", "quantifier": "all meshes and solutions", "why_tests_cant": "every mesh size", "anchors": ["src/core/vehicles/limebeer2014f1.h:classify_equations", "src/core/chassis/chassis_car_3dof.hpp:get_state_and_state_derivative"]}
{"id": "C88", "title": "The copies of a vehicle never drift apart", "statement": "Each vehicle is kept in four copies (cartesian/curvilinear, plain/AD). After any history of API calls the four have the same parameters and the two curvilinear ones are on the same track.", "quantifier": "all histories of API calls, including failing ones", "why_tests_cant": "every interleaving of calls and errors", "anchors": ["src/core/vehicles/limebeer2014f1.h:limebeer2014f1_all", "src/core/vehicles/lot2016kart.h:lot2016kart_all", "src/main/c/fastestlapc.cpp:vehicle_change_track"]}
{"id": "C89", "title": "A vehicle keeps the track it was put on", "statement": "After vehicle_change_track returns normally the vehicle is on that track, as it was at that moment, until the vehicle is put on another track or replaced: deleting, renaming or correcting the track, changing parameters and working with other vehicles make no difference.", "quantifier": "all histories after the call", "why_tests_cant": "unbounded histories, aliasing between the tables", "anchors": ["src/main/c/fastestlapc.cpp:vehicle_change_track", "src/core/vehicles/road_curvilinear.h:change_track"]}
{"id": "C90", "title": "The acceleration searches find the true extreme", "statement": "With an optimiser that solves each bounded problem exactly, the search for the maximum (minimum) longitudinal acceleration at a given lateral one reports the true maximum (minimum) of the car.", "quantifier": "all cars (ranges of feasible accelerations), all lateral accelerations, all exact optimisers", "why_tests_cant": "unit tests try two cars at a few speeds; the artificial bounds only matter for other cars", "anchors": ["src/core/applications/steady_state.hpp:solve_max_lon_acc"]}
{"id": "C91", "title": "Open lap-time simulations start from the given initial condition", "statement": "When optimal_laptime is called with closed_simulation false, the problem that is optimised starts from the states and the full-mesh controls in the tables named in initial_condition; everything after the first point is the steady state. An open simulation without an initial condition is refused.", "quantifier": "all option documents, tables, vehicles and meshes", "why_tests_cant": "tables of every size must be handled and every control type combined with every initial state", "anchors": ["src/main/c/fastestlapc.cpp:Optimal_laptime_configuration (1237-1257)", "src/main/c/fastestlapc.cpp:compute_optimal_laptime (1442-1530)"]}
{"id": "C92", "title": "Saved vectors describe the optimised lap at the points of the mesh", "statement": "Each vector that optimal_laptime stores has one entry per mesh point and its entry i is the value of the named variable at point i of the optimised trajectory.", "quantifier": "all solutions, meshes, vehicles and variable names", "why_tests_cant": "cold and warm starts with meshes of every size", "anchors": ["src/main/c/fastestlapc.cpp:compute_optimal_laptime (1580-1650)"]}
{"id": "C93", "title": "Saved derivatives are the derivatives of the solution", "statement": "With compute_sensitivity, the vector stored as derivative of a variable with respect to a parameter contains the derivative of that variable at every mesh point.", "quantifier": "all solutions, variables and parameters", "why_tests_cant": "every variable and every parameter", "anchors": ["src/main/c/fastestlapc.cpp:compute_optimal_laptime (1650-1715)"]}
{"id": "C94", "title": "circuit_preprocessor options are read from their own nodes, and accepted options are processed", "statement": "Each option of circuit_preprocessor is the one written in the node of that name (default when absent), mandatory options are required, and options that are accepted lead to a processed circuit.", "quantifier": "all option documents", "why_tests_cant": "every combination of present and absent options", "anchors": ["src/main/c/fastestlapc.cpp:Circuit_preprocessor_configuration (1787-1930)", "src/main/c/fastestlapc.cpp:circuit_preprocessor (1931)"]}
{"id": "C95", "title": "The alias text of a varying parameter is split into the names the user listed", "statement": "vehicle_declare_new_variable_parameter with alias text \"key1;key2;key3\" declares exactly the aliases key1, key2, key3, with white space around them removed.", "quantifier": "all alias texts", "why_tests_cant": "strings of every length and content", "anchors": ["src/main/c/fastestlapc.cpp:vehicle_declare_new_variable_parameter (958-969)"]}
{"id": "C96", "title": "Trimming removes exactly the white space at the ends", "statement": "The prefix of the output variables is the text of its node without leading and trailing white space, nothing else is changed, and trimming is idempotent.", "quantifier": "all texts", "why_tests_cant": "strings of every length and content", "anchors": ["src/main/c/fastestlapc.cpp:trim (46-56)", "src/main/c/fastestlapc.cpp:Optimal_laptime_configuration (1208)"]}
{"id": "C97", "title": "The preprocessed circuit is a road", "statement": "Whenever the optimisation of circuit_preprocessor ends with its constraints met up to a tolerance, the exported centreline, angles, rates and half-widths form a road up to that tolerance: consecutive points follow the tangent of the road frame, angles and half-widths follow their rates, a closed circuit closes after one turn in its direction, an open one starts and finishes on the given lines; and no variable outside of the problem vectors is read.", "quantifier": "all numbers of points, boundaries, meshes, options, vectors returned by the solver and tolerances", "why_tests_cant": "the number of points is unbounded and the solver may return any vector", "anchors": ["src/core/applications/circuit_preprocessor.h:FG", "src/core/applications/circuit_preprocessor.hpp:Circuit_preprocessor::compute (NLP and export)"]}
{"id": "C98", "title": "The preprocessor minimises the documented cost", "statement": "The objective of the circuit preprocessor is the integral along the circuit of the weighted squares of the distances to the boundaries and of the curvature and width rates, with the weights of the options, on every element of the circuit.", "quantifier": "all circuits, options and vectors", "why_tests_cant": "the sum ranges over every circuit size and solver iterate", "anchors": ["src/core/applications/circuit_preprocessor.h:FG::operator()"]}
{"id": "C99", "title": "Bounds of the preprocessor", "statement": "The starting vector of the optimisation is the initial estimate, and every circuit whose variables are inside of the bounds has increasing arclength, a length near the estimate, half-widths between one metre and the width of the track, points near the estimate and bounded rates; the bounds can be met on every track.", "quantifier": "all estimates, options and vectors", "why_tests_cant": "all vectors inside of the bounds, all sizes", "anchors": ["src/core/applications/circuit_preprocessor.hpp:Circuit_preprocessor::compute (bounds)"]}
{"id": "C100", "title": "GPS coordinates survive the transformation to the plane", "statement": "Boundary coordinates are transformed to metres so that they can be recovered, the first right point is the origin, x grows east, y south and z down; places that are the same are mapped to the same point, and mesh breakpoints to the nearest vertex.", "quantifier": "all coordinates", "why_tests_cant": "real coordinates everywhere on Earth", "anchors": ["src/core/applications/circuit_preprocessor.hpp:transform_coordinates", "src/core/applications/circuit_preprocessor.h:Coordinates"]}
{"id": "C101", "title": "Trimming an open circuit", "statement": "An open circuit is trimmed to the start point, the measured points strictly between start and finish, and the finish point, on both sides, without changing them.", "quantifier": "all boundaries, starts and finishes", "why_tests_cant": "boundaries of any length and every position of start and finish", "anchors": ["src/core/applications/circuit_preprocessor.hpp:trim_coordinates (open circuits)"]}
{"id": "C102", "title": "Heading and direction of the initial estimate", "statement": "The heading of the initial estimate is continuous (no jump above half a turn) and equal to the angle of the centreline up to whole turns, and the direction used in the closing constraint is the sign of its total turning.", "quantifier": "all centrelines", "why_tests_cant": "sequences of every length", "anchors": ["src/core/applications/circuit_preprocessor.hpp:yaw correction and direction"]}
{"id": "C103", "title": "The minimum curvature path stays on the track", "statement": "Every path inside of the bounds of the minimum curvature problem lies between the left and right limits of the track, with a limited angle to the road and elements of 0.05 to 5 times the length of those of the centreline; the search starts from the centreline; no variable outside of the vectors is read; the bounds can be met for every accepted arclength vector.", "quantifier": "all circuits, point counts and vectors", "why_tests_cant": "all sizes, all vectors inside of the bounds", "anchors": ["src/core/applications/minimum_curvature_path.hpp:compute (polynomial version)", "src/core/applications/minimum_curvature_path.h:input_names"]}
{"id": "C104", "title": "The minimum curvature path follows its own heading", "statement": "Whenever the constraints are met up to a tolerance, consecutive points of the path follow the tangent given by its angles in plan and in height, the angles follow their rates, and a closed path closes after one turn.", "quantifier": "all circuits, solver results and tolerances", "why_tests_cant": "all sizes and solver results", "anchors": ["src/core/applications/minimum_curvature_path.hpp:Fitness_fcn_by_polynomial::operator()"]}
{"id": "C105", "title": "The minimum curvature problem minimises the curvature", "statement": "The objective is the integral of the squared curvature of the path along the whole circuit.", "quantifier": "all circuits and vectors", "why_tests_cant": "all sizes and solver iterates", "anchors": ["src/core/applications/minimum_curvature_path.hpp:Fitness_fcn_by_polynomial::operator()"]}
{"id": "C106", "title": "Input, file and arcs version of the minimum curvature path", "statement": "Arclength vectors that leave the track are rejected and others used as they are; each list of the written file holds the values of the path; on a track by arcs the objective is the periodic sum of the squared curvature with central differences.", "quantifier": "all arclength vectors, lists and numbers of points", "why_tests_cant": "vectors of every length", "anchors": ["src/core/applications/minimum_curvature_path.hpp:checks of the arclength", "src/core/applications/minimum_curvature_path.hpp:xml", "src/core/applications/minimum_curvature_path.hpp:Fitness_fcn::operator()"]}
{"id": "C107", "title": "A lap survives being saved and reloaded", "statement": "A computed lap written to a file and read again has the same formulation, mesh, lap time, states, controls, trajectory and multipliers; it can be used as a warm start exactly when the original could, and it can be saved again.", "quantifier": "all laps, numbers of points, kinds of control, formulations and models", "why_tests_cant": "laps of every size and every combination of control kinds", "anchors": ["src/core/applications/detail/optimal_laptime_data.h:xml", "src/core/applications/detail/optimal_laptime_data.h:construct_from_xml", "src/core/applications/optimal_laptime.hpp:Optimal_laptime(Xml_document&)"]}
{"id": "C108", "title": "Python: the names returned by optimal_laptime download the lap", "statement": "The prefix and the names returned by optimal_laptime of the Python module, given to download_variables, give every variable that the library saved for that lap, with its values; whenever the library accepts the options the Python call returns.", "quantifier": "all options, vehicles, tracks, earlier variables and results of the solver", "why_tests_cant": "options, names and stores in every combination; the lists are built twice, in two languages", "anchors": ["src/main/python/fastest_lap.py:optimal_laptime", "src/main/python/fastest_lap.py:download_variables", "src/main/python/fastest_lap.py:vehicle_type_get_names", "src/main/c/fastestlapc.cpp:compute_optimal_laptime"]}
{"id": "C109", "title": "Python: what is stored is downloaded unchanged", "statement": "A number or list stored from Python under a free name is downloaded unchanged, with the matching variable type, after any other calls that do not concern that name; storing fails exactly when the name is taken.", "quantifier": "all lists shorter than 2^31, names, stores and later histories of calls", "why_tests_cant": "all lists and all later histories", "anchors": ["src/main/python/fastest_lap.py:create_vector", "src/main/python/fastest_lap.py:create_scalar", "src/main/python/fastest_lap.py:download_vector", "src/main/python/fastest_lap.py:download_scalar", "src/main/python/fastest_lap.py:download_variables", "src/main/python/fastest_lap.py:variable_type"]}
{"id": "C110", "title": "Kart: the equations of motion are Newton and Euler's laws for small angles", "statement": "On a flat road the accelerations the kart computes are those of a rigid body: the force is mass times acceleration of the centre of mass, and the total torque is, to first order in heave, pitch and roll, the moment that the motion of a rigid body with that inertia needs about the point of the road below its centre of mass; the angular accelerations are determined.", "quantifier": "all motions with two derivatives, chassis parameters, forces and torques", "why_tests_cant": "a differential identity for all smooth motions; tests compare numbers with numbers of an earlier run", "anchors": ["src/core/chassis/chassis_car_6dof.hpp:update", "src/core/chassis/chassis_car_6dof.hpp:Newton_lhs", "src/core/chassis/chassis_car_6dof.hpp:Euler_lhs", "src/core/chassis/chassis_car_6dof.hpp:Euler_m"]}
{"id": "C111", "title": "Kart: wheels where a rigid chassis puts them and moments of all forces", "statement": "The positions and vertical velocities of the wheels that the kart uses are, to first order in heave, pitch and roll, those of points of a rigid body, and the total force and torque of the equations are the sum and the moment, about the point of the road, of the forces of the four wheels at those positions, of the air and of the weight.", "quantifier": "all small motions, axle positions, wheel orientations, forces and torques", "why_tests_cant": "all smooth motions and all forces", "anchors": ["src/core/chassis/chassis_car_6dof.h:get_front_axle_position", "src/core/chassis/chassis_car_6dof.h:get_front_axle_velocity", "src/core/chassis/chassis_car_6dof.h:get_com_position", "src/core/chassis/chassis_car_6dof.hpp:update", "src/core/chassis/axle_car_6dof.h:get_tire_position", "src/core/chassis/axle_car_6dof.hpp:update"]}
{"id": "C112", "title": "The derivatives of the lap time are the derivatives of the lap time", "statement": "With compute_sensitivity, the derivative with respect to a parameter reported for the time at every point and for the lap time is the derivative of the reported time, when the derivatives of the inputs are those of the solution.", "quantifier": "all meshes, roads, solutions depending smoothly on the parameter, open and closed laps, any sigma", "why_tests_cant": "a derivative for all smooth families of solutions; a finite difference test checks one lap to a few digits", "anchors": ["src/core/applications/optimal_laptime.hpp:compute_direct", "src/core/applications/optimal_laptime.hpp:compute_derivative", "src/core/vehicles/road_curvilinear.hpp:update"]}
{"id": "C113", "title": "The vehicle returns derivatives with respect to arclength", "statement": "Evaluated on a track, the vehicle returns for every state its derivative with respect to arclength along any motion of the car on the road, and tells the chassis how fast the road turns under it; on the plane it returns time derivatives.", "quantifier": "all roads, positions, velocities, motions and chassis", "why_tests_cant": "all smooth motions", "anchors": ["src/core/vehicles/dynamic_model_car.hpp:operator()", "src/core/vehicles/road_curvilinear.hpp:update", "src/core/vehicles/road_curvilinear.hpp:get_state_and_state_derivative", "src/core/vehicles/road_cartesian.hpp:update"]}
{"id": "C114", "title": "equations() describes the vehicle at the position asked for", "statement": "The values, Jacobians and Hessians returned by equations(inputs, controls, s) are the values and the first and second derivatives of the states and their derivatives of the vehicle evaluated at arclength s, each in its place.", "quantifier": "all vehicles, inputs, controls and positions", "why_tests_cant": "all positions on all tracks and all entries of the tensors; the tests only ask at 0", "anchors": ["src/core/vehicles/dynamic_model_car.hpp:equations"]}
{"id": "C115", "title": "Asking a vehicle for an output does not change it", "statement": "Evaluating a vehicle, for an output or within any computation, leaves no trace: later evaluations and saved files are as if it had not happened.", "quantifier": "all vehicles, histories of changes and evaluations, copies and positions", "why_tests_cant": "all interleavings of changes and evaluations", "anchors": ["src/core/vehicles/dynamic_model_car.hpp:operator()", "src/main/c/fastestlapc.cpp:vehicle_get_property_generic", "src/main/c/fastestlapc.cpp:vehicle_save_as_xml"]}
{"id": "C116", "title": "Copies of vehicles are independent", "statement": "A vehicle obtained by copy or assignment has the poses of its source; afterwards nothing done to any other vehicle, including moving or destroying the source, changes a pose of it, and no computation with it reads a destroyed object.", "quantifier": "all programs that create, copy, assign, move and destroy vehicles", "why_tests_cant": "all histories and all lifetimes; dangling pointers may go unnoticed in a run", "anchors": ["src/core/chassis/chassis.hpp:Chassis", "src/core/chassis/chassis.hpp:operator=", "src/core/chassis/axle.hpp:Axle", "src/core/chassis/axle.hpp:operator="]}
{"id": "C117", "title": "Copies of the one-axle model are independent", "statement": "A copy of the model of one powered axle has the poses of its source and keeps them when the source is destroyed.", "quantifier": "all programs that create, copy, assign, move and destroy models of one axle", "why_tests_cant": "all lifetimes; a dangling pointer may go unnoticed in a run", "anchors": ["src/core/vehicles/dynamic_model_powered_axle.hpp:Dynamic_model_powered_axle", "src/core/vehicles/dynamic_model_powered_axle.h", "src/core/chassis/axle.hpp:Axle"]}
{"id": "C118", "title": "Corrections of the track limits", "statement": "The limits of a track are its widths plus, on each side, the last correction accepted for that side, whatever else happens in between; a rejected correction changes nothing; downloads of the track do not show the corrections; a vehicle put on the track uses the limits in force at that moment, also after later corrections.", "quantifier": "all histories of calls, tracks, sides and correction data", "why_tests_cant": "all interleavings of corrections with other calls", "anchors": ["src/main/c/fastestlapc.cpp:track_set_track_limit_correction", "src/main/c/fastestlapc.cpp:vehicle_change_track", "src/core/vehicles/track_by_polynomial.h:set_left_track_limit_correction", "src/core/vehicles/track_by_polynomial.h:set_right_track_limit_correction", "src/core/vehicles/track_by_polynomial.h:get_left_track_limit", "src/core/vehicles/track_by_polynomial.h:get_right_track_limit"]}
{"id": "C119", "title": "The returned lap is the solution, with a derivative for every declared parameter", "statement": "The lap returned by the optimal lap time simulation is the point found by the solver, with the controls optimised in the way asked for; a failure of the solver is thrown when asked for and recorded otherwise; and when sensitivities are requested, exactly one derivative of the lap is returned for each parameter declared on the vehicle, in either formulation of the controls.", "quantifier": "all problems, solver results and lists of declared parameters", "why_tests_cant": "all sizes of the problem, kinds of controls and numbers of parameters", "anchors": ["src/core/applications/optimal_laptime.hpp:export_solution", "src/core/applications/optimal_laptime.hpp:compute_direct", "src/core/applications/optimal_laptime.hpp:compute_derivative"]}
{"id": "C120", "title": "Every name of a vehicle stands for one quantity", "statement": "Each output of a vehicle is returned under its own name, for every evaluation, whichever constructor made the vehicle and whatever the order of the map; the published names are exactly those, each once, and their number is the one reported for the type; any other name is an error. Each input and control is the quantity that its published name says. No output shares a name with the key, an input, a control, the lap time or an integral quantity, so what a run saves under a name is that quantity; and all the names fit in the buffers of the Python interface.", "quantifier": "all evaluations of both vehicles, all constructors, all orders of iteration of the maps, all names asked for", "why_tests_cant": "the tests read a few outputs of one car; the maps are merged with inserts that keep the first of two equal names, and iterated in an unspecified order", "anchors": ["src/main/c/fastestlapc.cpp:vehicle_get_output", "src/main/c/fastestlapc.cpp:vehicle_type_get_names", "src/main/c/fastestlapc.cpp:vehicle_type_get_sizes", "src/core/tire/tire.h:get_outputs_map_self", "src/core/chassis/chassis.h:get_outputs_map", "src/core/vehicles/dynamic_model_car.hpp:get_state_and_control_names"]}
{"id": "C121", "title": "A car whose parameters were changed is a car built with the new values", "statement": "Whatever happened to an f1 - parameters set, parameters declared, evaluations, calls that threw - its axles and wheels are where its present parameters put them (half a track to each side of the centre of the axle), and the constants of its tyre models (peak slip angles in radians, shape factors) are those of its present parameters: always for a car read from a file, and as soon as the car reports itself ready for one created empty. Two cars with the same values of the parameters have the same computed members, however they came to have them.", "quantifier": "all files, all initial contents of the members, all histories of set_parameter, declarations and evaluations, accepted or refused", "why_tests_cant": "the computed members are refreshed by some branches of set_parameter only; a forgotten refresh shows only for a particular parameter after a particular history", "anchors": ["src/core/chassis/axle_car_3dof.hpp:set_parameter", "src/core/chassis/chassis_car_3dof.hpp:set_parameter", "src/core/tire/tire_pacejka.hpp:set_parameter", "src/core/tire/tire_pacejka.hpp:initialise", "src/core/vehicles/dynamic_model_car.hpp:set_parameter"]}
{"id": "C122", "title": "The result of an evaluation does not depend on earlier evaluations", "statement": "Evaluating a vehicle at given states, controls and arclength returns the same states, time derivatives, outputs, constraints and integral quantities whatever was evaluated before, and whatever the members of the car held: they depend on the arguments, on the present values of the parameters (of their schedules when they are declared), on the track and on what was fixed when the car was built. An evaluation changes none of these, except that declared parameters take the value of their schedule.", "quantifier": "f1 and kart, on a track and on a plane, all types of tyres, all lists of declared parameters, all histories of evaluations and set_parameter calls, all contents of the members, and any formulas on the right hand sides", "why_tests_cant": "a member that is used before it is refreshed gives the right result in every test that evaluates a fresh car, or evaluates twice at the same point; only other orders of calls show it", "anchors": ["src/core/vehicles/dynamic_model_car.hpp:operator()", "src/core/chassis/chassis_car_3dof.hpp:update", "src/core/chassis/chassis_car_6dof.hpp:update", "src/core/chassis/axle_car_3dof.hpp:update", "src/core/chassis/axle_car_6dof.hpp:update", "src/core/tire/tire.hpp:update_from_kappa", "src/core/vehicles/road_curvilinear.hpp:update"]}
{"id": "C123", "title": "What the solver evaluates depends on its vector and the parameters only", "statement": "The object handed to the solver and to the sensitivity analysis keeps inputs, controls, states, derivatives, integrands and integral quantities between its evaluations. The objective, the constraints, the exported lap and the exported integral quantities it gives for a vector are nevertheless a function of that vector and of the parameters in force: those of an evaluation that starts from nothing, whatever was evaluated or exported before, whatever the car remembers and whatever the output vector held.", "quantifier": "direct and derivative formulations, closed and open laps, any car whose results depend on its arguments and parameters (C122), all guesses that pass the checks, all histories of evaluations, evaluations with new parameters and exports, all vectors of the declared sizes", "why_tests_cant": "the solver evaluates in an order no test controls; a member that is not reset shows as a wrong gradient or as a lap that depends on the iteration count", "anchors": ["src/core/applications/optimal_laptime.h:FG", "src/core/applications/optimal_laptime.h:FG_direct", "src/core/applications/optimal_laptime.h:FG_derivative", "src/core/applications/optimal_laptime.hpp:FG_direct::compute", "src/core/applications/optimal_laptime.hpp:FG_derivative::compute", "src/core/applications/optimal_laptime.hpp:export_solution"]}
{"id": "C124", "title": "The extra constraints of an optimal lap say what they are for", "statement": "A point of an optimal lap of the f1 satisfies the extra constraints exactly when the lateral slip of each tyre is below the limit of that tyre and the two points half the front track to each side of the reference point are between the limits of the track. The limit never excludes the slip of maximum force of a tyre loaded with up to the weight of the car. The kart satisfies its own exactly when the two longitudinal slips of the rear tyres and the four lateral slips are at most 0.11 in size.", "quantifier": "all tyres, masses, gravities, track limits, positions, headings, slips, loads, road frames and axles", "why_tests_cant": "an optimal lap sits on its constraints; a limit that is slightly wrong gives a plausible lap that leaves the track or gives away grip, and no lap is known to compare with", "anchors": ["src/core/vehicles/limebeer2014f1.h:optimal_laptime_extra_constraints_bounds", "src/core/vehicles/limebeer2014f1.h:optimal_laptime_extra_constraints", "src/core/vehicles/lot2016kart.h:optimal_laptime_extra_constraints_bounds", "src/core/tire/tire_pacejka.h:maximum_lambda"]}
{"id": "C125", "title": "The circuit preprocessor starts from a road laid on the measured points", "statement": "The road from which the preprocessor starts goes through the points of the averaged centreline. At every point its frame is orthonormal, its tangent points to the next point (on a closed track from the last to the first, on an open one the last direction is repeated), its plane contains the right limit and its normal points to that side. The heading never jumps by more than half a turn, and the limits are the measured ones exactly where they are seen at a right angle. First and second derivatives of heading, pitch, roll and widths are the slopes between consecutive points; over a closed lap the slopes of the heading add up to one turn, the others to nothing. On a flat track the same holds for heading and widths, and pitch and roll are null.", "quantifier": "all tracks of two points or more whose consecutive points differ, open and closed, flat and with elevation, all increasing arclengths, any conversion to Euler angles that inverts the road frame", "why_tests_cant": "a wrong tangent, a swapped normal or a wrong closing slope only makes the solver slower or lands it in another local minimum", "anchors": ["src/core/applications/circuit_preprocessor.hpp:Circuit_preprocessor::compute"]}
{"id": "C126", "title": "Declared values are interpolated inside their interval in double precision", "statement": "A parameter declared by values and positions, evaluated in double precision between two positions, lies between the two values declared there. It equals the declared value at a position and between equal values, and between two positions it rises or falls with the position whenever the declared values do. When it leaves the interval through rounding, it does so by at most a fraction 2^-52 of the difference of the two values.", "quantifier": "all lists of values and increasing positions that are doubles, and all doubles between the first position and the last", "why_tests_cant": "which arguments round outside the interval depends on the bits of positions and values; a test would have to hit a tie", "anchors": ["src/core/foundation/model_parameter.h:Model_parameter::operator()"]}
{"id": "C127", "title": "Generated meshes are usable in double precision", "statement": "With the rounding of doubles, the generation of a mesh with element sizes ends, and its positions are doubles that start at 0, increase strictly and end exactly at the end of the curve.", "quantifier": "all size functions and ratios whose sizes are at least 2^-48 of the length of the curve, all curves of length 1 or more, with and without breakpoints", "why_tests_cant": "the sums of the sizes round differently on every track, and the six positions moved at the end are squeezed by an amount that depends on them", "anchors": ["src/core/applications/circuit_preprocessor.hpp:Circuit_preprocessor::compute_averaged_centerline", "src/core/applications/circuit_preprocessor.hpp:Circuit_preprocessor::compute"]}
{"id": "C128", "title": "Numbers written to files are read back as the same doubles", "statement": "Every double written to a track, lap or vehicle file is read back as the same double.", "quantifier": "all doubles (finite, zero and subnormal included)", "why_tests_cant": "there are 2^64 doubles; most survive fewer digits than needed", "anchors": ["src/core/applications/circuit_preprocessor.hpp:Circuit_preprocessor::xml", "src/core/applications/detail/optimal_laptime_data.h:Optimal_laptime::xml", "src/core/vehicles/kerb.h:Kerb::xml"]}
{"id": "C129", "title": "The parameters of a kart", "statement": "A kart file is accepted exactly when it gives everything the kart needs, and the kart then holds exactly what the file says and no wind. Every number of the file can be set or declared afterwards: setting one changes that number and nothing else, other paths are rejected, and an evaluation at a position works with the values declared for that position and the numbers of the file elsewhere, in each of the four representations and after any calls. A saved kart can be read back.", "quantifier": "all kart files, all paths and values, all sequences of declarations, set calls and evaluations", "why_tests_cant": "a kart has some seventy paths, whose acceptance depends on the class that declares them, and the declared values depend on the whole history of calls", "anchors": ["src/core/chassis/chassis_car_6dof.hpp:Chassis_car_6dof", "src/core/chassis/axle_car_6dof.hpp:Axle_car_6dof", "src/core/chassis/chassis.hpp:Chassis::set_parameter", "src/core/chassis/chassis.hpp:Chassis::fill_xml", "src/core/tire/tire_pacejka.h:Pacejka_standard_model", "src/core/vehicles/lot2016kart.h:lot2016kart_all", "src/main/c/fastestlapc.cpp:create_vehicle_from_xml"]}
{"id": "C130", "title": "Deleting with alternatives, groups, repetitions and quoting", "statement": "delete_variable with a pattern made of characters, \".\", \"*\", \"|\", groups, \"+\", \"?\" and quoted characters removes exactly the variables whose name the pattern stands for. Quoting the special characters of a name removes that variable alone. A text with an unmatched parenthesis or a repetition of nothing is refused and removes nothing.", "quantifier": "all patterns, of any nesting and length, all tables of variables", "why_tests_cant": "patterns nest without bound and the star is rewritten before the pattern is read", "anchors": ["src/main/c/fastestlapc.cpp:delete_variable"]}
{"id": "C131", "title": "The lap is drawn between the boundaries of the circuit", "statement": "A lap computed on the mesh of a circuit is drawn, at every optimised point, on the straight segment between the left and right boundary points stored in the circuit file. Where kerbs are in use the boundaries are moved outwards by the widths of the kerbs. The f1 also keeps half of its front track, seen along the normal, from both boundaries.", "quantifier": "all circuits with increasing arclengths, with and without elevation and kerbs, all vehicles, all laps within the bounds of the optimisation, open and closed, both formulations", "why_tests_cant": "the drawn position combines the circuit, its interpolation, the limits handed to the optimiser and the road frame, each of which has its own sign convention", "anchors": ["src/core/applications/optimal_laptime.hpp:compute_direct", "src/core/applications/optimal_laptime.hpp:compute_derivative", "src/core/vehicles/road_curvilinear.hpp:Road_curvilinear::update_track", "src/core/vehicles/track_by_polynomial.h:Track_by_polynomial", "src/core/applications/circuit_preprocessor.hpp:Circuit_preprocessor"]}
{"id": "C132", "title": "What the solver is asked is what the user asked", "statement": "An optimal lap time computation hands the solver exactly the problem of the user: the option text sets each tolerance, the number of iterations and the print level to the given value and nothing else; the formulation, mesh, controls, weights, integral constraints, start and bounds are those given, and multipliers are passed in the order of the solver exactly for a warm start. A vehicle that is not ready is rejected before solving. The lap returned carries the success flag, iterations and multipliers of the solver, a failure is thrown when asked for, and a solver point within its bounds is a lap within the bounds of the user.", "quantifier": "all vehicles, options, meshes, initial values, cold and warm starts, open and closed, both formulations, and all answers of the solver", "why_tests_cant": "the request is assembled through seven stages whose sizes depend on the kinds of controls, for every mesh size, and the solver may answer anything", "anchors": ["src/core/applications/optimal_laptime.hpp:Optimal_laptime", "src/core/applications/optimal_laptime.hpp:compute", "src/core/applications/optimal_laptime.hpp:compute_direct", "src/core/applications/optimal_laptime.hpp:compute_derivative", "src/core/applications/optimal_laptime.h:Options"]}
{"id": "C133", "title": "Warm starts over histories of calls", "statement": "A warm start continues from the lap of the last call for the same type of vehicle that completed and was asked to keep its lap, whatever calls came in between: the solver gets the point and multipliers it returned then, on that mesh, with the options of the new call. Calls that fail or keep nothing leave it unchanged, the other type of vehicle has its own, without a kept lap a warm start is rejected, and so is one with another number of integral constraints. Cold starts do not depend on earlier calls.", "quantifier": "all histories of calls of both vehicle types, any options, failures at any stage", "why_tests_cant": "what is kept depends on the whole history of calls and on the point where each of them failed", "anchors": ["src/main/c/fastestlapc.cpp:get_warm_start", "src/main/c/fastestlapc.cpp:compute_optimal_laptime", "src/core/applications/optimal_laptime.hpp:Optimal_laptime"]}
{"id": "C134", "title": "What the API says about a variable is what the variable is", "statement": "print_variables lists every stored variable exactly once, under the type it has, vectors with their size, and nothing else; each heading gives the number of variables of the type; so two sets of variables that print the same have the same names, types and sizes (names on one line). print_variable, vehicle_save_as_xml and vehicle_get_output answer for the variable the name denotes: its text, its file, the output of that name after evaluating the vehicle at the given inputs, controls and position; unknown names and unknown outputs are rejected.", "quantifier": "all sets of variables, all iteration orders of the tables, all names without line feeds, all vehicles and states", "why_tests_cant": "the tables are unordered and of any size, and the text must be readable whatever the names are", "anchors": ["src/main/c/fastestlapc.cpp:print_variables", "src/main/c/fastestlapc.cpp:print_variable_to_std_string", "src/main/c/fastestlapc.cpp:vehicle_get_output", "src/main/c/fastestlapc.cpp:vehicle_save_as_xml"]}
{"id": "C135", "title": "Asking changes nothing", "statement": "In every program of API calls, what a call answers and what it stores does not depend on which questions (outputs of vehicles, texts, files, listings) were asked before it, although asking for an output evaluates the stored vehicle itself. Files and texts of vehicles are included when evaluating does not alter them.", "quantifier": "all programs of API calls with questions anywhere, all vehicles whose evaluation sets the members it reads", "why_tests_cant": "every position of every question in every history would have to be tried", "anchors": ["src/main/c/fastestlapc.cpp:vehicle_get_output", "src/main/c/fastestlapc.cpp:vehicle_get_property_generic"]}
{"id": "C136", "title": "Steady states, searches and diagrams with plain numbers", "statement": "A steady state asked for in n steps is the answer to the accelerations asked for, reached through the parts i/n of them, each step from the answer of the one before, and the success reported is that of the last step; with no steps there must be a defined answer too. The search for the maximum lateral acceleration starts from the solved state without accelerations. The searches at a given lateral acceleration reject one above the maximum and return the true extremes. A g-g diagram of n points has n points in each half, at equally spaced lateral accelerations from zero to the maximum, each the extreme of the longitudinal acceleration there with its own success flag, whatever the steady states in between do.", "quantifier": "all numbers of steps and points, all accelerations, all solvers and optimisers (any failures), all initial points", "why_tests_cant": "the number of steps and points is unbounded and any of the solutions in between may fail", "anchors": ["src/core/applications/steady_state.hpp:solve", "src/core/applications/steady_state.hpp:solve_max_lat_acc", "src/core/applications/steady_state.hpp:solve_max_lon_acc", "src/core/applications/steady_state.hpp:gg_diagram"]}
{"id": "C137", "title": "The Formula 1 car to the left and to the right", "statement": "Mirroring a Formula 1 car, its tyres and the wind, the inputs and controls, and the point of the track mirrors all its states and all their derivatives, on a track with any elevation and banking and on the plane. So a lap of a symmetric car is a lap of the mirrored track in the same time with the tyres exchanged, and the accelerations it can hold in a steady turn are the same to both sides (the Python module returns the other half of a g-g diagram by mirroring).", "quantifier": "all cars (symmetric or not), winds, inputs, controls, points of any track with elevation and banking, laps and steady turns", "why_tests_cant": "a test drives a few corners; the symmetry has to hold for every state and every part of the model at once", "anchors": ["src/core/chassis/chassis_car_3dof.hpp:update", "src/core/chassis/axle_car_3dof.hpp:update", "src/core/vehicles/dynamic_model_car.hpp:operator()", "src/core/vehicles/limebeer2014f1.h", "src/main/python/fastest_lap.py:gg_diagram"]}
{"id": "C138", "title": "Energy of the whole Formula 1 car", "statement": "On the plane, along any motion, the kinetic energy of the car and its wheels grows at the power of the torques on the wheels plus the (negative) power of the slip under the tyres plus that of the air. With constant-power engines, tyres within the range of their model and still air it never grows faster than the power of the engine and the boost, so over any time the car gains no more energy than they can give.", "quantifier": "all cars with the centre of mass above the origin and axles at the height of their tyres, all inputs, controls and motions", "why_tests_cant": "an integral over unboundedly many instants; a wrong lever arm or sign anywhere makes a car that gains or loses energy slowly", "anchors": ["src/core/chassis/chassis_car_3dof.hpp:update", "src/core/chassis/axle_car_3dof.hpp:update", "src/core/tire/tire.h:get_dissipation", "src/core/vehicles/dynamic_model_car.hpp:operator()"]}
{"id": "C139", "title": "The Formula 1 car on the plane and on a track", "statement": "The car does the same wherever it is and wherever it heads, if the wind turns with it. On a flat track its states are those of the car on the plane with the heading of the track plus its own, and their derivatives are those of the plane times the time per unit of length, including its position and heading. On any track it turns about its vertical at its yaw rate.", "quantifier": "all cars, inputs, positions, headings and winds; all points of flat tracks and, for the yaw rate, of any track", "why_tests_cant": "two representations of the same car must agree for every state", "anchors": ["src/core/vehicles/dynamic_model_car.hpp:operator()", "src/core/vehicles/road_curvilinear.hpp:update", "src/core/vehicles/road_cartesian.hpp:update", "src/core/chassis/chassis.hpp:update"]}
{"id": "C140", "title": "Newton and Euler along a lap on any track", "statement": "Along any lap of the Formula 1 car on any track with elevation and banking, seen from the ground: the centre of mass moves with the velocity that the states give; its momentum changes with the forces of the four tyres, of the air and the weight; the angular momentum changes with the moments of these forces about the centre of mass; every wheel changes its spin with the torque of its shaft and the force under it; and the front axle takes its configured share of the lateral transfer of load.", "quantifier": "all cars, inputs, controls, laps and tracks measured by their length, at every point where the car advances", "why_tests_cant": "a test compares a few numbers in body axes; a missing term of the rotating frame is small at most states", "anchors": ["src/core/chassis/chassis_car_3dof.hpp:update", "src/core/chassis/chassis_car_3dof.hpp:get_state_and_state_derivative", "src/core/chassis/axle_car_3dof.hpp:update", "src/core/chassis/chassis.hpp:update", "src/core/vehicles/road_curvilinear.hpp:update", "src/core/vehicles/dynamic_model_car.hpp:operator()"]}
{"id": "C141", "title": "Left and right of the kart", "statement": "The kart has no preferred side: the mirror image of a kart, on the mirror image of a track or of the plane, in the mirrored state and with the opposite steering, has the mirrored states and derivatives; a lap of the one is a lap of the other in the same time; a symmetric kart turns left as it turns right, can hold the same accelerations to both sides, and goes straight when it is driven straight.", "quantifier": "all karts, states, controls, places on tracks, laps and steady turns", "why_tests_cant": "a test drives to one side, and a sign error in a term that vanishes there does not show", "anchors": ["src/core/chassis/chassis_car_6dof.hpp:update", "src/core/chassis/chassis_car_6dof.hpp:Euler_lhs", "src/core/chassis/axle_car_6dof.hpp:update", "src/core/tire/tire.hpp:update", "src/core/vehicles/dynamic_model_car.hpp:operator()", "src/core/vehicles/lot2016kart.h"]}
{"id": "C142", "title": "Equations of motion of the kart on the plane and on a track", "statement": "What the kart does depends neither on its place nor on its heading but through the wind; along a flat track it does what it does on the plane, per metre instead of per second; along any motion on the plane its mass times the acceleration of its centre of mass is the sum of the forces of the four wheels, of the air and of the weight, the attitude obeys the equations of C110 with the moments of these forces about the point of the road below the kart, each wheel acting at its point of the road, and the rear axle changes its spin with its torque and the forces under its two tyres. Each wheel slips with the velocity that the kart has at its point of the road, turned by its steering angle, and its tyre gives the forces of its model at these slips and under its load; its load is that of its spring at the depth of its lowest point below the road and of its damper at the rate of that depth while the steering is held, and the tyres, the chassis springs and the antiroll bar of an axle are in balance.", "quantifier": "all karts, states, controls, places, headings, winds and motions", "why_tests_cant": "a test compares a few numbers; forces left out of a sum or applied at a wrong point hide in most states", "anchors": ["src/core/chassis/chassis_car_6dof.hpp:update", "src/core/chassis/chassis_car_6dof.hpp:get_state_and_state_derivative", "src/core/chassis/axle_car_6dof.hpp:update", "src/core/vehicles/road_cartesian.hpp:update", "src/core/vehicles/road_curvilinear.hpp:update", "src/core/vehicles/dynamic_model_car.hpp:operator()"]}
{"id": "C143", "title": "Kerbs of a computed circuit", "statement": "When circuit_preprocessor is asked for kerbs, the left table has exactly one kerb for each stretch of two points or more along which the path of minimum curvature is nearer to the left boundary than a fifth of the width of the track, from its first point to the first point after it, and the right table the same for the right boundary; a kerb on the left and one on the right never lie side by side; kerbs on the inside of a bend are drawn outwards and not used, those on the outside or along a straight have the direction of the options and are used if the options say so; the circuit seen in a mirror has the same kerbs on the other sides.", "quantifier": "all circuits of positive width, paths, curvatures, kerb widths and options", "why_tests_cant": "a test looks at one circuit; exchanged sides or a wrong sign of the curvature show only on bends of both directions", "anchors": ["src/core/applications/circuit_preprocessor.hpp:compute", "src/core/vehicles/kerb.h:compute"]}
{"id": "C144", "title": "Wheels, pedals, grip and power of the Formula 1 car", "statement": "On the plane and at any point of any track, every wheel of the Formula 1 car takes the velocity of the car at the point of the road below it, turned by the steering; its longitudinal slip is the given part of the largest slip for its load, and its spin, side slip and forces are those of this slip, velocity and load. With the throttle pressed the brakes do nothing and the rear wheels share the torques of the engine and of the boost, with a difference that opposes the difference of their spins; with the brake pressed the engines do nothing and the brakes are shared between the axles by the bias. In no direction do the tyres push more than the largest coefficient of friction times the loads; so in any steady turn in still air the acceleration, with the drag added, lies within the circle of friction of the weight and the downforce; and the power for acceleration and drag is no more than that of the engines.", "quantifier": "all cars of the model, inputs, points of a track, headings, steady turns and speeds", "why_tests_cant": "a test evaluates single states; a wheel on the wrong side, a load of another wheel or a wrong share of the brakes still gives plausible numbers, and no finite set of turns bounds the diagram", "anchors": ["src/core/chassis/chassis_car_3dof.hpp:update", "src/core/chassis/axle_car_3dof.hpp:update", "src/core/tire/tire_pacejka.hpp:update", "src/core/applications/steady_state.hpp:gg_diagram"]}
{"id": "C145", "title": "Tracks, diagrams and outputs from Python", "statement": "From Python, the data of a track are the arrays of the track under the eleven documented names, point by point, and any other name or an unknown track is an error; the coordinates of a track are those of its centerline, left and right boundaries and heading, in this order; the g-g diagram of a vehicle lists at each point the lateral acceleration, its opposite, and the largest and smallest longitudinal accelerations, in units of gravity; a name that is not that of a vehicle is an error; and vehicle_get_output returns the output of the vehicle.", "quantifier": "all stores, tracks with any number of points, names, vehicles, speeds and numbers of points", "why_tests_cant": "a test downloads the arrays of one track; exchanged names, a short array or a silent failure show only for other names and stores", "anchors": ["src/main/python/fastest_lap.py:track_download_data", "src/main/python/fastest_lap.py:track_coordinates", "src/main/python/fastest_lap.py:gg_diagram", "src/main/python/fastest_lap.py:vehicle_get_output", "src/main/c/fastestlapc.cpp:track_download_data", "src/main/c/fastestlapc.cpp:gg_diagram"]}
{"id": "C146", "title": "Energy of the Formula 1 car on any track", "statement": "Along any lap of the Formula 1 car on any track in space, the energy of the car - of its centre of mass, of its turning, of its wheels and of its height - changes exactly with the power of the shafts of the wheels, of the slip of the tyres, of the loads of the wheels and of the air; so over any stretch of road whose surface is plane, at any slope and bank, the car gains in speed and height together no more than its engines can give in the time it takes.", "quantifier": "all cars on their wheels, tracks in space, laps that are motions of the model, stretches and inputs", "why_tests_cant": "a simulation of one lap does not tell whether a wrong moment or a missing term adds energy on another slope or crest", "anchors": ["src/core/chassis/chassis_car_3dof.hpp:update", "src/core/chassis/chassis.hpp:update", "src/core/chassis/axle_car_3dof.hpp:update", "src/core/vehicles/road_curvilinear.hpp:update", "src/core/vehicles/dynamic_model_car.hpp:operator()"]}
{"id": "C147", "title": "Grip of the kart", "statement": "Whatever its driver does and wherever it is, the front wheels of the kart, which have no shaft, roll freely and give no longitudinal force, and its four tyres together push in no horizontal direction more than the coefficient of friction times the loads they carry; so every steady state of the kart on the plane, and every point of its g-g diagram, has accelerations within the circle that friction allows: (m ax + drag)^2 + (m ay)^2 <= (mu (m g + downforce))^2.", "quantifier": "all karts, states, controls, road frames, directions, speeds and steady states", "why_tests_cant": "a test evaluates the kart at a few states; it does not tell whether another state pulls more than its tyres can hold", "anchors": ["src/core/tire/tire_pacejka.hpp:update_self", "src/core/tire/tire.hpp:update", "src/core/chassis/axle_car_6dof.hpp:update", "src/core/chassis/chassis_car_6dof.hpp:update", "src/core/applications/steady_state.hpp:solve"]}
{"id": "C148", "title": "Energy of the kart", "statement": "On the plane the energy of the motion of the kart (of its mass, its turn and its rear axle) changes at the power of the torque on the axle, less what the slip of the tyres and the air take, plus what roll and pitch exchange with the turn through the product of inertia; in still air, with tyres within the range of their models, a steady turn takes no more power than the axle gives, and a kart that is neither driven nor pushed by the wind loses energy.", "quantifier": "all karts, states, controls, headings, motions on the plane and steady turns", "why_tests_cant": "an identity along all motions; an arm or a sign that differs between two formulas makes a vehicle that gains energy a little at a time", "anchors": ["src/core/tire/tire.h:get_longitudinal_torque_at_wheel_center", "src/core/tire/tire.hpp:update", "src/core/chassis/axle_car_6dof.hpp:update", "src/core/chassis/chassis_car_6dof.hpp:update"]}
{"id": "C149", "title": "propagate_vehicle takes one step from the buffers of the caller", "statement": "A call of propagate_vehicle that returns has taken exactly one step of the integration scheme of the car asked for, on the plane or on the circuit asked for, from the states and controls at the start of the buffers of the caller, with each option read from its own element of the text or the default one; it has written the states and nothing else, and left the stored vehicle as it was but for the circuit. A call that fails has written nothing, and fails only if the vehicle or the circuit does not exist, the circuit is refused, the text is not readable or the step fails.", "quantifier": "all vehicles, circuits, buffers, option texts, positions and steps", "why_tests_cant": "all texts and all buffer contents; a test calls it with one", "anchors": ["src/main/c/fastestlapc.cpp:propagate_vehicle", "src/main/c/fastestlapc.cpp:compute_propagation"]}
{"id": "C150", "title": "The time of a lap in double precision", "statement": "Computed in double precision, the times saved along a lap that moves forwards never decrease and the lap time is not before the last of them; they strictly increase for elements of a millimetre or more; times and lap time are those of the quadrature without rounding up to (n + 5) / 2^52 of them for n points; and the value the solver minimises is never below the lap time that is reported, and is the same double when the controls are not penalised, in both formulations. With its penalisations that value is the one without rounding up to (n (m + 1) + 12) / 2^52 of it, for m controls.", "quantifier": "all meshes, all derivatives of the time, all weights of the scheme, all penalised controls, open and closed laps", "why_tests_cant": "rounding depends on all the values; a test adds up one lap", "anchors": ["src/core/applications/optimal_laptime.hpp:compute_direct", "src/core/applications/optimal_laptime.hpp:compute_derivative", "src/core/applications/optimal_laptime.hpp:FG_direct::compute", "src/core/applications/optimal_laptime.hpp:FG_derivative::compute"]}
{"id": "C151", "title": "A circuit and its mirror image have the same laps", "statement": "A lap satisfies the bounds and the constraints of the optimal laptime problem exactly when its mirror image does on the mirror image of the circuit, with left and right limits, wheels and bounds exchanged, and the value that is minimised is the same; so a symmetric car attains the same lap times, and has the same best lap time, on a circuit and on its mirror image. For the Formula 1 car, on tracks with and without elevation and with restricted integral quantities, and for the kart.", "quantifier": "all cars, circuits, meshes, laps, bounds, weights of the scheme, dissipations and restricted quantities; open and closed laps", "why_tests_cant": "it compares the best of infinitely many laps on two circuits; a test compares two runs of the solver, that stop at different points", "anchors": ["src/core/applications/optimal_laptime.hpp:FG_direct::compute", "src/core/applications/optimal_laptime.hpp:compute_direct", "src/core/vehicles/limebeer2014f1.h:classify_equations", "src/core/vehicles/limebeer2014f1.h:compute_integral_quantities", "src/core/vehicles/limebeer2014f1.h:optimal_laptime_extra_constraints", "src/core/vehicles/lot2016kart.h:optimal_laptime_extra_constraints"]}
{"id": "C152", "title": "Where a closed lap starts does not matter", "statement": "The optimal laptime problem of a closed circuit does not depend on the place of the starting line: a lap seen from another of its points satisfies the same bounds and constraints and has the same value.", "quantifier": "all cars, circuits, meshes, laps, bounds, weights of the scheme and dissipations", "why_tests_cant": "the closing element is coded apart from the others; a test compares one pair of laps", "anchors": ["src/core/applications/optimal_laptime.hpp:FG_direct::compute", "src/core/applications/optimal_laptime.hpp:compute_direct"]}
{"id": "C153", "title": "A lap that satisfies the constraints can be driven", "statement": "The value that is minimised is the time of the lap, by the rule with weight sigma, plus the dissipations times the squared slopes of the controls; no lap is faster than its length at the highest speed. At every point chosen by the solver the inputs and controls are within their bounds, the car (and the front wheels of the Formula 1 car) is on the track, and the slips of the tyres are within their limits. What each quantity of motion gains along the lap is the sum of its rates: nothing on a closed lap. The limited quantities are within their limits, and the energy of the engine is at most its power for the time of the lap. On a flat circuit the tyres of the Formula 1 car carry its weight and its downforce, nothing turns it over, and the tyres push along the road with no more than their grip under that load.", "quantifier": "all cars, circuits, meshes, laps that satisfy the constraints, bounds, weights of the scheme and dissipations; open and closed laps; every point", "why_tests_cant": "it is about every lap that the solver may return, and every point of it; a test looks at the one returned for one circuit", "anchors": ["src/core/applications/optimal_laptime.hpp:FG_direct::compute", "src/core/applications/optimal_laptime.hpp:compute_direct", "src/core/vehicles/limebeer2014f1.h:classify_equations", "src/core/vehicles/limebeer2014f1.h:compute_integral_quantities", "src/core/vehicles/limebeer2014f1.h:optimal_laptime_extra_constraints", "src/core/vehicles/lot2016kart.h:optimal_laptime_extra_constraints"]}
{"id": "C154", "title": "With rates of the controls, no control moves faster than its limits", "statement": "In the derivative formulation, between any two points of a lap that satisfies the constraints, also across the end of a closed lap, the steering wheel turns by at most 20 degrees per second of the time between them, and boost and throttle move by at most 10 per second (the throttle of a kart driven by its torque: 4000). The rates of a control along the lap add up to its change, to nothing on a closed lap. Without its rates the lap satisfies the constraints of the direct formulation. A lap along which the controls keep their values satisfies those of the derivative formulation, with rates 0, if and only if it satisfies those of the direct one, and its value is its time. The value that is minimised is the time plus the dissipations times the integrals of the squared rates. Laps and values are the same on the mirror image of a circuit, with mirror images of the controls and rates, and from another starting line.", "quantifier": "all cars, circuits, meshes, laps, sets of controls optimised on the full mesh, bounds, weights of the scheme and dissipations; any two points of the lap; open and closed laps", "why_tests_cant": "it is about every lap that the solver may return, and every two points of it", "anchors": ["src/core/applications/optimal_laptime.hpp:FG_derivative::operator()", "src/core/applications/optimal_laptime.hpp:compute_derivative", "src/core/vehicles/limebeer2014f1.h:optimal_laptime_derivative_control_bounds", "src/core/vehicles/lot2016kart.h:optimal_laptime_derivative_control_bounds"]}
{"id": "C155", "title": "Fewer restrictions never make the best lap slower", "statement": "What a lap of the Formula 1 car or of the kart attains, another one attains or improves on a track with the same centreline and wider limits, with wider bounds of the variables (a control that is optimised instead of given is one case of that), with fewer or wider limits of the integral quantities and with lower penalisations of the controls; the best lap is never slower. This holds in the direct formulation and in that with rates of the controls, and no lap with rates and penalisations is faster than the best one of the direct formulation without penalisations. A control that is kept constant costs nothing when it is optimised at every point instead, whatever its penalisation. A closed lap, driven as an open lap from its first point to the same point at the end of the circuit, satisfies the same constraints and has the same value, and the other way round.", "quantifier": "all cars, circuits, bounds, limits, penalisations, meshes, laps and weights of the scheme; open and closed laps", "why_tests_cant": "it compares the best laps of two problems over all the laps that satisfy their constraints", "anchors": ["src/core/applications/optimal_laptime.hpp:FG_direct::operator()", "src/core/applications/optimal_laptime.hpp:FG_derivative::operator()", "src/core/applications/optimal_laptime.hpp:compute_direct", "src/core/vehicles/limebeer2014f1.h:optimal_laptime_extra_constraints_bounds"]}
{"id": "C156", "title": "A circuit somewhere else, facing another way, has the same laps", "statement": "When a circuit with any elevation and banking is moved to another place and turned about the vertical, and the wind is turned with it, the Formula 1 car does at every point what it did before, a lap satisfies the bounds and constraints exactly when it did before and has the same value, with and without rates of the controls, and the best lap takes the same time. The position and heading of the car that are reported move and turn with the circuit. In still air nothing else changes. The same holds for the kart on circuits moved horizontally.", "quantifier": "all cars, circuits, angles, displacements, bounds, meshes, laps, weights of the scheme, penalisations and limits; open and closed laps", "why_tests_cant": "the angle, the displacement, the circuit and the lap range over infinite sets, and it compares best laps", "anchors": ["src/core/vehicles/road_curvilinear.hpp:Road_curvilinear::update", "src/core/chassis/chassis.hpp:Chassis::get_aerodynamic_force", "src/core/vehicles/dynamic_model_car.hpp:Dynamic_model_car::operator()", "src/core/applications/optimal_laptime.hpp:FG_direct::operator()"]}
{"id": "C157", "title": "A steady state is a lap of a circle", "statement": "On a flat circuit of constant curvature, in still air and with constant bounds, a lap of the Formula 1 car with the same variables at each point satisfies the bounds and constraints of the optimal laptime problem if and only if these variables are a steady state of the car on the plane, the car keeps its distance and its heading with respect to the road, and it is within the bounds, the limits of the track and the limits of slip. Its value, whatever the penalisations of the controls, is the length of the path of the car over its speed. In particular the steady turns of the diagrams without tangential acceleration are laps of circles at that speed, and every such lap is one of these turns with the lateral acceleration of its path. The best lap of such a circuit is not slower than any of these turns that is allowed. With the rates of the controls as variables, such a lap is allowed if and only if besides the controls are at rest, with the same value, and no fastest lap on the same mesh has a higher value. The same holds for the kart.", "quantifier": "all cars, circles and straights, limits, bounds, increasing meshes, weights of the scheme, penalisations, with and without elevation; open and closed laps; direct and derivative formulation", "why_tests_cant": "the radius, the mesh, the car and its state range over infinite sets, and it relates two programs", "anchors": ["src/core/applications/optimal_laptime.hpp:FG_direct::operator()", "src/core/applications/steady_state.hpp:Steady_state::solve", "src/core/vehicles/road_curvilinear.hpp:Road_curvilinear::update", "src/core/vehicles/road_cartesian.hpp:Road_cartesian::update", "src/core/applications/optimal_laptime.hpp:FG_derivative::operator()"]}
{"id": "C158", "title": "Each sector of a fastest lap is the fastest", "statement": "A sector of a lap of the optimal laptime problem may be replaced by another one between the same two points, on any mesh: if the other sector satisfies the bounds and constraints of an open lap and takes as much of the restricted integral quantities, the new lap satisfies those of the whole problem, and its value changes by the difference of the values of the two sectors. So each sector of a fastest lap, open or closed, is the fastest way between its two ends, and the rest of a fastest open lap is the fastest from where the car is: solving a part of the track again from the state of the car does not find a lower value. An open lap satisfies the bounds and constraints if and only if both its parts do, and its value and its integral quantities are the sums of theirs. The same holds for the kart. With the rates of the controls as variables sectors and rests of fastest laps are also fastest on their mesh.", "quantifier": "all cars, circuits, bounds, meshes, laps, sectors and points, weights of the scheme, penalisations, restricted quantities and their limits, with and without elevation; open and closed laps; direct and derivative formulation", "why_tests_cant": "laps, sectors and their alternatives range over infinite sets, and an optimum is a statement on all of them", "anchors": ["src/core/applications/optimal_laptime.hpp:FG_direct::operator()", "src/core/applications/optimal_laptime.hpp:FG_derivative::operator()", "src/core/applications/optimal_laptime.hpp:optimise_direct", "src/core/applications/optimal_laptime.hpp:optimise_derivative"]}
{"id": "C159", "title": "The tyres of the kart carry its weight, and loads move as the height of the centre of mass says", "statement": "On the plane, the kart has no vertical acceleration if and only if the loads of its four tyres add up to its weight and the vertical force of the air. When the attitude is steady (no roll or pitch rates, no angular accelerations), the loads move to the outside of the turn and backwards under acceleration: the moment of the loads about the point below the reference is the mass times the height of the centre of mass times the acceleration of the centre of mass, up to terms with the vertical displacement, with the turning of the rolled and pitched body, and with the moment of the air. On a straight, that gives what the front axle carries from the weight, the position of the axles and the acceleration.", "quantifier": "all karts (parameters), states, controls, headings and wind; every solution of the linear system", "why_tests_cant": "states, parameters and controls are real numbers; the statement is an identity over all of them", "anchors": ["src/core/chassis/chassis_car_6dof.hpp:Chassis_car_6dof::update", "src/core/chassis/chassis_car_6dof.hpp:Euler_lhs", "src/core/chassis/axle_car_6dof.hpp:Axle_car_6dof::update", "src/core/tire/tire.hpp:Tire::update"]}
