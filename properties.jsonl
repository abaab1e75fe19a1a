{"id": "C01", "title": "Interpolation returns the piecewise linear interpolant", "statement": "Evaluating an interpolating vector at a time t gives exactly the stored value at an interpolation point, the convex combination of the two neighbouring stored values between points, the first/last stored value when t is at most 1e-10 outside the covered span, and an exception further outside. Every component of the result lies between the smallest and largest stored component.", "quantifier": "every strictly increasing list of interpolation points, every table of stored vectors of every inner length, every real time t", "why_tests_cant": "The set of grids, tables and query times is infinite; the boundary cases (t equal to a node, just outside the span) are hit by a test only where its author put them.", "anchors": ["src/Auxillary/InterpolatingVector/InterpolatingVector.cpp: InterpolatingVector_Base::operator()(double)"]}
{"id": "C02", "title": "Unsorted interpolation points are rejected", "statement": "Constructing an interpolating vector from a list of interpolation points that is not sorted throws an exception, so that every constructed object has sorted points.", "quantifier": "every list of interpolation points", "why_tests_cant": "A test uses a few unsorted lists; the claim is that no unsorted list gets through any constructor in a release build.", "anchors": ["src/Auxillary/InterpolatingVector/InterpolatingVector.cpp: InterpolatingVector_Base(std::vector<double>, Eigen::Index)"]}
{"id": "C03", "title": "Time grids start and end where requested and never use a larger step than desired", "statement": "The grid built from start, desired step and end is equidistant and strictly increasing, its first point is the start, its last point is the end, its step is at most the desired step, and no equidistant grid with fewer points has that property. Bad arguments (end <= start or step <= 0) are rejected.", "quantifier": "all real start, end and desired step", "why_tests_cant": "ceil-based off-by-one mistakes show only for special ratios of span and step; there are infinitely many ratios.", "anchors": ["src/Auxillary/InterpolatingVector/InterpolatingVector.cpp: make_from_start_delta_end, set_equidistant_interpolation_points", "src/Auxillary/Timedata/Timedata.cpp: Timedata"]}
{"id": "C04", "title": "The gradient uses the same control interpolation weights as the simulation", "statement": "For a time inside the control span the pair (upper index, weight) used to distribute derivatives to control points reproduces exactly the interpolated control used in the simulation: weight * control[upper] + (1-weight) * control[upper-1] equals the interpolated control, with weight in [0,1], and the lower index is only used when it exists.", "quantifier": "every strictly increasing control grid, every control table, every time in the admitted range", "why_tests_cant": "Two independent pieces of code must agree on every grid/time pair; a mismatch only shows as a wrong optimum.", "anchors": ["src/Optimization_helpers/Optimization_helpers.cpp: compute_index_lambda, compute_index_lambda_vector", "src/Auxillary/InterpolatingVector/InterpolatingVector.cpp: operator()"]}
{"id": "C05", "title": "Objective quadrature weights form the trapezoidal rule", "statement": "The weights with which running cost is summed over the time points are non-negative, sum up to the length of the simulated time span and integrate every affine function of time exactly; on every grid they agree with the sum over intervals of length times average.", "quantifier": "every sorted list of at least two time points and every table of cost values", "why_tests_cant": "Non-uniform grids of every length; tests check a few uniform ones.", "anchors": ["src/IpoptWrapper/ImplicitOptimizer.cpp: make_objective_function_coefficients"]}
{"id": "C06", "title": "Resampling between time grids is exact where it can be", "statement": "Interpolating one table onto another grid inside its span stores at every new point the piecewise linear interpolant; resampling onto the same grid is the identity, and resampling data that is affine in time onto any grid gives that affine function.", "quantifier": "every pair of strictly increasing grids with the second inside the span of the first, every table", "why_tests_cant": "Infinite set of grid pairs.", "anchors": ["src/Auxillary/InterpolatingVector/InterpolatingVector.cpp: interpolate_from, construct_and_interpolate_from"]}
{"id": "C07", "title": "The constraint Jacobian's index lists describe its value array", "statement": "The row and column lists handed to the optimizer have the announced number of entries; entry k of the value array is the matrix entry at (row[k], column[k]); every structurally possible entry is listed exactly once and all indices are inside the matrix.", "quantifier": "every number of constraints and controls per time point, every sorted list of constraint times and of control times", "why_tests_cant": "The block-triangular layout depends on the relative position of two time grids; tests cover a handful of pairs.", "anchors": ["src/IpoptWrapper/ConstraintJacobian.cpp: make_data, supply_indices, get_column_block, nonZeros, whole_matrix"]}
{"id": "C08", "title": "Entries left out of the constraint Jacobian are identically zero", "statement": "If an entry (constraint at time s, control at control point j) is not part of the structural pattern, then changing the control at point j changes no interpolated control at any time up to s, so the constraint cannot depend on it. The derivative sweep never writes outside the stored column blocks.", "quantifier": "every pair of strictly increasing grids, every control table and every change of one control point", "why_tests_cant": "Omitting a non-zero entry gives the optimizer a silently wrong Jacobian; needs an argument for all grids.", "anchors": ["src/IpoptWrapper/ConstraintJacobian.cpp: make_data", "src/IpoptWrapper/ImplicitOptimizer.cpp: compute_derivatives"]}
{"id": "C09", "title": "The objective gradient is the derivative of the objective", "statement": "The gradient returned to the optimizer is the derivative of the (cost plus penalty) objective with respect to every control value, where the states are the solution of the time step equations for these controls, provided the component Jacobians are right and the linear systems are solvable.", "quantifier": "every number of states, controls, time steps and control points; every differentiable problem; every direction of control change", "why_tests_cant": "Finite difference tests check single points up to discretisation error on toy problems.", "anchors": ["src/IpoptWrapper/ImplicitOptimizer.cpp: compute_derivatives, evaluate_objective_gradient"]}
{"id": "C10", "title": "The constraint Jacobian is the derivative of the constraints", "statement": "The Jacobian values returned to the optimizer are the derivatives of every constraint at every constraint time with respect to every control value, through the time stepping equations.", "quantifier": "every number of states, controls, constraints, time steps, constraint times and control points; every differentiable problem; every direction of control change", "why_tests_cant": "As for the objective gradient, plus the block bookkeeping that depends on the grids.", "anchors": ["src/IpoptWrapper/ImplicitOptimizer.cpp: compute_derivatives, evaluate_constraint_jacobian"]}
{"id": "C11", "title": "Derivative computation never reads outside its arrays", "statement": "For every optimization set-up that the optimizer's constructor accepts, computing the derivatives reads the list of constraint times only at valid positions.", "quantifier": "every state grid and every list of constraint times accepted by the constructor", "why_tests_cant": "An out-of-bounds read by one element usually goes unnoticed at run time.", "anchors": ["src/IpoptWrapper/ImplicitOptimizer.cpp: compute_derivatives, ImplicitOptimizer::ImplicitOptimizer"]}
{"id": "C12", "title": "Optimizer callbacks always answer for the point they are asked about", "statement": "In every sequence of callbacks in which the caller announces every change of the evaluation point, each successful objective, constraint, gradient or Jacobian evaluation returns the value belonging to the controls passed in that call, also after failed simulations and failed derivative computations in between. A callback fails only if a simulation of its point failed or, for gradient and Jacobian, the computation of derivatives failed.", "quantifier": "every history of callbacks, with arbitrary success/failure of simulation and derivative computation at each point", "why_tests_cant": "Cache invalidation bugs depend on call order; histories are unbounded.", "anchors": ["src/IpoptWrapper/Wrapper.cpp: eval_f, eval_grad_f, eval_g, eval_jac_g", "src/IpoptWrapper/ImplicitOptimizer.cpp: evaluate_*, new_x", "src/Optimization_helpers/ControlStateCache.cpp: refresh_cache"]}
{"id": "C13", "title": "Final cost, penalty and constraint violation reports belong to the returned solution", "statement": "After optimization the reported cost, penalty and maximum constraint violation are those of the returned optimal controls. The saved states are those of a simulation of these controls. If that simulation fails, cost and penalty are reported as 0 and the violations are computed from uninitialised memory.", "quantifier": "every callback history ending in the delivery of a solution", "why_tests_cant": "Depends on which point was evaluated last before the solution is delivered.", "anchors": ["src/IpoptWrapper/Wrapper.cpp: finalize_solution", "src/Grazer/commands.cpp: run"]}
{"id": "C14", "title": "The state cache returns the simulation of the requested controls", "statement": "Looking up states by controls, time points and initial state returns the simulation result for exactly that request or nothing if that simulation fails, independent of all earlier lookups.", "quantifier": "every history of lookups and refreshes over arbitrary requests and an arbitrary (deterministic) simulator", "why_tests_cant": "Cache correctness is a statement about all histories.", "anchors": ["src/Optimization_helpers/ControlStateCache.cpp: check_and_supply_states, refresh_cache, get_cached_states"]}
{"id": "C15", "title": "Constraint times are selected safely from the state times", "statement": "For every requested spacing n the selected constraint times are read from valid positions, form a strictly increasing sublist of the state times without the initial time, and no two neighbouring selected indices are further apart than 2n-1 steps. The optimizer's constructor accepts them.", "quantifier": "every state grid with at least two points and every integer n (non-positive n is treated as 1)", "why_tests_cant": "Divisibility corner cases in (number of points, n).", "anchors": ["src/Grazer/commands.cpp: run", "src/IpoptWrapper/ImplicitOptimizer.cpp: ImplicitOptimizer::ImplicitOptimizer"]}
{"id": "C16", "title": "The constraints are always enforced at the final time", "statement": "Whatever spacing of constraint times the user chooses, the final state time is one of the constraint times.", "quantifier": "every state grid with at least two points and every positive spacing", "why_tests_cant": "Divisibility corner cases; the failure shows up as a silently unconstrained end time.", "anchors": ["src/Grazer/commands.cpp: run"]}
{"id": "C17", "title": "A Newton solver success report means the residual is within tolerance", "statement": "If the Newton solver reports success, the reported residual of the returned state is at most the tolerance.", "quantifier": "every residual function (including ones evaluating to NaN), every linear solver result, every start value, tolerance and iteration limit", "why_tests_cant": "Depends on arithmetic corner cases such as NaN and on all iteration histories.", "anchors": ["src/Newtonsolver/Newtonsolver.cpp: solve"]}
{"id": "C18", "title": "Newton iterations are bounded, damped and leave converged states alone", "statement": "A state whose residual already satisfies the tolerance is returned unchanged with zero iterations; the number of iterations never exceeds the limit; each accepted step of size lambda is the longest of the steps 1, 1/2, 1/4, ..., 2^-1074 and zero for which the norm of the Newton correction at the new state is not above (1 - lambda/2) times the norm of the correction at the old one; unless no step was made from an unconverged start, the reported residual is the norm of the residual at the returned state; the reported iteration count is the number of accepted steps; failure is reported only when the limit is used up and the residual is above the tolerance. The solver always ends, because at the latest the step of size zero, to which the halving underflows, is accepted.", "quantifier": "every residual function, Jacobian, start value, tolerance and non-negative iteration limit", "why_tests_cant": "Statement about every iteration history.", "anchors": ["src/Newtonsolver/Newtonsolver.cpp: solve"]}
{"id": "C19", "title": "A time step retries a bounded number of times from the same start", "statement": "Computing one time step makes at most a fixed number of solver attempts determined by the settings, every attempt starts from the same initial guess, the step returns only after a successful attempt with the result of that attempt, and throws after the last failed one; the switch to full Jacobians happens after exactly the configured number of retries.", "quantifier": "every sequence of solver outcomes and every retry setting", "why_tests_cant": "All outcome sequences and settings; termination.", "anchors": ["src/Model/Problemlayer/Timeevolver.cpp: make_one_step"]}
{"id": "C20", "title": "A finished simulation satisfies the equations at every time step", "statement": "If a simulation returns normally, the first stored state is the initial state and every later stored state is the accepted solution for the time step from the preceding stored state with the controls at the new time; the first failing step aborts with an exception. Every simulation ends, normally or with an exception.", "quantifier": "every grid of time points, initial state, control table and solver behaviour", "why_tests_cant": "Invariant over all time steps and all grids.", "anchors": ["src/Model/Problemlayer/Timeevolver.cpp: simulate"]}
{"id": "C21", "title": "The smoothed absolute value is continuously differentiable with the implemented derivative", "statement": "The smooth absolute value agrees with |x| outside the smoothing interval, is even, never negative and never above |x|, and the implemented derivative is its true derivative at every real number, including the two switching points; the derivative is continuous.", "quantifier": "every real x and every positive smoothing width", "why_tests_cant": "Difference quotients at sample points cannot show differentiability at the seams.", "anchors": ["src/Auxillary/Mathfunctions/Mathfunctions.cpp: smooth_abs, dsmooth_abs_dx"]}
{"id": "C22", "title": "Pressure and density convert into each other without loss", "statement": "Pressure from density and density from pressure are mutually inverse on the physical range, both are strictly increasing there, and the implemented derivative of pressure with respect to density is the true one. Converting a boundary value to a state and back gives the original values.", "quantifier": "every density/pressure in the range where the equation of state is invertible", "why_tests_cant": "Continuum of states.", "anchors": ["src/Model/Balancelaw/Isothermaleulerequation.cpp: p, rho, dp_drho, p_qvol, state, p_qvol_bar_from_p_qvol, p_qvol_from_p_qvol_bar"]}
{"id": "C23", "title": "The flux Jacobian and the pressure Jacobian are the true derivatives", "statement": "The implemented Jacobians of the flux and of the map from state to (pressure, volumetric flow) are the derivatives of the implemented functions in every direction.", "quantifier": "every state with nonzero density away from the pole of the equation of state (all positive densities included) and every direction", "why_tests_cant": "Continuum of states.", "anchors": ["src/Model/Balancelaw/Isothermaleulerequation.cpp: flux, dflux_dstate, p_qvol, dp_qvol_dstate"]}
{"id": "C24", "title": "The friction factor is continuous across the flow regimes", "statement": "The friction factor has no jump at the transition from laminar to transitional (Re=2000) nor from transitional to turbulent flow (Re=4000), is positive for every turbulent Reynolds number, and the source term matches from both sides at the laminar boundary.", "quantifier": "every diameter of at least 1e-11 m, every roughness between zero and three diameters, every Reynolds number", "why_tests_cant": "Continuum of pipe parameters; tests use a few diameters.", "anchors": ["src/Model/Balancelaw/Isothermaleulerequation.cpp: lambda_non_laminar, get_coefficients, Swamee_Jain, source"]}
{"id": "C25", "title": "The turbulent friction derivative is the derivative of the friction factor", "statement": "The function that supplies the derivative of the turbulent friction factor with respect to the Reynolds number returns the derivative of the friction factor it accompanies.", "quantifier": "every diameter of at least 1e-11 m, every roughness between zero and three diameters, every Reynolds number above 4000", "why_tests_cant": "A difference-quotient test has a tolerance; a wrong factor hides when the derivative is small.", "anchors": ["src/Model/Balancelaw/Isothermaleulerequation.cpp: dSwamee_Jain_dRe, Swamee_Jain"]}
{"id": "C26", "title": "The source term Jacobian is the true derivative of the source term", "statement": "The implemented derivative of the friction source term with respect to the state is the derivative of the implemented source term, in the laminar and in the transitional regime, for both flow directions.", "quantifier": "every state with nonzero density and Reynolds number below 4000 (zero flow and the regime switch at 2000 included), every diameter of at least 1e-11 m, every roughness between zero and three diameters, every direction", "why_tests_cant": "Continuum of states; regime switches.", "anchors": ["src/Model/Balancelaw/Isothermaleulerequation.cpp: source, dsource_dstate, dlambda_non_laminar_dRe, dReynolds_dq"]}
{"id": "C27", "title": "The box scheme's residual is consistent, conservative and its Jacobians are right", "statement": "The four implemented Jacobians of the box scheme are the derivatives of its residual for every balance law whose own Jacobians are right; with zero residual in every cell, the change of a source-free conserved quantity over a pipe equals the net boundary flux; a steady state without source has zero residual.", "quantifier": "every differentiable balance law, every number of cells, all states, all positive step sizes", "why_tests_cant": "Infinite family of laws and states; conservation is a statement over all cell counts.", "anchors": ["src/Model/Scheme/include/Implicitboxscheme.hpp: evaluate_point, devaluate_point_*"]}
{"id": "C28", "title": "A pipe writes each of its interior equations once and its Jacobian is right", "statement": "Evaluating a pipe writes every equation row strictly between its two boundary rows exactly once and no other row; the entries added to the three Jacobian handlers sum to the partial derivatives of the residual with respect to new state, last state and lie inside the pipe's own columns.", "quantifier": "every number of grid points (at least two), every position of the pipe in the state vector, every state, every balance law with right Jacobians", "why_tests_cant": "Loop bounds and index arithmetic for every size.", "anchors": ["src/Model/Networkproblem/Gas/Pipe.cpp: evaluate, d_evaluate_d_new_state, d_evaluate_d_last_state, setup", "src/Model/Networkproblem/Gas/Gasedge.cpp: boundary_equation_index, get_equation_start_index, get_equation_after_index"]}
{"id": "C29", "title": "Short pipes, compressors and control valves satisfy their equations and Jacobians", "statement": "The residual of a short pipe vanishes iff pressure and flow are equal at both ends; of a compressor iff the end pressure exceeds the start pressure by the control; of a control valve iff it is lower by the control; flows are equal in all cases. All implemented state, control and cost derivatives are the true ones.", "quantifier": "every state, control and position in the state vector", "why_tests_cant": "Sign and index mistakes for every position.", "anchors": ["src/Model/Networkproblem/Gas/Shortpipe.cpp", "src/Model/Networkproblem/Gas/Compressorstation.cpp", "src/Model/Networkproblem/Gas/Controlvalve.cpp", "src/Model/Networkproblem/Gas/Shortcomponent.cpp"]}
{"id": "C30", "title": "Gas junction equations mean equal pressure and mass balance", "statement": "The residual of a gas node (inner node, source, sink) vanishes iff all attached pipe ends have the same pressure and the direction-signed flows add up to the prescribed flow (zero at an inner node); a node with attached edges writes exactly one row per attached edge end, and the implemented Jacobian is the derivative of the residual.", "quantifier": "every number of attached edges in every mixture of directions, every state and prescribed flow", "why_tests_cant": "Node degree is unbounded.", "anchors": ["src/Model/Networkproblem/Gas/Gasnode.cpp: evaluate_flow_node_balance, evaluate_flow_node_derivative", "src/Model/Networkproblem/Gas/Flowboundarynode.cpp", "src/Model/Networkproblem/Gas/Innode.cpp"]}
{"id": "C31", "title": "Pressure boundary nodes prescribe the pressure of every attached edge", "statement": "The residual of a pressure boundary node vanishes iff every attached edge end has the prescribed pressure, one row per attached edge end, with the right Jacobian.", "quantifier": "every number of attached edges, every state and prescribed pressure", "why_tests_cant": "Node degree is unbounded.", "anchors": ["src/Model/Networkproblem/Gas/Pressureboundarynode.cpp"]}
{"id": "C32", "title": "Every gas network yields a square, fully determined system", "statement": "After index assignment, evaluating all components of a gas network writes every equation row exactly once: no row is left uninitialised and none is overwritten.", "quantifier": "every gas network built from pipes, short pipes, compressors, control valves, inner nodes, flow boundary nodes and pressure boundary nodes in which every edge end is attached to a gas node", "why_tests_cant": "All graph shapes and sizes.", "anchors": ["src/Model/Networkproblem/Networkproblem.cpp: evaluate, set_state_indices", "src/Model/Networkproblem/Gas/Gasedge.cpp", "src/Model/Networkproblem/Gas/Gasnode.cpp", "src/Model/Networkproblem/Componentclasses/SimpleStatecomponent.cpp"]}
{"id": "C33", "title": "Power flow equations and their Jacobian agree", "statement": "The active and reactive power computed at a power node are the AC power flow sums over the attached lines, and the implemented derivatives with respect to voltage and phase angle of the node and of all neighbours are the true derivatives.", "quantifier": "every number of attached lines with arbitrary orientations and admittances, every state", "why_tests_cant": "Node degree is unbounded; signs depend on line orientation.", "anchors": ["src/Model/Networkproblem/Power/Powernode.cpp: P, Q, evaluate_P_derivative, evaluate_Q_derivative", "src/Model/Networkproblem/Power/PQnode.cpp", "src/Model/Networkproblem/Power/PVnode.cpp", "src/Model/Networkproblem/Power/Vphinode.cpp"]}
{"id": "C34", "title": "Gas-to-power conversion is smooth and has the implemented derivative", "statement": "The generated power as function of gas flow is continuously differentiable everywhere with the implemented derivative, equals the linear conversion law with its two efficiencies outside the smoothing interval, and is strictly increasing when both efficiencies are positive and not too different.", "quantifier": "every flow, every pair of efficiencies", "why_tests_cant": "Seams of a piecewise function.", "anchors": ["src/Model/Networkproblem/Gaspowerconnection/Gaspowerconnection.cpp: generated_power, dgenerated_power_dq, smoothing_polynomial, dsmoothing_polynomial_dq"]}
{"id": "C35", "title": "Index assignment gives every component its own contiguous block", "statement": "After initialisation the state (control, constraint) blocks of the components are pairwise disjoint, contiguous, in component order, and together cover exactly the indices from 0 to the reported total.", "quantifier": "every list of components with arbitrary non-negative block sizes", "why_tests_cant": "All component lists.", "anchors": ["src/Model/Networkproblem/Networkproblem.cpp: init, set_state_indices, set_control_indices, set_constraint_indices", "src/Model/Networkproblem/Componentclasses/SimpleStatecomponent.cpp"]}
{"id": "C36", "title": "Both Jacobian fill modes and the transposed mode give the same matrix", "statement": "Filling a matrix through the structure-building handler and refilling it through the value-updating handler with the same list of contributions give the same matrix: each entry is the sum of all contributions to it, nothing is left over from the earlier fill, and the transposed mode gives the transposed matrix.", "quantifier": "every sequence of contributions and every earlier content of the matrix", "why_tests_cant": "All sequences, with repeated and new positions.", "anchors": ["src/Auxillary/Matrixhandler/Matrixhandler.cpp: Triplethandler, Coeffrefhandler"]}
{"id": "C37", "title": "Component data checks reject exactly the incomplete files", "statement": "Checking the topology against an initial/boundary/control file throws iff some component of the topology that needs data has no entry in the file; additional entries never cause an exception.", "quantifier": "every set of component ids and every sorted list of entries", "why_tests_cant": "All pairs of id lists.", "anchors": ["src/Model/Networkproblem/Networkproblem.cpp: check_components_in_json, get_ids_of_objects"]}
{"id": "C38", "title": "Boundary data is attached to the component with the same id", "statement": "Merging a boundary file into the topology attaches to each component the entry with its own id and leaves everything else unchanged, and throws if a component has no boundary entry.", "quantifier": "every sorted list of components and of entries", "why_tests_cant": "All pairs of id lists; end-of-list cases.", "anchors": ["src/Model/Netfactory/Netfactory.cpp: insert_second_json_in_topology_json"]}
{"id": "C39", "title": "Constructed nets are consistent graphs", "statement": "An edge is attached to exactly its declared start and end node, self-loops and unknown nodes are rejected, a constructed net has no duplicate ids and no edge touching a node outside it; removing an edge detaches it from both nodes and leaves other attachments alone.", "quantifier": "every sequence of edge creations and destructions on every set of nodes", "why_tests_cant": "All graphs and histories.", "anchors": ["src/Model/Network/Edge.cpp", "src/Model/Network/Node.cpp", "src/Model/Network/Net.cpp"]}
{"id": "C40", "title": "Sorting and duplicate detection by id", "statement": "Sorting component lists by id returns a permutation of the list in ascending id order, and the duplicate check throws iff two entries have the same id.", "quantifier": "every list of json objects with ids", "why_tests_cant": "All lists.", "anchors": ["src/Auxillary/ComponentJsonHelpers/ComponentJsonHelpers.cpp: get_sorted_ids_of_json, check_for_duplicates, sort_json_vectors_by_id"]}
{"id": "C41", "title": "Applying defaults only fills missing keys", "statement": "Applying schema defaults to component data adds every defaulted key that is missing with its default value, never changes a key that is present, adds nothing else, and applying it twice is the same as once.", "quantifier": "every schema with defaults and every json object", "why_tests_cant": "All objects.", "anchors": ["src/Auxillary/json_schema/schema_validation.cpp: apply_defaults, apply_defaults_unsafe"]}
{"id": "C42", "title": "Unit strings have one meaning", "statement": "A unit string that consists of an optional decimal number and blank, a known SI prefix (or none) and a unit of the requested measure whose name does not contain a caret (for these see C43) is accepted and converted with the product of number, prefix and unit factor plus the offset of the unit; every other string is rejected; no string has two readings with different meanings; the factors are those of the definitions of the units. The function for the part in front of the unit, called on its own, reads a number with a sign as well and returns the negative value for a minus sign; measurements with a sign in front of the unit are rejected.", "quantifier": "every string and every supported measure", "why_tests_cant": "All strings; ambiguities like 'm' as prefix or unit.", "anchors": ["src/Auxillary/unit_conversion/unit_conversion.cpp: parse_prefix, parse_unit, parse_to_si"]}
{"id": "C43", "title": "Every unit accepted by the parser is accepted by the schema", "statement": "The validation schema generated for a measure admits every prefixed unit string that the parser can convert.", "quantifier": "every measure, unit and prefix", "why_tests_cant": "Regular-expression metacharacters in unit names.", "anchors": ["src/Auxillary/unit_conversion/unit_conversion.cpp: get_schema, re_capture_from_map"]}
{"id": "C44", "title": "Rewriting a json file never loses data", "statement": "At every moment during overwriting a json file, including crashes and failed writes, either the old or the new content is available under the file's name or its backup name; after a normal return the file has the new content.", "quantifier": "every initial file system state, every failure of the write and every crash point", "why_tests_cant": "Crash points and I/O failures cannot be enumerated by unit tests.", "anchors": ["src/Auxillary/aux_json/Aux_json.cpp: overwrite_json"]}
{"id": "C45", "title": "Output files and directories never clobber existing results", "statement": "Creating a new output file or directory either creates a name that did not exist before or throws; existing files and directories are untouched.", "quantifier": "every initial file system state and every sequence of clock readings", "why_tests_cant": "Races and name collisions depend on clock and directory content.", "anchors": ["src/Auxillary/Input_Output/Input_output.cpp: create_new_output_file, unique_output_directory, prepare_output_directory, attach_epoch_count"]}
{"id": "C46", "title": "Truncated normal samples stay within the cut-off", "statement": "A sample drawn with bounds lies within the bounds and is the first drawn number that does; without given bounds it lies within two standard deviations of the mean; an exception is thrown exactly if 100000 numbers in a row lie outside.", "quantifier": "every sequence of random numbers, every mean, deviation and bounds", "why_tests_cant": "Random sequences cannot be exhausted; the failing branch has negligible probability.", "anchors": ["src/Auxillary/Stochastics/Normaldistribution.cpp: get_sample"]}
{"id": "C47", "title": "Stochastic demand paths respect stability and cut-off", "statement": "The number of sub-steps chosen for the Ornstein-Uhlenbeck process is at least the requested one and makes the explicit scheme stable (the distance of two paths with the same random numbers does not grow), and every returned value lies between (1-cutoff) and (1+cutoff) times the mean, in the right order for negative means.", "quantifier": "every mean, drift, volatility, step and cut-off in [0,1], every sequence of random numbers", "why_tests_cant": "All random sequences and parameters.", "anchors": ["src/Auxillary/Stochastics/Stochastic.cpp: compute_stable_number_of_oup_steps", "src/Auxillary/Stochastics/include/Stochastic.hpp: euler_maruyama_oup"]}
{"id": "C48", "title": "Saved results of stochastic power nodes are those of their own time step", "statement": "The active and reactive power saved for a time point are the values used in the simulation at that time point.", "quantifier": "every simulation with at least two time steps and every random sequence", "why_tests_cant": "Order of drawing and saving over whole simulations.", "anchors": ["src/Model/Networkproblem/Power/StochasticPQnode.cpp: prepare_timestep, json_save", "src/Grazer/commands.cpp: run"]}
{"id": "C49", "title": "Optimal controls can be saved and read back", "statement": "Writing controls to json and reading them back as control input on the same time grid gives the same control values for every component.", "quantifier": "every list of control components, control table and control grid", "why_tests_cant": "All component lists and tables.", "anchors": ["src/Model/Networkproblem/Componentclasses/SimpleControlcomponent.cpp: save_controls_to_json, set_simple_control_values", "src/Model/Networkproblem/Networkproblem.cpp: save_controls_to_json, set_initial_controls"]}
{"id": "C50", "title": "The cost gradient matches the cost", "statement": "The running cost a network reports to the optimizer is the weighted sum of the squared pressure rises of its compressors, each reading its own control, and the cost derivatives it reports are the derivatives of that cost (none with respect to the state). The derivative code leaves out the weight of the network, so this depends on that weight being the default 1, the only value a constructed network can have; for any other weight a non-zero derivative would be wrong.", "quantifier": "every network and every control vector; for the last part every weight", "why_tests_cant": "A weight that is 1 in all tests hides a missing factor.", "anchors": ["src/Model/Networkproblem/Networkproblem.cpp: evaluate_cost, d_evaluate_cost_d_state, d_evaluate_cost_d_control"]}
{"id": "C51", "title": "A non-positive desired time step is rejected", "statement": "Asking for a time grid with a negative desired time step, or with an end time before the start time, is rejected.", "quantifier": "every start time, end time and desired step", "why_tests_cant": "The set of real arguments is infinite and the outcome depends on how the rounded number of steps falls.", "anchors": ["src/Auxillary/Timedata/Timedata.cpp: Timedata", "src/Auxillary/InterpolatingVector/InterpolatingVector.cpp: make_from_start_delta_end", "src/Grazer/commands.cpp: run"]}
{"id": "C52", "title": "The constrained quantity of a constraint sink is its pressure in bar", "statement": "The value of the constraint of a ConstraintSink is the pressure in bar at the node, and its derivative matches, whatever kinds of edges are attached.", "quantifier": "every list of attached edges and every state", "why_tests_cant": "Tests attach one kind of edge and compare numbers produced by the same code.", "anchors": ["src/Model/Networkproblem/Gas/ConstraintSink.cpp: evaluate_constraint, d_evaluate_constraint_d_state"]}
{"id": "C53", "title": "The Jacobians of the whole network are the derivatives of its residual", "statement": "The matrices of derivatives with respect to the new state, the last state and the controls, assembled from all components, are the Jacobians of the residual assembled from all components, at every state with positive density and without turbulent flow.", "quantifier": "every well-formed network, time step, state and control", "why_tests_cant": "Topologies, sizes and states are unbounded; difference quotients in tests have rounding noise and look at single points.", "anchors": ["src/Model/Networkproblem/Networkproblem.cpp: evaluate, d_evaluate_d_new_state, d_evaluate_d_last_state, d_evaluate_d_control"]}
{"id": "C54", "title": "A zero of the residual solves the equations of the network", "statement": "All entries of the residual vanish exactly if the boundary conditions, equal pressures and flow balance at the nodes, power flow equations, the balance law in every pipe cell and the laws of all short components hold.", "quantifier": "every well-formed network, time step, state and control", "why_tests_cant": "Topologies and states are unbounded.", "anchors": ["src/Model/Networkproblem/Networkproblem.cpp: evaluate"]}
{"id": "C55", "title": "Every network that passes construction and setup can be evaluated", "statement": "If a network is constructed and set up without an error, evaluating its residual has no undefined behaviour and determines every entry.", "quantifier": "every network description accepted by the constructors and setup", "why_tests_cant": "Tests use meaningful networks; wrongly connected ones are not enumerated.", "anchors": ["src/Model/Network/Edge.cpp: Edge", "src/Model/Networkproblem/Power/Powernode.cpp: setup, P, Q", "src/Model/Networkproblem/Gas/Gasnode.cpp: setup"]}
{"id": "C56", "title": "Burning more gas always generates more power", "statement": "The generated power is a non-decreasing function of the gas flow for all positive conversion coefficients.", "quantifier": "every pair of positive coefficients and every pair of flows", "why_tests_cant": "The violation needs coefficients with a large ratio and flows inside the blending interval.", "anchors": ["src/Model/Networkproblem/Gaspowerconnection/Gaspowerconnection.cpp: generated_power"]}
{"id": "C57", "title": "Initial values and controls reach the component with the same id", "statement": "Distributing a file of initial values, controls or bounds hands an entry to a component iff the entry has that component's id; every component receives at least one entry, exactly one if no id is repeated in the file; it throws iff some component has no entry.", "quantifier": "every list of components with different ids and every well-formed component file", "why_tests_cant": "All pairs of id lists; entries for unknown components and repeated entries.", "anchors": ["src/Model/Networkproblem/Networkproblem.cpp: set_initial_values, set_initial_controls, set_lower_bounds, set_upper_bounds"]}
{"id": "C58", "title": "Adding defaults to a schema", "statement": "Adding defaults to a schema sets the default of every key given in the defaults, also inside nested objects, keeps every other part of the schema, and throws iff the defaults contain a key unknown to the schema or a non-object where the schema has an object with properties; applying a schema built this way twice is the same as once.", "quantifier": "every well-formed schema and every object of defaults, arbitrarily nested", "why_tests_cant": "All nestings; keys unknown at any depth.", "anchors": ["src/Auxillary/json_schema/make_schema.cpp: add_defaults, add_defaults_unsafe"]}
{"id": "C59", "title": "Keys with a default are not required", "statement": "Removing defaults from the required lists deletes exactly the keys whose definition has a default from the list of required keys, at every level of the schema, keeps the order of the others and changes nothing else.", "quantifier": "every schema whose required lists are lists of strings, arbitrarily nested", "why_tests_cant": "All nestings and lists.", "anchors": ["src/Auxillary/json_schema/make_schema.cpp: remove_defaults_from_required"]}
{"id": "C60", "title": "What the unit schema admits can be converted", "statement": "Every measurement that passes validation against the schema of its measure is converted to a number.", "quantifier": "every string and every supported measure", "why_tests_cant": "The admitted strings form an infinite language; the failing ones (a blank without a number) look like typos.", "anchors": ["src/Auxillary/unit_conversion/unit_conversion.cpp: Measure::get_schema, Measure::parse_to_si"]}
{"id": "C61", "title": "Paths outside of a root directory are recognized", "statement": "For a normalized absolute root directory the check of a file path answers yes exactly if the path, followed from the root directory (with '..' and '.'), leads into the root directory; it always gives an answer.", "quantifier": "every root directory and every absolute or relative path", "why_tests_cant": "All nestings of '..'; the failure is a read past the end of a range.", "anchors": ["src/Auxillary/Input_Output/Input_output.cpp: absolute_file_path_in_root"]}
{"id": "C62", "title": "Inserting the schema key", "statement": "Inserting the schema key into a data file sets the key '$schema' to the path of the schema of its type, as first key, keeps all other entries in their order, and doing it twice is the same as doing it once.", "quantifier": "every content of the data file", "why_tests_cant": "All contents, including files that already have the key.", "anchors": ["src/Auxillary/json_schema/schema_key_insertion.cpp: insert_schema_key_into_data_jsons"]}
{"id": "C63", "title": "Looking up nodes and edges in a net", "statement": "get_node_by_id returns a node of the net with this id (the node, if ids are different) and nullptr exactly if there is none; get_edge_by_id and get_edge_by_node_ids return an edge with this id or from the first to the second node and nullptr exactly if there is none; exists_edge_between holds exactly if an edge joins the two nodes in either direction, so it is symmetric.", "quantifier": "every net, every id", "why_tests_cant": "Tests look up a few ids in one hand-made net; the statement covers every net, including ones with parallel and opposite edges and missing ids.", "anchors": ["src/Model/Network/Net.cpp:115-193"]}
{"id": "C64", "title": "Reading interpolated values from json", "statement": "Values over time or space in a json document (control, boundary and initial values) that its schema accepts are read exactly: the points in order and each row of values; a document of control or boundary values with a row of another length is rejected with an exception; every document that the schema of control and boundary values accepts can be read.", "quantifier": "every schema, every document, every number of values per point", "why_tests_cant": "All documents, including empty lists and entries without the expected keys, for which no test file exists.", "anchors": ["src/Auxillary/InterpolatingVector/InterpolatingVector.cpp: construct_from_json", "src/Auxillary/json_schema/make_schema.cpp: make_boundary_schema"]}
{"id": "C65", "title": "Filling the controls of a component", "statement": "Each control component owns consecutive columns of the control table; the columns of different components do not overlap and together fill the table. Reading the control values of a component sets exactly its columns, at every time point to the value interpolated from its document, leaves all other entries as they are, and throws if a time point is outside the time range of the document.", "quantifier": "every list of components, control table, grid and document", "why_tests_cant": "All grids and all positions of the columns.", "anchors": ["src/Model/Networkproblem/Componentclasses/SimpleControlcomponent.cpp: set_simple_control_values, set_control_indices", "src/Model/Networkproblem/Networkproblem.cpp: set_control_indices"]}
{"id": "C66", "title": "End-of-grid asserts in double arithmetic", "statement": "A time interval that a build without asserts accepts is also accepted by a build with asserts: the computed last point of the grid and the end time differ by less than EPSILON as computed in double arithmetic.", "quantifier": "all doubles as start, end, desired step and number of points", "why_tests_cant": "The failure starts at end times above 2^20 seconds and is caused by rounding of x - 1e-10; the unit tests use small times.", "anchors": ["src/Auxillary/InterpolatingVector/InterpolatingVector.cpp: make_from_start_number_end, make_from_start_delta_end"]}
{"id": "C67", "title": "The state times end at the end time, in double arithmetic", "statement": "The accumulated points of an equidistant grid differ from the exact ones only by compounded roundoff, and the last state time is close enough to the end time that boundary values and controls given from the start to the end time can be evaluated at every state time.", "quantifier": "all starts, steps and numbers of points in double arithmetic", "why_tests_cant": "The drift of repeated addition depends on the exact bit patterns; only particular combinations of interval and step exceed EPSILON.", "anchors": ["src/Auxillary/InterpolatingVector/InterpolatingVector.cpp: set_equidistant_interpolation_points, operator()", "src/Grazer/commands.cpp: run"]}
{"id": "C68", "title": "Interpolation in double arithmetic", "statement": "At an interpolation point the stored values are returned exactly; between two points the result lies between the two stored values up to rounding; a constant vector is reproduced.", "quantifier": "all increasing lists of finite doubles, all finite values, all arguments in range", "why_tests_cant": "Quantifies over all doubles; rounding can only be ruled out by proof.", "anchors": ["src/Auxillary/InterpolatingVector/InterpolatingVector.cpp: operator()"]}
{"id": "C69", "title": "Number of time steps in double arithmetic", "statement": "The number of time steps of a simulation is the smallest one with steps not larger than desired_delta_t.", "quantifier": "all start times, end times and desired steps in double arithmetic", "why_tests_cant": "The step number is computed twice, the second time from the rounded step; the additional step appears only for some combinations such as 34 s and 5 s.", "anchors": ["src/Auxillary/Timedata/Timedata.cpp: init_Number_of_timesteps, init_delta_t", "src/Auxillary/InterpolatingVector/InterpolatingVector.cpp: make_from_start_delta_end", "src/Grazer/commands.cpp: run"]}
{"id": "C70", "title": "Control times", "statement": "Without control settings the controls live on the state times and the control used at a state time is exactly the stored one; contradictory or empty settings are rejected; number_of_steps gives that many control steps.", "quantifier": "all settings, all grids", "why_tests_cant": "Needs all grids; the meaning of number_of_steps is not tested.", "anchors": ["src/Grazer/helpers.cpp: setup_controls", "src/Auxillary/InterpolatingVector/InterpolatingVector.cpp: make_from_start_number_end"]}
{"id": "C71", "title": "Initial states are read from the file", "statement": "A component accepts only documents with the entries it asks for; it sets exactly its own state variables, to the values of the piecewise linear function through the rows of the document at its grid points (pipes: density for the pressure in bar), and rejects documents that do not reach all its grid points. After reading a file with a document for each component the whole state vector is determined by the file, whatever it held before. Unsorted documents are rejected.", "quantifier": "every list of components, every file, every document, every previous content of the vector", "why_tests_cant": "All documents, grids and component lists; a leftover or wrongly placed entry depends on the order and sizes of all components.", "anchors": ["src/Model/Networkproblem/Componentclasses/SimpleStatecomponent.cpp: set_simple_initial_values", "src/Model/Networkproblem/Networkproblem.cpp: set_initial_values", "src/Auxillary/json_schema/make_schema.cpp: make_initial_schema"]}
{"id": "C72", "title": "Gas edges report what was read", "statement": "The result that a gas edge (pipe, short pipe, compressor, control valve, gas power connection) saves for its initial state lists, at its grid points, the pressures and flows of the document of initial values, in the units of the document.", "quantifier": "every gas edge, every document that reaches all grid points, pressures for which the pressure law is invertible", "why_tests_cant": "The conversion to density and back and the layout of the vector must fit for all values.", "anchors": ["src/Model/Networkproblem/Gas/Pipe.cpp: set_initial_values, json_save", "src/Model/Networkproblem/Gas/Shortcomponent.cpp: json_save"]}
{"id": "C73", "title": "The states file", "statement": "The states file lists under every class and type exactly the components of that class and type in their order, each with its id, what it had before (for example the seeds) and one entry per saved time in the order of time; the file has the format of component files.", "quantifier": "every list of components and every list of saved states", "why_tests_cant": "All lists; a lost or misplaced component or time point.", "anchors": ["src/Model/Networkproblem/Networkproblem.cpp: json_save, add_results_to_json", "src/Model/Networkproblem/Componentclasses/Statecomponent.cpp: setup_output_json_helper"]}
{"id": "C74", "title": "Reported powers fit the reported voltages", "statement": "If the equations of a power node hold at a time, then the values P and Q reported for that time are the powers that flow from the node into the lines at the reported voltages and angles, for every kind of power node.", "quantifier": "every power node, every grid around it, every state that solves its equations", "why_tests_cant": "Reported values come partly from boundary data, partly from the state; all networks and states.", "anchors": ["src/Model/Networkproblem/Power/Powernode.cpp: json_save_power, P, Q", "src/Model/Networkproblem/Power/PQnode.cpp: json_save"]}
{"id": "C75", "title": "The grid of a pipe", "statement": "A pipe of positive length gets at least two grid points, with the smallest number of equal steps that are not larger than the desired step, and the steps add up to the length. Desired steps that are not positive are rejected.", "quantifier": "every length and every desired step", "why_tests_cant": "All quotients, in particular integral ones.", "anchors": ["src/Model/Networkproblem/Gas/Pipe.cpp: Pipe::Pipe"]}
{"id": "C76", "title": "Generated schemas of data files", "statement": "The generated schemas for topology, boundary, control and initial files accept exactly the files that have, per class, known component types with lists of entries of the right form; fields may be left out exactly if there are defaults for them. The schemas are generated exactly if the defaults name fields of the topology only. Files the program writes itself conform to them.", "quantifier": "every problem_data.json, every file, every component type", "why_tests_cant": "All component types, all combinations of defaults and all json documents.", "anchors": ["src/Auxillary/json_schema/schema_generation.cpp: make_full_factory_schemas", "src/Model/Componentfactory/Componentfactory.cpp: get_topology_schema, get_boundary_schema, get_control_schema, get_initial_schema"]}
{"id": "C77", "title": "Schema of a component and its construction", "statement": "The schema for topology entries and the construction of components agree: an entry from which a component is built is accepted by the schema, what is built is the entry completed with the defaults and has all fields and boundary values; conversely an accepted entry with boundary values can be built.", "quantifier": "every component type, all defaults, every entry", "why_tests_cant": "All types, entries and defaults, in particular incomplete defaults.", "anchors": ["src/Model/Componentfactory/include/Componentfactory.hpp: make_instance, get_schema", "src/Auxillary/json_schema/schema_validation.cpp: apply_defaults, validate_json"]}
{"id": "C78", "title": "Defaults for boundary, control and initial values", "statement": "Defaults given for boundary, control or initial values of a component type are usable: the schemas that read them can be generated.", "quantifier": "all defaults", "why_tests_cant": "All types and keys.", "anchors": ["src/Model/Componentfactory/include/Componentfactory.hpp: get_component_boundary_schema, get_component_control_schema, get_component_initial_schema", "src/Auxillary/json_schema/make_schema.cpp: add_defaults"]}
{"id": "C79", "title": "problem_data.json and its schema", "statement": "The schema for problem_data.json describes the documents that can be run, and schema generation uses the same defaults as a run.", "quantifier": "every document", "why_tests_cant": "All documents.", "anchors": ["src/Auxillary/json_schema/schema_generation.cpp: get_problem_data_schema", "src/Grazer/commands.cpp: run"]}
{"id": "C80", "title": "Building the components of a net", "statement": "From the data of a class one component is built per entry, grouped by type in ascending order, each from its entry completed with defaults; unknown types are rejected, described entries with boundary values are built, and a component that needs boundary values and has none prevents the net from being built. Entries that are file names are replaced by the contents of the file.", "quantifier": "every topology, boundary file and all defaults", "why_tests_cant": "All files and orders of entries.", "anchors": ["src/Model/Netfactory/Netfactory.cpp: build_node_vector, build_edge_vector, build_net", "src/Auxillary/aux_json/Aux_json.cpp: replace_entry_with_json_from_file"]}
{"id": "C81", "title": "The iterated friction factor solves the Colebrook-White equation", "statement": "exact_turbulent_lambda returns the friction factor that solves the Colebrook-White equation, up to a residual of 1e-12 (the tolerance of its loop); Reynolds numbers below 4000 are rejected.", "quantifier": "every Reynolds number of at least 4000, every diameter, every roughness of at most two diameters", "why_tests_cant": "The test compares with the Swamee-Jain formula for a few arguments and with a coarse tolerance; it does not see that the loop ends as soon as the residual is negative.", "anchors": ["src/Model/Balancelaw/Isothermaleulerequation.cpp: exact_turbulent_lambda"]}
{"id": "C82", "title": "Bounds of controls and constraints follow the files", "statement": "After initialize_bounds every entry of the four vectors (lower and upper bounds of the controls, lower and upper bounds of the constraints) is the value, at its point of time, of the piecewise linear function through the numbers the corresponding file lists for the component that owns the entry; what the vectors contained before does not matter, the order of the components in the file does not matter, and entries of the file for other components are ignored. Constraint indices are consecutive and no two components share one. A component that is missing in a file, and a list that does not cover some point of time, make the call throw.", "quantifier": "all networks (any number of components and of controls/constraints per component), all files with unique ids, all increasing lists of times, all vectors", "why_tests_cant": "Needs all components, orders and time grids; a swapped start index shows only with two components, a wrong file only if the files differ.", "anchors": ["src/Optimization_helpers/Optimization_helpers.cpp:72-88", "src/Model/Networkproblem/Networkproblem.cpp:306-390", "src/Model/Networkproblem/Networkproblem.cpp:499-567", "src/Model/Networkproblem/Componentclasses/SimpleConstraintcomponent.cpp:21-51", "src/Model/Networkproblem/Gas/ConstraintSink.cpp:60-79"]}
{"id": "C83", "title": "A sink is a source with the opposite sign", "statement": "For any JSON data, a Sink (or ConstraintSink) can be constructed exactly when a Source can be constructed from the same data, and then its boundary value at every time is the negative of the Source's, with an exception at exactly the same times. All entries of the data but the boundary values reach the node unchanged. Without boundary values the construction throws.", "quantifier": "all JSON values, all times", "why_tests_cant": "The equivalence is about all JSON documents, valid or not; tests can only sample.", "anchors": ["src/Model/Networkproblem/Gas/Flowboundarynode.cpp:25-50", "src/Model/Networkproblem/Gas/Sink.cpp:24-25", "src/Model/Networkproblem/Gas/ConstraintSink.cpp:29-30"]}
{"id": "C84", "title": "The derivatives handed to the solver are those of the network's optimal control problem", "statement": "Take a network (with the equations of its nodes and edges), increasing state times, control times and constraint times accepted by the constructor, and any differentiable one-parameter family of control tables together with tables of states that depend differentiably (or, if the solver accepts every right hand side, only continuously) on the parameter, that fulfil the equations of the network in every time step and start at a fixed state. If the linear solver returns only solutions and compute_derivatives succeeds at parameter 0, then (a) the objective evaluated by the optimizer is the compression cost, integrated over the state times by the trapezoidal rule with the initial cost left out, and the computed gradient, multiplied with the derivative of the control table, is its derivative; (b) the constraint value of every sink at every constraint time is the first variable at an end of an edge at this sink, and the row of the computed Jacobian, multiplied with the derivative of the control table, is its derivative.", "quantifier": "all networks whose states have positive densities and no turbulent flow in the pipes (Reynolds numbers below 4000), all time grids, all families of controls and states, all solvers that return only solutions", "why_tests_cant": "A test compares with difference quotients for one network and one control; the claim composes the derivatives of every component, the interpolation of the controls and the adjoint equations for all of them.", "anchors": ["src/IpoptWrapper/ImplicitOptimizer.cpp:207-431", "src/IpoptWrapper/ImplicitOptimizer.cpp:487-820", "src/Model/Networkproblem/Networkproblem.cpp:234-497", "src/Model/Networkproblem/Gas/ConstraintSink.cpp:32-58"]}
{"id": "C85", "title": "An optimizer is constructed exactly from data that fit together, and describes its problem faithfully to Ipopt", "statement": "The constructor of ImplicitOptimizer succeeds exactly if the initial state has as many entries as the problem has states, the three control tables (initial, lower, upper) lie on one grid and have the number of controls as width, the two constraint tables likewise, all time grids are sorted, the state times lie in the span of the control times, and every constraint time is a state time other than the first; in every other case it throws. The constructed optimizer tells Ipopt as sizes the number of controls at all control times, of constraints at all constraint times and of the possible entries of the Jacobian, or refuses if one of these does not fit into an int; the structure it supplies lists every possible entry once, in range and unchanged as ints. The bounds and the starting point it supplies have these sizes; they are the given tables if these were given at the control and constraint times, and their interpolation otherwise.", "quantifier": "all problem sizes, time grids, initial values and tables", "why_tests_cant": "A test constructs a few optimizers with small sizes; the claim is an equivalence over all data, including sizes around the maximum of an int.", "anchors": ["src/IpoptWrapper/ImplicitOptimizer.cpp:32-195", "src/IpoptWrapper/ImplicitOptimizer.cpp:431-478", "src/IpoptWrapper/Wrapper.cpp:35-147", "src/IpoptWrapper/Initialvalues.cpp:21-31", "src/Optimization_helpers/Optimization_helpers.cpp:59-70"]}
{"id": "C86", "title": "The exit code, the messages and the files of a run tell what happened", "statement": "The program exits with code 0 exactly if help was asked for or the run came to its end, and with 1 if it ended with an exception. Optimization takes place exactly if problem_data.json contains the entry optimize with value true. After exit code 0 of a simulation states.json contains the simulated states; after exit code 0 of an optimization Ipopt found an optimum, controls.json contains the controls Ipopt returned and states.json the states belonging to them. The cost, penalty and largest violation printed at the end are those of the returned controls. If Ipopt does not end with success, a message says so and contains Ipopt's status.", "quantifier": "all problem files, all behaviours of Ipopt (status, callbacks, solution or none), all behaviours of the operating system when files are written", "why_tests_cant": "Tests do not make Ipopt or the disk fail, and look at the files but not at the exit code.", "anchors": ["src/Grazer/grazer.cpp:31-94", "src/Grazer/commands.cpp:44-361", "src/IpoptWrapper/Adaptor.cpp:30-60", "src/IpoptWrapper/Wrapper.cpp:155-195", "src/IpoptWrapper/include/Wrapper.hpp:86-93"]}
{"id": "C87", "title": "The schema command writes the five schemas and touches nothing else", "statement": "The command schema make-full-factory writes exactly if the directory schemas does not exist or contains only known schema files; otherwise it throws and nothing is changed. After it has returned, the five files boundary, control, initial, problem_data and topology (with _schema.json) contain the generated schemas, and every other file in the directory is as before.", "quantifier": "all contents of the directory, all problem_data.json files, all behaviours of the operating system when files are written", "why_tests_cant": "Tests start from an empty directory; the claim is about every content of the directory and about failing writes.", "anchors": ["src/Auxillary/json_schema/schema_generation.cpp:36-119"]}
{"id": "C88", "title": "Vectors over time share memory only where they are meant to", "statement": "Among the three kinds of vectors over time (InterpolatingVector with storage of its own, MappedInterpolatingVector writing to foreign memory, ConstMappedInterpolatingVector reading foreign memory) an operation changes only the object it is applied to and only the foreign cells that object maps. A copy made into an InterpolatingVector keeps its values whatever happens to the original; a ConstMappedInterpolatingVector never changes memory, every attempt to write through it throws. Writing a time step changes that step and no other and throws for every index that is not one of a point. After an assignment both sides are equal, == holds exactly for equal points, inner length and values, and assignments between vectors of different structure throw unless the target owns its storage. Every vector always has one row of values per point and sorted points.", "quantifier": "all states of memory, all numbers of objects, all sequences of operations", "why_tests_cant": "Tests use a few vectors in a fixed order; the claim is about every aliasing pattern and every sequence of operations.", "anchors": ["src/Auxillary/InterpolatingVector/InterpolatingVector.cpp:133-222", "src/Auxillary/InterpolatingVector/InterpolatingVector.cpp:302-337", "src/Auxillary/InterpolatingVector/InterpolatingVector.cpp:348-433", "src/Auxillary/InterpolatingVector/InterpolatingVector.cpp:475-616"]}
{"id": "C89", "title": "Constraint Jacobians share memory only where they are meant to and hand their values over completely", "statement": "An operation on a ConstraintJacobian or MappedConstraintJacobian changes only that object and only the foreign cells it maps. A ConstraintJacobian made as a copy keeps its values whatever happens to the original; a copied MappedConstraintJacobian always shows the same matrix as its original. After an assignment between Jacobians of the same layout both have the same matrix and are equal; with different layouts it throws. Every access to the values of a MappedConstraintJacobian whose pointer is null throws. Filling a column block sets exactly the entries of that block. After replace_storage with the array of the caller and an assignment, the array contains for each index pair supplied to Ipopt the matrix entry with these indices, and nothing else in memory has changed.", "quantifier": "all sorted time grids, block sizes, states of memory and sequences of operations", "why_tests_cant": "A test looks at one small layout; the claim is about every layout and every aliasing pattern.", "anchors": ["src/IpoptWrapper/ConstraintJacobian.cpp:160-176", "src/IpoptWrapper/ConstraintJacobian.cpp:210-380", "src/IpoptWrapper/ImplicitOptimizer.cpp:390-420"]}
{"id": "C90", "title": "A finished simulation satisfies the equations of the network at every time", "statement": "If a simulation of a network ends without an exception, then it has stored one state for each point of the time grid, the first one is the initial state, and every state together with its predecessor satisfies all equations of the network up to the tolerance of the configuration: at every node the flows add up to the boundary value (or to zero) and the pressures of all edges agree (up to the tolerance times the number of edges minus one), pressure nodes and power nodes have their prescribed values, in every cell of every pipe the balance of mass and momentum holds up to the width of the cell times the tolerance, short pipes, compressors and control valves pass the flow on and change the pressure by their control, gas power plants deliver the power that belongs to their gas flow. With tolerance zero these are the exact equations. A simulation of a network always ends.", "quantifier": "all well-formed networks, boundary values defined on the time grid, controls, grids, initial states and solver settings (tolerance below 10^6); any factorisation and any linear solver", "why_tests_cant": "A test compares a few states with reference values; the claim is about every network and every step and needs the chain evaluate - Newton solver - time evolution.", "anchors": ["src/Model/Networkproblem/Networkproblem.cpp: evaluate, prepare_timestep", "src/Newtonsolver/Newtonsolver.cpp: solve", "src/Model/Problemlayer/Timeevolver.cpp: simulate, make_one_step", "src/Grazer/commands.cpp:94-129"]}
{"id": "C91", "title": "The gas in the pipes changes by what enters and leaves the network", "statement": "For a finished time step the mass of gas in all pipes (density times cross section, trapezoidal rule) changes by the length of the step times the density at norm conditions times the volume flow supplied at sources, sinks and pressure nodes minus the flow taken by gas power plants, up to the tolerance times (the volume of the pipes plus the length of the step times that density times the number of flow equations and short edges). Over a whole simulation the errors add up to at most the tolerance times (number of steps times volume plus length of the simulated period times that factor). With exact solutions gas is conserved exactly.", "quantifier": "all well-formed networks with pipes, short pipes, compressors, control valves and gas power plants; all sorted time grids, boundary values, controls and tolerances below 10^6", "why_tests_cant": "Conservation over a whole network follows from equations of every component fitting together (signs, areas, densities, directions); no test of one component shows it.", "anchors": ["src/Model/Networkproblem/Gas/Pipe.cpp: evaluate", "src/Model/Networkproblem/Gas/Gasnode.cpp: evaluate_flow_node_balance", "src/Model/Balancelaw/Isothermaleulerequation.cpp: flux, source, p_qvol"]}
{"id": "C92", "title": "Seed sequences lose no entropy and can be repeated", "statement": "For a seed sequence holding n words of 32 bits: seeding with n words is a bijection onto its states; with more words it is a bijection in the first n words for any choice of the others; with fewer words different inputs give different states. param returns the words the sequence was seeded with if there were n of them, and in every case n words that lead to the same state again. generate with n words is a bijection on the states, so that different seeds give different words to any generator that asks for at least n of them. The generated words use the words of the state in turn, one each. The modular inverses computed by fast_exp are inverses.", "quantifier": "every size of the sequence, all inputs of 32-bit words of any number", "why_tests_cant": "There are 2^256 seeds; a collision or a wrong inverse for some of them is not found by trying.", "anchors": ["Randutils/include/randutils.hpp:216-376"]}
{"id": "C93", "title": "The seed in the results repeats a stochastic run", "statement": "A stochastic power node writes the seed of its random number generator to its output, whether it was given or drawn. A node that is given this seed has the same generator, whatever entropy the second run finds, and writes the same seed again; the schema accepts it. The drawn seed gives the generator that the collected entropy itself would have given. A given list of at least eight integers is used modulo 2^32. Every list of numbers that the schema accepts as a seed can be used.", "quantifier": "all entropies, all seeds in boundary values, any random number generator that is seeded by a seed sequence", "why_tests_cant": "The claim relates two runs with different entropies and all values of the seed.", "anchors": ["src/Model/Networkproblem/Power/StochasticPQnode.cpp: StochasticPQnode, get_boundary_schema", "src/Auxillary/Stochastics/Normaldistribution.cpp: make_random_seed, setup_random_number_generator, Normaldistribution", "Randutils/include/randutils.hpp:406-541"]}
{"id": "C94", "title": "The input files become the network, the settings and the time grid they describe", "statement": "When grazer run has prepared a simulation from problem_data.json, the topology file and the boundary file: the nodes and edges are those of the files (completed by the defaults) in order, with their ids and types; every edge starts and ends at the nodes with the ids named in its entry; every component has the parameters of its entry - pipes the diameter and roughness in metres and as many equal cells as are needed so that none is longer than the desired length, boundary conditions the table of the boundary file, sinks with the opposite sign, power nodes and lines their conductances and susceptances, gas power plants their two factors; the Newton settings are those of the entry simulation_settings, and the time grid goes from start_time to end_time in equal steps, as many as are needed so that none is longer than desired_delta_t. The balance law a pipe names is the one used.", "quantifier": "all contents of the input files, all values of uninitialised memory", "why_tests_cant": "A test runs one directory; the claim is about every network description and every parameter, through four layers of construction.", "anchors": ["src/Grazer/commands.cpp:70-133", "src/Model/Netfactory/Netfactory.cpp:201-214", "src/Model/Network/Edge.cpp:37-93", "src/Model/Networkproblem/Gas/Pipe.cpp:73-87", "src/Auxillary/Timedata/Timedata.cpp:22-60", "src/Model/Problemlayer/Timeevolver.cpp:33-64"]}
{"id": "C95", "title": "The states file of a finished simulation solves the problem of the input files", "statement": "If grazer run (without optimization) ends without an exception, then the file states.json lists exactly the nodes and edges with states, under their types and ids, with one entry for each point of the time grid of the settings; the values reported for a time are a state of the network the input files describe; the first state has the values of initial.json; and every state together with its predecessor satisfies the equations of that network up to the tolerance in simulation_settings, with the controls of control.json at the time of the step. Every simulation ends.", "quantifier": "all input files, networks, settings (tolerance below 10^6), any linear solver and all values of uninitialised memory", "why_tests_cant": "Connects the text of the input files to the numbers in the output file; a test compares a few runs with stored results.", "anchors": ["src/Grazer/commands.cpp:70-133", "src/Grazer/helpers.cpp:24-68", "src/Model/Problemlayer/Timeevolver.cpp: simulate", "src/Model/Networkproblem/Networkproblem.cpp: evaluate, set_initial_values, set_initial_controls, json_save, add_results_to_json"]}
{"id": "C96", "title": "Controls and initial values of a run are those of the files", "statement": "The initial state of a run contains at the place of every edge and power node the values of its document in initial.json, interpolated at the grid points of pipes, and converted to the state variables. The controls at a time are, for every compressor and control valve, the values of its document in control.json, interpolated at the points of time of the controls and linearly between them. The points of time of the controls are those of the simulation if problem_data.json has no control_settings, otherwise they go from start_time to end_time in equal steps, either no longer than desired_delta_t or number_of_steps many. A truth value as number_of_steps is taken for the numbers 1 or 0; with false the run is rejected.", "quantifier": "all input files that give values for all components over the whole range of places or times, in any order of components", "why_tests_cant": "The order of components in the files, in the network and in the vectors differ; tests have one or two components.", "anchors": ["src/Grazer/helpers.cpp:24-68", "src/Grazer/commands.cpp:86-116", "src/Model/Networkproblem/Networkproblem.cpp: set_initial_values, set_initial_controls, setup", "src/Model/Networkproblem/Gas/Pipe.cpp: set_initial_values"]}
{"id": "C97", "title": "The optimization problem handed to Ipopt is the one of the input files", "statement": "When grazer run has set up an optimization from its input directory: the states are those of the network the files describe on the time grid of simulation_settings, the controls have the times of control_settings, and the constraints are evaluated at times of the grid, at most about every n-th one where n is evaluate_constraints_every_n; the numbers of variables and constraints told to Ipopt are controls times control points and nodes with constraints times constraint points; the starting point has for every compressor and control valve the values of control.json at the control times, the bounds of the variables those of lower_bounds.json and upper_bounds.json, and the bounds of the constraints have for every ConstraintSink the values of constraint_lower_bounds.json and constraint_upper_bounds.json at the constraint times, each at the index of its variable or constraint. Gradient and Jacobian that are then computed are the derivatives of the compression cost and of the values of the constrained sinks of that network (the first variable at an end of an edge at the sink, which is the pressure unless that edge is a pipe, see C52), at states with positive densities and without turbulent flow in the pipes.", "quantifier": "all contents of the input files; for starting point and bounds: files with values for all components over the whole time; all values of uninitialised memory; any correct linear solver", "why_tests_cant": "Six files and three index systems (components, file order, Ipopt indices) have to agree; tests with one controlled component and one constraint cannot see a permutation.", "anchors": ["src/Grazer/commands.cpp:153-223", "src/Optimization_helpers/Optimization_helpers.cpp:72-88", "src/Model/Networkproblem/Networkproblem.cpp: set_constraint_lower_bounds, set_constraint_upper_bounds", "src/IpoptWrapper/ImplicitOptimizer.cpp", "src/IpoptWrapper/Wrapper.cpp: get_bounds_info, get_starting_point, get_nlp_info"]}
{"id": "C98", "title": "During an optimization of the input files Ipopt gets the right answers", "statement": "For an optimization problem built from input files and every history of Ipopt callbacks in which changes of the point are announced: there is one assignment of a trajectory (states satisfying the equations of the network up to the tolerance of the solver, starting at the initial values, driven by the interpolated controls) or a failure to every table of controls. eval_f returns the total cost along the trajectory of the controls it is asked about, eval_g the constrained variables of that trajectory at the constraint times, row by row; both fail exactly if there is no trajectory. If eval_grad_f and eval_jac_g answer, the vectors are the gradient of the cost and the values of the constraint Jacobian at the places announced by eval_jac_g with a null pointer (right for every variation of controls with its trajectories, if the linear solver solves). If they refuse, there is no trajectory, or the first constraint time is not the second state time (C11), or the linear solver refused.", "quantifier": "all input files for which the problem can be built with admissible networks and increasing times, all callback histories, all tables of controls, all linear solvers", "why_tests_cant": "The answers depend on caches, flags, a nonlinear simulation and an adjoint computation at every point Ipopt visits; a test checks a few points of one problem.", "anchors": ["src/IpoptWrapper/Wrapper.cpp: eval_f, eval_grad_f, eval_g, eval_jac_g", "src/IpoptWrapper/ImplicitOptimizer.cpp: evaluate_objective, evaluate_constraints, evaluate_objective_gradient, evaluate_constraint_jacobian, compute_derivatives, supply_constraint_jacobian_indices", "src/Optimization_helpers/ControlStateCache.cpp: refresh_cache", "src/Grazer/commands.cpp: run"]}
{"id": "C99", "title": "The result files of an optimization belong to the delivered solution and can be simulated again", "statement": "If an optimization of input files finishes, the problem is the one of the files, and Ipopt has delivered a solution: the printed overall objective is the value Ipopt delivered, and a failure is printed exactly if its status is not success. controls.json contains, for every edge with a control under its type and id, the values of the solution at the control times, and nothing else. states.json has one document for every component with states; if the delivered solution can be simulated, it reports the states of the trajectory of that solution at all time points. Putting the written controls in place of control.json and simulating the same directory yields the same states.json. The printed cost, penalty and violations are those of the solution (this is proved if the last point that Ipopt evaluated is the solution; it is false otherwise, C13).", "quantifier": "all input files for which the run finishes, all behaviours of Ipopt, all linear solvers; for the trajectories admissible networks and increasing control times", "why_tests_cant": "A test compares the files of one run with reference files; that they belong to the delivered solution whatever Ipopt evaluated before needs the whole path from the callbacks through the cache to the files.", "anchors": ["src/Grazer/commands.cpp: run", "src/IpoptWrapper/Wrapper.cpp: finalize_solution", "src/IpoptWrapper/Adaptor.cpp: optimize", "src/Model/Networkproblem/Networkproblem.cpp: save_controls_to_json", "src/Optimization_helpers/ControlStateCache.cpp: refresh_cache"]}
{"id": "C100", "title": "A simulation with stochastic power nodes: noise, seeds and results", "statement": "For a simulation of input files with StochasticPQnodes: the states written to states.json satisfy at every time the equations of the network the files describe (up to the tolerance of the solver), in which the mean powers of every stochastic node are replaced by drawn ones. The drawn powers are the ends of Ornstein-Uhlenbeck paths that start at the powers of the last state, have the drift, diffusion, number of steps and cut-off of the entries of the node, and use new samples of the generator of that node. Where the mean is not zero and there are stochastic steps, drawn powers differ from it by at most cut_off_factor times its absolute value. The seed of every stochastic node has eight words, is the one in the file if there is one and generated otherwise, and is written to states.json. Putting the written seeds into the topology and running again gives the same states.json. The simulation ends. The powers written for a time are those of the state at that time (this part is false).", "quantifier": "all contents of the input files, all generators and samples, all entropy, all values of uninitialised memory, all linear solvers", "why_tests_cant": "Random runs differ from each other; a test can fix one seed and compare one output, but not show that the noise enters the equations at the right place for all draws, nor that the reported seed reproduces every run.", "anchors": ["src/Model/Networkproblem/Power/StochasticPQnode.cpp", "src/Model/Networkproblem/Power/include/StochasticPQnode.hpp", "src/Grazer/commands.cpp:70-133", "src/Model/Networkproblem/Networkproblem.cpp:249-262", "src/Auxillary/Stochastics/include/Stochastic.hpp"]}
{"id": "C101", "title": "The Newton solver converges from a good starting point", "statement": "Let the residual be differentiable with a Lipschitz derivative in a ball about the starting point, the linear systems be solved with solutions at most beta times as long as the right hand side, and the first step of length eta be small (beta L eta <= 1, 2 eta at most the radius). Then Newtonsolver::solve with a new matrix in every step takes every step undamped, reports success after at most k+1 iterations whenever the quadratically decreasing bound of step k is below the tolerance, and ends within 2 eta of the start with a residual within the tolerance. With the matrix of the start only (simplified Newton) it converges linearly if beta L eta <= 1/4; the same holds for a matrix that differs from the derivative by at most delta if beta (delta + 2 L eta) <= 1/2. For a time step of a network with non-turbulent pipes the implemented matrix is the derivative, so the solver reports success and the result satisfies the network's equations within the tolerance. For networks whose equations are linear (no pipes, gas power connections or power flow) every simulation succeeds if the solver may make at least one iteration per step, whatever the starting state.", "quantifier": "For all dimensions, functions, derivatives, starting points, constants, factorisations meeting the bounds, tolerances, numbers of iterations and damping bounds; all networks, times, states and controls; all points of time and starting states for linear networks", "why_tests_cant": "Tests run a handful of iterations on examples; that the solver's damping never interferes near a solution and how many iterations suffice is a statement about all functions and starting points.", "anchors": ["src/Newtonsolver/Newtonsolver.cpp:63-163", "src/Model/Networkproblem/Networkproblem.cpp", "src/Model/Networkproblem/Power/Powernode.cpp"]}
{"id": "C102", "title": "Ipopt's callbacks for a problem with stochastic power nodes", "statement": "Let the network of the input contain StochasticPQnodes and let Ipopt announce its changes of the point. Then every answer of the callbacks belongs to a trajectory of the network with drawn powers: it starts at the given initial state, satisfies the equations of every time step (up to the tolerance of the solver) with the powers the stochastic nodes drew for this step along their processes, and no random number is used twice, neither within a trajectory nor for trajectories of different points; the objective is the cost of the controls along this trajectory and the constraints are the pressures in its states. The gradient and the Jacobian are the derivatives of cost and constraints along this trajectory for fixed random numbers, in whatever way the powers drawn in a step depend on the powers of the last state (if the linear solver used for them is right and the states satisfy the equations exactly): since the equations fix the powers of a stochastic node, they do not depend on the controls. All answers between two announcements of a new point belong to the same trajectory, so within one iteration values are consistent. Two stronger claims are refuted: that the answer is determined by the point (when Ipopt returns to a point, the values are those of other random numbers, and the simulation can fail where it succeeded), and that the states saved after the optimization are those to which the reported violations belong (the objective is evaluated anew before saving).", "quantifier": "all input networks that can be constructed, all generators, samples and entropy, all linear solvers, all histories of callbacks in which new points are announced", "why_tests_cant": "Noise makes runs differ, so tests avoid it; whether answers of one iteration stem from one trajectory depends on the history of callbacks, of which a test sees one.", "anchors": ["src/IpoptWrapper/ImplicitOptimizer.cpp: evaluate_objective, evaluate_constraints, new_x", "src/Optimization_helpers/ControlStateCache.cpp: refresh_cache", "src/Model/Networkproblem/Power/StochasticPQnode.cpp: prepare_timestep", "src/Grazer/commands.cpp: run"]}
{"id": "C103", "title": "Names of the output directories", "statement": "Every run gets a name for its output directory from the clock: date and time of the calendar, and the milliseconds of the second. A name can be made for every year of at most 16 digits; two points of time get the same name only if the calendar shows the same second for both and they lie in the same millisecond of it; directories made later are listed later. prepare_output_file creates a file that was not there in the subdirectory output, which it makes if needed, and changes nothing else; a file named output is rejected.", "quantifier": "all points of time after 1970, all calendars (time zones, clock changes), all directories and all actions of other processes", "why_tests_cant": "Tests look at one name made at one moment; the order within a second depends on the milliseconds.", "anchors": ["src/Auxillary/Input_Output/Input_output.cpp: millisecond_datetime_timestamp, prepare_output_file"]}
{"id": "C104", "title": "Steady states stay; the pressure falls in the direction of the flow", "statement": "A state that satisfies the equations without change in time (in every cell of a pipe inflow, outflow and friction are in balance; node and other edge equations as they are) solves the system of a time step from itself, and only such states do. A simulation that starts in a state which is steady for the boundary values and controls at all later time points stores exactly this state for all time points, whatever the time steps, the linear solver and the number of allowed Newton steps. In a steady state the flow is the same at all points of a pipe; if the gas is slower than sound there, the pressure falls strictly in the direction of the flow and is constant if there is no flow. Gas at rest (the same pressure everywhere, no flow, no boundary flow, no pressure change by controls) is a steady state.", "quantifier": "all networks, states, controls, boundary values, time points, solver parameters; all pipes with valid geometry, all subsonic states", "why_tests_cant": "A test runs a few networks for a few steps with a tolerance; that a state is kept exactly, and the sign of the pressure drop for all flows, diameters and roughnesses, need the equations.", "anchors": ["src/Model/Problemlayer/Timeevolver.cpp: simulate", "src/Model/Balancelaw/Isothermaleulerequation.cpp: flux, source", "src/Model/Scheme/include/Implicitboxscheme.hpp: evaluate_point", "src/Model/Networkproblem/Gas/Pipe.cpp: evaluate"]}
{"id": "C105", "title": "Power networks as a whole: balance of power, islands without given phase", "statement": "In every state the active and reactive power fed in at all nodes together equal what flows to the ground at the nodes and what is used up in the lines (admittance times square of the voltage difference); if no line and no connection to the ground produces power, at least as much is generated as consumed. In a solution the nodes with given voltage and phase deliver the losses plus what the other nodes consume. If in a part of the network that is not connected to the rest by lines no node has a given phase, then turning all its phases by the same angle changes no residual, so solutions are never unique, and the Jacobian of a time step is singular in every state; setup does not reject such networks.", "quantifier": "all networks, states, admittances, boundary values, controls and times; all islands and angles", "why_tests_cant": "Tests compare a few voltages of one network with reference values; balance over all networks and the singularity in every state follow only from the equations.", "anchors": ["src/Model/Networkproblem/Power/Powernode.cpp: P, Q, evaluate_P_derivative, evaluate_Q_derivative", "src/Model/Networkproblem/Power/PQnode.cpp: evaluate", "src/Model/Networkproblem/Power/PVnode.cpp: evaluate", "src/Model/Networkproblem/Power/Vphinode.cpp: evaluate", "src/Model/Networkproblem/Networkproblem.cpp: evaluate, d_evaluate_d_new_state"]}
{"id": "C106", "title": "The order and direction in which components are entered do not matter", "statement": "If the nodes and edges of a network are entered in another order, and any of its pipes, short pipes and power lines in the opposite direction, then every state has a counterpart in the new network (the blocks are moved; in edges turned around the points come in the opposite order and the flows have the opposite sign), and a counterpart solves the equations of a time step of the new network exactly if the original solves those of the original network.", "quantifier": "all networks, all permutations of nodes and edges, all sets of turned edges, all states, controls, boundary values and times", "why_tests_cant": "A test compares two files of one network; that no equation depends on position or direction needs the equations of all networks.", "anchors": ["src/Model/Networkproblem/Networkproblem.cpp: evaluate, set_state_indices", "src/Model/Networkproblem/Gas/Gasnode.cpp: evaluate_flow_node_balance", "src/Model/Networkproblem/Gas/Pipe.cpp: evaluate", "src/Model/Networkproblem/Gas/Shortpipe.cpp: evaluate", "src/Model/Networkproblem/Power/Powernode.cpp: setup_helper, P, Q", "src/Model/Balancelaw/Isothermaleulerequation.cpp: flux, source"]}
{"id": "C107", "title": "Gas networks whose pressures or flows are not determined", "statement": "A change of pressures and flows that leaves pipes and nodes with given pressure alone, changes both ends of every short pipe, compressor and control valve alike and is balanced at every other node changes no residual; so solutions are never unique, and the Jacobian of a time step is singular in every state. Such changes exist in particular if a part of the network contains neither pipes nor nodes with given pressure, if two short pipes, compressors or control valves join the same two nodes (a compressor with a bypass), and if one of these joins two nodes with given pressure; in the last case a solution exists only if the given pressures differ by the control. Without pipes a solution exists only if all supplies together equal what the power plants burn. Setup rejects none of these networks.", "quantifier": "all networks, changes, states, boundary values, controls and times", "why_tests_cant": "A test runs networks for which the solver works; that a whole class of accepted networks has a singular Jacobian in every state follows only from the equations.", "anchors": ["src/Model/Networkproblem/Gas/Gasnode.cpp: evaluate_flow_node_balance", "src/Model/Networkproblem/Gas/Pressureboundarynode.cpp: evaluate", "src/Model/Networkproblem/Gas/Shortpipe.cpp: evaluate", "src/Model/Networkproblem/Gas/Compressorstation.cpp: evaluate", "src/Model/Networkproblem/Gas/Controlvalve.cpp: evaluate", "src/Model/Networkproblem/Networkproblem.cpp: evaluate, d_evaluate_d_new_state"]}
{"id": "C108", "title": "Simulations of networks whose state is not determined", "statement": "If a network has an island of power nodes without given phase or a change of pressures and flows that no equation sees (as in C105 and C107), then the Jacobian of every time step is singular in every state whatsoever. So, if the linear solver reports success only for invertible matrices, Newton's method never moves away from its start value: every simulation that ends without exception has stored the initial state at all times, and this state satisfies the equations of all time steps up to the tolerance; all other simulations of such a network end with an exception or not at all, although setup accepts the network.", "quantifier": "all networks (also with random boundary values), initial states, controls, time grids and settings of the solver; all linear solvers that report success only for invertible matrices; all states, also with turbulent flow", "why_tests_cant": "A test runs one network from one initial state; that no time step of a whole class of accepted networks can ever be computed is a statement about all states and settings.", "anchors": ["src/Newtonsolver/Newtonsolver.cpp: solve", "src/Model/Problemlayer/Timeevolver.cpp: simulate, make_one_step", "src/Model/Networkproblem/Networkproblem.cpp: d_evaluate_d_new_state", "src/Model/Networkproblem/Gas/Gasnode.cpp: evaluate_flow_node_derivative", "src/Model/Networkproblem/Power/Powernode.cpp: evaluate_P_derivative, evaluate_Q_derivative"]}
{"id": "C109", "title": "Gas networks without pipes have exactly one solution if and only if they are trees", "statement": "For a network of gas nodes joined by short pipes, compressors and control valves, with boundary values at the new time, the following are equivalent: the equations of the time step have exactly one solution; the Jacobian is invertible; no change of pressures and flows is unseen by all equations (C107); the network consists of trees whose roots are the nodes with given pressure (no closed loop, exactly one node with given pressure in every connected part that has an edge). For such networks, with a linear solver that solves all systems with invertible matrix, Newton's method succeeds from every start value with at most one iteration - it accepts the start value or returns the exact solution - and every simulation ends normally with states that satisfy the equations up to the tolerance, also with simplified Newton steps, without retries and for every initial state.", "quantifier": "all networks of short components, all boundary values and controls, all states, time grids and settings of the solver with non-negative tolerance and at least one iteration; all linear solvers that solve regular systems; real arithmetic", "why_tests_cant": "A test runs the solver on a few networks; the equivalence is about all graphs, and success from every start value cannot be enumerated.", "anchors": ["src/Model/Networkproblem/Gas/Gasnode.cpp: evaluate_flow_node_balance, evaluate_flow_node_derivative", "src/Model/Networkproblem/Gas/Shortcomponent.cpp", "src/Model/Networkproblem/Gas/Compressorstation.cpp: evaluate", "src/Model/Networkproblem/Gas/Controlvalve.cpp: evaluate", "src/Newtonsolver/Newtonsolver.cpp: solve", "src/Model/Problemlayer/Timeevolver.cpp: simulate, make_one_step"]}
{"id": "C110", "title": "The gas in every part of a network changes by what crosses its border", "statement": "For every set of nodes, with the edges between them, the mass of gas in the pipes of this part changes in a finished time step by the length of the step times the density at norm conditions times (what the nodes of the part supply, plus what enters through the edges to the rest of the network, minus what the power plants of the part take), up to the tolerance times the volume and number of equations of the part; this holds in every step of a finished simulation, and without error for exact solutions. If one edge joins the part to the rest and the gas in its pipes does not change, the flow through this edge is what the part consumes. If the part has neither nodes with given pressure nor power plants nor pipes, this flow is the same for all controls, all previous states and all solutions.", "quantifier": "all networks, all sets of nodes, all states, boundary values, controls, sorted time grids and tolerances below 10^6", "why_tests_cant": "There are exponentially many parts of a network, and the claim about all controls and states cannot be enumerated.", "anchors": ["src/Model/Networkproblem/Gas/Gasnode.cpp: evaluate_flow_node_balance", "src/Model/Networkproblem/Gas/Pipe.cpp: evaluate", "src/Model/Networkproblem/Gas/Shortpipe.cpp: evaluate", "src/Model/Networkproblem/Gas/Compressorstation.cpp: evaluate", "src/Model/Networkproblem/Gas/Controlvalve.cpp: evaluate"]}
{"id": "C111", "title": "Loads that the lines of a power network cannot carry", "statement": "In every state of a network the complex power at a node differs from what the node's own admittance takes by at most its voltage times the sum, over its lines, of the absolute value of the admittance times the voltage at the other end; so the power s at a node with own admittance Y satisfies 2|s||Y| <= reach^2 + 2 Re(sY), where reach is that sum. If a PQ node whose lines all lead to nodes with given voltage prescribes a power beyond this limit (by more than a multiple of the tolerance), no state satisfies the equations up to the tolerance, no simulation that contains such a time ends normally, whatever the solver does, and a run of input files that describe such a network delivers no states. If PQ nodes are joined only to V-phi nodes, the limit is exact: the equations have a solution if and only if every prescribed power keeps it. The square of the voltage at each PQ node is then one of the two roots of a quadratic equation, and for every choice of roots there is a solution: states of a power network are not unique.", "quantifier": "all networks, states, boundary values, settings, time grids and linear solvers; for the equivalence all networks of V-phi and PQ nodes with non-zero own admittance in which no line joins two PQ nodes", "why_tests_cant": "Tests use loads for which the solver converges; that no state at all solves the equations beyond a limit is a statement about infinitely many states.", "anchors": ["src/Model/Networkproblem/Power/Powernode.cpp: P, Q", "src/Model/Networkproblem/Power/PQnode.cpp: evaluate", "src/Model/Networkproblem/Power/PVnode.cpp: evaluate", "src/Model/Networkproblem/Power/Vphinode.cpp: evaluate", "src/Model/Problemlayer/Timeevolver.cpp: simulate"]}
{"id": "C112", "title": "Pressures along short components add up", "statement": "Along every walk over short pipes, compressors and control valves (in either direction) the pressure rises by the controls of the compressors minus those of the control valves: exactly for exact solutions, and for every finished time step up to the tolerance times a number that depends only on the walk (its edges, and the gas edges at its nodes). Hence around a closed walk the controls cancel, and along a walk between two nodes with given pressure they make up the difference. If at one of the times after the first they do not, by more than that number times the tolerance, no simulation ends normally, whatever the solver does, and a run of such input files delivers no states.", "quantifier": "all networks, walks, states, boundary values, controls, time grids, settings and linear solvers", "why_tests_cant": "A test runs one network with controls for which the solver converges; walks and controls cannot be enumerated.", "anchors": ["src/Model/Networkproblem/Gas/Compressorstation.cpp: evaluate", "src/Model/Networkproblem/Gas/Controlvalve.cpp: evaluate", "src/Model/Networkproblem/Gas/Shortpipe.cpp: evaluate", "src/Model/Networkproblem/Gas/Gasnode.cpp: evaluate_flow_node_balance", "src/Model/Networkproblem/Gas/Pressureboundarynode.cpp: evaluate", "src/Model/Problemlayer/Timeevolver.cpp: simulate"]}
{"id": "C113", "title": "Only time differences matter", "statement": "Adding the same constant to the times of all boundary values, to the times of the controls, to start and end time and so to the time grid changes nothing else: tables have the same values at the later times (and throw where they did), the residual and the Jacobians of the network are the same, the simulation delivers exactly the same states or fails in the same way, and the weights of the objective and the positions of states between control times are the same (in exact arithmetic).", "quantifier": "all shifts, tables, networks, states, controls, time grids, settings, and all linear solvers that are functions of the Jacobian", "why_tests_cant": "A test can shift one problem by one constant; the property quantifies over all problems and shifts.", "anchors": ["src/Auxillary/InterpolatingVector/InterpolatingVector.cpp: operator()", "src/Auxillary/Timedata/Timedata.cpp: Timedata", "src/Model/Scheme/include/Implicitboxscheme.hpp: evaluate_point", "src/Model/Networkproblem/Networkproblem.cpp: evaluate", "src/Model/Problemlayer/Timeevolver.cpp: simulate", "src/Optimization_helpers/Optimization_helpers.cpp: compute_index_lambda", "src/IpoptWrapper/ImplicitOptimizer.cpp: make_objective_function_coefficients"]}
{"id": "C114", "title": "Parts that are not connected do not influence each other", "statement": "If a network consists of two networks without edges between them, with the nodes and edges of the two in any order, the states of the whole are the pairs of states of the two parts, and a pair solves the equations of a time step exactly if each state solves those of its part; the residual of the whole is zero exactly if those of the parts are, and the whole has a solution exactly if both parts have one. Each finished time step of a simulation of the whole, restricted to a part that is not connected with the rest, satisfies the equations of that part alone up to the tolerance.", "quantifier": "all networks, arrangements of the parts, states, boundary values, controls, time steps, settings and linear solvers", "why_tests_cant": "A test compares a few pairs of networks; the property quantifies over all networks and all arrangements of their components.", "anchors": ["src/Model/Networkproblem/Networkproblem.cpp: evaluate", "src/Model/Networkproblem/Networkproblem.cpp: set_state_indices", "src/Model/Networkproblem/Gas/Gasnode.cpp: gasnode_setup_helper", "src/Model/Networkproblem/Power/Powernode.cpp: setup_helper", "src/Model/Network/Edge.cpp: Edge", "src/Model/Problemlayer/Timeevolver.cpp: simulate"]}
{"id": "C115", "title": "Without pipes a network has no memory", "statement": "In a network without pipes the residual of a time step and its Jacobian do not depend on the state before the step or on the start of the step, and on the new time only through the boundary values; the derivative with respect to the state before has no entries. Every state found by a simulation satisfies the equations of its own time up to the tolerance whatever came before. If boundary values and controls stay the same over some time steps, the states after these steps are exactly the state before them, not only up to the tolerance.", "quantifier": "all networks without pipes, states, boundary values, controls, time grids, settings and linear solvers", "why_tests_cant": "A test runs a few networks over a few steps; the property quantifies over all states that could have come before.", "anchors": ["src/Model/Networkproblem/Networkproblem.cpp: evaluate", "src/Model/Networkproblem/Networkproblem.cpp: d_evaluate_d_last_state", "src/Model/Networkproblem/Gas/Shortpipe.cpp: d_evaluate_d_last_state", "src/Newtonsolver/Newtonsolver.cpp: solve", "src/Model/Problemlayer/Timeevolver.cpp: simulate"]}
{"id": "C116", "title": "A short pipe between a node and one of its edges changes nothing", "statement": "If the end of a gas edge is detached from its node and attached to a new inner node, and a short pipe joins the two nodes, then a state solves the equations of a time step exactly if it solves those of the old network and the short pipe has the pressure of the end of the edge and what flows from the node into the edge; the residual computed for the new network is zero exactly then. Every solution of the old network belongs to exactly one solution of the new one.", "quantifier": "all networks, edges of all types and both ends, states, boundary values, controls and time steps", "why_tests_cant": "A test compares a few pairs of networks; the property quantifies over all networks and all places at which the short pipe is inserted.", "anchors": ["src/Model/Networkproblem/Networkproblem.cpp: evaluate", "src/Model/Networkproblem/Networkproblem.cpp: set_state_indices", "src/Model/Networkproblem/Gas/Shortpipe.cpp: evaluate", "src/Model/Networkproblem/Gas/Gasnode.cpp: evaluate_flow_node_balance"]}
{"id": "C117", "title": "Other units for the power network", "statement": "If all voltages are expressed in a unit u times as small and all admittances in a unit w times as small, and powers, boundary values and the coefficients of gas power plants accordingly (powers become u*u*w times as large), then a state solves the equations of a time step exactly if the state in the new units solves those of the network in the new units; the residual computed for the one is zero exactly if that computed for the other is. The numbers of variables and their places do not change, and every state can be expressed in the new units and back.", "quantifier": "all networks, all nonzero u and w, states, boundary values, controls and time steps", "why_tests_cant": "A test compares a few networks in two systems of units; the property quantifies over all networks and all factors.", "anchors": ["src/Model/Networkproblem/Power/Powernode.cpp: P", "src/Model/Networkproblem/Power/Powernode.cpp: Q", "src/Model/Networkproblem/Networkproblem.cpp: evaluate", "src/Model/Networkproblem/Gaspowerconnection/Gaspowerconnection.cpp: evaluate"]}
{"id": "C118", "title": "Only the sum of the admittances between two power nodes matters", "statement": "If a part of the admittance of a power line is moved to a new line between the same two nodes, in either direction, then a state solves the equations of a time step exactly if it solves those of the network with the one line, and the residual computed for the one network is zero exactly if that computed for the other is. The numbers of variables and their places do not change. The same holds for any two sets of lines with the same sum of admittances between each two nodes; in particular lines without admittance can be added or removed.", "quantifier": "all networks, lines, parts of the admittance, states, boundary values, controls and time steps", "why_tests_cant": "A test compares a few pairs of networks; the property quantifies over all networks, lines and parts of the admittance.", "anchors": ["src/Model/Networkproblem/Power/Powernode.cpp: setup", "src/Model/Networkproblem/Power/Powernode.cpp: P", "src/Model/Networkproblem/Power/Powernode.cpp: Q", "src/Model/Networkproblem/Networkproblem.cpp: evaluate"]}
{"id": "C119", "title": "A pipe cut at a grid point is two pipes", "statement": "If a pipe is cut at one of its inner grid points into two pipes with the same grid width that meet at a new inner node, then a step solves the equations with the two pipes exactly if it solves those with the one pipe, where the values at the cut belong to both parts; the residual computed for the new network is zero exactly if that computed for the old one is. Every solution with the two pipes belongs to one with the one pipe if the densities at the cut are in the range where the pressure determines the density. The new network has two variables more.", "quantifier": "all networks, pipes, inner grid points, states, boundary values, controls and time steps", "why_tests_cant": "A test compares a few pairs of networks; the property quantifies over all networks, all pipes and all grid points.", "anchors": ["src/Model/Networkproblem/Networkproblem.cpp: evaluate", "src/Model/Networkproblem/Gas/Pipe.cpp: evaluate", "src/Model/Networkproblem/Gas/Gasnode.cpp: evaluate_flow_node_balance", "src/Model/Networkproblem/Networkproblem.cpp: set_state_indices"]}
{"id": "C120", "title": "Boundary conditions can be exchanged for the values that result from them", "statement": "A solution of a time step remains a solution if a node with given pressure is replaced by one with the inflow that the solution has there, or a node with given flow by one with the pressure that the solution has there, and a power node of any of its three kinds (real and reactive power, real power and voltage, or voltage and phase given) by one of another kind with the values that the solution has there; the residual computed for the new network is then zero as well. A state solves the equations with given inflow and has a certain pressure exactly if it solves those with that pressure given and has that inflow. A source is a sink with the opposite value, and an inner node is a source of nothing.", "quantifier": "all networks, nodes, states, boundary values, controls and time steps", "why_tests_cant": "A test compares a few pairs of networks; the property quantifies over all networks and all nodes.", "anchors": ["src/Model/Networkproblem/Networkproblem.cpp: evaluate", "src/Model/Networkproblem/Gas/Pressureboundarynode.cpp: evaluate", "src/Model/Networkproblem/Gas/Flowboundarynode.cpp: evaluate", "src/Model/Networkproblem/Power/PVnode.cpp: evaluate", "src/Model/Networkproblem/Power/PQnode.cpp: evaluate", "src/Model/Networkproblem/Power/Vphinode.cpp: evaluate"]}
{"id": "C121", "title": "Of a short component only the change of pressure matters", "statement": "If some short pipes, compressors and control valves are replaced by others between the same nodes, and the controls are such that each of them changes the pressure by as much as before (a compressor raises it by its control, a control valve lowers it by its control, a short pipe leaves it), then exactly the same states solve the equations of a time step, and the residual computed for the one network is zero exactly if that computed for the other is. The variables keep their places.", "quantifier": "all networks, choices of short components, controls, states, boundary values and time steps", "why_tests_cant": "A test compares a few pairs of networks; the property quantifies over all networks and all controls.", "anchors": ["src/Model/Networkproblem/Networkproblem.cpp: evaluate", "src/Model/Networkproblem/Gas/Compressorstation.cpp: evaluate", "src/Model/Networkproblem/Gas/Controlvalve.cpp: evaluate", "src/Model/Networkproblem/Gas/Shortpipe.cpp: evaluate"]}
{"id": "C122", "title": "Voltages with the opposite sign and phases moved by turns", "statement": "At a power node with given real and reactive power the phase may be moved by half turns if the sign of the voltage is changed for every odd number of them, and at a node with given real power and voltage by whole turns: the residual of the network stays the same, so solutions of a time step become solutions; in the state of the last step all voltages may be moved like this. The complex voltages stay the same, and a complex voltage other than zero can be represented in no other way. Hence a solution is never unique if the network has a power node whose phase is not given: there are solutions with arbitrarily large phases and the same gas variables. A simulation that starts at a state moved like this, where the original is steady, reports the moved state. The voltages of a solution are not negative.", "quantifier": "all networks, states, numbers of half turns, boundary values, controls and time steps", "why_tests_cant": "A test tries a few angles at a few nodes; the property quantifies over all networks, nodes and numbers of turns.", "anchors": ["src/Model/Networkproblem/Power/Powernode.cpp: P", "src/Model/Networkproblem/Power/Powernode.cpp: Q", "src/Model/Networkproblem/Power/PVnode.cpp: evaluate", "src/Model/Networkproblem/Power/Vphinode.cpp: evaluate", "src/Model/Networkproblem/Networkproblem.cpp: evaluate"]}
{"id": "C123", "title": "The residual depends affinely on the last state and on the controls", "statement": "The derivatives of the residual of a network with respect to the last state and to the controls are the same matrices at all times, states and controls, and the residual changes by exactly these matrices times the change of the last state or of the controls, however large the change is. Hence a state that solves a time step from two last states with two vectors of controls solves it from every mixture of them. A state that solves a step from one last state solves it from another one exactly if in every pipe the densities, and the flows, of the two differ by a value whose sign alternates from grid point to grid point; the other variables of the last state have no influence.", "quantifier": "all networks, last states, new states, controls, boundary values and time steps", "why_tests_cant": "A test compares difference quotients at a few points; the property holds for changes of any size in all networks.", "anchors": ["src/Model/Networkproblem/Networkproblem.cpp: d_evaluate_d_last_state", "src/Model/Networkproblem/Networkproblem.cpp: d_evaluate_d_control", "src/Model/Networkproblem/Networkproblem.cpp: evaluate", "src/Model/Networkproblem/Gas/Pipe.cpp: d_evaluate_d_last_state", "src/Model/Scheme/include/Implicitboxscheme.hpp: devaluate_point_d_last_left"]}
{"id": "C124", "title": "Pressures that the controls can move", "statement": "Change the pressures at the nodes and the flows through the edges of a network such that nodes with given pressure, pipes, the difference between the ends of a short pipe, flows into power plants and the balance of the flows at the nodes are left alone, and change the controls of the compressors and control valves by the change of the difference of the pressures at their ends. Then the changed state solves a time step with the changed controls exactly if the state before solves it with the controls before, and such controls exist for every such change. Two solutions with whatever controls that agree at the pipes and in the flows into power plants differ in no other way. Hence, at a node that is connected only to compressors, control valves and power plants, the controls can produce every pressure without any change of the flows and of the pressures at other nodes.", "quantifier": "all networks, changes of pressures and flows, controls, states, boundary values and time steps", "why_tests_cant": "A test tries a few controls in a few networks; the property quantifies over all networks and all changes.", "anchors": ["src/Model/Networkproblem/Networkproblem.cpp: evaluate", "src/Model/Networkproblem/Gas/Compressorstation.cpp: evaluate", "src/Model/Networkproblem/Gas/Controlvalve.cpp: evaluate", "src/Model/Networkproblem/Gas/Shortpipe.cpp: evaluate"]}
{"id": "C125", "title": "Only values at the ends of the steps matter, and only those of the past", "statement": "The residual and the Jacobians of a time step depend on the boundary conditions only through their values at the end of the step. Hence a simulation uses boundary values and controls only at its time points (not at the first one): whatever they are in between, the same states result, or the same failure; this holds with stochastic power nodes, too. A simulation that is stopped at an earlier time point gives the same states up to there, and one that is started again from the state reached there gives the same states from there on; two such parts make up the whole. So the states of a finished simulation do not depend on boundary values, controls and time points that are later. Of a table of controls with increasing time points, the values at a control point have no influence on the states up to the time of the control point before it.", "quantifier": "all networks, boundary conditions, control tables, time points, initial states, settings and linear solvers", "why_tests_cant": "A test compares a few runs; the property quantifies over all boundary conditions and all points at which a simulation is cut.", "anchors": ["src/Model/Problemlayer/Timeevolver.cpp: simulate", "src/Model/Problemlayer/Timeevolver.cpp: make_one_step", "src/Model/Networkproblem/Networkproblem.cpp: evaluate", "src/Model/Networkproblem/Gas/Flowboundarynode.cpp: evaluate"]}
