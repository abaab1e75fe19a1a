# Formal model of grazer: design

Subject: `eike-fokken/grazer`, C++ sources in `/repo/src` (read as text, never run).
The model and the proofs are in `rocq/theories` (Coq 8.16.1).  Properties are listed in
`properties.jsonl`, the theorem names per property in `MANIFEST.json`, the mutation
experiments in `seeded/LOG.jsonl`.

## 1. Layout

Every area `X` has up to four files.

* `X_Model.v`  the model: total Gallina functions, each with a comment citing the lines in
  `/repo` it models.  No proofs.
* `X_Spec.v`   the small independent specification used in the statements (no model helper is
  used in it).
* `X_Proofs.v` lemmas.
* `X_Proofs2.v`, `X_Proofs3.v`, ... further lemmas, for the larger areas.
* `X_Props.v` (`X_Props2.v`) the property theorems, an `Example` per theorem or group of theorems
  showing a non-trivial instance of the hypotheses, and `Print Assumptions` after each theorem.

Theorem names begin with the id of the property.  `..._refuted` is an existential statement: a
witness in the model against the claim.  `..._partial` is weaker than the claim; the note in
`MANIFEST.json` says what is missing.  A property with a `_refuted` or `_partial` theorem has the
status "partial" in `MANIFEST.json`, also where the remaining theorems settle it completely.

`Base.v` defines the result type `outcome A := Ok a | Exc | UB`: normal return, C++ exception,
undefined behaviour (out-of-range access, null dereference, failed `assert` that is compiled out).

## 2. General modelling decisions

* `double` is modelled by the real numbers `R` of Coq's standard library unless a property is
  about non-real values (C17 uses a number type with NaN).  Rounding is therefore **not** modelled,
  except in the areas listed in section 5.
* `Eigen::Index`, `int`, `size_t` are `nat` or `Z`; overflow is not modelled.
* Eigen vectors are lists or functions `nat -> R` together with a length; Eigen matrices are
  functions of two indices; sparse matrices are the lists of contributions.
* Linear solvers (SparseLU/SparseQR), random numbers, clocks, the file system, Ipopt and
  `nlohmann::json` parsing are outside: they enter as universally quantified functions or
  oracles/sequences in the theorem statements (Section variables that are discharged, so they are
  visible as universally quantified arguments of the theorems).
* Exceptions, undefined behaviour and normal results are kept apart in the result type.

## 3. Plan per property

| id | model | proof idea |
|----|-------|-----------|
| C01 | `operator()(double)` on list of points and list of rows, `lower_bound` as search | case analysis on position; induction for lower_bound |
| C02 | `vector<double>` constructor with explicit move semantics (moved-from list is empty) | refutation with witness; what holds: sorted lists are accepted unchanged |
| C03 | `make_from_start_delta_end`, `set_equidistant_interpolation_points`, `Timedata` with real `ceil` | induction over accumulated additions; arithmetic of ceil |
| C04 | `compute_index_lambda` | equality with C01 model; edge case time = back + 1e-10 is a finding |
| C05 | `make_objective_function_coefficients` | induction over the list of points, telescoping sums |
| C06 | `interpolate_from` | corollary of C01 |
| C07 | `make_data` height loop, offsets, `supply_indices` loops | bijection proof between positions and structural pattern |
| C08 | same, plus index/lambda pairs | monotonicity of heights against C01 interpolation |
| C09, C10 | backward sweep `compute_derivatives` as recursion over time steps with abstract Jacobians and solver | discrete adjoint identity by induction over time; chain rule with Coquelicot `is_derive` along every differentiable curve of controls.  `Implicit_*.v`: states that are only continuous are differentiable (subsequences of normalised differences; a left inverse of the Jacobian from the solver) |
| C11 | index arithmetic of `constraint_index` in the sweep | refutation with witness; partial: fine if the first constraint time is the first state time after the start |
| C12 | state machine of the optimizer flags and cache with an oracle for success | invariant over all callback histories |
| C13 | same state machine plus `finalize_solution`, end of `run` | refutation with a history; partial under "last evaluated point is the solution" |
| C14 | `ControlStateCache` as state machine | invariant over histories |
| C15, C16 | constraint time selection in `run`, constructor scan | arithmetic of div/mod; C16 refuted by witness, partial theorem characterises exactly when it holds |
| C17 | Newton loop over numbers with NaN | refuted by NaN residual; partial for non-NaN residuals |
| C18 | Newton loop | induction over fuel, distinct out-of-fuel value; the halving of the step size underflows to zero, so 1075 halvings always suffice |
| C19, C20, C48 | `make_one_step`, `simulate`, `StochasticPQnode` | induction over outcome sequence / time list; C48 refuted by witness |
| C21 | `smooth_abs`, `dsmooth_abs_dx` | Coquelicot derivative, one-sided gluing lemma |
| C22, C23 | equation of state, flux | field, Coquelicot |
| C24, C25, C26 | friction model; the LU solve in `get_coefficients` is "any solution of the linear system" | algebra; C25 refuted by computing both derivatives |
| C27 | `evaluate_point` for an abstract balance law | linearity of derivative; telescoping sum |
| C28, C29, C30, C31, C32 | gas components as functions producing a list of row writes and a list of Jacobian contributions | count of writes per row; derivative of each row; C32 by double counting edge ends |
| C33 | `Powernode::P/Q` and derivative contributions | Coquelicot, induction over attached lines |
| C34 | smoothing polynomial with parameters | as C21 |
| C35 | index assignment fold | induction |
| C36 | handlers as folds over contributions | induction |
| C37, C38, C40, C41, C49 | json objects as association lists, merge loops with fuel-free recursion | induction over both lists; C38 trailing case refuted |
| C39 | net of nodes/edges as state machine | invariant |
| C42, C43 | strings as lists of characters; unit tables copied from source; signs in `Signed_Spec.v` | computation on finite tables lifted to all strings; C43 refuted for units with `^` |
| C44, C45 | file system as finite map with crash points and write failure oracle | case analysis/induction over tries; C44 refuted for failed write |
| C46, C47 | samplers over an arbitrary random stream | induction; C46 refuted for fallback branch |
| C50 | network cost and cost derivative | refuted for a weight different from one, partial for weight one (the only one reachable through the public constructor) |
| C51 | `Timedata` and `make_from_start_delta_end` | refuted for a small negative step (the rounded number of steps hides the sign); partial otherwise |
| C52 | `ConstraintSink`: evaluate_constraint and its derivative | refuted when the first attached edge is a pipe (the state there is a density) and when no edge is attached; partial for the other edge kinds |
| C53, C54, C55 | the whole network as a list of components (`Net_Model.v`) | sums of contributions, C28-C33 per component; C53 assumes pipes outside of the turbulent regime (C25); C55 refuted by nets that pass construction |
| C56 | `generated_power` (Gaspowerconnection) | refuted with positive coefficients 1 and 100, between the linear branches |
| C57 | distribution of entries to components | as C37 |
| C58, C59 | `add_defaults`, `remove_defaults_from_required` | induction over the depth of the schema |
| C60 | `Measure::get_schema`, `Measure::parse_to_si` | refuted for an empty numeral; partial otherwise |
| C61, C62 | `absolute_file_path_in_root`, `insert_schema_key_into_data_jsons` (`Files_Model.v`) | case analysis; refuted by witnesses, partial otherwise |
| C63 | look-up of nodes and edges (Net.cpp) | induction over the lists of nodes and edges |
| C64, C65 | `construct_from_json`, `set_simple_control_values`, `set_control_indices` (`Controls_Model.v`) | the schema as a predicate on documents; C64 refuted for empty lists and incomplete entries |
| C66-C70 | time grids and interpolation in IEEE binary64 (Flocq) | error bounds for rounded operations; witnesses computed in the kernel |
| C71-C75 | initial states, states file, reported powers, pipe grid (`States_Model.v`) | as C64; C72 inverts the pressure law where it is invertible |
| C76-C80 | factories, generated schemas, construction of the net (`Factory_Model.v`) | the validator as a predicate on schemas with defaults, tables of the component types |
| C81 | `exact_turbulent_lambda` (`Colebrook_Model.v`) | concavity: the first Newton step ends below the root; refuted by a smooth pipe, partial bound for all inputs |
| C82 | `initialize_bounds`, `set_constraint_lower_bounds`, `set_constraint_upper_bounds`, `set_constraint_indices` (`Bounds_Model.v`), `set_initial_controls` (`Controls_Model.v`) | induction over the calls of `distribute` (C57); each call sets the columns of one component (C65); columns of different components are disjoint |
| C83 | `revert_boundary_conditions`, `source_values`, `sink_values` (`Bounds_Model.v`) | exact characterisation of the documents `construct_from_json` accepts; reverting keeps it in both directions; `interp_at` is linear |
| C84 | `network_problem` (`Whole_Model.v`), composed of the functions of C50, C52, C53 and the sweep of C09-C11 | the residual is a sum of a part with the new state, one with the last state and one with the controls, so that the derivatives along a curve of all three arguments add up; then the adjoint argument of C09 and C10; the instance is a network with a compressor and a constrained sink |
| C85 | `optimizer_ctor`, `get_nlp_info`, `get_bounds_info`, `get_starting_point`, `jacobian_structure` (`Iface_Model.v`) | each check of the constructor is an equivalence with one clause of the specification `fits`; the index lists come from C07, the getters from C06; the refutations evaluate small cases |
| C86 | `main`, `run`, `optimize`, `report`, `save` (`Run_Model.v`) | inversion of the sequence of steps; the states belonging to the controls come from C13, the writing of a file from C44; the refutations evaluate a small run |
| C87 | `make_schema_files`, `make_schemas`, `assert_only_known_schemas` (`Schemadir_Model.v`) | induction over the listing and over the map of schemas; the schemas are those of C76 |
| C88 | `exec`, `equal`, `vector_at` (`Views_Model.v`) | a frame record (objects, lengths, cells) proved for each command; values through a splice lemma for partial writes; interpolation comes from C03; the refutations evaluate short sequences |
| C89 | `jexec`, `matrix_of`, `jequal` (`Jacview_Model.v`) | the same frame argument over layouts of C07; column blocks and index pairs come from C07 |
| C90 | `network_problem` (`Sim_Model.v`): `evaluate` of C54 in the solver of C18 and the time evolution of C20 | residual entries are bounded by the Euclidean norm; each entry is read as the equation of its component (same route as C54, with a tolerance) |
| C91 | `network_equations_within` (`Sim_Spec.v`) | telescoping sum over the cells of each pipe, flows at the ends of edges regrouped by node, errors counted per equation |
| C92 | `seed`, `param`, `generate` (`Seed_Model.v`), words as integers modulo 2^32 | every step of the loops has an inverse; the hash constants are odd, x^(2^32) = 1 modulo 2^32 for odd x |
| C93 | `stochastic_node` (`Seed_Model.v`): get<std::array<uint32_t, 8>>, make_random_seed, the generator an arbitrary function of the generated words | C92; refuted for entries of the seed that do not fit |
| C94 | `prepare_run`: constructors of all nodes (except StochasticPQnode) and edges, `construct`, `network_of`, `timedata_ctor`, `timeevolver_ctor` (`Input_Model.v`) | each constructor is inverted and compared with the description of its entry in `Input_Spec.v`; entries come from C80 and C38; refuted for the entry balancelaw |
| C95 | `run_simulation` (`Input_Model.v`): `prepare_run`, the simulation of C90, `save` and `get_results_json` | C94, C90 (equations), C96; the results are followed from `save` to the lists of the output |
| C96 | `setup_controls`, `set_initial_values`, `set_initial_controls` in `prepare_run` (`Input_Model.v`) | the files are distributed by C57, values interpolated by C01, placed by C65; refuted for number_of_steps |
| C97 | `prepare_optimization` (`Setup_Model.v`): `prepare_run`, `constraints_every`, `select_constraint_times`, `initialize_bounds`, `optimizer_ctor`; `get_nlp_info`, `get_bounds_info`, `get_starting_point`, `compute_derivatives` | tables of controls and constraints traced from the files (C65, C82) through the constructor (C85) to Ipopt; derivatives by C84 |
| C98 | `network_backend` (`Answer_Model.v`): the functions of C12's state machine instantiated with the time evolution of the network (C90), the cost, penalty and constraint loops and `compute_derivatives` (C84), on the problem of C97 | C12 gives which simulation an answer belongs to; C90, C84 and the cost, penalty and constraint loops say what the answer is; refusals traced to the simulation, C11 or the linear solver |
| C99 | `run_optimization` (`Result_Model.v`): the preparation of C97, the optimizer of C13/C14 on the backend of C98, then the files of the controls (C49) and states (C95); Ipopt is an arbitrary behaviour for every problem | C13 gives that the saved states are those of the solution; C49, C65 and C95 describe the files; the second run uses the round trip of C49 |
| C100 | `run_noisy` (`Noise_Model.v`): `run_simulation` of C95 with StochasticPQnodes; prepare_timestep draws from the generators, which are state of the simulation; generator and samples are arbitrary functions | instance of C90 with the drawn powers as environment; the paths come from C47, the seeds from C93; the second run is compared step by step; the saved powers refuted by a computed run |
| C101 | `solve` of C18's `Newton_Model.v` on the system of vectors of length n (`vector_system`), and on the system of a time step of a network | Kantorovich style induction over the steps: mean value bound along the step, undamped acceptance, halving of the step lengths; for networks the derivative from C53; linear networks have a constant matrix; a power line computed as an example |
| C102 | `Noptim_Model.v`: the optimizer of C13 over the simulation of C100, with the random generators in the environment that the evaluations thread | the announcements of C14's histories, each refresh a chain of random steps (C100); derivatives: the drawn powers are fixed by the PQ equations and the derivatives do not see boundary values, so C84 applies to the network with these powers as boundary values; a network with a pressure, a compressor, a sink and a stochastic node computed with chosen samples for the refutations |
| C103 | `strftime` with two-digit fields and the unpadded milliseconds; the calendar as any function of the seconds | lexicographic order of texts; finite tables of the decimal texts below 10000; refutation within one second |
| C104 | `simulate` of `Sim_Model.v` on `network_problem`; the equations of C19–C23, C25, C54 without the terms of change in time (`Steady_Spec.v`) | the box scheme with equal old and new values reduces to the balance of the cell; a state solving all steps is returned by Newton's method without a step; sign of the friction, positivity of the friction factor (C24) and monotonicity of pressure plus momentum flux below the speed of sound |
| C105 | the nodes, lines and connections of `Net_Model.v`; complex voltages and currents of `Net_Spec.v`, sums over all nodes and lines in `Grid_Spec.v` | exchange of sums over nodes and lines; turning the phases multiplies voltages and currents of an island by the same complex number; each part of the residual sees only its own variables; derivative (C53) along the direction of the phases |
| C106 | two values of type `network`, related by permutations of nodes and edges and a set of turned edges (`Renumber_Spec.v`) | sums over edges are invariant under permutations; flux and source under change of the direction; blocks tile the state (C35), which gives the counterpart of a state |
| C107 | the gas nodes and edges of `Net_Model.v`; changes of pressures at nodes and flows through edges in `Level_Spec.v` | sums of the writes of a node are unchanged if all its pressures change alike and the flows are balanced; derivative (C53) along the change; unit flows through single edges; C91 for the supplies |
| C108 | `Net_Model.v` (Jacobian), `Newton_Model.v`, `Evolve_Model.v`, `Sim_Model.v`; what "undetermined" means in `Stuck_Spec.v` | every row of the Jacobian maps the direction of C105 or C107 to zero: directly for gas nodes and edges, through the derivative of the unchanged power for power nodes; so no factorisation succeeds and the solver only accepts its start value or throws |
| C109 | `Net_Model.v`, `Newton_Model.v`, `Evolve_Model.v`, `Sim_Model.v`; trees, determined networks and exact linear solvers in `Forest_Spec.v` | the Jacobian of short components does not depend on the state and the derivative (C53) is constant, so the residual is affine; two solutions differ by an unseen change; n linear equations with trivial kernel are solvable (`Linear_Proofs.v`); depth-first arguments for trees; distance from the nodes with given pressure and flows along the tree for the converse |
| C110 | `Net_Model.v`, `Sim_Model.v`; parts, their gas, supply and border in `Part_Spec.v` | the equations of nodes and edges up to a tolerance (C90) are summed over the nodes and edges of the part; flows of inner edges cancel |
| C111 | `Net_Model.v`, `Sim_Model.v`; limits, overloaded nodes and star-shaped networks in `Load_Spec.v` | power at a node is V conj(YV + I): taking absolute values gives a quadratic inequality for the square of the voltage; the triangle inequality bounds I; conversely the quadratic equation is solved and the phase found with acos |
| C112 | `Net_Model.v`, `Sim_Model.v`; walks and the rise of pressure along them in `Walk_Spec.v` | induction over the walk with the equations of edges and nodes up to a tolerance (C90) |
| C113 | `Interp_Model.v`, `Net_Model.v`, `Evolve_Model.v`, `Sim_Model.v`; shifted tables and networks in `Shift_Spec.v` | equality of all functions of the model on shifted arguments |
| C114 | `Net_Model.v`, `Sim_Model.v`; occurrences and parts in `Apart_Spec.v` | sums over the edges at a node of a part run over the edges of the part only; the blocks of the parts tile the state vector |
| C115 | `Net_Model.v`, `Newton_Model.v`, `Evolve_Model.v`, `Sim_Model.v`; networks without pipes in `Memory_Spec.v` | equality of the residuals of different steps, hence the solver's first check accepts the old state |
| C116 | `Net_Model.v`; the network with the short pipe in `Insert_Spec.v` | blocks stay where they were; sums and pressures at the two nodes |
| C117 | `Net_Model.v`; the network in other units in `Unit_Spec.v` | powers are quadratic in voltages and linear in admittances |
| C118 | `Net_Model.v`; the network with the two lines in `Parallel_Spec.v`, the sum of admittances in `Lines_Spec.v` | blocks stay where they were; the sum over lines is split |
| C119 | `Net_Model.v`; the network with the two pipes in `Cut_Spec.v` | cells of the two pipes are those of the one; the new node makes the values at the cut equal |
| C120 | `Net_Model.v`; the network with the other node in `Swap_Spec.v` | the equations of other nodes and of edges do not see the node type |
| C121 | `Net_Model.v`; exchanged components in `Lift_Spec.v` | blocks stay where they were; only the controls move |
| C122 | `Net_Model.v`; half turns in `Turns_Spec.v` | the complex voltages stay the same; sine and cosine of multiples of pi |
| C123 | `Net_Model.v`; alternating differences in `Affine_Spec.v` | a function with a constant derivative is affine; the box scheme sees sums of neighbouring grid points |
| C124 | `Net_Model.v`; changes and adapted controls in `Adapt_Spec.v` | the equations of short components see only the difference of the pressures |
| C125 | `Net_Model.v`, `Evolve_Model.v`, `Sim_Model.v`; agreement at a time in `Past_Spec.v` | nodes ask their boundary condition for the new time only; the loop over the time points |

Properties that cannot be expressed: none so far; for run-time behaviour (I/O, threads) only the
logic is modelled, see section 5.

## 4. Trusted base

* The Coq 8.16.1 kernel.
* The axioms printed by `Print Assumptions` under each theorem (collected in section 6).
* The reading of the C++ code: each definition in the model cites the lines it models.

## 5. What is modelled and what is not

Modelled, per file of `rocq/theories` (the comments of the definitions cite the lines):

| model file | files of /repo/src cited in it (single functions of them, see the comments) |
|---|---|
| Adjoint_Model.v | ImplicitOptimizer.cpp, InterpolatingVector.cpp, OptimizableObject.hpp |
| Answer_Model.v | ControlStateCache.cpp, ImplicitOptimizer.cpp, InterpolatingVector.cpp, commands.cpp |
| Bounds_Model.v | ConstraintSink.cpp, Constraintcomponent.cpp, Flowboundarynode.cpp, Networkproblem.cpp, Optimization_helpers.cpp, SimpleConstraintcomponent.cpp, Sink.cpp, Source.hpp |
| Box_Model.v | Balancelaw.hpp, Implicitboxscheme.hpp, Isothermaleulerequation.hpp |
| Colebrook_Model.v | Isothermaleulerequation.cpp |
| Controls_Model.v | Compressorstation.cpp, Controlvalve.cpp, InterpolatingVector.cpp, Networkproblem.cpp, SimpleControlcomponent.cpp, make_schema.cpp, schema_validation.cpp |
| Cost_Model.v | Compressorstation.cpp, Costcomponent.cpp, Costcomponent.hpp, Networkproblem.cpp |
| Ctimes_Model.v | ImplicitOptimizer.cpp, Misc.hpp, commands.cpp |
| Defaults_Model.v | make_schema.cpp, schema_validation.cpp |
| Euler_Model.v | Isothermaleulerequation.cpp, Isothermaleulerequation.hpp, Mathfunctions.cpp |
| Evolve_Model.v | StochasticPQnode.cpp, StochasticPQnode.hpp, Timeevolver.cpp, commands.cpp |
| Factory_Model.v | Aux_json.cpp, Componentfactory.cpp, Componentfactory.hpp, Compressorstation.cpp, Controlvalve.cpp, Edge.cpp, Flowboundarynode.cpp, Full_factory.cpp, Gas_factory.cpp, Gaspowerconnection.cpp, Idobject.cpp, Netfactory.cpp, Node.hpp, Pipe.cpp, Power_factory.cpp, Powernode.cpp, Pressureboundarynode.cpp, Shortcomponent.cpp, StochasticPQnode.cpp, Transmissionline.cpp, commands.cpp, make_schema.cpp, schema_generation.cpp, unit_conversion.cpp |
| Files_Model.v | Aux_json.cpp, Input_output.cpp, schema_key_insertion.cpp |
| Float64_Model.v | InterpolatingVector.cpp, InterpolatingVector.hpp, Mathfunctions.cpp, Timedata.cpp, commands.cpp, helpers.cpp |
| Graph_Model.v | Componentfactory.hpp, Edge.cpp, Edge.hpp, Net.cpp, Netfactory.cpp, Node.cpp, Node.hpp |
| Handler_Model.v | ImplicitOptimizer.cpp, Matrixhandler.cpp, Newtonsolver.cpp |
| Iface_Model.v | ConstraintJacobian.cpp, ImplicitOptimizer.cpp, ImplicitOptimizer.hpp, Initialvalues.cpp, InterpolatingVector.cpp, Optimization_helpers.cpp, Wrapper.cpp |
| Input_Model.v | Compressorstation.cpp, ConstraintSink.cpp, Controlvalve.cpp, Costcomponent.hpp, Edge.cpp, ExternalPowerplant.hpp, Gaspowerconnection.cpp, Idobject.cpp, Innode.hpp, Isothermaleulerequation.cpp, Netfactory.cpp, Networkproblem.cpp, Node.cpp, PQnode.hpp, PVnode.hpp, Pipe.cpp, Powernode.cpp, Pressureboundarynode.cpp, Scheme_factory.hpp, Shortpipe.hpp, Sink.cpp, Source.hpp, Timedata.cpp, Timeevolver.cpp, Transmissionline.cpp, Vphinode.hpp, commands.cpp, helpers.cpp |
| Interp_Model.v | ImplicitOptimizer.cpp, InterpolatingVector.cpp, InterpolatingVector.hpp, Mathfunctions.hpp, Optimization_helpers.cpp, Timedata.cpp, commands.cpp |
| Jac_Model.v | ConstraintJacobian.cpp, ConstraintJacobian.hpp |
| Jacview_Model.v | ConstraintJacobian.cpp, ConstraintJacobian.hpp |
| Json_Model.v | ComponentJsonHelpers.cpp, Netfactory.cpp, Networkproblem.cpp |
| Net_Model.v | Compressorstation.cpp, ConstraintSink.cpp, Controlvalve.cpp, Edge.cpp, ExternalPowerplant.cpp, Flowboundarynode.cpp, Gasedge.cpp, Gasedge.hpp, Gasnode.cpp, Gaspowerconnection.cpp, Gaspowerconnection.hpp, Innode.cpp, Networkproblem.cpp, PQnode.cpp, PVnode.cpp, Pipe.cpp, Powernode.cpp, Powernode.hpp, Pressureboundarynode.cpp, Shortcomponent.cpp, Shortpipe.cpp, SimpleControlcomponent.cpp, SimpleStatecomponent.cpp, StochasticPQnode.cpp, Transmissionline.cpp, Vphinode.cpp |
| Newton_Model.v | Newtonsolver.cpp, Newtonsolver.hpp |
| Noise_Model.v | Networkproblem.cpp, StochasticPQnode.cpp, StochasticPQnode.hpp, commands.cpp |
| Noptim_Model.v | ControlStateCache.cpp, StochasticPQnode.cpp, Timeevolver.cpp |
| Optim_Model.v | ControlStateCache.cpp, ControlStateCache.hpp, ImplicitOptimizer.cpp, ImplicitOptimizer.hpp, InterpolatingVector.cpp, Wrapper.cpp, commands.cpp |
| Result_Model.v | ControlStateCache.hpp, commands.cpp |
| Run_Model.v | Adaptor.cpp, Wrapper.cpp, Wrapper.hpp, commands.cpp, grazer.cpp |
| Schemadir_Model.v | schema_generation.cpp |
| Seed_Model.v | Normaldistribution.cpp, Normaldistribution.hpp, StochasticPQnode.cpp, randutils.hpp |
| Setup_Model.v | InterpolatingVector.cpp, Networkproblem.cpp, commands.cpp |
| Sim_Model.v | Networkproblem.cpp, Newtonsolver.cpp, Timeevolver.cpp, commands.cpp |
| Stamp_Model.v | Input_output.cpp, Input_output.hpp |
| States_Model.v | Compressorstation.cpp, Controlvalve.cpp, ExternalPowerplant.cpp, Gaspowerconnection.cpp, Networkproblem.cpp, PQnode.cpp, PVnode.cpp, Pipe.cpp, Powernode.cpp, Powernode.hpp, Shortcomponent.cpp, Shortcomponent.hpp, Shortpipe.cpp, SimpleStatecomponent.cpp, SimpleStatecomponent.hpp, Statecomponent.cpp, StochasticPQnode.cpp, Vphinode.cpp, commands.cpp, make_schema.cpp |
| Stoch_Model.v | Normaldistribution.cpp, Stochastic.cpp, Stochastic.hpp |
| Units_Model.v | unit_conversion.cpp, unit_conversion.hpp |
| Views_Model.v | InterpolatingVector.cpp, InterpolatingVector.hpp |
| Whole_Model.v | ConstraintSink.cpp, Networkproblem.cpp, Networkproblem.hpp |

Source files no model cites, hence not modelled: Controlcomponent.cpp, Costgradienthandler.cpp, EquationDerivativeCache.cpp, Equationcomponent.cpp, Exception.cpp, Misc.cpp, Source.cpp, optimize.cpp; of the headers without source file: Boundaryvaluecomponent.hpp, Cacheentry.hpp, Coloroutput.hpp, Equation_base.hpp, Get_base_component.hpp, Optimizer.hpp, Threepointscheme.hpp.

Not modelled: floating point rounding, except in Float64_Model.v; divisions by zero are Coq's total
division in the areas over the reals (theorems state the hypothesis where it matters); integer
overflow; memory allocation failure; console output, error messages and the text of exceptions;
command line parsing (grazer.cpp); wall clock; threads; titles and descriptions of schemas; the
parsing and printing of json; the third party libraries (Eigen, Ipopt, nlohmann::json,
json-schema-validator, std::regex) beyond the contract stated in the respective model file.

## 5a. How to read seeded/LOG.jsonl

Each line is one edit of a model definition in a scratch copy, followed by a rebuild with
`make -k`.  `theorems_failed` is what was observed: for every file that was rejected, the first
declaration with an error.  Coq stops at the first error of a file and files depending on it are
not built, so nothing is known about the declarations after it.

In most entries (591 of 671 at the time of writing) the rejected declaration is an auxiliary lemma,
not the property theorem.  This shows that the proof does not survive the edit.  It does not by
itself show that the property theorem is false of the edited model.  An earlier version of the log
had a field `property_theorems_no_longer_proved`; it was computed from the ids in the claim, not
observed, and named theorems that an edit does not touch.  It has been removed.

`theorems_tightened` lists theorems added or strengthened because nothing failed at first;
`failed_after_tightening` is the result of repeating the edit.  Edits with which the model itself
does not typecheck are left out, as are control runs without a change.

## 6. Assumptions per theorem

All axioms are those of Coq's standard library for the classical real numbers, classical logic and choice:

* D = `ClassicalDedekindReals.sig_forall_dec`
* N = `ClassicalDedekindReals.sig_not_dec`
* F = `FunctionalExtensionality.functional_extensionality_dep`
* C = `Classical_Prop.classic`
* I = `IndefiniteDescription.constructive_indefinite_description` (where something is chosen: sequences in the theorems
  about states that depend continuously on the controls, parents in the trees of C109)

Theorems not using the real numbers are closed under the global context.

| theorems | axioms |
|----------|--------|
| `C01_interpolation`, `C01_unique_value` | D F |
| `C02_unsorted_rejected_refuted` | D F |
| `C02_points_taken_partial` | none |
| `C03_time_grid`, `C03_bad_arguments_rejected`, `C03_run_time_grid`, `C03_number_of_points_grid` | D F |
| `C04_index_weight_pairs`, `C04_last_admitted_time_refuted` | D F |
| `C05_quadrature`, `C05_quadrature_sorted` | D F |
| `C06_resampling`, `C06_resampling_same_grid` | D F |
| `C07_index_lists`, `C07_column_blocks` | D F |
| `C08_omitted_entries_zero`, `C08_sweep_writes_inside` | D F |
| `C09_objective_gradient` | D F N |
| `C09_states_differentiable`, `C09_objective_gradient_continuous` | C D F I N |
| `C10_constraint_jacobian` | D F N |
| `C10_constraint_jacobian_continuous` | C D F I N |
| `C11_reads_inside_refuted`, `C11_reads_inside_partial`, `C11_all_other_setups_read_outside` | D F |
| `C12_callbacks_fresh` | D |
| `C13_reports_belong_to_solution_refuted`, `C13_reports_belong_to_solution_partial`, `C13_saved_states`, `C13_report_without_constraints_undefined`, `C13_failed_solution` | D F |
| `C14_cache_lookup_refuted`, `C14_cache_lookup_partial`, `C14_cached_states` | D F |
| `C15_constraint_times` | D F |
| `C15_nonpositive_setting`, `C15_one_state` | none |
| `C16_final_time_constrained_refuted`, `C16_final_time_constrained_partial` | D F |
| `C17_success_means_small_residual_refuted`, `C17_negative_limit_refuted`, `C17_success_means_small_residual_partial` | D F |
| `C18_converged_start_unchanged`, `C18_iteration`, `C18_terminates`, `C18_halvings` | D F |
| `C19_retries`, `C19_terminates` | none |
| `C20_simulation`, `C20_equations`, `C20_first_failure_aborts`, `C20_terminates` | D F |
| `C21_smooth_abs` | C D F N |
| `C22_equation_of_state` | C D F N |
| `C22_conversions` | D F |
| `C23_flux_jacobian`, `C23_pressure_jacobian`, `C23_flux_jacobian_everywhere`, `C23_pressure_jacobian_everywhere` | C D F N |
| `C23_bar_jacobian` | D F |
| `C24_friction_continuous`, `C24_source_continuous`, `C24_not_laminar`, `C24_positive` | C D F N |
| `C25_derivative_wrong_everywhere`, `C25_turbulent_derivative_refuted`, `C25_source_jacobian_wrong` | C D F N |
| `C26_source_jacobian` | C D F N |
| `C27_jacobian_new_left`, `C27_jacobian_new_right`, `C27_jacobian_last` | D F N |
| `C27_balance`, `C27_steady_state` | D F |
| `C27_mass_conservation` | C D F N |
| `C28_rows`, `C28_entries_inside` | D F |
| `C28_jacobian_new_state`, `C28_gas_pipe` | C D F N |
| `C28_jacobian_last_state` | D F N |
| `C29_cost` | D F N |
| `C29_equations`, `C29_jacobians` | C D F N |
| `C30_equations` | D F |
| `C30_jacobian` | C D F N |
| `C31_equations` | D F |
| `C31_jacobian` | C D F N |
| `C32_square`, `C32_determined` | C D F N |
| `C33_complex_power` | D F N |
| `C33_jacobian` | C D F N |
| `C34_linear` | D F |
| `C34_smooth`, `C34_increasing` | C D F N |
| `C35_blocks`, `C35_network` | none |
| `C36_build`, `C36_refill`, `C36_transposed`, `C36_new_position_partial`, `C36_leftover_refuted` | D F |
| `C36_network_positions` | C D F N |
| `C37_check`, `C37_check_distinct` | none |
| `C38_attach`, `C38_missing_partial`, `C38_duplicates`, `C38_missing_refuted` | none |
| `C39_create`, `C39_sequence`, `C39_remove`, `C39_destroy_refuted`, `C39_net`, `C39_net_accepts`, `C39_net_duplicates_refuted`, `C39_net_stray_refuted`, `C39_build`, `C39_build_throws` | none |
| `C40_ids`, `C40_no_ub`, `C40_missing_id`, `C40_duplicates`, `C40_sort` | none |
| `C41_kept`, `C41_filled`, `C41_nothing_else`, `C41_throws`, `C41_idempotent_partial` | none |
| `C41_idempotent_refuted` | D |
| `C42_sign_read`, `C42_sign_rejected`, `C42_meaning`, `C42_rejects`, `C42_no_ub`, `C42_unique`, `C42_factors`, `C42_prefixes` | D F |
| `C43_refuted`, `C43_caret`, `C43_admitted_partial` | D F |
| `C44_until_removal`, `C44_written_partial`, `C44_new_file`, `C44_others`, `C44_not_writable`, `C44_directory_moved`, `C44_disk_full_refuted`, `C44_open_fails_refuted`, `C44_not_utf8_refuted`, `C44_tmp_backup_refuted`, `C44_clobbers_refuted` | none |
| `C45_file`, `C45_file_throws`, `C45_directory`, `C45_directory_throws`, `C45_prepare`, `C45_epoch`, `C45_extension` | none |
| `C46_range`, `C46_throws`, `C46_first`, `C46_overloads` | D F |
| `C47_stable`, `C47_defined` | D F |
| `C47_contracts`, `C47_range_partial`, `C47_zero_mean_refuted`, `C47_zero_steps_refuted` | D F N |
| `C48_saved_power_refuted`, `C48_saved_power_partial` | D F |
| `C49_file` | D |
| `C49_round_trip`, `C49_whole` | C D F |
| `C50_cost`, `C50_penalty` | D F |
| `C50_gradient`, `C50_weight_needed` | D F N |
| `C51_negative_step_rejected_refuted`, `C51_moderate_negative_step_rejected_partial`, `C51_reversed_times_rejected_partial` | D F |
| `C52_pressure_refuted`, `C52_pressure_partial` | D F |
| `C52_no_edges_refuted` | D |
| `C53_new_state`, `C53_last_state`, `C53_control` | C D F N |
| `C54_solution` | C D F N |
| `C55_line_to_gas_node_refuted`, `C55_gas_edge_to_power_node_refuted`, `C55_evaluable_partial` | C D F N |
| `C55_setup` | none |
| `C56_monotone_refuted` | D F |
| `C57_distribution`, `C57_unique` | none |
| `C58_added`, `C58_throws`, `C58_idempotent` | none |
| `C59_required` | none |
| `C60_refuted`, `C60_converted_partial` | D F |
| `C61_answer`, `C61_refuted`, `C61_answers_partial`, `C61_above` | none |
| `C62_refuted`, `C62_inserted_partial`, `C62_others_kept`, `C62_idempotent` | none |
| `C63_node`, `C63_edge`, `C63_between` | none |
| `C64_read`, `C64_schema`, `C64_accepted_refuted`, `C64_accepted_partial` | D F |
| `C65_set` | C D F |
| `C65_indices` | none |
| `C66_late`, `C66_agree_refuted`, `C66_early_partial` | C D F N |
| `C67_drift`, `C67_end_refuted`, `C67_short_partial` | C D F N |
| `C68_at_points`, `C68_between`, `C68_constant_refuted` | C D F N |
| `C69_number_refuted`, `C69_number_partial`, `C69_step` | C D F N |
| `C70_points`, `C70_no_points`, `C70_number_refuted`, `C70_one`, `C70_default` | C D F N |
| `C71_schema`, `C71_unsorted_refuted` | D F |
| `C71_component`, `C71_network` | C D F |
| `C72_round_trip` | D F N |
| `C73_states_file` | D F N |
| `C74_reported_power` | D F N |
| `C75_pipe_grid`, `C75_step_refuted` | D F |
| `C76_schemas`, `C76_generation`, `C76_no_object_refuted`, `C76_saved_controls_rejected`, `C76_saved_controls_refuted` | D F |
| `C77_run_accepts`, `C77_schema_suffices_partial`, `C77_part_of_default_refuted`, `C77_kind_of_default_refuted`, `C77_null_refuted` | D F |
| `C78_external_defaults_rejected`, `C78_initial_default_refuted`, `C78_boundary_default_refuted` | D F |
| `C79_schema`, `C79_same_defaults`, `C79_conforming_refuted`, `C79_working_refuted`, `C79_control_refuted` | D F |
| `C80_build`, `C80_succeeds`, `C80_unknown_type`, `C80_missing_boundary`, `C80_net` | D F |
| `C80_files` | none |
| `C81_rejects`, `C81_near_partial`, `C81_tolerance_refuted` | C D F N |
| `C82_indices` | none |
| `C82_constraints`, `C82_controls`, `C82_bounds` | C D F |
| `C82_missing` | D F |
| `C83_sink`, `C83_source`, `C83_value` | D F |
| `C83_rest` | D |
| `C84_objective_continuous`, `C84_constraint_continuous` | C D F I N |
| `C84_objective`, `C84_constraint` | C D F N |
| `C85_accepts`, `C85_rejects_partial`, `C85_span_checked_too_late`, `C85_rejects_refuted`, `C85_sizes`, `C85_bounds`, `C85_bounds_sampled`, `C85_bounds_refuted`, `C85_no_constraint_times` | D F |
| `C86_exit_code`, `C86_simulation_partial`, `C86_optimization_partial`, `C86_printed_values_partial`, `C86_failure_message`, `C86_status_always_success`, `C86_exit_code_ignores_ipopt`, `C86_no_text`, `C86_no_optimum_refuted`, `C86_status_refuted`, `C86_lost_file_refuted`, `C86_no_solution` | D F |
| `C87_accepts`, `C87_written_partial`, `C87_only_schemas_refuted`, `C87_lost_schema_refuted` | D F |
| `C88_frame`, `C88_others_unchanged`, `C88_construct`, `C88_copy_independent`, `C88_const_mapped`, `C88_write_timestep`, `C88_timestep_range`, `C88_write_all`, `C88_assign`, `C88_equal`, `C88_reset`, `C88_move`, `C88_interpolate`, `C88_push_to_index`, `C88_sizes_partial`, `C88_sizes_refuted`, `C88_push_range_refuted`, `C88_push_sorted_refuted` | D F |
| `C89_frame`, `C89_copy_independent`, `C89_shared_copy`, `C89_assign`, `C89_equal`, `C89_null`, `C89_write_column`, `C89_set_values`, `C89_handover` | D F |
| `C90_simulation`, `C90_residual`, `C90_exact`, `C90_terminates` | C D F N |
| `C91_step`, `C91_simulation`, `C91_exact` | C D F N |
| `C92_bijection`, `C92_more`, `C92_fewer`, `C92_param`, `C92_param_again`, `C92_generate`, `C92_different`, `C92_cyclic`, `C92_power`, `C92_inverse` | none |
| `C93_reproducible`, `C93_absent`, `C93_integers`, `C93_accepted_refuted`, `C93_short_refuted` | D F |
| `C93_entropy` | none |
| `C94_network`, `C94_files`, `C94_balancelaw_ignored`, `C94_balancelaw_refuted` | D F |
| `C95_simulation`, `C95_terminates` | C D F N |
| `C96_initial`, `C96_controls` | C D F |
| `C96_number_of_steps_refuted`, `C96_one_step_refuted`, `C96_truth_value` | D F |
| `C97_problem`, `C97_needs_controls`, `C97_bounds` | C D F |
| `C97_derivatives` | C D F N |
| `C98_answers` | C D F N |
| `C99_result`, `C99_again`, `C99_printed_partial` | C D F N |
| `C99_printed_refuted` | C D F I N |
| `C100_simulation`, `C100_repeat`, `C100_terminates`, `C100_saved_refuted` | C D F N |
| `C100_cut_off` | D F N |
| `C101_quadratic`, `C101_simplified`, `C101_inexact`, `C101_network`, `C101_network_inexact`, `C101_linear` | C D F N |
| `C102_answers` | C D F I N |
| `C102_repeatable_refuted`, `C102_saved_refuted` | C D F N |
| `C103_name`, `C103_distinct`, `C103_order_partial`, `C103_order_refuted`, `C103_output_file`, `C103_output_not_a_directory` | none |
| `C104_step`, `C104_residual`, `C104_stays`, `C104_pressure_drop`, `C104_rest` | C D F N |
| `C105_balance`, `C105_losses` | D F N |
| `C105_slack`, `C105_turned`, `C105_singular`, `C105_always` | C D F N |
| `C106_state` | D |
| `C106_equations`, `C106_residual` | C D F N |
| `C107_unseen`, `C107_singular`, `C107_level`, `C107_parallel`, `C107_pressures`, `C107_supply`, `C107_always` | C D F N |
| `C108_matrix`, `C108_solve`, `C108_simulation` | C D F N |
| `C109_determined`, `C109_matrix`, `C109_newton`, `C109_simulation` | C D F N |
| `C109_forest` | C D F I |
| `C110_step`, `C110_simulation`, `C110_exact`, `C110_bridge`, `C110_fixed_flow` | C D F N |
| `C111_files`, `C111_overload`, `C111_simulation` | C D F N |
| `C111_limit` | D F N |
| `C111_star`, `C111_voltages` | C D F I N |
| `C112_files`, `C112_walk`, `C112_closed`, `C112_given`, `C112_exact`, `C112_simulation` | C D F N |
| `C113_table`, `C113_boundary`, `C113_grid`, `C113_optimization` | D F |
| `C113_equations`, `C113_simulation`, `C113_random` | C D F N |
| `C114_states` | D |
| `C114_equations`, `C114_solvable`, `C114_residual`, `C114_part`, `C114_simulation` | C D F N |
| `C115_equations`, `C115_simulation`, `C115_unchanged` | C D F N |
| `C116_network` | D F |
| `C116_equations`, `C116_residual`, `C116_solutions` | C D F N |
| `C117_network`, `C117_states` | D F |
| `C117_equations`, `C117_residual` | C D F N |
| `C118_total`, `C118_nothing`, `C118_total_residual`, `C118_equations`, `C118_residual` | C D F N |
| `C118_network` | D F |
| `C119_network` | D F |
| `C119_states` | none |
| `C119_equations`, `C119_solutions`, `C119_residual` | C D F N |
| `C120_gas`, `C120_source`, `C120_power`, `C120_read_off`, `C120_residual` | C D F N |
| `C121_network` | D F |
| `C121_equations`, `C121_residual` | C D F N |
| `C122_residual`, `C122_equations`, `C122_far`, `C122_simulation`, `C122_positive_refuted` | C D F N |
| `C122_states`, `C122_only` | D F N |
| `C123_last_state`, `C123_controls`, `C123_mixtures`, `C123_memory` | C D F N |
| `C124_equations`, `C124_residual`, `C124_any_pressure`, `C124_only` | C D F N |
| `C124_exists` | D F |
| `C125_step`, `C125_simulation`, `C125_random`, `C125_past`, `C125_later_controls` | C D F N |
| `C125_stopped`, `C125_restart`, `C125_joined` | D F |
