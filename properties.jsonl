{"id": "C01", "title": "Variable lookup returns every position, in request order", "statement": "find_variables_indices_in_vector(var, vector) returns, for the requested elements in order, all positions of the vector that hold that element in increasing order, and nothing else. For a vector without repeated elements, looking up distinct members gives one index per member, and indexing the vector with the result gives the request back. A request sharing no element with the vector gives the empty list.", "quantifier": "all request vectors and all target vectors of any length, with or without repetitions", "why_tests_cant": "a test fixes a few vectors; bounds, guesses and parameter values are moved around with these indices for models of any size", "anchors": ["yaocptool/util/util.py:find_variables_indices_in_vector"]}
{"id": "C02", "title": "Removal by index keeps exactly the other entries, in order", "statement": "remove_variables_from_vector_by_indices(indices, vector) returns the entries whose position is not listed, in the original order; repeating an index or changing the order of the list does not change the result, and the empty list removes nothing. It raises ValueError exactly when the largest index is above the length or the smallest is below minus the length. Consequence recorded as a refutation of 'out-of-range indices are rejected' : the index equal to the length and every negative index in range are accepted and remove nothing.", "quantifier": "all vectors, all integer index lists (negative, repeated, out of range)", "why_tests_cant": "boundary indices and arbitrary repetition patterns cannot be enumerated by tests", "anchors": ["yaocptool/util/util.py:remove_variables_from_vector_by_indices"]}
{"id": "C03", "title": "Removing variables from a vector removes all and only them", "statement": "remove_variables_from_vector(var, vector) raises ValueError exactly when no requested element occurs; otherwise the result contains no requested element, keeps every other element in order, and its length drops by the number of occurrences removed. Requested elements that are absent are ignored as soon as one is present.", "quantifier": "all vectors of symbols and all requests", "why_tests_cant": "needs to hold for any mixture of present, absent and repeated variables", "anchors": ["yaocptool/util/util.py:remove_variables_from_vector"]}
{"id": "C04", "title": "Lookup by name is complete and unambiguous", "statement": "get_variable_by_name returns a variable only if it is the single match over the searched groups, searched in the order x, y, u, p, theta, and raises ValueError both for no match and for more than one match. get_variables_by_names returns every matching variable, group by group, name by name. With exact matching a name matches only itself; with the default matching the name is used as a pattern anchored at the beginning only, so a variable whose name merely extends the requested one also matches (the unique lookup of 'h' fails when 'h2' exists).", "quantifier": "all models, all lists of names, any pattern matcher", "why_tests_cant": "depends on the whole set of variable names a user chose", "anchors": ["yaocptool/util/util.py:find_variables_in_vector_by_name", "yaocptool/modelling/system_model.py:SystemModel.get_variable_by_name", "yaocptool/modelling/system_model.py:SystemModel.get_variables_by_names"]}
{"id": "C05", "title": "Joining thetas concatenates per element in argument order", "statement": "join_thetas(a, b, ...) skips None and empty dictionaries and fails with ValueError exactly when two non-empty dictionaries have different numbers of keys. Otherwise its keys are the union of the keys, and the value of each key is the concatenation, in argument order, of the values of the arguments holding that key. Hence joining is associative, has the empty dictionary as neutral element, and the parts can be sliced back out. The documented requirement 'same keys' is not enforced: two dictionaries of equal size but different keys are accepted and produce elements of different sizes (refutation).", "quantifier": "all lists of theta dictionaries, any number of elements and sizes", "why_tests_cant": "the augmented Lagrangian and the distributed solvers rely on slicing joined thetas for every number of elements", "anchors": ["yaocptool/util/util.py:join_thetas", "yaocptool/util/util.py:create_constant_theta"]}
{"id": "C06", "title": "Time and normalised time conversions are inverse", "statement": "Rewriting an expression from tau to t over an element [t_k, t_kp1] evaluates, at time t, to the original at tau=(t-t_k)/(t_kp1-t_k); rewriting from t to tau evaluates at tau to the original at t=t_k+tau*(t_kp1-t_k). For t_k different from t_kp1: wherever t and tau denote the same instant neither rewriting changes the value; rewriting forth and back gives the original value for expressions written in only one of the two time variables; and the rewritten variable no longer occurs.", "quantifier": "all expressions, all valuations, all t_k != t_kp1", "why_tests_cant": "equality of expressions under every valuation is not testable", "anchors": ["yaocptool/util/util.py:convert_expr_from_tau_to_time", "yaocptool/modelling/system_model.py:SystemModel.convert_expr_from_time_to_tau", "yaocptool/modelling/system_model.py:SystemModel.convert_expr_from_tau_to_time", "yaocptool/modelling/dae_system.py:DAESystem.convert_from_tau_to_time"]}
{"id": "C07", "title": "Lagrange basis polynomials interpolate", "statement": "For pairwise distinct points the basis returned for the collocation points takes value 1 at its own point and 0 at the others; the polynomial built from it passes through all given values; the basis sums to 1 everywhere; and a polynomial with fewer coefficients than points is reproduced exactly at every tau.", "quantifier": "all numbers of points, all distinct rational points, all values and all evaluation points", "why_tests_cant": "identities over all degrees and all points", "anchors": ["yaocptool/util/util.py:_create_lagrangian_polynomial_basis", "yaocptool/methods/base/solutionmethodsbase.py:SolutionMethodsBase._create_lagrangian_polynomial_basis"]}
{"id": "C08", "title": "Polynomial approximation: parameter vector layout", "statement": "create_polynomial_approximation(tau, size, degree, point_at_zero) returns a parameter vector of size*n_par entries, n_par = degree+1 if point_at_zero and degree>1, else degree; at the j-th interpolation point the polynomial of component i equals entry j*size+i of the parameter vector. For degree 1 it is the constant given by the parameters at every tau. unvec gives back the columns that the vector was made of, and refuses degree 0 and vectors that are not made of columns of one size. Refuted: approximating an empty vector always works.", "quantifier": "all sizes, degrees, distinct points and parameter values", "why_tests_cant": "the layout is relied on by every discretisation for any size and degree", "anchors": ["yaocptool/util/util.py:create_polynomial_approximation", "yaocptool/methods/base/solutionmethodsbase.py:SolutionMethodsBase.create_variable_polynomial_approximation", "yaocptool/methods/base/solutionmethodsbase.py:SolutionMethodsBase.unvec"]}
{"id": "C09", "title": "NLP builder keeps variables, constraints and bounds aligned", "statement": "Starting from an empty optimisation problem, after any sequence of variable, parameter, objective, inequality, equality and constraint insertions - accepted or rejected - the vectors of variables, lower and upper bounds have equal length, the same holds for constraints, and every numeric bound pair satisfies lower <= upper. A rejected call leaves the problem exactly as it was. Scalar bounds are spread over all components. Bounds of constraints that mention a variable or parameter of the problem, and bounds of variables that mention a parameter, are refused.", "quantifier": "all sequences of builder calls with arbitrary arguments, including failing ones", "why_tests_cant": "unbounded histories mixing accepted and rejected calls", "anchors": ["yaocptool/optimization/abstract_optimization_problem.py:AbstractOptimizationProblem"]}
{"id": "C10", "title": "NLP feasible set is the conjunction of what was requested", "statement": "A point satisfies the variable and constraint bounds handed to the solver if and only if it satisfies every accepted request: bounds of each variable, lb<=expr<=ub, expr==rhs, and for relational constraints e<=c, c<=e and e==c. Nothing accepted is lost or weakened by later insertions, and rejected requests add nothing.", "quantifier": "all builder call sequences, all points and parameter values", "why_tests_cant": "a statement about all points of the search space after any history", "anchors": ["yaocptool/optimization/abstract_optimization_problem.py:AbstractOptimizationProblem.include_constraint", "yaocptool/optimization/abstract_optimization_problem.py:AbstractOptimizationProblem.include_inequality", "yaocptool/optimization/abstract_optimization_problem.py:AbstractOptimizationProblem.include_equality", "yaocptool/optimization/abstract_optimization_problem.py:AbstractOptimizationProblem.include_variable"]}
{"id": "C11", "title": "Relational constraint recognition", "statement": "is_equality is true exactly of equality expressions. is_inequality is documented to hold for x<1 and x<=2; it is true exactly of 'less or equal' expressions, so include_constraint rejects every strict inequality with ValueError (refutation of the documented behaviour).", "quantifier": "all expressions of any shape", "why_tests_cant": "universal over expressions", "anchors": ["yaocptool/util/util.py:is_inequality", "yaocptool/util/util.py:is_equality", "yaocptool/optimization/abstract_optimization_problem.py:AbstractOptimizationProblem.include_constraint"]}
{"id": "C12", "title": "Solver call arguments and solver reuse", "statement": "Solving passes the bounds of the problem unless a call dictionary is given, never modifies the caller's dictionary, sends the guess and multipliers only when given, and raises ValueError exactly when the parameter vector has a different length from the problem's. The solver is built once, from the problem as it is at the first solve, and reused: after a later insertion the arguments describe the new problem while the solver is still the old one (refutation of 'solve always solves the current problem').", "quantifier": "all problems, call dictionaries, guesses and histories of insertions and solves", "why_tests_cant": "histories interleaving edits and solves", "anchors": ["yaocptool/optimization/abstract_optimization_problem.py:AbstractOptimizationProblem._get_solver_call_args", "yaocptool/optimization/abstract_optimization_problem.py:AbstractOptimizationProblem.get_solver", "yaocptool/optimization/abstract_optimization_problem.py:AbstractOptimizationProblem.solve"]}
{"id": "C13", "title": "States and their equation table stay in step", "statement": "After any sequence of successful model-building calls the equation table has exactly one entry per state, in the order of the state vector, with no duplicates, and replacing variables never changes which states exist. Including a state that already exists raises ValueError, but the state vector has by then already received the duplicate (refutation of 'a rejected call leaves the model unchanged'); removing a state leaves its initial-condition symbol behind (refutation of 'x_0 has as many entries as x').", "quantifier": "all finite sequences of model-building calls with arbitrary arguments", "why_tests_cant": "unbounded histories of interleaved insertions and removals", "anchors": ["yaocptool/modelling/mixins/continuous_states_mixin.py:ContinuousStateMixin.include_state", "yaocptool/modelling/mixins/continuous_states_mixin.py:ContinuousStateMixin.remove_state", "yaocptool/modelling/mixins/continuous_states_mixin.py:ContinuousStateMixin.include_equations"]}
{"id": "C14", "title": "Equations reach the states they were given for", "statement": "Including ode with explicit states sets exactly those states' equations, pairing by position, and leaves all others alone; der(x)==f does the same. Without naming states the equations go, in order, to the leading states of the model when the first state has no equation yet, and otherwise the call fails with ValueError and sets no equation. Refuted: der(x)==f with different sizes is always rejected (two such equations whose sizes compensate are accepted and equations shift between states). Giving states without equations is rejected. The vector read back as model.ode lists the set equations in state order, hence has the state order and length exactly when every state has an equation.", "quantifier": "all models, all equation lists, all partial assignments of equations", "why_tests_cant": "every pattern of set and unset equations", "anchors": ["yaocptool/modelling/mixins/continuous_states_mixin.py:ContinuousStateMixin.include_equations", "yaocptool/modelling/mixins/continuous_states_mixin.py:ContinuousStateMixin.ode", "yaocptool/modelling/utils.py:der"]}
{"id": "C15", "title": "Controls keep their defining expression", "statement": "After any sequence of control insertions, removals, substitutions and parametrisations - including failing calls - the vector of control expressions is as long as the control vector, and in successful histories with distinct controls each control is paired with its own expression (the control itself until it is parametrised). Removing a control that is parametrised fails with ValueError after the control has already disappeared from the model (refutation of atomic failure).", "quantifier": "all sequences of control operations", "why_tests_cant": "unbounded histories", "anchors": ["yaocptool/modelling/mixins/control_mixin.py:ControlMixin.include_control", "yaocptool/modelling/mixins/control_mixin.py:ControlMixin.remove_control", "yaocptool/modelling/mixins/control_mixin.py:ControlMixin.parametrize_control", "yaocptool/modelling/mixins/control_mixin.py:ControlMixin.replace_variable"]}
{"id": "C16", "title": "Replacing variables means evaluating at the replacement", "statement": "After replace_variable(original, replacement) every differential, algebraic and control expression evaluates, at any point, to what the old expression evaluates to when each original variable takes the value of its replacement, all at once; expressions free of the originals are unchanged; the variable vectors do not change; and different sizes raise ValueError leaving the model unchanged.", "quantifier": "all models, all variable lists and replacement expressions, all valuations", "why_tests_cant": "semantic equality at every valuation for all expressions", "anchors": ["yaocptool/modelling/system_model.py:SystemModel.replace_variable", "yaocptool/modelling/mixins/continuous_states_mixin.py:ContinuousStateMixin.replace_variable", "yaocptool/modelling/mixins/algebraic_mixin.py:AlgebraicMixin.replace_variable", "yaocptool/modelling/mixins/control_mixin.py:ControlMixin.replace_variable"]}
{"id": "C17", "title": "Control parametrisation eliminates the control", "statement": "After a successful parametrize_control(u, expr, u_par), with expr free of u, no equation of the model mentions u, the model evaluates as the original one with u set to expr, the free control parameters are the old ones without u followed by u_par, u is reported as parametrised, and parametrising it again raises ValueError with the equations unchanged.", "quantifier": "all models, controls, expressions and valuations", "why_tests_cant": "semantic statement over all expressions", "anchors": ["yaocptool/modelling/mixins/control_mixin.py:ControlMixin.parametrize_control", "yaocptool/modelling/mixins/control_mixin.py:ControlMixin.control_is_parametrized"]}
{"id": "C18", "title": "Connecting an input to an output", "statement": "A successful connect(u, y) adds one algebraic equation u_i - y_i per element and makes u algebraic variables (or, in replace mode, substitutes y for u and adds nothing), and removes u from the controls; the difference between the numbers of algebraic equations and algebraic variables is unchanged; any solution of the new system satisfies u = y and the old equations. Unequal sizes fail before anything changes; connecting something that is not a control fails only after the equation and variable were already added (refutation of atomic failure).", "quantifier": "all models, all input/output lists, both modes, all valuations", "why_tests_cant": "all models and all orders of connections", "anchors": ["yaocptool/modelling/system_model.py:SystemModel.connect"]}
{"id": "C19", "title": "Merging models", "statement": "Including other models appends, in the order given, all their states, algebraic variables, controls, parameters and thetas, and all their equations, with each model's own time symbols replaced by this model's; nothing already in the model changes value. Fails when two models share a state or when a model has a state without an equation (after its variables were already included).", "quantifier": "all lists of models, all valuations", "why_tests_cant": "any number and shape of submodels", "anchors": ["yaocptool/modelling/system_model.py:SystemModel.include_models", "yaocptool/modelling/system_model.py:SystemModel.merge"]}
{"id": "C20", "title": "Deep copy of a model", "statement": "get_deepcopy creates new variables, one per original variable, in the same order. When every state has an equation the copy's equations evaluate like the original's with each original variable read from its new one. Refuted in general: if an earlier state has no equation the copy attaches equations to the wrong states; the copy's free control parameters remain the original's symbols while its equations use new ones; the copy's equations keep the original time symbol; a model without states cannot be copied.", "quantifier": "all models and valuations", "why_tests_cant": "requires relating two models at all valuations", "anchors": ["yaocptool/modelling/system_model.py:SystemModel.get_deepcopy"]}
{"id": "C21", "title": "DAE system view and join", "statement": "The system handed to the integrator has the model's states and equations, the parameters in the order p, theta, free control parameters, and algebraic parts exactly when the model has algebraic variables. Joining two DAE systems concatenates variables and equations and identifies their times; the joined system is solved by a valuation exactly when both parts are, at the common time. Replacing variables in a system gives every vector of it the values it had with the replacements in their place. Refuted: the algebraic equations of a model always reach the integrator (without algebraic variables they are dropped).", "quantifier": "all models and DAE systems, all valuations", "why_tests_cant": "semantic equivalence for all systems", "anchors": ["yaocptool/modelling/system_model.py:SystemModel.get_dae_system", "yaocptool/modelling/dae_system.py:DAESystem.join", "yaocptool/modelling/dae_system.py:DAESystem.substitute_variable"]}
{"id": "C22", "title": "Sequential simulation chains elements", "statement": "Simulating over a list of end times returns one state point per end time plus the initial one and one algebraic/control point per end time, at exactly those times; each element starts from the time, state and algebraic value where the previous ended; simulating a concatenation of time lists equals simulating the first and then the second from its end point. It fails when a step has zero length, when the control dictionary size differs from the number of elements (more than one element), or when an element has no theta. One control vector holds in every element, and controls or thetas that are not given are empty in every element. It succeeds, if the integrator does, when none of these faults is there, no equation mentions tau and the controls are expressions of the variables and parameters of the model; other controls are refused. The controls recorded at the end of an element are the control expressions of the model at the time, state and algebraic variables recorded there.", "quantifier": "all integrators (treated as an arbitrary function), all time lists, controls and thetas", "why_tests_cant": "any number of elements and any integrator", "anchors": ["yaocptool/modelling/system_model.py:SystemModel.simulate", "yaocptool/modelling/dae_system.py:DAESystem.simulate"]}
{"id": "C23", "title": "Integrator selection", "statement": "'implicit' selects cvodes for systems without algebraic equations and idas otherwise, 'explicit' selects rk, the four concrete names select themselves, and any other name raises ValueError. Options given by the user always win over configured defaults and over the time span defaults.", "quantifier": "all systems, names and option dictionaries", "why_tests_cant": "universal over option dictionaries", "anchors": ["yaocptool/modelling/dae_system.py:DAESystem._create_integrator", "yaocptool/modelling/dae_system.py:DAESystem.simulate"]}
{"id": "C24", "title": "OCP bounds, initial values and guesses match the model", "statement": "From a well-formed problem, after any sequence of successful state/algebraic/control insertions and removals, connections, merges and parameter selections, the lower and upper bound vectors for x, y, u, delta_u and the initial state have the length of the corresponding variable vectors, and each variable keeps the bounds it was given. A new problem bounds nothing and has no guesses. Refuted: bounds given as a Python list of two or more numbers for a state are stored as one row of columns; initial equations given together with an initial value are dropped; an algebraic guess is dropped when the problem has no guess yet.", "quantifier": "all finite sequences of problem-editing calls", "why_tests_cant": "unbounded histories of edits", "anchors": ["yaocptool/modelling/ocp.py:OptimalControlProblem.include_state", "yaocptool/modelling/ocp.py:OptimalControlProblem.include_algebraic", "yaocptool/modelling/ocp.py:OptimalControlProblem.include_control", "yaocptool/modelling/ocp.py:OptimalControlProblem.remove_algebraic", "yaocptool/modelling/ocp.py:OptimalControlProblem.remove_control", "yaocptool/modelling/ocp.py:OptimalControlProblem.connect"]}
{"id": "C25", "title": "OCP size errors are detected before any change", "statement": "include_state, include_algebraic and include_control with bounds or initial conditions of the wrong size (and include_control with a guess of the wrong size) raise ValueError and leave the problem and its model unchanged; the parameter selections check bound sizes likewise. Refuted: equations of the wrong size, a duplicate state, or a failed removal leave a partly changed problem; the size of an algebraic guess is not checked; a refused optimisation parameter stays in the model.", "quantifier": "all problems and all argument sizes", "why_tests_cant": "all combinations of argument sizes", "anchors": ["yaocptool/modelling/ocp.py:OptimalControlProblem.include_state", "yaocptool/modelling/ocp.py:OptimalControlProblem.include_algebraic", "yaocptool/modelling/ocp.py:OptimalControlProblem.include_control"]}
{"id": "C26", "title": "Merging OCPs", "statement": "Merging problems appends bounds, constraints, initial values and parameters of every problem in order, adds the costs, keeps bound vectors aligned with the merged model, and refuses problems with a different time horizon. Refuted: after a refusal the earlier problems of the list have already been merged, and a guess is lost when the other problem has none even if it has no variables of that kind; costs and constraints of a merged problem keep mentioning its own time symbol.", "quantifier": "all lists of problems", "why_tests_cant": "any number of merged problems", "anchors": ["yaocptool/modelling/ocp.py:OptimalControlProblem.merge"]}
{"id": "C27", "title": "Connecting inside an OCP moves the bounds with the variable", "statement": "After connect(u, y) each connected control appears as an algebraic variable with the bounds it had as a control, all other variables keep their bounds, and bound lengths match the model. Refuted: with an algebraic guess but no control guess the algebraic guess becomes shorter than the algebraic vector; a symbol that is no control can be listed and then has no bounds; with replace=True costs and constraints keep mentioning the removed control and its bounds are lost.", "quantifier": "all well-formed problems and connections", "why_tests_cant": "all orders and positions of controls", "anchors": ["yaocptool/modelling/ocp.py:OptimalControlProblem.connect"]}
{"id": "C28", "title": "Pre-solve check accepts exactly consistent problems", "statement": "pre_solve_check succeeds if and only if the running and final costs are scalars and every bound and initial-value vector has the size of the variables it belongs to; each violation yields an exception; problems built by admissible calls pass. Refuted: the guesses and the special cost are checked.", "quantifier": "all problems", "why_tests_cant": "all combinations of sizes", "anchors": ["yaocptool/modelling/ocp.py:OptimalControlProblem.pre_solve_check"]}
{"id": "C29", "title": "OCP simulation grid", "statement": "Simulating a problem over n finite elements evaluates the model at the times delta_t, 2 delta_t, ..., (n-1) delta_t. Arguments that are left out are taken from the problem: initial state, initial and final time, guesses of controls and algebraic variables. Refuted: the grid does not contain the final time, is not shifted by the initial time, and is empty for one element (which then fails).", "quantifier": "all horizons and numbers of elements", "why_tests_cant": "universal in n and in the horizon", "anchors": ["yaocptool/modelling/ocp.py:OptimalControlProblem.simulate"]}
{"id": "C30", "title": "Data sets keep time stamps with their values", "statement": "After any sequence of successful insertions, sorts and extensions every entry has as many columns as time stamps; sorting yields non-decreasing times, keeps every (time, column) pair and keeps the insertion order of equal times; extending with another data set yields exactly the union of the pairs, sorted, and does not modify the other data set. A rejected insertion changes nothing. A new entry has the names given, or default names numbered from zero, and no data, and leaves other entries alone. Refuted: the rows of an entry need not agree with its declared size, the size is not taken from the data when it was not declared, and creating an existing entry again discards its data.", "quantifier": "all data sets and all sequences of operations", "why_tests_cant": "all histories, including ties in time", "anchors": ["yaocptool/modelling/dataset.py:DataSet.insert_data", "yaocptool/modelling/dataset.py:DataSet.sort", "yaocptool/modelling/dataset.py:DataSet.extend", "yaocptool/modelling/dataset.py:DataSet.get_copy"]}
{"id": "C31", "title": "Extending data sets with unknown or empty entries", "statement": "extend copies a missing entry from the other data set, and entries without data are harmless. Refuted for this code: an entry missing in the target raises KeyError, and any entry without data makes the final sort raise ValueError after the data was inserted.", "quantifier": "all pairs of data sets", "why_tests_cant": "all shapes of data sets", "anchors": ["yaocptool/modelling/dataset.py:DataSet.extend", "yaocptool/modelling/dataset.py:DataSet.sort"]}
{"id": "C32", "title": "Simulation result extension", "statement": "Extending a simulation result by another of equal dimensions gives the pairs of both in chronological order, the smaller initial and the larger final time, and the final condition is the data at the largest time; results of different dimensions are refused and nothing changes. A simulation's result holds exactly the computed points; a new result has the sizes and times given and no points. Refuted: the number of elements is never recorded, and an extension that fails later has already changed the times.", "quantifier": "all pairs of simulation results", "why_tests_cant": "all histories of extensions", "anchors": ["yaocptool/modelling/simulation_result.py:SimulationResult.extend", "yaocptool/modelling/simulation_result.py:SimulationResult.final_condition"]}
{"id": "C33", "title": "Network node identifiers", "statement": "Including nodes puts exactly those into the network, gives an identifier to those without one and leaves the rest alone. When the network chooses the identifiers they are pairwise different after any history of calls, and a lookup by identifier finds exactly the node that has it (IndexError if none); a lookup by name finds the first node of that name (KeyError if none). Iterating visits the nodes with identifiers 0,1,2,... up to the first gap, hence all nodes exactly when the identifiers are 0..n-1, which is the case after accepted inclusions and connections of included nodes. Models and problems are listed in the order of identifiers. A node made without a model has that of its problem, and without a name that of its model. Refuted in general: a user-chosen identifier can coincide with an assigned one; connecting a node that was not included adds it without an identifier; rebuilding the edges can leave a gap.", "quantifier": "all sequences of network calls, failed ones included", "why_tests_cant": "unbounded histories", "anchors": ["yaocptool/modelling/network/network.py:Network.include_nodes", "yaocptool/modelling/network/network.py:Network.__getitem__", "yaocptool/modelling/network/network.py:Network.get_node_by_id", "yaocptool/modelling/network/network.py:Network.get_node_by_name", "yaocptool/modelling/network/network.py:Network.models"]}
{"id": "C34", "title": "Coloring groups partition the network", "statement": "get_map_coloring_groups returns groups that contain every node exactly once and no two connected nodes in a common group, for every network that can be built. The default blocks of the distributed solver contain only nodes of the network, each at most once, and no two nodes that are connected in both directions are in one block. Refuted for those blocks: they can omit nodes and can put nodes that are connected in one direction in one block.", "quantifier": "all networks that a sequence of calls builds", "why_tests_cant": "universal over graphs", "anchors": ["yaocptool/modelling/network/network.py:Network.get_map_coloring_groups", "yaocptool/methods/network/distributedaugmetedlagrangian.py:DistributedAugmentedLagrangian.__init__"]}
{"id": "C35", "title": "Inserting intermediary nodes", "statement": "Rebuilding with intermediary nodes replaces every edge by a path through a new node of its own, whose inputs and outputs have the size of the connection; there are no other edges, and existing nodes are unchanged. It succeeds when every connection joins as many outputs as inputs and the sending nodes have problems. Values of the old variables fulfil the connections of the old network exactly when they extend to values fulfilling the new connections and the equations of the new nodes. Refuted: nodes without any edge disappear; a failing rebuild has already dropped the edges; new nodes start at time 0, so a network starting at another time no longer has a problem.", "quantifier": "all networks that a sequence of calls builds", "why_tests_cant": "universal over graphs", "anchors": ["yaocptool/modelling/network/network.py:Network.insert_intermediary_nodes", "yaocptool/modelling/network/network.py:Network.insert_intermediary_node"]}
{"id": "C36", "title": "Network model and problem assembly", "statement": "The model of a network contains the variables of every node model in identifier order; connected inputs become algebraic variables with one equation each. Its solutions are exactly the values that fulfil every node's equations and agree on every edge. Assembly succeeds for included nodes with complete models and edges that fit. The problem of a network has all constraints and initial values of the nodes one after another and the sum of their costs. Refuted: connecting does not compare sizes, and accepts an output vector of which only one element belongs to the node.", "quantifier": "all networks", "why_tests_cant": "any topology", "anchors": ["yaocptool/modelling/network/network.py:Network.get_model", "yaocptool/modelling/network/network.py:Network.get_problem", "yaocptool/modelling/network/network.py:Network.connect"]}
{"id": "C64", "title": "Initial conditions from a network simulation", "statement": "get_initial_condition reports for every node, under its name, the final value of each of its states, algebraic variables and controls in the simulation of the whole network, looked up by variable and not by position in the node; it reports nothing else. Refuted for nodes that share a name: only the last is reported.", "quantifier": "all networks that a sequence of calls builds, all simulators", "why_tests_cant": "universal over networks and simulators", "anchors": ["yaocptool/modelling/network/network.py:Network.get_initial_condition"]}
{"id": "C37", "title": "Time grid of the discretisation", "statement": "time_breakpoints has n+1 points, equally spaced by (t_f-t_0)/n, starts at 0 and ends at t_f-t_0. For t_0 = 0 this is the problem's horizon; refuted for t_0 different from 0. Refuted: the grid follows later changes of the number of elements or of the horizon; it is computed once.", "quantifier": "all horizons and all n >= 1", "why_tests_cant": "universal in n", "anchors": ["yaocptool/methods/base/solutionmethodsbase.py:SolutionMethodsBase.time_breakpoints", "yaocptool/methods/base/solutionmethodsbase.py:SolutionMethodsBase.delta_t"]}
{"id": "C38", "title": "Collocation decision vector round trip", "statement": "For every problem size the decision vector, its bounds and the default guess have the same length; unpacking a vector of that length and packing it again returns it; unpacking a packed trajectory returns the trajectory; distinct trajectory entries occupy distinct positions; a vector of any other length is rejected.", "quantifier": "all numbers of states, algebraic variables, controls, elements, degrees, parameters, and all vectors", "why_tests_cant": "all dimension combinations", "anchors": ["yaocptool/methods/classic/collocationscheme.py:CollocationScheme.unpack_decision_variables", "yaocptool/methods/classic/collocationscheme.py:CollocationScheme.repack_decision_variables", "yaocptool/methods/classic/collocationscheme.py:CollocationScheme._create_variables_and_bound"]}
{"id": "C39", "title": "Multiple shooting decision vector layout", "statement": "Same as C38 for multiple shooting: variable, bound and guess vectors have equal length (elements+1 state blocks), and unpacking reads each block at its own place.", "quantifier": "all dimensions and vectors", "why_tests_cant": "all dimension combinations", "anchors": ["yaocptool/methods/classic/multipleshooting.py:MultipleShootingScheme.unpack_decision_variables"]}
{"id": "C40", "title": "Parameters reach the NLP at the right place", "statement": "A new solution method keeps its problem and options, takes the last control as a parameter if that is asked for or the problem has one, and refuses bounds on control rates unless the controls are piecewise constant. The parameter vector sent to the NLP is p, then the thetas of elements 0..n-1, then the initial state, then the last control when it is a parameter, and the NLP reads each block at exactly that offset. Refuted: passing last_u explicitly with last_control_as_parameter yields a vector that is too short, and with initial_condition_as_parameter off the lengths never match for a model with states. Refuted: the sizes of p and theta are checked; values of swapped sizes are accepted and land in the wrong places.", "quantifier": "all sizes and values of p, theta, x_0, last_u", "why_tests_cant": "all dimension combinations and option settings", "anchors": ["yaocptool/methods/base/solutionmethodsbase.py:SolutionMethodsBase._get_solver_call_args", "yaocptool/methods/base/solutionmethodsbase.py:SolutionMethodsBase.create_optimization_problem", "yaocptool/methods/base/solutionmethodsbase.py:SolutionMethodsBase.__init__"]}
{"id": "C41", "title": "MPC runs the requested number of iterations", "statement": "run(n) with n>=1 always ends, having performed exactly n control rounds or all rounds up to and including the first that fails. A round that succeeds measures, estimates, updates the parameters, optimises from the warm start, turns the controls of the first element into a function of time and sends it to the plant; n rounds advance the counter by n and the plant by n samples. Refuted: run(0), documented as indefinite, performs one round; no round succeeds without the debugger that a left-over breakpoint imports, with a method returning several results, or with multiple shooting; run_fixed_control ignores the control it is given and raises TypeError on a new controller; run_fixed_control_with_estimator estimates in every round, but also repeats the last solution instead of the control given.", "quantifier": "all n, all estimators, solvers, plants and controller states", "why_tests_cant": "universal in n and in every component called", "anchors": ["yaocptool/mpc/mpc.py:MPC.run", "yaocptool/mpc/mpc.py:MPC.get_new_control", "yaocptool/mpc/mpc.py:MPC.send_control", "yaocptool/mpc/mpc.py:MPC.run_fixed_control", "yaocptool/mpc/mpc.py:MPC.run_fixed_control_with_estimator"]}
{"id": "C42", "title": "MPC warm start shifts the trajectory", "statement": "For at least two elements the warm start has the same length as the previous solution and holds, up to the fixed factor 1.1, the previous trajectory moved one element forward with the last element repeated. Refuted: because of the factor 1.1 the guess is not the shifted trajectory whenever one entry is not zero; a single element raises IndexError; multiple shooting raises AttributeError.", "quantifier": "all trajectories and dimensions", "why_tests_cant": "all dimensions", "anchors": ["yaocptool/mpc/mpc.py:MPC"]}
{"id": "C43", "title": "Plant time and records", "statement": "After N accepted controls the plant time is t_0+N*t_s, each control adds one record per sampling point at strictly increasing times inside the sample, and the state is chained through the integrator. A control of the wrong size is rejected and nothing changes. Refuted: with the default sampling time 0, or without sampling points, no control is ever accepted; once a control function was set, values given to set_control have no effect; a simulation failing inside a sample leaves the plant half way; the measurement records are labelled by states whatever the number of outputs.", "quantifier": "all control sequences, any integrator, any super-sampling", "why_tests_cant": "any number of steps", "anchors": ["yaocptool/mpc/plant.py:PlantSimulation.set_control", "yaocptool/mpc/plant.py:PlantSimulation._advance"]}
{"id": "C44", "title": "Penalty updates are monotone, bounded and positive", "statement": "For every history of solver answers: under the bounded-increase rule call number i is made with each weight equal to min(mu_max, first weight * factor^i); the constant and primal-dual rules keep the weights; under every rule weights that start within the limit never decrease, stay within it and keep their number; the primal rule increases exactly the weights whose violation did not shrink by the required factor; an unknown rule name raises ValueError (after the multipliers were updated) and leaves the weights. Setting weights takes a vector of the right size, repeats a number, and refuses anything else without change. Refuted: a weight set above the limit is lowered to it; with only_update_if_improve the primal rule increases the weight of a violation that shrank enough.", "quantifier": "all weights, options and residual histories", "why_tests_cant": "unbounded number of outer iterations", "anchors": ["yaocptool/methods/augmented_lagrangian.py:AugmentedLagrangian._update_mu", "yaocptool/methods/augmented_lagrangian.py:AugmentedLagrangian._update_mu_primal"]}
{"id": "C45", "title": "Multiplier update", "statement": "Each outer iteration replaces every multiplier by multiplier + weight * value of its relaxed equation, at every element and collocation point of the trajectory the solver returned, keeping all sizes; where the equation holds the multiplier stays; after any number of iterations it is the first one plus the sum of weight times value; the violation reported for an equation is its largest absolute value over all collocation points. Refuted for only_update_if_improve: from the second iteration on only the multipliers of the first collocation point are updated.", "quantifier": "all numbers of elements, degrees, constraints, all residual histories", "why_tests_cant": "unbounded histories", "anchors": ["yaocptool/methods/augmented_lagrangian.py:AugmentedLagrangian._compute_new_nu_and_error"]}
{"id": "C46", "title": "Augmented Lagrangian iteration loop", "statement": "A run solves at least one and at most max_iter problems, each with the current weights and multipliers and started from the last solution, continues only while some violation is not below the tolerance, and returns the last solution; if it stops early, every relaxed equation is within the tolerance at every collocation point of the trajectory returned; a failure leaves exactly the state of the passes before it. As constructed by default nothing is updated and the same problem is solved max_iter times. Refuted: with max_iter=0 it reports the intended error; the parameter values returned are those of the last solve (only if the caller gave own parameters).", "quantifier": "all solvers, error histories and options", "why_tests_cant": "any number of iterations", "anchors": ["yaocptool/methods/augmented_lagrangian.py:AugmentedLagrangian.call_solver"]}
{"id": "C47", "title": "Relaxation term of the augmented Lagrangian", "statement": "Relaxing constraints adds an expression worth nu'g + 1/2 sum mu_i g_i^2 to the running cost; it vanishes where all relaxed constraints hold and for positive weights it is a sum of squares plus its least value, which is attained. Relaxed algebraic equations leave the problem and the variables chosen become controls with their bounds; relaxed time equalities leave with their times; bounds of states move to new controls tied to the states by a penalty; nothing else of the problem changes. The multipliers are parametrised as polynomials per element over the collocation points. Refuted: relaxing all algebraic equations and a time equality works (always raises); relaxing time equalities and bounds of states together pairs each multiplier with the equation it is updated by; a degree given for the solver only also sizes the multipliers; degree and number of elements given as keywords take effect (they are only compared with those of the solver); variables keep their own guess when equations and variables of different index are relaxed.", "quantifier": "all problems, requests, constraint values, multipliers and weights", "why_tests_cant": "algebraic identity for any number of constraints", "anchors": ["yaocptool/methods/augmented_lagrangian.py:AugmentedLagrangian._include_relax_in_objective", "yaocptool/methods/augmented_lagrangian.py:AugmentedLagrangian._relax_algebraic_equations", "yaocptool/methods/augmented_lagrangian.py:AugmentedLagrangian._relax_time_equalities", "yaocptool/methods/augmented_lagrangian.py:AugmentedLagrangian._relax_states_constraints"]}
{"id": "C48", "title": "Intermediary node closed-form step", "statement": "A new method for an intermediary node has zero multipliers and the penalty of the options. With scalar connections the value an intermediary node computes is, at every point, the unique minimiser of its augmented Lagrangian (the penalty the method adds for the two relaxed equations) for a positive weight; it is the average of the two neighbours when the multipliers are equal; an update reports the largest gap on each side, prepares the multipliers increased by the gaps times the weight, and these are then equal on both sides. With the option to update only what improved, a side whose largest gap became smaller gets, in every element, the new multiplier at the first point and keeps the others, and the other side keeps all of its multipliers; with the option to skip the computation an update reports a single zero and changes no multiplier; with the option to skip new multipliers the gaps are reported and the multipliers stay. Refuted: a side that improved gets all its new multipliers; the prepared multipliers are used afterwards (whatever is done with a method, solving gives the plain average); connections with several entries are solved entry by entry (outputs and inputs are mixed up and one value is returned).", "quantifier": "all weights, multipliers, neighbour values, numbers of elements and points, and histories of calls", "why_tests_cant": "optimality over all real candidates", "anchors": ["yaocptool/methods/network/intermediary_node_solution_method.py:IntermediaryNodeSolutionMethod"]}
{"id": "C49", "title": "Distributed sweep semantics", "statement": "In a serial sweep every node of the blocks is solved once, starting from its last point, with the outputs of its predecessors and the inputs of its successors: those of this sweep for nodes solved before it, the last ones otherwise; success replaces its result, failure keeps the last one, and other nodes are untouched. In a parallel sweep all nodes are solved with the results from before the sweep. Unconnected nodes may be solved in any order, and serial and parallel sweeps over them give the same. With the choice 'sample' each block is solved once. Refuted: a parallel sweep over several blocks uses the results of earlier blocks of the same sweep; results survive a second call of solve in which a node fails.", "quantifier": "all networks, block partitions, node solvers (arbitrary state and outcome) and earlier results", "why_tests_cant": "all orders and schedules", "anchors": ["yaocptool/methods/network/distributedaugmetedlagrangian.py:DistributedAugmentedLagrangian._solve_node_problems_serial", "yaocptool/methods/network/distributedaugmetedlagrangian.py:DistributedAugmentedLagrangian._solve_node_problems_distributed", "yaocptool/methods/network/distributedaugmetedlagrangian.py:DistributedAugmentedLagrangian._get_node_theta", "yaocptool/methods/network/distributedaugmetedlagrangian.py:DistributedAugmentedLagrangian._block_iterator", "yaocptool/methods/network/distributedaugmetedlagrangian.py:DistributedAugmentedLagrangian.solve"]}
{"id": "C50", "title": "Distributed loop bounds and stopping", "statement": "A distributed solution makes at most the configured numbers of outer iterations and of sweeps in each; it goes on sweeping exactly while the objective decreases by the required fraction, and stops after the first outer iteration whose largest error is below the tolerance. It reports the sum of the objectives of the successful results, the number of solved blocks and one less than the numbers of outer iterations and last sweeps. An unknown block choice raises ValueError, and so does a limit of no outer iterations: then nothing is changed and there is no result. Refuted: sweeps stop when nothing improves (not with an objective of zero or less); a solution in which all nodes fail is reported (it always raises); an error below the tolerance ends the solution when there is a single error value (it raises TypeError).", "quantifier": "all networks, solvers, options and objective and error histories", "why_tests_cant": "any number of iterations", "anchors": ["yaocptool/methods/network/distributedaugmetedlagrangian.py:DistributedAugmentedLagrangian.solve"]}
{"id": "C51", "title": "Polynomial chaos basis size and Hermite polynomials", "statement": "The basis used for n uncertain inputs and order k has exactly one function per exponent tuple of total degree at most k, in number C(n+k,k), and up to order nine each is the product of Hermite polynomials (He_{n+2}=x He_{n+1}-(n+1) He_n) of its exponents. Refuted for order 10, whose polynomial of degree ten is wrong; orders above 10 fail.", "quantifier": "all n, k; all arguments x", "why_tests_cant": "combinatorial identity for all n and k", "anchors": ["yaocptool/stochastic/pce.py:PCEConverter", "yaocptool/stochastic/pce.py:get_ls_factor"]}
{"id": "C52", "title": "Uncertainty bookkeeping of stochastic problems", "statement": "After any sequence of calls, each caught on its own, the mean, covariance and distributions of uncertain parameters and of uncertain initial conditions are those of the groups declared with fitting sizes, in order, with zero covariance between groups; the chance constraints are those given with fitting sizes, and the problem itself is as if only the calls on it were made. Calls with wrong sizes raise ValueError and change nothing. Refuted: a refused inclusion of an uncertain parameter leaves no trace (the parameter stays in the model); a chance constraint needs one probability per entry; the time given for a chance constraint matters; the indices of the uncertain quantities can be asked for (always AttributeError).", "quantifier": "all sequences of calls", "why_tests_cant": "unbounded histories", "anchors": ["yaocptool/modelling/stochastic_ocp.py:StochasticOCP"]}
{"id": "C53", "title": "Unscented transform reproduces mean and covariance", "statement": "The 2n+1 weights are positive and those of the mean sum to one; a model without states raises. The weighted mean and covariance of the sigma points are exactly the mean and covariance they were generated from, and the same holds for their images under affine functions, including the cross covariance.", "quantifier": "all dimensions, means, covariances the factorisation accepts, and affine functions", "why_tests_cant": "identity for every dimension", "anchors": ["yaocptool/estimation/unscented_kalman_filter.py:UnscentedKalmanFilter"]}
{"id": "C54", "title": "Kalman updates keep covariances symmetric and semidefinite", "statement": "If the noise covariances (and for the extended filter the first covariance) are symmetric positive semidefinite, so is every predicted and corrected covariance along every run of the unscented and extended filter, and the result of the polynomial chaos correction; symmetry alone needs only symmetric noise. A measurement never adds uncertainty (predicted minus corrected covariance is semidefinite). With positive definite measurement noise no step fails unless the simulation, linearisation, measurement function or factorisation does.", "quantifier": "all dimensions, models, measurement functions, matrices and sequences of measurements", "why_tests_cant": "identity for every dimension", "anchors": ["yaocptool/estimation/extended_kalman_filter.py:ExtendedKalmanFilter.estimate", "yaocptool/estimation/unscented_kalman_filter.py:UnscentedKalmanFilter._estimate_standard_ukf", "yaocptool/estimation/pce_kalman_filter.py:PCEKalmanFilter.estimate"]}
{"id": "C55", "title": "Indirect method: saturated control is optimal for separable Hamiltonians", "statement": "Every computed optimal control lies between its bounds. Where the Hamiltonian is quadratic in the controls, the result does not depend on the controls, equals the unique stationary point when that respects the bounds, and then minimises a convex Hamiltonian over all controls; with separate controls (diagonal second derivative) it minimises over the bounds. A second derivative recognised as zero is refused. Refuted: it minimises over the bounds for coupled controls; Hamiltonians that are not quadratic in the controls are refused (the result then depends on the control it replaces).", "quantifier": "all methods, Hamiltonians, bounds, dimensions and points", "why_tests_cant": "optimality over all candidates", "anchors": ["yaocptool/methods/classic/indirectmethod.py:IndirectMethod.calculate_optimal_control"]}
{"id": "C56", "title": "Timeout and timer context managers", "statement": "Leaving a timeout block without exception reports no timeout; a TimeoutError anywhere at the end of a cause chain of at most 20 links is swallowed exactly when raise_exc is off; any other exception propagates; a timer reports the difference of its clock readings and raises before it has finished for the first time. Refuted: a timer that is running again says so; it reports the time before.", "quantifier": "all exception chains and settings", "why_tests_cant": "all chain lengths", "anchors": ["yaocptool/util/timeout.py:timeout", "yaocptool/util/util.py:Timer"]}
{"id": "C57", "title": "Optimisation results", "statement": "From the vector returned by the solver the result gives every variable its value again, at the times of its element; the optimised parameters replace the ones given and the others are kept; the reported cost is the last value of the cost states. get_variable returns the chosen rows for every element and point and refuses other types and indices; a name means a control, or else an algebraic variable, or else a state; the first control is the first sample of the controls. The data set of a result has exactly the entries of the result, each with every vector beside its time, in order. Refuted: the parameters passed by the caller are left unchanged (they are overwritten in place); is_valid answers (it always raises).", "quantifier": "all problems, grids, degrees, parameter values and solver vectors; all results, names and indices", "why_tests_cant": "the pairing of values, times and names must hold for every layout of the solver vector; tests look at a few plots or one trajectory", "anchors": ["yaocptool/methods/base/optimizationresult.py:OptimizationResult", "yaocptool/methods/base/solutionmethodsbase.py:SolutionMethodsBase.create_optimization_result", "yaocptool/methods/classic/collocationscheme.py:CollocationScheme.set_data_to_optimization_result_from_raw_data", "yaocptool/methods/classic/multipleshooting.py:MultipleShootingScheme.set_data_to_optimization_result_from_raw_data"]}
{"id": "C58", "title": "Collocation transcribes the problem exactly", "statement": "A decision vector of the nonlinear program built by collocation is feasible exactly when the piecewise polynomial trajectory it stands for respects the bounds, starts at the initial condition, is continuous from element to element, satisfies the differential and algebraic equations at every collocation point, the limits on control increments, the time dependent constraints at the times they are imposed, and the final and time independent constraints. Every decision vector stands for exactly one trajectory and every trajectory of the right degree comes from a decision vector. The objective is the cost of that trajectory (zero in the indirect method) and the number of constraints is the expected one. When the method has parameters all of them are declared and nothing else than decision variables and declared parameters matters. Refuted: degree one works (always refused when there are states), problems without states work; without parameters and with initial_condition_as_parameter off the program contains declared symbols only (feasibility depends on an undeclared initial condition).", "quantifier": "all prepared problems, numbers of elements, degrees above one, collocation points, parameter values and decision vectors", "why_tests_cant": "the equivalence ranges over all real decision vectors and problem sizes; tests compare one solution with one simulation", "anchors": ["yaocptool/methods/classic/collocationscheme.py:CollocationScheme.discretize", "yaocptool/methods/classic/collocationscheme.py:CollocationScheme.get_system_at_given_times", "yaocptool/methods/base/solutionmethodsbase.py:SolutionMethodsBase.create_optimization_problem"]}
{"id": "C59", "title": "Equilibrium search", "statement": "find_equilibrium returns values at which every differential, algebraic and additional equation vanishes at the given time, split into the state part, the algebraic part and the rest. Refuted: the controls are among the unknowns, as documented; the unknowns are x, y, p and theta, and a model whose equations mention a control makes the call fail. The root finder starts from the guess or, without one, from a one for each state, algebraic variable and control. Refuted: this default has an entry for each unknown.", "quantifier": "all models, additional equations, guesses and root finders", "why_tests_cant": "must hold for every model and root finder", "anchors": ["yaocptool/modelling/system_model.py:SystemModel.find_equilibrium"]}
{"id": "C60", "title": "Positions of optimised parameters", "statement": "The positions reported for the optimised parameters (and theta entries) are those of these parameters in the parameter vector of the model, in the order in which they were chosen, after any history that chooses parameters of the model. Refuted: a symbol that is no parameter of the model is refused; it is accepted, has no position and passes the pre-solve check.", "quantifier": "all problems and histories of calls", "why_tests_cant": "unbounded histories and positions", "anchors": ["yaocptool/modelling/ocp.py:OptimalControlProblem.get_p_opt_indices", "yaocptool/modelling/ocp.py:OptimalControlProblem.get_theta_opt_indices", "yaocptool/modelling/ocp.py:OptimalControlProblem.set_parameter_as_optimization_parameter"]}
{"id": "C61", "title": "Rate bounds are detected", "statement": "has_delta_u is true exactly when some control has a finite (not minus infinity / plus infinity) bound on its rate of change.", "quantifier": "all problems whose bound vectors fit the model", "why_tests_cant": "any number of controls and any position of the bound", "anchors": ["yaocptool/modelling/ocp.py:OptimalControlProblem.has_delta_u"]}
{"id": "C62", "title": "Replacing variables in a problem", "statement": "After replace_variable every cost, constraint and model equation has, at every point, the value of the old one where the original takes the value of the replacement; parametrize_control does the same when the expression does not mention the control. Refuted: otherwise cost and model see the same control; the model is rewritten twice.", "quantifier": "all problems, replacements and points", "why_tests_cant": "all expressions and values", "anchors": ["yaocptool/modelling/ocp.py:OptimalControlProblem.replace_variable", "yaocptool/modelling/ocp.py:OptimalControlProblem.parametrize_control"]}
{"id": "C63", "title": "Quadratic cost value", "statement": "create_quadratic_cost sets the running cost to the weighted squares of the deviations of x and u from their references and the final cost to those of x; nothing else changes. The key Rv weighs the final state, not the control.", "quantifier": "all problems, weights and references of fitting sizes, all points", "why_tests_cant": "all sizes and values", "anchors": ["yaocptool/modelling/ocp.py:OptimalControlProblem.create_quadratic_cost"]}
{"id": "C65", "title": "Asking a model for a variable", "statement": "A model answers that it has a variable exactly when one of the components asked for is among its states, algebraic variables, controls, parameters or control parameters. Refuted: every component asked for is in the model.", "quantifier": "all models and vectors of symbols", "why_tests_cant": "all models and vectors", "anchors": ["yaocptool/modelling/system_model.py:SystemModel.has_variable"]}
{"id": "C66", "title": "Multiple shooting transcribes the problem exactly", "statement": "A decision vector of the nonlinear program built by multiple shooting is feasible exactly when it respects the bounds, its states start at the initial condition, the simulation of every element from its states, parameters and controls ends with the states the next element begins with and with the algebraic variables of the element, and the limits on control increments, the time dependent constraints at the ends of the elements and the final and time independent constraints hold. Every decision vector stands for such a choice of values and every choice of the right size comes from a decision vector. The objective is the final cost plus the cost at the ends of the elements, or with cost_as_a_sum the sum of the costs collected element by element. An empty horizon, and rate limits without a parameter for the previous control, are refused. When the method has parameters all of them are declared and nothing else than decision variables and declared parameters matters. Refuted: the final cost is part of the objective with cost_as_a_sum (it has no effect at all); constraints can be imposed at the start of the elements (always refused).", "quantifier": "all prepared problems, numbers of elements, integrators, integrator options, parameter values and decision vectors", "why_tests_cant": "the equivalence ranges over all real decision vectors, integrators and problem sizes; tests compare one solution with one simulation", "anchors": ["yaocptool/methods/classic/multipleshooting.py:MultipleShootingScheme.discretize", "yaocptool/methods/classic/multipleshooting.py:MultipleShootingScheme.get_system_at_given_times", "yaocptool/methods/base/solutionmethodsbase.py:SolutionMethodsBase.create_optimization_problem"]}
{"id": "C67", "title": "The direct method solves the problem the user posed", "statement": "Preparing a problem for the direct method replaces every control by the polynomial of lowest degree through its parameters and the running cost by one more state that starts at zero; nothing else changes. With collocation, the feasible points of the nonlinear program are then exactly the trajectories of the problem as the user wrote it, with polynomial controls, that satisfy its dynamics and algebraic equations at the collocation points and its boundary conditions, constraints and bounds. The objective is the final cost plus the running cost integrated with the only rule that is exact for the polynomials of the transcription. A minimum of the nonlinear program is therefore a trajectory of least cost for the user among all such trajectories with the same data. Refuted: with positive_objective and a running cost that is nowhere negative no trajectory is lost.", "quantifier": "all problems with scalar costs and no name clashes, all degrees, numbers of elements, collocation points, parameter values and decision vectors", "why_tests_cant": "the equivalence of two optimisation problems ranges over all problems, trajectories and decision vectors", "anchors": ["yaocptool/methods/classic/directmethod.py:DirectMethod.prepare", "yaocptool/modelling/ocp.py:OptimalControlProblem.create_cost_state", "yaocptool/methods/base/solutionmethodsbase.py:SolutionMethodsBase.prepare", "yaocptool/methods/classic/collocationscheme.py:CollocationScheme.discretize"]}
{"id": "C68", "title": "MPC parameters follow the estimate", "statement": "After every round the parameter entries configured as mean hold the state estimate of that round, all other entries keep the value they were created with for ever, and the size never changes. The ideal estimator returns the state of the plant when the outputs begin with the states and there is no noise.", "quantifier": "all index maps, histories, estimators", "why_tests_cant": "unbounded histories, all index maps", "anchors": ["yaocptool/mpc/mpc.py:MPC._get_parameter", "yaocptool/estimation/ideal_estimator.py:IdealEstimator.estimate"]}
{"id": "C69", "title": "MPC control function", "statement": "The control function sent to the plant is the polynomial through the controls of the first element at the collocation points of the sample; with degree one, or a single value, it is constant. Refuted: with piecewise constant controls of two or more inputs and a collocation degree above one building the function fails; at the start of the sample the function is the polynomial extrapolated to 0, not the first control of the solution.", "quantifier": "all degrees, numbers of inputs, values and sample times", "why_tests_cant": "all degrees and times", "anchors": ["yaocptool/mpc/mpc.py:MPC._make_control_function"]}
{"id": "C71", "title": "Sampling and converting a stochastic problem", "statement": "The samples drawn for the polynomial chaos conversion are mean + R'z for every normal sample z, where R'R is the covariance of all declared uncertain quantities (parameters first, then initial conditions); without uncertain quantities, or with one that is not normal, sampling raises. Refuted: the conversion returns a deterministic problem (it always raises, after sampling, because it asks the model for attributes that do not exist).", "quantifier": "all stochastic problems, orders, numbers of samples, Cholesky factorisations and normal samples", "why_tests_cant": "any number and grouping of uncertain quantities; the pairing of rows of the factor with quantities depends on the whole history", "anchors": ["yaocptool/stochastic/pce.py:PCEConverter._sample_parameters", "yaocptool/stochastic/pce.py:PCEConverter.convert_socp_to_ocp_with_pce", "yaocptool/stochastic/util.py:sample_parameter_normal_distribution_with_sobol"]}
{"id": "C72", "title": "Adjoint system of the indirect method", "statement": "Creating the adjoint states succeeds exactly when every state has an equation, there are as many algebraic equations as algebraic variables and both costs are scalar. It records the Hamiltonian (running cost plus the equations weighted by their multipliers), gives every adjoint state minus the derivative of the Hamiltonian by its state as equation, adds the derivatives by the algebraic variables as algebraic equations, and adds the transversality conditions at the final time. Nothing else of the problem changes. Without a Hamiltonian only the multipliers of the final conditions are replaced.", "quantifier": "all problems, smooth expressions and points", "why_tests_cant": "the derivative conditions range over all expressions and all points; tests evaluate one problem", "anchors": ["yaocptool/modelling/ocp.py:OptimalControlProblem.create_adjoint_states", "yaocptool/modelling/ocp.py:OptimalControlProblem.H", "yaocptool/modelling/system_model.py:SystemModel.lamb_sym"]}
{"id": "C73", "title": "Building and preparing the indirect method", "statement": "Constructing the indirect method removes the bounds of states and algebraic variables of the caller's problem and changes nothing else; a separate control degree is refused before anything changes. After preparation every cost, constraint and equation has, wherever the Hamiltonian is quadratic in the controls, the value it has in the adjoint problem for the computed optimal control. A problem that fails the pre-solve check is refused unchanged. Refuted: the adjoint states reported afterwards are the created ones (a cost state is counted among them).", "quantifier": "all problems, degrees and points", "why_tests_cant": "all expressions and values; the composition of four rewriting steps", "anchors": ["yaocptool/methods/classic/indirectmethod.py:IndirectMethod.prepare", "yaocptool/methods/classic/indirectmethod.py:IndirectMethod._check_bounds", "yaocptool/methods/classic/indirectmethod.py:IndirectMethod.degree_control"]}
{"id": "C70", "title": "Kalman filters cannot be constructed", "statement": "Refuted: the estimators of the package can be constructed. The unscented and the polynomial chaos filter always raise (a KeyError from an empty data set once their other arguments are accepted), the extended filter raises for every SystemModel (AttributeError, or ValueError when an algebraic model comes without guess). Before that the polynomial chaos filter refuses, with ValueError, fewer samples than there are polynomials up to its order, which is 4 if none is given; the default number of samples is accepted.", "quantifier": "all models, keyword arguments and results of the matrix operations", "why_tests_cant": "a test shows one failing call; the claim is that no call succeeds", "anchors": ["yaocptool/estimation/unscented_kalman_filter.py:UnscentedKalmanFilter.__init__", "yaocptool/estimation/extended_kalman_filter.py:ExtendedKalmanFilter.__init__", "yaocptool/estimation/pce_kalman_filter.py:PCEKalmanFilter.__init__"]}
{"id": "C74", "title": "Filters agree with the Kalman filter", "statement": "The extended filter makes exactly the Kalman update of its linearisation. On affine systems the unscented filter, and the polynomial chaos filter with an unregularised factor, make the Kalman update of the prediction without process noise and add the process noise afterwards. Refuted: with process noise the unscented filter is the Kalman filter on linear systems (its gain ignores the noise).", "quantifier": "all dimensions, affine systems, covariances, noises and measurements", "why_tests_cant": "identity over all matrices of all dimensions", "anchors": ["yaocptool/estimation/extended_kalman_filter.py:ExtendedKalmanFilter.estimate", "yaocptool/estimation/unscented_kalman_filter.py:UnscentedKalmanFilter._estimate_standard_ukf", "yaocptool/estimation/pce_kalman_filter.py:PCEKalmanFilter._priori_update"]}
{"id": "C75", "title": "Least squares factor of the polynomial chaos expansion", "statement": "Applied to samples, the factor gives coefficients that minimise the squared error plus the regularisation over all coefficients; without regularisation it recovers the coefficients of every combination of the basis. The polynomial chaos filter fails for every input when it has more samples than coefficients, and otherwise succeeds for positive definite measurement noise.", "quantifier": "all basis matrices, regularisations, samples and sizes", "why_tests_cant": "optimality over all candidates", "anchors": ["yaocptool/stochastic/pce.py:get_ls_factor", "yaocptool/estimation/pce_kalman_filter.py:PCEKalmanFilter._priori_update"]}
{"id": "C76", "title": "Penalties of the nodes of a distributed solution", "statement": "Updating parameters updates every node that has a result with the values it was given last and changes no other node; with parallel processes the penalties of all nodes then become the largest of them; with the rule primal-dual all penalties must be equal, and the nodes with a result get the next one, chosen by the largest primal and dual residuals. Refuted: the nodes always use one penalty (not without processes); a node that failed can take part again later (after a primal-dual update that changed the penalty every further update raises).", "quantifier": "all networks, node methods, results, residuals and penalties", "why_tests_cant": "needs arbitrary residual histories and failure patterns", "anchors": ["yaocptool/methods/network/distributedaugmetedlagrangian.py:DistributedAugmentedLagrangian._update_parameters_distributed", "yaocptool/methods/network/distributedaugmetedlagrangian.py:DistributedAugmentedLagrangian._update_parameters_serial", "yaocptool/methods/network/distributedaugmetedlagrangian.py:DistributedAugmentedLagrangian._compute_primal_dual_mu"]}
{"id": "C77", "title": "The problems of the nodes of a network are coupled through the values of their neighbours", "statement": "When the distributed method prepares a node, every connected input becomes an algebraic variable with one new equation, every connected output gets one new constraint that holds at all times, and every connected entry gets one new parameter for each point of an element. The recorded positions are those of the new equations and variables, and costs, other constraints, states, bounds of states and horizon stay as they are. With the values that the method passes to the node, the new equations at every point of every element say that a connected input equals the output of the predecessor there, and a connected output the input of the successor: from the last result, else the guess, else zero. A node with parameters of its own is given too few values, and preparing a node with a predecessor a second time, as a second solve does, raises an error.", "quantifier": "every node problem, every list of incoming and outgoing connections, every degree and choice of distinct points, every earlier result, every element and point", "why_tests_cant": "The correspondence between the order of parameters, of entries and of points holds for arbitrary numbers of connections of arbitrary sizes; a test sees one layout, usually with scalar connections and degree one, in which permuted layouts coincide.", "anchors": ["yaocptool/methods/network/distributedaugmetedlagrangian.py: DistributedAugmentedLagrangian._include_exogenous_variables, _create_variable_approx, _get_node_theta, solve", "yaocptool/modelling/ocp.py: OptimalControlProblem.connect, include_time_equality"]}
{"id": "C78", "title": "Constraints and costs follow the calls", "statement": "After any sequence of successful problem-editing calls the initial, final, time-free and path constraints, each path constraint with the times it is imposed at, and the costs are exactly the contributions of the calls in their order: a state included with an initial value must take the value of its initial symbol, an initial equation given instead is imposed, every component of a path constraint has its time, merging joins the constraints and adds the costs, and replacing or parametrising variables substitutes them everywhere. A new problem imposes the initial values of the states and nothing else, at no cost. Without replacements nothing imposed is ever lost or changed, and without merges the costs stay.", "quantifier": "all finite sequences of problem-editing calls on problems whose costs are scalar", "why_tests_cant": "unbounded histories of edits", "anchors": ["yaocptool/modelling/ocp.py:OptimalControlProblem.include_state", "yaocptool/modelling/ocp.py:OptimalControlProblem.include_initial_time_equality", "yaocptool/modelling/ocp.py:OptimalControlProblem.include_final_time_equality", "yaocptool/modelling/ocp.py:OptimalControlProblem.include_equality", "yaocptool/modelling/ocp.py:OptimalControlProblem.include_time_inequality", "yaocptool/modelling/ocp.py:OptimalControlProblem.include_time_equality", "yaocptool/modelling/ocp.py:OptimalControlProblem.replace_variable", "yaocptool/modelling/ocp.py:OptimalControlProblem.merge", "yaocptool/modelling/ocp.py:OptimalControlProblem.create_cost_state"]}
{"id": "C79", "title": "Initial guess by simulation", "statement": "With the guess by simulation the solver starts at a trajectory of the model: it begins at the initial condition of the problem, every state is what the integrator makes of the state before it over the time between the two points, the control is the given one, else the guess of the problem, else its last control, else zero, held over all elements, and parameters have the values given; the vector has the layout of the decision variables. With multiple shooting all constraints that join the elements then hold at the start, so that only bounds and constraints of the user can be violated. A guess given to solve is passed on unchanged and an unknown heuristic is refused. Refuted: the guess starts at the initial state given to solve (it is ignored); theta may be left out, as documented.", "quantifier": "all problems, integrators, transformations of the user, degrees, numbers of elements, parameter values and expressions", "why_tests_cant": "The layout and the chain of simulations hold for arbitrary numbers of elements, points and variables and arbitrary integrators; a test sees one integrator and one layout.", "anchors": ["yaocptool/methods/classic/collocationscheme.py:CollocationScheme.create_initial_guess_with_simulation", "yaocptool/methods/classic/multipleshooting.py:MultipleShootingScheme.create_initial_guess_with_simulation", "yaocptool/methods/base/solutionmethodsbase.py:SolutionMethodsBase._get_solver_call_args"]}
{"id": "C80", "title": "Averaged connections between the nodes of a network", "statement": "With BipartiteJacobiADMM every connected input becomes an algebraic variable with one new equation and every connected output gets one new constraint; both compare the variable with the mean of two new parameters for each point of an element, and everything else of the problem stays. The method passes the last values at both ends of each connection, so for connections of one variable, or with one point in an element, the equations say that the variable equals the mean of its own last value and of the last value at the other end, else the guesses, else zero. Refuted: this for connections of several variables with several points (parameters are listed point by point and values are passed variable by variable), and for nodes made from a model and a problem (positions are looked up in the model of the user, not in the prepared problem).", "quantifier": "every node problem, every list of incoming and outgoing connections of any sizes, every degree and choice of distinct points, every earlier result, every element and point", "why_tests_cant": "The order of parameters and the order of values agree in the layouts tests use (scalar connections, degree one) and differ in the others.", "anchors": ["yaocptool/methods/network/bipartite_jacobi_admm.py: BipartiteJacobiADMM._include_exogenous_variables, _get_node_theta", "yaocptool/modelling/network/node.py: Node", "yaocptool/util/util.py:create_polynomial_approximation"]}
{"id": "C81", "title": "Solutions of a relaxed problem solve the problem of the user", "statement": "Relaxing algebraic equations and time equalities with the augmented Lagrangian method only takes these equations out of the problem, makes algebraic variables controls with the same bounds and adds the penalty to the running cost. The trajectories of the relaxed problem are those of the problem of the user, collocated for it exactly when the relaxed equations hold. At a minimum of the relaxed nonlinear program, for any multipliers and weights, cost plus penalty is at most the cost of every admissible trajectory of the user; if the relaxed equations hold there, the trajectory is optimal for the user, and if they hold up to a tolerance its cost exceeds the optimal one by at most horizon times tolerance times the sum of the multipliers. This needs controls with as many points as the collocation and equalities imposed at the collocation points. Refuted: this with the default degree of the controls (relaxed variables become constant on every element), and for equalities imposed at the end of the elements (they are penalised at all points).", "quantifier": "all problems, requests, multipliers, weights, degrees, numbers of elements, functions in expressions and all trajectories", "why_tests_cant": "optimality ranges over all trajectories and all multipliers", "anchors": ["yaocptool/methods/augmented_lagrangian.py:AugmentedLagrangian._relax_algebraic_equations", "yaocptool/methods/augmented_lagrangian.py:AugmentedLagrangian._relax_time_equalities", "yaocptool/methods/augmented_lagrangian.py:AugmentedLagrangian._parametrize_nu", "yaocptool/methods/base/solutionmethodsbase.py:SolutionMethodsBase", "yaocptool/methods/classic/directmethod.py:DirectMethod"]}
{"id": "C82", "title": "The direct method with multiple shooting solves the problem the user posed", "statement": "With multiple shooting the feasible points of the nonlinear program of the direct method are exactly the plans for the problem as the user wrote it: polynomial controls on every element, states at the ends of the elements that the integration of the dynamics under these controls carries from one element to the next, and boundary conditions and constraints. The objective is the final cost plus the running cost accumulated by the integration, the bounds are those of the user (and with positive_objective that the cost so far is never negative at the ends of the elements), and every plan is a point of the nonlinear program. A minimum of the nonlinear program is therefore a plan of least cost for the user; with positive_objective among plans whose running cost accumulates no negative amount. All this for every integrator that solves the system it is given, and for the Runge-Kutta integrator of the library in particular.", "quantifier": "all problems with scalar costs and no name clashes, all integrators that fulfil the contract, all degrees, numbers of elements, parameter values and decision vectors", "why_tests_cant": "the equivalence of two optimisation problems ranges over all problems, integrators, plans and decision vectors", "anchors": ["yaocptool/methods/classic/directmethod.py:DirectMethod.prepare", "yaocptool/modelling/ocp.py:OptimalControlProblem.create_cost_state", "yaocptool/methods/base/solutionmethodsbase.py:SolutionMethodsBase.prepare", "yaocptool/methods/classic/multipleshooting.py:MultipleShootingScheme.discretize", "yaocptool/modelling/dae_system.py:DAESystem.simulate"]}
{"id": "C83", "title": "Whose the solver options are", "statement": "If every solution method and every nonlinear program is given a dictionary of options of its own, all histories of creating methods and problems, changing options or the configuration, and solving show what they show when options belong to methods: an option set for one method or problem never reaches another, and a new method has the given options and the current configuration for all other keys. In all histories the first call of a solver fixes its options for all later calls, and options assigned to a method after its problem was created have no effect on it. Refuted: methods without given options have options of their own (they share one dictionary for ever); a change of the configuration reaches new methods without given options; an option set for a nonlinear program without given options concerns this program only (it changes the configuration of the library); the dictionary given by the user stays as it is.", "quantifier": "all histories of calls by name, all dictionaries, keys and values", "why_tests_cant": "unbounded histories of calls with aliased dictionaries", "anchors": ["yaocptool/methods/base/solutionmethodsbase.py:SolutionMethodsBase.__init__", "yaocptool/methods/base/solutionmethodsbase.py:SolutionMethodsBase.create_optimization_problem", "yaocptool/optimization/nonlinear_problem.py:NonlinearOptimizationProblem", "yaocptool/optimization/abstract_optimization_problem.py:AbstractOptimizationProblem.get_solver", "yaocptool/config.py:SOLVER_OPTIONS"]}
{"id": "C84", "title": "Copies of a model are independent, and problems do not change the model of the user", "statement": "A copy of a model is equal to the model, and from then on no call on one of them is seen in the other. A problem works on a copy of the model it is made from: whatever its methods do, the model of the user stays as it is, and a call on the model of the user is not seen in the problem. In every history of making, copying, including, editing and merging models and problems, every model and every problem is what it would be if each were a value of its own. Resetting the working model of a problem replaces it by a copy of the current model of the user and changes nothing else. Refuted: a problem that can be solved can still be solved after the reset (bounds of included variables stay), and the reset gives back the model the problem was made with.", "quantifier": "all histories of calls on any number of models, copies and problems, whichever methods write into the dictionary of equations and whichever replace it", "why_tests_cant": "sharing of mutable attributes shows only in unbounded histories of calls on several objects", "anchors": ["yaocptool/modelling/system_model.py:SystemModel.get_copy", "yaocptool/modelling/system_model.py:SystemModel.include_models", "yaocptool/modelling/mixins/continuous_states_mixin.py:ContinuousStateMixin", "yaocptool/modelling/mixins/control_mixin.py:ControlMixin.parametrize_control", "yaocptool/modelling/ocp.py:OptimalControlProblem.__init__", "yaocptool/modelling/ocp.py:OptimalControlProblem.reset_working_model"]}
{"id": "C85", "title": "Finding algebraic variables and including variables", "statement": "The algebraic variables that find_algebraic_variable returns solve the algebraic equations of the model at the time, states, controls and parameters given, if the root finder returns roots; values of a wrong total size are refused. With values of the proper sizes, and equations about the variables of the model only, the root finder is asked for the algebraic variables, starting from the guess or, without one, from ones. Including variables of several kinds in one call appends each to the vectors of its kind in the order given and adds no equation. Refuted: values that do not fit are refused (if only the time is given it is taken for every state, control and parameter; a surplus state is taken for a control), and algebraic variables can be found for models with parametrised controls.", "quantifier": "all models, root finders, values, guesses and lists of variables", "why_tests_cant": "the equations hold for all models and root finders, not only for the ones of a test", "anchors": ["yaocptool/modelling/mixins/algebraic_mixin.py:AlgebraicMixin.find_algebraic_variable", "yaocptool/modelling/system_model.py:SystemModel.include_variables"]}
{"id": "C86", "title": "Values of a trajectory at chosen times under multiple shooting", "statement": "get_system_at_given_times with multiple shooting returns, for every element named and in the order named, exactly the values asked for: each time once and in increasing order, the states at the beginning of the element where that is asked, states and algebraic variables where simulations of the system of the element arrive (chained, or each from the beginning of the element), controls from the control expressions and functions evaluated at these points; the optimisation problem is left as it is. If simulations compose, chained and restarted simulations give the same. Algebraic variables, functions and the controls of an indirect method at the beginning of an element are always refused. Reading the controls of a solution asks, in every element, for the controls at the control points and for nothing else. Refuted: the controls of an indirect method of degree 1 can be read from a solution.", "quantifier": "all shootable problems, elements, requested times, functions, integrators and values of the decision variables", "why_tests_cant": "the requested times, the number of simulations per element and the integrator are arbitrary", "anchors": ["yaocptool/methods/classic/multipleshooting.py:MultipleShootingScheme.get_system_at_given_times", "yaocptool/methods/classic/multipleshooting.py:MultipleShootingScheme.set_data_to_optimization_result_from_raw_data"]}
{"id": "C87", "title": "What a result of the augmented Lagrangian method holds", "statement": "The result of the augmented Lagrangian method is the result of the solver of the relaxed problem with three entries more: the multipliers and the violations of the relaxed algebraic equations and time equalities, each for every collocation point of every element, beside the time of that point; its data set shows them point by point beside the entries of the problem. After a run with updates the trajectory is the one of the last call of the solver, the multipliers are those that call was made with, the parameters held are those of that call if the caller gave parameters and none are optimised, the violations are the values of the relaxed equations on the trajectory, and the error reported is the largest of them in absolute value for each equation. Refuted: as constructed by default (no update after solving) every violation reported is zero whatever the solution; with only_update_if_improve the multipliers reported are not those the solution was computed with.", "quantifier": "all relaxed problems, solvers, parameters, options and numbers of iterations", "why_tests_cant": "the solutions found, the number of iterations and the number of elements and points are arbitrary", "anchors": ["yaocptool/methods/augmented_lagrangian.py:AugmentedLagrangian.create_optimization_result", "yaocptool/methods/augmented_lagrangian.py:AugmentedLagrangian.solve", "yaocptool/methods/augmented_lagrangian.py:AugmentedLagrangian.time_interpolation_nu", "yaocptool/methods/base/solutionmethodsbase.py:SolutionMethodsBase.unvec"]}
{"id": "C88", "title": "Degree and number of elements of augmented Lagrangian methods", "statement": "A new augmented Lagrangian method and the solver it wraps have the same degree and number of elements: the entries of the dictionary given for the solver and, where it has none, the options of the method. Values that differ between the dictionary and the keyword arguments are refused without a new method. A method with options of its own keeps them and its solver whatever is done later to the dictionary it was given and to other methods. The nodes of a network all have the same grid. Refuted: the multipliers have the grid the options had before, so they do not fit a solver whose dictionary asks for another; the dictionary is filled in place, so it decides for every later method that is given it, against the options of that method, and a second network solved with it has the grid of the first; options shared by two methods are changed by the construction of the second, also when that construction is refused.", "quantifier": "all histories of dictionaries, options, methods, networks and changes of attributes", "why_tests_cant": "which calls are made, in which order, and which of them share objects or fail is arbitrary", "anchors": ["yaocptool/methods/augmented_lagrangian.py:AugmentedLagrangian.__init__", "yaocptool/methods/augmented_lagrangian.py:OptionsOverride", "yaocptool/methods/network/distributedaugmetedlagrangian.py:DistributedAugmentedLagrangian._create_solution_methods"]}
{"id": "C89", "title": "Mean and variance of a polynomial chaos expansion", "statement": "Up to order nine the polynomials of a polynomial chaos basis are orthogonal for every distribution with the moments of independent standard normal quantities up to twice the order. If the sample drawn for the expectations has these moments, each expectation is the mean of the square of a polynomial. The mean and the variance set for an expansion are then those of the expanded quantity under every such distribution. The covariances of the polynomial chaos Kalman filter are those of the expansions when these are of order one. Refuted: of order two they are not, since the filter leaves out the mean squares of the polynomials and gives x^2 - 1 the variance 1 instead of 2; of order ten the mean is not the first coefficient, since the tenth polynomial as tabulated has mean 150.", "quantifier": "all numbers of uncertain quantities, orders up to nine, coefficients, samples and distributions with the moments needed", "why_tests_cant": "the number of quantities, the order and the coefficients are arbitrary, and a test sees one random sample", "anchors": ["yaocptool/stochastic/pce.py:PCEConverter", "yaocptool/estimation/pce_kalman_filter.py:PCEKalmanFilter"]}
{"id": "C90", "title": "Updated multipliers of the augmented Lagrangian method", "statement": "Let the multipliers have the degree of the collocation. Between two trajectories with the same parameters, the cost of the relaxed problem changes exactly as the user's cost plus the relaxed equations times the updated multipliers (old multiplier plus weight times value) of the first trajectory, and by half the weighted squares of the changes of the equations. So to first order, along every differentiable family of trajectories, the relaxed cost and the user's cost with the updated multipliers change alike: where one is stationary so is the other. The multipliers that the update between two passes stores are these, at every collocation point of every element.", "quantifier": "all problems, requests of relaxation, numbers of elements, degrees, multipliers, weights, quadrature weights, pairs and families of trajectories, and decision vectors given to the update", "why_tests_cant": "an identity between the cost of two problems for all trajectories, and a statement about every family of trajectories", "anchors": ["yaocptool/methods/augmented_lagrangian.py:AugmentedLagrangian._include_relax_in_objective", "yaocptool/methods/augmented_lagrangian.py:AugmentedLagrangian._create_nu_update_func", "yaocptool/methods/augmented_lagrangian.py:AugmentedLagrangian._compute_new_nu_and_error"]}
{"id": "C91", "title": "Successive passes of the augmented Lagrangian method", "statement": "Take two passes of the method with the same data, each returning a minimizer of the relaxed problem for its own multipliers and weights. The trajectory of a pass costs the user, with what its multipliers and weights charge, no more than the trajectory of the other. If the second pass uses the multipliers updated after the first and the same weights, its relaxed cost exceeds that of the first by at most the weighted squared violation the first left, and by at least the weighted product of both violations. If it uses the same multipliers and all weights raised by one factor, the violation does not grow and the user's cost with the multipliers does not fall. If it uses updated multipliers and weights raised by a factor t > 1, its violation is at most ((t+1)/(t-1))^2 times that of the first. After an update with the rule bounded-increase whose weights stay within mu_max, whatever the next pass returns has exactly the updated multipliers at the collocation points and beta times the weights.", "quantifier": "all problems, requests of relaxation, numbers of elements, degrees, multipliers, weights, factors, exact quadrature rules, pairs of passes, and decision vectors given to the update", "why_tests_cant": "inequalities between the minimizers of two optimization problems, for every problem and all multipliers and weights", "anchors": ["yaocptool/methods/augmented_lagrangian.py:AugmentedLagrangian.call_solver", "yaocptool/methods/augmented_lagrangian.py:AugmentedLagrangian.update_parameters", "yaocptool/methods/augmented_lagrangian.py:AugmentedLagrangian._update_mu", "yaocptool/methods/augmented_lagrangian.py:AugmentedLagrangian._relax_algebraic_equations"]}
{"id": "C92", "title": "Both ends of a connection keep the same multipliers", "statement": "In the distributed method the input of a node and the output that feeds it each have a relaxed equation, with multipliers and a weight of their own. If these are equal at the two ends of every connection before a call of solve, they are equal after it, for every element and point and any number of iterations: with the blocks taken in turn or in any order, with or without parallel processes, and with the rules constant, bounded increase and primal-dual, provided every node solution succeeds, uses the multipliers meant for it, and an update adds the weight times input minus output to the multipliers of the last solution. Refuted: the same with blocks drawn by choices (a node that is not solved between two updates loses one of them), and with a node whose solutions fail (it is not updated, the other end is).", "quantifier": "all networks, block orders, numbers of iterations, elements and points, rules and node methods that meet the contract", "why_tests_cant": "an invariant over arbitrary numbers of iterations, block orders and networks; a test sees one network and one schedule", "anchors": ["yaocptool/methods/network/distributedaugmetedlagrangian.py:DistributedAugmentedLagrangian.solve", "yaocptool/methods/network/distributedaugmetedlagrangian.py:DistributedAugmentedLagrangian._update_parameters", "yaocptool/methods/network/distributedaugmetedlagrangian.py:DistributedAugmentedLagrangian._block_iterator", "yaocptool/methods/augmented_lagrangian.py:AugmentedLagrangian.update_parameters"]}
{"id": "C93", "title": "Settled sweeps of the distributed method solve the problem of the network", "statement": "Let the problems of the nodes be convex, every node solution be a minimizer of its relaxed problem, and the multipliers and weights agree at the connections (C92). If a sweep leaves the values at the connections as they were, the total cost of its results plus, over all connections, the integral of the updated multiplier times the gap between input and output is at most the total cost of any feasible trajectories that agree at the connections. So if the results agree at the connections too, they are an optimal solution of the whole network. Refuted: the same without agreement of the multipliers.", "quantifier": "all networks, convex node problems, block orders, multipliers, weights, quadrature rules, elements and points, and all trajectories of the network", "why_tests_cant": "optimality against every feasible trajectory of every convex network", "anchors": ["yaocptool/methods/network/distributedaugmetedlagrangian.py:DistributedAugmentedLagrangian.solve", "yaocptool/methods/network/distributedaugmetedlagrangian.py:DistributedAugmentedLagrangian._solve_node_problems", "yaocptool/methods/network/distributedaugmetedlagrangian.py:DistributedAugmentedLagrangian._get_node_theta"]}
{"id": "C94", "title": "The method of a node charges and updates by the gaps at its connections", "statement": "Prepare a node of a network for the distributed method, relax the equations of its connections with an augmented Lagrangian method and transcribe the result by direct collocation. Then for any trajectory of the node the transcribed cost is the cost of the node plus, summed over its connections, the quadrature of multiplier times gap plus half the weight times the square of the gap, where the gap is input minus output with the value of the other end taken from the last results. A minimum of the nonlinear program minimises that sum among all trajectories of the node with the same data. Updating the parameters after a solution adds the weight times the gap to every multiplier, at the node of the input and at the node of the output with the same sign, and leaves the multipliers of the last solution alone. These are the contracts that C92 and C93 ask of node methods.", "quantifier": "all networks and nodes, node problems, degrees, numbers of elements, multipliers, weights, last results, trajectories and solutions", "why_tests_cant": "equality of costs for every trajectory and of the update for every solution, over all node problems and networks", "anchors": ["yaocptool/methods/network/distributedaugmetedlagrangian.py:DistributedAugmentedLagrangian._include_exogenous_variables", "yaocptool/methods/network/distributedaugmetedlagrangian.py:DistributedAugmentedLagrangian._get_node_theta", "yaocptool/methods/augmented_lagrangian.py:AugmentedLagrangian._relax_algebraic_equations", "yaocptool/methods/augmented_lagrangian.py:AugmentedLagrangian._create_nu_update_func", "yaocptool/methods/augmented_lagrangian.py:AugmentedLagrangian.update_parameters"]}
{"id": "C95", "title": "A plot of a data set shows the rows asked for", "statement": "A successful call of plot draws one figure per dictionary (without dictionaries one each for x, y and u). In it there is a line for a row of an entry exactly if the dictionary asks for it: by a string instead of a list (every row), by an index (also negative), by a text that matches the name of the row as a regular expression, or, if the text matches no name, by its exact name; with exact=True by exact names only. Each line has the times, the values, the label and the plot style of its row. The call succeeds exactly if every entry exists, has a known style and data, and every index and text finds a row. With exact=True the arguments are left alone. Refuted: that the same call draws the same lines again (without exact the lists of the caller lose the patterns that match), and that figures handed over are drawn on (they never are, and with more than one figure too few the call fails).", "quantifier": "all data sets, requests, names, patterns and figures", "why_tests_cant": "all combinations of indices, names and patterns, and what is left in the arguments", "anchors": ["yaocptool/modelling/dataset.py:DataSet.plot", "yaocptool/modelling/dataset.py:DataSet._plot_entry", "yaocptool/methods/base/optimizationresult.py:OptimizationResult.plot"]}
{"id": "C96", "title": "Copies of a data set are independent", "statement": "A copy of a data set holds what the data set holds when it is copied. After any list of calls on any number of data sets (new data sets, copies, copies of copies, new entries, insertions, sorts, extensions by another data set or by itself, with calls that raise part way and are caught), every data set holds what it would hold if data sets were plain values and each call changed only the value it is made for; the calls also succeed and fail the same way. So no call on a copy is seen in the original, and no call on the original, or on data sets made from either, is seen in the copy.", "quantifier": "all lists of calls on any number of data sets and copies, including calls that raise", "why_tests_cant": "sharing between copies shows only for particular later sequences of calls", "anchors": ["yaocptool/modelling/dataset.py:DataSet.get_copy", "yaocptool/modelling/dataset.py:DataSet.create_entry", "yaocptool/modelling/dataset.py:DataSet.insert_data", "yaocptool/modelling/dataset.py:DataSet.extend", "yaocptool/modelling/dataset.py:DataSet.sort"]}
{"id": "C97", "title": "The plots of the connections of a network show both ends", "statement": "plot_all_relaxations of a distributed result draws for every connection exactly the rows of y of the first node and the rows of u of the second node that belong to the connection, with their times, values and names. It succeeds exactly if both ends of every connection have a result whose data has all of these rows. Refuted: that each connection is drawn in the figure that is opened for it (all are drawn in the figure with number 0).", "quantifier": "all networks, connections and results", "why_tests_cant": "all networks and all orders of variables and connections", "anchors": ["yaocptool/methods/base/distributed_optimization_result.py:DistibutedOptimizationResult.plot_all_relaxations", "yaocptool/modelling/dataset.py:DataSet.plot", "yaocptool/util/util.py:find_variables_indices_in_vector"]}
{"id": "C98", "title": "The data set of a result is made once", "statement": "The data set of an optimisation result is made from the result when it is first asked for with success. From then on, whatever is assigned to the result, it is that data set as changed by the calls made on it; calls that raise part way included. As long as it could not be made, asking for it again uses the result as it is then. Asking for it does not change the result. Refuted: that result.dataset always has the data of the result (it has not if the result is changed later).", "quantifier": "all results and all lists of assignments, questions and calls on the data set", "why_tests_cant": "all interleavings of assignments, failed and successful questions and calls", "anchors": ["yaocptool/methods/base/optimizationresult.py:OptimizationResult.dataset", "yaocptool/methods/base/optimizationresult.py:OptimizationResult.to_dataset"]}
{"id": "C99", "title": "The names of created variables", "statement": "After any calls of create_state, create_algebraic_variable, create_control, create_parameter and create_theta on any models, x_names, y_names, u_names, p_names and theta_names of each model list the names of the entries in the order of the calls: the name of the call, after the name of the model and an underscore if model_name_as_prefix is set; with _0, _1, ... behind it unless the variable has one entry. A call returns exactly the symbols it appends and leaves the other vectors and models as they are. No symbol is used twice, and each state has a symbol of its own for its initial condition. If the full names of the calls differ and none ends with an underscore and a number, the exact lookup of the name of any variable, over all models together, finds that variable alone. Variables of two models with the prefix have different names if the names of the models differ and have no underscore. Refuted: that different names given to the calls, or different names of models with the prefix, are enough.", "quantifier": "all models and all lists of calls, names and sizes", "why_tests_cant": "all names a user can choose", "anchors": ["yaocptool/modelling/system_model.py:SystemModel.name_variable", "yaocptool/modelling/mixins/continuous_states_mixin.py:ContinuousStateMixin.create_state", "yaocptool/modelling/mixins/algebraic_mixin.py:AlgebraicMixin.create_algebraic_variable", "yaocptool/modelling/mixins/control_mixin.py:ControlMixin.create_control", "yaocptool/modelling/mixins/parameter_mixin.py:ParameterMixin.create_parameter", "yaocptool/util/util.py:find_variables_in_vector_by_name"]}
{"id": "C100", "title": "The exponential of a matrix acts like the linear system", "statement": "For a square matrix A and an integrator that is linear in the initial state on linear equations, expm(A) is a matrix of the same size, and its product with any vector v is what the integrator gives at time one for x' = A x started in v: the matrix given to the integrator as a parameter is A itself, not its transpose, and the columns are in order. A matrix that is not square, or is empty, is refused.", "quantifier": "all sizes, all square matrices, all vectors, all integrators that are linear on linear equations", "why_tests_cant": "all matrices and initial states", "anchors": ["yaocptool/util/util.py:expm"]}
{"id": "C101", "title": "The table of a data set", "statement": "DataSet.as_dataframe gives a table whose columns are the names of the entries in order. It has a row for a time exactly if some entry has values for that time; the rows of a time show every choice of values that the entries have for it, and missing values for the entries that have none. If no entry has two values for one time, every time has one row. There is a table exactly if some entry has names and every entry with names has one column of data per time and one number per name. Refuted: the table has no more rows than values (repeated times multiply); an entry without data is left out (there is no table).", "quantifier": "all data sets, times and values, and all orders in which pandas may put merged rows", "why_tests_cant": "all combinations of recorded times", "anchors": ["yaocptool/modelling/dataset.py:DataSet.as_dataframe"]}
{"id": "C102", "title": "The tables of a distributed result", "statement": "The table of all results of a distributed method has a row for a time exactly if the table of some result has one; its rows of a time show every choice of rows that the tables have for it, and missing values for those that have none; its columns are those of the tables one after the other if no two share a column. It exists exactly if there are results and each has a table. The table of the violations has the rows of all nodes in order, one for each column of their errors, numbered from 0 for each node and filled with missing values up to the widest; it needs at least one node. Refuted: the label of a row tells which one it is.", "quantifier": "all lists of results and errors, all times, and all orders and names that pandas may give", "why_tests_cant": "all combinations of recorded times and numbers of constraints", "anchors": ["yaocptool/methods/base/distributed_optimization_result.py:DistibutedOptimizationResult.as_dataframe", "yaocptool/methods/base/distributed_optimization_result.py:DistibutedOptimizationResult.__post_init__"]}
