# Formal model of yaocptool

The Rocq (Coq 8.16.1) development in `rocq/theories` models the pure and
state-machine core of yaocptool and proves the properties of
`properties.jsonl` about it.  This file says how, what is trusted, which parts
of the code are modelled, and what the proofs found.

## How the code is modelled

* One `…Model.v` file per area, holding only definitions.  Every definition
  cites the file and lines of `/repo` it models.  Simplifications are stated
  in the same comment.
* A Python function that returns a value becomes a Gallina function into
  `res A` (`Ok a` or `Raise e`).
* A Python method that mutates its object becomes a command
  `state -> state * res A`.  The state part is the object as the exception
  handler would find it, so partial mutation before a `raise` is visible.
* Python dictionaries become association lists in insertion order.
* Casadi vectors become lists (all vectors used are column vectors).  Casadi
  symbols become natural numbers: `is_equal` with depth 0 compares node
  identity, which for symbols is equality of these numbers.
* Symbolic expressions become a small syntax with an evaluation into `Q`.
  `casadi.substitute` is simultaneous syntactic substitution.  Casadi also
  simplifies expressions; statements about expressions are therefore made
  about values, not about syntax, wherever the syntax would matter.
* Floating point numbers become exact rationals (`Q`), with `+inf`/`-inf`
  added where bounds need them.  The Kalman filters are modelled with mathcomp
  matrices over an arbitrary ordered field.  Rounding is not modelled.
* Numerical back ends (integrators, NLP solvers, root finders, Cholesky
  factorisation, linear solves, regular expression matching, random sampling,
  collocation points) are universally quantified function arguments.  No
  property is assumed of them unless it is a hypothesis of the theorem.

## File structure

* `Base.v`: exceptions, results, commands, dictionaries; `BaseProofs.v`: lemmas.
* `<Area>Model.v`: the model.
* `<Area>Spec.v`: the vocabulary of the statements, and the data of the
  examples.  It does not use helper functions of the model: a reader can check
  it against the English property without reading the model's functions.
* `<Area>…Proofs.v`: lemmas.
* `<Area>Props.v`: the property theorems, each closed by `exact` (witnesses by
  computation), with `Print Assumptions` below it, and an `Example` showing
  that the hypotheses are met by a concrete non-trivial case.
* Statements that one would expect and that are false of the code are kept as
  `…_refuted` theorems with a witness, or as a universal negative statement.

| Area | Repository files | Properties |
|---|---|---|
| Util | `util/util.py`, `util/timeout.py` | C01-C05, C56 |
| Expr | `util/util.py`, expressions of `modelling/system_model.py` | C06 |
| Lag | `util/util.py`, `methods/base/solutionmethodsbase.py` (polynomials) | C07, C08 |
| Nlp | `optimization/*.py` | C09-C12 |
| Sys | `modelling/system_model.py`, `modelling/mixins/*.py`, `modelling/utils.py` | C13-C20, C65 |
| Sim | `modelling/dae_system.py`, simulation in `modelling/system_model.py` | C21-C23, C59 |
| Ocp | `modelling/ocp.py` | C24-C29, C60-C63 |
| Cns | `modelling/ocp.py` (constraints and costs, defined in `OcpModel.v`) | C78 |
| Data | `modelling/dataset.py`, `modelling/simulation_result.py` | C30-C32 |
| Net | `modelling/network/*.py`, blocks of the distributed method | C33-C36, C64 |
| Disc | `methods/base/discretizationschemebase.py`, `methods/base/solutionmethodsbase.py`, `methods/classic/*.py` | C37-C40 |
| Col | `methods/classic/collocationscheme.py` (transcription, defined in `DiscModel.v`) | C58 |
| Sho | `methods/classic/multipleshooting.py` (transcription) | C66 |
| Dir | the preparation of the direct method followed by the collocation transcription (defined in `DiscModel.v`) | C67 |
| Gue | initial guess by simulation in `collocationscheme.py`, `multipleshooting.py`, its choice in `solutionmethodsbase.py` | C79 |
| Res | `methods/base/optimizationresult.py` and the functions that fill it | C57 |
| Plant, Mpc | `mpc/plant.py`, `mpc/mpc.py`, `estimation/ideal_estimator.py` | C41-C43, C68, C69 |
| Aug | `methods/augmented_lagrangian.py` | C44-C47 |
| Dms | the preparation of the direct method followed by the multiple shooting transcription (defined in `ShoModel.v`) | C82 |
| Opt | the options of solvers in `methods/base/solutionmethodsbase.py`, `optimization/*.py` and `config.py`, as dictionaries with places | C83 |
| Cpy | `modelling/system_model.py`, `modelling/ocp.py` (copies and sharing; the methods are those of `SysModel.v` and `OcpModel.v`) | C84 |
| Alv | `modelling/mixins/algebraic_mixin.py` (`find_algebraic_variable`), `modelling/system_model.py` (`include_variables`) | C85 |
| Giv | `get_system_at_given_times` of `multipleshooting.py` in general (defined in `ShoModel.v`), the reading of controls from a solution | C86 |
| Alr | `solve` and `create_optimization_result` of `augmented_lagrangian.py`, `unvec` | C87 |
| Grd | the options in `AugmentedLagrangian.__init__` and `_create_solution_methods` of `distributedaugmetedlagrangian.py` | C88 |
| Pcs | the statistics of `pce.py` and the covariances of `pce_kalman_filter.py` | C89 |
| Mul | what the multipliers updated by `augmented_lagrangian.py` say about the problem of the user | C90 |
| Pas | two passes of `augmented_lagrangian.py` compared, and the pass after an update | C91 |
| Agr | the two ends of the connections in the iterations of Dal, with a contract for the node methods | C92, C93 |
| Nod | one node of a network: prepared (Exo), relaxed (Aug) and transcribed (Dir) | C94 |
| Plo | which rows of a data set a plot draws, and what it does to its arguments | C95 |
| Dsh | data sets as objects that refer to entry objects, and their copies | C96 |
| Rlx | the plots of the connections of a network; the data set kept by a result | C97, C98 |
| Nam | the names of created variables and the prefix of the model | C99 |
| Exm | `util/util.py`: the exponential of a matrix by an integrator | C100 |
| Fra | `modelling/dataset.py`: `as_dataframe`, with the outer merge of pandas | C101 |
| Dfr | the tables of `methods/base/distributed_optimization_result.py` | C102 |
| Als | the relaxation of `AugModel.v` followed by the direct method with collocation | C81 |
| Sto | `modelling/stochastic_ocp.py`, `stochastic/*.py` | C51, C52, C71 |
| Ind | `methods/classic/indirectmethod.py`, adjoint states in `modelling/ocp.py` | C55, C72, C73 |
| Kal | `estimation/*_kalman_filter.py` (numerical core) | C53, C54, C74, C75 |
| Est | `estimation/*_kalman_filter.py` (constructors) | C70 |
| Imn | `methods/network/intermediary_node_solution_method.py` | C48 |
| Dal, Exo | `methods/network/distributedaugmetedlagrangian.py` | C49, C50, C76, C77 |
| Bip | `methods/network/bipartite_jacobi_admm.py`, `Node.model` | C80 |

## Plan per property

| Property | Modelled | Proof |
|---|---|---|
| C01-C03 | `find_variables_indices_in_vector`, `remove_variables_from_vector(_by_indices)` over lists with a decidable equality | list induction |
| C04 | name lookup with an arbitrary matcher | list induction; witness for the prefix match |
| C05 | `join_thetas`, `create_constant_theta` over association lists | induction over the argument list |
| C06 | expression syntax, `substitute` | substitution lemma, field arithmetic |
| C07, C08 | Lagrange basis and polynomial approximation over `Q` | products over lists; uniqueness of interpolation via root counting |
| C09-C12 | NLP builder state machine, evaluation of the constraint set | invariant over call lists; semantic equivalence by induction |
| C13-C20, C65 | system model state machine (mixins, merge, connect, copy) | invariants over call lists; substitution lemma |
| C21-C23, C59 | DAE system, sequential simulation with an arbitrary integrator, equilibrium search | induction over the time list |
| C24-C29, C60-C63 | OCP editing state machine | invariant over call lists; refinement to a table of variables with their bounds |
| C78 | the same calls | refinement to a ledger of constraints and costs; induction over the history |
| C30-C32 | data sets | permutation and sortedness of a stable sort |
| C33-C36, C64 | network | invariant over inclusion lists; partition argument; witnesses |
| C37-C40 | time grid, decision vector layouts, parameter layout | list splitting lemmas |
| C58 | collocation transcription | the constraints hold of a decision vector iff the polynomials it stands for satisfy the dynamics at the points, the boundary conditions, the bounds and the constraints, and the objective is the cost; structural induction over elements and points |
| C66 | multiple shooting transcription; the symbolic results of an integrator are new symbols with a record of the call they stand for | the constraints hold iff the simulations connect the elements; inversion of the monadic code, then induction over the elements |
| C67 | preparation of the direct method (cost state, parametrised controls), then C58 | the prepared problem is related to the problem of the user; the cost state telescopes over the elements and is integrated by the unique rule that is exact for the polynomials of the transcription; minima correspond |
| C79 | the loops of the simulated guess with an arbitrary integrator and arbitrary functions of the user; the choice of the guess | induction over times and elements gives a run of the model; with multiple shooting the guess is a point of C66 whose continuity constraints hold |
| C41-C43, C68, C69 | MPC loop, warm start, control function, plant | loop induction |
| C44-C47 | augmented Lagrangian relaxation, updates and loop | induction over histories; algebra over `Q` |
| C48 | intermediary nodes | minimiser of a sum of squares over `Q` |
| C49, C50, C76 | sweeps, iterations and penalty updates of the distributed method, with an arbitrary node solver | commuting updates; loop induction |
| C77 | preparation of node problems | induction over connections; layout lemmas |
| C80 | preparation of node problems and the values passed, with averaged connections | as C77, with the order of parameters of C08; the general theorem says which value each equation uses, the intended meaning follows where the two orders agree |
| C81 | relaxation (C47), then the direct method with collocation (C67) | trajectories of the relaxed problem and of the problem of the user correspond one to one; cost and constraints are compared along the correspondence, and minima are carried over by C67 |
| C82 | preparation of the direct method (C67), then multiple shooting (C66); the integrator is an arbitrary function with the contract that it solves the system it is given by one fixed method, and the Runge-Kutta integrator is shown to fulfil it | the cost state telescopes over the elements; plans and points correspond in both directions, minima are carried over |
| C83 | a heap of dictionaries; methods, problems and the configuration refer to places; calls of the user by name | refinement of a specification without sharing, for all histories with own dictionaries; invariants over all histories; short histories for the refutations |
| C84 | a heap of dictionaries and lists; models and problems refer to places; what a method leaves in a dictionary it replaces is arbitrary | refinement of a specification in which every model is a value; every model owns its dictionary, lists are never written |
| C85 | the substitution of known values with an arbitrary root finder; inclusion per kind | substitution lemma; case analysis |
| C86 | the chain of simulations with its symbols; requested times as arbitrary lists | induction over the times with the values of the symbols; composition of simulations |
| C87 | the result of `ResModel.v` with the attributes of `AugModel.v` laid out by points | columns of vectors; the numbers of the update function at the last pass of a run |
| C88 | dictionaries and options as objects with places; a construction changes them in place; histories of calls | what a construction changes; two invariants of histories, of a method and of a dictionary |
| C89 | expectations over a sample, mean and variance from coefficients, over `Q` | Hermite polynomials as functionals on moments; orthogonality by induction; sums over the basis |
| C90 | the relaxed problem of C47, trajectories of C67 and C81, the update of C45 | completing the square at each point, summed over points and elements; derivatives over `Q`; reading of the decision vector |
| C91 | the relaxed problem of C47, minimizers of C67 and C81, the update of C45 | each minimizer is a candidate of the other pass, with its parameters replaced; sums over points of squares; reading of the updated parameters |
| C92 | the loops of C49 and C50 with node methods that meet a contract about multipliers | invariant of sweeps and updates, by induction over both loops |
| C93 | one sweep of C49 with node methods that return minimizers | directional slope of each node at its minimizer, summed over nodes; the multiplier terms of the two ends of a connection cancel |
| C94 | the chain of C77, C45, C67 and C81 for one node, starting without element-wise parameters and with nothing relaxed | the relaxed equations are the gaps at the collocation points (C77); the quadrature only looks there; the update is C45. The values of the node are those of the trajectory that the solution vector describes. Rules that skip an update ("improving" conditions) do not meet the contract |
| C95 | `DataSet.plot` as a function of data set, dictionaries and figures; matplotlib lines are values, `re.match` is an arbitrary function | induction over the copied list with the invariant that the list is the kept part of what was seen and the rest; induction over entries and figures |
| C96 | entries are objects in a memory, data sets refer to them by address, calls change objects in place; entries are made with a size | refinement to a list of plain data sets, by induction over the calls, with the invariant that no entry is referred to twice |
| C97 | the loop over the edges with the plots of C95; results are data sets by node | induction over the edges, and the theorems of C95 for each end |
| C98 | a result with the data set it keeps, and calls of a user | induction over the list of calls |
| C99 | models as lists of named symbols, a supply of symbols and calls of a user | induction over the list of calls; splitting of text at the first and the last underscore |
| C100 | the integrator is an argument with a contract; matrices as rows, parameters as columns one after another | the round trip between matrix and parameter; induction over the combination of unit vectors |
| C101 | tables as rows of optional numbers; the order of merged rows is an argument | rows at a time as a product over the entries; induction over the entries |
| C102 | outer merges of the tables of C101, row-wise concatenation; names of shared columns are an argument with a contract | rows at a time as a product over the results; invariant of the fold over the nodes |
| C51, C71 | polynomial chaos basis, sampling, conversion | counting lemma with binomials; ring identities |
| C52 | stochastic OCP bookkeeping | invariant over call lists |
| C53, C54, C74, C75 | filters | mathcomp matrices over an ordered field |
| C70 | constructors of the filters | case analysis over keyword arguments |
| C55, C72, C73 | saturated control, adjoint system, preparation of the indirect method | convexity over `Q`; symbolic derivative lemmas |
| C56, C57 | timeout, timer, optimisation result | case analysis, list induction |

No property of the list is outside the reach of a model.  What the model
cannot exhibit (rounding, solver convergence, signals, processes) is named
below and in the note of the property in `MANIFEST.json`.

## What is modelled and what is not, per file

Files are relative to `/repo/yaocptool`.  A function that is not named under
"not modelled" is modelled.

| File | Not modelled, or simplified |
|---|---|
| `util/util.py` | regular expressions are an arbitrary matcher; the reshape of an empty result (1x0 to 0x1) |
| `util/timeout.py` | signals: the body is an arbitrary outcome with or without a timeout |
| `util/serializer.py` | pickling (casadi's own format) |
| `config.py` | constants only |
| `optimization/*.py` | casadi's solver factory (an arbitrary solver function); printing; options (in `OptModel.v`) |
| `modelling/mixins/*.py` | names that begin with a bracket, which casadi reads as lists of names |
| `modelling/system_model.py` | printing; `linearize` (always a `TypeError`); `put_values_in_all_sym_format` (empty defaults) |
| `modelling/utils.py` | printing |
| `modelling/dae_system.py` | the integrators: an arbitrary function of system, interval and values |
| `modelling/dataset.py` | the drawing of the lines of a plot, saving |
| `modelling/simulation_result.py` | plots |
| `modelling/ocp.py` | `create_…` wrappers (a symbol is created and included) |
| `modelling/stochastic_ocp.py` | names |
| `modelling/network/*.py` | plots and colours; networkx graphs are edge lists in insertion order; `greedy_color` is the documented largest-first strategy |
| `methods/base/discretizationschemebase.py` | `create_initial_guess_with_simulation` (abstract) |
| `methods/base/solutionmethodsbase.py` | the dictionary form of the initial guess (commented out in the code); float division in `n_pol_parameters` |
| `methods/base/optimizationresult.py` | - |
| `methods/base/distributed_optimization_result.py` | the suffixes of columns that two tables share (arbitrary) |
| `methods/classic/collocationscheme.py` | - |
| `methods/classic/multipleshooting.py` | derivatives of the integrator |
| `methods/classic/directmethod.py` | - |
| `methods/classic/indirectmethod.py` | warnings; the symbolic inverse and the zero test are arbitrary functions; bounds that are infinite on the wrong side are refused |
| `methods/augmented_lagrangian.py` | plots, printing; `mu_max` and `beta` are scalars; errors of a problem without relaxation |
| `methods/network/intermediary_node_solution_method.py` | scalar broadcasting, zero penalties (division) |
| `methods/network/distributedaugmetedlagrangian.py` | processes and proxies (a call is a function of the node's state), printing, timing, `.nz` dropping structural zeros in maxima; `_create_solution_methods` is a reset of the states (its options in `GrdModel.v`) |
| `methods/network/bipartite_jacobi_admm.py` | modelled; vectors of different sizes are refused, also where casadi repeats a scalar; the sweeps are those of the parent class, with another `_get_node_theta` |
| `mpc/plant.py`, `mpc/mpc.py` | printing; the matrix C is given, its default (the identity) is not chosen by the model; noise is an arbitrary stream; the `ipdb` breakpoint is an arbitrary outcome; perturbation of size zero; MPC hooks are identities |
| `estimation/*_kalman_filter.py` | data sets and printing; sizes hold by typing; singular solves are refused; `cholupdate`, square-root filter (not implemented in the code) |
| `stochastic/pce.py` | the conversion after the `AttributeError` that always stops it, except its statistics, as numbers (`PcsModel.v`) |
| `stochastic/util.py` | the log-normal sampler; Sobol sequences are arbitrary |

Uncertain readings of casadi, decided one way in the model:

* `vertcat()` and `horzcat()` without arguments raise `NotImplementedError`
  (in `SysModel.guess_states`, `DataModel`, `NetModel.insert_intermediary_node`,
  `ResModel`, `MpcModel.send_control`, `ImnModel.split_vector`); where the code
  cannot run on without a value (`DiscModel.vectorize`) they give the empty
  vector.
* Arguments of a casadi function match by exact shape, as an empty matrix
  (zeros), as a scalar, as a transposed vector, or repeated horizontally.
* `is_equal` between a numeric and a symbolic matrix is an arbitrary outcome.
* `diagcat` of empty matrices is the empty matrix.
* `substitute` takes one number for a whole vector of symbols (C85).

## Findings

Every `…_refuted` theorem is a place where the code does not do what its
documentation, its names or a reasonable reader would have it do.  The ones
with the largest effect:

* **No Kalman filter can be constructed** (C70), **no stochastic problem can be
  converted** (C71), `is_valid` of a result never answers (C57), and questions
  for the positions of uncertain quantities are never answered (C52).
* **The time grid starts at zero** whatever the horizon (C37), and simulating a
  problem never reaches its final time (C29).
* **The controls of an indirect method of degree 1** cannot be read from a
  solution found by multiple shooting (C86).
* **Plotting changes its arguments**: patterns that match are removed from the lists
  of the caller, so the same plot drawn twice differs; figures handed over are never
  drawn on (C95).  So the plots of all connections of a network end in one figure
  (C97).
* A vector x and a scalar x_1, or models tank and tank_in with the prefix, can get
  variables of the same name (C99).
* A data set with a named entry that has no data has no table, and repeated times
  multiply the rows of a table (C101).
* **Violations are reported as zero** by the augmented Lagrangian method as it is
  constructed by default, whatever the solution (C87).
* **Resetting the working model** of a problem keeps the bounds of the variables
  that the problem had added, so the problem can no longer be solved (C84);
  `find_algebraic_variable` takes the time for every value that is missing (C85); the default guess of
  `find_equilibrium` counts the controls instead of the parameters (C59);
  a timer that is started again does not say that it is still running (C56).
* **An MPC round fails** without the debugger at a left-over breakpoint (C41);
  the warm start is the shifted trajectory times 1.1 (C42);
  `run(0)` goes round once (C41).
* **Augmented Lagrangian**: multipliers and penalties are in different orders
  when both algebraic equations and time equalities are relaxed, so each
  multiplier follows another equation (C47); with `only_update_if_improve` only
  the first collocation point is updated (C44, C45); relaxed algebraic variables
  get the guess at the index of the equation, not of the variable (C47); degree and
  number of elements given as keywords have no effect (C47); relaxed variables
  become controls, which by default are constant on every element, so the relaxed
  equations can often not be met (C81); equalities imposed at the start or the end
  of the elements are penalised at all collocation points (C81).
* **Distributed method**: the parallel sweep does not wait for blocks (C49),
  with `BipartiteJacobiADMM` the values of a connection of several variables are
  transposed when an element has several points, and those of a node made with
  `create_node(model=..., problem=...)` may be those of another input (C80),
  nodes with own parameters are given too few values (C77), a second `solve`
  raises (C77), one failure in a primal-dual run ends all later updates (C76),
  with blocks drawn by `choices` or after a failure the two ends of a connection
  may get different multipliers, and settle on a solution that is not optimal (C92,
  C93),
  and the intermediary nodes never use their multipliers, of which `only_update_if_improve` stores one per element (C48).
* **Network**: user-chosen identifiers can hide nodes (C33), default blocks can
  omit nodes (C34), nodes without edges disappear on a rebuild (C35).
* **NLP builder**: an inequality can be recorded the wrong way round (C10), and
  a constraint added after a solve is ignored (C12).
* **Copies and merges** of models mix up equations and time symbols (C20, C26).
* **Options of the augmented Lagrangian method**: the dictionary given for the solver is filled in place, so a
  second method or network made with it has the grid of the first, and multipliers of another size (C88).
* **Solver options**: all methods without given options share one dictionary, which is filled from the
  configuration once; a nonlinear program without given options shares that of the configuration, so an
  option set for it changes the library for all later methods (C83).
* **Collocation**: degree one with states, and models without states, are
  refused when the problem is built. Without parameters and with
  `initial_condition_as_parameter` off, the initial condition is a symbol of the
  nonlinear program that is never declared (C58).
* **Multiple shooting**: with `cost_as_a_sum` the final cost has no effect, and
  constraints imposed at the start of the elements are always refused (C66).
* **Direct method**: `positive_objective` bounds the polynomial of the cost state
  at the collocation points, and so removes admissible trajectories whose running
  cost is nowhere negative (C67).
  With multiple shooting it bounds the cost state only at the ends of the elements, and nothing is lost (C82).
* **Initial guess**: the initial state and the last control given to `solve` do not change it.
  A simulated guess starts at the initial condition of the problem, also when it is called with
  another state, as every step of MPC does (C79).
  The documentation says that missing `theta` means zeros; without `theta` it raises (C79).
* **Polynomial chaos**: the covariances of the filter leave out the mean squares of the polynomials, and the
  tenth polynomial is wrong (C51), so expansions of order ten have wrong means (C89).
* **Unscented filter**: the gain ignores the process noise (C74).
* **Indirect method**: coupled controls and non-quadratic costs give controls
  that are not optimal (C55).

Findings outside the theorems, from reading: the filters' time never
advances; the scaling of the unscented filter lacks the usual `- l`; `get_solver` is
cached and never invalidated; `set_mu` keeps the caller's matrix and one rule
changes it in place; the guess of relaxed algebraic variables is read at the
positions of the equations; proxies of the distributed method are kept after they were
terminated.

## Trusted base

* The Coq 8.16.1 kernel and its `vm_compute`.
* The reading of the Python source into the model (cited definition by
  definition), with the simplifications above.
* The specifications in the `…Spec.v` files.
* Axioms: none.  `Print Assumptions` reports "Closed under the global context"
  for every theorem listed in `MANIFEST.json`.
* `coqchk -o` reports, for the libraries that the Kalman files load, the opaque
  module fields by which mathcomp locks definitions (`generic_quotient.Pi`,
  `fintype.SubsetDef`, `fintype.EnumDef`, `finset.SetDef` and the like) and
  `Coq.ssr.ssrunder.Under_rel`.  They are parameters of module types that the
  libraries instantiate by definitions; no theorem here depends on an axiom
  among them.

## Testing the theorems

`seeded/LOG.jsonl` records edits of the model that a realistic bug would make,
each built in a scratch copy, with the theorems that failed and those that were
tightened because they had not.
