{"id": "C01", "title": "Dropping unreferenced nodes preserves the mesh", "statement": "Given any raw mesh whose element indices are in range, the clean-up done when a Mesh is built keeps exactly the nodes that some element references, in their original order, and rewrites the indices so that every element still has exactly the same corner coordinates; afterwards every node belongs to some element.", "quantifier": "all node lists (any point type), all element tables with in-range indices", "why_tests_cant": "the loop rewrites indices and array length while it iterates; tests only run it on meshes without orphan nodes", "anchors": ["conmech/mesh/mesh.py: remove_unconnected_nodes_numba, Mesh.__init__"]}
{"id": "C02", "title": "Renumbering is a bijection that preserves element geometry", "statement": "Each renumbering pass done when a Mesh is built outputs the same multiset of nodes under a bijective renumbering, and every element keeps the same corner coordinates in the same positions.", "quantifier": "all node lists, all in-range element tables, all selected index sets, both directions", "why_tests_cant": "the pass encodes old indices as negatives and substitutes in place, one collision anywhere corrupts the mesh; only a proof covers all index patterns", "anchors": ["conmech/mesh/boundaries_factory.py: reorder_numba, reorder"]}
{"id": "C03", "title": "Boundary faces are exactly the faces that belong to a single element", "statement": "The boundary faces reported for a mesh are precisely the element faces (as node sets) contained in exactly one element, each reported once, and the opposing node reported with a face is the remaining vertex of that unique element. The boundary node list is exactly the set of nodes of those faces, increasing.", "quantifier": "all element tables of constant width with distinct nodes in every element", "why_tests_cant": "face identification is combinatorial over all meshes; tests compare a handful of hard-coded meshes", "anchors": ["conmech/mesh/boundaries_factory.py: identify_surfaces_numba, extract_unique_elements, extract_unique_indices, get_boundary_surfaces"]}
{"id": "C04", "title": "Mesh nodes are ordered contact, Neumann, interior, Dirichlet", "statement": "For any mesh and any user predicates the final node order of a Mesh is: boundary nodes satisfying contact and not Dirichlet, then boundary nodes satisfying neither, then interior nodes, then boundary nodes satisfying Dirichlet; this is a rearrangement of the input nodes with element geometry preserved.", "quantifier": "all meshes, all contact and Dirichlet predicates", "why_tests_cant": "ordering results from four composed passes with alternating directions, each recomputing the boundary; tests check few meshes and few predicates", "anchors": ["conmech/mesh/boundaries_factory.py: reorder_boundary_nodes"]}
{"id": "C05", "title": "Reported node counts describe the node blocks", "statement": "If no boundary node is both contact and Dirichlet then contact_nodes_count, neumann_nodes_count and dirichlet_nodes_count are the exact sizes of the three blocks of C04 so contact_indices / neumann_indices / dirichlet_indices select exactly the nodes of that kind. (Without the disjointness assumption the claim is false, although the docstring says Dirichlet overrides.)", "quantifier": "all meshes, all predicates (disjoint for the positive part; a witness for the negative part)", "why_tests_cant": "existing tests assert the same wrong counts at shared corners; a universally quantified statement exposes the double count", "anchors": ["conmech/mesh/boundaries_factory.py: reorder_boundary_nodes, BoundariesFactory.identify_boundaries_and_reorder_nodes", "conmech/mesh/mesh.py: contact_indices, neumann_indices, dirichlet_indices"]}
{"id": "C06", "title": "Every boundary face gets a boundary condition", "statement": "Every boundary face is classified as contact, Dirichlet or Neumann; Neumann is disjoint from the other two; a face is contact (Dirichlet) iff the user's predicate holds at the mean of its nodes; each class lists faces in the global face order without repetition.", "quantifier": "all meshes and predicates", "why_tests_cant": "arbitrary user predicates cannot be enumerated", "anchors": ["conmech/mesh/boundaries_factory.py: apply_predicate_to_surfaces, identify_boundaries_and_reorder_nodes"]}
{"id": "C07", "title": "Contact normals are outward unit normals", "statement": "Each contact normal is a unit vector orthogonal to its contact face and pointing away from the element that owns the face. (Holds if the stacked face order equals the global one, e.g. when all faces are contact; false for general mixes of boundary conditions.)", "quantifier": "all 2D meshes with non-degenerate faces; witness mesh for the negative part", "why_tests_cant": "tests only use meshes where every boundary face is contact", "anchors": ["conmech/mesh/boundaries.py: get_boundary_surfaces_normals, get_unoriented_normals_2d, Boundaries.__init__, boundary_surfaces, contact_normals"]}
{"id": "C08", "title": "Edge list is the set of element edges", "statement": "Mesh.edges lists every unordered pair of distinct nodes sharing an element exactly once as (i,j) with i<j in lexicographic order and nothing else; the edge matrix counts the elements shared, is symmetric with zero diagonal.", "quantifier": "all meshes with in-range indices and distinct nodes in every element", "why_tests_cant": "tests compare fixed meshes", "anchors": ["conmech/mesh/mesh.py: get_edges_matrix, get_edges_list_numba"]}
{"id": "C09", "title": "Degree-of-freedom slices cover a boundary exactly", "statement": "For any boundary whose node indices form a strictly increasing array (or a slice), the (dof slice, condition slice) pairs produced for dimension d and N nodes are pairwise disjoint, cover exactly {n + k*N | n in boundary, k<d}, and pair dof n + k*N with the entry of the condition array that belongs to node n.", "quantifier": "all strictly increasing index arrays, all slices, all N, all dimensions", "why_tests_cant": "run-length decomposition over arbitrary arrays; tests only use contiguous boundaries", "anchors": ["conmech/mesh/boundaries.py: Boundaries.get_all_boundary_indices"]}
{"id": "C10", "title": "The boundary slice selects boundary nodes", "statement": "boundary_indices / initial_boundary_nodes select boundary nodes of the mesh. True when no node is Dirichlet, false otherwise (Dirichlet nodes are stored last).", "quantifier": "all meshes without Dirichlet nodes; witness mesh for the negative part", "why_tests_cant": "tests only inspect it for meshes without Dirichlet conditions", "anchors": ["conmech/mesh/boundaries.py: boundary_indices, boundary_nodes_count", "conmech/mesh/mesh.py: initial_boundary_nodes"]}
{"id": "C11", "title": "Dirichlet elimination is equivalent to constraining the system", "statement": "After a statement is updated, a vector solves the stored linear system iff it takes the prescribed values on all Dirichlet dofs and satisfies the original equations on all the other rows. Holds for any number of conditions with disjoint dofs.", "quantifier": "all matrices, right-hand sides, lists of disjoint dof slices and prescribed values", "why_tests_cant": "the elimination mutates matrix and rhs slice by slice; tests use constant conditions on one edge", "anchors": ["conmech/dynamics/statement.py: Statement.update, Statement.apply_dirichlet_condition"]}
{"id": "C12", "title": "Dirichlet elimination preserves symmetry and positive definiteness", "statement": "If the operator is symmetric (positive definite) then so is the system matrix after Dirichlet elimination.", "quantifier": "all matrices and dof sets", "why_tests_cant": "quantifies over all vectors", "anchors": ["conmech/dynamics/statement.py: Statement.apply_dirichlet_condition"]}
{"id": "C13", "title": "Solutions satisfy Dirichlet data exactly", "statement": "Whatever the numerical solver returns, the vector returned by Solver.solve equals the prescribed value on every Dirichlet dof and equals the solver's value elsewhere.", "quantifier": "all inner solver results, all boundaries (disjoint conditions)", "why_tests_cant": "depends on arbitrary solver output", "anchors": ["conmech/solvers/solver.py: Solver.solve", "conmech/mesh/boundaries.py: get_all_boundary_indices"]}
{"id": "C14", "title": "Overlapping Dirichlet conditions", "statement": "When two Dirichlet conditions share a dof with different values, the solution satisfies the equations of the free dofs with the values it reports. False: the free equations keep the first value and the solution reports the last one.", "quantifier": "witness system", "why_tests_cant": "needs reasoning about the order of in-place updates", "anchors": ["conmech/dynamics/statement.py: apply_dirichlet_condition", "conmech/solvers/solver.py: Solver.solve"]}
{"id": "C15", "title": "Numbered Dirichlet conditions are all applied", "statement": "find_dirichlet_conditions yields name if it exists, otherwise name_0..name_{k-1} for the largest k such that all of them exist; so all numbered conditions are applied iff the numbering of non-empty boundaries has no gap. A condition that selects no face creates a gap and silently disables the later ones.", "quantifier": "all sets of boundary names", "why_tests_cant": "unbounded loop over names", "anchors": ["conmech/dynamics/statement.py: find_dirichlet_conditions", "conmech/mesh/boundaries_factory.py: other_boundaries"]}
{"id": "C16", "title": "Schur complement solves the full system", "statement": "For every system matrix with invertible free block: (contact part, complemented free part) solves the full system iff the contact part solves the reduced system built from the Schur matrix and Schur forces.", "quantifier": "all matrices, right-hand sides, dimensions, numbers of contact and free nodes", "why_tests_cant": "universal over matrices", "anchors": ["conmech/solvers/optimization/schur_complement.py: calculate_schur_complement_matrices, calculate_schur_complement_vector, complement_free_nodes"]}
{"id": "C17", "title": "Schur complement preserves energies and minimisers", "statement": "If the system matrix is symmetric, the reduced quadratic energy of a contact vector equals the full energy of the complemented vector up to a constant independent of the vector; if moreover the free block is positive definite the complement minimises the full energy over all free parts, so for any contact cost depending on contact dofs only, minimisers of the reduced and of the full cost correspond.", "quantifier": "all symmetric matrices with positive definite free block, all contact costs", "why_tests_cant": "quantifies over all costs and vectors", "anchors": ["conmech/solvers/optimization/schur_complement.py: recalculate_displacement, recalculate_forces, _solve_impl", "conmech/solvers/solver_methods.py: make_cost_functional"]}
{"id": "C18", "title": "Schur layouts round-trip", "statement": "Extracting the contact part and the free part of a full 2D vector and merging them gives back the vector; entry of node n, component d is at the documented position.", "quantifier": "all node counts and vectors", "why_tests_cant": "index arithmetic for all sizes", "anchors": ["conmech/solvers/optimization/schur_complement.py: truncate_free_nodes, merge", "conmech/helpers/nph.py: stack_column, unstack"]}
{"id": "C19", "title": "Schur solver uses the current operator in every step", "statement": "In a relaxation problem the reduced matrices used in a step correspond to the left-hand side of that step. True if relaxation does not depend on time; false in general because the reduced matrices are only computed once.", "quantifier": "all time-independent relaxation laws; witness for a time-dependent law", "why_tests_cant": "stale cache visible only across steps", "anchors": ["conmech/solvers/optimization/schur_complement.py: QuasistaticRelaxed.iterate, recalculate_displacement", "conmech/dynamics/statement.py: QuasistaticRelaxationStatement"]}
{"id": "C20", "title": "Basis gradients and element volume are exact", "statement": "For every non-degenerate triangle/tetrahedron the gradients used in assembly are those of the nodal basis functions: grad phi_i . (x_i - x_j) = 1 and grad phi_i . (x_j - x_k) = 0 for j,k != i; they sum to zero; the element volume is |det|/2 (|det|/6) whichever local index computes it and whichever orientation.", "quantifier": "all non-degenerate elements in 2D and 3D", "why_tests_cant": "identity over reals", "anchors": ["conmech/dynamics/factory/_dynamics_factory_2d.py: get_integral_parts_numba, denominator_numba", "conmech/dynamics/factory/_dynamics_factory_3d.py: get_integral_parts_numba, denominator_numba"]}
{"id": "C21", "title": "Assembled matrices are sums of element contributions; constants have zero gradient energy", "statement": "Each assembled matrix entry is the sum over elements of the local contributions; every row of every W[k,l] and V[k] sums to zero; W[k,l] is the transpose of W[l,k].", "quantifier": "all meshes", "why_tests_cant": "all meshes", "anchors": ["conmech/dynamics/factory/_dynamics_factory_2d.py: get_edges_features_matrix_numba", "conmech/dynamics/factory/_dynamics_factory_3d.py: get_edges_features_matrix_numba", "conmech/dynamics/factory/dynamics_factory_method.py: get_basic_matrices"]}
{"id": "C22", "title": "Mass matrix integrates the mesh and is positive definite", "statement": "The mass matrix is symmetric, its entries sum to the mesh volume, so do the entries of volume_at_nodes; if all elements are non-degenerate and every node belongs to an element it is positive definite.", "quantifier": "all meshes", "why_tests_cant": "all meshes and vectors", "anchors": ["conmech/dynamics/factory/_dynamics_factory_2d.py: get_edges_features_matrix_numba (u, volume_at_nodes)", "conmech/dynamics/factory/_dynamics_factory_3d.py"]}
{"id": "C23", "title": "2D elasticity is symmetric, positive semi-definite and annihilates rigid motions", "statement": "For mu>=0, lambda>=0 the 2D elasticity (and viscosity) operator is symmetric, its energy is the sum over elements of volume*(2 mu |eps(u)|^2 + lambda (div u)^2) >= 0, and translations and infinitesimal rotations have zero force.", "quantifier": "all meshes, all mu, lambda, all displacement vectors", "why_tests_cant": "universal over meshes and vectors", "anchors": ["conmech/dynamics/factory/_dynamics_factory_2d.py: calculate_constitutive_matrices"]}
{"id": "C24", "title": "3D elasticity is isotropic linear elasticity", "statement": "The 3D operator has the same energy as isotropic elasticity and annihilates infinitesimal rotations. True if mu = lambda; false otherwise (mu and lambda are interchanged in several blocks, the operator may even be indefinite).", "quantifier": "all meshes for mu=lambda; witness otherwise", "why_tests_cant": "the only 3D test uses mu=lambda", "anchors": ["conmech/dynamics/factory/_dynamics_factory_3d.py: calculate_constitutive_matrices"]}
{"id": "C25", "title": "Density weighted assembly generalises plain assembly", "statement": "With density 1 in each element the weighted W equals the plain W; the weighted assembly is additive and homogeneous in the density and equals the sum over elements of density times the element contribution.", "quantifier": "all meshes, all densities", "why_tests_cant": "universal", "anchors": ["conmech/dynamics/dynamics.py: asembly_w_matrix_with_density, reinitialize_matrices"]}
{"id": "C26", "title": "The quadrature free mass term is exact", "statement": "The analytically integrated product of basis functions computed in 2D assembly equals volume*(1+delta_ij)/12 for every non-degenerate triangle, i.e. it agrees with the mass matrix.", "quantifier": "all triangles", "why_tests_cant": "real identity", "anchors": ["conmech/dynamics/factory/_dynamics_factory_2d.py: get_edges_features_matrix_numba (q)"]}
{"id": "C27", "title": "Body forces are conserved by integration", "statement": "For every body force field the total integrated nodal force equals the integral of its piecewise linear interpolant over the mesh; a constant force f gives f times the mesh volume.", "quantifier": "all meshes and force fields", "why_tests_cant": "universal", "anchors": ["conmech/scene/body_forces.py: get_integrated_inner_forces", "conmech/dynamics/factory/_dynamics_factory_2d.py: volume_at_nodes"]}
{"id": "C28", "title": "Surface tractions are conserved by integration", "statement": "The per node Neumann surface weights are non-negative, vanish outside Neumann faces and sum to the total measure of the Neumann boundary.", "quantifier": "all meshes and face lists", "why_tests_cant": "universal", "anchors": ["conmech/scene/body_forces.py: get_surface_per_boundary_node_numba, element_volume_part_numba"]}
{"id": "C29", "title": "Column stacking round-trips", "statement": "unstack(stack_column(M), d) = M, stack_column(unstack(v,d)) = v, and entry (n,k) of M is entry k*N+n of the stacked vector.", "quantifier": "all sizes", "why_tests_cant": "universal", "anchors": ["conmech/helpers/nph.py: stack_column, unstack"]}
{"id": "C30", "title": "A solved step satisfies the discrete balance law", "statement": "If a vector solves the system of a statement then the new state given by the State update satisfies the implicit Euler balance: E u=F (static), C v+E(u+dt v)=F (quasistatic), M(v-v0)/dt+C v+E(u0+dt v)=F (dynamic), M(v-v0)/dt+P(u0+dt v)=F (wave), E u+R(b0+dt u)=F (relaxation), M(t-t0)/dt+K t=-T v (temperature), eps p=P u (piezo), with thermal/piezo coupling terms.", "quantifier": "all operators, loads, previous states, dt>0", "why_tests_cant": "universal", "anchors": ["conmech/dynamics/statement.py: all Statement subclasses", "conmech/state/state.py: set_velocity, set_displacement"]}
{"id": "C31", "title": "Dynamic steps are uniquely solvable", "statement": "On any mesh with non-degenerate elements and no orphan nodes, with positive mass density, dt>0 and non-negative moduli, the dynamic, wave and (with positive semidefinite conductivity) temperature systems have at most one solution, before and after Dirichlet elimination.", "quantifier": "all meshes, parameters, loads", "why_tests_cant": "universal", "anchors": ["conmech/dynamics/statement.py: DynamicVelocityStatement, WaveStatement, TemperatureStatement"]}
{"id": "C32", "title": "Implicit Euler never gains energy", "statement": "Without loads and contact, along any run of the dynamic or wave solver the discrete energy v'Mv/2+u'Eu/2 never increases, for all dt>0 and any number of steps; with viscosity the dissipated energy is accounted for exactly.", "quantifier": "all meshes, dt, step counts, initial data", "why_tests_cant": "unbounded in steps and meshes", "anchors": ["conmech/dynamics/statement.py: DynamicVelocityStatement, WaveStatement", "conmech/simulations/problem_solver.py: run"]}
{"id": "C33", "title": "Without contact all solving methods agree", "statement": "If the system matrix is symmetric positive definite, a vector minimises the cost functional used by the optimisation solvers iff it solves the linear system used by the direct solver; hence the answer is unique and independent of the method.", "quantifier": "all SPD systems", "why_tests_cant": "universal", "anchors": ["conmech/solvers/solver_methods.py: make_cost_functional, make_equation", "conmech/solvers/direct.py", "conmech/solvers/optimization/global_optimization.py"]}
{"id": "C34", "title": "Updating a statement is repeatable", "statement": "Updating a statement twice with the same variables gives the same system as updating it once, and never changes the operators stored in the body.", "quantifier": "all operators and variables", "why_tests_cant": "requires reasoning about sharing of arrays", "anchors": ["conmech/dynamics/statement.py: update, apply_dirichlet_condition"]}
{"id": "C35", "title": "Contact cost depends on contact data only", "statement": "The contact cost is the sum over contact faces of face length/(k+1) times the law at the mean and at each of the k nodes of the face; it does not depend on values at nodes outside contact faces; it is zero without contact faces and non-negative if the potentials and bounds are.", "quantifier": "all meshes, laws, vectors", "why_tests_cant": "universal over laws", "anchors": ["conmech/solvers/solver_methods.py: make_cost_functional, get_nodes, interpolate_node_between"]}
{"id": "C36", "title": "Slope contact law is a convex potential with matching derivative", "statement": "The potential of make_slope_contact_law is convex and non-negative for slope>=0 and its subderivative is a subgradient of the potential everywhere (and its derivative away from 0); the direct law is its derivative.", "quantifier": "all slopes >= 0, all arguments", "why_tests_cant": "universal over reals", "anchors": ["conmech/dynamics/contact/relu_slope_contact_law.py"]}
{"id": "C37", "title": "Direct contact forces versus cost functional", "statement": "The contact force vector of the direct solver has the same total as the derivative of the contact cost under rigid translation; it is not, in general, the gradient of the contact cost (nodal quadrature values are split equally between both ends).", "quantifier": "all meshes and laws; witness for the negative part", "why_tests_cant": "requires calculus", "anchors": ["conmech/solvers/solver_methods.py: make_equation, make_cost_functional, make_subgradient"]}
{"id": "C38", "title": "Constant contact law is consistent", "statement": "The subderivative of make_const_contact_law is the derivative of its potential. False: the potential is multiplied by the static displacement.", "quantifier": "witness", "why_tests_cant": "needs derivative", "anchors": ["conmech/dynamics/contact/constant_constact_law.py"]}
{"id": "C39", "title": "Convex contact problems have a unique solution", "statement": "If the system matrix is symmetric positive definite and the contact cost is convex (e.g. slope law) the cost functional has at most one minimiser, so the result is independent of the optimiser and of the initial guess.", "quantifier": "all SPD systems, all convex laws", "why_tests_cant": "universal", "anchors": ["conmech/solvers/solver_methods.py: make_cost_functional", "conmech/dynamics/contact/relu_slope_contact_law.py"]}
{"id": "C40", "title": "State bookkeeping along a run", "statement": "After n steps of a velocity-driven run: time advanced by n*dt, displacement = initial displacement + sum of dt*velocity of the steps, displaced_nodes = nodes + displacement, and the solver's stored vectors mirror the state. Likewise displacement-driven runs accumulate absement.", "quantifier": "all solvers (any returned vectors), all n, all dt", "why_tests_cant": "unbounded runs, arbitrary solver answers", "anchors": ["conmech/simulations/problem_solver.py: run, find_solution", "conmech/state/state.py: set_velocity, set_displacement"]}
{"id": "C41", "title": "Outputs are taken at the requested steps", "statement": "For non-decreasing output_step the k-th returned state is the state after output_step[k] steps, one per request; with no output_step exactly one state after n_steps.", "quantifier": "all output lists, all solvers", "why_tests_cant": "universal over lists", "anchors": ["conmech/simulations/problem_solver.py: TimeDependentSolver.solve, QuasistaticRelaxation.solve, WaveSolver.solve"]}
{"id": "C42", "title": "A resumed wave simulation equals an uninterrupted one", "statement": "Solving n steps and then resuming from the returned state for m steps gives the same state as solving n+m steps.", "quantifier": "all n, m, deterministic solvers", "why_tests_cant": "universal", "anchors": ["conmech/simulations/problem_solver.py: WaveSolver.solve"]}
{"id": "C43", "title": "solve() can be repeated", "statement": "Calling solve() twice with the same arguments gives the same results. True for the wave and static solvers, false for the other time dependent solvers since the solver clock is not reset.", "quantifier": "all deterministic step solvers; witness", "why_tests_cant": "history dependence", "anchors": ["conmech/simulations/problem_solver.py: TimeDependentSolver.solve, run"]}
{"id": "C44", "title": "Returned states are snapshots", "statement": "A state returned by solve() is never changed by later steps.", "quantifier": "all runs", "why_tests_cant": "aliasing", "anchors": ["conmech/simulations/problem_solver.py: solve, run", "conmech/state/state.py: __copy__, set_velocity, set_displacement"]}
{"id": "C45", "title": "The coupled fixed point loop is bounded", "statement": "Every time step of the coupled solver performs at least 5 and at most 10 iterations and stops before the 10th only if the last update is at most 1e-3; afterwards the stored displacement is u_old+dt*v.", "quantifier": "all sub-solver behaviours", "why_tests_cant": "arbitrary numerical behaviour", "anchors": ["conmech/simulations/problem_solver.py: find_solution_uzawa"]}
{"id": "C46", "title": "Stress reflects the current state", "statement": "Reading stress always returns the constitutive law of the current fields. False: the first value is cached for the lifetime of the state.", "quantifier": "witness; true before the first read", "why_tests_cant": "history dependent", "anchors": ["conmech/state/state.py: stress"]}
{"id": "C47", "title": "Saving a state leaves it usable", "statement": "State.save restores force sources, setup and constitutive law. True if writing succeeds; false if writing raises.", "quantifier": "all states; every crash point", "why_tests_cant": "crash points", "anchors": ["conmech/state/state.py: save"]}
{"id": "C48", "title": "Cached nodal sources are coherent", "statement": "For a fixed source and node set node_source(t) always returns the source evaluated at time t at every node, for any sequence of requested times; after clear() at an unchanged time it returns nothing, after replacing the source it may return stale values.", "quantifier": "all request sequences; witnesses", "why_tests_cant": "history dependent", "anchors": ["conmech/scene/body_forces.py: FieldSource.node_source, BodyForces.clear"]}
{"id": "C49", "title": "Relaxation operator cache is coherent", "statement": "relaxation(t) always equals the operator assembled from the current W and the tensor at time t. True as long as matrices are not reinitialised; false after reinitialize_matrices with another density.", "quantifier": "all time sequences; witness", "why_tests_cant": "history dependent", "anchors": ["conmech/dynamics/dynamics.py: relaxation, reinitialize_matrices"]}
{"id": "C50", "title": "Solver registry lookup", "statement": "A registered name resolves (case-insensitively) to the registered class for the dynamism of the problem, names cannot be silently overwritten, and the name reported by a solver resolves to the class of that solver; 'optimization' (documented) is not registered.", "quantifier": "all registration sequences and names", "why_tests_cant": "universal over names", "anchors": ["conmech/solvers/_solvers.py: SolversRegistry", "conmech/simulations/problem_solver.py: refresh_solvers"]}
{"id": "C51", "title": "Solver iterations supply the variables their statement needs", "statement": "For every supported (problem kind, method) pair the variables passed by iterate contain all the fields the statement asserts. False for relaxation with the global method.", "quantifier": "all statement kinds and methods", "why_tests_cant": "cross-module contract", "anchors": ["conmech/dynamics/statement.py", "conmech/solvers/optimization/global_optimization.py", "conmech/solvers/optimization/schur_complement.py"]}
{"id": "C52", "title": "Piezoelectric problems couple both ways", "statement": "The mechanical right-hand side of a piezoelectric problem depends on the electric potential. True for the quasistatic problem, false for the dynamic one (method resolution order selects the uncoupled statement).", "quantifier": "all loads and potentials; witness", "why_tests_cant": "needs class resolution reasoning", "anchors": ["conmech/scenarios/problems.py: PiezoelectricDynamicProblem, PiezoelectricQuasistaticProblem", "conmech/dynamics/statement.py"]}
{"id": "C53", "title": "In-place operators of stiffness matrices", "statement": "M += x behaves like M = M + x. False: the in-place operators return nothing, so the name is rebound to None.", "quantifier": "all matrices", "why_tests_cant": "Python binding semantics", "anchors": ["conmech/struct/stiffness_matrix.py"]}
{"id": "C54", "title": "Product ranges", "statement": "product.range(a,b) keeps exactly the records with a < time <= b and leaves the product unchanged.", "quantifier": "all products", "why_tests_cant": "universal", "anchors": ["conmech/state/products/product.py"]}
{"id": "C55", "title": "Zero search brackets sign changes", "statement": "estimate_zeros returns only sampled zeros or points supplied by the root finder for a bracket with a strict sign change, each within one step, in order; every strict sign change between consecutive samples is reported exactly once.", "quantifier": "all functions, ranges, steps>0", "why_tests_cant": "universal over functions", "anchors": ["conmech/state/products/intersection_contact_limit_points.py: estimate_zeros"]}
{"id": "C56", "title": "Placing a mesh", "statement": "translate_nodes moves the mesh so that its minimal corner is at the requested initial position and preserves all differences.", "quantifier": "all meshes and positions", "why_tests_cant": "universal", "anchors": ["conmech/mesh/mesh_builders.py: translate_nodes"]}
{"id": "C57", "title": "Structured cross mesh is well formed", "statement": "For all sizes the cross mesh generator creates exactly 2*sx*sy+sx+sy+1 pairwise distinct nodes and 4*sx*sy elements with in-range distinct indices, every look-up succeeds, and the triangles tile the rectangle (areas sum to scale_x*scale_y, all positively measured).", "quantifier": "all sx, sy >= 1", "why_tests_cant": "universal over sizes", "anchors": ["conmech/mesh/zoo/cross_for_tests.py", "conmech/helpers/nph.py: get_node_index_numba"]}
{"id": "C58", "title": "Scalar contact problems see the scalar displacement", "statement": "In scalar (membrane) problems the displacement passed to the contact law is the displacement at the face, independent of the orientation of the face. False: it is multiplied by the sum of the normal's components.", "quantifier": "witness; exact formula for all inputs", "why_tests_cant": "broadcasting subtlety", "anchors": ["conmech/solvers/solver_methods.py: contact_cost_functional"]}
{"id": "C59", "title": "Thermal coupling is energy neutral", "statement": "The heating rate in the temperature equation and the thermal load in the momentum equation exchange exactly the same power: v.(T' theta) = theta.(T v); at a fixed point of the coupled step the total thermo-mechanical energy does not increase.", "quantifier": "all operators and states", "why_tests_cant": "universal", "anchors": ["conmech/dynamics/statement.py: DynamicVelocityWithTemperatureStatement, TemperatureStatement"]}
{"id": "C60", "title": "Force time level", "statement": "Step k of a velocity-driven run uses the load at time (k-1)*dt while the coupled solvers use the load at time k*dt.", "quantifier": "all runs", "why_tests_cant": "needs trace of calls", "anchors": ["conmech/simulations/problem_solver.py: run, find_solution_uzawa"]}
{"id": "C61", "title": "Boundaries can be identified for every complete boundary description", "statement": "Identifying and ordering the boundaries of a Mesh from a BoundariesDescription (everything except the normals, see C63) succeeds for every mesh and all predicates as long as each extra named boundary carries a condition and no reserved name is used; an extra boundary given as a bare predicate raises KeyError and a boundary named 'neumann' raises TypeError.", "quantifier": "all meshes, all keyword lists", "why_tests_cant": "Tests fix a handful of descriptions; the claim ranges over all keyword lists and predicates.", "anchors": ["conmech/mesh/boundaries_factory.py:BoundariesFactory.identify_boundaries_and_reorder_nodes", "conmech/mesh/boundaries_description.py:BoundariesDescription"]}
{"id": "C62", "title": "Numbered mechanical Dirichlet conditions", "statement": "Dirichlet conditions named dirichlet_0, dirichlet_1, ... in the boundaries description are applied to the displacement/velocity unknowns (as the numbered piezo_dirichlet_k conditions are for the potential). False: every Mesh has a boundary called 'dirichlet', so the search for conditions always stops there and the numbered ones are ignored.", "quantifier": "all meshes and descriptions; witness mesh", "why_tests_cant": "A test can only show one mesh where they are ignored or applied; that no mesh can ever use them is a statement about all descriptions.", "anchors": ["conmech/dynamics/statement.py:54-66", "conmech/mesh/boundaries_factory.py:244-251"]}
{"id": "C63", "title": "Contact and Dirichlet predicates that share a face", "statement": "The Mesh constructor (including the computation of surface normals) succeeds whenever no boundary face satisfies both the contact and the Dirichlet predicate; if one face satisfies both and there are at least two boundary faces, construction raises ValueError, for every mesh.", "quantifier": "all meshes (2D triangles, 3D tetrahedra), all predicates", "why_tests_cant": "The failure depends on the interplay of the face classification and numpy broadcasting; tests try single meshes with disjoint boundaries.", "anchors": ["conmech/mesh/boundaries.py:51-89", "conmech/mesh/boundaries_factory.py:176-253"]}
{"id": "C64", "title": "Kinetic energy form", "statement": "The acceleration operator is the matrix of (v,u) -> rho * integral of v.u over the mesh; it is symmetric, and positive definite if the density is positive and every node belongs to an element.", "quantifier": "all meshes, all densities, all velocity vectors", "why_tests_cant": "universal over meshes and vectors", "anchors": ["conmech/dynamics/factory/_dynamics_factory_2d.py: calculate_acceleration", "conmech/dynamics/factory/_dynamics_factory_3d.py: calculate_acceleration", "conmech/dynamics/dynamics.py: reinitialize_matrices"]}
{"id": "C65", "title": "Conductivity and permittivity forms", "statement": "The thermal conductivity (2D, 3D) and permittivity (2D) operators are the matrices of (y,x) -> integral of sum c_kl d_k y d_l x; they are symmetric for symmetric coefficients and positive semi-definite for positive semi-definite ones.", "quantifier": "all meshes, coefficients and nodal vectors", "why_tests_cant": "universal over meshes and vectors", "anchors": ["conmech/dynamics/factory/_dynamics_factory_2d.py: calculate_thermal_conductivity, get_permittivity_tensor", "conmech/dynamics/factory/_dynamics_factory_3d.py: calculate_thermal_conductivity"]}
{"id": "C66", "title": "Poisson operator is the Dirichlet form", "statement": "The Poisson operator is the matrix of c^2 * integral of grad y . grad x; it is symmetric, positive semi-definite, and annihilates constants.", "quantifier": "all meshes and vectors", "why_tests_cant": "universal", "anchors": ["conmech/dynamics/factory/_abstract_dynamics_factory.py: calculate_poisson_matrix", "conmech/dynamics/factory/dynamics_factory_method.py: get_dynamics"]}
{"id": "C67", "title": "Thermal expansion couples temperature and displacement gradient", "statement": "The thermal expansion operator is the N x dN matrix of (theta,u) -> integral of theta * sum ex_cl d_l u_c.", "quantifier": "all meshes, coefficients, temperatures and displacements", "why_tests_cant": "universal", "anchors": ["conmech/dynamics/factory/_dynamics_factory_2d.py: calculate_thermal_expansion", "conmech/dynamics/factory/_dynamics_factory_3d.py: calculate_thermal_expansion"]}
{"id": "C68", "title": "Piezoelectric coupling form", "statement": "The piezoelectric operator is the N x 2N matrix of (phi,u) -> integral of sum e_ckl d_k phi d_l u_c.", "quantifier": "all 2D meshes, coefficients, potentials and displacements", "why_tests_cant": "universal", "anchors": ["conmech/dynamics/factory/_dynamics_factory_2d.py: get_piezoelectric_tensor"]}
{"id": "C69", "title": "Relaxation operator form", "statement": "The relaxation operator is the matrix of the bilinear form given by the eight coefficients; it is symmetric if coeff[0][1][0]=coeff[1][0][1] and coeff[0][0][1]=coeff[1][1][0]; isotropic coefficients reproduce isotropic elasticity.", "quantifier": "all 2D meshes, coefficients and vectors", "why_tests_cant": "universal", "anchors": ["conmech/dynamics/factory/_dynamics_factory_2d.py: get_relaxation_tensor"]}
{"id": "C70", "title": "Operator dispatch", "statement": "reinitialize_matrices builds exactly the operators the body properties ask for; in 2D it never fails on a valid mesh; in 3D a density raises TypeError and piezoelectric properties raise NotImplementedError.", "quantifier": "all meshes and property combinations", "why_tests_cant": "all combinations", "anchors": ["conmech/dynamics/dynamics.py: reinitialize_matrices", "conmech/dynamics/factory/dynamics_factory_method.py: get_dynamics"]}
{"id": "C71", "title": "Virtual work of the assembled loads", "statement": "A spatially constant volume force does exactly the work f * integral(v) against every piecewise linear displacement v, and tractions are integrated with nodal quadrature on the Neumann faces; for a force that varies in space the assembled work differs from the integral of the product of the interpolants.", "quantifier": "all meshes, forces, displacements; witness for the negative part", "why_tests_cant": "universal over meshes and displacements", "anchors": ["conmech/scene/body_forces.py: integrate", "conmech/dynamics/factory/_dynamics_factory_2d.py: get_edges_features_matrix_numba"]}
{"id": "C72", "title": "All components of clamped nodes are prescribed", "statement": "A statement prescribes component c of a Dirichlet node exactly when c is below the dimension it was created with: all components for the static statement; only the first two for velocity and relaxation statements, so in three dimensions the third component of clamped nodes stays free.", "quantifier": "all meshes, statement kinds, dimensions; witness in 3D", "why_tests_cant": "universal over meshes; the 3D dynamic case is not exercised by the tests", "anchors": ["conmech/dynamics/statement.py: Statement.__init__, apply_dirichlet_condition"]}
{"id": "C73", "title": "Piezoelectric coupling has one sign", "statement": "Without inertia the dynamic statement coincides with the quasistatic one, also with piezoelectric coupling. False: the electric load enters the two statements with opposite signs.", "quantifier": "all data; witness", "why_tests_cant": "relates two classes for all inputs", "anchors": ["conmech/dynamics/statement.py: QuasistaticVelocityWithPiezoelectricStatement, DynamicVelocityWithPiezoelectricStatement"]}
{"id": "C74", "title": "Anchored static problems are uniquely solvable", "statement": "On any plane mesh whose nodes are reached from the clamped nodes through triangles with two reached corners, with positive shear modulus (viscosity) and positive density weights, the static, relaxation and quasistatic systems have exactly one solution (discrete Korn); scalar problems (Poisson in 2D and 3D, electric potential) need only every node to be connected to a prescribed one (discrete Poincare).", "quantifier": "all meshes, moduli, loads, conditions", "why_tests_cant": "universal over meshes and coefficients", "anchors": ["conmech/dynamics/statement.py: StaticDisplacementStatement, StaticPoissonStatement, QuasistaticVelocityStatement, QuasistaticRelaxationStatement, PiezoelectricStatement", "conmech/dynamics/factory/_dynamics_factory_2d.py: calculate_constitutive_matrices"]}
{"id": "C75", "title": "Energy of interior contact", "statement": "For an interior contact law the energy handed to the optimiser is the quadratic energy plus half the volume integral of the response plus the sum of squares of the entries beyond the unknowns; its minimisers vanish there and minimise the remaining energy.", "quantifier": "all matrices, laws, vectors", "why_tests_cant": "universal over laws and vectors", "anchors": ["conmech/solvers/solver_methods.py: make_equation", "conmech/solvers/optimization/optimization.py: Optimization.__init__"]}
{"id": "C76", "title": "Damped normal compliance has a continuous potential", "statement": "Bound times potential of make_damped_norm_compl is a continuous function of the velocity. False: it jumps by beta v^2/2 where the obstacle is reached.", "quantifier": "all parameters; witness", "why_tests_cant": "continuity", "anchors": ["conmech/dynamics/contact/damped_normal_compliance.py"]}
{"id": "C77", "title": "Contact weights are the measures of the faces", "statement": "A unit potential gives the measure of the contact boundary. True in the plane; false in space, where the weight is the planar distance of the first two nodes of a face (zero for vertical ones); the direct equation and the gradient raise ValueError in space.", "quantifier": "all planar meshes; witness in space; all spatial meshes for the exceptions", "why_tests_cant": "universal over meshes", "anchors": ["conmech/helpers/nph.py: length", "conmech/solvers/solver_methods.py: make_cost_functional, make_equation, make_subgradient"]}
{"id": "C78", "title": "Schur solver minimises the full cost", "statement": "If the inner optimiser minimises the reduced cost exactly, _solve_impl returns a minimiser of the full cost (1 and 2 components); with a driving vector the first half of the result is the merged solution and the second half is zero. False for interior contact laws: the reduced loss raises ValueError as soon as there is a free node.", "quantifier": "all matrices, loads, contact laws, faces of contact nodes, initial guesses, exact optimisers", "why_tests_cant": "universal over optimisers, laws and systems", "anchors": ["conmech/solvers/optimization/schur_complement.py: _solve_impl, truncate_free_nodes, complement_free_nodes, merge", "conmech/solvers/solver_methods.py: make_equation"]}
{"id": "C79", "title": "The direct method renews its system", "statement": "Every step of a time dependent run with the direct method solves the system of the state reached so far. False: Direct does not override Solver.iterate (an empty method), so every step re-solves the system assembled by the constructor and the computed velocity never changes.", "quantifier": "all bodies, loads, step counts; witness", "why_tests_cant": "class resolution across files, all runs", "anchors": ["conmech/solvers/direct.py: Direct", "conmech/solvers/solver.py: Solver.iterate, solve", "conmech/simulations/problem_solver.py: run"]}
{"id": "C80", "title": "Problems without a contact law can be optimised", "statement": "Optimisation methods accept a problem whose contact law is None (a branch provides a zero energy for it). False: Optimization.__init__ reads an attribute of the law before testing it for None, so the constructor raises AttributeError; Poisson problems take a branch before it and are accepted.", "quantifier": "all bodies and statements", "why_tests_cant": "all problems", "anchors": ["conmech/solvers/optimization/optimization.py: Optimization.__init__"]}
{"id": "C81", "title": "Runs obey the balance law at every step", "statement": "The states returned by a whole run of the dynamic, wave, relaxation and static drivers satisfy the discrete balance law between consecutive steps, with the loads at the time before the step, from the given initial values; with stable statements and a working linear solver every run returns; two runs of the same problem agree whatever solver they use.", "quantifier": "all bodies, loads, step counts, output steps, linear solvers", "why_tests_cant": "composition of five modules over all runs", "anchors": ["conmech/simulations/problem_solver.py: run, solve", "conmech/solvers/solver.py: solve", "conmech/dynamics/statement.py: update", "conmech/scene/body_forces.py: integrate_forces"]}
{"id": "C82", "title": "Energy decays along a run", "statement": "In a whole run without loads and with homogeneous conditions the discrete energy (kinetic plus elastic) of the returned states does not increase; on any plane mesh the matrices assembled by the code meet the conditions needed.", "quantifier": "all plane meshes, moduli, initial values, step sizes, step counts", "why_tests_cant": "stability for all runs", "anchors": ["conmech/simulations/problem_solver.py: TimeDependentSolver, WaveSolver", "conmech/dynamics/statement.py"]}
{"id": "C83", "title": "Products along a vertical line", "statement": "VerticalIntersectionContactLimitPoints records, in order, points of the line x = level at which the linearly interpolated displacement equals the obstacle level, sampled from the lowest to the highest node with step 1/(2 n); VerticalIntersection records interpolated values at equidistant points, masked exactly where the line is outside of the mesh; affine displacements are reproduced exactly; meshes that are not plane are refused by the limit points product.", "quantifier": "all plane triangulations, displacements, levels, triangle finders and root finders meeting their contracts", "why_tests_cant": "universal over meshes and displacements", "anchors": ["conmech/state/products/intersection_contact_limit_points.py: VerticalIntersectionContactLimitPoints.update, interpolate", "conmech/state/products/verticalintersection.py: VerticalIntersection.update"]}
{"id": "C84", "title": "Contact problems with prescribed values are solved as constrained problems", "statement": "If no contact face touches a prescribed dof, minimising the cost built from the Dirichlet-eliminated system (global solver) is the same as minimising the original cost among the vectors with the prescribed values; for the Schur solver faces may touch prescribed nodes that are not counted as contact nodes, provided the previous velocity already has the prescribed values there. The constrained problem has exactly one solution, which is the solution of the variational inequality of contact. (False for the global solver when faces touch prescribed dofs, and for the Schur solver at corners held at a new value.)", "quantifier": "all plane meshes, symmetric matrices definite on the admissible differences, loads, conditions, convex laws", "why_tests_cant": "quantifies over all competitors and all constrained systems; tests compare solvers on a few meshes within tolerances", "anchors": ["conmech/dynamics/statement.py: Statement.apply_dirichlet_condition", "conmech/solvers/optimization/optimization.py: Optimization._solve_impl", "conmech/solvers/optimization/schur_complement.py: SchurComplementOptimization._solve_impl", "conmech/solvers/solver.py: Solver.solve", "conmech/solvers/solver_methods.py: make_cost_functional"]}
{"id": "C85", "title": "Whole runs with contact solve the variational inequality of every step, dissipate energy, and do not depend on the solver", "statement": "From the constructor to the returned states, every step of a run of the global or the Schur optimisation solver on a plane contact problem solves the variational inequality of contact whose forces are inertia, viscosity and elasticity less the loads with the fields before the step; the static solvers solve the static one. Such runs never raise. The motion is unique, so the global and the Schur solver return the same states; the sum of kinetic and elastic energy, viscous loss and contact cost is covered by the work of the loads, and without loads and with a law that is least at rest the energy never grows.", "quantifier": "all bodies, loads, conditions, convex contact laws, time steps, numbers of steps, output steps, initial fields, method names, iteration limits, and all optimisers that find a minimum when there is one", "why_tests_cant": "speaks about all runs of any length and all competitors of every step; tests run a few short simulations and compare plots", "anchors": ["conmech/solvers/optimization/optimization.py: Optimization._solve_impl", "conmech/solvers/optimization/global_optimization.py: Dynamic.iterate", "conmech/solvers/optimization/schur_complement.py: SchurComplementOptimization._solve_impl", "conmech/solvers/optimization/schur_complement.py: Dynamic.iterate", "conmech/simulations/problem_solver.py: TimeDependentSolver.solve", "conmech/simulations/problem_solver.py: StaticSolver.solve", "conmech/simulations/problem_solver.py: ProblemSolver.run"]}
{"id": "C86", "title": "The keyword method selects the documented optimiser, and 'constrained' means impenetrability", "statement": "The branch taken by the optimisation solver is determined by the name: the named optimisers regardless of case, every name that begins with one of the global quasi secant names (always with 5 steps), 'gradiented X' as scipy's X with the subgradient, everything else scipy's method of that name; the quasi secant minimiser is made exactly for the branches that use it. The constraint of 'constrained' holds exactly for vectors whose second components at the contact nodes are not negative, in the layouts of both solvers, which is impenetrability when the normal points down. (False: case-insensitivity of the gradiented prefix; a default iteration budget proportional to the number of unknowns for plane Schur problems; the constraint for other normals.)", "quantifier": "all strings, numbers of nodes, vectors, normals", "why_tests_cant": "quantifies over all method names and all vectors; tests use a handful of names", "anchors": ["conmech/solvers/optimization/optimization.py: Optimization._solve_impl", "conmech/solvers/optimization/schur_complement.py: SchurComplementOptimization.truncate_free_nodes"]}
{"id": "C87", "title": "The states returned for a posed problem solve the problem posed", "statement": "From the problem object that a user writes (mesh, boundary indicators and values, load callbacks, material, time step) to the states that solve() returns: the static displacement, the membrane of a Poisson problem, and every step of a dynamic, quasistatic, wave or relaxation run has the prescribed values at the boundary nodes of the Dirichlet part and balances inertia, stresses and loads against every test field that vanishes there, with the user's own coordinates, moduli and load functions; after update_density the density weighs the integrals. Volume loads enter through a nodal quadrature that is exact for uniform loads (and not for varying ones). A problem that keeps the library's default forces has no solver (TypeError); one that keeps the default temperatures gets a right-hand side twice as long as its matrix.", "quantifier": "all triangle meshes, node and element orders, boundary indicators, prescribed values, load functions of place and time, moduli, densities, time steps, initial values, requested steps, sound linear solvers", "why_tests_cant": "end to end over all problems; tests compare single runs with stored numbers", "anchors": ["conmech/simulations/problem_solver.py: ProblemSolver.__init__, NonHomogenousSolver.update_density", "conmech/dynamics/dynamics.py: Dynamics", "conmech/scene/body_forces.py", "conmech/scenarios/problems.py", "conmech/dynamics/statement.py"]}
{"id": "C88", "title": "Posed problems have solvers, runs and exactly one solution", "statement": "A problem on a nonempty valid mesh with complete, separate boundary descriptions is constructed, and can be reweighted, without an exception. If it is also stable (clamped mesh and positive moduli for static, quasistatic and relaxation problems, positive mass for dynamic and wave problems, nonzero propagation and grounded mesh for Poisson problems), then its step solver exists, every run of it finishes for all initial values and requested steps, and the displacement or motion it shows is the only one that solves the posed problem; so it depends neither on the solver class nor on the linear solver.", "quantifier": "all such problems, initial values, requested steps, linear solvers that solve positive definite systems", "why_tests_cant": "existence and uniqueness for all problems", "anchors": ["conmech/simulations/problem_solver.py: ProblemSolver, StaticSolver, TimeDependentSolver, PoissonSolver, WaveSolver, NonHomogenousSolver", "conmech/dynamics/dynamics.py", "conmech/solvers/direct.py"]}
{"id": "C89", "title": "Posed problems with contact: variational inequality, existence, uniqueness, solver independence, energy", "statement": "For a plane problem whose contact and fixed boundaries do not meet, with sound material, convex contact law and forward time step: the states returned by the global optimisation and by the Schur complement solver are the solution of the variational inequality with the user's loads, moduli, densities, prescribed values and contact law (static), respectively of the implicit Euler motion of such inequalities (quasistatic, dynamic). The step solvers exist and the runs finish for all initial values and requested steps. The solution is unique, so both solvers, with any reliable minimisers, return the same states. Energy plus viscous and contact dissipation never exceeds initial energy plus the work of the loads; without loads and with a resisting law energy does not grow. Every contact face has a normal, the outer unit normal if the contact faces come first among the boundary faces.", "quantifier": "all meshes, boundary descriptions, materials, densities, loads, convex laws, initial values, requested steps, minimisers and inverses satisfying their contracts", "why_tests_cant": "quantifies over all problems, test fields and minimisers; composition of mesh, assembly, elimination, contact cost, optimisation and time march", "anchors": ["conmech/simulations/problem_solver.py: ProblemSolver, StaticSolver, TimeDependentSolver", "conmech/solvers/optimization/optimization.py", "conmech/solvers/optimization/global_optimization.py", "conmech/solvers/optimization/schur_complement.py", "conmech/mesh/boundaries.py: contact_normals"]}
{"id": "C90", "title": "Times and positions of the returned states", "statement": "A step solver just made has the clock at 0, the problem's time step (0 without one), no step done and one to do, and five separate arrays of zeros. Every state returned by a run of a posed problem, whatever its step solver answers, has the time (requested step) * (time step) and shows node n at the coordinates the user gave it plus its displacement, x components first; only a state asked for before the first step shows the nodes without the initial displacement.", "quantifier": "all problems, built meshes, solver classes, step solvers and answers, initial fields, step counts and output lists, products given", "why_tests_cant": "tests compare norms of a few displacement fields; swapped axes, doubled time steps or shifted counters are consistent relabelings that give plausible numbers on any mesh symmetric enough for a test", "anchors": ["conmech/simulations/problem_solver.py:45-148", "conmech/state/state.py:20-100", "conmech/mesh/mesh.py:40-110"]}
{"id": "C91", "title": "The solids of the library are sound meshes", "statement": "The tables of Cube and Ball are meshes of positively oriented tetrahedra that do not overlap, with every node used and no face in three elements; the cube fills [0,1]^3 exactly and its boundary faces are those in its six sides; the boundary nodes of the ball lie on a sphere of radius 1/sqrt 3 up to rounding of the table and the others well inside. Placed anywhere and built into a Mesh with any description they keep nodes, volume and non-degeneracy, the lowest corner is at the position asked for, and a Dirichlet condition at the corners of one boundary face makes the elasticity operator positive definite on the remaining degrees of freedom for 0 < la <= mu.", "quantifier": "all positions, boundary predicates, descriptions, moduli with 0 < la <= mu; all tetrahedra of the tables", "why_tests_cant": "covering and non-overlap concern all points of space; definiteness concerns all displacements and all choices of the clamped face", "anchors": ["conmech/mesh/zoo/cube.py: Cube", "conmech/mesh/zoo/ball.py: Ball", "conmech/mesh/zoo/raw_mesh.py: RawMesh", "conmech/mesh/mesh_builders.py: build_mesh, translate_nodes", "conmech/mesh/mesh.py: Mesh.__init__"]}
{"id": "C92", "title": "Stability of elastic solids", "statement": "In three dimensions the elasticity and viscosity operators are positive semidefinite for 0 <= la <= mu on every tetrahedral mesh, and the static, quasistatic and dynamic statements are stable (at most one solution) for 0 < la <= mu when the prescribed nodes fasten the mesh. Outside this range it fails: for 11 la > 18 mu the energy of the library's cube with its bottom clamped is unbounded below for every load, and for la = 0 horizontal layers slide without resistance.", "quantifier": "all tetrahedral meshes, moduli, prescribed values, loads, displacements", "why_tests_cant": "definiteness is a statement about all displacements; tests use one pair of moduli with la < mu", "anchors": ["conmech/dynamics/factory/_dynamics_factory_3d.py: calculate_constitutive_matrices", "conmech/dynamics/dynamics.py: reinitialize_matrices", "conmech/dynamics/statement.py: StaticDisplacementStatement", "conmech/mesh/zoo/cube.py: Cube"]}
{"id": "C93", "title": "Imported meshes take over the cells of the file", "statement": "An imported mesh consists of the tetrahedra of the file if there are any and otherwise of its triangles with the third coordinate dropped: each point used by a cell occurs once, moved by the same vector, each cell keeps its corners, volume or projected area is preserved, all other cell types are ignored, and files with neither raise KeyError. The mesh is at the position asked for up to the offset between the lowest point of the file and the lowest used point. It is not at that position when the file has unused points, and surfaces in space are flattened without complaint, possibly to area 0.", "quantifier": "all files (points, cell dictionaries), positions, descriptions", "why_tests_cant": "all files; tests read one or two", "anchors": ["conmech/properties/mesh_description.py: ImportedMeshDescription.build", "conmech/mesh/mesh_builders.py: translate_nodes", "conmech/mesh/mesh.py: Mesh.__init__"]}
{"id": "C94", "title": "Nodal stresses of the constitutive laws carry the wrong sign", "statement": "On every triangulation the gradient recovered at a node is minus the unweighted mean of the gradients on the elements meeting there, so the viscoelastic law reports minus the mean Kelvin-Voigt stress and the law with relaxation minus the mean of the elastic stress plus 2 r eps(absement), r being the single entry [1,0,1] of the relaxation tensor. Affine fields are recovered exactly up to the sign, rigid motions give zero, the elasticity operator does minus the work of the reported stress, stress_norm is not affected. A stretched body is reported under compression, and memory carried by other entries of the relaxation tensor is not reported. Nodes of no element get nan; an element without area raises ZeroDivisionError.", "quantifier": "all triangulations, displacement, velocity and absement fields, moduli, relaxation tensors, times", "why_tests_cant": "the laws are only exercised by plots; the norm and the colour map hide the sign; equality with a mean over elements concerns all fields", "anchors": ["examples/utils.py: calculate_dx_dy, gradient, viscoelastic_constitutive_law, elastic_relaxation_constitutive_law", "conmech/state/state.py: State.stress, stress_norm, stress_x, stress_y", "conmech/plotting/drawer.py: draw_stress"]}
{"id": "C95", "title": "Limit points are plotted in batches", "statement": "What plot_limit_points draws is the recorded points in order of time, in batches of 1000 each followed by 100 points at the origin, and a rest of at most 1100; only the first call carries the label. With fewer than 1000 points exactly the recorded points are drawn. If no time brings the count to exactly 1000, more than 1100 points raise IndexError; with k zeros at every time the plot succeeds exactly when k divides 1000 or there are at most 1100 points. That only recorded points are drawn, and that every product can be plotted, is false.", "quantifier": "all products (times and zeros), labels, numbers of zeros per time", "why_tests_cant": "the defects need at least 1000 recorded points, tests record a few", "anchors": ["conmech/plotting/membrane.py: plot_limit_points", "conmech/state/products/intersection_contact_limit_points.py"]}
{"id": "C96", "title": "What the drawer shows", "statement": "A fresh drawer shows the least window around the original and displaced nodes widened by a fifth on each side and keeps it when drawing again; the drawn mesh joins exactly the corners of common triangles, each pair once, the drawn boundary exactly its edges; solids raise ValueError. plot_in_columns fills a grid for even numbers of states and raises ValueError for every odd number. draw_dirichlet marks two nodes however many there are and raises IndexError for a body without Dirichlet nodes.", "quantifier": "all node lists, meshes, boundaries, numbers of states", "why_tests_cant": "pictures are not compared by tests; the statements concern all meshes", "anchors": ["conmech/plotting/drawer.py: set_axes_limits, draw_mesh, draw_boundary, draw_dirichlet", "conmech/plotting/membrane.py: plot_in_columns"]}
{"id": "C97", "title": "The manufactured solution solves the posed boundary value problem", "statement": "The displacement of the manufactured example has stresses (Hooke's law with the example's Lame parameters) in equilibrium with its inner_forces at every point, vanishes on the clamped edge, has the outer_forces as tractions on the right and top edge outside the last millimetre before their corner and their mean at the corner, is free of tangential stress on the contact edge and balances there the linear contact law with stiffness lambda + 2 mu and with no other stiffness. Within the last millimetre before the corner the loads are not the tractions.", "quantifier": "all points of the plane, all stiffnesses; derivatives by limits", "why_tests_cant": "the example prints an error of a mesh solution, which is never zero; a wrong load of small size cannot be told from the error of discretisation", "anchors": ["examples/example_manufactured_solution.py: solution, make_linear_contact_law, MMS_SelfBalancing.inner_forces, MMS_SelfBalancing.outer_forces"]}
{"id": "C98", "title": "Error measures of the manufactured example", "statement": "The total returned by calculate_l2_errors is the L2 norm of the piecewise linear difference: its square is the exact integral, it is zero exactly if the nodal values agree at all nodes of elements, it is symmetric and satisfies the triangle inequality, an offset k gives |k| times the root of the area. The error at a node is the root of three times the mean square error around it (an offset k is shown as sqrt 3 |k| on every mesh), zero at nodes of no element.", "quantifier": "all triangulations, all pairs of nodal fields", "why_tests_cant": "not tested; the factor is the same at all nodes and invisible in a plot scaled to its maximum", "anchors": ["examples/example_manufactured_solution.py: calculate_l2_errors"]}
{"id": "C99", "title": "Composite contact law", "statement": "For two or more strictly increasing layers and all functions alpha, beta the potential is zero before the first layer and its one-sided derivatives are everywhere the one-sided limits of the layered traction; the subderivative is the limit from the left; the second part is growing, and so is its sum with the subderivative off the ends of layers; at the end of any layer where the traction drops the sum is too large. No layers raise IndexError, one layer gives a potential that raises IndexError behind it.", "quantifier": "all lists of layers, all alpha, beta, all penetrations", "why_tests_cant": "infinitely many laws; the fault at ends of layers has measure zero", "anchors": ["examples/BartmanSzwarc_Bagirrov_Ochal_2025.py: make_composite_contact_law"]}
{"id": "C100", "title": "Contact law of Makela et al.", "statement": "As functions of the penetration the subderivative is everywhere the right derivative of the potential, which is continuous with three kinks; as functions of var_nu they have opposite signs. The sum with the second part grows except at the first kink, where it dips. The tangential subderivative is the gradient of the logarithmic potential off zero, of length 1/(1+|tau|), and zero at rest.", "quantifier": "all penetrations, all tangential vectors of any dimension", "why_tests_cant": "pointwise values cannot show a derivative", "anchors": ["examples/Makela_et_al_1998.py: MMLV99"]}
{"id": "C101", "title": "Contact laws of the other examples", "statement": "TarziaContactLaw: the derivative of the potential is twice the subderivative off b, so they never agree; JureczkaOchal2019 and JureczkaOchalBartman2023: potentials and friction bounds are bounded, growing and Lipschitz with the stated constants, the friction potential grows with a rate between 0.7 and 1; BOST example 10: the potential is differentiable everywhere with a force between 0 and 1.1 ig that falls beyond b, so it is not convex.", "quantifier": "all arguments, all slopes, limits and bounds", "why_tests_cant": "continuity and derivatives are statements on all arguments", "anchors": ["examples/BartmanSzwarc_Ochal_Tarzia_2026.py: make_slope_contact_law", "examples/Jureczka_Ochal_2019.py: JureczkaOchal2019", "examples/Jureczka_Ochal_Bartman_2023.py: make_contact_law", "examples/BartmanSzwarc_Ochal_Sofonea_Tarzia_2025.py: prepare_setup"]}
{"id": "C102", "title": "Divergence theorem of the derivative matrices", "statement": "On every mesh of non-degenerate simplices whose elements lie on different sides of their common faces, boundary faces have outer unit normals and 1^T V_k v (V_k as get_basic_matrices assembles it) is the integral of the interpolant of v times component k of the outer normal over the boundary; the column of an inner node sums to zero. Meshes of cross_rectangle, of the solids and of files whose cells do not overlap satisfy the condition; a folded strip shows that it cannot be left out.", "quantifier": "all meshes in the plane and in space, all nodal fields, all lists of the boundary faces", "why_tests_cant": "cancellation over inner faces has to be shown for every arrangement of elements", "anchors": ["conmech/dynamics/factory/_dynamics_factory_2d.py: get_edges_features_matrix_numba", "conmech/dynamics/factory/_dynamics_factory_3d.py: get_edges_features_matrix_numba", "conmech/mesh/mesh.py: Mesh.__init__", "conmech/mesh/zoo/raw_mesh.py"]}
{"id": "C103", "title": "Patch test", "statement": "The elasticity matrix applied to an affine displacement vanishes at inner nodes and does the work of the constant stress at the boundary. If the prescribed values and the surface loads of a posed static problem (Poisson problem) are those of an affine displacement (temperature), the solver returns this field at every node; if all of the boundary is fixed only the values have to be affine.", "quantifier": "all triangle meshes whose elements have different sides of common edges, all affine fields, materials, splits of the boundary", "why_tests_cant": "exactness has to hold on unstructured meshes of any size", "anchors": ["conmech/dynamics/factory/dynamics_factory_method.py", "conmech/dynamics/statement.py", "conmech/scenarios/problems.py", "conmech/simulations/problem_solver.py: StaticSolver, PoissonSolver", "conmech/solvers/direct.py"]}
{"id": "C104", "title": "Runs of heated and polarised bodies", "statement": "A run of a posed problem with a temperature or an electric potential returns states of a motion: in every step velocity and second field are improved in turn, between five and ten times; each velocity has the prescribed values and balances the momentum with the second field of the pass before; each second field has its prescribed values (those of the Dirichlet boundary for the temperature, those of the numbered electrodes for the potential) and solves its equation with the new velocity or displacement, from the second field before the step. For stable materials, clamped bodies and electrodes that determine the potential the run reaches its end. The fields of a step solve the second equation exactly, and the first one with a second field that differs by at most 1/1000 unless all ten passes were made.", "quantifier": "all meshes, materials, loads, electrodes, initial fields, numbers of steps, requested outputs, and solver classes", "why_tests_cant": "the alternation may run through the ten passes without a sign, and the equations have to hold for every test field", "anchors": ["conmech/simulations/problem_solver.py: find_solution_uzawa, TemperatureTimeDependentSolver, PiezoelectricTimeDependentSolver, __set_step_solver, __set_second_step_solver", "conmech/dynamics/statement.py", "conmech/solvers/solver.py", "conmech/solvers/direct.py", "conmech/mesh/boundaries.py"]}
{"id": "C105", "title": "Where the passes of a coupled step lead to", "statement": "For stable materials momentum and heat (or creep and electric potential) of a time step can be balanced at once, by exactly one pair of fields. The passes of a step approach it in energy by a factor that does not depend on the mesh: (ka dt / rho)^2 per pass for heated bodies, (ka dt)^2 for polarised ones, where ka bounds the power of the coupling by that of the stresses; so the fields after a step are near the balanced ones if the coupling is weak. In the dynamic piezoelectric problem every step is balanced and takes five passes. The motion is determined by the initial fields, so runs with different classes and exact solvers show the same fields. If the coupling is strong the passes may drive the fields apart and the step is returned all the same: a temperature of 1 becomes 943718.5 where 0.1 would be balanced.", "quantifier": "all meshes, stable materials, loads, electrodes, initial fields, numbers of passes and steps, solver classes", "why_tests_cant": "tests use one weakly coupled material; the limit of the passes, its uniqueness and the factor hold for all meshes and fields", "anchors": ["conmech/simulations/problem_solver.py: find_solution_uzawa", "conmech/dynamics/statement.py", "conmech/dynamics/factory/_dynamics_factory_2d.py"]}
{"id": "C106", "title": "Refining the time step leads to the motion of the body in continuous time", "statement": "If a body has a motion in continuous time, along which at every instant the prescribed velocities hold and inertia, viscous and elastic stresses balance the loads of that instant, with Lipschitz continuous velocity, acceleration and loads, then every state of every run with the time step h differs from the displacement and velocity of its time by at most ka h, with one constant ka for all time steps, numbers of steps, output steps and exact solvers. The same holds without inertia for clamped bodies and for waves. Such a motion is unique. The order is exactly one: under a constant force a free body is always displaced by h t / 2 too much.", "quantifier": "all meshes, stable materials, motions, loads, time steps, output steps, solver classes", "why_tests_cant": "tests run one or two time steps and compare with stored numbers; the rate with one constant for all steps needs a stability proof", "anchors": ["conmech/simulations/problem_solver.py: TimeDependentSolver.solve, WaveSolver.solve, run, find_solution", "conmech/solvers/solver.py: iterate", "conmech/dynamics/statement.py", "conmech/solvers/_solvers.py"]}
{"id": "C107", "title": "Refining the time step with contact leads to the motion of the body with contact", "statement": "If a body in contact has a motion in continuous time, along which at every instant the velocity satisfies the variational inequality with the contact cost at the displacement of that instant, and the contact law depends gently (Lipschitz) on the displacement and the time step, then every state of every run with the time step h, of the class Global or Schur and with any reliable minimiser, differs from the displacement and velocity of its time by at most ka h, with one ka for all runs; with inertia, and without inertia for clamped bodies. The motion is unique. The motions in steps exist for every start. The slope law and the constant law are gentle; the damped normal compliance is not.", "quantifier": "all meshes, stable materials, convex gentle laws, motions, loads, time steps, output steps, minimisers, both solver classes", "why_tests_cant": "tests run one time step against stored numbers; that the cost of contact is taken at the displacement before the step and the loads at the start of the step costs an error of order h only is a statement about all steps at once", "anchors": ["conmech/simulations/problem_solver.py: TimeDependentSolver.solve, run, find_solution", "conmech/solvers/optimization/optimization.py", "conmech/solvers/optimization/schur_complement.py", "conmech/solvers/_solvers.py"]}
{"id": "C108", "title": "Moving bodies with the class Direct", "statement": "Runs of a dynamic problem with the solving method 'direct' should follow the same motion as the other classes. They do not: Direct never renews its system after the constructor, so every step returns the velocity of a body that is at rest and undeformed at time 0, whatever the initial data and the later loads, and only the displacement moves on. A free body under a constant force keeps the velocity h of the first step for ever, so refining the time step makes it stand still instead of falling.", "quantifier": "all meshes, materials, loads, time steps, initial data, output steps, exact linear solvers", "why_tests_cant": "such a run ends without an error and looks smooth; that the result tends to the wrong limit is a statement about all time steps", "anchors": ["conmech/solvers/direct.py: Direct", "conmech/solvers/solver.py: Solver.iterate", "conmech/simulations/problem_solver.py: TimeDependentSolver.solve"]}
{"id": "C109", "title": "Refining the time step of bodies with memory", "statement": "Runs of the quasistatic problem with relaxation approach the creep of the body in continuous time: the elastic stress of the displacement plus the stress that the relaxation tensor gives to the time integral of the displacement balances the loads. The error of all states after the first is at most ka times the time step, with one ka for all runs; that creep is unique. With a relaxation tensor proportional to the elasticity and constant loads the displacement decays like exp(-rate t), and the states of the runs are exactly the static displacement divided by (1 + rate h)^q.", "quantifier": "all meshes, materials, Lipschitz loads and relaxation tensors, time steps, numbers of steps, output steps, first displacements, exact linear solvers", "why_tests_cant": "a statement about the limit of all time steps and about a constant that serves all runs", "anchors": ["conmech/simulations/problem_solver.py: QuasistaticRelaxation.solve", "conmech/dynamics/statement.py: QuasistaticRelaxationStatement", "conmech/dynamics/dynamics.py: Dynamics.relaxation", "conmech/solvers/optimization/schur_complement.py: QuasistaticRelaxed"]}
{"id": "C110", "title": "Step solvers that are accurate to a tolerance only", "statement": "When the inner solver leaves a residual of at most tol in every row of its system and the prescribed values are then written into the answer as in Solver.solve, a static, quasistatic, dynamic or wave run computes the exact problem under additional nodal forces, none larger than tol, with the prescribed values held exactly. Its states differ from those of an exact run by at most ka times tol, and from the motion in continuous time by at most ka times (time step + tol), where ka does not depend on the time step, the tolerance or the number of steps: the errors of the steps do not pile up as the step is refined. Static answers, also of reweighted bodies, are within ka times tol of the equilibrium.", "quantifier": "all meshes, materials, loads, time steps, tolerances, numbers of steps, output steps, start values, and all inner solvers with residuals of at most the tolerance", "why_tests_cant": "a stability constant shared by all runs, steps, tolerances and solvers; tests run one tolerance at one step", "anchors": ["conmech/solvers/solver.py: Solver.solve", "conmech/solvers/optimization/optimization.py: Optimization._solve_impl", "conmech/simulations/problem_solver.py: StaticSolver.solve, TimeDependentSolver.solve, WaveSolver.solve"]}
{"id": "C111", "title": "The distance from a reference that examples/error_estimates.py reports", "statement": "If the solution has a value at every node of the reference mesh, the entry that error_estimates reports is the mean over the reference elements of sqrt(squared corner sums + squared stretches + squared shear) of the difference of the displacements. It is not negative, meets the triangle inequality, is zero for equal displacements and, when every element shares two nodes with another one, only then; on an element alone a turn about its centre counts zero. A constant difference d counts exactly 3|d| on every body and mesh, so the entry is no fixed multiple of the norm of the difference over the body. A reference node at which the solution has no value never leads to a number: in the first element an empty array is reported, in a later one ValueError is raised.", "quantifier": "all triangle meshes without degenerate elements, all displacements, all interpolators", "why_tests_cant": "which pairs of fields are told apart, the triangle inequality and the missing dependence on the area range over all meshes and fields; the module has no tests", "anchors": ["examples/error_estimates.py: compare, calculate_dx_dy, error_estimates"]}
{"id": "C112", "title": "Results that the examples keep in files between two runs", "statement": "bost main: a forced run leaves in each file the solution for its own value, always started from the default. A resumed run succeeds and keeps the files that were there; the file of a missing value holds its own solution, started from the kept result of the value before, if the next value is missing too or no later one is, and otherwise holds the kept result of another value, the one before the next missing value. BOSK runner: it never fails, but its files are named by position and looked for by step number, so four or more steps are always simulated again and a run of three steps may report the states of an earlier run of another length. Surveys of methods and forces: a forced survey records the loss and the state of every pair, methods that keep their solution start from that of the force before; a resumed one leaves only the losses of the pairs it computed; forces written alike in file names overwrite each other.", "quantifier": "all lists of values, methods and forces, all directories, all solvers, all sequences of earlier runs", "why_tests_cant": "depends on which files earlier, interrupted or differently configured runs left behind; the tests start with an empty directory and force all runs", "anchors": ["examples/BartmanSzwarc_Ochal_Sofonea_Tarzia_2025.py: main", "examples/BOSK_2024.py: runner", "examples/Makela_et_al_1998.py: main", "examples/BartmanSzwarc_Bagirrov_Ochal_2025.py: main"]}
{"id": "C113", "title": "Partition into layers, labels and marks of the comparison of methods", "statement": "For a positive ratio p and at least one part, partition returns the one list of num + 1 points from start to stop in which every part is p times the one before, increasing if start < stop; for no parts, or evenly many with ratio -1, it raises ZeroDivisionError. The plot of losses needs every recorded method among its keys and otherwise raises KeyError for the first one missing, which happens for the methods that the script itself uses. Only the least loss is marked as best; for a best loss that is not positive, near means within a tenth of its size plus 1/100, while above 1/10 every other loss, however close, is marked as failed.", "quantifier": "all bounds, numbers of parts, ratios, lists of methods, losses", "why_tests_cant": "universal over ratios and sizes; the plotting code is not run by the tests", "anchors": ["examples/BartmanSzwarc_Bagirrov_Ochal_2025.py: partition", "examples/Makela_et_al_1998.py: plot_losses"]}
{"id": "C114", "title": "Clock of a run in floating point and the file names taken from it", "statement": "The clock of a run is the sum of the time steps rounded to binary64 after every addition. If the time step has so few bits that its multiples up to n fit into 53 bits, as 1/128 has, then the clock after n steps is exactly n time steps, int(time // time_step) is n, the examples that name files in this way keep the state of every output step under its own number and find all of them in the next run. For any time step and n with n^2 < 2^53 the clock is off by at most n^2 * 2^-53 time steps and the name is n or n - 1; the clock advances with every step, although after 2^53 steps of a power of two it stands still. With the time step 0.1 of other examples names coincide: the state of step 4 is overwritten by that of step 5, and reading the files raises an error in this and in every later run.", "quantifier": "all time steps, numbers of steps, lists of output steps, directories, states", "why_tests_cant": "universal over time steps and step counts; the tests run the examples with one dyadic step and few steps only", "anchors": ["conmech/simulations/problem_solver.py: ProblemSolver.run", "conmech/solvers/solver.py: Solver.__init__", "examples/Jureczka_Ochal_Bartman_2023.py: main", "examples/Bartman_Ochal_Sofonea_2024.py: main"]}
{"id": "C115", "title": "Errors and rates of the convergence table", "statement": "The error of BartmanSzwarc_Ochal_Tarzia_2026.py is the root of the integral over the reference mesh of the squared difference of two piecewise linear temperatures, the other one interpolated at the nodes of the reference; on a mesh of triangles it is zero exactly if they agree at all nodes of elements, and it obeys the triangle inequality. In spite of the name of the function it is not relative: scaling both temperatures scales it. The rate printed between two rows is r exactly if both errors are positive and their ratio is the ratio of the mesh sizes to the power r; errors C h^p give p in every row after the first; a row with error zero, as that of the reference itself, and the row after it give no rate.", "quantifier": "all meshes of triangles, temperatures, interpolations, lists of mesh sizes and errors", "why_tests_cant": "universal over meshes and real errors; the tests run the example with one mesh, where no rate is computed", "anchors": ["examples/BartmanSzwarc_Ochal_Tarzia_2026.py: _relative_temperature_error", "examples/BartmanSzwarc_Ochal_Tarzia_2026.py: draw_convergence_plots"]}
{"id": "C116", "title": "States kept in files by the example of 2026, the panels, curves and table made of them", "statement": "BartmanSzwarc_Ochal_Tarzia_2026.py keeps each simulated state under a name of its own pair (alpha, ih). Forced, or resumed from files that hold simulations, a run shows in every panel, curve and row of the table the simulation of the right pair, and all panels have one scale of colours, from the least to the greatest of the shown values. A resumed run simulates exactly the needed pairs that have no file, each once, and a second run none; a forced run simulates at every single use (166 simulations of 60 pairs with the constants of the file). More than 26 panels raise IndexError, an empty sequence too, a state without values ValueError; without mesh sizes only the table fails. The run makes its output directory too late: where it is missing, the first simulation is made and lost with FileNotFoundError; the same error ends a run whose configuration names no directory.", "quantifier": "all lists of parameters, grids and sequences of pairs, orders of a set, simulations, contents of the directory", "why_tests_cant": "the tests run the example with one pair and a directory that is there; the claim is about all parameters and all states of the directory", "anchors": ["examples/BartmanSzwarc_Ochal_Tarzia_2026.py: load_or_simulate", "examples/BartmanSzwarc_Ochal_Tarzia_2026.py: draw_temperature_grid", "examples/BartmanSzwarc_Ochal_Tarzia_2026.py: draw_convergence_plots", "examples/BartmanSzwarc_Ochal_Tarzia_2026.py: main"]}
