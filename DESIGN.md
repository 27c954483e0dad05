# Formal model of conmech: design

Source under study: `/repo` (KOS-UJ/conmech, Python), read as text, never run.  Model: Rocq/Coq 8.16.1,
`/verif/rocq/theories`, logical name `Verif`, standard library only.  The properties are in
`/verif/properties.jsonl`, their status in `/verif/MANIFEST.json`, the seeded bugs in
`/verif/seeded/LOG.jsonl`.

Build: `cd /verif/rocq && coq_makefile -f _CoqProject -o Makefile && make -j4`.

## Layout

| files | content |
|---|---|
| `*Model.v` (and `Common.v`, `PyModel.v`) | the Python functions, transcribed branch by branch; every definition cites file and lines and states its simplifications.  No proofs. |
| `*Spec.v` | small specifications written without the helpers of the model: what the property says. |
| `*Lemmas.v`, `*Proofs.v`, `*Theorems.v`, `LinAlg.v`, `RVec.v`, `ConvexMin.v`, `*Total.v`, `*Stable.v`, `*Unique.v` | proofs. |
| `*Examples.v`, `*Witness.v`, `*Cases.v` | concrete meshes, bodies, laws and runs: they show that hypotheses can be met, and are the counterexamples of the `_refuted` theorems. |
| `Props_*.v` | only the property theorems, each `exact lemma.` with `Print Assumptions` below and an `Example` whose hypotheses hold for a concrete, non-trivial case. |

A theorem name is the property id and a short word.  The suffix `_refuted` marks a theorem that a natural
reading of the property is false of the code, with a witness (a concrete input on which the modelled code
misbehaves).  No theorem is `_partial` at present.

## Numbers, arrays, objects, errors

* Indices, counts and element tables are `nat` (`Z` where the code goes below zero: the negative marks used
  while renumbering), arrays of indices are lists.  This part is computable and needs no axiom.
* Node coordinates in the combinatorial mesh code are an arbitrary type, since that code only copies nodes
  and hands them to user predicates: those theorems hold for floats.
* Numeric arrays are functions `nat -> R`, `nat -> nat -> R` with explicit sizes, over the standard library
  reals.  **Main simplification: exact real arithmetic replaces IEEE doubles**; rounding is outside the
  numeric theorems, and theorems that compare with tolerances (C55, C57) treat the tolerance as the real
  number written in the code.
* Python exceptions are values (`result` in `PyModel.v`: `Ok`, `Err KeyError`, `Err ValueError`, ...), so
  "does not raise" is part of the statements.
* Where sharing of arrays matters there is an explicit heap: `StatementModel.v` (matrices and vectors of
  statements and operators), `StateModel.v` and `TimeModel.v` (arrays of states, views, snapshots).
  Elsewhere in-place updates are passed as new values.
* User code (predicates, forces, contact laws, initial conditions, user classes) is universally quantified.
* External routines are universally quantified functions: `numpy.linalg.solve`, `inv`, `scipy.optimize`
  minimisers, `fsolve`, `brentq`, `kosopt`, `adam`, `pickle`, the triangle finder of matplotlib.  Where a
  theorem needs something of them, the contract is a hypothesis of that theorem (for example: the optimiser
  returns a minimum if there is one), never an axiom, and an Example or a Witness file exhibits a function
  that meets it.
* Loops whose bound is not syntactic use fuel, and the fuel is proved sufficient (C01, C15, C45, C55, class orders in C50).

## Properties: what is modelled and how it is proved

| id | property | model | how it is proved | theorem file |
|---|---|---|---|---|
| C01 | Dropping unreferenced nodes preserves the mesh | MeshModel `remove_unconnected`: the while loop as recursion on the remaining nodes | invariant: the prefix already visited is referenced; the final relabelling is the rank among the referenced nodes, hence monotone and onto | Props_Mesh.v |
| C02 | Renumbering is a bijection that preserves element geometry | MeshModel/MeshBuildModel: `reorder_numba` with its negative marks over Z | loop invariant: visited indices decoded, others still negative; injective because the two counters never meet | Props_Mesh.v |
| C03 | Boundary faces are exactly the faces that belong to a single element | MeshModel: `identify_surfaces`, `np.unique(axis=0)` with first index and count | counting lemmas on the multiset of sorted faces; any simplex width | Props_Mesh.v |
| C04 | Mesh nodes are ordered contact, Neumann, interior, Dirichlet | MeshBuildModel: the four passes of `reorder_boundary_nodes`, whole Mesh construction | boundary of a renumbered mesh is the renumbered boundary; each pass is a stable partition | Props_Mesh.v |
| C05 | Reported node counts describe the node blocks | MeshBuildModel: counts and index slices | cardinalities of the blocks under disjointness of contact and Dirichlet nodes; witnesses on a square that the condition is needed | Props_Mesh.v |
| C06 | Every boundary face gets a boundary condition | MeshBuildModel: `apply_predicate_to_surfaces` | filter lemmas on the masks; the mean is any averaging function | Props_Mesh.v |
| C07 | Contact normals are outward unit normals | NormalsModel: 2D and 3D normals, faces stacked contact/Neumann/Dirichlet | orientation lemma: the opposite vertex decides the sign; refutation by computing the misaligned index on a concrete mesh; rows of the Neumann and Dirichlet faces (NormalsRows) | Props_Normals.v |
| C08 | Edge list is the set of element edges | MeshModel: `get_edges_matrix`, `get_edges_list` | closed form of the triple loop as a count | Props_Mesh.v |
| C09 | Degree-of-freedom slices cover a boundary exactly | DofModel: `np.diff`/`np.nonzero` run decomposition | induction over runs of consecutive indices | Props_Mesh.v |
| C10 | The boundary slice selects boundary nodes | MeshBuildModel: slice of `boundary_nodes_count` | from C04 without Dirichlet nodes; witness with them | Props_Mesh.v |
| C11 | Dirichlet elimination is equivalent to constraining the system | DirichletModel: `apply_dirichlet_condition` over all slices | loop invariant: eliminated rows are identity, other rows are the constrained equations; then composed with the built mesh | Props_Dirichlet.v |
| C12 | Dirichlet elimination preserves symmetry and positive definiteness | DirichletModel | the eliminated matrix is the original form on the free dofs plus squares on the others | Props_Dirichlet.v |
| C13 | Solutions satisfy Dirichlet data exactly | DirichletModel: overwrite loop of `Solver.solve` | induction over slices; the inner solver is any function | Props_Dirichlet.v |
| C14 | Overlapping Dirichlet conditions | DirichletModel | the later condition wins in the vector, the matrix keeps the earlier one: exact description, witness on a built mesh | Props_Dirichlet.v |
| C15 | Numbered Dirichlet conditions are all applied | DirichletModel: while loop over numbered names | induction on the names present; termination is part of the theorem | Props_Dirichlet.v |
| C16 | Schur complement solves the full system | SchurModel: block split, complement matrix and vector | block elimination over R; the inverse is a parameter with the contract of an inverse | Props_Schur.v |
| C17 | Schur complement preserves energies and minimisers | SchurModel | completing the square in the free unknowns: equality of energies up to a constant, same minimisers | Props_Schur.v |
| C18 | Schur layouts round-trip | SchurModel: truncate, merge, unstack, stack | index arithmetic with div/mod; witness with three components | Props_Schur.v |
| C19 | Schur solver uses the current operator in every step | SchurModel + StatementModel: cached matrices of the solver object | the caches are functions of the operator at construction; witness with a time dependent relaxation | Props_Schur.v |
| C20 | Basis gradients and element volume are exact | FemModel: `get_integral_parts_numba`, 2D and 3D | `field` on the element formulas | Props_Fem.v |
| C21 | Assembled matrices are sums of element contributions; constants have zero gradient energy | FemModel: `get_edges_features_matrix_numba` | the += loops as sums over elements, then algebra per element | Props_Fem.v |
| C22 | Mass matrix integrates the mesh and is positive definite | FemModel | mass of an element as an exact integral of the product of barycentric coordinates over the simplex, sums over elements; positive definite | Props_Fem.v |
| C23 | 2D elasticity is symmetric, positive semi-definite and annihilates rigid motions | FemModel: `calculate_constitutive_matrices` 2D | form as a sum of squares of strain entries per element; rigid motions from C20 | Props_Fem.v |
| C24 | 3D elasticity is isotropic linear elasticity | FemModel: 3D constitutive matrices | exact form for all mu, lambda; agrees with isotropic elasticity for mu = lambda, refuted otherwise | Props_Fem.v |
| C25 | Density weighted assembly generalises plain assembly | FemModel: density-weighted assembly | sum over elements; constant density | Props_Fem.v |
| C26 | The quadrature free mass term is exact | FemModel: q term | `field` | Props_Fem.v |
| C27 | Body forces are conserved by integration | ForcesModel: nodal volumes | exchange of sums | Props_Forces.v |
| C28 | Surface tractions are conserved by integration | ForcesModel: surface per boundary node | exchange of sums over faces and vertices | Props_Forces.v |
| C29 | Column stacking round-trips | ForcesModel: `stack_column`, `unstack` | div/mod arithmetic | Props_Forces.v |
| C30 | A solved step satisfies the discrete balance law | StatementModel: eleven statement classes on a heap | evaluation of `update` on the heap, then linear algebra | Props_Statement.v |
| C31 | Dynamic steps are uniquely solvable | StatementModel + FemModel | positive definite matrices have a unique solution (finite dimensional injective = surjective, proved in LinAlg) | Props_Statement.v |
| C32 | Implicit Euler never gains energy | StatementModel + StatementEnergyProofs | test the step with the velocity; telescoping sum by induction on steps | Props_Statement.v |
| C33 | Without contact all solving methods agree | ContactModel: losses with the zero law | the minimum of a quadratic function solves its normal equations and back | Props_Contact.v |
| C34 | Updating a statement is repeatable | StatementModel | frame theorem of the heap: only the arrays of the statement are written; repeated updates give the same entries | Props_Statement.v |
| C35 | Contact cost depends on contact data only | ContactModel: contact cost loop | sum over faces; support of the summands | Props_Contact.v |
| C36 | Slope contact law is a convex potential with matching derivative | ContactModel: slope law | piecewise; derivative from the standard library `Reals` | Props_Contact.v |
| C37 | Direct contact forces versus cost functional | ContactModel: direct forces, cost, subgradient | derivative of the summand; witness where nodal and midpoint quadrature differ | Props_Contact.v |
| C38 | Constant contact law is consistent | ContactModel: constant law | direct derivative; witness | Props_Contact.v |
| C39 | Convex contact problems have a unique solution | ContactModel + ConvexMin | a strongly convex function of n variables has exactly one minimum: induction on n, minimising one variable at a time (the one-variable case by completeness of R); inequality by comparing with convex combinations | Props_Contact.v |
| C40 | State bookkeeping along a run | TimeModel: drivers; StateModel | invariant over the march | Props_Time.v |
| C41 | Outputs are taken at the requested steps | TimeModel: `solve` loops | induction over the list of outputs | Props_Time.v |
| C42 | A resumed wave simulation equals an uninterrupted one | TimeModel: WaveSolver resumed | simulation of the two runs state by state | Props_Time.v |
| C43 | solve() can be repeated | TimeModel | functional dependence on the driver object; witnesses | Props_Time.v |
| C44 | Returned states are snapshots | TimeModel, StateModel: heap of arrays | separation invariant: a returned state owns its cells | Props_Time.v |
| C45 | The coupled fixed point loop is bounded | TimeModel: `find_solution_uzawa` | fuel = the iteration bound of the code | Props_Time.v |
| C46 | Stress reflects the current state | StateModel: cached stress | case analysis on the cache; witness | Props_State.v |
| C47 | Saving a state leaves it usable | StateModel: `save` as a sequence of statements that may raise | case analysis over the crash points | Props_State.v |
| C48 | Cached nodal sources are coherent | ForcesModel: cached nodal sources | invariant over all sequences of requests | Props_Forces.v |
| C49 | Relaxation operator cache is coherent | StatementModel: relaxation cache | invariant over request sequences; witness after reinitialisation | Props_Statement.v |
| C50 | Solver registry lookup | RegistryModel: dictionaries, class table with MRO, registrations | induction over registrations; evaluation of the class table; user classes are arbitrary | Props_Registry.v |
| C51 | Solver iterations supply the variables their statement needs | RegistryModel: variables handed to statements | case analysis over all statements; witness | Props_Registry.v |
| C52 | Piezoelectric problems couple both ways | RegistryModel | case analysis over the class table; witness | Props_Registry.v |
| C53 | In-place operators of stiffness matrices | StatementModel: in-place operator protocol | evaluation | Props_Statement.v |
| C54 | Product ranges | StateModel: `range`, products | induction over recorded times; what the setters record by induction over the products (ProductRecords) | Props_State.v |
| C55 | Zero search brackets sign changes | ZerosModel: `estimate_zeros` | exact trace of the sampling loop; intermediate value contract of brentq; witnesses | Props_Zeros.v |
| C56 | Placing a mesh | CrossModel: `translate_nodes` | column minima | Props_Cross.v |
| C57 | Structured cross mesh is well formed | CrossModel: loops of `cross_for_tests.py`, `get_node_index_numba` | loop invariants for the rows of cells, injectivity of the grid, boundary by counting faces; then built by the modelled Mesh class; the faces of the three kinds by C06 with the averages written out (CentreProofs) | Props_Cross.v |
| C58 | Scalar contact problems see the scalar displacement | ContactModel: scalar problems | exact formula; witness | Props_Contact.v |
| C59 | Thermal coupling is energy neutral | StatementModel: thermal coupling | adjointness of the coupling blocks, then the energy test | Props_Statement.v |
| C60 | Force time level | TimeModel | times recorded by the stepper along the march | Props_Time.v |
| C61 | Boundaries can be identified for every complete boundary description | MeshBuildModel | case analysis on the descriptions; every total description is accepted | Props_Mesh.v |
| C62 | Numbered mechanical Dirichlet conditions | DirichletModel | evaluation for every mesh | Props_Dirichlet.v |
| C63 | Contact and Dirichlet predicates that share a face | NormalsModel, MeshBuildModel | construction succeeds; what the shared face becomes | Props_Normals.v |
| C64 | Kinetic energy form | FemModel: kinetic energy blocks | assembly as a sum over elements, then the form of piecewise affine fields on each element | Props_Fem.v |
| C65 | Conductivity and permittivity forms | FemModel: conductivity and permittivity blocks | assembly as a sum over elements, then the form of piecewise affine fields on each element | Props_Fem.v |
| C66 | Poisson operator is the Dirichlet form | FemModel: Poisson operator blocks | assembly as a sum over elements, then the form of piecewise affine fields on each element | Props_Fem.v |
| C67 | Thermal expansion couples temperature and displacement gradient | FemModel: thermal expansion blocks | assembly as a sum over elements, then the form of piecewise affine fields on each element | Props_Fem.v |
| C68 | Piezoelectric coupling form | FemModel: piezoelectric coupling blocks | assembly as a sum over elements, then the form of piecewise affine fields on each element | Props_Fem.v |
| C69 | Relaxation operator form | FemModel: relaxation blocks | assembly as a sum over elements, then the form of piecewise affine fields on each element | Props_Fem.v |
| C70 | Operator dispatch | FemModel: `get_dynamics`, `reinitialize_matrices` | case analysis over the property classes; which operators exist and which raise | Props_Fem.v |
| C71 | Virtual work of the assembled loads | ForcesModel + FemModel | exchange of sums; witness for linear loads | Props_Forces.v |
| C72 | All components of clamped nodes are prescribed | StatementModel + DirichletModel | evaluation of the slices; witness in 3D | Props_Statement.v |
| C73 | Piezoelectric coupling has one sign | StatementModel | evaluation of both statements | Props_Statement.v |
| C74 | Anchored static problems are uniquely solvable | StatementModel + FemKornProofs | zero strain energy means rigid on every triangle, and rigidity spreads over shared edges from the anchored nodes, so the form is definite; then C31 | Props_Statement.v |
| C75 | Energy of interior contact | ContactModel: interior loss | sum over nodes | Props_Contact.v |
| C76 | Damped normal compliance has a continuous potential | ContactModel: damped normal compliance | one-sided limits | Props_Contact.v |
| C77 | Contact weights are the measures of the faces | ContactModel: `length` | 2D length; witness in 3D; exceptions | Props_Contact.v |
| C78 | Schur solver minimises the full cost | SchurModel + ContactModel | C17 plus locality of the contact cost (C35); witness for interior laws | Props_Schur.v |
| C79 | The direct method renews its system | MethodModel + TimeModel | traces of the direct method along whole runs | Props_Run.v |
| C80 | Problems without a contact law can be optimised | RegistryModel/OptimisationModel constructors | evaluation of the constructors for every class | Props_Registry.v |
| C81 | Runs obey the balance law at every step | MethodModel + TimeModel + StatementModel + ForcesModel composed | invariant of the composed run: at each step the stored system is the current one (C30), eliminated (C11), solved (contract); induction over the march | Props_Run.v |
| C82 | Energy decays along a run | the same composition | C81 then the energy identity C32 | Props_Run.v |
| C83 | Products along a vertical line | ZerosModel: products, linear interpolation on triangles | C55 plus barycentric interpolation | Props_Zeros.v |
| C84 | Contact problems with prescribed values are solved as constrained problems | OptimisationModel, SchurModel, ContactModel, DirichletModel | the eliminated cost restricted to admissible vectors is the original cost plus a constant; convex minimisation C39; witnesses where faces touch prescribed dofs | Props_Constrained.v |
| C85 | Whole runs with contact solve the variational inequality of every step, dissipate energy, and do not depend on the solver | OptimisationModel + MethodModel + TimeModel: whole runs with contact | C84 at every step of the march; work identity and telescoping; monotonicity for uniqueness and for equality of the global and the Schur solver | Props_ContactRun.v |
| C86 | The keyword method selects the documented optimiser, and 'constrained' means impenetrability | OptimisationModel: names, budgets, constraint | string lemmas on prefixes and suffixes; evaluation of the constraint function in both layouts | Props_Optimiser.v |
| C87 | The states returned for a posed problem solve the problem posed | ProblemModel (construct, update_density, step_solver) on top of MeshBuildModel, NormalsModel, FemModel, ForcesModel, StatementModel, MethodModel, TimeModel | the built mesh is a renumbering (C01-C07), its operators are the bilinear forms (C21-C30), loads are work functionals (C31), the eliminated system is the balance for test fields that vanish at the fixed nodes (C11), whole runs follow C80; the defaults by a Hoare-style argument that every statement asks for the forces | Props_Problem.v |
| C88 | Posed problems have solvers, runs and exactly one solution | as C87 | Korn and Poincare arguments on the connected mesh (C39, C81) make the eliminated matrices positive definite, so sound solvers answer; a difference of two solutions tested with itself vanishes | Props_Problem.v |
| C89 | Posed problems with contact: variational inequality, existence, uniqueness, solver independence, energy | ProblemContactModel (contact_of, schur_step_solver, runs of the registered classes) on top of ProblemModel, OptimisationModel, ContactModel | C85 at the level of matrices, C87 for operators and loads: the inequality with matrices is the one with integrals; contact faces have contact ends, so they are apart from the fixed nodes; Korn (C88) for uniqueness | Props_ProblemContact.v |
| C90 | Times and positions of the returned states | step_solver, schur_step_solver, start_positions of ProblemModel with the driver loops of TimeModel | histories of the loops (C40, C41) with the arrays of a new solver; index arithmetic of the two blocks of coordinates | Props_ProblemState.v |
| C91 | The solids of the library are sound meshes | ZooModel (cube, ball, build_raw, solid_mesh): the tables as integers over a common denominator | decision procedures over integers, proved sound (ZooCheck): separating planes for all pairs of elements, counting of faces, spreading of fixed nodes from every boundary face; a cell of the cube at a time for the covering; then renumbering by Mesh keeps corners, so volumes and fixed nodes carry over; Korn argument on tetrahedra (SolidProofs); the faces of the three kinds by C06 with the averages written out (CentreProofs) | Props_Zoo.v |
| C92 | Stability of elastic solids | reinitialize_matrices of FemModel in 3D, StatementModel | the energy of the operator of the code is a sum of squares of gradient entries with weights la, mu and mu - la (SolidProofs); a strain-free displacement that vanishes at three corners of a tetrahedron vanishes; witnesses: a twist of the cube with integer gradients, energy 6 mu - 11/3 la, and the sliding of horizontal layers, both on the built and placed mesh | Props_Zoo.v |
| C93 | Imported meshes take over the cells of the file | ZooModel (mesh_file, imported, imported_mesh) | node order and relabelling of Mesh (C01, C05) with rows moved by one vector; determinants are translation invariant; concrete files for the refuted readings; the faces of the three kinds by C06 with the averages written out (CentreProofs) | Props_Zoo.v |
| C94 | Nodal stresses of the constitutive laws carry the wrong sign | StressModel (calculate_dx_dy, gradient, gradients, isotropic_stress, both laws, stress_norm, stress_x, stress_y, draw_stress) | one element by field; induction over the elements with the sums at every node as invariant; means are linear; work from the elasticity form (C23); memory from the relaxation form (C69) | Props_Stress.v |
| C95 | Limit points are plotted in batches | PlotModel (buffer, put, put_all, limit_points, plot_limit_points) | induction over the times; invariant: nothing was written behind column 1000 unless the buffer has passed it; counting for steady numbers of zeros | Props_Plot.v |
| C96 | What the drawer shows | PlotModel (plot_in_columns, set_axes_limits, draw_dirichlet, draw_mesh, draw_boundary) | induction over states, nodes, elements and edges; graph invariant: each pair of ends once | Props_Plot.v |
| C97 | The manufactured solution solves the posed boundary value problem | MmsModel (constants, solution, linear law, inner_forces, outer_forces, boundaries) | partial derivatives of quadratic functions by limits, uniqueness of derivatives, field | Props_Mms.v |
| C98 | Error measures of the manufactured example | MmsModel (mms_area, element_integral, total_l2_norm, add_at, node_l2_error) | element integrals by field; sums over elements; Cauchy-Schwarz by the discriminant; scattered sums as sums over the elements around a node | Props_Mms.v |
| C99 | Composite contact law | LawsModel (composite: integ, cumm, slope, const, the three functions with their loops) | induction over the loops locates the layer; on closed layers the potential is a quadratic function, one-sided derivatives are local; the sum at the start of a layer grows with its number | Props_Laws.v |
| C100 | Contact law of Makela et al. | LawsModel (MMLV99) | branches hold on closed intervals; one-sided derivatives; chain rule for logarithm and root | Props_Laws.v |
| C101 | Contact laws of the other examples | LawsModel (Tarzia, JureczkaOchal2019, JureczkaOchalBartman2023, BOST23) | branches and one-sided derivatives; case analysis; 1 + x <= exp x | Props_Laws.v |
| C102 | Divergence theorem of the derivative matrices | get_basic_matrices of FemModel; boundary_surfaces of MeshModel; the meshes of CrossModel and ZooModel | gradients of the hat functions are inner normals of the opposite faces divided by heights; the sum over elements is a sum over faces (grouped by the sorted face), inner faces cancel as their two elements are on different sides, boundary faces give the flux; elements that do not overlap have different sides: otherwise points near the middle of the face would be inside of both | Props_Gauss.v |
| C103 | Patch test | reinitialize_matrices of FemModel, ProblemModel with the drivers of TimeModel | C102 for every component against the constant stress; normals and centres of faces are carried from the mesh of the user to the built mesh; then uniqueness (C88) | Props_Gauss.v |
| C104 | Runs of heated and polarised bodies | MethodModel, ProblemModel, CoupledMethodModel with the coupled drivers of TimeModel | history of the alternation (C55) with both statements updated by the model; the systems are those of StatementValueProofs; weak forms of every operator; electrodes of the mesh of the user carried to the built mesh; definite systems by Korn and Poincare arguments | Props_Coupled.v |
| C105 | Where the passes of a coupled step lead to | CoupledSpec (turns, balanced) on the motions that C104 proves of the runs; energies and bounds in CoupledLimitSpec | both equations as systems on the free degrees of freedom; the coupling is dominated by the two energies (Cauchy-Schwarz element by element), so errors contract; the block system of the balanced step is definite because the coupling terms cancel; divergence by an explicit triangle, built by the model of the mesh and run to its end | Props_CoupledLimit.v |
| C106 | Refining the time step leads to the motion of the body in continuous time | ConvergenceSpec (motions in continuous time, Lipschitz bounds, distance of a state) on the motions that C87 proves of the runs | the error of a step satisfies the scheme up to a defect of the size h (mean value theorem for the work against the next error, Lipschitz loads absorb that a step takes the loads of its start); summed energy estimate with the mass matrix, or with the viscous matrix of a clamped body; uniqueness by running ever smaller steps; the order by an explicit solution of the steps of a free body | Props_Convergence.v |
| C107 | Refining the time step with contact leads to the motion of the body with contact | ConvergenceContactSpec (motions with contact in continuous time, tame laws) on the motions that C89 proves of the runs | the difference of the variational inequalities of the step and of the continuous motion tested with each other; the change of the cost of contact is bounded by the displacement error times the velocity error (tame law, quadrature over the faces), the rest as in C106; a Gronwall argument absorbs it; discrete motions exist by minimising the convex energy of a step, which gives uniqueness without any solver | Props_ConvergenceContact.v |
| C108 | Moving bodies with the class Direct | StaleSpec on MethodModel, ProblemModel, TimeModel | the constructor hands arrays of zeros to the statement and iterate() of Direct does nothing, so each step solves that system (C79); weak forms as in C87; uniqueness of the step makes all velocities equal; the falling body has an explicit solution | Props_Stale.v |
| C109 | Refining the time step of bodies with memory | ConvergenceMemorySpec (creep in continuous time, Lipschitz tensors, distance of a state) on the steps that C87 proves of the runs | the error of a step solves the scheme with a defect of the size h; the elastic matrix of a clamped body is definite, which bounds the displacement error by the summed errors before it, and a discrete Gronwall argument closes the estimate; uniqueness by ever smaller steps; the exponential by the linearity of the stresses, the geometric steps by the uniqueness of the scheme | Props_ConvergenceMemory.v |
| C110 | Step solvers that are accurate to a tolerance only | InexactSpec (residuals of at most tol, nodal forces of at most tol, balances with them, distance of two states) and `finished` = the step of Solver.solve after _solve_impl, on the runs of C87 | the residual of the eliminated system is carried to a nodal force on the free rows (the eliminated system and the full one agree there); the difference of two runs solves the scheme with these forces, an energy estimate with the definite mass (dynamic), viscosity (quasistatic) or elasticity (static) bounds it with a factor free of the step; near the continuous motion by the triangle inequality with C106 | Props_Inexact.v |
| C111 | The distance from a reference that examples/error_estimates.py reports | EstimateModel (compare and error_estimates, element by element; a masked value is None, the running sum is a number, an array of one entry or an empty array), EstimateSpec (corner sums, stretches and shear from any gradient that reproduces the differences of the nodal values; mean over the elements; neighbours) | linearity of calculate_dx_dy and uniqueness of the gradient on an element give the value; Minkowski for five components by the identity of Lagrange; zero means a turn about the centre on each element, two elements with a common edge and different centres then turn by nothing; the refutations compute with one triangle of different sizes | Props_Estimate.v |
| C112 | Results that the examples keep in files between two runs | ResultsModel (a directory is a function from names to contents; the loops of the examples with what they write, load and start from), ResultsSpec (values with and without files around a missing one, chains of solutions) | induction over the remaining values with the files written so far; the predecessor of the next missing value is computed from the list without repetitions; the wave runner by an invariant of all reachable directories (no name from 4 on); the survey method by method; the refutations by small directories | Props_Results.v |
| C113 | Partition into layers, labels and marks of the comparison of methods | SurveyModel (partition, plot_data and markers of plot_losses), SurveySpec (lists in geometric progression) | the points are start + first part * sum of powers, by induction; uniqueness from the sums of powers being positive; the marks by cases | Props_Survey.v |
| C114 | Clock of a run in floating point and the file names taken from it | ClockModel (binary64 numbers as integers on the grid 2^-1074, sums rounded to 53 bits, the clock, the file names), ClockSpec (binary64 numbers, the nearest of them) | rounding keeps multiples of the unit in the last place and is nearest, binade by binade; induction over the steps for the exact clock and for the bound of its drift; the division by the step from that bound; the files by induction over the output steps; 0.1 by computation, compared with the binary64 sums of the standard library | Props_Clock.v |
| C115 | Errors and rates of the convergence table | RateModel (`_relative_temperature_error`, `compute_rates`), RateSpec (integral of the square of a piecewise linear function, errors of a given order) | the loop adds the quadratic form of the mass matrix, which is the iterated integral over the reference triangle (FemQuadProofs); Cauchy-Schwarz by the discriminant; the rates by logarithms and induction over the rows | Props_Rate.v |
| C116 | States kept in files by the example of 2026, the panels, curves and table made of them | GridModel (`load_or_simulate`, `simulate`, `draw_temperature_grid`, `draw_convergence_plots`, `main` and the constants of BartmanSzwarc_Ochal_Tarzia_2026.py), GridSpec (plain numbers, honest files, least and greatest values, needed pairs) | names determine pairs because printed numbers have no underscore; every part of the run is a chain of uses of states, so the directory at the end is a fold over the list of uses; induction over this list for the simulations made | Props_Grid.v |

## Theorems and their assumptions

The output of `Print Assumptions`, abbreviated: `-` closed under the global context; `F`
`ClassicalDedekindReals.sig_forall_dec`; `N` `ClassicalDedekindReals.sig_not_dec`; `E`
`FunctionalExtensionality.functional_extensionality_dep`; `C` `Classical_Prop.classic`; `I`
`ClassicalEpsilon.constructive_indefinite_description`.  `F`, `N` and `E` are what the standard library
builds its real numbers on.  The Examples `C16_contract` and `C85_reliable` (existence of functions that meet
a solver contract) also use `I`.

| id | status | theorems (assumptions) |
|---|---|---|
| C01 | proved | `C01_remove_unconnected` (-) |
| C02 | proved | `C02_reorder_pass` (-) |
| C03 | proved | `C03_boundary_faces` (-) |
| C04 | proved | `C04_node_order` (-) |
| C05 | proved | `C05_dirichlet_slice` (-), `C05_block_counts` (-), `C05_block_counts_refuted` (-), `C05_free_nodes_count_refuted` (-) |
| C06 | proved | `C06_face_classes` (-) |
| C07 | proved | `C07_contact_normals_2d` (FNE), `C07_contact_normals_3d` (FNE), `C07_convex_2d` (FNE), `C07_convex_3d` (FNE), `C07_rows_2d` (FNE), `C07_rows_3d` (FNE), `C07_contact_normals_refuted` (FNE), `C07_unit_normals_refuted` (FNE) |
| C08 | proved | `C08_edges` (-), `C08_edges_matrix` (-) |
| C09 | proved | `C09_dof_slices_array` (-), `C09_dof_slices_slice` (-) |
| C10 | proved | `C10_boundary_slice` (-), `C10_boundary_slice_refuted` (-) |
| C11 | proved | `C11_elimination` (FE), `C11_mesh` (FE), `C11_mesh_numbered` (-), `C11_named_boundary` (-) |
| C12 | proved | `C12_symmetric` (FE), `C12_positive_definite` (FE), `C12_positive_semidefinite` (FE) |
| C13 | proved | `C13_solution` (-), `C13_exact_solution_kept` (FE) |
| C14 | proved | `C14_overlap` (FE), `C14_overlap_refuted` (FE) |
| C15 | proved | `C15_find_conditions` (-), `C15_gap_refuted` (F), `C15_without_condition` (-), `C15_numbered_without_condition` (-) |
| C16 | proved | `C16_reduced_solution` (FE), `C16_initialises` (FE) |
| C17 | proved | `C17_energy` (FE), `C17_minimisers` (FNE) |
| C18 | proved | `C18_merge` (-), `C18_truncate` (-), `C18_round_trip` (-), `C18_space_refuted` (F), `C18_space_truncate_refuted` (-), `C18_space_merge_refuted` (FE) |
| C19 | proved | `C19_same_matrix` (F), `C19_statements` (FE), `C19_ageing_refuted` (FE) |
| C20 | proved | `C20_gradients_2d` (FE), `C20_gradients_3d` (FE), `C20_sum_zero` (FE) |
| C21 | proved | `C21_entries_2d` (FE), `C21_entries_3d` (FE), `C21_rows_2d` (FE), `C21_rows_3d` (FE), `C21_forms_2d` (FE), `C21_forms_3d` (FE) |
| C22 | proved | `C22_mass_2d` (FE), `C22_mass_3d` (FE), `C22_quadrature_2d` (FE), `C22_quadrature_3d` (FE), `C22_integral_unique` (FNEC), `C22_built_2d` (FE), `C22_built_3d` (FE) |
| C23 | proved | `C23_elasticity_2d` (FE), `C23_viscosity_2d` (FE), `C23_gradients_exist` (FE) |
| C24 | proved | `C24_elasticity_3d` (FE), `C24_isotropic` (FE), `C24_viscosity_3d` (FE), `C24_rotation` (FE), `C24_elasticity_3d_refuted` (FE) |
| C25 | proved | `C25_density` (FE) |
| C26 | proved | `C26_q` (FE) |
| C27 | proved | `C27_total_force_2d` (FNE), `C27_total_force_3d` (FNE), `C27_constant_forces_2d` (FNE), `C27_constant_forces_3d` (FNE) |
| C28 | proved | `C28_surface_weights` (FNE), `C28_mesh_faces` (-) |
| C29 | proved | `C29_stack` (-), `C29_unstack_stack` (-), `C29_stack_unstack` (-), `C29_unstack_total` (-) |
| C30 | proved | `C30_balance` (FE) |
| C31 | proved | `C31_unique` (FE), `C31_dynamic_2d` (FE), `C31_wave` (FE), `C31_temperature_2d` (FE), `C31_temperature_3d` (FE) |
| C32 | proved | `C32_balance` (FE), `C32_dynamic_run` (FE), `C32_dynamic_2d` (FE), `C32_wave_run` (FE) |
| C33 | proved | `C33_minimiser_is_solution` (FNE), `C33_zero_law` (FNE), `C33_direct` (FNE), `C33_direct_zero_law` (FNE) |
| C34 | proved | `C34_frame` (FE), `C34_repeat` (FE) |
| C35 | proved | `C35_value` (FNE), `C35_loss` (FNE), `C35_local` (FNE), `C35_nonneg` (FNE), `C35_no_faces` (F) |
| C36 | proved | `C36_nonneg` (FE), `C36_convex` (FE), `C36_subgradient` (FE), `C36_derivative` (FE), `C36_convex_law` (FE) |
| C37 | proved | `C37_direct_forces` (FNE), `C37_gradient_forces` (FNE), `C37_balance` (FNE), `C37_cost_derivative` (FNE), `C37_resultant` (FNE), `C37_gradient_refuted` (FNE), `C37_same_solution_refuted` (FNE) |
| C38 | proved | `C38_actual_derivative` (FE), `C38_refuted` (FE), `C38_no_resistance` (FNE) |
| C39 | proved | `C39_exactly_one` (FNEC), `C39_slope` (FNEC), `C39_inequality` (FNE) |
| C40 | proved | `C40_dynamic` (FE), `C40_wave` (FE), `C40_relaxation` (FE), `C40_dynamic_ends` (FE), `C40_poisson` (F), `C40_first_output_refuted` (FE) |
| C41 | proved | `C41_dynamic` (FE), `C41_wave` (FE), `C41_relaxation` (FE), `C41_coupled` (FNE), `C41_decreasing_refuted` (FE) |
| C42 | proved | `C42_resumed` (FE), `C42_products_refuted` (FE) |
| C43 | proved | `C43_wave` (FE), `C43_static` (FE), `C43_poisson` (F), `C43_dynamic_refuted` (FE), `C43_relaxation_refuted` (FE), `C43_coupled_refuted` (FNE), `C43_coupled_times` (FNE) |
| C44 | proved | `C44_snapshots` (FE), `C44_dynamic` (FE), `C44_relaxation` (FE), `C44_wave` (FE), `C44_within` (FE), `C44_poisson` (F), `C44_poisson_snapshot` (F), `C44_resumed_refuted` (FE) |
| C45 | proved | `C45_ends` (FNE), `C45_loop` (FNE), `C45_total` (FNE), `C41_coupled` (FNE) |
| C46 | proved | `C46_first_read` (F), `C46_later_reads` (F), `C46_setters` (FE), `C46_refuted` (FE) |
| C47 | proved | `C47_written` (-), `C47_failed` (-), `C47_refuted` (-) |
| C48 | proved | `C48_cache` (-), `C48_new_time` (-), `C48_reused` (FNE), `C48_clear_refuted` (FNE), `C48_replaced_refuted` (-) |
| C49 | proved | `C49_coherent` (FE), `C49_entrywise` (FE), `C49_reinitialize_refuted` (FE) |
| C50 | proved | `C50_register` (-), `C50_never_overwritten` (-), `C50_resolves` (-), `C50_origin` (-), `C50_star_refuted` (-), `C50_case` (-), `C50_lookup` (-), `C50_missing` (-), `C50_reported` (-), `C50_order` (-), `C50_isinstance` (-), `C50_refresh` (-), `C50_refresh_poisson_refuted` (-), `C50_documented_refuted` (-), `C50_direct_quasistatic_refuted` (-) |
| C51 | proved | `C51_handed_over` (FE), `C51_relaxation_refuted` (FE) |
| C52 | proved | `C52_quasistatic_coupled` (FE), `C52_quasistatic_statement` (-), `C52_dynamic_refuted` (FE), `C52_dynamic_coupling_unused` (-) |
| C53 | proved | `C53_in_place_refuted` (F) |
| C54 | proved | `C54_range` (FE), `C54_record` (FE), `C54_displacement` (FE), `C54_velocity` (FE), `C54_penetration` (FE) |
| C55 | proved | `C55_samples_exist` (FE), `C55_exact` (FE), `C55_zeros` (FE), `C55_no_step` (FE), `C55_last_refuted` (FE), `C55_double_refuted` (FE) |
| C56 | proved | `C56_placed` (FE), `C56_unplaced` (-), `C56_mismatch` (FE), `C56_one_number` (FE) |
| C57 | proved | `C57_cells` (FE), `C57_grid` (FE), `C57_extent` (FE), `C57_perimeter_refuted` (FNE), `C57_small_refuted` (FE), `C57_zero_bound` (FE), `C57_zero_size` (FE), `C57_mesh_total` (FE), `C57_mesh` (FE), `C57_faces` (FE), `C57_definite` (FE), `C57_stable` (FE) |
| C58 | proved | `C58_value` (FNE), `C58_orientation` (FE), `C58_refuted` (FNE) |
| C59 | proved | `C59_power` (FE), `C59_energy` (FE) |
| C60 | proved | `C60_velocity_driven` (FE), `C60_coupled` (FNE) |
| C61 | proved | `C61_build_total` (-), `C61_build_total_refuted` (-) |
| C62 | proved | `C62_mechanical_names` (-), `C62_numbered_mechanical_refuted` (F) |
| C63 | proved | `C63_construction_2d` (FNE), `C63_construction_3d` (FNE) |
| C64 | proved | `C64_kinetic_2d` (FE), `C64_kinetic_3d` (FE) |
| C65 | proved | `C65_conductivity_2d` (FE), `C65_permittivity_2d` (FE), `C65_conductivity_3d` (FE) |
| C66 | proved | `C66_poisson_2d` (FE), `C66_poisson_3d` (FE) |
| C67 | proved | `C67_thermal_expansion_2d` (FE), `C67_thermal_expansion_3d` (FE) |
| C68 | proved | `C68_piezoelectricity` (FE) |
| C69 | proved | `C69_relaxation` (FE) |
| C70 | proved | `C70_dispatch_2d` (FE), `C70_dispatch_3d` (FE) |
| C71 | proved | `C71_constant_work_2d` (FNE), `C71_constant_work_3d` (FNE), `C71_linear_work_refuted` (FE) |
| C72 | proved | `C72_components` (-), `C72_space_refuted` (F) |
| C73 | proved | `C73_no_inertia` (FE), `C73_piezo_sign_refuted` (FE) |
| C74 | proved | `C74_static_2d` (FE), `C74_relaxation_2d` (FE), `C74_quasistatic_2d` (FE), `C74_poisson` (FE), `C74_potential` (FE) |
| C75 | proved | `C75_value` (FE), `C75_minimiser` (FE) |
| C76 | proved | `C76_jump` (FE), `C76_continuous_refuted` (FE) |
| C77 | proved | `C77_plane` (FNE), `C77_space_refuted` (FNE), `C77_vertical_faces` (FNE), `C77_direct_raises` (FNE), `C77_gradient_raises` (FNE) |
| C78 | proved | `C78_exact` (FNE), `C78_driving` (F), `C78_interior_refuted` (FE) |
| C79 | proved | `C79_direct_refuted` (FE), `C79_dynamic_never_renewed` (FE), `C79_wave_never_renewed` (FE), `C79_same_velocity` (FE) |
| C80 | proved | `C80_law_refuted` (-), `C80_poisson` (-) |
| C81 | proved | `C81_setup` (FE), `C81_renews` (FE), `C81_dynamic` (FE), `C81_wave` (FE), `C81_relaxation` (FE), `C81_static` (FE), `C81_direct` (FE), `C81_runs` (FE), `C81_stable_runs` (FE), `C81_stable_wave` (FE), `C81_stable_relaxation` (FE), `C81_elimination` (FE), `C81_unique` (FE) |
| C82 | proved | `C82_work` (FE), `C82_dynamic` (FE), `C82_wave` (FE), `C82_dynamic_2d` (FE), `C82_wave_2d` (FE) |
| C83 | proved | `C83_limit_points` (FE), `C83_space` (FE), `C83_intersection` (FE), `C83_affine` (FE) |
| C84 | proved | `C84_apart` (FNE), `C84_exactly_one` (FNEC), `C84_inequality` (FNE), `C84_schur` (FNE), `C84_schur_step` (FNE), `C84_touching_refuted` (FNE), `C84_corner_refuted` (FNE) |
| C85 | proved | `C85_forces` (FE), `C85_global` (FNEC), `C85_schur` (FNEC), `C85_global_static` (FNEC), `C85_schur_static` (FNEC), `C85_global_runs` (FNEC), `C85_schur_runs` (FNEC), `C85_same` (FNEC), `C85_work` (FNE), `C85_decay` (FNE), `C85_unique` (FNE) |
| C86 | proved | `C86_route` (-), `C86_minimizer` (-), `C86_case` (-), `C86_case_refuted` (-), `C86_suffix` (-), `C86_budget` (-), `C86_schur_budget` (-), `C86_budget_refuted` (F), `C86_constraint` (FE), `C86_no_contact` (-), `C86_layouts` (F), `C86_normal` (FE), `C86_normal_refuted` (FE) |
| C87 | proved | `C87_static` (FNEC), `C87_static_direct` (FNEC), `C87_poisson` (FNEC), `C87_dynamic` (FNEC), `C87_quasistatic` (FNEC), `C87_wave` (FNEC), `C87_relaxation` (FNEC), `C87_uniform` (FE), `C87_varying_refuted` (FE), `C87_default_refuted` (FNE), `C87_default_static` (FNE), `C87_heat_refuted` (FNE) |
| C88 | proved | `C88_construct` (FNE), `C88_update` (FNE), `C88_static` (FNEC), `C88_static_direct` (FNEC), `C88_poisson` (FNEC), `C88_dynamic` (FNEC), `C88_quasistatic` (FNEC), `C88_wave` (FNEC), `C88_relaxation` (FNEC), `C88_direct_definite` (FNE) |
| C89 | proved | `C89_global` (FNEC), `C89_schur` (FNEC), `C89_global_rest` (FNEC), `C89_schur_rest` (FNEC), `C89_global_total` (FNEC), `C89_schur_total` (FNEC), `C89_global_rest_total` (FNEC), `C89_schur_rest_total` (FNEC), `C89_unique` (FNE), `C89_unique_rest` (FNE), `C89_same` (FNEC), `C89_same_rest` (FNEC), `C89_work` (FNEC), `C89_decay` (FNEC), `C89_normals` (FNE), `C89_outward` (FNE), `C89_classes` (-), `C89_singular` (FNECI) |
| C90 | proved | `C90_solver` (FNE), `C90_schur_solver` (FNE), `C90_dynamic` (FE), `C90_relaxation` (FE), `C90_static` (FE), `C90_wave` (FE), `C90_start_refuted` (FE) |
| C91 | proved | `C91_cube` (FE), `C91_ball` (FE), `C91_placed` (FE), `C91_made` (FE), `C91_mesh` (FE), `C91_lowest` (FE), `C91_faces` (FE), `C91_definite` (FE) |
| C92 | proved | `C92_semidefinite` (FE), `C92_static` (FE), `C92_quasistatic` (FE), `C92_dynamic` (FE), `C92_solid` (FE), `C92_solid_dynamic` (FE), `C92_bottomless_refuted` (FEC), `C92_sliding_refuted` (FE) |
| C93 | proved | `C93_solid` (FE), `C93_solid_made` (FE), `C93_plane` (FE), `C93_plane_made` (FE), `C93_solid_faces` (FE), `C93_plane_faces` (FE), `C93_unknown` (FE), `C93_move` (FE), `C93_position` (FE), `C93_position_refuted` (FE), `C93_area_refuted` (FE) |
| C94 | proved | `C94_gradient` (FE), `C94_flat` (FE), `C94_viscoelastic` (FE), `C94_relaxation` (FE), `C94_fields` (FE), `C94_affine` (FE), `C94_rigid` (FE), `C94_work` (FE), `C94_sign_refuted` (FE), `C94_norm` (FNE), `C94_arrows` (FE), `C94_memory_refuted` (FE) |
| C95 | proved | `C95_drawn` (F), `C95_few` (F), `C95_skipped` (F), `C95_steady` (F), `C95_spurious_refuted` (FE), `C95_overrun_refuted` (FE) |
| C96 | proved | `C96_columns` (-), `C96_columns_refuted` (-), `C96_window` (FE), `C96_window_refuted` (FE), `C96_mesh` (-), `C96_mesh_solid` (-), `C96_boundary` (-), `C96_dirichlet_refuted` (FE), `C96_free_refuted` (F) |
| C97 | proved | `C97_smooth` (FE), `C97_equilibrium` (FE), `C97_clamped` (FE), `C97_right` (FE), `C97_top` (FE), `C97_corner` (FE), `C97_unloaded` (FE), `C97_strip_refuted` (FE), `C97_contact` (FE), `C97_matched` (FE), `C97_law` (FE) |
| C98 | proved | `C98_total` (FNE), `C98_zero` (FNE), `C98_symmetric` (FNE), `C98_triangle` (FNE), `C98_offset` (FNE), `C98_node` (FNE), `C98_unused` (FNE), `C98_scaled_refuted` (FNE) |
| C99 | proved | `C99_potential` (FE), `C99_traction` (FE), `C99_subderivative` (FE), `C99_second` (FE), `C99_sum` (FE), `C99_drop_refuted` (FE), `C99_none` (-), `C99_single` (FE) |
| C100 | proved | `C100_right` (FE), `C100_corners` (FE), `C100_opposite` (FE), `C100_sign_refuted` (FE), `C100_sum` (FE), `C100_dip_refuted` (FE), `C100_tangential` (FNEC), `C100_length` (FNE), `C100_rest` (FNE) |
| C101 | proved | `C101_twice` (FNEC), `C101_half_refuted` (FNEC), `C101_kink` (FNEC), `C101_jo_normal` (FE), `C101_jo_friction` (FE), `C101_job_normal` (FE), `C101_job_friction` (FE), `C101_job_tangential` (FNEC), `C101_bost` (FNE), `C101_bost_bounded` (FNEC), `C101_bost_convex_refuted` (FNEC) |
| C102 | proved | `C102_plane` (FNE), `C102_solid` (FNE), `C102_matrix_plane` (FNE), `C102_matrix_solid` (FNE), `C102_apart_plane` (FE), `C102_apart_solid` (FE), `C102_turned` (FE), `C102_cross` (FNE), `C102_grid` (FNE), `C102_solid_file` (FNE), `C102_plane_file` (FNE), `C102_folded_refuted` (FNE) |
| C103 | proved | `C103_plane` (FNE), `C103_solid` (FNE), `C103_static` (FNEC), `C103_direct` (FNEC), `C103_closed` (FNEC), `C103_poisson` (FNEC) |
| C104 | proved | `C104_heated` (FNEC), `C104_heated_direct` (FNEC), `C104_polarised` (FNEC), `C104_sensed` (FNEC), `C104_heated_runs` (FNEC), `C104_heated_direct_runs` (FNEC), `C104_polarised_runs` (FNEC), `C104_sensed_runs` (FNEC), `C104_sensed_direct` (FNEC), `C104_sensed_direct_runs` (FNEC), `C104_residual` (FNE) |
| C105 | proved | `C105_heated_step` (FNEC), `C105_heated_passes` (FNE), `C105_heated_near` (FNE), `C105_heated_unique` (FNE), `C105_polarised_step` (FNEC), `C105_polarised_passes` (FNE), `C105_polarised_near` (FNE), `C105_polarised_unique` (FNE), `C105_sensed_exact` (FNE), `C105_sensed_passes` (FNE), `C105_sensed_unique` (FNE), `C105_heated_classes` (FNEC), `C105_polarised_classes` (FNEC), `C105_sensed_classes` (FNEC), `C105_isotropic` (FE), `C105_strong_refuted` (FNEC) |
| C106 | proved | `C106_dynamic` (FNEC), `C106_quasistatic` (FNEC), `C106_wave` (FNEC), `C106_motion_unique` (FNEC), `C106_flow_unique` (FNEC), `C106_swing_unique` (FNEC), `C106_order_refuted` (FNEC) |
| C107 | proved | `C107_dynamic` (FNEC), `C107_quasistatic` (FNEC), `C107_motion_unique` (FNEC), `C107_flow_unique` (FNEC), `C107_steps_exist` (FNEC), `C107_slope_tame` (FE), `C107_const_tame` (FE), `C107_damped_refuted` (FE) |
| C108 | proved | `C108_direct` (FNEC), `C108_direct_runs` (FNE), `C108_same` (FNE), `C108_converges_refuted` (FNEC) |
| C109 | proved | `C109_relaxation` (FNEC), `C109_unique` (FNEC), `C109_exponential` (FNE), `C109_decays` (FNEC), `C109_geometric` (FNEC) |
| C110 | proved | `C110_dynamic` (FNEC), `C110_quasistatic` (FNEC), `C110_wave` (FNEC), `C110_static` (FNEC), `C110_dynamic_total` (FNE), `C110_quasistatic_total` (FNE), `C110_wave_total` (FNE), `C110_static_total` (FNE), `C110_dynamic_alike` (FNEC), `C110_quasistatic_alike` (FNEC), `C110_wave_alike` (FNEC), `C110_static_near` (FNEC), `C110_dynamic_near` (FNEC), `C110_quasistatic_near` (FNEC), `C110_wave_near` (FNEC) |
| C111 | proved | `C111_value` (FNE), `C111_triangle` (FNE), `C111_same` (FNE), `C111_zero` (FNE), `C111_alone_refuted` (FNE), `C111_constant` (FNE), `C111_norm_refuted` (FNE), `C111_outside` (FNE), `C111_first` (FNE), `C111_later` (FNE) |
| C112 | proved | `C112_forced` (-), `C112_resumed` (-), `C112_repeated` (-), `C112_own_refuted` (-), `C112_again` (-), `C112_total` (-), `C112_stale_refuted` (-), `C112_survey` (-), `C112_survey_resumed` (-), `C112_survey_nothing` (-), `C112_losses_refuted` (-), `C112_names_refuted` (-) |
| C113 | proved | `C113_partition` (FE), `C113_only` (FE), `C113_none` (FE), `C113_alternating` (FE), `C113_labels` (-), `C113_unknown` (-), `C113_script` (-), `C113_least` (FE), `C113_best` (FE), `C113_near` (FE), `C113_positive` (FE), `C113_close_refuted` (FE) |
| C114 | proved | `C114_rounding` (-), `C114_dyadic` (-), `C114_drift` (-), `C114_near` (-), `C114_advances` (-), `C114_stands` (-), `C114_names_refuted` (-), `C114_kept` (-), `C114_kept_refuted` (-) |
| C115 | proved | `C115_value` (FNE), `C115_zero` (FNE), `C115_triangle` (FNE), `C115_scales` (FNE), `C115_relative_refuted` (FNE), `C115_meaning` (FNEC), `C115_rates` (FNEC), `C115_dash` (FNEC), `C115_nodes` (FNE), `C115_wrong` (FNE), `C115_equal` (FNEC) |
| C116 | proved | `C116_names` (-), `C116_shown` (FE), `C116_left` (FE), `C116_once` (FE), `C116_again` (FE), `C116_forced` (FE), `C116_letters` (FE), `C116_values` (FE), `C116_curve` (FE), `C116_sizes` (FE), `C116_directory_refuted` (FE), `C116_unwritten_refuted` (FE) |

## Trusted base

* The Coq kernel 8.16.1 (including `vm_compute`, used for closed computations in Examples and witnesses).
* The standard library axioms `F`, `N`, `E`, `C`, `I` above and no others.  There is no axiom, parameter,
  admitted proof, functor, module type or plugin in this development.
* The transcription of Python and numpy into Gallina.  It is checked by reading only: every definition cites
  the lines it stands for, so that it can be compared with the source.
* For numeric theorems: that real arithmetic is an acceptable idealisation of doubles.

## Which code is modelled

| source | model | left out |
|---|---|---|
| mesh/mesh.py, boundaries_factory.py, boundaries.py, boundary.py, boundaries_description.py | MeshModel, MeshBuildModel, NormalsModel, DofModel | numba compilation; plotting helpers |
| mesh/mesh_builders.py, zoo/cross_for_tests.py, zoo/raw_mesh.py | CrossModel | - |
| mesh/zoo/cube.py, ball.py, raw_mesh.py, properties/mesh_description.py:19-36 | ZooModel | reading the file (meshio) |
| dynamics/factory/*, dynamics/dynamics.py | FemModel | numba and scipy sparse storage (dense functions instead) |
| dynamics/statement.py, struct/stiffness_matrix.py | StatementModel, DirichletModel | broadcasting of arrays of length one |
| dynamics/contact/* | ContactModel | the docstrings; compiled signatures |
| scene/body_forces.py, helpers/nph.py | ForcesModel, ContactModel, CrossModel | - |
| solvers/solver.py, direct.py, optimization/* | MethodModel, OptimisationModel, SchurModel, RegistryModel | tolerance and timing of the minimisers; the minimisers themselves |
| solvers/solver_methods.py | ContactModel | numba |
| solvers/_solvers.py, scenarios/problems.py | RegistryModel; problems.py:47-57, 91-97 (default sources) ProblemModel | other default values |
| simulations/problem_solver.py | TimeModel, RegistryModel, MethodModel; 48-87, 109-148, 341-345 ProblemModel, ProblemContactModel; 191-262, 480-668 with their statements CoupledMethodModel | printing; measured times |
| state/state.py, state/products/* | StateModel, ZerosModel | plotting of products |
| examples/utils.py:39-146, drawer.py:265-282 | StressModel | utils.py:1-37 (scipy interpolation) |
| examples/error_estimates.py:14-119 | EstimateModel | reading the pickled states; the triangulation and interpolation of matplotlib are quantified over; the drawing below line 119 |
| examples/BartmanSzwarc_Ochal_Sofonea_Tarzia_2025.py:113-180, BOSK_2024.py:65-112, Makela_et_al_1998.py:146-217, BartmanSzwarc_Bagirrov_Ochal_2025.py:207-295 | ResultsModel (which results are computed, written and read) | setups, drawing |
| examples/Jureczka_Ochal_Bartman_2023.py:126-187, Bartman_Ochal_Sofonea_2024.py:153-225 (files of states), the clock of simulations/problem_solver.py:157 in binary64 | ClockModel | overflow; the files of products and extrema; setups, drawing |
| examples/BartmanSzwarc_Ochal_Tarzia_2026.py:139-191, 402-412 | RateModel | the interpolation of scipy (any functions), the format of the table |
| examples/BartmanSzwarc_Ochal_Tarzia_2026.py:21-55, 113-125, 194-398, 461-537 | GridModel | the simulation itself (C66, C87 treat Poisson problems), drawing, labels |
| examples/BartmanSzwarc_Bagirrov_Ochal_2025.py:460-474, Makela_et_al_1998.py:243-307 | SurveyModel | the drawing |
| examples/example_manufactured_solution.py:33-203 | MmsModel | main (runs and draws) |
| contact laws of examples/ (composite, MMLV99, Tarzia, JureczkaOchal2019, JureczkaOchalBartman2023, BOST23) | LawsModel | the rest of these examples (setups, runs, plots) |
| plotting/membrane.py:14-65, drawer.py:113-141, 166-171, 205-263, 303-306 | PlotModel | the rest of plotting |

Not modelled, and why:

* `mesh/zoo/rectangle.py`, `barboteu_2008.py`, `barochsoftar_2024.py`, `jurochbar_2023.py`,
  `sofochbar_2023.py`, `pygmsh/*`: the mesh comes from an external generator (dmsh, pygmsh); the mesh theorems
  hold for every generated mesh.
* `plotting/*` beyond the functions above: styles, colours, calls of matplotlib.
* `properties/*` (except imported meshes), `struct/types.py`, `helpers/config.py`: data classes, type aliases, paths.
* `examples/` (except the contact laws, example_manufactured_solution.py, error_estimates.py, utils.py:39-146 and the handling of files in the table above), `tests/`.

