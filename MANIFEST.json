{
 "claims": [
  {
   "property": "C01",
   "status": "proved",
   "theorems": [
    "C01_remove_unconnected"
   ],
   "note": "for any point type"
  },
  {
   "property": "C02",
   "status": "proved",
   "theorems": [
    "C02_reorder_pass"
   ],
   "note": "single pass; also states where the selected nodes go"
  },
  {
   "property": "C03",
   "status": "proved",
   "theorems": [
    "C03_boundary_faces"
   ],
   "note": "any simplex width"
  },
  {
   "property": "C04",
   "status": "proved",
   "theorems": [
    "C04_node_order"
   ],
   "note": "whole Mesh construction, in terms of raw input indices"
  },
  {
   "property": "C05",
   "status": "proved",
   "theorems": [
    "C05_dirichlet_slice",
    "C05_block_counts",
    "C05_block_counts_refuted",
    "C05_free_nodes_count_refuted"
   ],
   "note": "positive part under disjointness; witnesses that it is needed; free_nodes_count subtracts Dirichlet twice"
  },
  {
   "property": "C06",
   "status": "proved",
   "theorems": [
    "C06_face_classes"
   ],
   "note": "mean is an arbitrary averaging function"
  },
  {
   "property": "C08",
   "status": "proved",
   "theorems": [
    "C08_edges",
    "C08_edges_matrix"
   ],
   "note": ""
  },
  {
   "property": "C09",
   "status": "proved",
   "theorems": [
    "C09_dof_slices_array",
    "C09_dof_slices_slice"
   ],
   "note": "sortedness is not even needed for coverage"
  },
  {
   "property": "C10",
   "status": "proved",
   "theorems": [
    "C10_boundary_slice",
    "C10_boundary_slice_refuted"
   ],
   "note": "true without Dirichlet nodes, refuted with them"
  },
  {
   "property": "C61",
   "status": "proved",
   "theorems": [
    "C61_build_total",
    "C61_build_total_refuted"
   ],
   "note": ""
  },
  {
   "property": "C11",
   "status": "proved",
   "theorems": [
    "C11_elimination",
    "C11_mesh",
    "C11_mesh_numbered",
    "C11_named_boundary"
   ],
   "note": "generic loop theorem plus end-to-end versions for built meshes; agreeing overlaps are allowed"
  },
  {
   "property": "C12",
   "status": "proved",
   "theorems": [
    "C12_symmetric",
    "C12_positive_definite",
    "C12_positive_semidefinite"
   ],
   "note": ""
  },
  {
   "property": "C13",
   "status": "proved",
   "theorems": [
    "C13_solution",
    "C13_exact_solution_kept"
   ],
   "note": "inner solver is an arbitrary function"
  },
  {
   "property": "C14",
   "status": "proved",
   "theorems": [
    "C14_overlap",
    "C14_overlap_refuted"
   ],
   "note": "the property is false; exact meaning proved, witness on a built mesh"
  },
  {
   "property": "C15",
   "status": "proved",
   "theorems": [
    "C15_find_conditions",
    "C15_gap_refuted",
    "C15_without_condition",
    "C15_numbered_without_condition"
   ],
   "note": "includes termination of the while loop"
  },
  {
   "property": "C62",
   "status": "proved",
   "theorems": [
    "C62_mechanical_names",
    "C62_numbered_mechanical_refuted"
   ],
   "note": "false: refuted for every mesh"
  },
  {
   "property": "C07",
   "status": "proved",
   "theorems": [
    "C07_contact_normals_2d",
    "C07_contact_normals_3d",
    "C07_convex_2d",
    "C07_convex_3d",
    "C07_rows_2d",
    "C07_rows_3d",
    "C07_contact_normals_refuted",
    "C07_unit_normals_refuted"
   ],
   "note": "true when the contact faces come first in the face order; for convex bodies outward or zero; refuted in general (inward and zero normals)"
  },
  {
   "property": "C63",
   "status": "proved",
   "theorems": [
    "C63_construction_2d",
    "C63_construction_3d"
   ],
   "note": ""
  },
  {
   "property": "C20",
   "status": "proved",
   "theorems": [
    "C20_gradients_2d",
    "C20_gradients_3d",
    "C20_sum_zero"
   ],
   "note": ""
  },
  {
   "property": "C21",
   "status": "proved",
   "theorems": [
    "C21_entries_2d",
    "C21_entries_3d",
    "C21_rows_2d",
    "C21_rows_3d",
    "C21_forms_2d",
    "C21_forms_3d"
   ],
   "note": "entries, row sums, transposes and the bilinear forms"
  },
  {
   "property": "C22",
   "status": "proved",
   "theorems": [
    "C22_mass_2d",
    "C22_mass_3d",
    "C22_quadrature_2d",
    "C22_quadrature_3d",
    "C22_integral_unique",
    "C22_built_2d",
    "C22_built_3d"
   ],
   "note": "also end to end from the raw mesh"
  },
  {
   "property": "C23",
   "status": "proved",
   "theorems": [
    "C23_elasticity_2d",
    "C23_viscosity_2d",
    "C23_gradients_exist"
   ],
   "note": "includes density weighting"
  },
  {
   "property": "C24",
   "status": "proved",
   "theorems": [
    "C24_elasticity_3d",
    "C24_isotropic",
    "C24_viscosity_3d",
    "C24_rotation",
    "C24_elasticity_3d_refuted"
   ],
   "note": "proved for mu = lambda; refuted otherwise, with the exact form of the operator for all mu, lambda"
  },
  {
   "property": "C25",
   "status": "proved",
   "theorems": [
    "C25_density"
   ],
   "note": "2D; in 3D a density raises (C70)"
  },
  {
   "property": "C26",
   "status": "proved",
   "theorems": [
    "C26_q"
   ],
   "note": ""
  },
  {
   "property": "C64",
   "status": "proved",
   "theorems": [
    "C64_kinetic_2d",
    "C64_kinetic_3d"
   ],
   "note": ""
  },
  {
   "property": "C65",
   "status": "proved",
   "theorems": [
    "C65_conductivity_2d",
    "C65_permittivity_2d",
    "C65_conductivity_3d"
   ],
   "note": ""
  },
  {
   "property": "C66",
   "status": "proved",
   "theorems": [
    "C66_poisson_2d",
    "C66_poisson_3d"
   ],
   "note": ""
  },
  {
   "property": "C67",
   "status": "proved",
   "theorems": [
    "C67_thermal_expansion_2d",
    "C67_thermal_expansion_3d"
   ],
   "note": ""
  },
  {
   "property": "C68",
   "status": "proved",
   "theorems": [
    "C68_piezoelectricity"
   ],
   "note": ""
  },
  {
   "property": "C69",
   "status": "proved",
   "theorems": [
    "C69_relaxation"
   ],
   "note": ""
  },
  {
   "property": "C70",
   "status": "proved",
   "theorems": [
    "C70_dispatch_2d",
    "C70_dispatch_3d"
   ],
   "note": ""
  },
  {
   "property": "C27",
   "status": "proved",
   "theorems": [
    "C27_total_force_2d",
    "C27_total_force_3d",
    "C27_constant_forces_2d",
    "C27_constant_forces_3d"
   ],
   "note": ""
  },
  {
   "property": "C28",
   "status": "proved",
   "theorems": [
    "C28_surface_weights",
    "C28_mesh_faces"
   ],
   "note": ""
  },
  {
   "property": "C29",
   "status": "proved",
   "theorems": [
    "C29_stack",
    "C29_unstack_stack",
    "C29_stack_unstack",
    "C29_unstack_total"
   ],
   "note": ""
  },
  {
   "property": "C48",
   "status": "proved",
   "theorems": [
    "C48_cache",
    "C48_new_time",
    "C48_reused",
    "C48_clear_refuted",
    "C48_replaced_refuted"
   ],
   "note": "the refuted theorems are witnesses for the negative part of the property"
  },
  {
   "property": "C71",
   "status": "proved",
   "theorems": [
    "C71_constant_work_2d",
    "C71_constant_work_3d",
    "C71_linear_work_refuted"
   ],
   "note": "the refuted theorem is the witness for the negative part"
  },
  {
   "property": "C30",
   "status": "proved",
   "theorems": [
    "C30_balance"
   ],
   "note": "all eleven statement classes over an explicit heap of arrays; the stored system is equivalent to the balance law"
  },
  {
   "property": "C31",
   "status": "proved",
   "theorems": [
    "C31_unique",
    "C31_dynamic_2d",
    "C31_wave",
    "C31_temperature_2d",
    "C31_temperature_3d"
   ],
   "note": "existence and uniqueness; the 3D elastic operator is excluded because of C24 (the abstract theorem covers it when semidefinite)"
  },
  {
   "property": "C32",
   "status": "proved",
   "theorems": [
    "C32_balance",
    "C32_dynamic_run",
    "C32_dynamic_2d",
    "C32_wave_run"
   ],
   "note": "exact balance with load and dissipation, decay for any number of steps"
  },
  {
   "property": "C34",
   "status": "proved",
   "theorems": [
    "C34_frame",
    "C34_repeat"
   ],
   "note": "frame holds for failing updates too"
  },
  {
   "property": "C49",
   "status": "proved",
   "theorems": [
    "C49_coherent",
    "C49_entrywise",
    "C49_reinitialize_refuted"
   ],
   "note": "coherent within one body; stale after reinitialize_matrices"
  },
  {
   "property": "C53",
   "status": "proved",
   "theorems": [
    "C53_in_place_refuted"
   ],
   "note": "property is false: the operators return None"
  },
  {
   "property": "C59",
   "status": "proved",
   "theorems": [
    "C59_power",
    "C59_energy"
   ],
   "note": "at a fixed point of the coupled step"
  },
  {
   "property": "C72",
   "status": "proved",
   "theorems": [
    "C72_components",
    "C72_space_refuted"
   ],
   "note": "positive characterisation plus 3D defect"
  },
  {
   "property": "C73",
   "status": "proved",
   "theorems": [
    "C73_no_inertia",
    "C73_piezo_sign_refuted"
   ],
   "note": "opposite signs"
  },
  {
   "property": "C74",
   "status": "proved",
   "theorems": [
    "C74_static_2d",
    "C74_relaxation_2d",
    "C74_quasistatic_2d",
    "C74_poisson",
    "C74_potential"
   ],
   "note": "stability hypothesis of C31_unique for the static kinds"
  },
  {
   "property": "C33",
   "status": "proved",
   "theorems": [
    "C33_minimiser_is_solution",
    "C33_zero_law",
    "C33_direct",
    "C33_direct_zero_law"
   ],
   "note": "minimisers of the cost and zeros of the direct equation are the solutions of the linear system (uniqueness: C34/C39)"
  },
  {
   "property": "C35",
   "status": "proved",
   "theorems": [
    "C35_value",
    "C35_loss",
    "C35_local",
    "C35_nonneg",
    "C35_no_faces"
   ],
   "note": "planar vector problems; scalar ones in C58"
  },
  {
   "property": "C36",
   "status": "proved",
   "theorems": [
    "C36_nonneg",
    "C36_convex",
    "C36_subgradient",
    "C36_derivative",
    "C36_convex_law"
   ],
   "note": "slope law"
  },
  {
   "property": "C37",
   "status": "proved",
   "theorems": [
    "C37_direct_forces",
    "C37_gradient_forces",
    "C37_balance",
    "C37_cost_derivative",
    "C37_resultant",
    "C37_gradient_refuted",
    "C37_same_solution_refuted"
   ],
   "note": "resultants agree; gradient and solution differ (witness)"
  },
  {
   "property": "C38",
   "status": "proved",
   "theorems": [
    "C38_actual_derivative",
    "C38_refuted",
    "C38_no_resistance"
   ],
   "note": "refuted as stated; actual derivative proved"
  },
  {
   "property": "C39",
   "status": "proved",
   "theorems": [
    "C39_exactly_one",
    "C39_slope",
    "C39_inequality"
   ],
   "note": "existence, uniqueness and variational inequality"
  },
  {
   "property": "C58",
   "status": "proved",
   "theorems": [
    "C58_value",
    "C58_orientation",
    "C58_refuted"
   ],
   "note": "refuted as stated; exact formula proved"
  },
  {
   "property": "C75",
   "status": "proved",
   "theorems": [
    "C75_value",
    "C75_minimiser"
   ],
   "note": "interior contact energy"
  },
  {
   "property": "C76",
   "status": "proved",
   "theorems": [
    "C76_jump",
    "C76_continuous_refuted"
   ],
   "note": "refuted: jump at the obstacle"
  },
  {
   "property": "C77",
   "status": "proved",
   "theorems": [
    "C77_plane",
    "C77_space_refuted",
    "C77_vertical_faces",
    "C77_direct_raises",
    "C77_gradient_raises"
   ],
   "note": "plane proved, space refuted"
  },
  {
   "property": "C16",
   "status": "proved",
   "theorems": [
    "C16_reduced_solution",
    "C16_initialises"
   ],
   "note": ""
  },
  {
   "property": "C17",
   "status": "proved",
   "theorems": [
    "C17_energy",
    "C17_minimisers"
   ],
   "note": ""
  },
  {
   "property": "C18",
   "status": "proved",
   "theorems": [
    "C18_merge",
    "C18_truncate",
    "C18_round_trip",
    "C18_space_refuted",
    "C18_space_truncate_refuted",
    "C18_space_merge_refuted"
   ],
   "note": "one and two components proved, three components refuted"
  },
  {
   "property": "C19",
   "status": "proved",
   "theorems": [
    "C19_same_matrix",
    "C19_statements",
    "C19_ageing_refuted"
   ],
   "note": "refuted for time-dependent relaxation"
  },
  {
   "property": "C78",
   "status": "proved",
   "theorems": [
    "C78_exact",
    "C78_driving",
    "C78_interior_refuted"
   ],
   "note": "refuted for interior laws"
  },
  {
   "property": "C40",
   "status": "proved",
   "theorems": [
    "C40_dynamic",
    "C40_wave",
    "C40_relaxation",
    "C40_dynamic_ends",
    "C40_poisson",
    "C40_first_output_refuted"
   ],
   "note": "any step solver, raising or not; the one exception, a state put out before the first step, is refuted by a witness"
  },
  {
   "property": "C41",
   "status": "proved",
   "theorems": [
    "C41_dynamic",
    "C41_wave",
    "C41_relaxation",
    "C41_coupled",
    "C41_decreasing_refuted"
   ],
   "note": "all four kinds of drivers; for decreasing output steps a witness shows it false"
  },
  {
   "property": "C42",
   "status": "proved",
   "theorems": [
    "C42_resumed",
    "C42_products_refuted"
   ],
   "note": "for iterate() that forgets earlier calls and runs without products; with products resuming raises, shown by a witness"
  },
  {
   "property": "C43",
   "status": "proved",
   "theorems": [
    "C43_wave",
    "C43_static",
    "C43_poisson",
    "C43_dynamic_refuted",
    "C43_relaxation_refuted",
    "C43_coupled_refuted",
    "C43_coupled_times"
   ],
   "note": "true for wave and static, refuted with witnesses for the others, as stated"
  },
  {
   "property": "C44",
   "status": "proved",
   "theorems": [
    "C44_snapshots",
    "C44_dynamic",
    "C44_relaxation",
    "C44_wave",
    "C44_within",
    "C44_poisson",
    "C44_poisson_snapshot",
    "C44_resumed_refuted"
   ],
   "note": "any later calls on the same driver; resuming a wave from a state changes that state, shown by a witness"
  },
  {
   "property": "C45",
   "status": "proved",
   "theorems": [
    "C45_ends",
    "C45_loop",
    "C45_total",
    "C41_coupled"
   ],
   "note": "all sub-solvers; C41_coupled says that each solve() is such a history"
  },
  {
   "property": "C46",
   "status": "proved",
   "theorems": [
    "C46_first_read",
    "C46_later_reads",
    "C46_setters",
    "C46_refuted"
   ],
   "note": "refuted with a witness, as stated; the true part is proved"
  },
  {
   "property": "C47",
   "status": "proved",
   "theorems": [
    "C47_written",
    "C47_failed",
    "C47_refuted"
   ],
   "note": "every outcome of writing"
  },
  {
   "property": "C54",
   "status": "proved",
   "theorems": [
    "C54_range",
    "C54_record",
    "C54_displacement",
    "C54_velocity",
    "C54_penetration"
   ],
   "note": "products are values in the model of range, so the product itself is the same by construction"
  },
  {
   "property": "C60",
   "status": "proved",
   "theorems": [
    "C60_velocity_driven",
    "C60_coupled"
   ],
   "note": "histories are those of C41_dynamic, C41_wave and C41_coupled"
  },
  {
   "property": "C50",
   "status": "proved",
   "theorems": [
    "C50_register",
    "C50_never_overwritten",
    "C50_resolves",
    "C50_origin",
    "C50_star_refuted",
    "C50_case",
    "C50_lookup",
    "C50_missing",
    "C50_reported",
    "C50_order",
    "C50_isinstance",
    "C50_refresh",
    "C50_refresh_poisson_refuted",
    "C50_documented_refuted",
    "C50_direct_quasistatic_refuted"
   ],
   "note": "the documented names and the refresh of Poisson solvers are refuted with witnesses"
  },
  {
   "property": "C51",
   "status": "proved",
   "theorems": [
    "C51_handed_over",
    "C51_relaxation_refuted"
   ],
   "note": "refuted for relaxation with the global method, as stated"
  },
  {
   "property": "C52",
   "status": "proved",
   "theorems": [
    "C52_quasistatic_coupled",
    "C52_quasistatic_statement",
    "C52_dynamic_refuted",
    "C52_dynamic_coupling_unused"
   ],
   "note": "refuted for the dynamic problem, as stated"
  },
  {
   "property": "C79",
   "status": "proved",
   "theorems": [
    "C79_direct_refuted",
    "C79_dynamic_never_renewed",
    "C79_wave_never_renewed",
    "C79_same_velocity"
   ],
   "note": "refuted with a witness; the behaviour of all runs is proved"
  },
  {
   "property": "C80",
   "status": "proved",
   "theorems": [
    "C80_law_refuted",
    "C80_poisson"
   ],
   "note": "refuted for every problem but Poisson ones"
  },
  {
   "property": "C81",
   "status": "proved",
   "theorems": [
    "C81_setup",
    "C81_renews",
    "C81_dynamic",
    "C81_wave",
    "C81_relaxation",
    "C81_static",
    "C81_direct",
    "C81_runs",
    "C81_stable_runs",
    "C81_stable_wave",
    "C81_stable_relaxation",
    "C81_elimination",
    "C81_unique"
   ],
   "note": "uniqueness is stated for the dynamic driver"
  },
  {
   "property": "C82",
   "status": "proved",
   "theorems": [
    "C82_work",
    "C82_dynamic",
    "C82_wave",
    "C82_dynamic_2d",
    "C82_wave_2d"
   ],
   "note": "the energy is that of the states returned by the driver"
  },
  {
   "property": "C56",
   "status": "proved",
   "theorems": [
    "C56_placed",
    "C56_unplaced",
    "C56_mismatch",
    "C56_one_number"
   ],
   "note": "translate_nodes puts the lowest corner at the requested position and keeps all differences; positions of a wrong dimension are refused, a single number is used for every direction"
  },
  {
   "property": "C57",
   "status": "proved",
   "theorems": [
    "C57_cells",
    "C57_grid",
    "C57_extent",
    "C57_perimeter_refuted",
    "C57_small_refuted",
    "C57_zero_bound",
    "C57_zero_size",
    "C57_mesh_total",
    "C57_mesh",
    "C57_faces",
    "C57_definite",
    "C57_stable"
   ],
   "note": "node and element counts, distinct nodes, orientation, area, tiling and boundary faces of the generated mesh for all sizes whose steps are at least the 0.0001 tolerance of the look-ups; below it the mesh degenerates (refuted); built, placed and clamped on one edge it gives a definite elasticity operator; max_element_perimeter bounds the extent of elements, not their perimeter (refuted)"
  },
  {
   "property": "C55",
   "status": "proved",
   "theorems": [
    "C55_samples_exist",
    "C55_exact",
    "C55_zeros",
    "C55_no_step",
    "C55_last_refuted",
    "C55_double_refuted"
   ],
   "note": "exact description of the answer sample by sample, and for a root finder that finds a zero in every bracket with a sign change: only zeros, in order, inside the range, every sampled zero and exactly one zero per sign change; zeros after the last sample and pairs of zeros between samples are missed (refuted)"
  },
  {
   "property": "C83",
   "status": "proved",
   "theorems": [
    "C83_limit_points",
    "C83_space",
    "C83_intersection",
    "C83_affine"
   ],
   "note": "over a model of linear interpolation on triangles with any correct triangle finder and root finder"
  },
  {
   "property": "C84",
   "status": "proved",
   "theorems": [
    "C84_apart",
    "C84_exactly_one",
    "C84_inequality",
    "C84_schur",
    "C84_schur_step",
    "C84_touching_refuted",
    "C84_corner_refuted"
   ],
   "note": "equivalence of the eliminated and the constrained problem when contact faces stay apart from prescribed dofs; Schur also with touching corners whose old values are the prescribed ones; existence, uniqueness and the variational inequality; both conditions are needed (refuted without them)"
  },
  {
   "property": "C85",
   "status": "proved",
   "theorems": [
    "C85_forces",
    "C85_global",
    "C85_schur",
    "C85_global_static",
    "C85_schur_static",
    "C85_global_runs",
    "C85_schur_runs",
    "C85_same",
    "C85_work",
    "C85_decay",
    "C85_unique"
   ],
   "note": "all plane kinds solved for velocities and the static one; the optimiser is any function that finds a minimum when there is one; contact faces apart from prescribed dofs (Schur: or at prescribed nodes that already have the prescribed values); energy for homogeneous conditions"
  },
  {
   "property": "C86",
   "status": "proved",
   "theorems": [
    "C86_route",
    "C86_minimizer",
    "C86_case",
    "C86_case_refuted",
    "C86_suffix",
    "C86_budget",
    "C86_schur_budget",
    "C86_budget_refuted",
    "C86_constraint",
    "C86_no_contact",
    "C86_layouts",
    "C86_normal",
    "C86_normal_refuted"
   ],
   "note": "dispatch, budget and constraint; three natural expectations are refuted"
  },
  {
   "property": "C87",
   "status": "proved",
   "theorems": [
    "C87_static",
    "C87_static_direct",
    "C87_poisson",
    "C87_dynamic",
    "C87_quasistatic",
    "C87_wave",
    "C87_relaxation",
    "C87_uniform",
    "C87_varying_refuted",
    "C87_default_refuted",
    "C87_default_static",
    "C87_heat_refuted"
   ],
   "note": "plane problems without contact cost; solvers are any functions that solve the system they hold, or np.linalg.solve through the direct solver; time-dependent runs on freshly constructed bodies"
  },
  {
   "property": "C88",
   "status": "proved",
   "theorems": [
    "C88_construct",
    "C88_update",
    "C88_static",
    "C88_static_direct",
    "C88_poisson",
    "C88_dynamic",
    "C88_quasistatic",
    "C88_wave",
    "C88_relaxation",
    "C88_direct_definite"
   ],
   "note": "same scope as C87"
  },
  {
   "property": "C89",
   "status": "proved",
   "theorems": [
    "C89_global",
    "C89_schur",
    "C89_global_rest",
    "C89_schur_rest",
    "C89_global_total",
    "C89_schur_total",
    "C89_global_rest_total",
    "C89_schur_rest_total",
    "C89_unique",
    "C89_unique_rest",
    "C89_same",
    "C89_same_rest",
    "C89_work",
    "C89_decay",
    "C89_normals",
    "C89_outward",
    "C89_classes",
    "C89_singular"
   ],
   "note": "static, quasistatic and dynamic plane problems without coupling; minimisers by contract"
  },
  {
   "property": "C90",
   "status": "proved",
   "theorems": [
    "C90_solver",
    "C90_schur_solver",
    "C90_dynamic",
    "C90_relaxation",
    "C90_static",
    "C90_wave",
    "C90_start_refuted"
   ],
   "note": "for waves only the times: their displacement has one number per node"
  },
  {
   "property": "C91",
   "status": "proved",
   "theorems": [
    "C91_cube",
    "C91_ball",
    "C91_placed",
    "C91_made",
    "C91_mesh",
    "C91_lowest",
    "C91_faces",
    "C91_definite"
   ],
   "note": "coordinates of the tables taken as exact decimal fractions"
  },
  {
   "property": "C92",
   "status": "proved",
   "theorems": [
    "C92_semidefinite",
    "C92_static",
    "C92_quasistatic",
    "C92_dynamic",
    "C92_solid",
    "C92_solid_dynamic",
    "C92_bottomless_refuted",
    "C92_sliding_refuted"
   ],
   "note": "definiteness for all moduli is refuted"
  },
  {
   "property": "C93",
   "status": "proved",
   "theorems": [
    "C93_solid",
    "C93_solid_made",
    "C93_plane",
    "C93_plane_made",
    "C93_solid_faces",
    "C93_plane_faces",
    "C93_unknown",
    "C93_move",
    "C93_position",
    "C93_position_refuted",
    "C93_area_refuted"
   ],
   "note": "starts from what meshio.read returns"
  },
  {
   "property": "C94",
   "status": "proved",
   "theorems": [
    "C94_gradient",
    "C94_flat",
    "C94_viscoelastic",
    "C94_relaxation",
    "C94_fields",
    "C94_affine",
    "C94_rigid",
    "C94_work",
    "C94_sign_refuted",
    "C94_norm",
    "C94_arrows",
    "C94_memory_refuted"
   ],
   "note": "the correct sign is refuted"
  },
  {
   "property": "C95",
   "status": "proved",
   "theorems": [
    "C95_drawn",
    "C95_few",
    "C95_skipped",
    "C95_steady",
    "C95_spurious_refuted",
    "C95_overrun_refuted"
   ],
   "note": "the calls of plt.scatter; drawing itself is outside"
  },
  {
   "property": "C96",
   "status": "proved",
   "theorems": [
    "C96_columns",
    "C96_columns_refuted",
    "C96_window",
    "C96_window_refuted",
    "C96_mesh",
    "C96_mesh_solid",
    "C96_boundary",
    "C96_dirichlet_refuted",
    "C96_free_refuted"
   ],
   "note": "arguments handed to matplotlib and networkx"
  },
  {
   "property": "C97",
   "status": "proved",
   "theorems": [
    "C97_smooth",
    "C97_equilibrium",
    "C97_clamped",
    "C97_right",
    "C97_top",
    "C97_corner",
    "C97_unloaded",
    "C97_strip_refuted",
    "C97_contact",
    "C97_matched",
    "C97_law"
   ],
   "note": "strong form; that the discrete solution converges to it is not claimed"
  },
  {
   "property": "C98",
   "status": "proved",
   "theorems": [
    "C98_total",
    "C98_zero",
    "C98_symmetric",
    "C98_triangle",
    "C98_offset",
    "C98_node",
    "C98_unused",
    "C98_scaled_refuted"
   ],
   "note": "the mean square of an affine function by the exact formula (C22); node errors: the mean is refuted"
  },
  {
   "property": "C99",
   "status": "proved",
   "theorems": [
    "C99_potential",
    "C99_traction",
    "C99_subderivative",
    "C99_second",
    "C99_sum",
    "C99_drop_refuted",
    "C99_none",
    "C99_single"
   ],
   "note": "exact arithmetic; layers that repeat (nan) are excluded"
  },
  {
   "property": "C100",
   "status": "proved",
   "theorems": [
    "C100_right",
    "C100_corners",
    "C100_opposite",
    "C100_sign_refuted",
    "C100_sum",
    "C100_dip_refuted",
    "C100_tangential",
    "C100_length",
    "C100_rest"
   ],
   "note": "the correct sign and the behaviour at the first kink are refuted"
  },
  {
   "property": "C101",
   "status": "proved",
   "theorems": [
    "C101_twice",
    "C101_half_refuted",
    "C101_kink",
    "C101_jo_normal",
    "C101_jo_friction",
    "C101_job_normal",
    "C101_job_friction",
    "C101_job_tangential",
    "C101_bost",
    "C101_bost_bounded",
    "C101_bost_convex_refuted"
   ],
   "note": "half of the derivative and convexity are refuted"
  },
  {
   "property": "C102",
   "status": "proved",
   "theorems": [
    "C102_plane",
    "C102_solid",
    "C102_matrix_plane",
    "C102_matrix_solid",
    "C102_apart_plane",
    "C102_apart_solid",
    "C102_turned",
    "C102_cross",
    "C102_grid",
    "C102_solid_file",
    "C102_plane_file",
    "C102_folded_refuted"
   ],
   "note": "the condition on the sides of common faces is necessary: a folded strip is the witness"
  },
  {
   "property": "C103",
   "status": "proved",
   "theorems": [
    "C103_plane",
    "C103_solid",
    "C103_static",
    "C103_direct",
    "C103_closed",
    "C103_poisson"
   ],
   "note": "in space the work at the boundary is that of the stress only for mu = la (C24)"
  },
  {
   "property": "C104",
   "status": "proved",
   "theorems": [
    "C104_heated",
    "C104_heated_direct",
    "C104_polarised",
    "C104_sensed",
    "C104_heated_runs",
    "C104_heated_direct_runs",
    "C104_polarised_runs",
    "C104_sensed_runs",
    "C104_sensed_direct",
    "C104_sensed_direct_runs",
    "C104_residual"
   ],
   "note": "without contact; the heat source of the user does not enter the heat equation of the statement, and the temperature takes the values of the velocity on the Dirichlet boundary, as the code has it"
  },
  {
   "property": "C105",
   "status": "proved",
   "theorems": [
    "C105_heated_step",
    "C105_heated_passes",
    "C105_heated_near",
    "C105_heated_unique",
    "C105_polarised_step",
    "C105_polarised_passes",
    "C105_polarised_near",
    "C105_polarised_unique",
    "C105_sensed_exact",
    "C105_sensed_passes",
    "C105_sensed_unique",
    "C105_heated_classes",
    "C105_polarised_classes",
    "C105_sensed_classes",
    "C105_isotropic",
    "C105_strong_refuted"
   ],
   "note": "C105_strong_refuted: without a bound on the coupling the ten passes may diverge, and the step is returned without a sign of it; without contact; the bound on the piezoelectric response needs a tensor that is symmetric in the strain"
  },
  {
   "property": "C106",
   "status": "proved",
   "theorems": [
    "C106_dynamic",
    "C106_quasistatic",
    "C106_wave",
    "C106_motion_unique",
    "C106_flow_unique",
    "C106_swing_unique",
    "C106_order_refuted"
   ],
   "note": "C106_order_refuted: an order higher than one is false, by the exact error of a falling body; the motion in continuous time is given (its existence is not proved); without contact"
  },
  {
   "property": "C107",
   "status": "proved",
   "theorems": [
    "C107_dynamic",
    "C107_quasistatic",
    "C107_motion_unique",
    "C107_flow_unique",
    "C107_steps_exist",
    "C107_slope_tame",
    "C107_const_tame",
    "C107_damped_refuted"
   ],
   "note": "the motion in continuous time is given (its existence is not proved); C107_damped_refuted: the law of damped normal compliance jumps and is outside the hypothesis"
  },
  {
   "property": "C108",
   "status": "proved",
   "theorems": [
    "C108_direct",
    "C108_direct_runs",
    "C108_same",
    "C108_converges_refuted"
   ],
   "note": "the claim that Direct follows the motion of C87 is refuted by C108_converges_refuted; C108_direct says what it computes; without contact law"
  },
  {
   "property": "C109",
   "status": "proved",
   "theorems": [
    "C109_relaxation",
    "C109_unique",
    "C109_exponential",
    "C109_decays",
    "C109_geometric"
   ],
   "note": "without contact law, class of the method 'schur'; the state of time 0 holds the given first displacement and is not covered by the bound"
  },
  {
   "property": "C110",
   "status": "proved",
   "theorems": [
    "C110_dynamic",
    "C110_quasistatic",
    "C110_wave",
    "C110_static",
    "C110_dynamic_total",
    "C110_quasistatic_total",
    "C110_wave_total",
    "C110_static_total",
    "C110_dynamic_alike",
    "C110_quasistatic_alike",
    "C110_wave_alike",
    "C110_static_near",
    "C110_dynamic_near",
    "C110_quasistatic_near",
    "C110_wave_near"
   ],
   "note": "without contact laws; residuals are bounded in the rows of the system that the step solver holds, at the system size of the class Global; the bound of two runs grows with the length of the time interval"
  },
  {
   "property": "C111",
   "status": "proved",
   "theorems": [
    "C111_value",
    "C111_triangle",
    "C111_same",
    "C111_zero",
    "C111_alone_refuted",
    "C111_constant",
    "C111_norm_refuted",
    "C111_outside",
    "C111_first",
    "C111_later"
   ],
   "note": "any interpolator, raising no exception of its own; what is not true of the entry is refuted with witnesses, as stated"
  },
  {
   "property": "C112",
   "status": "proved",
   "theorems": [
    "C112_forced",
    "C112_resumed",
    "C112_repeated",
    "C112_own_refuted",
    "C112_again",
    "C112_total",
    "C112_stale_refuted",
    "C112_survey",
    "C112_survey_resumed",
    "C112_survey_nothing",
    "C112_losses_refuted",
    "C112_names_refuted"
   ],
   "note": "any solvers and directories; what is not true of the files is refuted with witnesses, as stated"
  },
  {
   "property": "C113",
   "status": "proved",
   "theorems": [
    "C113_partition",
    "C113_only",
    "C113_none",
    "C113_alternating",
    "C113_labels",
    "C113_unknown",
    "C113_script",
    "C113_least",
    "C113_best",
    "C113_near",
    "C113_positive",
    "C113_close_refuted"
   ],
   "note": "real arithmetic; the threshold for near losses is refuted for positive losses, as stated"
  },
  {
   "property": "C114",
   "status": "proved",
   "theorems": [
    "C114_rounding",
    "C114_dyadic",
    "C114_drift",
    "C114_near",
    "C114_advances",
    "C114_stands",
    "C114_names_refuted",
    "C114_kept",
    "C114_kept_refuted"
   ],
   "note": "sums in binary64, overflow left out; true for the time steps of the two examples and all others with few bits, false for 0.1"
  },
  {
   "property": "C115",
   "status": "proved",
   "theorems": [
    "C115_value",
    "C115_zero",
    "C115_triangle",
    "C115_scales",
    "C115_relative_refuted",
    "C115_meaning",
    "C115_rates",
    "C115_dash",
    "C115_nodes",
    "C115_wrong",
    "C115_equal"
   ],
   "note": "real numbers; the interpolation of scipy is any pair of functions; the name of the function is refuted, as stated"
  },
  {
   "property": "C116",
   "status": "proved",
   "theorems": [
    "C116_names",
    "C116_shown",
    "C116_left",
    "C116_once",
    "C116_again",
    "C116_forced",
    "C116_letters",
    "C116_values",
    "C116_curve",
    "C116_sizes",
    "C116_directory_refuted",
    "C116_unwritten_refuted"
   ],
   "note": "simulation and error are any functions; drawing left out; the two ways in which a run ends without its directory are refutations, as stated"
  }
 ]
}