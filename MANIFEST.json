{
 "claims": [
  {
   "property": "C01",
   "status": "proved",
   "theorems": [
    "C01_group_is_insertion_ordered_set",
    "C01_first_occurrences_spec"
   ],
   "note": "for every object type, injective address assignment and Add history"
  },
  {
   "property": "C02",
   "status": "proved",
   "theorems": [
    "C02_reachable_groups_ok",
    "C02_unite",
    "C02_unite_many",
    "C02_difference",
    "C02_intersection",
    "C02_symmetric_difference"
   ],
   "note": "contents and order of all four set operations"
  },
  {
   "property": "C03",
   "status": "proved",
   "theorems": [
    "C03_unique_ids"
   ],
   "note": "up to overflow of the int counter, which is a distinct UB outcome of the model"
  },
  {
   "property": "C04",
   "status": "proved",
   "theorems": [
    "C04_value_vector",
    "C04_references_stay_valid"
   ],
   "note": "refinement to the list of (reference, value) pairs"
  },
  {
   "property": "C05",
   "status": "proved",
   "theorems": [
    "C05_text_round_trip",
    "C05_17_digits_identify_a_double",
    "C05_binary_round_trip"
   ],
   "note": "text mode includes the 17-digit decimal round trip of 53-bit floats; exponent range, NaN and infinities are not modelled"
  },
  {
   "property": "C06",
   "status": "partial",
   "theorems": [
    "C06_text_separator",
    "C05_text_round_trip",
    "C06_binary_separator_write_refuted",
    "C06_binary_separator_read_refuted"
   ],
   "note": "text mode proved; binary mode is false of the code: writing reads 8 bytes from a 2-byte literal and reading stores 8 bytes into one char"
  },
  {
   "property": "C07",
   "status": "proved",
   "theorems": [
    "C07_dof_container_is_a_map",
    "C07_dof_info_merge"
   ],
   "note": "Refinement of every operation sequence to an abstract function, outputs included; DofInfo::Merge overwrites exactly one dof type."
  },
  {
   "property": "C08",
   "status": "proved",
   "theorems": [
    "C08_add",
    "C08_subtract",
    "C08_add_scaled",
    "C08_scale",
    "C08_set_zero",
    "C08_dof_types"
   ],
   "note": "Over any commutative ring (no rounding); common blocks of different size are undefined in the code and excluded by 'compatible'."
  },
  {
   "property": "C09",
   "status": "proved",
   "theorems": [
    "C09_vector_from_to",
    "C09_vector_to_from",
    "C09_to_eigen_defined",
    "C09_matrix_blocks",
    "C09_blocks_cover",
    "C09_matrix_product"
   ],
   "note": "Both directions for vectors, block placement and product law for sparse block matrices."
  },
  {
   "property": "C10",
   "status": "proved",
   "theorems": [
    "C10_numbering_is_bijection",
    "C10_throw_keeps_numbers",
    "C10_all_dofs",
    "C10_get"
   ],
   "note": "DofNumbering::Build numbers the dofs of the group bijectively 0..N-1 in group/component order, or throws exactly when a constraint mentions a foreign node, and then changes no number. DofNumbering::Get reads these numbers, in the order of the nodes."
  },
  {
   "property": "C11",
   "status": "partial",
   "theorems": [
    "C11_constrained_last_refuted"
   ],
   "note": "Finding: the documented order (constrained dofs last) does not hold; witness with two nodes."
  },
  {
   "property": "C12",
   "status": "partial",
   "theorems": [
    "C12_refines_log",
    "C12_no_conflict",
    "C12_accepted_sets_partial",
    "C12_self_reference_refuted"
   ],
   "note": "Refinement to an equation log for all histories; the full claim holds without self-referencing equations, which the code accepts (finding)."
  },
  {
   "property": "C13",
   "status": "partial",
   "theorems": [
    "C13_parametrisation",
    "C13_with_built_numbering",
    "C13_self_reference_refuted",
    "C13_tiny_coefficient_refuted"
   ],
   "note": "u = C v + g parametrises the admissible vectors, uniquely. Hypotheses: no self reference, coefficients are 0 or above 1e-18 in magnitude; both are shown to be needed (findings)."
  },
  {
   "property": "C14",
   "status": "partial",
   "theorems": [
    "C14_jk_numbering",
    "C14_free_dofs",
    "C14_throws",
    "C14_with_built_numbering",
    "C14_more_equations_refuted"
   ],
   "note": "Permutation, free numbers ascending first, dependent numbers in equation order; throws on unnumbered or too large numbers.  End to end after DofNumbering::Build. Finding: with more equations than dofs a vector of negative size is made before the numbers are checked."
  },
  {
   "property": "C15",
   "status": "partial",
   "theorems": [
    "C15_rhs_rounded_partial",
    "C15_float_exact_partial",
    "C15_float_error_partial",
    "C15_full_precision_refuted",
    "C15_dense_rhs"
   ],
   "note": "Finding: values pass through single precision. Proved: stored value is the rounded one, exact for floats, relative error at most 2^-24. GetRhs passes the values on unchanged, in the order of GetJKNumbering."
  },
  {
   "property": "C16",
   "status": "partial",
   "theorems": [
    "C16_direction_equation_partial",
    "C16_axis_direction_partial",
    "C16_direction_refuted"
   ],
   "note": "Finding: sign of the off-dominant coefficients is wrong; documented equation only for axis directions."
  },
  {
   "property": "C17",
   "status": "proved",
   "theorems": [
    "C17_vector_schedule_independent",
    "C17_matrix_schedule_independent",
    "C17_throws_without_numbering",
    "C17_duplicate_types_refuted",
    "C17_throws_without_dependent_number",
    "C17_matrix_throws_without_numbering",
    "C17_cell_exception_refuted"
   ],
   "note": "For every interleaving of threads, distribution of cells and merge order, in exact arithmetic. Finding: a dof type listed twice is assembled twice.  Finding: an exception of a cell inside the parallel region is not reported, it ends the program (C17_cell_exception_refuted)."
  },
  {
   "property": "C18",
   "status": "partial",
   "theorems": [
    "C18_lumped_total_partial",
    "C18_scalar_mass_preserved_partial",
    "C18_nonnegative",
    "C18_every_schedule",
    "C18_vector_mass_refuted",
    "C18_throws_without_numbering",
    "C18_cell_exception_refuted"
   ],
   "note": "Mass preserved for scalar dofs; for n components the lumped mass is 1/n of the consistent one (finding). A dof type without numbering is rejected with an exception; a cell without the diagonal block of one of its dof types ends the program, because the exception leaves an OpenMP region (C18_cell_exception_refuted)."
  },
  {
   "property": "C19",
   "status": "partial",
   "theorems": [
    "C19_vector_assembler",
    "C19_matrix_assembler_partial",
    "C19_reset_before_finish_refuted",
    "C19_resize_keeps_contributions",
    "C19_resize_smaller_refuted",
    "C19_missing_block_rejected",
    "C19_missing_vector_rejected",
    "C19_matrix_assembler_histories",
    "C19_resize_one_type_refuted",
    "C19_unsized_type_refuted"
   ],
   "note": "Vector assembler: full refinement. Matrix assembler: all histories without SetZero before Finish; SetZero before Finish does not discard contributions (finding).  Resize before Finish keeps the contributions of a MatrixAssembler (the VectorAssembler drops them): after a Resize to fewer dofs Finish writes out of bounds (finding). Every history whose last Resize names all dof types resized before is described exactly (C19_matrix_assembler_histories); a Resize of one dof type leaves its blocks with other types at their old size, so Finish writes out of bounds (finding, C19_resize_one_type_refuted).  Contributions of a dof type that never got a size are dropped silently before Finish and written out of bounds after it (finding, C19_unsized_type_refuted)."
  },
  {
   "property": "C20",
   "status": "proved",
   "theorems": [
    "C20_integrate_scalar",
    "C20_integrate_components",
    "C20_visits_each_point_once",
    "C20_eval_apply",
    "C20_point_data",
    "C20_constructor_checks_shape"
   ],
   "note": "Integrand with arbitrary state; every scalar component of the result; visits and ids of Integrate, Apply and Eval."
  },
  {
   "property": "C21",
   "status": "partial",
   "theorems": [
    "C21_cache_transparent_partial",
    "C21_second_operator_refuted"
   ],
   "note": "Proved for all request sequences that use one operator per dof type. The full claim is false of the code: CellIpData::B stores the matrix per dof type and returns it for any other operator as well."
  },
  {
   "property": "C22",
   "status": "proved",
   "theorems": [
    "C22_square",
    "C22_lines_and_surfaces",
    "C22_other_dimensions_throw",
    "C22_chain_rule"
   ],
   "note": "Exact real arithmetic; Eigen's fixed-size inverse/determinant modelled by cofactors."
  },
  {
   "property": "C23",
   "status": "proved",
   "theorems": [
    "C23_strain",
    "C23_strain_other_dimensions",
    "C23_gradient",
    "C23_interpolation",
    "C23_layout"
   ],
   "note": "Any number of nodes, dimensions 1-3; partial derivatives are Coquelicot derivatives of the interpolated field."
  },
  {
   "property": "C24",
   "status": "partial",
   "theorems": [
    "C24_solve_partial",
    "C24_dof_order_refuted",
    "C24_dof_subset_refuted",
    "C24_missing_dof_rejected"
   ],
   "note": "Proved for every correct linear solver when the dof types are listed in the order of f.DofTypes(); the result is written back in that order instead of the order of the list, so another order swaps blocks and a subset reads behind the end (both refuted with witnesses)."
  },
  {
   "property": "C25",
   "status": "partial",
   "theorems": [
    "C25_trial_state_partial",
    "C25_trial_state_exact_partial",
    "C25_exact_increment_refuted",
    "C25_missing_dof_rejected"
   ],
   "note": "Constraint increment up to the single precision rounding of C15 (exact for float values, refuted otherwise) and equilibrium on the independent dofs, for dof types in the order of f.DofTypes()."
  },
  {
   "property": "C26",
   "status": "partial",
   "theorems": [
    "C26_adaptive_partial",
    "C26_bound_irrelevant",
    "C26_exact_end_refuted"
   ],
   "note": "Proved for every step function, step history and dt bounds (exact arithmetic, post-processing does not throw). Finding: the first step is not clipped to the end time, so the run may end past it (C26_exact_end_refuted); it ends exactly there when dt0 <= tEnd - tStart."
  },
  {
   "property": "C27",
   "status": "partial",
   "theorems": [
    "C27_newton_postcondition",
    "C27_line_search_partial",
    "C27_sufficient_decrease_refuted"
   ],
   "note": "Newton postcondition proved in full. Finding: the line search accepts the last trial without sufficient decrease when the maximum number of trials is reached."
  },
  {
   "property": "C28",
   "status": "partial",
   "theorems": [
    "C28_success",
    "C28_one_iteration",
    "C28_failure_partial",
    "C28_failure_keeps_solution_partial",
    "C28_transaction_history_partial",
    "C28_repeat_refuted",
    "C28_history_rollback_refuted"
   ],
   "note": "Proved: success commits time and state, failure keeps solution and time, at most one iteration where the linearisation at the end of the step is exact. Findings: the time step of a failed call persists and feeds the next trial state (repeat differs); history data is not rolled back if an update function throws."
  },
  {
   "property": "C29",
   "status": "partial",
   "theorems": [
    "C29_merge_partial",
    "C29_extract_partial",
    "C29_merge_extract_partial",
    "C29_extract_merge_partial",
    "C29_added_nodes_refuted"
   ],
   "note": "Proved for every mesh, numbering and history of calls on an unchanged mesh. Finding: nodes are looked up once per dof type, so nodes added to the mesh after the first call are ignored."
  },
  {
   "property": "C30",
   "status": "partial",
   "theorems": [
    "C30_construct_partial",
    "C30_full_curve",
    "C30_full_displacement",
    "C30_crossing_partial",
    "C30_threshold_partial",
    "C30_threshold_refuted",
    "C30_plateau_refuted"
   ],
   "note": "Without threshold proved in full (work along the curve; integral over displacement when increasing). With threshold proved only if the segment before the crossing continues the crossing segment. Finding: the code extrapolates the previous segment instead of interpolating the crossing one (8 instead of 6.75 in the witness) and divides by zero after a plateau."
  },
  {
   "property": "C31",
   "status": "partial",
   "theorems": [
    "C31_interleave3",
    "C31_interleave2",
    "C31_decode_encode3",
    "C31_encode_decode3",
    "C31_decode_encode2",
    "C31_encode_decode2",
    "C31_injective3",
    "C31_neighbor_partial",
    "C31_neg_neighbor_partial",
    "C31_wrap_refuted"
   ],
   "note": "Encoding/decoding proved in full for all words. Neighbours proved inside the range and below zero. Finding: past the upper limit 1023 the coordinate wraps around to an existing cell."
  },
  {
   "property": "C32",
   "status": "proved",
   "theorems": [
    "C32_construct",
    "C32_linear",
    "C32_derivative"
   ],
   "note": "For every sorting function allowed by std::sort; exact arithmetic. At a table point the derivative is the slope of the segment on the left (right one at the first point)."
  },
  {
   "property": "C33",
   "status": "partial",
   "theorems": [
    "C33_legendre_partial",
    "C33_returned_values",
    "C33_overflow_refuted"
   ],
   "note": "Proved for every n, x and k <= 6 (and every returned value is right). Finding: for k >= 7 the int conversion of (2k)! overflows (undefined behaviour). Exact arithmetic."
  },
  {
   "property": "C34",
   "status": "proved",
   "theorems": [
    "C34_number_of_points",
    "C34_products",
    "C34_exactness",
    "C34_gauss",
    "C34_lobatto"
   ],
   "note": "Tensor product rules for every dimension and number of points: n^d points, weights and coordinates are products, exact for every tensor polynomial the 1D rule is exact for, instantiated for Gauss and Lobatto."
  },
  {
   "property": "C35",
   "status": "partial",
   "theorems": [
    "C35_triangle",
    "C35_tetrahedron",
    "C35_prism",
    "C35_volume_partial",
    "C35_rejected",
    "C35_pyramid_rejected",
    "C35_order20_refuted",
    "C35_triangle_partial",
    "C35_tetrahedron_partial",
    "gm_exact"
   ],
   "note": "Proved for every polynomial: triangle orders 1-19, tetrahedron orders 1-20 (from order 10 on by the general exactness of the Grundmann-Moeller rules, gm_exact, for every dimension and index), both prism rules; volumes for all tabulated orders. Nothing is missing but the finding: the triangle table of order 20 misses the integral of y by more than 1e-10 (refuted)."
  },
  {
   "property": "C36",
   "status": "partial",
   "theorems": [
    "C36_partition_of_unity",
    "C36_linear_fields",
    "C36_fourth_order_partial",
    "C36_fourth_order_refuted"
   ],
   "note": "Exact at every real point for 15 of 17 element types (also linear fields). The two fourth order elements carry coefficients truncated to 12 digits: proved up to a tolerance, the exact claim refuted."
  },
  {
   "property": "C37",
   "status": "partial",
   "theorems": [
    "C37_nodal_basis",
    "C37_fourth_order_partial",
    "C37_fourth_order_refuted",
    "C39_nodal_basis",
    "C39_quad",
    "C39_brick",
    "C37_dimensions"
   ],
   "note": "All node pairs of 15 types; fourth order elements up to 1e-9, exact claim refuted (truncated decimals). Lobatto family for every order."
  },
  {
   "property": "C38",
   "status": "partial",
   "theorems": [
    "C38_gradient",
    "C38_pyramid",
    "C38_fourth_order_partial",
    "C38_fourth_order_refuted",
    "C39_gradient"
   ],
   "note": "Exact gradient for 14 polynomial types at every point, for the rational pyramid away from the plane of the apex and at the apex, for the Lobatto family outside of the 1e-15 tolerance of nodes. The fourth order elements are written with rounded decimal constants: gradient up to 1e-8, and not exact (C38_fourth_order_refuted)."
  },
  {
   "property": "C39",
   "status": "partial",
   "theorems": [
    "C39_nodes",
    "C39_lagrange",
    "C39_partition_of_unity",
    "C39_nodal_basis",
    "C39_reproduction",
    "C39_gradient",
    "C39_quad",
    "C39_brick",
    "C39_gradient_at_node_refuted"
   ],
   "note": "Every order, every set of distinct nodes. The computation of the Legendre roots is an oracle. Partial only because within 1e-15 of a node the evaluated functions are snapped to the unit vector, so the gradient claim fails exactly there (refuted)."
  },
  {
   "property": "C40",
   "status": "proved",
   "theorems": [
    "C40_hooke_3d",
    "C40_tangent",
    "C40_positive_definite",
    "C40_plane_strain",
    "C40_plane_stress",
    "C40_uniaxial",
    "C40_set_plane_state"
   ],
   "note": "All of it over the real numbers, for dimensions 1 to 3."
  },
  {
   "property": "C41",
   "status": "partial",
   "theorems": [
    "C41_exponential",
    "C41_no_softening",
    "C41_linear",
    "C41_softening_parameters",
    "C41_peak_stress",
    "C41_fracture_energy",
    "C41_linear_peak_stress_refuted",
    "C41_default_concrete"
   ],
   "note": "All clauses hold for the exponential and the no-softening law. The stress bound fails for the linear law made from material parameters: the cap omegaMax = 1 - fMin/ft is reached at a finite strain and from there the stress grows linearly without bound (the code comments 'not totally right'). The linear law needs omegaMax < 1, i.e. fMin > 0."
  },
  {
   "property": "C42",
   "status": "partial",
   "theorems": [
    "C42_history",
    "C42_damage_irreversible",
    "C42_evaluation_is_pure",
    "C42_unallocated_refuted",
    "C42_resize"
   ],
   "note": "Proved for all interleavings that stay within the allocated history data. LocalIsotropicDamage(Material::Softening) allocates 1 x 1 data only; any other cell or integration point is an out-of-range access."
  },
  {
   "property": "C43",
   "status": "partial",
   "theorems": [
    "C43_undamaged",
    "C43_full",
    "C43_dstrain",
    "C43_domega",
    "C43_unilateral_3d",
    "C43_volumetric_compression",
    "C43_default_plane_state_refuted"
   ],
   "note": "With equal plane states everything holds. The class comment's equivalence to LinearElastic fails for default arguments in 2D: LinearElastic defaults to PLANE_STRESS, LinearElasticDamage to PLANE_STRAIN. DstressDstrain of the unilateral law is claimed away from zero volumetric strain (there the stress has a kink)."
  },
  {
   "property": "C44",
   "status": "partial",
   "theorems": [
    "C44_uniaxial",
    "C44_nonnegative_homogeneous",
    "C44_gradient",
    "C44_frame_invariance",
    "C44_softening_plane_stress_refuted"
   ],
   "note": "The norm itself is right in 1D, 2D plane stress and 3D. The evolution equation that LocalIsotropicDamage and GradientDamage build from Material::Softening always uses the plane strain norm, also for plane stress materials, so uniaxial tension eps does not have norm eps there."
  },
  {
   "property": "C45",
   "status": "proved",
   "theorems": [
    "C45_characteristic_polynomial",
    "C45_deviator",
    "C45_frame_invariance"
   ],
   "note": ""
  },
  {
   "property": "C46",
   "status": "proved",
   "theorems": [
    "C46_find_span",
    "C46_find_span_domain"
   ],
   "note": "FindSpan returns the containing interval, terminates, never leaves the vector; outside the domain it throws. Exact arithmetic."
  },
  {
   "property": "C47",
   "status": "proved",
   "theorems": [
    "C47_basis_functions",
    "C47_rational"
   ],
   "note": "Values equal the Cox-de Boor B-splines, nonnegative, sum one, no division by zero; rational functions likewise for positive weights."
  },
  {
   "property": "C48",
   "status": "proved",
   "theorems": [
    "C48_node_at_coordinate",
    "C48_dof_node_at_coordinate",
    "C48_nodes_at_axis",
    "C48_dof_nodes_at_axis",
    "C48_nodes_total",
    "C48_dof_nodes_total"
   ],
   "note": "NodeAtCoordinate returns a node within tol (<=) and throws only if there is none; NodesAtAxis returns exactly the nodes within tol (strict <). Direction must be below the dimension (otherwise the code indexes out of range) and tol >= 0."
  },
  {
   "property": "C49",
   "status": "proved",
   "theorems": [
    "C49_lines",
    "C49_quads",
    "C49_triangles",
    "C49_bricks",
    "C49_tiling",
    "C49_transform"
   ],
   "note": "For at least one subdivision per direction; zero subdivisions divide 0/0 (NaN coordinates)."
  },
  {
   "property": "C50",
   "status": "partial",
   "theorems": [
    "C50_shared_nodes_partial",
    "C50_flat_mesh_refuted",
    "C50_outside_refuted",
    "C50_curved_lines_refuted",
    "C50_repeated_element_rejected"
   ],
   "note": "Proved when every interpolation point lies in the bounding box of the coordinate nodes, the box is at least 298e-10 wide in each direction and coinciding is transitive on the points. The first two are violated by legal meshes, where the code fails: points of curved elements outside the node box are never shared (C50_curved_lines_refuted), meshes flat in one direction are refused (C50_flat_mesh_refuted).  An element that already has the dof type, occurs twice in the group or has another shape is rejected (C50_repeated_element_rejected)."
  },
  {
   "property": "C51",
   "status": "partial",
   "theorems": [
    "C51_reads_file_partial",
    "C51_named_groups",
    "C51_dimension",
    "C51_binary_block_refuted",
    "C51_binary_memory_refuted",
    "C51_pyramid_refuted",
    "C51_line_3d_refuted",
    "C51_shared_number_refuted",
    "C51_name_with_space_refuted",
    "C51_interpolations",
    "C51_binary_block_elements",
    "C51_name_spelling",
    "C51_name_of_group",
    "upper_name"
   ],
   "note": "Proved for all ASCII files, and all binary files with one element per block, without pyramids: nodes, elements, node order, groups and names. False in general: gmsh's binary blocks of two or more elements are never read (five or more write out of range), gmsh's pyramids are refused, lines in 3D files are refused, physical entities of different dimension with the same number are merged, names are cut at the first space.  Names of groups are found in any spelling of their letters."
  },
  {
   "property": "C52",
   "status": "partial",
   "theorems": [
    "C52_ids",
    "C52_cells_reference_points_partial",
    "C52_negative_id_refuted",
    "C52_point_data",
    "C52_cell_data",
    "C52_undefined_name"
   ],
   "note": "Ids and stored data proved for all histories. Cells reference existing points only if the ids given are not negative: CheckPoints accepts negative ids, so the full statement is refuted."
  },
  {
   "property": "C53",
   "status": "partial",
   "theorems": [
    "C53_offsets_partial",
    "C53_large_grid_refuted",
    "C53_cells",
    "C53_read_partial"
   ],
   "note": "Proved for all grids with less than 2^31 bytes of appended data; the offsets are int, for 178956971 points the offset of the connectivity is negative. C53_read_partial: a reader that looks the arrays up by name finds the points and the cells of the grid."
  },
  {
   "property": "C54",
   "status": "proved",
   "theorems": [
    "C54_pvd_complete",
    "C54_one_entry_per_plot",
    "C54_readable"
   ],
   "note": "For all histories of calls, including calls that throw. C54_readable: a separate reader of the XML text finds exactly the plotted steps with their times and files."
  },
  {
   "property": "C55",
   "status": "proved",
   "theorems": [
    "C55_order",
    "C55_no_loss",
    "C55_others_unchanged",
    "C55_injective",
    "C55_export"
   ],
   "note": "The order of the exported components, for single vectors and for the arrays in the file."
  },
  {
   "property": "C56",
   "status": "partial",
   "theorems": [
    "C56_prediction_partial",
    "C56_symmetric",
    "C56_motion",
    "C56_near_miss_refuted"
   ],
   "note": "Safety proved in full: no overlap before the predicted time, none at all without prediction; first contact and symmetry proved; moving does not change the trajectory. False in part: discriminants in [-1e-12,0) count as contact, so a time is predicted for spheres that never touch."
  },
  {
   "property": "C57",
   "status": "proved",
   "theorems": [
    "C57_response"
   ],
   "note": "Energy is conserved for approaching spheres (those that collide when nothing grows)."
  },
  {
   "property": "C58",
   "status": "partial",
   "theorems": [
    "C58_plane_prediction_partial",
    "C58_plane_response",
    "C58_cylinder_prediction",
    "C58_cylinder_response",
    "C58_oblique_wall_refuted",
    "C58_cylinder_axis_refuted"
   ],
   "note": "Planes: all directions whose components do not sum to +-1, and the coordinate directions (the only ones the library uses). False for other directions with component sum +-1, which are taken for axis parallel. Violated: the response to the predicted collision of a sphere that grows on the axis of a cylinder throws."
  },
  {
   "property": "C59",
   "status": "proved",
   "theorems": [
    "C59_strict_order",
    "C59_equality",
    "C59_swapped_partners"
   ],
   "note": "Event times are real numbers (no NaN)."
  },
  {
   "property": "C60",
   "status": "partial",
   "theorems": [
    "C60_sphere_wall_partial",
    "C60_sphere_sphere_refuted",
    "C60_stale_memory_partial",
    "C60_history_partial"
   ],
   "note": "Proved for collisions with walls. For every collision of two spheres EraseOldEvents reads an event it has just destroyed; the outcome is the intended one only if that memory still reads as before. Every history of insertions, resets and wall collisions refines a set of events (C60_history_partial)."
  },
  {
   "property": "C61",
   "status": "partial",
   "theorems": [
    "C61_no_overlap_partial",
    "C61_final_packing_partial",
    "C61_cylinder_partial",
    "C61_cylinder_final_partial"
   ],
   "note": "Proved for every packing of growing spheres in a box specimen, and in a cylinder specimen with the same number (two or more) of divisions in both directions across, any number of sub-boxes, spheres and events: between and at events no two spheres overlap and all stay in the specimen, events neither move spheres nor change radii; after the final Sync all clocks agree and the radii are the initial ones plus growth times time. In a box the loop of Simulate never throws; in a cylinder all this holds as long as no sphere is as wide as the cylinder. Missing: status output (it synchronises the spheres with the time of the next event; see C112), floating-point error of the event times, spheres that touch an upper face at the start (see C62), cylinders with one division across (see C63). A pass that finds no event at all is undefined (C78)."
  },
  {
   "property": "C62",
   "status": "partial",
   "theorems": [
    "C62_box_numbers",
    "C62_tiling",
    "C62_wall_kinds",
    "C62_registration_partial",
    "C62_registration_refuted"
   ],
   "note": "Numbering, tiling and wall kinds are proved for all grids. Registration is exact for spheres that stay below the upper faces; a sphere touching the upper x face is refused and one touching the upper y face is also registered in a distant box."
  },
  {
   "property": "C63",
   "status": "partial",
   "theorems": [
    "C63_enclosed_partial",
    "C63_other_walls",
    "C63_one_division_refuted",
    "C63_unequal_divisions_refuted"
   ],
   "note": "True for equal divisions of at least two per direction; top, bottom and the walls between boxes are always kept. With one division across the cylinder there is no lateral wall at all; with unequal divisions (36 x 3) a box crossed by the surface gets none."
  },
  {
   "property": "C64",
   "status": "partial",
   "theorems": [
    "C64_take_phase_partial",
    "C64_terminates_partial",
    "C64_zero_diameter_refuted",
    "C64_boundary_refuted",
    "C64_curve_check"
   ],
   "note": "Without boundary spheres and with positive smallest diameters: radii within their class, cumulative volume target met from below within one largest particle, sorted table, termination. Refuted: a class with smallest diameter 0 passes the check and loops forever; with boundary spheres the radii are sorted but not the positions, so boundary spheres change radius."
  },
  {
   "property": "C65",
   "status": "partial",
   "theorems": [
    "C65_all_counted_partial",
    "C65_empty_class_refuted"
   ],
   "note": "If no size class is empty the counts are exact and add up to the number of particles. Refuted with an empty class: diameters 8 and 1 give counts 1,0,0 and the second particle is never placed."
  },
  {
   "property": "C66",
   "status": "partial",
   "theorems": [
    "C66_placed_apart_partial",
    "C66_large_distance_refuted",
    "C66_boundary_spheres_refuted",
    "C66_dogbone"
   ],
   "note": "For any random stream: no out of bounds access, every placed particle inside, all pairs apart, provided the requested distance is within the size of a sub-box. Refuted: larger absolute distances are not kept; boundary spheres are moved and new spheres may lie on them. In a dogbone specimen no placed particle overlaps the cut-out circles."
  },
  {
   "property": "C67",
   "status": "partial",
   "theorems": [
    "C67_never_below_partial",
    "C67_few_particles_partial",
    "C67_same_box_partial",
    "C67_ten_particles_refuted"
   ],
   "note": "Exact for fewer than ten particles, never below the true minimum, and never above the distance of two particles whose surrounding cubes have corners in a common sub-box. Refuted for ten: the closest pair across a sub-box face is missed."
  },
  {
   "property": "C68",
   "status": "partial",
   "theorems": [
    "C68_constructor_partial",
    "C68_constructor_refuted",
    "C68_volume_partial",
    "C68_small_volume_refuted"
   ],
   "note": "The size check uses && for ||: matrices with one wrong dimension are accepted or read out of bounds. Volumes below 1e-14 are refused as negative."
  },
  {
   "property": "C69",
   "status": "proved",
   "theorems": [
    "C69_circumcircle"
   ],
   "note": "All non-degenerate triangles in either orientation, built from edges in either direction; exact reals."
  },
  {
   "property": "C70",
   "status": "partial",
   "theorems": [
    "C70_polygon_partial",
    "C70_star_partial",
    "C70_constructor",
    "C70_convex_partial",
    "C70_ray_through_corner_refuted"
   ],
   "note": "The full property is false: a horizontal ray through a corner is counted twice, so an inner point at the height of a corner can be reported outside (refuted with a diamond). Proved for every other point: for every polygon that is star-shaped around some point, stored in either direction, convex or not, inside gives true and outside gives false; and the constructor (atan2 sort around the mean) always makes such a polygon with the given points as corners, provided the points are not on one line, none is the mean, and distinct points differ by more than 1e-6 in angle."
  },
  {
   "property": "C71",
   "status": "partial",
   "theorems": [
    "C71_comparison",
    "C71_sequential",
    "C71_one_call_per_coordinate",
    "C71_threads_partial",
    "C71_warm_cache_partial",
    "C71_search_unprotected_refuted",
    "C71_nan_refuted",
    "C71_four_coordinates_refuted",
    "C71_exceptions_partial",
    "C71_exceptions_refuted"
   ],
   "note": "Proved for one, two or three coordinates that are numbers: every sequential history returns the function's value, references stay valid until ClearCache, one evaluation per coordinate; under any schedule completed requests have the right value if the search is atomic, insertions exclude each other, and a warm cache is never written. False in general: the search runs outside the critical section, so two threads on an empty cache read and rebalance the tree at once; NaN coordinates get another coordinate's value; four coordinates terminate at the second request. If the function throws, a build without OpenMP hands every exception to its caller and stays transparent (C71_exceptions_partial); with OpenMP the exception would leave a critical section and the program ends (C71_exceptions_refuted)."
  },
  {
   "property": "C72",
   "status": "partial",
   "theorems": [
    "C72_natural_spline",
    "C72_derivative_refuted"
   ],
   "note": "Value proved in full (the reserved but unsized vectors are taken as usable memory; writing there is undefined behaviour in C++, see DESIGN findings). Finding: derivative() returns the chord slope instead of the spline derivative."
  },
  {
   "property": "C73",
   "status": "proved",
   "theorems": [
    "C73_gauss_exact",
    "C73_C74_rejected",
    "C107_gauss_rule"
   ],
   "note": "Exact arithmetic; the theorem holds for the exact distinct zeros. C107 proves that they exist for every n and that the Newton iteration returns them up to 4e-16."
  },
  {
   "property": "C74",
   "status": "proved",
   "theorems": [
    "C74_lobatto_exact",
    "C73_C74_rejected",
    "C107_lobatto_rule"
   ],
   "note": "Exact arithmetic; the theorem holds for the exact distinct zeros. C107 proves that they exist for every n and that the Newton iteration returns them up to 1e-15."
  },
  {
   "property": "C75",
   "status": "proved",
   "theorems": [
    "C75_tangent"
   ],
   "note": "At strains where the strain norm equals the history variable, at zero volumetric strain of the unilateral law and at the kinks of the damage law the stress has no derivative in general."
  },
  {
   "property": "C76",
   "status": "partial",
   "theorems": [
    "C76_derivatives",
    "C76_rational_derivatives",
    "C76_surface",
    "C76_surface_second_direction_0",
    "C76_surface_second_refuted"
   ],
   "note": "Derivative table of every order, rational curve derivatives up to order 2, surface first derivatives and the second derivative in direction 0 proved; the code's second derivative in direction 1 and its mixed derivative are wrong (lines 515 and 523), refuted on a bilinear patch."
  },
  {
   "property": "C77",
   "status": "partial",
   "theorems": [
    "C77_result_files_partial",
    "C77_overlapping_names_refuted",
    "C77_interrupted_plot_refuted"
   ],
   "note": "Proved if no call throws and no visualizer name ends with a digit. False in general: names a and a1 share the file a11.vtu; after a Plot that threw half way the step number is used again and a result file is overwritten."
  },
  {
   "property": "C78",
   "status": "partial",
   "theorems": [
    "C78_event_found_partial",
    "C78_resting_spheres_refuted",
    "C78_early_barrier_refuted"
   ],
   "note": "False of the code: with an empty list the new barrier is oldGlobalTime + 10*(oldGlobalTime - time of last reset), which is 0 in the first pass; PerformNextEvent then dereferences begin() of an empty set. Refuted for every packing of spheres at rest and for a moving sphere whose first collision lies after the initial barrier. Proved: whenever an event is predicted up to the current barrier the next pass finds and performs one not later than it."
  },
  {
   "property": "C79",
   "status": "partial",
   "theorems": [
    "C79_every_triangulation_reads_freed_memory_refuted"
   ],
   "note": "The property is false for every set of points that do not all share an x or a y coordinate: a triangle with two corners of the enclosing quad is queued twice for removal, and the second remove reads the freed triangle."
  },
  {
   "property": "C80",
   "status": "proved",
   "theorems": [
    "C80_linear_elastic",
    "C80_local_damage",
    "C80_gradient_damage",
    "C80_interaction",
    "C80_virtual_work"
   ],
   "note": "Exact reals; the matrices N and B of the integration point are arbitrary. States at kinks (zero volumetric strain with unilateral damage, zero strain norm, eeq = kappa, kinks of the damage law) are excluded, there no derivative exists (C43, C44, C75)."
  },
  {
   "property": "C81",
   "status": "partial",
   "theorems": [
    "C81_history",
    "C81_irreversible",
    "C81_evaluation_is_pure",
    "C81_damage_used",
    "C81_unallocated_refuted",
    "C81_plane_stress_refuted",
    "C81_fresh_history"
   ],
   "note": "The history is proved for all call sequences. False of the code: a freshly constructed GradientDamage has a history of size 0x0, every call before the user resizes the public member is out of bounds; the constructor from material parameters uses the plane strain norm also for plane stress."
  },
  {
   "property": "C82",
   "status": "proved",
   "theorems": [
    "C82_load",
    "C82_mass"
   ],
   "note": "Exact reals; with Matrix::N of any shape function values."
  },
  {
   "property": "C83",
   "status": "partial",
   "theorems": [
    "C83_renumber_keeps_values",
    "C83_gradient",
    "C83_hessian",
    "C83_update",
    "C83_history_once",
    "C83_bind",
    "C83_other_types_refuted"
   ],
   "note": "Proved for all numberings, constraints on mesh nodes and schedules; nodes belong to one dof type and values are exact reals. False of the code: RenumberDofs replaces the DofInfo of the assembler, so every other dof type can no longer be assembled, also if it was renumbered before."
  },
  {
   "property": "C84",
   "status": "partial",
   "theorems": [
    "C84_cell_ids",
    "C84_default_ids_refuted"
   ],
   "note": "Within one call proved. False across calls: with the default start id two groups share ids and therefore history rows."
  },
  {
   "property": "C85",
   "status": "partial",
   "theorems": [
    "C85_residual",
    "C85_optimal",
    "C85_nonsingular",
    "C85_default_preconditioner",
    "C85_true_residual_refuted",
    "C85_small_rhs_refuted",
    "C85_full_space_refuted",
    "C85_singular_refuted"
   ],
   "note": "Proved in exact arithmetic for the preconditioned residual: it is bounded by the tolerance if fewer restarts than allowed are returned, never grows, and is minimal over the Krylov space; no breakdown for regular A and krylovDimension < n. Refuted: the tolerance bounds only the preconditioned residual (A = 1000 I returns the start vector 0); a rhs below 1e-5 gets an absolute tolerance; krylovDimension >= n (or n = 1) reads s out of bounds; a singular A returns 0 restarts with an x that is no number."
  },
  {
   "property": "C86",
   "status": "partial",
   "theorems": [
    "C86_least_squares",
    "C86_boundary_conditions",
    "C86_history",
    "C86_constrained_minimum_refuted",
    "C86_singular_refuted",
    "C86_lower_degree_refuted",
    "C86_unbuilt_refuted"
   ],
   "note": "Minimality, uniqueness and reproduction proved without boundary conditions; boundary conditions are met exactly when the system is regular; the fitter works with what was set last and refuses a boundary condition exactly when there are as many as the degree. False of the code: with boundary conditions the first rows of the normal equations are dropped, so the result is not the constrained minimum, and the system can be singular although the minimum is unique; lowering the degree after adding boundary conditions writes out of bounds; SolveTransformed of a new object answers 0."
  },
  {
   "property": "C87",
   "status": "partial",
   "theorems": [
    "C87_accepts",
    "C87_rejects_partial",
    "C87_membership_partial",
    "C87_default",
    "C87_tolerance",
    "C87_pyramid_partial",
    "C87_pyramid_refuted"
   ],
   "note": "Finding: Pyramid::IsWithinShape never bounds z from below, so (50, 50, -100) is within the pyramid for every tolerance. Proved for the six other shapes, with the distance bound e for what a tolerance e accepts; for the pyramid the same is proved for points above the base (distance bound 2 e)."
  },
  {
   "property": "C88",
   "status": "partial",
   "theorems": [
    "C88_gauss",
    "C88_gauss_interior",
    "C88_lobatto",
    "C88_triangle_partial",
    "C88_tetrahedron_partial",
    "C88_prism",
    "C88_outside_refuted",
    "C88_negative_integral_refuted"
   ],
   "note": "Proved for all Gauss and Lobatto rules (exact roots) on lines, quadrilaterals and hexahedra and for the prism. The tables are characterised exactly: triangle orders 11, 15, 16, 18, 20 and tetrahedron order 9 have points outside of the element; triangle orders 3, 7, 18, 20 and all tetrahedron orders except 1, 2, 5, 6 have negative weights."
  },
  {
   "property": "C89",
   "status": "partial",
   "theorems": [
    "C89_geometry",
    "C89_data",
    "C89_separate",
    "C89_brick_refuted",
    "C89_empty_refuted",
    "C89_mismatch_refuted"
   ],
   "note": "Proved for all supported cells and calls. Findings: AverageHandler has no geometry for hexahedra and pyramids (the constructor throws), it reads values[0] of a cell without integration points, and a mismatch between handler and number of integration points is only checked by an assert."
  },
  {
   "property": "C90",
   "status": "partial",
   "theorems": [
    "C90_gauss",
    "C90_lobatto",
    "C90_equidistant",
    "C90_zero_refuted"
   ],
   "note": "The tiling and the nearest point property hold for all n and d given increasing exact roots (FindLegendreRoots sorts them). Finding: zero equidistant cells divide 0 by 0 and return a geometry with one point that is not a number instead of an error. Triangles (boost Voronoi) are not modelled."
  },
  {
   "property": "C91",
   "status": "partial",
   "theorems": [
    "C91_distance_particles_partial",
    "C91_fraction_particles_partial",
    "C91_overshoot_refuted",
    "C91_wall_clock_refuted",
    "C91_specimen_freed_refuted",
    "C91_specimen_partial",
    "C91_growth_rates",
    "C91_named_curves",
    "C91_cylinder_specimen",
    "C91_cylinder_distance_partial",
    "C91_cylinder_fraction_partial",
    "C91_cylinder_open_refuted"
   ],
   "note": "Proved end to end for box specimens without status output: no overlap, inside, radii kept, and the distance or the volume reached unless the wall clock or an ignored exception ended the run. Hypotheses taken from the findings of C64, C65 and C66 (positive diameters, a particle in every size class, diameters below the specimen). Refuted: the particles are grown up to the first event after the final time, so they may become much larger than asked (a ball of diameter 2 ends with 10); when the wall clock ends the simulation the call returns normally although the distance is not reached; SetSpecimenBox with a refused box after a valid one leaves a dangling pointer that the destructor deletes again. Cylinder specimens: the same when the cylinder is cut into at least two sub-boxes across and the balls stay narrower than the cylinder. Refuted for cylinders with fewer than 10 particles in MaximizeParticleVolumeFraction: there is one sub-box, it gets no mantle, and a ball drifts out of the cylinder."
  },
  {
   "property": "C92",
   "status": "proved",
   "theorems": [
    "C92_slice",
    "C92_export"
   ],
   "note": "Exact reals; the growing of the result matrix in steps of 1000 rows is not modelled."
  },
  {
   "property": "C93",
   "status": "partial",
   "theorems": [
    "C93_reads_partial",
    "C93_checked",
    "C93_vector_ends",
    "C93_documented_example_refuted",
    "C93_directory_refuted",
    "C93_comment_refuted",
    "C93_truncated_refuted",
    "C93_cut_file_refuted",
    "entries_file"
   ],
   "note": "Proved: every file of the grammar (comments shorter than the skip buffer, directory below 58 characters) is read to the values written in it, and CheckInputs accepts exactly the consistent inputs; ReadVector ends when the stream is good up to the terminator. Refuted: the example file in the documentation of the class makes ReadVector loop for ever; the directory is cut after 57 characters, because the delimiter ';' is passed as the buffer size; a comment of 1001 or more characters makes the next number 0 or undefined; a truncated file leaves uninitialised values.  A file that stops behind any of its entries is described exactly: an exception only when the directory is missing, uninitialised values in front of a number or switch, an endless loop in front of a vector (C93_cut_file_refuted)."
  },
  {
   "property": "C94",
   "status": "partial",
   "theorems": [
    "C94_round_trip_partial",
    "C94_precision_refuted",
    "C94_delimiter_refuted",
    "C94_nonfinite_refuted",
    "C94_shape_refuted",
    "C94_ragged_refuted",
    "C94_nonfinite_text"
   ],
   "note": "Proved: for non-empty matrices of finite entries and a delimiter that does not occur in numbers the shape is kept and every entry is the one written up to the printed digits. Refuted: the printed digits are too few for some doubles, a delimiter that occurs in numbers, infinite entries and NaN, matrices without rows or columns, and files with rows of different length."
  },
  {
   "property": "C95",
   "status": "partial",
   "theorems": [
    "C95_prefix_partial",
    "C95_total_partial",
    "C95_empty_refuted",
    "C95_embedded_refuted",
    "C95_reopen_refuted"
   ],
   "note": "Proved for messages that are not empty and contain a newline only as last character of a string or a character message. Refuted: an empty string reads in front of the string (undefined); a newline inside a message, or at the end of a printed object, starts a line without prefix; opening the same log file again empties it."
  },
  {
   "property": "C96",
   "status": "partial",
   "theorems": [
    "C96_box_partial",
    "C96_cylinder_partial",
    "C96_disks_partial",
    "C96_groups",
    "C96_digits",
    "C96_disjoint",
    "C96_no_aggregates_refuted",
    "C96_cylinder_orientation_refuted",
    "C96_half_circles_refuted",
    "C96_overlap_refuted",
    "C96_interface_2d_refuted",
    "C96_groups_2d"
   ],
   "note": "Proved for boxes with at least one aggregate and 0 <= h <= r, in 3D; for the cylinder its surface is closed but its faces are not compatibly oriented and its arcs are half circles (refuted); plain disks are half circles too; without aggregates the script reads unassigned lists; six digits can make touching aggregates overlap (C96_disjoint gives the sufficient distance); the 2D interface is put outside of the full radius so that interfaces can overlap although the aggregates have the distance h."
  },
  {
   "property": "C97",
   "status": "partial",
   "theorems": [
    "C97_interpolation_partial",
    "C97_surface_partial",
    "C97_shape_partial",
    "C97_gradient",
    "C97_integral_factor",
    "C97_right_end",
    "C97_right_end_refuted",
    "C97_length_refuted",
    "C97_derivative_factor",
    "C97_surface_derivatives",
    "C97_surface_jacobian",
    "C97_surface_integral_factor",
    "C97_area_refuted"
   ],
   "note": "Interpolation, shape functions and (1D) derivatives with respect to the place are proved right for every curve and surface on the half-open element. Two violations, both proved: at the right end of an element that is followed by another one the functions of the next element are combined with this element's control points (the span search is done again), and the derivative shape functions are with respect to the knot parameter, so every integral over an element is off by the factor 2 / (knot interval). For surfaces in the plane and in space the Jacobian and integrals are proved with the same missing factors (the unit square as one element gets the area 4)."
  },
  {
   "property": "C98",
   "status": "proved",
   "theorems": [
    "C98_available",
    "C98_created",
    "C98_complete",
    "C98_facet",
    "C98_conforming",
    "C98_lobatto",
    "C98_lobatto_basis"
   ],
   "note": "Conformity and completeness are proved for the Lagrange interpolations; the Lobatto ones are nodal bases with the right gradients for every order and shape, their completeness per direction is C39."
  },
  {
   "property": "C99",
   "status": "proved",
   "theorems": [
    "C99_patch",
    "C99_force_balance",
    "C99_moment_balance",
    "C99_rigid_motion",
    "C99_stiffness",
    "C99_no_spurious_modes"
   ],
   "note": "Over R. The fourth order elements are excluded because their coefficients are rounded (C36_fourth_order_refuted). Caches of CellIpData are transparent by C21."
  },
  {
   "property": "C100",
   "status": "proved",
   "theorems": [
    "C100_average"
   ],
   "note": "long double modelled as R."
  },
  {
   "property": "C101",
   "status": "proved",
   "theorems": [
    "C101_density"
   ],
   "note": "double modelled as R."
  },
  {
   "property": "C102",
   "status": "partial",
   "theorems": [
    "C102_lines",
    "C102_monotone_refuted"
   ],
   "note": "Lines, messages and sums are proved. Finding: times can be negative because the wall clock is system_clock, which may be set back."
  },
  {
   "property": "C103",
   "status": "partial",
   "theorems": [
    "C103_dispatch",
    "C103_rejected_partial",
    "C103_mumps_message_refuted",
    "C103_solution",
    "C103_failure_refuted"
   ],
   "note": "Findings: without MUMPS the name MumpsLDLT is reported as unknown (typo MUMPSLDLT in the comparison); solver.info() is never checked, so failed factorisations and diverged iterations are returned silently."
  },
  {
   "property": "C104",
   "status": "partial",
   "theorems": [
    "C104_line_parameter",
    "C104_segment_partial",
    "C104_closest_partial",
    "C104_distance",
    "C104_edge_index_partial",
    "C104_edge_index_refuted",
    "C104_segment_refuted",
    "C104_no_intersection_refuted"
   ],
   "note": "Proved for all lines that are not parallel to a side. Findings: GetDistance measures the distance to the infinite line, so GetEdgeIndex reports points on the prolongation of a side as points of the side; a segment that runs along a side does not intersect; a line that misses the polygon gets the point 1e10 directions away as its closest intersection (the throw is commented out)."
  },
  {
   "property": "C105",
   "status": "proved",
   "theorems": [
    "C105_force_balance",
    "C105_moment_balance",
    "C105_reactions",
    "C105_rigid_motion",
    "C105_stiffness",
    "C105_load",
    "C105_mass",
    "C105_patch_test",
    "C105_stiffness_any_geometry"
   ],
   "note": "End to end: numbering, cell integration, integrand and assembly are all modelled; reals instead of doubles. One dof type with as many components as the space has dimensions. C105_patch_test: a homogeneous deformation of a mesh of linear triangles or tetrahedra of one material needs no force at inner nodes.  C105_stiffness_any_geometry needs no common interpolation of geometry and displacements."
  },
  {
   "property": "C106",
   "status": "proved",
   "theorems": [
    "C106_assembles",
    "C106_energy",
    "C106_supports",
    "C106_solve",
    "C106_trial",
    "C106_supported_body",
    "C106_patch_test",
    "C106_load_cases"
   ],
   "note": "End to end over the models of numbering, integration, assembly, constraints and Solve; reals instead of doubles. The linear solver is a parameter that is correct and solves every regular system; a solver by elimination that meets this is proved beside the theorems. The constraints do not mention the same dof as dependent and independent in one equation, and their coefficients are zero or above the drop tolerance 1e-18 (see C13, C24).  C106_patch_test is the patch test end to end: a body of linear triangles or tetrahedra whose boundary nodes are moved by an affine field, with nodes inside free, gets exactly that field at every node from numbering, stiffness assembly and SolveTrialState (exact arithmetic).  C106_load_cases: superposition of load cases, reciprocity (Betti) and positive compliance of what Solve returns."
  },
  {
   "property": "C107",
   "status": "proved",
   "theorems": [
    "C107_roots",
    "C107_derivative_roots",
    "C107_no_polynomial",
    "C107_stable",
    "C107_gauss_rule",
    "C107_lobatto_rule",
    "C107_lobatto_weights"
   ],
   "note": "Exact arithmetic: reals instead of doubles, M_PI as pi; that the test |x - xnew| < 1e-15 also becomes true under rounding is not modelled. The comments in Legendre.h:23 and :28 announce n-1 and n-2 roots; the code returns n and n-1, which is what its callers need."
  },
  {
   "property": "C108",
   "status": "partial",
   "theorems": [
    "C108_constraints_follow",
    "C108_constraints_kept_partial",
    "C108_balance_partial",
    "C108_linear",
    "C108_path",
    "C108_supported_body",
    "C108_report_partial",
    "C108_constant_value_refuted",
    "C108_two_types_refuted",
    "C108_report_refuted",
    "C108_patch_test"
   ],
   "note": "Proved for every history: constraints change with their right hand sides, hence stay fulfilled if they are at the start; one dof type: a successful step leaves at most tolerance times length of virtual work, linear problems reach the unique equilibrium in the trial step and are independent of the path, also for the supported bodies of C106. The code violates the rest (findings): only the change of a right hand side is imposed, so a constraint with a constant value is never imposed on a solution that starts elsewhere (C108_constant_value_refuted); for two or more dof types the blocks of mCmatUnit overlap because the zero blocks are 0 x 0, so residuals of different types cancel in the norm and a state that is no equilibrium is accepted (C108_two_types_refuted); WriteTimeDofResidual evaluates the gradient at the time before the step, so loads that depend on time give a wrong residual (C108_report_refuted). The reports are right for gradients that do not depend on time (C108_report_partial).  C108_patch_test: a body of linear triangles or tetrahedra whose prescribed displacements are at each time an affine field has exactly that field at every node after every history of DoStep calls with a success, failed calls included."
  },
  {
   "property": "C109",
   "status": "partial",
   "theorems": [
    "C109_corners",
    "C109_no_boundary",
    "C109_nearest_partial",
    "C109_again",
    "C109_two_corners_refuted",
    "C109_after_failure_refuted",
    "C109_cut_partial",
    "C109_inner_partial",
    "C109_hull_partial",
    "C109_right_triangle_refuted"
   ],
   "note": "Proved for any triangulation and traversal order: one cell per point, corners on the boundary or equidistant from a neighbour, failure without a boundary, same result when repeated; for points whose circumcenters lie inside of the boundary, the hull of the computed corners is closest to the cell's point, and if moreover these circumcenters lie on no side of the boundary and triangles surround the point, the cell consists exactly of the points closest to it (C109_inner_partial). For points at the hull the corners other than those of the boundary are proved closest to the cell's point as long as no hull edge runs through (within 1e-4 of) the circumcenter of its triangle (C109_hull_partial). Missing: exact cells when they are cut by the boundary. Violated: next to a right triangle whose longest side is a hull edge, the cell's edge may run back through the triangle, depending on the order of the two ends (C109_right_triangle_refuted); a cell that contains two corners of the boundary throws (three points in a square suffice), and after such a failure the next call returns normally with empty cells. The corner of the boundary that a cut cell gets is proved for two consecutive boundary points on sides with a common corner."
  },
  {
   "property": "C110",
   "status": "partial",
   "theorems": [
    "C110_polygons",
    "C110_triangles",
    "C110_no_triangles_refuted"
   ],
   "note": "Proved for all lists of cells with at least one corner each: points without repetition, indices of the corners in order, n - 2 triangles per cell, signed areas add up to the shoelace formula of the cell, convex cells give triangles of the same orientation, points transformed back. Violated: points without triangles (one or two points, points on a line) get cells without corners, and the triangulation reads the first corner of an empty vector (undefined behaviour)."
  },
  {
   "property": "C111",
   "status": "partial",
   "theorems": [
    "C111_points",
    "C111_number",
    "C111_rules",
    "C111_refuses_partial",
    "C111_unchecked_refuted",
    "C111_orders_refuted",
    "C111_gauss_fits",
    "C111_lobatto_fits",
    "C111_tables_measure",
    "C111_shape_determined"
   ],
   "note": "Proved for every object: each reported point can be read, with the right number of coordinates, and a loop reads the rules of C34 and C35; tensor product types refuse other indices. Findings: the simplex types read behind their tables for an index out of range, the prism types return a point or weight for any index, the constructor of triangle types accepts every order and that of tetrahedron types reads out of range above order 21 (the IntegrationCompanion functions check the order). IntegrationType0DBoundary leaves GetShape pure virtual, so no object of it exists. The reported shape is the element in which the points lie and whose length, area or volume the weights add up to."
  },
  {
   "property": "C112",
   "status": "partial",
   "theorems": [
    "C112_fraction",
    "C112_energy_partial",
    "C112_energy_refuted",
    "C112_undisturbed_partial"
   ],
   "note": "The fraction of a line is that of its time, and the last line has the right energy. Finding: LogStatus adds up the kinetic energy before Sync, so each growing sphere counts with the radius of its own last event and the energy in the line is too small. Writing a line changes no motion, no event and not the effect of the next event; the predictions of later events are not compared (tolerances)."
  },
  {
   "property": "C113",
   "status": "partial",
   "theorems": [
    "C113_entries_kept",
    "C113_result_file_first",
    "C113_results_kept",
    "C113_first_and_last_moment",
    "C113_readable_refuted",
    "C113_empty_file_refuted",
    "C113_every_moment"
   ],
   "note": "Proved at every moment: header and earlier entries are kept, earlier result files are complete, the result file is complete before its entry. The moments begin with the state before the call and end with the state after it. False: the new entry is written over the closing lines of the .pvd file first, so a kill after that leaves a collection that is not closed (C113_readable_refuted), and the first plot of a visualizer opens an empty file (C113_empty_file_refuted). Buffering by the operating system is not modelled: a character counts as written when it is inserted."
  },
  {
   "property": "C114",
   "status": "partial",
   "theorems": [
    "C114_missing_lines_rejected_partial",
    "C114_cut_number_refuted",
    "C114_binary_refuted",
    "C114_matrix_file_refuted",
    "C114_gmsh_refuted",
    "C114_gmsh_partial",
    "C114_gmsh_binary_partial",
    "C114_gmsh_binary_refuted",
    "C114_gmsh_ascii_elements_refuted",
    "C114_gmsh_header_partial",
    "C114_gmsh_header_refuted",
    "C114_gmsh_names_partial"
   ],
   "note": "True: a text stream from which lines with data are missing is rejected at the first missing line. False: a number cut in its digits is read as the shorter number (C114_cut_number_refuted), binary streams never report that bytes are missing (C114_binary_refuted), a matrix file that lost rows is read as a smaller matrix (C114_matrix_file_refuted), and a Gmsh file that ends after its nodes is read as a mesh without elements (C114_gmsh_refuted). A Gmsh file that ends inside of its nodes or elements is never read as a mesh (C114_gmsh_partial).  Gmsh files cut inside a section are never read as a mesh; binary files are rejected with an exception except in the header of the first block, where unread numbers are used (C114_gmsh_binary_refuted), ASCII files use an unread number of tags (C114_gmsh_ascii_elements_refuted), and an empty file or one cut in the header is read with a version that has no value (C114_gmsh_header_refuted). A file that ends inside of the physical names is rejected with an exception (C114_gmsh_names_partial)."
  },
  {
   "property": "C115",
   "status": "partial",
   "theorems": [
    "C115_available",
    "C115_gauss_partial",
    "C115_lobatto_partial",
    "C115_lobatto_order2_refuted",
    "C115_triangle20_refuted"
   ],
   "note": "Proved for all shapes and orders: an object of the given shape exactly for the orders that exist, otherwise an exception; with exact zeros of the Legendre polynomials, Gauss types integrate every polynomial of total degree order up to 3e-12 per unit of coefficient (tensor products without error), Lobatto types of order 3 and above too. False: Lobatto types of order 2 integrate only linear functions (C115_lobatto_order2_refuted; the order is used as the number of points), and the triangle type of order 20 has a wrong table (C115_triangle20_refuted). No order exists for pyramids."
  }
 ]
}