{
 "claims": [
  {
   "property": "C01",
   "status": "proved",
   "theorems": [
    "C01_det_is_determinant",
    "C01_det_nonsquare",
    "C01_det_identity",
    "C01_det_product",
    "C01_det_transpose",
    "C01_det_equal_rows"
   ],
   "note": "Determinant = mathcomp \\det for matrices of every size over R."
  },
  {
   "property": "C02",
   "status": "proved",
   "theorems": [
    "C02_inverse_two_sided",
    "C02_inverse_singular",
    "C02_inverse_other_shapes"
   ],
   "note": ""
  },
  {
   "property": "C03",
   "status": "proved",
   "theorems": [
    "C03_matmul_spec",
    "C03_matmul_shape_error",
    "C03_matmul_assoc",
    "C03_dot_is_product_with_column",
    "C03_dot_agrees_with_matmul",
    "C03_transpose_of_product"
   ],
   "note": ""
  },
  {
   "property": "C04",
   "status": "proved",
   "theorems": [
    "C04_reshape_then_flatten",
    "C04_reshape_outcome",
    "C04_flatten_then_reshape",
    "C04_transpose_involutive"
   ],
   "note": ""
  },
  {
   "property": "C05",
   "status": "proved",
   "theorems": [
    "C05_vector_get",
    "C05_matrix_get"
   ],
   "note": ""
  },
  {
   "property": "C06",
   "status": "partial",
   "theorems": [
    "C06_tensor_get_partial",
    "C06_tensor_get_refuted",
    "C06_negative_index_wraps"
   ],
   "note": "REFUTED as stated: Tensor3D.__getitem__ checks only the first index, so negative j, k wrap around. Proved: the part that holds (in-range access, everything else outside the wrap range raises) and that every negative index in range wraps."
  },
  {
   "property": "C07",
   "status": "proved",
   "theorems": [
    "C07_vector_add",
    "C07_vector_sub",
    "C07_vector_laws",
    "C07_vector_norm",
    "C07_vector_cauchy_schwarz",
    "C07_matrix_add_sub",
    "C07_matrix_scaling",
    "C07_scalar_product"
   ],
   "note": ""
  },
  {
   "property": "C08",
   "status": "partial",
   "theorems": [
    "C08_dot_equal_sizes_partial",
    "C08_dot_truncates_refuted"
   ],
   "note": "REFUTED as stated: Vector.dot does not check sizes and truncates. Proved: equal sizes give the inner product; unequal sizes give the product of the truncations."
  },
  {
   "property": "C09",
   "status": "partial",
   "theorems": [
    "C09_sum_is_one",
    "C09_assert_bounds_partial",
    "C09_assert_bounds_sum_refuted",
    "C09_sum_error"
   ],
   "note": "REFUTED in part: the sum is 1 at construction, clamping is correct per weight, but assert_bounds breaks sum = 1 (witness); the error is bounded by the total bound violation."
  },
  {
   "property": "C10",
   "status": "proved",
   "theorems": [
    "C10_matrix_constructor",
    "C10_tensor_constructor",
    "C10_operations_keep_shape_invariant",
    "C10_vector_stack",
    "C10_matrix_stack"
   ],
   "note": ""
  },
  {
   "property": "C11",
   "status": "proved",
   "theorems": [
    "C11_grid_succeeds",
    "C11_vertices_numbered",
    "C11_points_are_the_lattice",
    "C11_extent"
   ],
   "note": "All rectangles, scales, fix options and set orders, in exact real arithmetic (int() truncation of the exact quotient)."
  },
  {
   "property": "C12",
   "status": "proved",
   "theorems": [
    "C12_edges_valid",
    "C12_edges_unique",
    "C12_edges_join_neighbours"
   ],
   "note": ""
  },
  {
   "property": "C13",
   "status": "proved",
   "theorems": [
    "C13_triangles_shape",
    "C13_triangles_unique",
    "C13_areas_add_up"
   ],
   "note": ""
  },
  {
   "property": "C14",
   "status": "proved",
   "theorems": [
    "C14_sides_are_edges",
    "C14_edges_in_one_or_two_triangles",
    "C14_boundary_edges_are_edges",
    "C14_euler"
   ],
   "note": ""
  },
  {
   "property": "C15",
   "status": "proved",
   "theorems": [
    "C15_covering",
    "C15_no_overlap"
   ],
   "note": ""
  },
  {
   "property": "C16",
   "status": "proved",
   "theorems": [
    "C16_boundary_is_outline",
    "C16_dirichlet_edges",
    "C16_neumann_edges",
    "C16_dirichlet_within_boundary"
   ],
   "note": ""
  },
  {
   "property": "C17",
   "status": "proved",
   "theorems": [
    "C17_dirichlet_vertices",
    "C17_no_fix",
    "C17_dirichlet_edge_ends"
   ],
   "note": ""
  },
  {
   "property": "C18",
   "status": "partial",
   "theorems": [
    "C18_neumann_vertices_exact_partial",
    "C18_neumann_edge_ends_partial",
    "C18_only_ends_of_neumann_edges_refuted"
   ],
   "note": "REFUTED as stated: inner vertices of a fixed side are Neumann vertices without touching a Neumann edge (proved for every grid with the left side fixed). Proved: exact characterisation, and the half that every end of a Neumann edge is a Neumann vertex (grids with at least one cell in each direction)."
  },
  {
   "property": "C19",
   "status": "partial",
   "theorems": [
    "C19_single_name_is_singleton_list",
    "C19_order_and_repetition",
    "C19_unknown_name_rejected_refuted"
   ],
   "note": "REFUTED in part: unknown names are silently ignored (proved for every unknown name). Proved: order/repetition independence even across different set orders, single name = singleton list."
  },
  {
   "property": "C20",
   "status": "proved",
   "theorems": [
    "C20_never_raises",
    "C20_coordinates_reproduce_point",
    "C20_coordinates_bounded_below",
    "C20_inside_is_found",
    "C20_outside_is_none",
    "C20_meshes",
    "C20_meshes_inside"
   ],
   "note": "Exact real arithmetic; the bounds on coordinates and the None clause need mesh width >= 1e-5 because the containment tolerance 1e-10 is absolute (see C21)."
  },
  {
   "property": "C21",
   "status": "partial",
   "theorems": [
    "C21_grid_point_is_corner_partial",
    "C21_every_scale_refuted"
   ],
   "note": "REFUTED at mesh widths <= 1e-5 (proved for every such grid with at least two columns): the absolute tolerance 1e-10 accepts the first triangle although it does not contain the point. Proved for every mesh width above 1e-5."
  },
  {
   "property": "C22",
   "status": "proved",
   "theorems": [
    "C22_inverts_points",
    "C22_first_close_vertex",
    "C22_tolerance_below_mesh_width"
   ],
   "note": ""
  },
  {
   "property": "C23",
   "status": "proved",
   "theorems": [
    "C23_append_edges",
    "C23_constructor_mean"
   ],
   "note": ""
  },
  {
   "property": "C24",
   "status": "partial",
   "theorems": [
    "C24_renumbering_is_equal_partial",
    "C24_reflexive",
    "C24_set_order_irrelevant",
    "C24_equal_means_partial",
    "C24_symmetric_refuted"
   ],
   "note": "REFUTED in part: symmetry fails because the tolerance is taken from the left operand (witness for every scale). Proved: reflexivity, invariance under every renumbering/reordering, soundness, symmetry for grids of the same rectangle."
  },
  {
   "property": "C25",
   "status": "proved",
   "theorems": [
    "C25_triangle_vertices",
    "C25_triangle_unknown",
    "C25_edge_vertices",
    "C25_edge_unknown",
    "C25_edge_reversed"
   ],
   "note": ""
  },
  {
   "property": "C26",
   "status": "proved",
   "theorems": [
    "C26_curves",
    "C26_inside",
    "C26_outline",
    "C26_single_point_raises",
    "C26_default_counts"
   ],
   "note": ""
  },
  {
   "property": "C27",
   "status": "proved",
   "theorems": [
    "C27_rectangle_grid_is_mesh",
    "C27_refinement_is_fine_mesh",
    "C27_chains",
    "C27_subtriangle_count"
   ],
   "note": "Any triangulated lattice rectangle (all rectangle grids with at least one cell and, by C27_chains, every chain of refinements of them), any factor >= 1, exact real arithmetic; the fine width must be at least 1e-15 (the code's coincidence and assertion tolerances are absolute)."
  },
  {
   "property": "C28",
   "status": "partial",
   "theorems": [
    "C28_equal_without_fixed_sides_partial",
    "C28_all_but_neumann_vertices_partial",
    "C28_fixed_side_refuted"
   ],
   "note": "REFUTED as stated: whenever a side is fixed and the factor is at least 2 the refined grid lacks the inner vertices of the fixed side among its Neumann vertices and == is not True (proved for every such grid; the repository's own test_equilateral_grid_refine exercises such a case). Proved: equality when no side is fixed, and everything except the Neumann vertices always."
  },
  {
   "property": "C29",
   "status": "proved",
   "theorems": [
    "C29_unknown_triangle",
    "C29_same_point"
   ],
   "note": "Any triangulated lattice rectangle and factor; exact real arithmetic."
  },
  {
   "property": "C30",
   "status": "proved",
   "theorems": [
    "C30_same_edge_point",
    "C30_boundary_edges"
   ],
   "note": "All fine edges on horizontal or vertical coarse edges, in particular every boundary edge."
  },
  {
   "property": "C31",
   "status": "partial",
   "theorems": [
    "C31_diagonal_edges_refuted",
    "C31_affected_edges_exist_refuted",
    "C31_reversed_edge_partial",
    "C31_inner_edges_raise"
   ],
   "note": "REFUTED: every fine edge on a diagonal coarse edge raises ValueError because the dictionaries hold it in the opposite orientation (proved for every refined grid, and that such edges always exist). Proved: reversed, it is answered correctly; edges on no coarse edge raise ValueError as documented."
  },
  {
   "property": "C32",
   "status": "proved",
   "theorems": [
    "C32_boundary_edges",
    "C32_boundary_vertices"
   ],
   "note": ""
  },
  {
   "property": "C33",
   "status": "proved",
   "theorems": [
    "C33_bad_factor",
    "C33_no_other_failure",
    "C33_reachable_grids"
   ],
   "note": ""
  },
  {
   "property": "C34",
   "status": "proved",
   "theorems": [
    "C34_centroid",
    "C34_vertex",
    "C34_dunavant2",
    "C34_dunavant3"
   ],
   "note": "Rules as built by the model of the constructor; polynomials as coefficient lists; integral = iterated Riemann integral (Coquelicot RInt)."
  },
  {
   "property": "C35",
   "status": "proved",
   "theorems": [
    "C35_dunavant4",
    "C35_dunavant5"
   ],
   "note": "Over exact reals with the decimal literals of the source; checked in Q by vm_compute for all monomials, lifted to all polynomials by linearity."
  },
  {
   "property": "C36",
   "status": "partial",
   "theorems": [
    "C36_accepted_iff",
    "C36_rejected_with_value_error",
    "C36_constants_partial",
    "C36_length_mismatch_accepted_refuted"
   ],
   "note": "Partial: acceptance is characterised exactly (C36_accepted_iff) and constants are right if there are as many weights as points; the code does not check that (C36_length_mismatch_accepted_refuted: weights [1], no points, accepted, integral of 1 is 0)."
  },
  {
   "property": "C37",
   "status": "proved",
   "theorems": [
    "C37_transplanted",
    "C37_failure_passed_on"
   ],
   "note": "numpy's leggauss is an oracle; its exactness on [-1,1] is the hypothesis; gauss1/gauss2 show that the one- and two-point rules meet it."
  },
  {
   "property": "C38",
   "status": "proved",
   "theorems": [
    "C38_areas",
    "C38_only_plane_triangles",
    "C38_linear",
    "C38_constant",
    "C38_areas_independent_of_vertex_order",
    "C38_triangle_integral_corner_order",
    "C38_exact",
    "C38_rectangle"
   ],
   "note": "Includes exactness over arbitrary triangles for piecewise polynomials and, on the rectangle grid, equality with the iterated integral over the rectangle."
  },
  {
   "property": "C39",
   "status": "proved",
   "theorems": [
    "C39_lengths",
    "C39_linear",
    "C39_exact",
    "C39_degree_one_affine",
    "C39_constant",
    "C39_degree_one_not_exact_for_squares"
   ],
   "note": "Also shown: the one-point rule the code uses is not exact for squares (observation)."
  },
  {
   "property": "C40",
   "status": "proved",
   "theorems": [
    "C40_vertex_values",
    "C40_affine",
    "C40_derivative",
    "C40_shared_edge",
    "C40_continuous",
    "C40_total"
   ],
   "note": "Nodal values, affine reproduction, true gradient and shared edges for every grid whose parameters exist at the corners; on every lattice mesh the evaluation is total and the value at a point does not depend on the triangle used."
  },
  {
   "property": "C41",
   "status": "proved",
   "theorems": [
    "C41_vertex"
   ],
   "note": "Over the reals; for every listing order of the vertices."
  },
  {
   "property": "C42",
   "status": "proved",
   "theorems": [
    "C42_quartic"
   ],
   "note": "Over the reals; polynomials as finite sums of monomials of total degree <= 4, parameters are the jets (Coquelicot derivatives) at the three vertices."
  },
  {
   "property": "C43",
   "status": "proved",
   "theorems": [
    "C43_derivatives",
    "C43_everywhere"
   ],
   "note": "First and second partial derivatives (Coquelicot is_derive) of one function of the Euclidean point; every point of the plane has exactly one coordinate triple."
  },
  {
   "property": "C44",
   "status": "proved",
   "theorems": [
    "C44_across_edge",
    "C44_single_function",
    "C44_total"
   ],
   "note": "Element level for arbitrary opposite vertices and listing orders; grid level: on every lattice mesh value and gradient at a point agree for all triangles containing it."
  },
  {
   "property": "C45",
   "status": "proved",
   "theorems": [
    "C45_on_edge",
    "C45_total",
    "C45_C1_on_edge"
   ],
   "note": "All three edges and both orientations (via listings); the edge function never fails."
  },
  {
   "property": "C46",
   "status": "proved",
   "theorems": [
    "C46_value",
    "C46_derivatives"
   ],
   "note": "Value for all triangles including degenerate ones; gradient and Hessian for non-degenerate triangles."
  },
  {
   "property": "C47",
   "status": "proved",
   "theorems": [
    "C47_same_point",
    "C47_value_and_gradient",
    "C47_P1_value",
    "C47_on_edge"
   ],
   "note": "For every refinement of a lattice mesh whose fine width is at least 1e-15; edges: the axis-parallel ones (other edges are refused or inexact, C31)."
  },
  {
   "property": "C48",
   "status": "proved",
   "theorems": [
    "C48_same_point",
    "C48_total",
    "C48_affine",
    "C48_quartic",
    "C48_outside",
    "C48_deformation",
    "C48_identity_strain"
   ],
   "note": "Grids of RectangleDomain with at least one cell; outside: for mesh widths with s^2 >= 1e-10, beyond 2e-10/s."
  },
  {
   "property": "C49",
   "status": "proved",
   "theorems": [
    "C49_P1",
    "C49_C1",
    "C49_boundary",
    "C49_boundary_values",
    "C49_P1_hessian",
    "C49_bell_sizes",
    "C49_foreign_triangle"
   ],
   "note": "The error cases are exact (success otherwise)."
  },
  {
   "property": "C50",
   "status": "proved",
   "theorems": [
    "C50_single_well",
    "C50_frame_indifference",
    "C50_fails_without_orientation",
    "C50_blow_up"
   ],
   "note": "Strains as arbitrary 2x2 matrices; also the blow-up at det F -> 0."
  },
  {
   "property": "C51",
   "status": "partial",
   "theorems": [
    "C51_non_negative_partial",
    "C51_frame_indifference_partial",
    "C51_wells_partial",
    "C51_only_wells_refuted"
   ],
   "note": "REFUTED in the 'only' part: the potential also vanishes at [1 0; 0.5 1], which is not a rotation of a documented well (C51_only_wells_refuted). The rest of the property is proved; the exact zero set is C74."
  },
  {
   "property": "C52",
   "status": "proved",
   "theorems": [
    "C52_fraction",
    "C52_convex_combination",
    "C52_frame_indifference"
   ],
   "note": ""
  },
  {
   "property": "C53",
   "status": "proved",
   "theorems": [
    "C53_austenite",
    "C53_martensite",
    "C53_coupling"
   ],
   "note": "Directional derivatives along every direction (Coquelicot is_derive), with the gradient returned by the code."
  },
  {
   "property": "C54",
   "status": "proved",
   "theorems": [
    "C54_internal_energy",
    "C54_weight"
   ],
   "note": "sp.integrate is modelled by its contract (definite integral from 0); the proof computes it and differentiates."
  },
  {
   "property": "C55",
   "status": "proved",
   "theorems": [
    "C55_positive_definite",
    "C55_singular_raises",
    "C55_frame_indifference"
   ],
   "note": "Also F K F^T = det F Id and invariance under F -> QF. Observation: for det F < 0 the same formula is negative definite."
  },
  {
   "property": "C56",
   "status": "proved",
   "theorems": [
    "C56_value",
    "C56_no_change",
    "C56_common_rotation",
    "C56_rate"
   ],
   "note": "Includes the explicit formula of the symmetrized increment."
  },
  {
   "property": "C57",
   "status": "proved",
   "theorems": [
    "C57_grid_of_the_domain",
    "C57_dirichlet_vertices_stay",
    "C57_dirichlet_edges_stay"
   ],
   "note": "Proved for the regularized scheme as well and also after runs that raised; the P1 deformation is the identity along Dirichlet edges. Solver: arbitrary oracle that cannot change fixed variables (pyomo's contract, in the model of solve)."
  },
  {
   "property": "C58",
   "status": "proved",
   "theorems": [
    "C58_bounded_changes",
    "C58_guess_within_bounds"
   ],
   "note": "For histories without exceptions; after a failed thermal solve it fails, see C69. respects_bounds only constrains solvers on problems whose bounds are consistent, and the proof shows those posed are."
  },
  {
   "property": "C59",
   "status": "proved",
   "theorems": [
    "C59_temperatures_non_negative",
    "C59_temperature_function_non_negative"
   ],
   "note": "In all reachable states, also after runs that raised."
  },
  {
   "property": "C60",
   "status": "proved",
   "theorems": [
    "C60_energy_dissipation",
    "C60_energy_dissipation_regularized",
    "C60_simulation",
    "C60_simulation_regularized"
   ],
   "note": "For single steps of any history (with a solver that does not increase the objective) and for all undisturbed simulations, with and without regularization; example with a solver that accepts moves only if the objective does not grow."
  },
  {
   "property": "C61",
   "status": "partial",
   "theorems": [
    "C61_steps_of_simulations",
    "C61_mech_update_prev_y",
    "C61_therm_update_prev_y",
    "C61_therm_update_y",
    "C61_mech_update_prev_theta_partial",
    "C61_therm_update_prev_theta_partial",
    "C61_temperature_all_or_nothing_refuted"
   ],
   "note": "Deformation updates: exactly the stated behaviour, with search boxes, for all histories of single steps (and all steps inside simulations). Temperature updates also reject arrays of the right shape with a negative entry, and then the entries before the first negative one stay changed: exact description proved, all-or-nothing refuted."
  },
  {
   "property": "C62",
   "status": "proved",
   "theorems": [
    "C62_constraints_pin_the_edges",
    "C62_identity_in_triangles",
    "C62_recorded_steps"
   ],
   "note": "Exact (iff): the constraints hold exactly if the deformation is the identity along every Dirichlet edge; also as seen from the triangles, and for all recorded steps of simulations whose solver respects the constraints."
  },
  {
   "property": "C63",
   "status": "partial",
   "theorems": [
    "C63_regularized_ignores_forcing_refuted",
    "C63_regularized_objectives_refuted"
   ],
   "note": "Refuted: with regularization two settings differing only in the forcing (one may raise whenever called) give identical sessions, for every solver that sees only the numbers of the problem; the regularized objectives do not contain traction or external temperature. Without regularization the forcing does enter (C66)."
  },
  {
   "property": "C64",
   "status": "proved",
   "theorems": [
    "C64_identity",
    "C64_initial_temperature"
   ],
   "note": "Value, strain and (regularized) hyper strain at every point of the gridded rectangle; temperature at every point of every triangle."
  },
  {
   "property": "C65",
   "status": "proved",
   "theorems": [
    "C65_construction",
    "C65_run_adds_steps",
    "C65_invalid_number",
    "C65_run_composes"
   ],
   "note": "Failing runs: see C69."
  },
  {
   "property": "C66",
   "status": "proved",
   "theorems": [
    "C66_schedule"
   ],
   "note": "Unregularized; the regularized scheme ignores the forcing, see C63."
  },
  {
   "property": "C67",
   "status": "proved",
   "theorems": [
    "C67_staggered"
   ],
   "note": "Includes starting guess, box bounds, fixed variables, constants and forcing of both problems."
  },
  {
   "property": "C68",
   "status": "partial",
   "theorems": [
    "C68_max_temperature",
    "C68_limits_partial",
    "C68_limits_cover",
    "C68_regularized_limits_refuted"
   ],
   "note": "max_temp proved in general, limits proved without regularization and shown to cover the vertices in general; with regularization the limits also include derivative parameters, so they are not the bounding box (refuted, concrete instance)."
  },
  {
   "property": "C69",
   "status": "partial",
   "theorems": [
    "C69_steps_kept",
    "C69_continues_from_last_step_partial",
    "C69_retry_refuted"
   ],
   "note": "Recorded steps survive every failure and the clock stays consistent (proved for all failures). Continuing from the last recorded step is proved when failures happen in the mechanical part only; after a failing thermal solve it is refuted: the next recorded step is two search radii from its predecessor."
  },
  {
   "property": "C70",
   "status": "partial",
   "theorems": [
    "C70_accepted_partial",
    "C70_rejected",
    "C70_stored",
    "C70_fps_zero_refuted",
    "C70_fps_zero_division_refuted"
   ],
   "note": "Exact acceptance condition, error and stored values proved; the documented fps > 0 is not enforced: fps = 0 is accepted and construction then always fails (ZeroDivisionError), refuted with a concrete setting."
  },
  {
   "property": "C71",
   "status": "proved",
   "theorems": [
    "C71_plot_step",
    "C71_save_step",
    "C71_save_nothing"
   ],
   "note": "Drawing itself is not modelled; the model is which step is drawn and under which index it is saved."
  },
  {
   "property": "C72",
   "status": "partial",
   "theorems": [
    "C72_rotated_triangle_refuted"
   ],
   "note": "REFUTED: the coordinates are combined with the listed rotation of the triangle without rotating them; proved for every refined triangle."
  },
  {
   "property": "C73",
   "status": "proved",
   "theorems": [
    "C73_entrywise",
    "C73_shape_mismatch",
    "C73_norm"
   ],
   "note": "Added after the seeded bug 'Tensor3D_sub adds' survived."
  },
  {
   "property": "C74",
   "status": "proved",
   "theorems": [
    "C74_zero_set",
    "C74_two_sided_rotations",
    "C74_singular_raises"
   ],
   "note": "Added in place of the refuted part of C51."
  },
  {
   "property": "C75",
   "status": "proved",
   "theorems": [
    "C75_hyper_elastic"
   ],
   "note": ""
  },
  {
   "property": "C76",
   "status": "proved",
   "theorems": [
    "C76_construction_succeeds",
    "C76_runs_succeed"
   ],
   "note": "Hypotheses on user callbacks and solver only."
  },
  {
   "property": "C77",
   "status": "proved",
   "theorems": [
    "C77_objective_defined",
    "C77_objective_defined_regularized",
    "C77_recorded_steps_keep_orientation",
    "C77_recorded_steps_positive_jacobian"
   ],
   "note": "Exact (iff). That the solver does not leave the domain of the objective is a hypothesis on the solver (Ipopt), met by the solver of the example."
  },
  {
   "property": "C78",
   "status": "proved",
   "theorems": [
    "C78_elastic_energy_affine",
    "C78_dissipation_affine",
    "C78_hyperelastic_energy_affine"
   ],
   "note": "The factor mass is 1 without regularization and 1 - 10^-15 with it (the stored weights sum to that)."
  },
  {
   "property": "C79",
   "status": "proved",
   "theorems": [
    "C79_total_area",
    "C79_mesh_integral",
    "C79_refined_integral"
   ],
   "note": "Over the reals."
  },
  {
   "property": "C80",
   "status": "proved",
   "theorems": [
    "C80_elastic_energy",
    "C80_dissipation",
    "C80_hyperelastic_energy"
   ],
   "note": "Includes that failing evaluations fail in the same way."
  },
  {
   "property": "C81",
   "status": "proved",
   "theorems": [
    "C81_traction_work",
    "C81_translation"
   ],
   "note": "Numpy's one-point rule ([0], [2]) is a hypothesis on leggauss."
  },
  {
   "property": "C82",
   "status": "proved",
   "theorems": [
    "C82_sized",
    "C82_objective_defined",
    "C82_objective_defined_unregularized",
    "C82_simulation"
   ],
   "note": "midpoint_rule: numpy's leggauss(1) = ([0], [2])."
  },
  {
   "property": "C83",
   "status": "partial",
   "theorems": [
    "C83_internal_energy_increasing_partial",
    "C83_always_increasing_refuted"
   ],
   "note": "Holds exactly where the energy of martensite exceeds that of austenite by at most 2e (C83_internal_energy_increasing_partial, an iff); refuted at the strain diag(1/2, 1/2)."
  },
  {
   "property": "C84",
   "status": "partial",
   "theorems": [
    "C84_equilibrium_refuted",
    "C84_equilibrium_partial",
    "C84_homogeneous_partial"
   ],
   "note": "Proved where martensite exceeds austenite by at most 2e at the quadrature points; refuted for a body compressed by 1/2 at temperature 1/5: heating up lowers the objective."
  },
  {
   "property": "C85",
   "status": "partial",
   "theorems": [
    "C85_well_posed_partial",
    "C85_unique_partial",
    "C85_unique_refuted"
   ],
   "note": "REFUTED: a body at rest, compressed so that martensite exceeds austenite by 25/(2-37exp(-5)), at temperature 1: temperatures 0 and 1 both minimize the objective (C85_unique_refuted). Proved where martensite exceeds austenite by at most 2e at the quadrature points (strict convexity)."
  },
  {
   "property": "C86",
   "status": "partial",
   "theorems": [
    "C86_derivative",
    "C86_heat_equation_partial",
    "C86_variational_inequality_partial",
    "C86_conductivity_refuted"
   ],
   "note": "Holds with twice the conductivity of heat_conductivity_reference: the diffusion term of the objective lacks the factor 1/2. C86_conductivity_refuted: at every non-constant temperature the derivative of the objective differs from the heat equation with the stated conductivity."
  },
  {
   "property": "C87",
   "status": "proved",
   "theorems": [
    "C87_heat_balance",
    "C87_simulation"
   ],
   "note": "Does not depend on the doubled conductivity (the test function is constant)."
  },
  {
   "property": "C88",
   "status": "proved",
   "theorems": [
    "C88_solution_exists",
    "C88_simulation"
   ],
   "note": "Existence without restriction; uniqueness is C85 (C85_well_posed_partial where martensite exceeds austenite by at most 2e, C85_unique_refuted in general)."
  },
  {
   "property": "C89",
   "status": "partial",
   "theorems": [
    "C89_plot_step_shows_the_step",
    "C89_other_indices",
    "C89_triangulation",
    "C89_step_interpolates_data",
    "C89_unregularized_picture",
    "C89_no_cells_refuted"
   ],
   "note": "Rectangles thinner than the mesh width can be simulated, but every plot raises ValueError (C89_no_cells_refuted). Regularized steps need mesh widths of at least 1e-15 after both refinements (fine_enough)."
  },
  {
   "property": "C90",
   "status": "partial",
   "theorems": [
    "C90_colours_on_scale",
    "C90_view_refuted"
   ],
   "note": "Colours: for temperature mesh widths above about 3e-5. View: refuted, the limits come from the degrees of freedom, between grid points the quintic interpolant leaves them (witness: unit square, every variable at its upper bound)."
  },
  {
   "property": "C91",
   "status": "partial",
   "theorems": [
    "C91_one_frame_per_step",
    "C91_real_time_refuted",
    "C91_file_shows_the_step",
    "C91_file_names"
   ],
   "note": "The film is always written with 30 frames per second, so it runs in real time exactly if params.fps = 30 (C91_real_time_refuted)."
  },
  {
   "property": "C92",
   "status": "partial",
   "theorems": [
    "C92_grid_plot",
    "C92_domain_grids",
    "C92_default_axis_refuted",
    "C92_domain_plot"
   ],
   "note": "grid.plot() without an axis always raises TypeError: fig_axis is called without its arguments (C92_default_axis_refuted)."
  },
  {
   "property": "C93",
   "status": "partial",
   "theorems": [
    "C93_deformation_curves_partial",
    "C93_uncovered_refuted"
   ],
   "note": "Holds if the mesh width divides both sides; otherwise raises because the outline is not covered by the grid."
  },
  {
   "property": "C94",
   "status": "proved",
   "theorems": [
    "C94_solution_exists",
    "C94_simulation"
   ],
   "note": "Proved by a penalized Lipschitz minimization over the box of bounds with a determinant barrier; simulations for solvers that keep the objective defined (and, with regularization, the constraints)."
  },
  {
   "property": "C95",
   "status": "proved",
   "theorems": [
    "C95_derivative",
    "C95_momentum_balance",
    "C95_variational_inequality",
    "C95_simulation",
    "C95_test_functions",
    "C95_net_force"
   ],
   "note": "Derivative, balance in free directions, variational inequality, net force; simulations with an exact solver."
  },
  {
   "property": "C96",
   "status": "proved",
   "theorems": [
    "C96_exact_solver_exists",
    "C96_simulation",
    "C96_never_raises",
    "C96_energy_dissipation"
   ],
   "note": "The exact solver is obtained with the standard library's ClassicalEpsilon; the theorems on simulations hold for every exact solver."
  },
  {
   "property": "C97",
   "status": "proved",
   "theorems": [
    "C97_energies_nonnegative",
    "C97_rest_state",
    "C97_wells_relaxed"
   ],
   "note": "Non-negativity, rest states, martensite variants."
  },
  {
   "property": "C98",
   "status": "proved",
   "theorems": [
    "C98_vertex_count",
    "C98_whole_multiple",
    "C98_requested_cells"
   ],
   "note": "Count, whole multiples, requested cells."
  },
  {
   "property": "C99",
   "status": "proved",
   "theorems": [
    "C99_float_grid",
    "C99_nearly_inside"
   ],
   "note": "Theorems about the same Gallina code as the exact ones, instantiated with Coq's primitive binary64 floats; x**2 is modelled as x*x."
  },
  {
   "property": "C100",
   "status": "proved",
   "theorems": [
    "C100_float_refine"
   ],
   "note": "For grids built by domain.grid; the index part of the proof is shared with exact arithmetic (Proofs/GenRefine.v)."
  },
  {
   "property": "C101",
   "status": "partial",
   "theorems": [
    "C101_double_refine_refuted"
   ],
   "note": "Refuted: a 10 by 10 square with mesh width 5 refined by 3 cannot be refined by 5: the assertion with absolute tolerance 1e-15 (domain.py:700-701) fails. In exact arithmetic it always can (C28)."
  },
  {
   "property": "C102",
   "status": "partial",
   "theorems": [
    "C102_decimal_sides_refuted",
    "C102_requested_cells_refuted",
    "C102_inside_refuted"
   ],
   "note": "Refuted: 0.3 by 0.1 gives two cells instead of three and the corner is in no triangle (C102_decimal_sides_refuted), the mesh width 1/93 gives 92 cells (C102_requested_cells_refuted), 1.7 by 0.1 sticks out of the rectangle (C102_inside_refuted). What holds: C98, C99_nearly_inside."
  },
  {
   "property": "C103",
   "status": "proved",
   "theorems": [
    "C103_vector_equal",
    "C103_matrix_equal",
    "C103_tensor_equal",
    "C103_float_equal",
    "C103_float_norm_underflows"
   ],
   "note": "Python's list == also treats identical objects as equal, which matters only for nan (excluded). C103_float_norm_underflows: over floats the norm of the difference can vanish for different vectors."
  },
  {
   "property": "C104",
   "status": "proved",
   "theorems": [
    "C104_slice_total",
    "C104_contiguous",
    "C104_split",
    "C104_reverse",
    "C104_stride"
   ],
   "note": ""
  },
  {
   "property": "C105",
   "status": "proved",
   "theorems": [
    "C105_vector_text",
    "C105_barycentric_text",
    "C105_matrix_text",
    "C105_tensor_text"
   ],
   "note": "The printed form of a single number is a parameter, required to be non-empty and free of blanks, line breaks, commas and brackets."
  },
  {
   "property": "C106",
   "status": "proved",
   "theorems": [
    "C106_meshes",
    "C106_domain_grid",
    "C106_refined_grid"
   ],
   "note": "Theorems about the same Gallina code as C20, instantiated with primitive floats. C106_meshes for every float grid whose vertices are within 40 K rounding errors (times s) of a lattice triangulation; C106_domain_grid, C106_refined_grid for the grids the package builds."
  },
  {
   "property": "C107",
   "status": "partial",
   "theorems": [
    "C107_point_lost_refuted"
   ],
   "note": "Refuted: strip 1197.2 by 3600 with mesh width 1197.2, the point (31.9, 2426.3) is in no triangle because the tolerance 1e-10 is absolute. C106 is what holds."
  },
  {
   "property": "C108",
   "status": "proved",
   "theorems": [
    "C108_continuous_functions",
    "C108_smooth_functions",
    "C108_euclidean_continuous",
    "C108_euclidean_smooth",
    "C108_example"
   ],
   "note": "Constants sqrt 2 k s, k s^2 / 4 (attained: C108_example), 3/2 k s; over the reals. Euclidean evaluation for cells of side at least 1e-4."
  },
  {
   "property": "C109",
   "status": "proved",
   "theorems": [
    "C109_continuous_functions",
    "C109_smooth_functions",
    "C109_library_rules",
    "C109_library_rules_smooth"
   ],
   "note": "For every accepted rule with as many weights as points; over the reals."
  },
  {
   "property": "C110",
   "status": "proved",
   "theorems": [
    "C110_convergence",
    "C110_euclidean",
    "C110_bounded_derivatives",
    "C110_example"
   ],
   "note": "Explicit constants (12, 120, 960; at points of the plane 18, 165, 1250 for cells of side at least 1e-4); smooth_on follows from bounded fifth derivatives (C110_bounded_derivatives). Over the reals."
  },
  {
   "property": "C111",
   "status": "proved",
   "theorems": [
    "C111_elastic_energy",
    "C111_dissipation",
    "C111_bounded_derivatives"
   ],
   "note": "First order in the mesh width with uniform constants (P1 strains are first order); C111_bounded_derivatives derives the regularity asked for from partial derivatives that are bounded and Lipschitz. Jacobian positive on the discrete side is a conclusion, not a hypothesis. Over the reals."
  },
  {
   "property": "C112",
   "status": "proved",
   "theorems": [
    "C112_elastic_energy",
    "C112_dissipation",
    "C112_hyper_elastic_energy",
    "C112_objective",
    "C112_bounded_derivatives"
   ],
   "note": "C112_objective combines the three energies. The mesh must be finer than min(1,d)/(960 (k+1)^2); refinement needs s/N at least 1e-15 (as C27). C112_bounded_derivatives derives the smoothness asked for from bounded derivatives up to order five. Order s/N comes from the P1 temperature and the quadrature of a density that is only Lipschitz. Over the reals."
  },
  {
   "property": "C113",
   "status": "proved",
   "theorems": [
    "C113_boundary_conditions",
    "C113_near_minimal"
   ],
   "note": "C113_near_minimal for undisturbed regularized simulations whose solver is exact (C96; such solvers exist); the side lengths are multiples of the mesh width (otherwise the grid is smaller than the body), the previous step's arrays are the nodal values of some smooth fields (true of the first step: identity, constant temperature; see C113_example), mesh finer than min(1,d)/(960 (k+1)^2). C113_boundary_conditions: identity on the fixed sides of the body gives the six constraints of every Dirichlet edge. Over the reals."
  },
  {
   "property": "C114",
   "status": "proved",
   "theorems": [
    "C114_traction_work",
    "C114_mechanical_objective"
   ],
   "note": "C114_traction_work and C114_mechanical_objective for steps built and updated by the code (mech_history) on a grid of RectangleDomain.grid with the midpoint rule from numpy; side lengths are multiples of the mesh width. Over the reals."
  },
  {
   "property": "C115",
   "status": "proved",
   "theorems": [
    "C115_near_minimal",
    "C115_recorded"
   ],
   "note": "C115_near_minimal for undisturbed plain simulations whose solver is exact (C96); side lengths are multiples of the mesh width, the previous step's arrays are the nodal values of some regular motion and temperature (true of the first step; see C115_example). Step i + 1 uses the traction at time i / fps (C57, C65). Over the reals."
  },
  {
   "property": "C116",
   "status": "proved",
   "theorems": [
    "C116_heat_energy",
    "C116_heat_storage",
    "C116_heat_exchange",
    "C116_thermal_objective"
   ],
   "note": "C116_heat_energy, C116_heat_storage, C116_heat_exchange and C116_thermal_objective, with the midpoint rule from numpy on the boundary. Over the reals."
  },
  {
   "property": "C117",
   "status": "proved",
   "theorems": [
    "C117_heat_energy",
    "C117_heat_storage",
    "C117_thermal_objective"
   ],
   "note": "C117_heat_energy, C117_heat_storage and C117_thermal_objective. Over the reals."
  },
  {
   "property": "C118",
   "status": "proved",
   "theorems": [
    "C118_near_minimal",
    "C118_recorded"
   ],
   "note": "C118_near_minimal and C118_recorded for undisturbed plain simulations whose solver is exact (C96). Over the reals."
  },
  {
   "property": "C119",
   "status": "proved",
   "theorems": [
    "C119_near_minimal",
    "C119_recorded"
   ],
   "note": "C119_near_minimal and C119_recorded for undisturbed regularized simulations whose solver is exact (C96). Over the reals."
  },
  {
   "property": "C120",
   "status": "proved",
   "theorems": [
    "C120_transition",
    "C120_only_rotations",
    "C120_rest"
   ],
   "note": "C120_transition, C120_only_rotations and C120_rest. Over the reals."
  },
  {
   "property": "C121",
   "status": "proved",
   "theorems": [
    "C121_rigid_motion",
    "C121_solutions",
    "C121_held",
    "C121_stays",
    "C121_simulation"
   ],
   "note": "C121_rigid_motion, C121_solutions, C121_held, C121_stays and C121_simulation. Over the reals; the simulation theorems for undisturbed plain simulations whose solver is exact (C96)."
  },
  {
   "property": "C122",
   "status": "proved",
   "theorems": [
    "C122_mechanical_step",
    "C122_simulation",
    "C122_translation",
    "C122_held"
   ],
   "note": "C122_mechanical_step, C122_simulation, C122_translation and C122_held. Over the reals; for undisturbed simulations whose solver is exact (C96)."
  },
  {
   "property": "C123",
   "status": "proved",
   "theorems": [
    "C123_regularization_zero",
    "C123_solutions"
   ],
   "note": "C123_regularization_zero (both directions) and C123_solutions. Over the reals. That the seven points of one refined triangle determine a Bell element up to affine maps is shown for every position and size of the refined triangle in the coarse one (Proofs/FlatQ.v, FlatV.v, FlatG.v)."
  },
  {
   "property": "C124",
   "status": "proved",
   "theorems": [
    "C124_constructor",
    "C124_frame_rate",
    "C124_regularization",
    "C124_load",
    "C124_larger_load",
    "C124_surroundings"
   ],
   "note": "C124_frame_rate and C124_regularization hold for all steps; C124_load, C124_larger_load and C124_surroundings for steps on the grids of rectangles without regularization (with regularization the code ignores load and surroundings, C63). C124_constructor. Over the reals; that solutions exist is C94 and C88."
  }
 ]
}