# What Print Assumptions lists for each theorem

Generated by tools/assumptions.py. All axioms are of the Coq standard library.

## closed under the global context (no axioms)

* C10: C10_matrix_constructor, C10_tensor_constructor, C10_vector_stack, C10_matrix_stack
* C104: C104_slice_total, C104_contiguous, C104_split, C104_stride
* C105: C105_vector_text, C105_barycentric_text, C105_matrix_text, C105_tensor_text
* C25: C25_triangle_vertices, C25_triangle_unknown, C25_edge_vertices, C25_edge_unknown
* C49: C49_P1, C49_C1, C49_boundary
* C71: C71_plot_step, C71_save_step, C71_save_nothing
* C92: C92_default_axis_refuted

## `ClassicalDedekindReals.sig_forall_dec`

* C04: C04_reshape_outcome
* C05: C05_vector_get, C05_matrix_get
* C06: C06_tensor_get_partial, C06_tensor_get_refuted, C06_negative_index_wraps
* C104: C104_reverse
* C49: C49_boundary_values

## `ClassicalDedekindReals.sig_forall_dec`, `FunctionalExtensionality.functional_extensionality_dep`

* C124: C124_constructor
* C43: C43_everywhere
* C61: C61_mech_update_prev_y, C61_therm_update_prev_y, C61_therm_update_y, C61_mech_update_prev_theta_partial, C61_therm_update_prev_theta_partial, C61_temperature_all_or_nothing_refuted
* C70: C70_accepted_partial, C70_rejected, C70_stored
* C82: C82_sized
* C92: C92_grid_plot, C92_domain_plot

## `ClassicalDedekindReals.sig_forall_dec`, `ClassicalDedekindReals.sig_not_dec`, `FunctionalExtensionality.functional_extensionality_dep`

* C01: C01_det_nonsquare
* C02: C02_inverse_two_sided, C02_inverse_singular, C02_inverse_other_shapes
* C03: C03_matmul_spec, C03_matmul_shape_error, C03_matmul_assoc, C03_dot_is_product_with_column, C03_dot_agrees_with_matmul, C03_transpose_of_product
* C04: C04_reshape_then_flatten, C04_flatten_then_reshape, C04_transpose_involutive
* C07: C07_vector_add, C07_vector_sub, C07_vector_laws, C07_vector_norm, C07_vector_cauchy_schwarz, C07_matrix_add_sub, C07_matrix_scaling, C07_scalar_product
* C08: C08_dot_equal_sizes_partial, C08_dot_truncates_refuted
* C09: C09_sum_is_one, C09_assert_bounds_partial, C09_assert_bounds_sum_refuted, C09_sum_error
* C10: C10_operations_keep_shape_invariant
* C103: C103_vector_equal, C103_matrix_equal, C103_tensor_equal
* C11: C11_grid_succeeds, C11_vertices_numbered, C11_points_are_the_lattice, C11_extent
* C113: C113_boundary_conditions
* C12: C12_edges_valid, C12_edges_unique, C12_edges_join_neighbours
* C13: C13_triangles_shape, C13_triangles_unique, C13_areas_add_up
* C14: C14_sides_are_edges, C14_edges_in_one_or_two_triangles, C14_boundary_edges_are_edges, C14_euler
* C15: C15_covering, C15_no_overlap
* C16: C16_boundary_is_outline, C16_dirichlet_edges, C16_neumann_edges, C16_dirichlet_within_boundary
* C17: C17_dirichlet_vertices, C17_no_fix, C17_dirichlet_edge_ends
* C18: C18_neumann_vertices_exact_partial, C18_neumann_edge_ends_partial, C18_only_ends_of_neumann_edges_refuted
* C19: C19_single_name_is_singleton_list, C19_order_and_repetition, C19_unknown_name_rejected_refuted
* C20: C20_never_raises, C20_coordinates_reproduce_point, C20_coordinates_bounded_below, C20_inside_is_found, C20_outside_is_none, C20_meshes, C20_meshes_inside
* C21: C21_grid_point_is_corner_partial, C21_every_scale_refuted
* C22: C22_inverts_points, C22_first_close_vertex, C22_tolerance_below_mesh_width
* C23: C23_append_edges, C23_constructor_mean
* C24: C24_renumbering_is_equal_partial, C24_reflexive, C24_set_order_irrelevant, C24_equal_means_partial, C24_symmetric_refuted
* C25: C25_edge_reversed
* C26: C26_curves, C26_inside, C26_outline, C26_single_point_raises, C26_default_counts
* C27: C27_rectangle_grid_is_mesh, C27_refinement_is_fine_mesh, C27_chains, C27_subtriangle_count
* C28: C28_equal_without_fixed_sides_partial, C28_all_but_neumann_vertices_partial, C28_fixed_side_refuted
* C29: C29_unknown_triangle, C29_same_point
* C30: C30_same_edge_point, C30_boundary_edges
* C31: C31_diagonal_edges_refuted, C31_affected_edges_exist_refuted, C31_reversed_edge_partial, C31_inner_edges_raise
* C32: C32_boundary_edges, C32_boundary_vertices
* C33: C33_bad_factor, C33_no_other_failure, C33_reachable_grids
* C36: C36_accepted_iff, C36_rejected_with_value_error, C36_constants_partial
* C37: C37_transplanted, C37_failure_passed_on
* C38: C38_areas, C38_only_plane_triangles, C38_linear, C38_constant, C38_areas_independent_of_vertex_order, C38_exact
* C39: C39_lengths, C39_linear, C39_exact, C39_constant
* C55: C55_positive_definite, C55_singular_raises, C55_frame_indifference
* C56: C56_value, C56_no_change, C56_common_rotation, C56_rate
* C57: C57_grid_of_the_domain, C57_dirichlet_vertices_stay
* C58: C58_bounded_changes, C58_guess_within_bounds
* C59: C59_temperatures_non_negative
* C61: C61_steps_of_simulations
* C63: C63_regularized_ignores_forcing_refuted
* C65: C65_construction, C65_run_adds_steps, C65_invalid_number, C65_run_composes
* C66: C66_schedule
* C67: C67_staggered
* C68: C68_max_temperature, C68_limits_partial, C68_limits_cover, C68_regularized_limits_refuted
* C69: C69_steps_kept, C69_continues_from_last_step_partial, C69_retry_refuted
* C70: C70_fps_zero_refuted, C70_fps_zero_division_refuted
* C72: C72_rotated_triangle_refuted
* C73: C73_entrywise, C73_shape_mismatch, C73_norm
* C75: C75_hyper_elastic
* C76: C76_construction_succeeds, C76_runs_succeed
* C79: C79_total_area
* C89: C89_triangulation
* C92: C92_domain_grids

## `ClassicalDedekindReals.sig_forall_dec`, `ClassicalDedekindReals.sig_not_dec`, `Classical_Prop.classic`, `FunctionalExtensionality.functional_extensionality_dep`

* C108: C108_continuous_functions, C108_smooth_functions, C108_euclidean_continuous, C108_euclidean_smooth, C108_example
* C109: C109_continuous_functions, C109_smooth_functions, C109_library_rules, C109_library_rules_smooth
* C110: C110_convergence, C110_euclidean, C110_bounded_derivatives, C110_example
* C111: C111_elastic_energy, C111_dissipation, C111_bounded_derivatives
* C112: C112_elastic_energy, C112_dissipation, C112_hyper_elastic_energy, C112_objective, C112_bounded_derivatives
* C113: C113_near_minimal
* C114: C114_traction_work, C114_mechanical_objective
* C115: C115_near_minimal, C115_recorded
* C116: C116_heat_energy, C116_heat_storage, C116_heat_exchange, C116_thermal_objective
* C117: C117_heat_energy, C117_heat_storage, C117_thermal_objective
* C118: C118_near_minimal, C118_recorded
* C119: C119_near_minimal, C119_recorded
* C120: C120_transition, C120_only_rotations, C120_rest
* C121: C121_rigid_motion, C121_solutions, C121_held, C121_stays, C121_simulation
* C122: C122_mechanical_step, C122_simulation, C122_translation, C122_held
* C123: C123_regularization_zero, C123_solutions
* C124: C124_frame_rate, C124_regularization, C124_load, C124_larger_load, C124_surroundings
* C34: C34_centroid, C34_vertex, C34_dunavant2, C34_dunavant3
* C35: C35_dunavant4, C35_dunavant5
* C36: C36_length_mismatch_accepted_refuted
* C38: C38_triangle_integral_corner_order, C38_rectangle
* C39: C39_degree_one_affine, C39_degree_one_not_exact_for_squares
* C40: C40_vertex_values, C40_affine, C40_derivative, C40_shared_edge, C40_continuous, C40_total
* C41: C41_vertex
* C42: C42_quartic
* C43: C43_derivatives
* C44: C44_across_edge, C44_single_function, C44_total
* C45: C45_on_edge, C45_total, C45_C1_on_edge
* C46: C46_value, C46_derivatives
* C47: C47_same_point, C47_value_and_gradient, C47_P1_value, C47_on_edge
* C48: C48_same_point, C48_total, C48_affine, C48_quartic, C48_outside, C48_deformation, C48_identity_strain
* C49: C49_P1_hessian, C49_bell_sizes, C49_foreign_triangle
* C50: C50_single_well, C50_frame_indifference, C50_fails_without_orientation, C50_blow_up
* C51: C51_non_negative_partial, C51_frame_indifference_partial, C51_wells_partial, C51_only_wells_refuted
* C52: C52_fraction, C52_convex_combination, C52_frame_indifference
* C53: C53_austenite, C53_martensite, C53_coupling
* C54: C54_internal_energy, C54_weight
* C57: C57_dirichlet_edges_stay
* C59: C59_temperature_function_non_negative
* C60: C60_energy_dissipation, C60_energy_dissipation_regularized, C60_simulation, C60_simulation_regularized
* C62: C62_constraints_pin_the_edges, C62_identity_in_triangles, C62_recorded_steps
* C63: C63_regularized_objectives_refuted
* C64: C64_identity, C64_initial_temperature
* C74: C74_zero_set, C74_two_sided_rotations, C74_singular_raises
* C77: C77_objective_defined, C77_objective_defined_regularized, C77_recorded_steps_keep_orientation, C77_recorded_steps_positive_jacobian
* C78: C78_elastic_energy_affine, C78_dissipation_affine, C78_hyperelastic_energy_affine
* C79: C79_mesh_integral, C79_refined_integral
* C80: C80_elastic_energy, C80_dissipation, C80_hyperelastic_energy
* C81: C81_traction_work, C81_translation
* C82: C82_objective_defined, C82_objective_defined_unregularized, C82_simulation
* C83: C83_internal_energy_increasing_partial, C83_always_increasing_refuted
* C84: C84_equilibrium_refuted, C84_equilibrium_partial, C84_homogeneous_partial
* C85: C85_well_posed_partial, C85_unique_partial, C85_unique_refuted
* C86: C86_derivative, C86_heat_equation_partial, C86_variational_inequality_partial, C86_conductivity_refuted
* C87: C87_heat_balance, C87_simulation
* C88: C88_solution_exists, C88_simulation
* C89: C89_plot_step_shows_the_step, C89_other_indices, C89_step_interpolates_data, C89_unregularized_picture, C89_no_cells_refuted
* C90: C90_colours_on_scale, C90_view_refuted
* C91: C91_one_frame_per_step, C91_real_time_refuted, C91_file_shows_the_step, C91_file_names
* C93: C93_deformation_curves_partial, C93_uncovered_refuted
* C94: C94_solution_exists, C94_simulation
* C95: C95_derivative, C95_momentum_balance, C95_variational_inequality, C95_simulation, C95_test_functions, C95_net_force
* C96: C96_simulation, C96_never_raises, C96_energy_dissipation
* C97: C97_energies_nonnegative, C97_rest_state, C97_wells_relaxed

## `ClassicalDedekindReals.sig_forall_dec`, `ClassicalDedekindReals.sig_not_dec`, `ClassicalEpsilon.constructive_indefinite_description`, `Classical_Prop.classic`, `FunctionalExtensionality.functional_extensionality_dep`

* C01: C01_det_is_determinant, C01_det_identity, C01_det_product, C01_det_transpose, C01_det_equal_rows
* C96: C96_exact_solver_exists

## `PrimFloat.abs`, `PrimFloat.add`, `PrimFloat.div`, `PrimFloat.eqb`, `PrimFloat.float`, `PrimFloat.frshiftexp`, `PrimFloat.ltb`, `PrimFloat.mul`, `PrimFloat.normfr_mantissa`, `PrimFloat.opp`, `PrimFloat.sqrt`, `PrimFloat.sub`, `PrimInt63.eqb`, `PrimInt63.int`, `PrimInt63.land`, `PrimInt63.lsr`

* C101: C101_double_refine_refuted
* C102: C102_requested_cells_refuted
* C103: C103_float_norm_underflows

## `ClassicalDedekindReals.sig_forall_dec`, `FunctionalExtensionality.functional_extensionality_dep`, `PrimFloat.abs`, `PrimFloat.add`, `PrimFloat.div`, `PrimFloat.eqb`, `PrimFloat.float`, `PrimFloat.frshiftexp`, `PrimFloat.ltb`, `PrimFloat.mul`, `PrimFloat.normfr_mantissa`, `PrimFloat.opp`, `PrimFloat.sqrt`, `PrimFloat.sub`, `PrimInt63.eqb`, `PrimInt63.int`, `PrimInt63.land`, `PrimInt63.lsr`

* C102: C102_inside_refuted
* C107: C107_point_lost_refuted

## `ClassicalDedekindReals.sig_forall_dec`, `ClassicalDedekindReals.sig_not_dec`, `FunctionalExtensionality.functional_extensionality_dep`, `PrimFloat.abs`, `PrimFloat.add`, `PrimFloat.div`, `PrimFloat.eqb`, `PrimFloat.float`, `PrimFloat.frshiftexp`, `PrimFloat.ltb`, `PrimFloat.mul`, `PrimFloat.normfr_mantissa`, `PrimFloat.opp`, `PrimFloat.sqrt`, `PrimFloat.sub`, `PrimInt63.eqb`, `PrimInt63.int`, `PrimInt63.land`, `PrimInt63.lsr`

* C102: C102_decimal_sides_refuted

## `ClassicalDedekindReals.sig_forall_dec`, `ClassicalDedekindReals.sig_not_dec`, `Classical_Prop.classic`, `FloatAxioms.Prim2SF_SF2Prim`, `FloatAxioms.Prim2SF_valid`, `FloatAxioms.SF2Prim_Prim2SF`, `FloatAxioms.div_spec`, `FloatAxioms.eqb_spec`, `FunctionalExtensionality.functional_extensionality_dep`, `PrimFloat.abs`, `PrimFloat.add`, `PrimFloat.div`, `PrimFloat.eqb`, `PrimFloat.float`, `PrimFloat.frshiftexp`, `PrimFloat.ldshiftexp`, `PrimFloat.ltb`, `PrimFloat.mul`, `PrimFloat.normfr_mantissa`, `PrimFloat.of_uint63`, `PrimFloat.opp`, `PrimFloat.sqrt`, `PrimFloat.sub`, `PrimInt63.eqb`, `PrimInt63.int`, `PrimInt63.land`, `PrimInt63.lor`, `PrimInt63.lsl`, `PrimInt63.lsr`, `PrimInt63.sub`

* C98: C98_vertex_count, C98_whole_multiple

## `ClassicalDedekindReals.sig_forall_dec`, `ClassicalDedekindReals.sig_not_dec`, `Classical_Prop.classic`, `FloatAxioms.Prim2SF_SF2Prim`, `FloatAxioms.Prim2SF_valid`, `FloatAxioms.SF2Prim_Prim2SF`, `FloatAxioms.eqb_spec`, `FloatAxioms.sub_spec`, `FunctionalExtensionality.functional_extensionality_dep`, `PrimFloat.abs`, `PrimFloat.add`, `PrimFloat.div`, `PrimFloat.eqb`, `PrimFloat.float`, `PrimFloat.frshiftexp`, `PrimFloat.ldshiftexp`, `PrimFloat.ltb`, `PrimFloat.mul`, `PrimFloat.normfr_mantissa`, `PrimFloat.of_uint63`, `PrimFloat.opp`, `PrimFloat.sqrt`, `PrimFloat.sub`, `PrimInt63.eqb`, `PrimInt63.int`, `PrimInt63.land`, `PrimInt63.lor`, `PrimInt63.lsl`, `PrimInt63.lsr`, `PrimInt63.sub`

* C103: C103_float_equal

## `ClassicalDedekindReals.sig_forall_dec`, `ClassicalDedekindReals.sig_not_dec`, `Classical_Prop.classic`, `FloatAxioms.Prim2SF_SF2Prim`, `FloatAxioms.Prim2SF_valid`, `FloatAxioms.SF2Prim_Prim2SF`, `FloatAxioms.add_spec`, `FloatAxioms.div_spec`, `FloatAxioms.eqb_spec`, `FloatAxioms.mul_spec`, `FunctionalExtensionality.functional_extensionality_dep`, `PrimFloat.abs`, `PrimFloat.add`, `PrimFloat.div`, `PrimFloat.eqb`, `PrimFloat.float`, `PrimFloat.frshiftexp`, `PrimFloat.ldshiftexp`, `PrimFloat.ltb`, `PrimFloat.mul`, `PrimFloat.normfr_mantissa`, `PrimFloat.of_uint63`, `PrimFloat.opp`, `PrimFloat.sqrt`, `PrimFloat.sub`, `PrimInt63.eqb`, `PrimInt63.int`, `PrimInt63.land`, `PrimInt63.lor`, `PrimInt63.lsl`, `PrimInt63.lsr`, `PrimInt63.sub`

* C98: C98_requested_cells

## `ClassicalDedekindReals.sig_forall_dec`, `ClassicalDedekindReals.sig_not_dec`, `Classical_Prop.classic`, `FloatAxioms.Prim2SF_SF2Prim`, `FloatAxioms.Prim2SF_valid`, `FloatAxioms.SF2Prim_Prim2SF`, `FloatAxioms.add_spec`, `FloatAxioms.div_spec`, `FloatAxioms.eqb_spec`, `FloatAxioms.ltb_spec`, `FloatAxioms.mul_spec`, `FloatAxioms.opp_spec`, `FloatAxioms.sub_spec`, `FunctionalExtensionality.functional_extensionality_dep`, `PrimFloat.abs`, `PrimFloat.add`, `PrimFloat.div`, `PrimFloat.eqb`, `PrimFloat.float`, `PrimFloat.frshiftexp`, `PrimFloat.ldshiftexp`, `PrimFloat.ltb`, `PrimFloat.mul`, `PrimFloat.normfr_mantissa`, `PrimFloat.of_uint63`, `PrimFloat.opp`, `PrimFloat.sqrt`, `PrimFloat.sub`, `PrimInt63.eqb`, `PrimInt63.int`, `PrimInt63.land`, `PrimInt63.lor`, `PrimInt63.lsl`, `PrimInt63.lsr`, `PrimInt63.sub`

* C106: C106_meshes

## `ClassicalDedekindReals.sig_forall_dec`, `ClassicalDedekindReals.sig_not_dec`, `Classical_Prop.classic`, `FloatAxioms.Prim2SF_SF2Prim`, `FloatAxioms.Prim2SF_valid`, `FloatAxioms.SF2Prim_Prim2SF`, `FloatAxioms.add_spec`, `FloatAxioms.div_spec`, `FloatAxioms.eqb_spec`, `FloatAxioms.mul_spec`, `FloatAxioms.opp_spec`, `FloatAxioms.sqrt_spec`, `FloatAxioms.sub_spec`, `FunctionalExtensionality.functional_extensionality_dep`, `PrimFloat.abs`, `PrimFloat.add`, `PrimFloat.div`, `PrimFloat.eqb`, `PrimFloat.float`, `PrimFloat.frshiftexp`, `PrimFloat.ldshiftexp`, `PrimFloat.ltb`, `PrimFloat.mul`, `PrimFloat.normfr_mantissa`, `PrimFloat.of_uint63`, `PrimFloat.opp`, `PrimFloat.sqrt`, `PrimFloat.sub`, `PrimInt63.eqb`, `PrimInt63.int`, `PrimInt63.land`, `PrimInt63.lor`, `PrimInt63.lsl`, `PrimInt63.lsr`, `PrimInt63.sub`

* C99: C99_nearly_inside

## `ClassicalDedekindReals.sig_forall_dec`, `ClassicalDedekindReals.sig_not_dec`, `Classical_Prop.classic`, `FloatAxioms.Prim2SF_SF2Prim`, `FloatAxioms.Prim2SF_valid`, `FloatAxioms.SF2Prim_Prim2SF`, `FloatAxioms.add_spec`, `FloatAxioms.div_spec`, `FloatAxioms.eqb_spec`, `FloatAxioms.ltb_spec`, `FloatAxioms.mul_spec`, `FloatAxioms.opp_spec`, `FloatAxioms.sqrt_spec`, `FloatAxioms.sub_spec`, `FunctionalExtensionality.functional_extensionality_dep`, `PrimFloat.abs`, `PrimFloat.add`, `PrimFloat.div`, `PrimFloat.eqb`, `PrimFloat.float`, `PrimFloat.frshiftexp`, `PrimFloat.ldshiftexp`, `PrimFloat.ltb`, `PrimFloat.mul`, `PrimFloat.normfr_mantissa`, `PrimFloat.of_uint63`, `PrimFloat.opp`, `PrimFloat.sqrt`, `PrimFloat.sub`, `PrimInt63.eqb`, `PrimInt63.int`, `PrimInt63.land`, `PrimInt63.lor`, `PrimInt63.lsl`, `PrimInt63.lsr`, `PrimInt63.sub`

* C106: C106_domain_grid
* C99: C99_float_grid

## `ClassicalDedekindReals.sig_forall_dec`, `ClassicalDedekindReals.sig_not_dec`, `Classical_Prop.classic`, `FloatAxioms.Prim2SF_SF2Prim`, `FloatAxioms.Prim2SF_valid`, `FloatAxioms.SF2Prim_Prim2SF`, `FloatAxioms.abs_spec`, `FloatAxioms.add_spec`, `FloatAxioms.div_spec`, `FloatAxioms.eqb_spec`, `FloatAxioms.ltb_spec`, `FloatAxioms.mul_spec`, `FloatAxioms.opp_spec`, `FloatAxioms.sqrt_spec`, `FloatAxioms.sub_spec`, `FunctionalExtensionality.functional_extensionality_dep`, `PrimFloat.abs`, `PrimFloat.add`, `PrimFloat.div`, `PrimFloat.eqb`, `PrimFloat.float`, `PrimFloat.frshiftexp`, `PrimFloat.ldshiftexp`, `PrimFloat.ltb`, `PrimFloat.mul`, `PrimFloat.normfr_mantissa`, `PrimFloat.of_uint63`, `PrimFloat.opp`, `PrimFloat.sqrt`, `PrimFloat.sub`, `PrimInt63.eqb`, `PrimInt63.int`, `PrimInt63.land`, `PrimInt63.lor`, `PrimInt63.lsl`, `PrimInt63.lsr`, `PrimInt63.sub`

* C100: C100_float_refine
* C106: C106_refined_grid
