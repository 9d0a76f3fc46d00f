{
 "claims": [
  {
   "property": "C01",
   "status": "proved",
   "theorems": [
    "C01_distance_cartesian_is_euclidean_metric"
   ],
   "note": "Exact real arithmetic; the binary64 behaviour is C40/C44."
  },
  {
   "property": "C02",
   "status": "proved",
   "theorems": [
    "C02_distance_spherical_is_chord"
   ],
   "note": "Exact real arithmetic, with sin/cos/sqrt the real functions."
  },
  {
   "property": "C03",
   "status": "proved",
   "theorems": [
    "C03_distance_spherical_core_agrees"
   ],
   "note": ""
  },
  {
   "property": "C04",
   "status": "proved",
   "theorems": [
    "C04_first_order_point_kernels_are_the_gradient"
   ],
   "note": ""
  },
  {
   "property": "C05",
   "status": "proved",
   "theorems": [
    "C05_second_order_point_kernels_are_the_hessian"
   ],
   "note": ""
  },
  {
   "property": "C06",
   "status": "proved",
   "theorems": [
    "C06_third_order_point_kernels"
   ],
   "note": ""
  },
  {
   "property": "C07",
   "status": "proved",
   "theorems": [
    "C07_point_kernels_are_harmonic"
   ],
   "note": ""
  },
  {
   "property": "C08",
   "status": "proved",
   "theorems": [
    "C08_exchange_parity_and_translation"
   ],
   "note": ""
  },
  {
   "property": "C09",
   "status": "proved",
   "theorems": [
    "C09_point_gravity_raises_exactly_at_the_source"
   ],
   "note": ""
  },
  {
   "property": "C10",
   "status": "proved",
   "theorems": [
    "C10_newton_law"
   ],
   "note": ""
  },
  {
   "property": "C11",
   "status": "proved",
   "theorems": [
    "C11_point_gravity_derivatives"
   ],
   "note": ""
  },
  {
   "property": "C12",
   "status": "proved",
   "theorems": [
    "C12_point_gravity_linear_in_mass"
   ],
   "note": ""
  },
  {
   "property": "C13",
   "status": "proved",
   "theorems": [
    "C13_dipole_field_is_the_triple_of_components"
   ],
   "note": "For every arithmetic, exceptions included."
  },
  {
   "property": "C14",
   "status": "proved",
   "theorems": [
    "C14_dipole_field_is_the_point_tensor_applied_to_the_moment"
   ],
   "note": ""
  },
  {
   "property": "C15",
   "status": "proved",
   "theorems": [
    "C15_dipole_field_derives_from_a_potential"
   ],
   "note": ""
  },
  {
   "property": "C16",
   "status": "proved",
   "theorems": [
    "C16_dipole_reciprocity"
   ],
   "note": ""
  },
  {
   "property": "C17",
   "status": "proved",
   "theorems": [
    "C17_dipole_raises_exactly_at_the_dipole"
   ],
   "note": ""
  },
  {
   "property": "C18",
   "status": "proved",
   "theorems": [
    "C18_location_predicates"
   ],
   "note": ""
  },
  {
   "property": "C19",
   "status": "proved",
   "theorems": [
    "C19_prism_potential_and_acceleration_always_finite"
   ],
   "note": ""
  },
  {
   "property": "C20",
   "status": "proved",
   "theorems": [
    "C20_prism_tensor_nan_set"
   ],
   "note": ""
  },
  {
   "property": "C21",
   "status": "proved",
   "theorems": [
    "C21_prism_magnetic_nan_set"
   ],
   "note": ""
  },
  {
   "property": "C22",
   "status": "proved",
   "theorems": [
    "C22_exterior_prism_gravity_is_integral_of_point_gravity"
   ],
   "note": ""
  },
  {
   "property": "C23",
   "status": "proved",
   "theorems": [
    "C23_exterior_prism_magnetic_is_integral_of_dipole_field"
   ],
   "note": ""
  },
  {
   "property": "C24",
   "status": "proved",
   "theorems": [
    "C24_exterior_magnetic_gradiometry_is_integral_of_third_order_kernels"
   ],
   "note": ""
  },
  {
   "property": "C25",
   "status": "proved",
   "theorems": [
    "C25_prism_acceleration_is_gradient_of_potential"
   ],
   "note": ""
  },
  {
   "property": "C26",
   "status": "proved",
   "theorems": [
    "C26_prism_tensor_is_gradient_of_acceleration"
   ],
   "note": ""
  },
  {
   "property": "C27",
   "status": "proved",
   "theorems": [
    "C27_magnetic_gradiometry_is_gradient_of_magnetic_field"
   ],
   "note": ""
  },
  {
   "property": "C28",
   "status": "proved",
   "theorems": [
    "C28_poisson_and_laplace"
   ],
   "note": ""
  },
  {
   "property": "C29",
   "status": "proved",
   "theorems": [
    "C29_magnetic_divergence_free"
   ],
   "note": ""
  },
  {
   "property": "C30",
   "status": "proved",
   "theorems": [
    "C30_face_values_are_limits_from_outside"
   ],
   "note": ""
  },
  {
   "property": "C31",
   "status": "proved",
   "theorems": [
    "C31_prism_fields_linear"
   ],
   "note": ""
  },
  {
   "property": "C32",
   "status": "proved",
   "theorems": [
    "C32_cut_potential_and_acceleration",
    "C32_cut_tensor",
    "C32_cut_magnetic"
   ],
   "note": ""
  },
  {
   "property": "C33",
   "status": "proved",
   "theorems": [
    "C33_reflection_easting_gravity",
    "C33_reflection_easting_magnetic",
    "C33_reflection_northing_gravity",
    "C33_reflection_northing_magnetic",
    "C33_reflection_upward_gravity",
    "C33_reflection_upward_magnetic",
    "C33_exchange_easting_northing_gravity",
    "C33_exchange_easting_northing_magnetic",
    "C33_cyclic_permutation_gravity",
    "C33_cyclic_permutation_magnetic",
    "C33_translation_gravity",
    "C33_translation_magnetic"
   ],
   "note": ""
  },
  {
   "property": "C34",
   "status": "proved",
   "theorems": [
    "C34_poisson_relation",
    "C34_poisson_relation_applies"
   ],
   "note": ""
  },
  {
   "property": "C35",
   "status": "proved",
   "theorems": [
    "C35_prism_field_is_the_triple_of_components_binary64",
    "C35_prism_field_is_the_triple_of_components"
   ],
   "note": ""
  },
  {
   "property": "C36",
   "status": "proved",
   "theorems": [
    "C36_sign_of_prism_attraction",
    "C36_size_of_prism_attraction"
   ],
   "note": ""
  },
  {
   "property": "C37",
   "status": "proved",
   "theorems": [
    "C37_flat_prism_has_no_potential_and_acceleration",
    "C37_flat_prism_off_diagonal",
    "C37_flat_prism_diagonal"
   ],
   "note": ""
  },
  {
   "property": "C38",
   "status": "proved",
   "theorems": [
    "C38_prism_kernels_on_a_vertex"
   ],
   "note": ""
  },
  {
   "property": "C39",
   "status": "proved",
   "theorems": [
    "C39_nan_coordinate_of_point_or_dipole",
    "C39_nan_coordinate_or_density_of_prism_gravity",
    "C39_nan_input_of_prism_magnetic",
    "C39_nan_mass_or_moment"
   ],
   "note": "Binary64 with any log/arctan mapping NaN to NaN; 'never a number' where the code may raise first."
  },
  {
   "property": "C40",
   "status": "proved",
   "theorems": [
    "C40_exchange_symmetry_binary64"
   ],
   "note": ""
  },
  {
   "property": "C41",
   "status": "proved",
   "theorems": [
    "C41_shifted_coordinate_is_zero_iff_equal",
    "C41_predicates_binary64",
    "C41_radius_is_zero_only_at_a_vertex"
   ],
   "note": ""
  },
  {
   "property": "C42",
   "status": "proved",
   "theorems": [
    "C42_point_and_dipole_finite_in_ordinary_range",
    "C42_prism_finite_in_ordinary_range",
    "C42_prism_kernels_in_ordinary_range"
   ],
   "note": "Needs log and arctan finite and of magnitude at most 2048 and 2 on their domain (hypotheses good_log, good_atan)."
  },
  {
   "property": "C43",
   "status": "proved",
   "theorems": [
    "C43_prism_functions_never_raise_binary64",
    "C43_point_functions_raise_at_the_source_binary64"
   ],
   "note": "C43_limits records by computation that outside the ordinary range of C42 point functions and prism gradiometry can raise away from the source (underflow)."
  },
  {
   "property": "C44",
   "status": "proved",
   "theorems": [
    "C44_distance_rounding_error",
    "C44_point_gravity_rounding_error"
   ],
   "note": "Relative error against the same model function executed in exact real arithmetic."
  },
  {
   "property": "C45",
   "status": "proved",
   "theorems": [
    "C45_negated_mass_or_density_binary64",
    "C45_negated_magnetization_binary64"
   ],
   "note": ""
  },
  {
   "property": "C46",
   "status": "proved",
   "theorems": [
    "C46_parallel_forward_is_the_sequential_one",
    "C46_parallel_jacobian_is_the_sequential_one",
    "C46_parallel_loops_terminate",
    "C46_parallel_results_binary64"
   ],
   "note": "Interleaving semantics at the granularity of array reads and writes (sequentially consistent memory; each cell is accessed by one thread only). (a)-(c) hold in every arithmetic, (d) is binary64."
  },
  {
   "property": "C47",
   "status": "proved",
   "theorems": [
    "C47_jacobian_times_densities_is_the_forward_model"
   ],
   "note": "Exact arithmetic. Also proves that jacobian[i,j] is the derivative of the forward model with respect to density j."
  },
  {
   "property": "C48",
   "status": "proved",
   "theorems": [
    "C48_prism_potential_and_acceleration_continuous"
   ],
   "note": ""
  },
  {
   "property": "C49",
   "status": "proved",
   "theorems": [
    "C49_interior_prism_gravity_is_improper_integral_of_point_gravity"
   ],
   "note": ""
  },
  {
   "property": "C50",
   "status": "proved",
   "theorems": [
    "C50_attraction_points_to_the_middle"
   ],
   "note": ""
  },
  {
   "property": "C51",
   "status": "proved",
   "theorems": [
    "C51_distance_scales",
    "C51_point_kernels_scale",
    "C51_point_gravity_and_dipole_scale",
    "C51_prism_gravity_scales",
    "C51_prism_magnetic_scales"
   ],
   "note": ""
  },
  {
   "property": "C52",
   "status": "proved",
   "theorems": [
    "C52_wide_prism_is_bouguer_slab",
    "C52_wide_prism_gradient"
   ],
   "note": ""
  },
  {
   "property": "C53",
   "status": "proved",
   "theorems": [
    "C53_far_prism_gravity_is_point_gravity",
    "C53_far_prism_magnetic_is_dipole",
    "C53_distance_condition"
   ],
   "note": ""
  },
  {
   "property": "C54",
   "status": "proved",
   "theorems": [
    "C54_exterior_gravity_is_lipschitz",
    "C54_exterior_magnetic_is_lipschitz",
    "C54_displacement_condition"
   ],
   "note": ""
  },
  {
   "property": "C55",
   "status": "proved",
   "theorems": [
    "C55_exterior_gravity_bounded_by_volume",
    "C55_exterior_magnetic_bounded_by_volume"
   ],
   "note": ""
  },
  {
   "property": "C56",
   "status": "proved",
   "theorems": [
    "C56_distance_is_a_number",
    "C56_distance_accurate",
    "C56_distance_to_itself",
    "C56_distance_to_itself_can_be_nan"
   ],
   "note": ""
  },
  {
   "property": "C57",
   "status": "proved",
   "theorems": [
    "C57_distance_spherical_accurate",
    "C57_distance_spherical_close_points",
    "C57_cosine_accurate"
   ],
   "note": ""
  },
  {
   "property": "C58",
   "status": "proved",
   "theorems": [
    "C58_prism_gravity_rounding_error",
    "C58_prism_gravity_tensor_rounding_error"
   ],
   "note": ""
  },
  {
   "property": "C59",
   "status": "proved",
   "theorems": [
    "C59_prism_magnetic_rounding_error",
    "C59_prism_magnetic_gradient_rounding_error"
   ],
   "note": ""
  },
  {
   "property": "C60",
   "status": "proved",
   "theorems": [
    "C60_point_kernels_rounding_error",
    "C60_point_diagonal_tensor_rounding_error",
    "C60_dipole_rounding_error"
   ],
   "note": ""
  },
  {
   "property": "C61",
   "status": "proved",
   "theorems": [
    "C61_forward_model_rounding_error"
   ],
   "note": ""
  },
  {
   "property": "C62",
   "status": "proved",
   "theorems": [
    "C62_flux_of_prism_gravity_is_enclosed_mass",
    "C62_flux_of_point_gravity_is_enclosed_mass"
   ],
   "note": ""
  },
  {
   "property": "C63",
   "status": "proved",
   "theorems": [
    "C63_dipole_magnetic_field_has_no_flux",
    "C63_prism_magnetic_field_has_no_flux"
   ],
   "note": ""
  },
  {
   "property": "C64",
   "status": "proved",
   "theorems": [
    "C64_prism_potential_difference_is_work",
    "C64_prism_acceleration_difference",
    "C64_prism_magnetic_difference",
    "C64_point_differences"
   ],
   "note": ""
  },
  {
   "property": "C65",
   "status": "proved",
   "theorems": [
    "C65_prism_magnetic_line_integral",
    "C65_dipole_magnetic_line_integral",
    "C65_no_circulation"
   ],
   "note": ""
  },
  {
   "property": "C66",
   "status": "proved",
   "theorems": [
    "C66_gravity_against_newton_integral",
    "C66_gravity_against_newton_integral_inside",
    "C66_magnetic_against_dipole_integral"
   ],
   "note": ""
  },
  {
   "property": "C67",
   "status": "proved",
   "theorems": [
    "C67_utils_source",
    "C67_point_source",
    "C67_dipole_source",
    "C67_prism_kernels_source",
    "C67_prism_gravity_source",
    "C67_prism_magnetic_source",
    "C67_prism_predicates_source"
   ],
   "note": ""
  },
  {
   "property": "C68",
   "status": "proved",
   "theorems": [
    "C68_floats",
    "C68_triples",
    "C68_bools"
   ],
   "note": ""
  },
  {
   "property": "C69",
   "status": "proved",
   "theorems": [
    "C69_same_density_same_potential_and_acceleration",
    "C69_same_density_same_tensor",
    "C69_same_magnetization_same_field"
   ],
   "note": ""
  },
  {
   "property": "C70",
   "status": "proved",
   "theorems": [
    "C70_body_as_point_masses",
    "C70_body_as_dipoles",
    "C70_uniform_mesh_converges"
   ],
   "note": ""
  },
  {
   "property": "C71",
   "status": "proved",
   "theorems": [
    "C71_prism_kernels_integrate_the_point_kernels"
   ],
   "note": ""
  },
  {
   "property": "C72",
   "status": "proved",
   "theorems": [
    "C72_prism_kernel_identities",
    "C72_third_order_kernels_are_derivatives"
   ],
   "note": ""
  },
  {
   "property": "C73",
   "status": "proved",
   "theorems": [
    "C73_potential_grows_towards_the_centre",
    "C73_potential_has_its_unique_maximum_at_the_centre"
   ],
   "note": ""
  },
  {
   "property": "C74",
   "status": "proved",
   "theorems": [
    "C74_integer_arguments",
    "C74_too_large_integers"
   ],
   "note": ""
  },
  {
   "property": "C75",
   "status": "proved",
   "theorems": [
    "C75_mass_from_gravity_on_a_plane",
    "C75_error_of_a_finite_window",
    "C75_planes_above_and_below_a_prism",
    "C75_plane_above_a_point_mass"
   ],
   "note": ""
  },
  {
   "property": "C76",
   "status": "proved",
   "theorems": [
    "C76_fields_never_raise",
    "C76_kernels_return_or_raise",
    "C76_same_numbers_as_compiled",
    "C76_at_a_point_mass"
   ],
   "note": ""
  },
  {
   "property": "C77",
   "status": "proved",
   "theorems": [
    "C77_point_results_depend_on_computed_differences",
    "C77_prism_results_depend_on_computed_differences",
    "C77_point_results_translation_invariant_binary64",
    "C77_prism_results_translation_invariant_binary64"
   ],
   "note": ""
  },
  {
   "property": "C78",
   "status": "proved",
   "theorems": [
    "C78_distance_is_monotone",
    "C78_point_potential_is_monotone",
    "C78_point_acceleration_is_monotone_sideways"
   ],
   "note": ""
  },
  {
   "property": "C79",
   "status": "proved",
   "theorems": [
    "C79_action_and_reaction",
    "C79_no_self_force",
    "C79_mutual_energy"
   ],
   "note": ""
  },
  {
   "property": "C80",
   "status": "proved",
   "theorems": [
    "C80_mutual_magnetic_energy",
    "C80_magnetic_action_and_reaction"
   ],
   "note": ""
  },
  {
   "property": "C81",
   "status": "proved",
   "theorems": [
    "C81_field_determines_density",
    "C81_potential_determines_density_locally",
    "C81_poisson_for_a_body"
   ],
   "note": ""
  },
  {
   "property": "C82",
   "status": "proved",
   "theorems": [
    "C82_reversed_potential_and_acceleration",
    "C82_reversed_tensor",
    "C82_reversed_magnetic",
    "C82_reversal_is_silent"
   ],
   "note": ""
  },
  {
   "property": "C83",
   "status": "proved",
   "theorems": [
    "C83_tensor_continuous_off_its_singular_set",
    "C83_normal_component_jumps_across_a_face"
   ],
   "note": ""
  },
  {
   "property": "C84",
   "status": "proved",
   "theorems": [
    "C84_point_sources_under_rigid_motions",
    "C84_dipoles_under_rigid_motions"
   ],
   "note": ""
  },
  {
   "property": "C85",
   "status": "proved",
   "theorems": [
    "C85_gravity_derivatives_in_the_boundaries",
    "C85_magnetic_derivatives_in_the_boundaries"
   ],
   "note": ""
  },
  {
   "property": "C86",
   "status": "proved",
   "theorems": [
    "C86_attraction_from_sheets",
    "C86_tensor_from_sheets",
    "C86_magnetic_field_from_surface_charges"
   ],
   "note": ""
  },
  {
   "property": "C87",
   "status": "proved",
   "theorems": [
    "C87_denser_bodies_attract_more",
    "C87_larger_prisms_attract_more"
   ],
   "note": ""
  },
  {
   "property": "C88",
   "status": "proved",
   "theorems": [
    "C88_mirror_images_binary64",
    "C88_exchanged_horizontal_axes_binary64"
   ],
   "note": ""
  },
  {
   "property": "C89",
   "status": "proved",
   "theorems": [
    "C89_fields_never_divide_by_zero",
    "C89_numpy_floats_never_raise",
    "C89_moderate_floats_never_raise",
    "C89_moderate_kernels",
    "C89_distance_overflow"
   ],
   "note": ""
  },
  {
   "property": "C90",
   "status": "proved",
   "theorems": [
    "C90_integer_arguments64",
    "C90_sign_of_zero",
    "C90_too_large_integers64"
   ],
   "note": ""
  },
  {
   "property": "C91",
   "status": "proved",
   "theorems": [
    "C91_point_gravity_never_repels",
    "C91_gravity_grows_with_the_source"
   ],
   "note": ""
  },
  {
   "property": "C92",
   "status": "proved",
   "theorems": [
    "C92_force_is_the_derivative_of_the_energy",
    "C92_energy_with_a_copy_is_stationary"
   ],
   "note": ""
  },
  {
   "property": "C93",
   "status": "proved",
   "theorems": [
    "C93_jacobian_product_rounding_error",
    "C93_guide_check_is_true"
   ],
   "note": ""
  },
  {
   "property": "C94",
   "status": "proved",
   "theorems": [
    "C94_same_doubles_or_overflow",
    "C94_numpy_floats_same_doubles",
    "C94_moderate_floats_same_doubles",
    "C94_squares"
   ],
   "note": ""
  },
  {
   "property": "C95",
   "status": "proved",
   "theorems": [
    "C95_attraction_of_a_long_prism",
    "C95_tensor_of_a_long_prism",
    "C95_magnetic_field_of_a_long_prism"
   ],
   "note": ""
  },
  {
   "property": "C96",
   "status": "proved",
   "theorems": [
    "C96_guide_functions_are_the_model",
    "C96_values_of_guide_functions",
    "C96_guide_functions_return_binary64"
   ],
   "note": ""
  },
  {
   "property": "C97",
   "status": "proved",
   "theorems": [
    "C97_extremes_are_on_the_boundary",
    "C97_boundary_values_determine_the_field",
    "C97_longest_vectors_are_on_the_boundary",
    "C97_no_strict_local_extremum"
   ],
   "note": ""
  },
  {
   "property": "C98",
   "status": "proved",
   "theorems": [
    "C98_point_and_dipole_powers_of_two",
    "C98_prism_unit_of_length",
    "C98_prism_density_power_of_two"
   ],
   "note": ""
  },
  {
   "property": "C99",
   "status": "proved",
   "theorems": [
    "C99_extra_elements_are_ignored",
    "C99_missing_elements"
   ],
   "note": ""
  },
  {
   "property": "C100",
   "status": "proved",
   "theorems": [
    "C100_fields_vanish_far_away",
    "C100_bounds_on_a_plane_hold_above_it",
    "C100_errors_do_not_grow_upwards",
    "C100_longest_vectors_are_on_the_plane",
    "C100_bounds_around_a_box_hold_outside_it",
    "C100_errors_do_not_grow_outwards",
    "C100_longest_vectors_around_a_box"
   ],
   "note": ""
  },
  {
   "property": "C101",
   "status": "proved",
   "theorems": [
    "C101_data_exist",
    "C101_sensitivity_is_definite",
    "C101_data_determine_the_masses",
    "C101_any_data_can_be_fitted"
   ],
   "note": ""
  },
  {
   "property": "C102",
   "status": "proved",
   "theorems": [
    "C102_prism_gravity_differences",
    "C102_prism_magnetic_differences",
    "C102_point_gravity_differences",
    "C102_computed_gravity_differences",
    "C102_computed_magnetic_differences"
   ],
   "note": ""
  },
  {
   "property": "C103",
   "status": "proved",
   "theorems": [
    "C103_third_order_kernels_relative_error",
    "C103_diagonal_kernels_relative_error",
    "C103_logarithmic_kernels_error",
    "C103_computed_radius"
   ],
   "note": ""
  },
  {
   "property": "C104",
   "status": "proved",
   "theorems": [
    "C104_exchanged_axes_permute_the_kernels_bit_for_bit",
    "C104_mirrored_third_order_and_mixed_kernels",
    "C104_mirrored_diagonal_and_first_order_kernels",
    "C104_mixed_kernels_increase",
    "C104_mixed_kernels_do_not_decrease_in_binary64"
   ],
   "note": ""
  },
  {
   "property": "C105",
   "status": "proved",
   "theorems": [
    "C105_eulers_equation_for_point_kernels",
    "C105_eulers_equation_for_dipoles",
    "C105_a_point_mass_located_from_one_station",
    "C105_one_station_determines_a_point_mass",
    "C105_invariants_of_the_tensor_of_any_body"
   ],
   "note": ""
  },
  {
   "property": "C106",
   "status": "proved",
   "theorems": [
    "C106_prism_tensor_trace_binary64",
    "C106_point_laplacians_binary64",
    "C106_prism_magnetic_divergence_binary64",
    "C106_poisson_relation_binary64",
    "C106_cut_prism_tensor_binary64"
   ],
   "note": ""
  },
  {
   "property": "C107",
   "status": "proved",
   "theorems": [
    "C107_attraction_is_at_least",
    "C107_relative_error_binary64",
    "C107_sign_binary64"
   ],
   "note": ""
  },
  {
   "property": "C108",
   "status": "proved",
   "theorems": [
    "C108_strength_of_a_dipole_field",
    "C108_moment_from_one_station",
    "C108_dipole_relative_error_binary64",
    "C108_dipole_reciprocity_binary64"
   ],
   "note": ""
  },
  {
   "property": "C109",
   "status": "proved",
   "theorems": [
    "C109_bouguer_slab_binary64",
    "C109_far_prism_binary64",
    "C109_far_prism_magnetic_binary64"
   ],
   "note": ""
  },
  {
   "property": "C110",
   "status": "proved",
   "theorems": [
    "C110_flux_of_a_body",
    "C110_mass_from_a_closed_surface",
    "C110_surface_data_determine_enclosed_mass",
    "C110_flux_of_point_masses",
    "C110_no_magnetic_flux"
   ],
   "note": ""
  },
  {
   "property": "C111",
   "status": "proved",
   "theorems": [
    "C111_prism_gravity_is_proportional_binary64",
    "C111_point_gravity_is_proportional_binary64",
    "C111_jacobian_entries_binary64"
   ],
   "note": ""
  },
  {
   "property": "C112",
   "status": "proved",
   "theorems": [
    "C112_geographic_distance_is_a_metric",
    "C112_chord_and_great_circle"
   ],
   "note": ""
  },
  {
   "property": "C113",
   "status": "proved",
   "theorems": [
    "C113_signs_of_the_gravity_tensor",
    "C113_profiles_beside_a_prism",
    "C113_attraction_weakens_away_from_a_face"
   ],
   "note": ""
  },
  {
   "property": "C114",
   "status": "proved",
   "theorems": [
    "C114_tensor_diagonal_between_two_faces",
    "C114_profiles_between_two_faces",
    "C114_tensor_diagonal_inside"
   ],
   "note": ""
  },
  {
   "property": "C115",
   "status": "proved",
   "theorems": [
    "C115_attraction_points_to_the_central_planes",
    "C115_unique_point_of_equilibrium"
   ],
   "note": ""
  },
  {
   "property": "C116",
   "status": "proved",
   "theorems": [
    "C116_field_of_an_axially_magnetized_prism"
   ],
   "note": ""
  }
 ]
}