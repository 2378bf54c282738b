# What each theorem rests on

Output of `Print Assumptions` for every theorem named in MANIFEST.json, grouped by the set of axioms listed.
All of them are axioms of the Coq standard library; the development adds none.

## No axioms (closed under the global context)

9 theorems: C22_ensure_utc, C23_leap_seconds, C23_leap_seconds_defined, C23_leap_seconds_monotone, C46_two_points, C54_command_defaults, C54_commands_well_formed, C57_linspace_one_raises, C81_json_times

## `ClassicalDedekindReals.sig_forall_dec`, `FunctionalExtensionality.functional_extensionality_dep`

27 theorems: C22_defined, C22_elapsed, C22_juliandate_exact, C22_list, C22_strictly_increasing, C22_timezone_independent, C23_utc_to_tt, C23_utc_to_tt_defined, C23_utc_to_tt_increasing, C23_utc_with_offset, C47_rounding_and_error_free_sum_are_neutral, C48_horner, C57_linspace, C57_linspace_never_fails, C57_sign, C63_epoch, C63_gmst_degree_form, C81_fields, C81_json_arrays_refused, C81_json_numbers, C81_json_precision_ignored, C81_json_tuple_is_list, C81_negative_precision, C81_precision, C81_reads_back, C81_single, C81_special

## `ClassicalDedekindReals.sig_forall_dec`, `ClassicalDedekindReals.sig_not_dec`, `FunctionalExtensionality.functional_extensionality_dep`

123 theorems: C01_displaced_along_normal, C01_normal_is_outward_unit_normal, C01_surface_point, C02_injective, C02_injective_off_poles, C08_axes_orthonormal, C08_ecef2enu_components, C08_ecef2enu_isometry, C08_ecef_enu_ecef, C08_enu2uvw_preserves_dot, C08_enu_ecef_enu, C08_enu_uvw_enu, C08_uvw2enu_preserves_dot, C08_uvw_enu_uvw, C08_vector_versions, C09_matrices_agree_with_vector_functions, C09_matrices_are_rotations, C09_rows_are_axes, C10_roundtrips, C11_geodetic2enu_via_ecef, C11_observer_is_origin, C11_overhead_target, C15_body_ecef_body, C15_body_local_body, C15_body_matrix_rotation, C15_ecef_body_ecef, C15_local_body_local, C15_vector_roundtrips, C16_nose_direction, C16_positive_signs, C16_right_wing, C16_zero_attitude_is_ned, C17_components, C17_ecef_roundtrip, C17_isometry, C17_roundtrips, C18_array_elementwise, C18_array_elementwise_inverse, C18_array_shape_mismatch, C18_defined, C18_ecef_eci_ecef, C18_eci_ecef_eci, C18_preserves_dot_cross, C19_defined, C19_position_part, C19_state_roundtrip, C19_state_roundtrip_back, C19_velocity_part, C20_geodetic2eci_ignores_eop, C21_arrays_refuted, C21_mismatched_shapes, C21_single_element_partial, C24_defined, C24_greenwich_range, C24_list, C24_longitude_law, C24_range, C24_sidereal_rate, C28_nvector_is_surface_normal, C28_nvector_is_unit_normal, C31_intersection, C31_intersection_degenerate, C31_mean_order_independent, C31_mean_unit, C32_degrees, C32_geocentric_radius_is_norm, C32_parallel_is_axis_distance, C32_transverse_reaches_axis, C33_bounds, C33_equality_only_at_poles, C34_eqavol_volume, C37_all_models_covered, C39_departure_meaning, C39_departure_metric, C39_departure_short, C43_named_models_mild, C47_degree_sine_cosine, C47_difference, C47_normalize, C48_cosine_series, C48_sine_series, C52_constructed_is_consistent, C52_every_named_model_constructs, C52_oblate_accepted, C52_prolate_rejected, C52_unknown_name_raises, C53_vreckon_degrees_unchanged, C54_accepted, C54_flags, C54_names_and_ellipsoid, C54_options, C54_plain_defaults, C54_positional, C54_times, C55_positive_altitude_far, C59_frames, C59_rcurve, C59_rsphere, C60_default_object, C60_rcurve, C61_equation_of_equinoxes_bound, C61_ut1_rotates_about_axis, C62_iers_convention_refuted, C62_pole_image_partial, C63_gmst_value, C63_nutation_bounds, C63_nutation_matrix, C63_nutation_value, C63_obliquity_value, C63_precession_epoch, C63_precession_matrix, C69_none_default_becomes_text, C69_radius_default_refuted, C77_models_gentle, C77_third_range, C88_dimensions_partial, C88_io_refuted, C88_names_available, C88_wgs84_mean, C94_height, C94_latitude, C94_longitude, C94_vertical

## `ClassicalDedekindReals.sig_forall_dec`, `ClassicalDedekindReals.sig_not_dec`, `Classical_Prop.classic`, `FunctionalExtensionality.functional_extensionality_dep`

420 theorems: C02_surjective_on_exterior, C03_array_agrees_with_scalar, C03_roundtrip_poles, C03_roundtrip_poles_array, C03_roundtrip_surface, C03_roundtrip_surface_array, C04_roundtrip_sphere, C05_roundtrip_equator_partial, C05_roundtrip_refuted, C06_ranges, C06_ranges_array, C07_array_elementwise, C07_mirror_negates_latitude, C07_mirror_negates_latitude_array, C07_rotation_changes_only_longitude, C10_aer, C10_ned, C10_nwu, C10_sez, C12_aer_enu_aer, C12_enu_aer_enu, C12_ranges, C13_range_is_distance, C13_range_is_distance_geodetic, C13_range_symmetric, C14_aer_ecef_aer, C14_ecef_aer_ecef, C15_frame_choice_irrelevant, C15_unsupported_raise, C17_consistent_with_geodetic_and_aer, C18_timezone_independent, C20_roundtrip_refuted, C20_zero_eop_roundtrip_partial, C24_timezone_independent, C25_azel2radec, C25_latitude_guard, C25_radec2azel, C25_roundtrip, C25_roundtrip_back, C26_anglesep_is_angle, C26_anglesep_metric, C27_cart2sph_ranges, C27_cart_pol_cart, C27_cart_sph_cart, C27_pol_cart_pol, C27_sph_cart_sph, C28_ecef2nvector_surface, C28_nvector2ecef, C28_roundtrip_geodetic, C28_roundtrip_nvector, C29_distance_is_angle, C29_metric, C30_any_fraction, C30_constant_speed, C30_endpoints, C30_nearly_coincident, C31_cross_track, C32_meridian_is_latitude_speed, C32_parallel_is_longitude_speed, C34_authalic_equal_area, C34_radii_between_axes, C34_triaxial_norm_exact_volume, C34_unknown_method_raises, C35_geocentric_roundtrip_refuted, C35_geocentric_roundtrip_surface_partial, C35_parametric_meaning, C35_parametric_roundtrip, C36_direction, C36_geocentric_is_ecef_angle, C37_closed_forms_increasing, C37_geoc2geod_increasing, C37_geoc2geod_odd_fixing, C37_odd_fixing, C37_series_increasing, C38_conformal_array_partial, C38_conformal_array_refuted, C38_conformal_gudermannian, C38_conformal_range, C38_inverse_paths_agree, C38_isometric_definition, C38_isometric_poles, C39_meridian_arc_additive, C39_meridian_arc_metric, C39_meridian_arc_separates, C39_meridian_arc_sphere, C39_quadrant, C40_along_meridian, C40_along_parallel, C40_coincident, C40_full_turn_refuted, C40_parallel_long_way_refuted, C40_poles, C40_ranges, C40_rhumb_line_partial, C40_same_pole_nan, C40_symmetric, C41_east_west, C41_guards, C41_north_south_partial, C41_overshoot_refuted, C41_sphere_inverse, C41_sphere_latitude, C41_to_pole_nan, C42_array_elementwise, C42_axes_of_ell_partial, C42_first_intersection, C42_large_ellipsoid_always_nan, C42_nadir, C42_negative_altitude, C42_other_ellipsoid_refuted, C42_upwards_nan, C43_azimuth_range, C43_coincident_is_zero, C43_distance_nonnegative, C43_distance_symmetric, C43_east_west_mirror, C43_equator, C43_latitude_guard, C43_longitude_invariance, C43_north_south_mirror, C43_sphere, C43_sphere_everywhere, C43_zero_only_if_coincident, C44_full_turn_is_nan, C44_guards, C44_inverts_vdist_on_sphere, C44_output_ranges_partial, C44_sphere, C44_terminates, C44_zero_range, C45_antipodal_neighbour_refuted, C45_bad_latitude_anywhere, C45_coincident_neighbour_refuted, C45_single_element, C45_sphere_elementwise_partial, C46_antipodal, C46_line_count, C46_line_equator, C46_line_on_geodesic, C46_line_one_point, C46_line_points, C46_line_reaches_target, C46_line_reaches_target_earth, C46_line_sphere_partial, C46_samples, C46_sphere_equally_spaced, C46_too_few_points, C46_two_points_skip_antipodal_check, C47_degree_arctangent, C47_direct_azimuth_periodic, C47_direct_longitude_equivariant, C47_direct_ranges, C47_inverse_azimuth_ranges, C49_equator, C49_sphere_partial, C49_zero_distance_east_west, C49_zero_distance_equator, C49_zero_distance_pole_refuted, C49_zero_distance_residual, C49_zero_distance_sphere, C50_area_is_turning_partial, C50_counterclockwise_positive_refuted, C50_course_changes_unique, C50_perimeter_partial, C50_radians_refuted, C50_reversed_order, C50_reversed_order_sphere, C50_too_few_vertices, C50_turn_direction_sphere, C51_assignment_leaks_refuted, C51_caches_transparent, C51_clear_gives_fresh_values, C51_default_is_wgs84, C51_equal_shapes_share_solver, C51_from_name_singleton, C51_geodesic_is_the_solver, C51_geodesic_sees_current_object, C51_objects_are_stable, C53_enu2aer_changes_only_tiny, C53_enu2aer_refuted, C53_enu2aer_unchanged_iff_partial, C53_enu2aer_values, C53_ned2aer, C53_nwu2aer, C53_sez2aer, C53_vdist_degrees_unchanged, C53_vdist_radians_refuted, C53_vdist_radians_unchanged_iff, C53_vreckon_radians_unchanged_iff, C55_geodetic_roundtrip, C55_spherical2geodetic_exact, C55_spherical_form_of_ecef, C55_spherical_roundtrip, C56_angle_difference_exact, C56_angle_reduction_exact, C56_angle_rounding, C56_fmod_exact, C56_mod_range, C56_mod_reaches_modulus, C56_mod_value, C56_sum_error_exact, C57_cube_root, C57_cube_root_numpy, C58_first_order_partial, C58_second_order_error, C58_third_order_refuted, C59_aer, C59_body, C59_dca, C59_ecef, C59_eci, C59_enu, C59_geodesic_area_refuted, C59_geodesic_line, C59_haversine, C59_karney, C59_latitude, C59_los, C59_lox, C59_loxodrome_azimuth_refuted, C59_loxodrome_inverse_partial, C59_ned, C59_nvector, C59_nwu, C59_sez, C59_spherical, C59_vincenty, C60_aer, C60_body, C60_dca, C60_ecef, C60_eci, C60_enu, C60_karney, C60_latitude, C60_los, C60_lox, C60_ned, C60_nvector, C60_nwu, C60_rsphere, C60_sez, C60_spherical, C60_vincenty, C63_eci2ecef_is_reduction, C64_aer2eci_seen_from_observer, C64_aer_honours_eop, C64_eci2geodetic_honours_eop, C65_mean_direction, C65_permutation, C65_single_point_sphere, C66_degrees_radians_agree, C66_euler_radius, C66_guard, C67_coincident_is_zero, C67_distance_symmetric, C67_east_west_mirror_azimuths, C67_longitude_invariance, C67_mirror_distance, C67_reversed_course, C68_direct_undoes_inverse, C68_equator, C68_sphere, C70_direct_accuracy, C70_direct_accuracy_earth, C70_direct_accuracy_off_meridian, C70_direct_position_any_end, C70_geodesic_exists, C70_geodesic_unique, C71_inverse_accuracy_any_ellipsoid, C71_inverse_accuracy_away, C71_inverse_accuracy_earth, C71_inverse_accuracy_partial, C71_roundtrip_check_sound, C71_search_stops, C72_inverse_equator, C72_inverse_same_meridian, C72_inverse_same_meridian_earth, C73_earth, C73_position_accuracy, C73_roundtrip_accuracy, C74_aer, C74_body, C74_eci, C74_geodetic2eci, C74_local_frames, C75_vreckon_accuracy, C75_vreckon_accuracy_earth, C76_track2_on_geodesic, C76_vdist_accuracy, C76_vdist_accuracy_earth, C76_vreckon_undoes_vdist, C77_meridian_arc_accurate, C77_meridian_dist_accurate, C77_meridian_length_exists, C77_rectifying_accurate, C77_rectifying_inverse_accurate, C77_rectifying_onto, C77_rectifying_radius, C77_rectifying_round_trip, C78_authalic_accurate, C78_authalic_inverse_accurate, C78_authalic_onto, C78_authalic_round_trip, C78_single_point_mean, C78_zone_area_exists, C79_conformal_round_trip, C79_isometric_round_trip, C80_direct_accurate, C80_inverse_accurate, C80_rhumb_lines_exist, C80_rhumb_lines_join, C82_at_least_straight_line, C82_at_least_straight_line_earth, C82_distance_range, C82_distance_range_earth, C83_roundtrip, C83_roundtrip_earth, C83_roundtrip_position, C84_from_pole, C84_from_pole_earth, C84_parallel_equidistant_refuted, C84_pole_to_itself_refuted, C84_to_pole, C85_attained, C85_azimuths, C85_geodesic_unique, C85_geodesics_are_shortest, C85_shortest, C85_shortest_earth, C85_shortest_equator, C85_shortest_if_joined, C86_symmetric, C86_symmetric_earth, C86_triangle, C86_triangle_earth, C87_azimuths_recovered, C87_azimuths_recovered_earth, C87_distance_recovered, C87_distance_recovered_earth, C89_direct_agree, C89_direct_agree_earth, C89_inverse_agree, C89_inverse_agree_earth, C90_equator, C90_meridian_arc, C90_meridian_arc_earth, C90_parallel_not_shorter, C90_rhumb_not_shorter, C90_rhumb_not_shorter_earth, C91_back_azimuth_refuted, C91_direct_back_azimuth_refuted, C91_exchange_reverses, C92_aer2ecef, C92_aer2enu, C92_earth, C92_ecef2enu, C92_ecef_round_trip, C92_enu2ecef, C92_enu_round_trip, C92_geodetic2ecef, C92_geodetic2enu, C92_ned, C92_observer_exactly_zero, C92_rotations, C92_slant_range, C93_earth, C93_ecef2geodetic, C93_everywhere_near_earth, C93_nearby, C93_polar_axis, C93_polar_axis_earth, C93_round_trip, C93_round_trip_everywhere, C93_true_coordinates, C94_angles, C94_earth, C94_every_position, C95_azimuth_below_full_turn_refuted, C95_azimuth_range, C95_direction, C95_enu2aer, C95_every_direction, C95_geodetic2aer, C96_aer2geodetic, C96_enu2geodetic, C96_ned2geodetic, C97_accuracy_partial, C97_always_defined, C97_coincident, C97_stable_to_zero_refuted, C97_symmetric, C98_accuracy, C98_defined, C98_exact_quarters, C98_monotone, C98_resolution, C98_strict_refuted, C98_timezone_independent, C99_accuracy, C99_apparent, C99_datetime2sidereal, C99_datetime2sidereal_defined, C99_earth_rotation_angle, C99_ecef2eci, C99_eci2ecef, C99_eci2ecef_state, C99_of_datetime, C99_precession_nutation, C99_range, C99_rotation, C99_rotation_defined, C99_small_angles, C99_roundtrip, C99_state_roundtrip, C99_geodetic2eci, C99_aer2eci, C99_eci2geodetic, C99_geodetic_round_trip, C99_eci2aer
