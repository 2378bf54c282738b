{
 "claims": [
  {
   "property": "C01",
   "status": "proved",
   "theorems": [
    "C01_displaced_along_normal",
    "C01_normal_is_outward_unit_normal",
    "C01_surface_point"
   ],
   "note": "geodetic2ecef lands on the ellipsoid at h=0 and moves along the outward unit normal with h, every ellipsoid, both angle units."
  },
  {
   "property": "C02",
   "status": "proved",
   "theorems": [
    "C02_injective",
    "C02_injective_off_poles",
    "C02_surjective_on_exterior"
   ],
   "note": "Injective for h>=0 (modulo the poles, where longitude is undetermined), and onto the exterior."
  },
  {
   "property": "C03",
   "status": "proved",
   "theorems": [
    "C03_array_agrees_with_scalar",
    "C03_roundtrip_poles",
    "C03_roundtrip_poles_array",
    "C03_roundtrip_surface",
    "C03_roundtrip_surface_array"
   ],
   "note": "Exact on the surface of any oblate ellipsoid, poles included."
  },
  {
   "property": "C04",
   "status": "proved",
   "theorems": [
    "C04_roundtrip_sphere"
   ],
   "note": "Exact on spheres at every altitude above the centre."
  },
  {
   "property": "C05",
   "status": "partial",
   "theorems": [
    "C05_roundtrip_equator_partial",
    "C05_roundtrip_refuted"
   ],
   "note": "Settled negatively as an exact claim: C05_roundtrip_refuted exhibits an ellipsoid and a point where the round trip is not exact; C05_roundtrip_equator_partial proves exactness on the equatorial plane. The quantitative version, for every height above -b/8, is C73."
  },
  {
   "property": "C06",
   "status": "proved",
   "theorems": [
    "C06_ranges",
    "C06_ranges_array"
   ],
   "note": "Ranges and altitude sign for every input, scalar and array path."
  },
  {
   "property": "C07",
   "status": "proved",
   "theorems": [
    "C07_array_elementwise",
    "C07_mirror_negates_latitude",
    "C07_mirror_negates_latitude_array",
    "C07_rotation_changes_only_longitude"
   ],
   "note": "Rotation and mirror symmetry."
  },
  {
   "property": "C08",
   "status": "proved",
   "theorems": [
    "C08_axes_orthonormal",
    "C08_ecef2enu_components",
    "C08_ecef2enu_isometry",
    "C08_ecef_enu_ecef",
    "C08_enu2uvw_preserves_dot",
    "C08_enu_ecef_enu",
    "C08_enu_uvw_enu",
    "C08_uvw2enu_preserves_dot",
    "C08_uvw_enu_uvw",
    "C08_vector_versions"
   ],
   "note": "ENU = components along East/North/Up; mutual inverses, isometries."
  },
  {
   "property": "C09",
   "status": "proved",
   "theorems": [
    "C09_matrices_agree_with_vector_functions",
    "C09_matrices_are_rotations",
    "C09_rows_are_axes"
   ],
   "note": "All eight matrices are rotations, equal the vector functions, rows are the named axes."
  },
  {
   "property": "C10",
   "status": "proved",
   "theorems": [
    "C10_aer",
    "C10_ned",
    "C10_nwu",
    "C10_roundtrips",
    "C10_sez"
   ],
   "note": "NED/NWU/SEZ against independent axes, ECEF/geodetic/AER conversions and round trips (AER under the 1 mm trim hypothesis)."
  },
  {
   "property": "C11",
   "status": "proved",
   "theorems": [
    "C11_geodetic2enu_via_ecef",
    "C11_observer_is_origin",
    "C11_overhead_target"
   ],
   "note": "Observer at origin, vertical offset = altitude difference, all four frames."
  },
  {
   "property": "C12",
   "status": "proved",
   "theorems": [
    "C12_aer_enu_aer",
    "C12_enu_aer_enu",
    "C12_ranges"
   ],
   "note": "Ranges; ENU->AER->ENU within 1 mm per component and exact when no component is tiny; AER->ENU->AER exact for non-degenerate input."
  },
  {
   "property": "C13",
   "status": "proved",
   "theorems": [
    "C13_range_is_distance",
    "C13_range_is_distance_geodetic",
    "C13_range_symmetric"
   ],
   "note": "Range = ECEF distance within sqrt(3) mm (exact when untrimmed), symmetric."
  },
  {
   "property": "C14",
   "status": "proved",
   "theorems": [
    "C14_aer_ecef_aer",
    "C14_ecef_aer_ecef"
   ],
   "note": "Both round trips."
  },
  {
   "property": "C15",
   "status": "proved",
   "theorems": [
    "C15_body_ecef_body",
    "C15_body_local_body",
    "C15_body_matrix_rotation",
    "C15_ecef_body_ecef",
    "C15_frame_choice_irrelevant",
    "C15_local_body_local",
    "C15_unsupported_raise",
    "C15_vector_roundtrips"
   ],
   "note": "Rotation, round trips for every frame, frame independence, ValueError on unsupported input."
  },
  {
   "property": "C16",
   "status": "proved",
   "theorems": [
    "C16_nose_direction",
    "C16_positive_signs",
    "C16_right_wing",
    "C16_zero_attitude_is_ned"
   ],
   "note": "Zero attitude, nose direction = (yaw, pitch), right wing, signs."
  },
  {
   "property": "C17",
   "status": "proved",
   "theorems": [
    "C17_components",
    "C17_consistent_with_geodetic_and_aer",
    "C17_ecef_roundtrip",
    "C17_isometry",
    "C17_roundtrips"
   ],
   "note": "Round trips, components, isometry, ECEF/geodetic/AER consistency."
  },
  {
   "property": "C18",
   "status": "proved",
   "theorems": [
    "C18_array_elementwise",
    "C18_array_elementwise_inverse",
    "C18_array_shape_mismatch",
    "C18_defined",
    "C18_ecef_eci_ecef",
    "C18_eci_ecef_eci",
    "C18_preserves_dot_cross",
    "C18_timezone_independent"
   ],
   "note": "Rotation, mutual inverses, definedness, elementwise arrays."
  },
  {
   "property": "C19",
   "status": "proved",
   "theorems": [
    "C19_defined",
    "C19_position_part",
    "C19_state_roundtrip",
    "C19_state_roundtrip_back",
    "C19_velocity_part"
   ],
   "note": "Mutual inverses; position and velocity parts; definedness."
  },
  {
   "property": "C20",
   "status": "partial",
   "theorems": [
    "C20_geodetic2eci_ignores_eop",
    "C20_roundtrip_refuted",
    "C20_zero_eop_roundtrip_partial"
   ],
   "note": "Full property refuted: geodetic2eci ignores delta_ut1, xp, yp (C20_roundtrip_refuted). The zero-EOP case is proved; see C64 for the entry points that honour EOP."
  },
  {
   "property": "C21",
   "status": "partial",
   "theorems": [
    "C21_arrays_refuted",
    "C21_mismatched_shapes",
    "C21_single_element_partial"
   ],
   "note": "Full property refuted: arrays with two or more elements always raise ValueError (C21_arrays_refuted); one-element arrays give the scalar result."
  },
  {
   "property": "C22",
   "status": "proved",
   "theorems": [
    "C22_defined",
    "C22_elapsed",
    "C22_ensure_utc",
    "C22_juliandate_exact",
    "C22_list",
    "C22_strictly_increasing",
    "C22_timezone_independent"
   ],
   "note": ""
  },
  {
   "property": "C23",
   "status": "proved",
   "theorems": [
    "C23_leap_seconds",
    "C23_leap_seconds_defined",
    "C23_leap_seconds_monotone",
    "C23_utc_to_tt",
    "C23_utc_to_tt_defined",
    "C23_utc_to_tt_increasing",
    "C23_utc_with_offset"
   ],
   "note": ""
  },
  {
   "property": "C24",
   "status": "proved",
   "theorems": [
    "C24_defined",
    "C24_greenwich_range",
    "C24_list",
    "C24_longitude_law",
    "C24_range",
    "C24_sidereal_rate",
    "C24_timezone_independent"
   ],
   "note": ""
  },
  {
   "property": "C25",
   "status": "proved",
   "theorems": [
    "C25_azel2radec",
    "C25_latitude_guard",
    "C25_radec2azel",
    "C25_roundtrip",
    "C25_roundtrip_back"
   ],
   "note": ""
  },
  {
   "property": "C26",
   "status": "proved",
   "theorems": [
    "C26_anglesep_is_angle",
    "C26_anglesep_metric"
   ],
   "note": "anglesep and anglesep_meeus, both angle units."
  },
  {
   "property": "C27",
   "status": "proved",
   "theorems": [
    "C27_cart2sph_ranges",
    "C27_cart_pol_cart",
    "C27_cart_sph_cart",
    "C27_pol_cart_pol",
    "C27_sph_cart_sph"
   ],
   "note": "Both directions, ranges."
  },
  {
   "property": "C28",
   "status": "proved",
   "theorems": [
    "C28_ecef2nvector_surface",
    "C28_nvector2ecef",
    "C28_nvector_is_surface_normal",
    "C28_nvector_is_unit_normal",
    "C28_roundtrip_geodetic",
    "C28_roundtrip_nvector"
   ],
   "note": "Round trips, unit, agreement with geodetic2ecef / ecef2geodetic."
  },
  {
   "property": "C29",
   "status": "proved",
   "theorems": [
    "C29_distance_is_angle",
    "C29_metric"
   ],
   "note": "Metric on unit vectors."
  },
  {
   "property": "C30",
   "status": "proved",
   "theorems": [
    "C30_any_fraction",
    "C30_constant_speed",
    "C30_endpoints",
    "C30_nearly_coincident"
   ],
   "note": "Exact above the 1e-10 rad threshold of the code; below it a unit vector on the great circle within 1e-10 rad."
  },
  {
   "property": "C31",
   "status": "proved",
   "theorems": [
    "C31_cross_track",
    "C31_intersection",
    "C31_intersection_degenerate",
    "C31_mean_order_independent",
    "C31_mean_unit"
   ],
   "note": "Mean (unit, permutation invariant), cross-track, intersection."
  },
  {
   "property": "C32",
   "status": "proved",
   "theorems": [
    "C32_degrees",
    "C32_geocentric_radius_is_norm",
    "C32_meridian_is_latitude_speed",
    "C32_parallel_is_axis_distance",
    "C32_parallel_is_longitude_speed",
    "C32_transverse_reaches_axis"
   ],
   "note": "Including derivative statements for meridian and parallel."
  },
  {
   "property": "C33",
   "status": "proved",
   "theorems": [
    "C33_bounds",
    "C33_equality_only_at_poles"
   ],
   "note": "Bounds and equality case."
  },
  {
   "property": "C34",
   "status": "proved",
   "theorems": [
    "C34_authalic_equal_area",
    "C34_eqavol_volume",
    "C34_radii_between_axes",
    "C34_triaxial_norm_exact_volume",
    "C34_unknown_method_raises"
   ],
   "note": "authalic via the textbook area integral; eqavol volume error in [0, 5/27 f^3 a^3]; bounds; ValueError. (euler radius: see M_euler when present.)"
  },
  {
   "property": "C35",
   "status": "partial",
   "theorems": [
    "C35_geocentric_roundtrip_refuted",
    "C35_geocentric_roundtrip_surface_partial",
    "C35_parametric_meaning",
    "C35_parametric_roundtrip"
   ],
   "note": "Parametric pair: mutual inverses (proved). Geocentric pair: mutual inverses at altitude 0 (proved); settled negatively off the surface: C35_geocentric_roundtrip_refuted shows it is NEVER an inverse for h>0, 0<lat<90 on an oblate body. The series pairs are C77-C79."
  },
  {
   "property": "C36",
   "status": "proved",
   "theorems": [
    "C36_direction",
    "C36_geocentric_is_ecef_angle"
   ],
   "note": "For |lat|<=90 and h > -b^2/a."
  },
  {
   "property": "C37",
   "status": "proved",
   "theorems": [
    "C37_all_models_covered",
    "C37_closed_forms_increasing",
    "C37_geoc2geod_increasing",
    "C37_geoc2geod_odd_fixing",
    "C37_odd_fixing",
    "C37_series_increasing"
   ],
   "note": "Odd, fixes equator/poles, increasing; series maps for flattening <= 1/4 (1/5 for geoc2geod), which covers every built-in model."
  },
  {
   "property": "C38",
   "status": "partial",
   "theorems": [
    "C38_conformal_array_partial",
    "C38_conformal_array_refuted",
    "C38_conformal_gudermannian",
    "C38_conformal_range",
    "C38_inverse_paths_agree",
    "C38_isometric_definition",
    "C38_isometric_poles"
   ],
   "note": "Isometric by its defining derivative, poles, Gudermannian, range: proved. The array clause is settled negatively: C38_conformal_array_refuted (any array containing +90 collapses to a scalar); element-wise otherwise (C38_conformal_array_partial)."
  },
  {
   "property": "C39",
   "status": "proved",
   "theorems": [
    "C39_departure_meaning",
    "C39_departure_metric",
    "C39_departure_short",
    "C39_meridian_arc_additive",
    "C39_meridian_arc_metric",
    "C39_meridian_arc_separates",
    "C39_meridian_arc_sphere",
    "C39_quadrant"
   ],
   "note": ""
  },
  {
   "property": "C40",
   "status": "partial",
   "theorems": [
    "C40_along_meridian",
    "C40_along_parallel",
    "C40_coincident",
    "C40_full_turn_refuted",
    "C40_parallel_long_way_refuted",
    "C40_poles",
    "C40_ranges",
    "C40_rhumb_line_partial",
    "C40_same_pole_nan",
    "C40_symmetric"
   ],
   "note": "Proved on its domain; full-turn invariance refuted (C40_full_turn_refuted): the longitude difference is not wrapped. Same pole gives NaN; along a parallel the distance is the short way but the azimuth the long way. Accuracy against true rhumb lines: C80."
  },
  {
   "property": "C41",
   "status": "partial",
   "theorems": [
    "C41_east_west",
    "C41_guards",
    "C41_north_south_partial",
    "C41_overshoot_refuted",
    "C41_sphere_inverse",
    "C41_sphere_latitude",
    "C41_to_pole_nan"
   ],
   "note": "Proved on its domain; latitude beyond the pole is returned (C41_overshoot_refuted); due north ending at the pole gives NaN longitude; range 0 returns the start up to the rectifying round trip (C77 bounds it), exactly on a sphere. Accuracy against true rhumb lines: C80."
  },
  {
   "property": "C42",
   "status": "partial",
   "theorems": [
    "C42_array_elementwise",
    "C42_axes_of_ell_partial",
    "C42_first_intersection",
    "C42_large_ellipsoid_always_nan",
    "C42_nadir",
    "C42_negative_altitude",
    "C42_other_ellipsoid_refuted",
    "C42_upwards_nan"
   ],
   "note": "Complete for WGS-84 axes (C42_first_intersection). Refuted for other ellipsoids: observer position and result use WGS-84 (C42_other_ellipsoid_refuted, C42_large_ellipsoid_always_nan)."
  },
  {
   "property": "C43",
   "status": "proved",
   "theorems": [
    "C43_azimuth_range",
    "C43_coincident_is_zero",
    "C43_distance_nonnegative",
    "C43_distance_symmetric",
    "C43_east_west_mirror",
    "C43_equator",
    "C43_latitude_guard",
    "C43_longitude_invariance",
    "C43_named_models_mild",
    "C43_north_south_mirror",
    "C43_sphere",
    "C43_sphere_everywhere",
    "C43_zero_only_if_coincident"
   ],
   "note": "Guard, azimuth range, symmetry, invariance under whole turns and common rotation, mirror images, coincident points, positivity and definiteness (a^2 <= 2 b^2), exact great-circle distance and bearing on spheres, equatorial distance to 1e-12 radii. Termination is structural: the model loop takes at most 50 passes, as the code does."
  },
  {
   "property": "C44",
   "status": "partial",
   "theorems": [
    "C44_full_turn_is_nan",
    "C44_guards",
    "C44_inverts_vdist_on_sphere",
    "C44_output_ranges_partial",
    "C44_sphere",
    "C44_terminates",
    "C44_zero_range"
   ],
   "note": "Guards, termination within 71 passes for every a^2 <= 2 b^2, output ranges, range 0, exact motion on spheres, exact inverse of vdist on spheres. Missing: the unqualified claim of a finite answer is false (C44_full_turn_is_nan: NaN when range/(bA) is within 1e-12 of 2 pi). Accuracy on ellipsoids: C75."
  },
  {
   "property": "C45",
   "status": "partial",
   "theorems": [
    "C45_antipodal_neighbour_refuted",
    "C45_bad_latitude_anywhere",
    "C45_coincident_neighbour_refuted",
    "C45_single_element",
    "C45_sphere_elementwise_partial"
   ],
   "note": "One-element arrays and arrays on spheres agree with the scalar call; in general the property is false: a coincident neighbour changes a distance by more than 15 km and a nearly antipodal neighbour raises ValueError (both proved)."
  },
  {
   "property": "C46",
   "status": "partial",
   "theorems": [
    "C46_antipodal",
    "C46_line_count",
    "C46_line_equator",
    "C46_line_on_geodesic",
    "C46_line_one_point",
    "C46_line_points",
    "C46_line_reaches_target",
    "C46_line_reaches_target_earth",
    "C46_line_sphere_partial",
    "C46_samples",
    "C46_sphere_equally_spaced",
    "C46_too_few_points",
    "C46_two_points",
    "C46_two_points_skip_antipodal_check"
   ],
   "note": "track2: proved in full (point count, first point, guards, equal spacing on spheres). geodesic_line: point count, i-th point = geodesic_direct at i/(npts-1) of the distance; every sample lies on the true geodesic up to the truncation error (C46_line_on_geodesic), the last one is the target (C46_line_reaches_target, 15 nm on the Earth), exactly on spheres and along the equator. The exact first-point claim is false of the truncated series and of the pole nudge (see C49)."
  },
  {
   "property": "C47",
   "status": "proved",
   "theorems": [
    "C47_degree_arctangent",
    "C47_degree_sine_cosine",
    "C47_difference",
    "C47_direct_azimuth_periodic",
    "C47_direct_longitude_equivariant",
    "C47_direct_ranges",
    "C47_inverse_azimuth_ranges",
    "C47_normalize",
    "C47_rounding_and_error_free_sum_are_neutral"
   ],
   "note": "Ranges, longitude equivariance and azimuth periodicity of geodesic_direct, azimuth ranges of geodesic_inverse, and the helpers."
  },
  {
   "property": "C48",
   "status": "proved",
   "theorems": [
    "C48_cosine_series",
    "C48_horner",
    "C48_sine_series"
   ],
   "note": "Clenshaw and Horner evaluation for every order and coefficient list."
  },
  {
   "property": "C49",
   "status": "partial",
   "theorems": [
    "C49_equator",
    "C49_sphere_partial",
    "C49_zero_distance_east_west",
    "C49_zero_distance_equator",
    "C49_zero_distance_pole_refuted",
    "C49_zero_distance_residual",
    "C49_zero_distance_sphere"
   ],
   "note": "Great-circle motion with final course on spheres; zero distance exact on spheres off the poles, from the equator, and due east/west on any ellipsoid, within the truncation error elsewhere (C49_zero_distance_residual); along the equator of any ellipsoid. The remaining clause is false: at the pole the zero-distance answer is more than 2^-27 radii off (proved)."
  },
  {
   "property": "C50",
   "status": "partial",
   "theorems": [
    "C50_area_is_turning_partial",
    "C50_counterclockwise_positive_refuted",
    "C50_course_changes_unique",
    "C50_perimeter_partial",
    "C50_radians_refuted",
    "C50_reversed_order",
    "C50_reversed_order_sphere",
    "C50_too_few_vertices",
    "C50_turn_direction_sphere"
   ],
   "note": "Guard and perimeter proved; what the area component is (total change of course as a share of the spheroid's area) proved for every polygon, as is the change of sign when the order is reversed; counterclockwise-positive and degree/radian agreement are false of the code (refuted on every sphere)."
  },
  {
   "property": "C51",
   "status": "proved",
   "theorems": [
    "C51_assignment_leaks_refuted",
    "C51_caches_transparent",
    "C51_clear_gives_fresh_values",
    "C51_default_is_wgs84",
    "C51_equal_shapes_share_solver",
    "C51_from_name_singleton",
    "C51_geodesic_is_the_solver",
    "C51_geodesic_sees_current_object",
    "C51_objects_are_stable"
   ],
   "note": "Transparent for every history that assigns no attribute of a returned Ellipsoid; the geodesic cache is transparent even then. Finding (proved): assigning to the object from_name returned changes later from_name results."
  },
  {
   "property": "C52",
   "status": "proved",
   "theorems": [
    "C52_constructed_is_consistent",
    "C52_every_named_model_constructs",
    "C52_oblate_accepted",
    "C52_prolate_rejected",
    "C52_unknown_name_raises"
   ],
   "note": "Consistency, prolate rejection, every named model."
  },
  {
   "property": "C53",
   "status": "partial",
   "theorems": [
    "C53_enu2aer_changes_only_tiny",
    "C53_enu2aer_refuted",
    "C53_enu2aer_unchanged_iff_partial",
    "C53_enu2aer_values",
    "C53_ned2aer",
    "C53_nwu2aer",
    "C53_sez2aer",
    "C53_vdist_degrees_unchanged",
    "C53_vdist_radians_refuted",
    "C53_vdist_radians_unchanged_iff",
    "C53_vreckon_degrees_unchanged",
    "C53_vreckon_radians_unchanged_iff"
   ],
   "note": "Refuted as stated: enu2aer (and ned2aer, nwu2aer, sez2aer through it) overwrite elements below 1 mm, and vdist/vreckon with deg=False move poles, in the arrays of the caller. Proved: the exact condition under which each array survives, that values returned are those of the scalar calls, and that degrees mode never writes."
  },
  {
   "property": "C54",
   "status": "proved",
   "theorems": [
    "C54_accepted",
    "C54_command_defaults",
    "C54_commands_well_formed",
    "C54_flags",
    "C54_names_and_ellipsoid",
    "C54_options",
    "C54_plain_defaults",
    "C54_positional",
    "C54_times"
   ],
   "note": "For every well-formed signature, instantiated for all 122 commands (whose table is generated from the sources)."
  },
  {
   "property": "C55",
   "status": "proved",
   "theorems": [
    "C55_geodetic_roundtrip",
    "C55_positive_altitude_far",
    "C55_spherical2geodetic_exact",
    "C55_spherical_form_of_ecef",
    "C55_spherical_roundtrip"
   ],
   "note": "Exactness of the Vermeille solution, both round trips, with an explicit region that contains every altitude >= 0 for a^2 < 2 b^2."
  },
  {
   "property": "C56",
   "status": "proved",
   "theorems": [
    "C56_angle_difference_exact",
    "C56_angle_reduction_exact",
    "C56_angle_rounding",
    "C56_fmod_exact",
    "C56_mod_range",
    "C56_mod_reaches_modulus",
    "C56_mod_value",
    "C56_sum_error_exact"
   ],
   "note": "Flocq binary64 format without overflow."
  },
  {
   "property": "C57",
   "status": "proved",
   "theorems": [
    "C57_cube_root",
    "C57_cube_root_numpy",
    "C57_linspace",
    "C57_linspace_never_fails",
    "C57_linspace_one_raises",
    "C57_sign"
   ],
   "note": "linspace (finding: num=1 raises ZeroDivisionError), sign, cube_root."
  },
  {
   "property": "C58",
   "status": "partial",
   "theorems": [
    "C58_first_order_partial",
    "C58_second_order_error",
    "C58_third_order_refuted"
   ],
   "note": "Settled negatively: C58_second_order_error / C58_third_order_refuted show an error of at least f^2/4 at geocentric latitude 22.5 deg (sign of the 1/(4r) term); first-order accuracy |error| <= 5 f^2 is proved."
  },
  {
   "property": "C59",
   "status": "partial",
   "theorems": [
    "C59_aer",
    "C59_body",
    "C59_dca",
    "C59_ecef",
    "C59_eci",
    "C59_enu",
    "C59_frames",
    "C59_geodesic_area_refuted",
    "C59_geodesic_line",
    "C59_haversine",
    "C59_karney",
    "C59_latitude",
    "C59_los",
    "C59_lox",
    "C59_loxodrome_azimuth_refuted",
    "C59_loxodrome_inverse_partial",
    "C59_ned",
    "C59_nvector",
    "C59_nwu",
    "C59_rcurve",
    "C59_rsphere",
    "C59_sez",
    "C59_spherical",
    "C59_vincenty"
   ],
   "note": "Proved for every function with a deg flag except two where it is false (both refuted): the azimuth of loxodrome_inverse (degrees are reduced to [0,360), radians are not) and geodesic_area."
  },
  {
   "property": "C60",
   "status": "proved",
   "theorems": [
    "C60_aer",
    "C60_body",
    "C60_dca",
    "C60_default_object",
    "C60_ecef",
    "C60_eci",
    "C60_enu",
    "C60_karney",
    "C60_latitude",
    "C60_los",
    "C60_lox",
    "C60_ned",
    "C60_nvector",
    "C60_nwu",
    "C60_rcurve",
    "C60_rsphere",
    "C60_sez",
    "C60_spherical",
    "C60_vincenty"
   ],
   "note": "Every function that takes ell."
  },
  {
   "property": "C61",
   "status": "proved",
   "theorems": [
    "C61_equation_of_equinoxes_bound",
    "C61_ut1_rotates_about_axis"
   ],
   "note": ""
  },
  {
   "property": "C62",
   "status": "partial",
   "theorems": [
    "C62_iers_convention_refuted",
    "C62_pole_image_partial"
   ],
   "note": "Refuted: the code gives the opposite sign for both components (C62_iers_convention_refuted); C62_pole_image_partial gives the exact image."
  },
  {
   "property": "C63",
   "status": "proved",
   "theorems": [
    "C63_eci2ecef_is_reduction",
    "C63_epoch",
    "C63_gmst_degree_form",
    "C63_gmst_value",
    "C63_nutation_bounds",
    "C63_nutation_matrix",
    "C63_nutation_value",
    "C63_obliquity_value",
    "C63_precession_epoch",
    "C63_precession_matrix"
   ],
   "note": ""
  },
  {
   "property": "C64",
   "status": "proved",
   "theorems": [
    "C64_aer2eci_seen_from_observer",
    "C64_aer_honours_eop",
    "C64_eci2geodetic_honours_eop"
   ],
   "note": ""
  },
  {
   "property": "C65",
   "status": "proved",
   "theorems": [
    "C65_mean_direction",
    "C65_permutation",
    "C65_single_point_sphere"
   ],
   "note": "Direction, permutation invariance, single point on a sphere."
  },
  {
   "property": "C66",
   "status": "proved",
   "theorems": [
    "C66_degrees_radians_agree",
    "C66_euler_radius",
    "C66_guard"
   ],
   "note": "Euler formula, bounds, guard, degree/radian agreement."
  },
  {
   "property": "C67",
   "status": "proved",
   "theorems": [
    "C67_coincident_is_zero",
    "C67_distance_symmetric",
    "C67_east_west_mirror_azimuths",
    "C67_longitude_invariance",
    "C67_mirror_distance",
    "C67_reversed_course"
   ],
   "note": "Symmetry, longitude invariance, mirrors, coincidence, on every ellipsoid."
  },
  {
   "property": "C68",
   "status": "proved",
   "theorems": [
    "C68_direct_undoes_inverse",
    "C68_equator",
    "C68_sphere"
   ],
   "note": "Sphere: distance, departure and arrival azimuths, direct-after-inverse; equator of any ellipsoid."
  },
  {
   "property": "C69",
   "status": "partial",
   "theorems": [
    "C69_none_default_becomes_text",
    "C69_radius_default_refuted"
   ],
   "note": "Refuted: str(None) is registered as the default, so nvector_distance and nvector_cross_track_distance receive the text \"None\" as radius."
  },
  {
   "property": "C70",
   "status": "proved",
   "theorems": [
    "C70_direct_accuracy",
    "C70_direct_accuracy_earth",
    "C70_direct_accuracy_off_meridian",
    "C70_direct_position_any_end",
    "C70_geodesic_exists",
    "C70_geodesic_unique"
   ],
   "note": "Against geodesics defined by their differential property (existence and uniqueness proved); end points inside the pole clamp: position within the additional a/2^25, azimuth excluded."
  },
  {
   "property": "C71",
   "status": "partial",
   "theorems": [
    "C71_inverse_accuracy_any_ellipsoid",
    "C71_inverse_accuracy_away",
    "C71_inverse_accuracy_earth",
    "C71_inverse_accuracy_partial",
    "C71_roundtrip_check_sound",
    "C71_search_stops"
   ],
   "note": "Proved: whenever the iteration stops by its own test with residual v, distance and azimuths are those of a true geodesic within 300 n^7 + v; the iteration does stop, and the accuracy holds unconditionally, for points up to 2.65 rad (152 deg) apart on Earth-like ellipsoids and up to 1.85 rad for any flattening up to 1/100 (C71_search_stops, C71_inverse_accuracy_earth, ..._any_ellipsoid); the round-trip check is sound whatever the iteration did. Missing: that the iteration stops within 31 rounds for points nearer to antipodal than that."
  },
  {
   "property": "C72",
   "status": "proved",
   "theorems": [
    "C72_inverse_equator",
    "C72_inverse_same_meridian",
    "C72_inverse_same_meridian_earth"
   ],
   "note": ""
  },
  {
   "property": "C73",
   "status": "proved",
   "theorems": [
    "C73_earth",
    "C73_position_accuracy",
    "C73_roundtrip_accuracy"
   ],
   "note": "Real-number error of the closed form; the fourth-order bound and its WGS-84 instances. Poles are exact by C03_roundtrip_poles."
  },
  {
   "property": "C74",
   "status": "proved",
   "theorems": [
    "C74_aer",
    "C74_body",
    "C74_eci",
    "C74_geodetic2eci",
    "C74_local_frames"
   ],
   "note": "All frame pairs; geodetic2eci with zero Earth-orientation arguments (it drops them, C20)."
  },
  {
   "property": "C75",
   "status": "proved",
   "theorems": [
    "C75_vreckon_accuracy",
    "C75_vreckon_accuracy_earth"
   ],
   "note": "Against the geodesic as solution of its differential equation (Spec_geodesic.v). Stated for calls that return a position; that they do is C44 (NaN only within 1e-12 rad of a full turn)."
  },
  {
   "property": "C76",
   "status": "proved",
   "theorems": [
    "C76_track2_on_geodesic",
    "C76_vdist_accuracy",
    "C76_vdist_accuracy_earth",
    "C76_vreckon_undoes_vdist"
   ],
   "note": "The iteration contracts by 0.4 per pass on this domain, so it stops by its own criterion well before the 50-pass limit. Beyond 160 degrees nothing is claimed; nearly antipodal points are covered by C43 only."
  },
  {
   "property": "C77",
   "status": "proved",
   "theorems": [
    "C77_meridian_arc_accurate",
    "C77_meridian_dist_accurate",
    "C77_meridian_length_exists",
    "C77_models_gentle",
    "C77_rectifying_accurate",
    "C77_rectifying_inverse_accurate",
    "C77_rectifying_onto",
    "C77_rectifying_radius",
    "C77_rectifying_round_trip",
    "C77_third_range"
   ],
   "note": "Against the arc length of the meridian defined by its derivative (Spec_aux.v); existence and uniqueness of that length are proved, and that every named ellipsoid is in range."
  },
  {
   "property": "C78",
   "status": "proved",
   "theorems": [
    "C78_authalic_accurate",
    "C78_authalic_inverse_accurate",
    "C78_authalic_onto",
    "C78_authalic_round_trip",
    "C78_single_point_mean",
    "C78_zone_area_exists"
   ],
   "note": "Against the area of zones defined by its derivative (Spec_aux.v). The sphere of rsphere.authalic has exactly the area of the ellipsoid: C34."
  },
  {
   "property": "C79",
   "status": "proved",
   "theorems": [
    "C79_conformal_round_trip",
    "C79_isometric_round_trip"
   ],
   "note": "That the isometric latitude is the exact one is C38."
  },
  {
   "property": "C80",
   "status": "proved",
   "theorems": [
    "C80_direct_accurate",
    "C80_inverse_accurate",
    "C80_rhumb_lines_exist",
    "C80_rhumb_lines_join"
   ],
   "note": "Rhumb lines are defined by their tangent (Spec_aux.v); existence from every point in every direction, and between any two points, is proved. Longitude differences are taken as given, as the code does (see C40 for what this breaks)."
  },
  {
   "property": "C81",
   "status": "proved",
   "theorems": [
    "C81_fields",
    "C81_json_arrays_refused",
    "C81_json_numbers",
    "C81_json_precision_ignored",
    "C81_json_times",
    "C81_json_tuple_is_list",
    "C81_negative_precision",
    "C81_precision",
    "C81_reads_back",
    "C81_single",
    "C81_special"
   ],
   "note": "str() and the JSON numerals of floats (CPython's shortest repr) are parameters of the model."
  },
  {
   "property": "C82",
   "status": "proved",
   "theorems": [
    "C82_at_least_straight_line",
    "C82_at_least_straight_line_earth",
    "C82_distance_range",
    "C82_distance_range_earth"
   ],
   "note": "The lower bound by the chord is stated for results that join the points (C71, C72)."
  },
  {
   "property": "C83",
   "status": "proved",
   "theorems": [
    "C83_roundtrip",
    "C83_roundtrip_earth",
    "C83_roundtrip_position"
   ],
   "note": "The accuracy is that of C71 plus the direct error of C70; convergence of the inverse as in C71."
  },
  {
   "property": "C84",
   "status": "partial",
   "theorems": [
    "C84_from_pole",
    "C84_from_pole_earth",
    "C84_parallel_equidistant_refuted",
    "C84_pole_to_itself_refuted",
    "C84_to_pole"
   ],
   "note": "Holds up to 300 n^7 + 2^-25 (20 cm on the Earth). Exactness is refuted: the code replaces the zero cosine of a pole by 2^-26, so points of one parallel get distances differing by 18 cm (C84_parallel_equidistant_refuted) and a pole is 18 cm from itself when named with opposite longitudes (C84_pole_to_itself_refuted)."
  },
  {
   "property": "C85",
   "status": "proved",
   "theorems": [
    "C85_attained",
    "C85_azimuths",
    "C85_geodesic_unique",
    "C85_geodesics_are_shortest",
    "C85_shortest",
    "C85_shortest_earth",
    "C85_shortest_equator",
    "C85_shortest_if_joined"
   ],
   "note": "Points whose normals, plus 4 f, and whose meridians are at most T apart, T <= 2.67 rad and 50 f T <= sin T; nearer to the antipode see C71. Geodesics themselves are shown shortest up to length 2.7 a (C85_geodesics_are_shortest), with paths that are only Lipschitz."
  },
  {
   "property": "C86",
   "status": "proved",
   "theorems": [
    "C86_symmetric",
    "C86_symmetric_earth",
    "C86_triangle",
    "C86_triangle_earth"
   ],
   "note": "Same range of points as C85."
  },
  {
   "property": "C87",
   "status": "proved",
   "theorems": [
    "C87_azimuths_recovered",
    "C87_azimuths_recovered_earth",
    "C87_distance_recovered",
    "C87_distance_recovered_earth"
   ],
   "note": "Same range of points as C85. The bound for the azimuths is divided by sin (s / a): it says nothing for journeys much shorter than the error."
  },
  {
   "property": "C88",
   "status": "partial",
   "theorems": [
    "C88_dimensions_partial",
    "C88_io_refuted",
    "C88_names_available",
    "C88_wgs84_mean"
   ],
   "note": "Holds for every name but \"io\", whose radii are in kilometres: a thousand times too small (C88_io_refuted). wgs84_mean is the mean-radius sphere (C88_wgs84_mean). The published values are a table in P_models.v, entered independently of the code (inverse flattenings instead of polar radii)."
  },
  {
   "property": "C89",
   "status": "proved",
   "theorems": [
    "C89_direct_agree",
    "C89_direct_agree_earth",
    "C89_inverse_agree",
    "C89_inverse_agree_earth"
   ],
   "note": "Same range of points as C76 and C85; with an explicit error bound for every ellipsoid with flattening at most 1/100. The bound for the azimuth is divided by sin (d / a)."
  },
  {
   "property": "C90",
   "status": "proved",
   "theorems": [
    "C90_equator",
    "C90_meridian_arc",
    "C90_meridian_arc_earth",
    "C90_parallel_not_shorter",
    "C90_rhumb_not_shorter",
    "C90_rhumb_not_shorter_earth"
   ],
   "note": "Rhumb lines within 1e-9 of due east or west: 0.1 m on the Earth, since loxodrome_inverse then replaces the line by a parallel."
  },
  {
   "property": "C91",
   "status": "proved",
   "theorems": [
    "C91_back_azimuth_refuted",
    "C91_direct_back_azimuth_refuted",
    "C91_exchange_reverses"
   ],
   "note": "C91_back_azimuth_refuted and C91_direct_back_azimuth_refuted show that the docstrings are wrong about azi2. That azi2 is the heading of the true geodesic on arrival is C70 and C71."
  },
  {
   "property": "C92",
   "status": "proved",
   "theorems": [
    "C92_aer2ecef",
    "C92_aer2enu",
    "C92_earth",
    "C92_ecef2enu",
    "C92_ecef_round_trip",
    "C92_enu2ecef",
    "C92_enu_round_trip",
    "C92_geodetic2ecef",
    "C92_geodetic2enu",
    "C92_ned",
    "C92_observer_exactly_zero",
    "C92_rotations",
    "C92_slant_range"
   ],
   "note": "Overflow and signed zeros are not modelled; the accuracy of the C library is a hypothesis (libm_ok), met by correctly rounded functions (C92_nonvacuous). The angles returned by enu2aer are not covered."
  },
  {
   "property": "C93",
   "status": "proved",
   "theorems": [
    "C93_earth",
    "C93_ecef2geodetic",
    "C93_everywhere_near_earth",
    "C93_nearby",
    "C93_polar_axis",
    "C93_polar_axis_earth",
    "C93_round_trip",
    "C93_round_trip_everywhere",
    "C93_true_coordinates"
   ],
   "note": "Points deep inside the Earth (below 0.85 a) are not covered; overflow and signed zeros are not modelled; the C library accuracy is a hypothesis (libm2_ok), met by a library that rounds (C93_nonvacuous)."
  },
  {
   "property": "C94",
   "status": "proved",
   "theorems": [
    "C94_angles",
    "C94_earth",
    "C94_every_position",
    "C94_height",
    "C94_latitude",
    "C94_longitude",
    "C94_vertical"
   ],
   "note": ""
  },
  {
   "property": "C95",
   "status": "proved",
   "theorems": [
    "C95_azimuth_below_full_turn_refuted",
    "C95_azimuth_range",
    "C95_direction",
    "C95_enu2aer",
    "C95_every_direction",
    "C95_geodetic2aer"
   ],
   "note": "The half-open azimuth interval is refuted in floating point (C95_azimuth_below_full_turn_refuted: due north with a displacement of 1 m west in 4.5e15 m north); the closed one is proved."
  },
  {
   "property": "C96",
   "status": "proved",
   "theorems": [
    "C96_aer2geodetic",
    "C96_enu2geodetic",
    "C96_ned2geodetic"
   ],
   "note": "Within a millimetre of the polar axis no claim is made about the longitude; targets higher than 10 km are not covered (C93_true_coordinates covers those for a given ECEF point)."
  },
  {
   "property": "C97",
   "status": "partial",
   "theorems": [
    "C97_accuracy_partial",
    "C97_always_defined",
    "C97_coincident",
    "C97_stable_to_zero_refuted",
    "C97_symmetric"
   ],
   "note": "The docstring claim is refuted (C97_stable_to_zero_refuted): 1 - cos cancels, and directions up to 2^-27 rad apart (4.7 cm on the Earth) get separation 0, whatever the library. Everything else is proved. The astropy path is not modelled."
  },
  {
   "property": "C98",
   "status": "proved",
   "theorems": [
    "C98_accuracy",
    "C98_defined",
    "C98_exact_quarters",
    "C98_monotone",
    "C98_resolution",
    "C98_strict_refuted",
    "C98_timezone_independent"
   ],
   "note": "Strict monotonicity, which holds in exact arithmetic (C22), is refuted in binary64 (C98_strict_refuted). datetime subtraction/offset arithmetic is in integers, as in CPython."
  },
  {
   "property": "C99",
   "status": "proved",
   "theorems": [
    "C99_accuracy",
    "C99_aer2eci",
    "C99_apparent",
    "C99_datetime2sidereal",
    "C99_datetime2sidereal_defined",
    "C99_earth_rotation_angle",
    "C99_ecef2eci",
    "C99_eci2aer",
    "C99_eci2ecef",
    "C99_eci2ecef_state",
    "C99_eci2geodetic",
    "C99_geodetic2eci",
    "C99_geodetic_round_trip",
    "C99_of_datetime",
    "C99_precession_nutation",
    "C99_range",
    "C99_rotation",
    "C99_rotation_defined",
    "C99_roundtrip",
    "C99_small_angles",
    "C99_state_roundtrip"
   ],
   "note": "Differences are modulo whole turns, because the exact and the rounded remainder may fall on different sides of 0. delta_ut1 is bounded by 1000 s; timedelta(seconds=x) is rounding to the nearest microsecond, as in the exact model."
  }
 ]
}