{
 "claims": [
  {
   "property": "C01",
   "status": "proved",
   "theorems": [
    "C01_compare_is_lexicographic",
    "C01_compare_antisymmetric",
    "C01_compare_transitive",
    "C01_operators_agree",
    "C01_strict_weak_order"
   ],
   "note": "For every IEEE format (any precision and exponent range), NaN and infinities included."
  },
  {
   "property": "C02",
   "status": "proved",
   "theorems": [
    "C02_range_compare_is_lexicographic",
    "C02_range_compare_antisymmetric",
    "C02_range_compare_transitive"
   ],
   "note": "For every IEEE format."
  },
  {
   "property": "C03",
   "status": "partial",
   "theorems": [
    "C03_is_equal_symmetric",
    "C03_is_equal_reflexive",
    "C03_is_equal_exact",
    "C03_vec_is_equal_exact",
    "C03_vec_is_equal_symmetric_refuted"
   ],
   "note": "Proved: symmetry and reflexivity of scalar is_equal for every IEEE format, and the meaning of scalar and vector is_equal in exact arithmetic. Refuted for doubles: vector is_equal is not symmetric."
  },
  {
   "property": "C04",
   "status": "proved",
   "theorems": [
    "C04_min_is_least",
    "C04_max_is_greatest",
    "C04_abs_min_is_least",
    "C04_abs_max_is_greatest",
    "C04_clamp",
    "C04_vec_clamp",
    "C04_contains"
   ],
   "note": "For every IEEE format, infinities included."
  },
  {
   "property": "C05",
   "status": "proved",
   "theorems": [
    "C05_safe_min_ignores_nan",
    "C05_safe_max_ignores_nan",
    "C05_min_ignores_nan_refuted"
   ],
   "note": "Plus the refutation of the same claim for plain min/max."
  },
  {
   "property": "C06",
   "status": "proved",
   "theorems": [
    "C06_trunc_floor_ceil_exact",
    "C06_undefined_otherwise"
   ],
   "note": "Every IEEE format; includes the exact boundary of undefined behaviour."
  },
  {
   "property": "C07",
   "status": "partial",
   "theorems": [
    "C07_round_nearest_partial",
    "C07_round_below_half_refuted",
    "C07_round_integer_refuted",
    "C07_round_exact_arithmetic",
    "C07_round_up_down_exact_arithmetic"
   ],
   "note": "Proved for every IEEE format up to 63 bits below 2^(prec-1) except one number, and in exact arithmetic. Refuted for the double below 0.5 and for 2^52+1."
  },
  {
   "property": "C08",
   "status": "proved",
   "theorems": [
    "C08_snap_nearest_multiple",
    "C08_snap_up_down_multiple",
    "C08_snap_idempotent",
    "C08_snap_up_idempotent_double_refuted"
   ],
   "note": "Exact arithmetic as stated. Idempotence in doubles is refuted separately."
  },
  {
   "property": "C09",
   "status": "partial",
   "theorems": [
    "C09_mod_spec",
    "C09_fract_spec",
    "C09_normalize_degrees_partial",
    "C09_normalize_radians_partial",
    "C09_normalize_degrees_terminates_refuted",
    "C09_normalize_radians_nonnegative_refuted"
   ],
   "note": "mod, fract, normalisation proved in exact arithmetic within the int64 range of the quotient. Refuted for doubles: termination and non-negativity."
  },
  {
   "property": "C10",
   "status": "partial",
   "theorems": [
    "C10_correct_zero_decimals_partial",
    "C10_correct_more_decimals_partial",
    "C10_correct_one_decimal_refuted"
   ],
   "note": "Proved for zero decimals. Refuted for one or more: the value is compared with the rounded multiple instead of the rounded value, so only values that round to zero are ever changed (proved for 1 to 31 decimals and tolerances up to 1/4)."
  },
  {
   "property": "C11",
   "status": "proved",
   "theorems": [
    "C11_succ_adds_modulo",
    "C11_pred_subtracts_modulo",
    "C11_succ_pred_inverse"
   ],
   "note": "Unsigned types of any width."
  },
  {
   "property": "C12",
   "status": "proved",
   "theorems": [
    "C12_sign_threefold",
    "C12_step_threshold",
    "C12_mix_interpolates",
    "C12_smoothstep_spec"
   ],
   "note": "Exact arithmetic."
  },
  {
   "property": "C13",
   "status": "partial",
   "theorems": [
    "C13_abs_difference_same_sign_partial",
    "C13_abs_difference_unsigned",
    "C13_abs_difference_refuted"
   ],
   "note": "Proved for unsigned and for same-signed arguments; refuted for -1 and 1."
  },
  {
   "property": "C14",
   "status": "proved",
   "theorems": [
    "C14_quadratic_sound_complete",
    "C14_quadratic_near_zero_discriminant"
   ],
   "note": "Exact arithmetic; also the error bound inside the tolerance band."
  },
  {
   "property": "C15",
   "status": "proved",
   "theorems": [
    "C15_cubic_sound_complete"
   ],
   "note": "Exact arithmetic."
  },
  {
   "property": "C16",
   "status": "partial",
   "theorems": [
    "C16_quartic_sound_complete_partial",
    "C16_quartic_tolerance_partial",
    "C16_quartic_distinct_refuted",
    "C16_quartic_default_epsilon_refuted"
   ],
   "note": "Sound and complete with tolerance zero, and with any tolerance under a gap condition; distinctness refuted for multiple roots; default tolerance refuted."
  },
  {
   "property": "C17",
   "status": "proved",
   "theorems": [
    "C17_sort"
   ],
   "note": "For every comparator; sortedness for every irreflexive transitive comparator."
  },
  {
   "property": "C18",
   "status": "proved",
   "theorems": [
    "C18_find_max_component",
    "C18_find_max_component_injective",
    "C18_find_abs_max_component",
    "C18_find_abs_max_component_injective",
    "C18_get_max_component",
    "C18_get_abs_max_component",
    "C18_get_abs_max_component_axis"
   ],
   "note": "For every IEEE format; the order-statistic form holds even with NaN components."
  },
  {
   "property": "C19",
   "status": "proved",
   "theorems": [
    "C19_componentwise",
    "C19_vector_space",
    "C19_ieee_commutative"
   ],
   "note": "Exact arithmetic, every dimension; commutativity of addition and dot for every IEEE format."
  },
  {
   "property": "C20",
   "status": "proved",
   "theorems": [
    "C20_dot_inner_product",
    "C20_length_distance",
    "C20_distance_metric",
    "C20_cauchy_schwarz",
    "C20_cross_product",
    "C20_cross_orientation"
   ],
   "note": "Exact arithmetic, every dimension."
  },
  {
   "property": "C21",
   "status": "proved",
   "theorems": [
    "C21_normalize_unit",
    "C21_normalize_zero"
   ],
   "note": "Exact arithmetic, every dimension."
  },
  {
   "property": "C22",
   "status": "proved",
   "theorems": [
    "C22_swizzle_inverse",
    "C22_swizzle_last"
   ],
   "note": "Any scalar type."
  },
  {
   "property": "C23",
   "status": "proved",
   "theorems": [
    "C23_homogeneous_round_trip",
    "C23_cartesian_divides"
   ],
   "note": "Bit for bit in every IEEE format."
  },
  {
   "property": "C24",
   "status": "proved",
   "theorems": [
    "C24_colinear_exact",
    "C24_colinear_epsilon",
    "C24_parallel",
    "C24_parallel_exact"
   ],
   "note": "Exact arithmetic, every dimension."
  },
  {
   "property": "C25",
   "status": "proved",
   "theorems": [
    "C25_between_iff_on_segment"
   ],
   "note": "Exact arithmetic, every dimension."
  },
  {
   "property": "C26",
   "status": "proved",
   "theorems": [
    "C26_average_is_mean",
    "C26_average_in_bounds",
    "C26_average_order_irrelevant",
    "C26_average_empty"
   ],
   "note": "Exact arithmetic, every dimension."
  },
  {
   "property": "C27",
   "status": "proved",
   "theorems": [
    "C27_additive_laws",
    "C27_product_entries",
    "C27_entries",
    "C27_product_associative",
    "C27_product_identity",
    "C27_product_distributes",
    "C27_product_distributes_right",
    "C27_vector_laws",
    "C27_transpose_reverses_products",
    "C27_row_vector_product_undefined"
   ],
   "note": "All laws over exact real arithmetic for every size; also that the row-vector product writes out of bounds for matrices with more columns than rows."
  },
  {
   "property": "C28",
   "status": "proved",
   "theorems": [
    "C28_transpose",
    "C28_extract_minor",
    "C28_slice",
    "C28_set"
   ],
   "note": "For any element type and payload, every size, including extract_minor, slice and set."
  },
  {
   "property": "C29",
   "status": "proved",
   "theorems": [
    "C29_determinant_leibniz",
    "C29_determinant_product",
    "C29_determinant_transpose",
    "C29_determinant_identity",
    "C29_determinant_zero_iff_singular"
   ],
   "note": "Leibniz sum over all permutations (mathcomp permutations), every size; uses the stdlib axiom constructive_indefinite_description through the mathcomp structure on R."
  },
  {
   "property": "C30",
   "status": "proved",
   "theorems": [
    "C30_adjugate"
   ],
   "note": "Every size >= 2."
  },
  {
   "property": "C31",
   "status": "proved",
   "theorems": [
    "C31_lup_factors",
    "C31_solve",
    "C31_solve_failure",
    "C31_solve_well_conditioned"
   ],
   "note": "Every size; solution is also unique; failure is reported only within 1e-15 of a singular matrix."
  },
  {
   "property": "C32",
   "status": "partial",
   "theorems": [
    "C32_invert_success_partial",
    "C32_invert_singular_partial",
    "C32_invert_failure_partial",
    "C32_invert_well_conditioned_partial",
    "C32_invert_complete_refuted"
   ],
   "note": "Full property refuted: invertible matrices with a pivot below 1e-15 are reported as not invertible (C32_invert_complete_refuted). Proved: a successful result is the two-sided inverse; singular matrices are always rejected; a rejected matrix is within 1e-15 per entry of a singular one; every matrix whose inverse has entries of at most K with n*n*K < 10^15 is inverted."
  },
  {
   "property": "C33",
   "status": "proved",
   "theorems": [
    "C33_rotations",
    "C33_mirrors",
    "C33_compositions",
    "C33_orthogonal",
    "C33_zero_out"
   ],
   "note": "All twelve constants and zero_out."
  },
  {
   "property": "C34",
   "status": "proved",
   "theorems": [
    "C34_translation",
    "C34_scaling",
    "C34_translations_compose",
    "C34_translation_entries",
    "C34_strip_translation",
    "C34_shear",
    "C34_mirror"
   ],
   "note": "Exact arithmetic; translation, scaling and strip_translation in every dimension."
  },
  {
   "property": "C35",
   "status": "proved",
   "theorems": [
    "C35_rodrigues",
    "C35_is_rotation",
    "C35_angles_add",
    "C35_isometry",
    "C35_of_quaternion",
    "C35_agrees_with_quaternion",
    "C35_from_to",
    "C35_roll_pitch_yaw",
    "C35_roll_pitch_yaw_is_rotation"
   ],
   "note": "Exact arithmetic. C35_from_to inherits the tolerance of C39."
  },
  {
   "property": "C36",
   "status": "proved",
   "theorems": [
    "C36_euler_round_trip",
    "C36_euler_any_rotation",
    "C36_euler_ranges",
    "C36_euler_recovers"
   ],
   "note": "Exact arithmetic, including gimbal lock; angles may differ but the matrix is the same."
  },
  {
   "property": "C37",
   "status": "proved",
   "theorems": [
    "C37_product",
    "C37_algebra",
    "C37_isometry",
    "C37_composition",
    "C37_linear",
    "C37_undo",
    "C37_axis_angle_rotation",
    "C37_axis_angle_asserts_unit_axis"
   ],
   "note": "Exact arithmetic. Covers the quaternion product, conjugation, the action on vectors, and construction from axis and angle (which rotates by Rodrigues' formula)."
  },
  {
   "property": "C38",
   "status": "partial",
   "theorems": [
    "C38_not_equal",
    "C38_equal_iff",
    "C38_partial",
    "C38_scalar_partial",
    "C38_refuted"
   ],
   "note": "The full property is false (C38_refuted): operator== accepts quaternions with the same vector part and opposite scalar part, which describe different rotations, rejects the all-negated quaternion, and unary minus and scalar multiplication act on the scalar part only. Proved: what equality means, and that equal scalar and vector parts rotate alike."
  },
  {
   "property": "C39",
   "status": "partial",
   "theorems": [
    "C39_from_to_partial",
    "C39_from_to_refuted",
    "C39_from_to_assertion"
   ],
   "note": "Exact when |cos(from,to)| < 1 - 1/1000 or the vectors are exactly parallel; otherwise the squared error is at most 2/1000. Refuted in between; a vector accepted as unit can abort."
  },
  {
   "property": "C40",
   "status": "partial",
   "theorems": [
    "C40_builder_smallest_partial",
    "C40_builder_order_independent",
    "C40_builder_initialized",
    "C40_merge_all",
    "C40_merge_all_order_independent",
    "C40_merge_boxes",
    "C40_merge_point",
    "C40_empty_builder_refuted"
   ],
   "note": "Builder, merge_all and merge give the smallest box for every IEEE format, in any order. The claim about a builder that was given nothing is refuted: it returns an invalid box."
  },
  {
   "property": "C41",
   "status": "proved",
   "theorems": [
    "C41_contains_point",
    "C41_contains_box",
    "C41_encloses",
    "C41_intersects",
    "C41_intersect",
    "C41_is_empty"
   ],
   "note": "For every IEEE format and dimension, infinities included; NaN components excluded."
  },
  {
   "property": "C42",
   "status": "proved",
   "theorems": [
    "C42_constrain",
    "C42_relative_position",
    "C42_repair",
    "C42_translate_ieee",
    "C42_expand_ieee",
    "C42_constrain_nearest",
    "C42_translate",
    "C42_expand",
    "C42_measures"
   ],
   "note": "Order-only functions for every IEEE format; translate and expand additionally shown never to fail their assertion on finite IEEE boxes; set meaning of translate/expand, nearest point, size, center and volume in exact arithmetic."
  },
  {
   "property": "C43",
   "status": "partial",
   "theorems": [
    "C43_corner",
    "C43_vertices_partial",
    "C43_edges_partial",
    "C43_faces_partial",
    "C43_vertices_ieee_refuted",
    "C43_vertices_grid_partial",
    "C43_edges_grid_partial",
    "C43_faces_grid_partial"
   ],
   "note": "Exact arithmetic, and machine arithmetic for boxes whose corners are on a grid (integer multiples of a power of two that fit the mantissa). Refuted for other IEEE doubles: a vertex computed as max minus size can lie outside the box."
  },
  {
   "property": "C44",
   "status": "proved",
   "theorems": [
    "C44_transform"
   ],
   "note": "Exact arithmetic, affine matrices."
  },
  {
   "property": "C45",
   "status": "partial",
   "theorems": [
    "C45_segment_sorted",
    "C45_segment_transform_sorted",
    "C45_segment_translate_sorted",
    "C45_segment_order",
    "C45_segment_convert_partial",
    "C45_segment_convert_refuted"
   ],
   "note": "Construction, transform, translate for all IEEE values including NaN; order of segments. Converting constructor: proved for conversion to a wider format, refuted for narrowing (double to float)."
  },
  {
   "property": "C46",
   "status": "partial",
   "theorems": [
    "C46_contains_middle_partial",
    "C46_contains_sound_partial",
    "C46_contains_zero",
    "C46_contains_own_points",
    "C46_contains_refuted_near",
    "C46_contains_refuted_far",
    "C46_contains_refuted_degenerate"
   ],
   "note": "Exact arithmetic. Full statement refuted near the ends and for segments of length 0. Proved: exact if the point projects onto the segment; never accepts beyond sqrt(2)*d; d = 0 accepts exactly the segment's points."
  },
  {
   "property": "C47",
   "status": "proved",
   "theorems": [
    "C47_canonical",
    "C47_equality",
    "C47_is_equal"
   ],
   "note": "Every dimension, exact arithmetic, unit directions."
  },
  {
   "property": "C48",
   "status": "proved",
   "theorems": [
    "C48_projection",
    "C48_ray_point_status"
   ],
   "note": "Every dimension, exact arithmetic, unit directions."
  },
  {
   "property": "C49",
   "status": "proved",
   "theorems": [
    "C49_plane_project_vector_along",
    "C49_plane_flip",
    "C49_plane_point",
    "C49_plane_anchor",
    "C49_plane_from_anchor",
    "C49_plane_project_along",
    "C49_plane_project_vector",
    "C49_plane_at"
   ],
   "note": "Exact arithmetic for distances and projections; flip for every IEEE format and all values, with an epsilon that is not negative."
  },
  {
   "property": "C50",
   "status": "partial",
   "theorems": [
    "C50_plane_transform_partial",
    "C50_plane_transform_refuted"
   ],
   "note": "Proved for maps that multiply all distances by a constant; refuted for a non-uniform scaling."
  },
  {
   "property": "C51",
   "status": "proved",
   "theorems": [
    "C51_from_points",
    "C51_from_points_collinear",
    "C51_from_points_range"
   ],
   "note": "Exact arithmetic with the library's epsilon 1e-8 on the sine."
  },
  {
   "property": "C52",
   "status": "proved",
   "theorems": [
    "C52_ray_point",
    "C52_segment_point",
    "C52_segment_point_degenerate"
   ],
   "note": "Exact arithmetic; for a segment with equal end points the code divides by 0 and the result is not a number (C52_segment_point_degenerate)."
  },
  {
   "property": "C53",
   "status": "partial",
   "theorems": [
    "C53_ray_segment_partial",
    "C53_ray_ray_partial",
    "C53_ray_line_partial",
    "C53_ray_segment_result_partial",
    "C53_ray_ray_result_partial",
    "C53_ray_line_result",
    "C53_ray_segment_attained",
    "C53_ray_ray_attained",
    "C53_ray_line_attained",
    "C53_ray_segment_parallel_partial",
    "C53_ray_ray_parallel_partial",
    "C53_ray_line_parallel_partial",
    "C53_ray_segment_refuted",
    "C53_ray_ray_refuted",
    "C53_ray_line_refuted",
    "C53_ray_ray_opposite_refuted",
    "C53_ray_short_segment_refuted",
    "C53_ray_line_is_colinear_partial",
    "C53_ray_segment_is_colinear_partial"
   ],
   "note": "Exact arithmetic. Proved: exactly parallel objects (rays: same direction), and non-parallel objects whose closest points relative to the whole line of the ray lie on the ray and are not within the snapping threshold of an end; for every non-parallel ray and line, and for rays and segments outside the snapping threshold, exactly which two points are returned (the ray parameter is clamped to 0 without choosing the other point anew); in all non-parallel cases the result is the distance of two points of the objects but not always the smallest. Refuted in general: clamping without recomputing the other parameter, opposite rays, short segments."
  },
  {
   "property": "C54",
   "status": "partial",
   "theorems": [
    "C54_ray_plane_partial",
    "C54_ray_plane_parallel_partial",
    "C54_ray_plane_result",
    "C54_line_plane_result",
    "C54_behind_refuted",
    "C54_nearly_parallel_refuted"
   ],
   "note": "Exact result proved in all cases; deviates from the property for near-parallel rays (sine at most 1/1000) and points up to 1/1000 behind the origin, both refuted with witnesses."
  },
  {
   "property": "C55",
   "status": "partial",
   "theorems": [
    "C55_ray_triangle_partial",
    "C55_small_triangle_refuted"
   ],
   "note": "Sound and complete when the determinant exceeds the tolerance; smaller triangles are never hit (refuted)."
  },
  {
   "property": "C56",
   "status": "partial",
   "theorems": [
    "C56_ray_box_outside",
    "C56_ray_box_inside_partial",
    "C56_zero_direction_refuted",
    "C56_origin_on_surface_refuted"
   ],
   "note": "Full for origins outside. Inside: proved for directions without zero component; zero components and origins on the surface refuted."
  },
  {
   "property": "C57",
   "status": "partial",
   "theorems": [
    "C57_ray_sphere_partial",
    "C57_origin_on_sphere_refuted",
    "C57_torus_polynomial",
    "C57_ray_torus_partial",
    "C57_ray_torus_next_partial",
    "C57_origin_on_torus_refuted"
   ],
   "note": "Sphere: full except for origins on the surface (refuted). Torus: full under the condition that no number tested by the quartic solver is within its tolerance without being zero; origin on the surface refuted."
  },
  {
   "property": "C58",
   "status": "partial",
   "theorems": [
    "C58_plane_plane_partial",
    "C58_nearly_parallel_refuted"
   ],
   "note": "Full when the sine of the angle exceeds 1/1000; nearly parallel planes refuted."
  },
  {
   "property": "C59",
   "status": "partial",
   "theorems": [
    "C59_winding_axis_partial",
    "C59_winding_normal_partial",
    "C59_winding_partial",
    "C59_ray_winding_partial",
    "C59_contains_axis_partial",
    "C59_contains_normal_partial",
    "C59_contains_partial",
    "C59_level_refuted",
    "C59_ray_polygon_partial",
    "C59_ray_polygon_points",
    "C59_ray_polygon_few_points"
   ],
   "note": "Polygons of any shape in any plane: away from the boundary, and if no vertex is level with the point, a point is accepted exactly if the winding number of the polygon around it (total signed angle divided by 2 pi) is odd; likewise the intersection with a ray. Strictly convex polygons: points of the polygon are accepted also near the boundary. A point level with a vertex is misclassified (refuted)."
  },
  {
   "property": "C60",
   "status": "partial",
   "theorems": [
    "C60_convex_hull_partial",
    "C60_any_points_partial",
    "C60_collinear_points",
    "C60_few_points",
    "C60_empty_iff",
    "C60_doubled_point",
    "C60_doubled_point_refuted",
    "C60_small_triangle_refuted",
    "C60_point_on_edge_refuted"
   ],
   "note": "Proved for coplanar points one of which spans, with the first two, a triangle whose doubled area squared exceeds the code's tolerance 0.00001, for any std::sort that meets its specification: the result is a convex polygon of given points that contains all points. It is empty exactly if there is no such point. The full statement is refuted: the first two points equal gives the empty hull, so does a small triangle, and a point in the middle of an edge is returned as a vertex. For points that are not in one plane the result is proved to be the hull of the points seen along the axis closest to the normal of the first triangle, in counter-clockwise order."
  },
  {
   "property": "C61",
   "status": "partial",
   "theorems": [
    "C61_first_vertex_least",
    "C61_rotations_equal_partial",
    "C61_invert",
    "C61_operators",
    "C61_total_order",
    "C61_has_vertex",
    "C61_get_vertices",
    "C61_convert_partial",
    "C61_convert_refuted",
    "C61_rotations_equal_refuted",
    "C61_fewer_vertices_refuted",
    "C61_center",
    "C61_translate",
    "C61_transform"
   ],
   "note": "First vertex least, invert, total order, hasVertex, center, translate, transform proved; rotation equality needs distinct vertices (refuted with repeated ones); converting to a narrower type breaks the normal form (refuted); 'fewer vertices is less' of the comment on compare is refuted."
  },
  {
   "property": "C62",
   "status": "partial",
   "theorems": [
    "C62_swap_negates",
    "C62_zero_partial",
    "C62_zero_refuted",
    "C62_repeated_vertex_refuted"
   ],
   "note": "Swapping negates: proved. 0 exactly for same order, reverse order or polygons differing only in the second vertex: proved for polygons with distinct vertices. The full property is refuted by two triangles that differ in the second vertex."
  },
  {
   "property": "C63",
   "status": "partial",
   "theorems": [
    "C63_parse_vec",
    "C63_every_text_has_words",
    "C63_vec_round_trip",
    "C63_parse_mat",
    "C63_mat_round_trip",
    "C63_parse_all_terminates",
    "C63_parse_all_partial",
    "C63_parse_all_comma_refuted",
    "C63_parse_all_inner_space_refuted",
    "C63_reads_past_the_end_refuted"
   ],
   "note": "parse of vectors and matrices is proved in full for every reading function that stops at blanks and every printing function that prints no blanks; parse_all is proved for printed lists (parenthesised vectors with any separators, bare vectors followed by white space), and refuted for lists that match the documented syntax but have a comma directly after a number or a space before ')'; that string_views are read past their end is proved too"
  },
  {
   "property": "C64",
   "status": "partial",
   "theorems": [
    "C64_trichotomy_reals",
    "C64_meaning_reals",
    "C64_constructor",
    "C64_default_tolerance",
    "C64_lists_reals",
    "C64_vectors_reals_partial",
    "C64_vectors_refuted",
    "C64_matrices_reals",
    "C64_lines_reals",
    "C64_trichotomy_partial",
    "C64_operand_orders_refuted",
    "C64_vectors_order_reals"
   ],
   "note": "Over the reals: trichotomy, unions and agreement of the operand orders for numbers, and equality for lists, vectors, matrices and lines. Over IEEE numbers of every format: trichotomy and unions with the approx on the right. Refuted: agreement of the operand orders under rounding, trichotomy for vectors."
  },
  {
   "property": "C65",
   "status": "proved",
   "theorems": [
    "C65_value",
    "C65_weights",
    "C65_corners",
    "C65_convex_hull",
    "C65_bounding_box",
    "C65_affine"
   ],
   "note": "Over the reals: value, corners, convex hull, bounding box, affine maps."
  },
  {
   "property": "C66",
   "status": "proved",
   "theorems": [
    "C66_scale_bbox",
    "C66_scale_bbox_with_anchor",
    "C66_shear_bbox",
    "C66_shear_bbox_other_sides",
    "C66_points4",
    "C66_points4_complete",
    "C66_points3"
   ],
   "note": "Exact arithmetic. A component of the shear delta along the sheared side's normal is ignored by the code, as the theorem states. points_transformation_matrix: the result is the NaN matrix or the unique affine matrix mapping the points; it is not the NaN matrix if the system is well conditioned."
  },
  {
   "property": "C67",
   "status": "proved",
   "theorems": [
    "C67_plane_projection_normal",
    "C67_coordinate_system",
    "C67_coordinate_system_total",
    "C67_plane_projection",
    "C67_plane_projection_total",
    "C67_ortho",
    "C67_perspective",
    "C67_view"
   ],
   "note": "Exact arithmetic; assertion failures of degenerate arguments are characterised. The perspective view volume is the one the code documents by construction: half height tan(fov/2)*3/4 at unit distance."
  },
  {
   "property": "C68",
   "status": "proved",
   "theorems": [
    "C68_lists",
    "C68_row_vectors"
   ],
   "note": "Any scalar type, any list length."
  },
  {
   "property": "C69",
   "status": "proved",
   "theorems": [
    "C69_measure_angle"
   ],
   "note": "Exact arithmetic."
  },
  {
   "property": "C70",
   "status": "proved",
   "theorems": [
    "C70_sqrt_c",
    "C70_negative",
    "C70_special",
    "C70_nearest_refuted"
   ],
   "note": "For all binary formats with at least 4 digits and emax >= prec + 4, so float and double. Termination by showing that the iteration decreases to the two neighbours of the root and cannot alternate between them. C70_nearest_refuted: sqrt_c(2.0) is not std::sqrt(2.0)."
  },
  {
   "property": "C71",
   "status": "proved",
   "theorems": [
    "C71_operators",
    "C71_is_equal_reals"
   ],
   "note": "Operators over IEEE numbers of every format; is_equal with an epsilon over the reals."
  },
  {
   "property": "C72",
   "status": "proved",
   "theorems": [
    "C72_angle",
    "C72_axis"
   ],
   "note": "Exact arithmetic; the axis is recovered whenever some component of the vector part exceeds 1/1000, as the code requires."
  },
  {
   "property": "C73",
   "status": "proved",
   "theorems": [
    "C73_line_transform",
    "C73_ray_transform",
    "C73_segment_transform"
   ],
   "note": "Exact arithmetic."
  },
  {
   "property": "C74",
   "status": "proved",
   "theorems": [
    "C74_vec_text",
    "C74_mat_text",
    "C74_bbox_text",
    "C74_line_text",
    "C74_ray_text",
    "C74_plane_text"
   ],
   "note": "for every way of printing numbers without blanks"
  },
  {
   "property": "C75",
   "status": "proved",
   "theorems": [
    "C75_length_c",
    "C75_distance_c",
    "C75_segment_length_c",
    "C75_normalize_c",
    "C75_is_unit_c",
    "C75_is_parallel_c",
    "C75_is_between_c",
    "C75_line_transform_c",
    "C75_ray_transform_c",
    "C75_plane_transform_c"
   ],
   "note": "Termination for all vectors. Each function returns what its run time counterpart returns with std::sqrt replaced by a machine number next to the exact root."
  },
  {
   "property": "C76",
   "status": "proved",
   "theorems": [
    "C76_functions",
    "C76_functions2",
    "C76_functions3",
    "C76_variadic",
    "C76_rounding",
    "C76_rounding2"
   ],
   "note": "For every component type, in particular IEEE numbers; the failures are the undefined conversions to an integer and the assertions of the scalar functions."
  },
  {
   "property": "C77",
   "status": "proved",
   "theorems": [
    "C77_is_nan",
    "C77_is_zero",
    "C77_matrix_is_zero",
    "C77_is_integral"
   ],
   "note": "is_integral for components below 2^63 - 1 in absolute value, as the rounding goes through a 64 bit integer."
  },
  {
   "property": "C78",
   "status": "proved",
   "theorems": [
    "C78_fill",
    "C78_init_list",
    "C78_convert",
    "C78_extend",
    "C78_slice",
    "C78_xyz",
    "C78_matrix_convert"
   ],
   "note": "For every component type."
  },
  {
   "property": "C79",
   "status": "proved",
   "theorems": [
    "C79_convert",
    "C79_make_values",
    "C79_make_value",
    "C79_equality",
    "C79_is_equal"
   ],
   "note": "The conversion for every two IEEE formats, float and double in particular."
  },
  {
   "property": "C80",
   "status": "proved",
   "theorems": [
    "C80_ray",
    "C80_plane",
    "C80_segment",
    "C80_ray_is_equal",
    "C80_plane_is_equal",
    "C80_segment_is_equal",
    "C80_polygon_is_equal",
    "C80_polygon_is_equal_sizes",
    "C80_quat_is_equal"
   ],
   "note": "The == of quaternions is C38."
  },
  {
   "property": "C81",
   "status": "proved",
   "theorems": [
    "C81_horizontal_plane",
    "C81_orthogonal_plane",
    "C81_aligned_orthogonal_plane"
   ],
   "note": "Exact arithmetic."
  },
  {
   "property": "C82",
   "status": "proved",
   "theorems": [
    "C82_length_center",
    "C82_get_vertices"
   ],
   "note": "Exact arithmetic."
  },
  {
   "property": "C83",
   "status": "proved",
   "theorems": [
    "C83_dot_error",
    "C83_dot_error_simple",
    "C83_squared_length_error",
    "C83_length_error"
   ],
   "note": "Textbook error bound for inner products of any dimension; relative error of lengths for vectors whose length is neither tiny nor huge (the hypothesis is part of the claim)."
  },
  {
   "property": "C84",
   "status": "partial",
   "theorems": [
    "C84_normalize_components_partial",
    "C84_normalize_unit_partial",
    "C84_normalize_is_unit_partial",
    "C84_normalize_refuted"
   ],
   "note": "Proved for vectors of moderate length (2^(4-emax/2) to 2^(emax/2-1)); refuted outside: the squared length underflows or overflows."
  },
  {
   "property": "C85",
   "status": "proved",
   "theorems": [
    "C85_plane_distance_error",
    "C85_plane_status_reliable"
   ],
   "note": "Error bound and status for any dimension."
  },
  {
   "property": "C86",
   "status": "partial",
   "theorems": [
    "C86_center_inside_partial",
    "C86_size_nonnegative",
    "C86_center_inside_refuted"
   ],
   "note": "Size proved. Center proved if no sum of corners overflows; refuted if one does."
  },
  {
   "property": "C87",
   "status": "proved",
   "theorems": [
    "C87_distance_symmetric",
    "C87_opposite",
    "C87_cross_anticommutes"
   ],
   "note": "All values, including infinities and NaN."
  },
  {
   "property": "C88",
   "status": "proved",
   "theorems": [
    "C88_identity",
    "C88_translation",
    "C88_scaling",
    "C88_quarter_turns",
    "C88_mirrors",
    "C88_transpose"
   ],
   "note": "exact in every IEEE format for finite operands"
  },
  {
   "property": "C89",
   "status": "proved",
   "theorems": [
    "C89_matrix_vector_error",
    "C89_matrix_matrix_error",
    "C89_affine_point_error"
   ],
   "note": "error bounds for every IEEE format"
  },
  {
   "property": "C90",
   "status": "proved",
   "theorems": [
    "C90_cross_error",
    "C90_distance_error",
    "C90_point_at_distance_error"
   ],
   "note": "error bounds for every IEEE format"
  },
  {
   "property": "C91",
   "status": "partial",
   "theorems": [
    "C91_mix_endpoints",
    "C91_mix_error_partial",
    "C91_mix_between_refuted"
   ],
   "note": "end points exact; staying between x and y is refuted (mix(3,3,1/5) > 3), the error is bounded instead"
  },
  {
   "property": "C92",
   "status": "partial",
   "theorems": [
    "C92_nextgreater",
    "C92_max",
    "C92_min_positive",
    "C92_min_refuted",
    "C92_min_max_integers_partial",
    "C92_get_vertices"
   ],
   "note": "vec::min() for floating point types is refuted (smallest positive normal number); everything else is proved."
  },
  {
   "property": "C93",
   "status": "proved",
   "theorems": [
    "C93_pi",
    "C93_e",
    "C93_multiples_of_pi",
    "C93_to_radians",
    "C93_to_degrees",
    "C93_round_trip"
   ],
   "note": "Double precision; the angle conversions hold for every math library because they use only pi()."
  },
  {
   "property": "C94",
   "status": "partial",
   "theorems": [
    "C94_signed",
    "C94_signed_div",
    "C94_signed_products_partial",
    "C94_signed_products_refuted",
    "C94_unsigned",
    "C94_unsigned_div"
   ],
   "note": "Missing: signed dot and cross products whose value is representable although an intermediate result is not; that is refuted (C94_signed_products_refuted)."
  },
  {
   "property": "C95",
   "status": "partial",
   "theorems": [
    "C95_signed_order",
    "C95_signed_ranges",
    "C95_signed_min_max",
    "C95_signed_components",
    "C95_signed_equal_partial",
    "C95_signed_boxes",
    "C95_signed_center_partial",
    "C95_signed_center_refuted",
    "C95_unsigned_order",
    "C95_unsigned_ranges",
    "C95_unsigned_min_max",
    "C95_unsigned_components",
    "C95_unsigned_equal_partial",
    "C95_unsigned_equal_refuted",
    "C95_unsigned_boxes",
    "C95_unsigned_center_partial",
    "C95_unsigned_center_refuted"
   ],
   "note": "Missing: is_equal and center near the limits of the type; refuted (C95_unsigned_equal_refuted, C95_signed_center_refuted, C95_unsigned_center_refuted)."
  },
  {
   "property": "C96",
   "status": "proved",
   "theorems": [
    "C96_widen",
    "C96_round_trip",
    "C96_parts",
    "C96_narrow",
    "C96_integers_exact",
    "C96_integers_near",
    "C96_truncate",
    "C96_between_integers"
   ],
   "note": "All floating point formats and integer widths; the model of static_cast between floats is F_conv (round to nearest even)."
  },
  {
   "property": "C97",
   "status": "proved",
   "theorems": [
    "C97_sums",
    "C97_products",
    "C97_dot",
    "C97_squared_distance",
    "C97_cross",
    "C97_colinear",
    "C97_matrix_vector",
    "C97_matrix_product",
    "C97_determinant",
    "C97_affine_point",
    "C97_plane_distance",
    "C97_box_measures",
    "C97_box_volume",
    "C97_box_translate",
    "C97_box_transform"
   ],
   "note": "For every IEEE format, by running the model on machine numbers and on exact numbers in parallel; hypotheses bound the integers so that the exact result fits the mantissa."
  },
  {
   "property": "C98",
   "status": "proved",
   "theorems": [
    "C98_grid_hull",
    "C98_grid_hull_double"
   ],
   "note": ""
  },
  {
   "property": "C99",
   "status": "proved",
   "theorems": [
    "C99_snap",
    "C99_snap_up",
    "C99_snap_down",
    "C99_snap_idempotent",
    "C99_mod",
    "C99_normalize_degrees",
    "C99_fract"
   ],
   "note": ""
  },
  {
   "property": "C100",
   "status": "partial",
   "theorems": [
    "C100_distance",
    "C100_vectors",
    "C100_is_colinear",
    "C100_is_between",
    "C100_average",
    "C100_measure_angle",
    "C100_ray_point",
    "C100_ray_ray",
    "C100_ray_line",
    "C100_segment_point",
    "C100_ray_segment_partial",
    "C100_ray_segment_refuted",
    "C100_segment_contains_partial",
    "C100_segment_contains_refuted",
    "C100_plane_point",
    "C100_from_points",
    "C100_ray_plane",
    "C100_line_plane",
    "C100_ray_triangle",
    "C100_ray_sphere",
    "C100_plane_plane"
   ],
   "note": "Exact arithmetic. Everything in the statement is proved for all rigid motions; what is partial is segment::contains and the distance of a ray and a segment, which are kept only if the motion does not exchange the ends of the segment (refuted otherwise)."
  },
  {
   "property": "C101",
   "status": "partial",
   "theorems": [
    "C101_point",
    "C101_ray",
    "C101_line",
    "C101_segment",
    "C101_plane_partial",
    "C101_box_partial",
    "C101_undo_point",
    "C101_undo_ray",
    "C101_undo_line",
    "C101_undo_segment",
    "C101_undo_plane_partial",
    "C101_undo_plane_refuted",
    "C101_undo_box_partial",
    "C101_undo_box_refuted"
   ],
   "note": "Points, rays, lines and segments in full. Planes: proved for similarities, refuted in general. Boxes: proved as inclusion, equality refuted."
  },
  {
   "property": "C102",
   "status": "partial",
   "theorems": [
    "C102_components",
    "C102_quartic",
    "C102_torus",
    "C102_unoriented",
    "C102_point_in_polygon",
    "C102_point_in_polygon_normal",
    "C102_box",
    "C102_hull",
    "C102_new_box",
    "C102_moved_box",
    "C102_builder",
    "C102_integer_parts",
    "C102_quotients",
    "C102_round",
    "C102_hull_ordered_partial",
    "C102_hull_refuted",
    "C102_hull_small_refuted"
   ],
   "note": "convex_hull can fail its assertion in double precision (C102_hull_refuted); it returns if the comparison by angle orders the points"
  },
  {
   "property": "C103",
   "status": "partial",
   "theorems": [
    "C103_same_points_partial",
    "C103_hull_of_hull_partial",
    "C103_order_refuted",
    "C103_same_points_double_partial",
    "C103_hull_of_hull_double"
   ],
   "note": "proved for lists whose first two points span a triangle with some other point; otherwise the result is empty, which depends on the order (C103_order_refuted)"
  },
  {
   "property": "C104",
   "status": "proved",
   "theorems": [
    "C104_ray_plane_point",
    "C104_ray_plane_decision",
    "C104_ray_plane_inside",
    "C104_line_plane_point",
    "C104_line_plane_decision",
    "C104_line_plane_inside"
   ],
   "note": ""
  },
  {
   "property": "C105",
   "status": "proved",
   "theorems": [
    "C105_project_point",
    "C105_project_point_inside",
    "C105_project_point_twice",
    "C105_project_point_direction"
   ],
   "note": ""
  },
  {
   "property": "C106",
   "status": "partial",
   "theorems": [
    "C106_from_to_partial",
    "C106_accurate_library_exists",
    "C106_from_to_refuted"
   ],
   "note": "Proved for vectors of length 1 up to a few roundings, up to stated errors, for every library of the stated accuracy. For vectors that merely pass the assertion of unit length up to 0.001 it is refuted: the constructor can fail its next assertion."
  },
  {
   "property": "C107",
   "status": "partial",
   "theorems": [
    "C107_from_points_partial",
    "C107_threshold",
    "C107_from_points_double",
    "C107_from_points_refuted",
    "C107_single_precision_refuted"
   ],
   "note": "Proved up to stated errors, for edges that are not extremely short. The full statement, that the three points have status inside, is refuted in double and in single precision for points that are almost on a line."
  },
  {
   "property": "C108",
   "status": "proved",
   "theorems": [
    "C108_solve_residual",
    "C108_solve_error",
    "C108_invert_residual",
    "C108_invert_error",
    "C108_solve_failure",
    "C108_invert_failure",
    "C108_success",
    "C108_invert_4x4_double",
    "C108_success_refuted",
    "C108_large_refuted"
   ],
   "note": "For a finite result and coefficients below the overflow threshold of the elimination. That success implies invertibility and that large coefficients are solved is refuted (C108_success_refuted, C108_large_refuted)."
  },
  {
   "property": "C109",
   "status": "proved",
   "theorems": [
    "C109_product",
    "C109_rotate",
    "C109_chain",
    "C109_product_chain",
    "C109_agree",
    "C109_axis_angle"
   ],
   "note": "Products, rotations, sequences of any length, agreement of product and step by step, axis and angle."
  },
  {
   "property": "C110",
   "status": "partial",
   "theorems": [
    "C110_forward",
    "C110_reverse_partial",
    "C110_reverse_order",
    "C110_reverse_refuted"
   ],
   "note": "forward iteration proved; reverse iteration visits the vertices in forward order and is refuted for every polygon whose first and last vertices differ"
  },
  {
   "property": "C111",
   "status": "proved",
   "theorems": [
    "C111_point",
    "C111_box",
    "C111_axis_angle",
    "C111_quaternion",
    "C111_roll_pitch_yaw",
    "C111_agree"
   ],
   "note": "In every IEEE format with at least 20 bits: points and boxes under affine matrices and the rotation matrices, with explicit error bounds."
  },
  {
   "property": "C112",
   "status": "partial",
   "theorems": [
    "C112_on_surface",
    "C112_outside_not_before",
    "C112_inside_until",
    "C112_entry_partial",
    "C112_exit_partial",
    "C112_unit_directions",
    "C112_edge_refuted"
   ],
   "note": "Complete for rays that cross the face farther than the rounding error from its edges; a ray through an edge and the middle of the box is missed (refuted in double precision), as are directions with a zero from inside (C56)."
  },
  {
   "property": "C113",
   "status": "proved",
   "theorems": [
    "C113_on_sphere",
    "C113_miss",
    "C113_from_outside",
    "C113_from_inside"
   ],
   "note": "binary32 and binary64 (and every format of at least 20 bits), origins, centers and radii of up to M with 4096 M^2 representable, directions of unit length up to rounding. The bound is on the squared distance from the center. The exact counterpart is C57."
  },
  {
   "property": "C114",
   "status": "partial",
   "theorems": [
    "C114_on_triangle",
    "C114_hit_partial",
    "C114_edge_refuted"
   ],
   "note": "binary32 and binary64 (and every format of at least 20 bits). Missing: rays that meet the triangle within the error of its sides, which can be missed even by both triangles at a shared edge (C114_edge_refuted), and rays almost parallel to the triangle, which the function does not consider. The exact counterpart is C55."
  },
  {
   "property": "C115",
   "status": "partial",
   "theorems": [
    "C115_on_planes_partial",
    "C115_nearly_parallel_refuted"
   ],
   "note": "For angles of the planes not smaller than the root of the rounding error, the result is a line along and on both planes with explicit bounds, or the default line and the angle is about 1/1000 or less. For nearly parallel planes the statement is refuted: the result can be a line far from the first plane (C115_nearly_parallel_refuted)."
  },
  {
   "property": "C116",
   "status": "partial",
   "theorems": [
    "C116_winding_partial",
    "C116_winding_normal_partial",
    "C116_level_refuted"
   ],
   "note": "For all polygons of machine numbers and all points with a margin of about the tolerance plus 100uM, the result is the parity of the winding number of the polygon seen along the axis; with an axis or a normal. Refuted for points at the height of a vertex, as in exact arithmetic (C116_level_refuted)."
  },
  {
   "property": "C117",
   "status": "partial",
   "theorems": [
    "C117_ray_point",
    "C117_segment_point_partial",
    "C117_no_length",
    "C117_short_refuted"
   ],
   "note": "Proved for rays, and for segments whose squared length does not underflow; refuted for shorter segments, where the distance is NaN."
  },
  {
   "property": "C118",
   "status": "partial",
   "theorems": [
    "C118_hit_partial",
    "C118_miss",
    "C118_level_refuted"
   ],
   "note": "C118_hit_partial leaves out points at or close to the height of a vertex; for these the full statement is refuted by C118_level_refuted."
  },
  {
   "property": "C119",
   "status": "proved",
   "theorems": [
    "C119_projection",
    "C119_round_trip"
   ],
   "note": ""
  },
  {
   "property": "C120",
   "status": "proved",
   "theorems": [
    "C120_at"
   ],
   "note": ""
  },
  {
   "property": "C121",
   "status": "proved",
   "theorems": [
    "C121_average"
   ],
   "note": ""
  },
  {
   "property": "C122",
   "status": "proved",
   "theorems": [
    "C122_value",
    "C122_bounding_box",
    "C122_corners"
   ],
   "note": "27uM against the exact surface, the bounding box up to the same error, and exact interpolation of the corners."
  },
  {
   "property": "C123",
   "status": "proved",
   "theorems": [
    "C123_determinant",
    "C123_adjugate"
   ],
   "note": "N^2 u relative to N! M^N for the determinant of every size, N^2+2 for the entries of the adjugate."
  },
  {
   "property": "C124",
   "status": "proved",
   "theorems": [
    "C124_count",
    "C124_residual",
    "C124_roots",
    "C124_no_solution_refuted"
   ],
   "note": "Count, residual and distance to the exact solutions, with explicit rounding errors; a witness shows that the condition on the tolerance is needed."
  },
  {
   "property": "C125",
   "status": "proved",
   "theorems": [
    "C125_ray",
    "C125_line",
    "C125_plane"
   ],
   "note": "Rays, lines and planes transformed by affine matrices in IEEE arithmetic, with bounds on origin, direction, points and distance."
  },
  {
   "property": "C126",
   "status": "proved",
   "theorems": [
    "C126_segment_transform",
    "C126_segment_translate",
    "C126_polygon_transform",
    "C126_polygon_translate",
    "C126_box_translate"
   ],
   "note": "Segments, polygons and boxes moved in IEEE arithmetic, for any number of vertices."
  }
 ]
}