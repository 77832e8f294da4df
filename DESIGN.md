# Design

A formal model of TrenchBroom/vecmath (headers in /repo/include/vecmath) in Coq 8.16.1 and
machine-checked proofs of the properties in properties.jsonl.

## Model

* The library is templated on the scalar type. The model is parametrised the same way: every
  function takes a record `ops T` with the arithmetic, comparison and conversion operations of the
  scalar type. It is instantiated with
  * `Fops prec emax`: IEEE-754 binary floating point of any precision and exponent range (Flocq's
    `BinarySingleNaN.binary_float`, round to nearest even), i.e. float, double and long double;
    NaN, infinities, signed zeros and rounding are all there.
  * `XRops`: exact real numbers extended with one "not a finite number" value `None`; dividing by
    zero or taking the root of a negative number gives `None`, and every comparison with `None` is
    false. This is the idealisation in which the geometric theorems are stated: no rounding and no
    overflow, but undefined results are kept apart from numbers.
  * `Sops w` and `Uops w`: signed and unsigned machine integers of w bits. A signed operation whose
    exact result is not representable, and every division by zero, gives a value `S_undef`/`U_undef`
    of its own that no comparison accepts; unsigned operations are modulo 2^w.
* `vec<T,S>` is a list of length S, `mat<T,R,C>` the list of its C columns, loops are folds or
  fuelled recursions in the order of the C++ loops, so the model performs the same scalar
  operations in the same order.
* Undefined behaviour, failed asserts and non-termination are outcomes of their own
  (`UB`, `Assert`, `Fuel`), never default values.
* Model files (`theories/M_*.v`) contain definitions only, each citing file and lines; small
  specifications (`S_*.v`) do not mention the model; proofs are in `P_*.v`; `Props_*.v` contain the
  final theorems, the non-vacuity examples and `Print Assumptions`.

## Trusted base

* Coq 8.16.1's kernel, including the vm used by `vm_compute` (only in refutations and examples, and
  in a few computations on closed terms). No kernel check is switched off; no axioms, functors,
  module types, plugins, admitted proofs or open obligations are added.
* The correspondence of the model (`M_*.v`, `Ops.v`, and the instances `Inst_*.v`) with the C++ text,
  function by function, by reading. Each definition cites the lines it models.
* The specifications (`S_*.v`), which say what the words of the properties mean.
* Flocq's formalisation of IEEE-754 and MathComp's permutations and determinants, as far as they
  are definitions; their theorems are checked by the kernel.
* What the C++ standard says about the functions the library calls, where it is a parameter of the
  model: `std::sort` sorts by a strict weak order (`S_hull.v`), number parsing and printing
  (`S_io.v`). For the exact theorems `sqrt`, `cbrt`, `sin`, `cos`, `acos`, `asin`, `atan2` are the
  real functions; for the IEEE theorems only `sqrt` occurs and is the correctly rounded one.
* IEEE arithmetic in the format of the operands, round to nearest even, no contraction to fused
  operations and no extended precision. One NaN (payloads are not distinguished).

The axioms are those of the standard library that real numbers and classical logic rest on:

* `ClassicalDedekindReals.sig_forall_dec`, `ClassicalDedekindReals.sig_not_dec` (real numbers),
* `FunctionalExtensionality.functional_extensionality_dep`,
* `Classical_Prop.classic`,
* `ClassicalEpsilon.constructive_indefinite_description` (only for the determinant theorems, where
  MathComp's matrix theory is used with a field structure on the standard library's reals).

`coqchk -o` additionally names constants of sealed library modules (`Coq.Reals`, `Coq.ssr`,
`mathcomp`): definitions hidden behind an opaque module signature, which the checker cannot see
through and prints like axioms. `Print Assumptions` is the authority for what a theorem rests on.

What `Print Assumptions` lists for each theorem (generated by `tools/gen_assumptions.py`):

<!-- assumptions begin -->
* no axioms (70 theorems): C102_box, C102_components, C102_hull, C102_point_in_polygon, C102_point_in_polygon_normal, C102_quartic, C102_torus, C102_unoriented, C110_forward, C110_reverse_order, C110_reverse_partial, C110_reverse_refuted, C11_pred_subtracts_modulo, C11_succ_adds_modulo, C11_succ_pred_inverse, C17_sort, C22_swizzle_inverse, C22_swizzle_last, C26_average_empty, C27_row_vector_product_undefined, C28_extract_minor, C28_set, C28_slice, C28_transpose, C34_translation_entries, C38_not_equal, C61_get_vertices, C63_every_text_has_words, C63_mat_round_trip, C63_parse_all_comma_refuted, C63_parse_all_inner_space_refuted, C63_parse_all_partial, C63_parse_all_terminates, C63_parse_mat, C63_parse_vec, C63_reads_past_the_end_refuted, C63_vec_round_trip, C68_lists, C68_row_vectors, C74_bbox_text, C74_line_text, C74_mat_text, C74_plane_text, C74_ray_text, C74_vec_text, C76_functions, C76_functions2, C76_functions3, C76_rounding, C76_rounding2, C76_variadic, C77_is_nan, C78_convert, C78_extend, C78_fill, C78_init_list, C78_matrix_convert, C78_slice, C78_xyz, C82_get_vertices, C92_get_vertices, C92_min_max_integers_partial, C94_signed, C94_signed_div, C94_signed_products_partial, C94_signed_products_refuted, C94_unsigned, C94_unsigned_div, C96_between_integers, C96_parts.
* `functional_extensionality_dep`, `sig_forall_dec` (19 theorems): C65_weights, C83_dot_error_simple, C95_signed_boxes, C95_signed_center_partial, C95_signed_center_refuted, C95_signed_components, C95_signed_equal_partial, C95_signed_min_max, C95_signed_order, C95_signed_ranges, C95_unsigned_boxes, C95_unsigned_center_partial, C95_unsigned_center_refuted, C95_unsigned_components, C95_unsigned_equal_partial, C95_unsigned_equal_refuted, C95_unsigned_min_max, C95_unsigned_order, C95_unsigned_ranges.
* `functional_extensionality_dep`, `sig_forall_dec`, `sig_not_dec` (252 theorems): C03_is_equal_exact, C03_vec_is_equal_exact, C07_round_exact_arithmetic, C07_round_up_down_exact_arithmetic, C08_snap_idempotent, C08_snap_nearest_multiple, C08_snap_up_down_multiple, C09_fract_spec, C09_mod_spec, C09_normalize_degrees_partial, C09_normalize_radians_partial, C100_average, C100_distance, C100_from_points, C100_is_between, C100_is_colinear, C100_line_plane, C100_plane_plane, C100_plane_point, C100_ray_line, C100_ray_plane, C100_ray_point, C100_ray_ray, C100_ray_segment_partial, C100_ray_segment_refuted, C100_ray_sphere, C100_ray_triangle, C100_segment_contains_partial, C100_segment_contains_refuted, C100_segment_point, C100_vectors, C101_box_partial, C101_line, C101_plane_partial, C101_point, C101_ray, C101_segment, C101_undo_box_partial, C101_undo_box_refuted, C101_undo_line, C101_undo_plane_partial, C101_undo_plane_refuted, C101_undo_point, C101_undo_ray, C101_undo_segment, C103_hull_of_hull_partial, C103_order_refuted, C103_same_points_partial, C10_correct_more_decimals_partial, C10_correct_one_decimal_refuted, C10_correct_zero_decimals_partial, C112_unit_directions, C12_mix_interpolates, C12_sign_threefold, C12_smoothstep_spec, C12_step_threshold, C13_abs_difference_same_sign_partial, C13_abs_difference_unsigned, C14_quadratic_near_zero_discriminant, C14_quadratic_sound_complete, C19_componentwise, C19_vector_space, C20_cauchy_schwarz, C20_cross_orientation, C20_cross_product, C20_distance_metric, C20_dot_inner_product, C20_length_distance, C21_normalize_unit, C21_normalize_zero, C23_cartesian_divides, C24_colinear_epsilon, C24_colinear_exact, C24_parallel, C24_parallel_exact, C25_between_iff_on_segment, C26_average_in_bounds, C26_average_is_mean, C26_average_order_irrelevant, C27_additive_laws, C27_entries, C27_product_associative, C27_product_distributes, C27_product_distributes_right, C27_product_entries, C27_product_identity, C27_transpose_reverses_products, C27_vector_laws, C31_lup_factors, C31_solve, C31_solve_failure, C31_solve_well_conditioned, C32_invert_complete_refuted, C32_invert_failure_partial, C32_invert_singular_partial, C32_invert_success_partial, C32_invert_well_conditioned_partial, C33_compositions, C33_mirrors, C33_orthogonal, C33_rotations, C33_zero_out, C34_mirror, C34_scaling, C34_shear, C34_strip_translation, C34_translation, C34_translations_compose, C35_isometry, C35_of_quaternion, C37_algebra, C37_composition, C37_isometry, C37_linear, C37_product, C37_undo, C38_equal_iff, C38_partial, C38_refuted, C38_scalar_partial, C42_constrain_nearest, C42_expand, C42_measures, C42_translate, C43_edges_partial, C43_faces_partial, C43_vertices_partial, C44_transform, C46_contains_middle_partial, C46_contains_own_points, C46_contains_refuted_degenerate, C46_contains_refuted_far, C46_contains_refuted_near, C46_contains_sound_partial, C46_contains_zero, C47_canonical, C47_equality, C47_is_equal, C48_projection, C48_ray_point_status, C49_plane_anchor, C49_plane_at, C49_plane_from_anchor, C49_plane_point, C49_plane_project_along, C49_plane_project_vector, C49_plane_project_vector_along, C50_plane_transform_partial, C50_plane_transform_refuted, C51_from_points, C51_from_points_collinear, C51_from_points_range, C52_ray_point, C52_segment_point, C52_segment_point_degenerate, C53_ray_line_attained, C53_ray_line_is_colinear_partial, C53_ray_line_parallel_partial, C53_ray_line_partial, C53_ray_line_refuted, C53_ray_line_result, C53_ray_ray_attained, C53_ray_ray_opposite_refuted, C53_ray_ray_parallel_partial, C53_ray_ray_partial, C53_ray_ray_refuted, C53_ray_ray_result_partial, C53_ray_segment_attained, C53_ray_segment_is_colinear_partial, C53_ray_segment_parallel_partial, C53_ray_segment_partial, C53_ray_segment_refuted, C53_ray_segment_result_partial, C53_ray_short_segment_refuted, C54_behind_refuted, C54_line_plane_result, C54_nearly_parallel_refuted, C54_ray_plane_parallel_partial, C54_ray_plane_partial, C54_ray_plane_result, C55_ray_triangle_partial, C55_small_triangle_refuted, C56_origin_on_surface_refuted, C56_ray_box_inside_partial, C56_zero_direction_refuted, C57_origin_on_sphere_refuted, C57_ray_sphere_partial, C57_torus_polynomial, C58_nearly_parallel_refuted, C58_plane_plane_partial, C59_contains_axis_partial, C59_contains_normal_partial, C59_contains_partial, C59_level_refuted, C59_ray_polygon_few_points, C59_ray_polygon_partial, C59_ray_polygon_points, C60_any_points_partial, C60_collinear_points, C60_convex_hull_partial, C60_doubled_point, C60_doubled_point_refuted, C60_empty_iff, C60_few_points, C60_small_triangle_refuted, C61_center, C61_transform, C61_translate, C64_constructor, C64_default_tolerance, C64_lines_reals, C64_lists_reals, C64_matrices_reals, C64_meaning_reals, C64_trichotomy_reals, C64_vectors_order_reals, C64_vectors_reals_partial, C64_vectors_refuted, C65_affine, C65_bounding_box, C65_convex_hull, C65_corners, C65_value, C66_points3, C66_points4, C66_points4_complete, C66_scale_bbox, C66_scale_bbox_with_anchor, C66_shear_bbox, C66_shear_bbox_other_sides, C67_coordinate_system, C67_ortho, C67_plane_projection, C67_view, C71_is_equal_reals, C73_line_transform, C73_ray_transform, C73_segment_transform, C77_is_integral, C77_is_zero, C77_matrix_is_zero, C79_is_equal, C80_plane_is_equal, C80_polygon_is_equal, C80_polygon_is_equal_sizes, C80_quat_is_equal, C80_ray_is_equal, C80_segment_is_equal, C81_aligned_orthogonal_plane, C81_horizontal_plane, C81_orthogonal_plane, C82_length_center.
* `classic`, `functional_extensionality_dep`, `sig_forall_dec`, `sig_not_dec` (303 theorems): C01_compare_antisymmetric, C01_compare_is_lexicographic, C01_compare_transitive, C01_operators_agree, C01_strict_weak_order, C02_range_compare_antisymmetric, C02_range_compare_is_lexicographic, C02_range_compare_transitive, C03_is_equal_reflexive, C03_is_equal_symmetric, C03_vec_is_equal_symmetric_refuted, C04_abs_max_is_greatest, C04_abs_min_is_least, C04_clamp, C04_contains, C04_max_is_greatest, C04_min_is_least, C04_vec_clamp, C05_min_ignores_nan_refuted, C05_safe_max_ignores_nan, C05_safe_min_ignores_nan, C06_trunc_floor_ceil_exact, C06_undefined_otherwise, C07_round_below_half_refuted, C07_round_integer_refuted, C07_round_nearest_partial, C08_snap_up_idempotent_double_refuted, C09_normalize_degrees_terminates_refuted, C09_normalize_radians_nonnegative_refuted, C100_measure_angle, C102_builder, C102_hull_ordered_partial, C102_hull_refuted, C102_hull_small_refuted, C102_integer_parts, C102_moved_box, C102_new_box, C102_quotients, C102_round, C103_hull_of_hull_double, C103_same_points_double_partial, C104_line_plane_decision, C104_line_plane_inside, C104_line_plane_point, C104_ray_plane_decision, C104_ray_plane_inside, C104_ray_plane_point, C105_project_point, C105_project_point_direction, C105_project_point_inside, C105_project_point_twice, C106_accurate_library_exists, C106_from_to_partial, C106_from_to_refuted, C107_from_points_double, C107_from_points_partial, C107_from_points_refuted, C107_single_precision_refuted, C107_threshold, C108_invert_failure, C108_invert_residual, C108_large_refuted, C108_solve_error, C108_solve_failure, C108_solve_residual, C108_success, C108_success_refuted, C109_agree, C109_axis_angle, C109_chain, C109_product, C109_product_chain, C109_rotate, C111_agree, C111_axis_angle, C111_box, C111_point, C111_quaternion, C111_roll_pitch_yaw, C112_edge_refuted, C112_entry_partial, C112_exit_partial, C112_inside_until, C112_on_surface, C112_outside_not_before, C113_from_inside, C113_from_outside, C113_miss, C113_on_sphere, C114_edge_refuted, C114_hit_partial, C114_on_triangle, C115_nearly_parallel_refuted, C115_on_planes_partial, C116_level_refuted, C116_winding_normal_partial, C116_winding_partial, C117_no_length, C117_ray_point, C117_segment_point_partial, C117_short_refuted, C118_hit_partial, C118_level_refuted, C118_miss, C119_projection, C119_round_trip, C120_at, C121_average, C122_bounding_box, C122_corners, C122_value, C124_count, C124_no_solution_refuted, C124_residual, C124_roots, C125_line, C125_plane, C125_ray, C126_box_translate, C126_polygon_transform, C126_polygon_translate, C126_segment_transform, C126_segment_translate, C13_abs_difference_refuted, C15_cubic_sound_complete, C16_quartic_default_epsilon_refuted, C16_quartic_distinct_refuted, C16_quartic_sound_complete_partial, C16_quartic_tolerance_partial, C18_find_abs_max_component, C18_find_abs_max_component_injective, C18_find_max_component, C18_find_max_component_injective, C18_get_abs_max_component, C18_get_abs_max_component_axis, C18_get_max_component, C19_ieee_commutative, C23_homogeneous_round_trip, C35_agrees_with_quaternion, C35_angles_add, C35_from_to, C35_rodrigues, C35_roll_pitch_yaw, C36_euler_any_rotation, C36_euler_ranges, C36_euler_recovers, C36_euler_round_trip, C37_axis_angle_asserts_unit_axis, C37_axis_angle_rotation, C39_from_to_assertion, C39_from_to_partial, C39_from_to_refuted, C40_builder_initialized, C40_builder_order_independent, C40_builder_smallest_partial, C40_empty_builder_refuted, C40_merge_all, C40_merge_all_order_independent, C40_merge_boxes, C40_merge_point, C41_contains_box, C41_contains_point, C41_encloses, C41_intersect, C41_intersects, C41_is_empty, C42_constrain, C42_expand_ieee, C42_relative_position, C42_repair, C42_translate_ieee, C43_corner, C43_edges_grid_partial, C43_faces_grid_partial, C43_vertices_grid_partial, C43_vertices_ieee_refuted, C45_segment_convert_partial, C45_segment_convert_refuted, C45_segment_order, C45_segment_sorted, C45_segment_transform_sorted, C45_segment_translate_sorted, C49_plane_flip, C56_ray_box_outside, C57_origin_on_torus_refuted, C57_ray_torus_next_partial, C57_ray_torus_partial, C59_ray_winding_partial, C59_winding_axis_partial, C59_winding_normal_partial, C59_winding_partial, C60_point_on_edge_refuted, C61_convert_partial, C61_convert_refuted, C61_fewer_vertices_refuted, C61_first_vertex_least, C61_has_vertex, C61_invert, C61_operators, C61_rotations_equal_partial, C61_rotations_equal_refuted, C61_total_order, C62_repeated_vertex_refuted, C62_swap_negates, C62_zero_partial, C62_zero_refuted, C64_operand_orders_refuted, C64_trichotomy_partial, C67_perspective, C69_measure_angle, C70_nearest_refuted, C70_negative, C70_special, C70_sqrt_c, C71_operators, C72_angle, C72_axis, C75_distance_c, C75_is_between_c, C75_is_parallel_c, C75_is_unit_c, C75_length_c, C75_line_transform_c, C75_normalize_c, C75_plane_transform_c, C75_ray_transform_c, C75_segment_length_c, C79_convert, C79_equality, C79_make_value, C79_make_values, C80_plane, C80_ray, C80_segment, C83_dot_error, C83_length_error, C83_squared_length_error, C84_normalize_components_partial, C84_normalize_is_unit_partial, C84_normalize_refuted, C84_normalize_unit_partial, C85_plane_distance_error, C85_plane_status_reliable, C86_center_inside_partial, C86_center_inside_refuted, C86_size_nonnegative, C87_cross_anticommutes, C87_distance_symmetric, C87_opposite, C88_identity, C88_mirrors, C88_quarter_turns, C88_scaling, C88_translation, C88_transpose, C89_affine_point_error, C89_matrix_matrix_error, C89_matrix_vector_error, C90_cross_error, C90_distance_error, C90_point_at_distance_error, C91_mix_between_refuted, C91_mix_endpoints, C91_mix_error_partial, C92_max, C92_min_positive, C92_min_refuted, C92_nextgreater, C93_e, C93_multiples_of_pi, C93_pi, C93_round_trip, C93_to_degrees, C93_to_radians, C96_integers_exact, C96_integers_near, C96_narrow, C96_round_trip, C96_truncate, C96_widen, C97_affine_point, C97_box_measures, C97_box_transform, C97_box_translate, C97_box_volume, C97_colinear, C97_cross, C97_dot, C97_matrix_product, C97_matrix_vector, C97_plane_distance, C97_products, C97_squared_distance, C97_sums, C98_grid_hull, C98_grid_hull_double, C99_fract, C99_mod, C99_normalize_degrees, C99_snap, C99_snap_down, C99_snap_idempotent, C99_snap_up.
* `classic`, `constructive_indefinite_description`, `functional_extensionality_dep`, `sig_forall_dec`, `sig_not_dec` (16 theorems): C108_invert_4x4_double, C108_invert_error, C123_adjugate, C123_determinant, C29_determinant_identity, C29_determinant_leibniz, C29_determinant_product, C29_determinant_transpose, C29_determinant_zero_iff_singular, C30_adjugate, C35_is_rotation, C35_roll_pitch_yaw_is_rotation, C67_coordinate_system_total, C67_plane_projection_normal, C67_plane_projection_total, C97_determinant.
<!-- assumptions end -->

## What is modelled and what is not

All headers in include/vecmath:

| header | model | not modelled |
|---|---|---|
| scalar.h | M_scalar.v, M_limits.v (`nextgreater`) | `identity` |
| constants.h | Ops.v: the epsilons, pi, two_pi, half_pi; M_limits.v: quarter_pi, three_half_pi, e, the literal of pi | |
| vec.h | M_vec.v, M_io.v (parse, operator<<), M_constexpr.v (`_c` functions), M_limits.v (`min()`, `max()`, `get_vertices`) | element accessors by name (a list index in the model) |
| vec_ext.h | M_matext.v | the commuted overloads, which call the modelled ones |
| mat.h, mat_ext.h | M_mat.v, M_matext.v, M_io.v | |
| quat.h | M_quat.v | |
| bbox.h | M_bbox.v | |
| line.h, ray.h, segment.h, plane.h, abstract_line.h | M_geom.v, M_constexpr.v, M_convert.v | |
| distance.h | M_dist.v | |
| intersection.h | M_intersect.v | |
| convex_hull.h | M_hull.v (`swizzle` and `compute_axis` inlined) | |
| polygon.h | M_polygon.v, M_polyiter.v | |
| approx.h | M_approx.v | printing of approx |
| bezier_surface.h | M_approx.v | |
| constexpr_util.h | M_scalar.v, M_vec.v (sort, iterators as positions in a list) | |
| vec_io.h, mat_io.h, bbox_io.h, line_io.h, ray_io.h, plane_io.h | M_io.v | stream state (width, flags, failure bits); output is the text |
| util.h | in M_geom.v and M_bbox.v (enumerations) | |
| forward.h | the component types of the declared vectors (Inst_F, Inst_I) | `vec1b`..`vec4b` |
| glsh.h | | does not compile (refers to names that do not exist) |

Simplifications that hold everywhere:

* The size parameters S, R, C are lengths of lists; a theorem for "every dimension" is about lists of
  any equal length. Where the C++ code has a static_assert on the size, the theorem has it as a
  hypothesis.
* Defaulted copy and move operations are the identity. References and in-place updates are threaded
  through as values; no function of the library keeps references to its arguments.
* `constexpr` and the plain overloads that differ only in the keyword are one definition; where they
  differ in the square root (`_c`) both are modelled.
* A failed `assert` is the outcome `Assert` (debug build). In a release build the code continues;
  what happens then is not modelled.
* Integer components are machine integers of any width (C94, C95); the integers inside `round`, `mod`
  and the like are mathematical or fixed-width ones where overflow matters (C11, C13). Float-to-integer
  conversions out of range are `UB`. Integral promotion is not modelled: it matters only for
  components narrower than `int`, which the library does not declare, and for `bool`.
* `mat.h:861` compares a pivot with the double literal 1.0e-15 whatever the component type; the model compares
  it in the component type. For `float` the two agree: the `float` nearest to 1e-15, which is also the quotient
  the model computes, is the least `float` above the literal.
* The exact theorems say nothing about the size of rounding errors. They say what the algorithm
  computes; order-only properties and those marked IEEE hold with rounding.

## Properties

* **C01 Exact vector comparison is a total order with NaN on top** — modelled in: IEEE (any prec/emax), any dimension. Proof: lexicographic spec over a NaN-last rank; antisymmetry/transitivity from the rank, induction on components.
* **C02 Comparison of vector ranges is a total order** — modelled in: IEEE, lists of any length. Proof: induction on both lists, on top of C01.
* **C03 Epsilon equality is symmetric and bounded by epsilon** — modelled in: scalars: IEEE; vectors: exact. Proof: case analysis; induction on components.
* **C04 min, max, clamp, contains select the right value** — modelled in: IEEE. Proof: order laws, induction on the argument list.
* **C05 safe_min and safe_max ignore NaN** — modelled in: IEEE. Proof: invariant over the argument list; refutation for min/max by computation.
* **C06 trunc, floor, ceil are exact integer parts** — modelled in: IEEE. Proof: Flocq: integers below 2^prec are representable; undefined conversion is the distinct outcome UB.
* **C07 round returns the nearest integer** — modelled in: IEEE for the refutation, exact arithmetic for the positive part. Proof: computation / floor characterisation.
* **C08 Snapping hits the grid within half a cell** — modelled in: exact. Proof: floor characterisation.
* **C09 mod, fract and angle normalisation** — modelled in: exact; IEEE for non-termination. Proof: measure on the angle; invariant of the stuck loop.
* **C10 correct() rounds to the given number of decimals** — modelled in: exact. Proof: computation; decimals = 0 proved, and for 1 to 31 decimals what the code does instead.
* **C11 succ and pred step cyclically and are inverse** — modelled in: 64-bit unsigned with explicit wrap-around. Proof: modular arithmetic.
* **C12 sign, step, mix, smoothstep** — modelled in: exact. Proof: polynomial inequalities.
* **C13 abs_difference is the distance between its arguments** — modelled in: IEEE and integers. Proof: refuted for signed arguments by computation, proved for same-signed ones.
* **C14 Quadratic solver is sound and complete** — modelled in: exact. Proof: completing the square.
* **C15 Cubic solver is sound and complete** — modelled in: exact with cbrt/acos/cos. Proof: Cardano identities, triple-angle formula.
* **C16 Quartic solver is sound and complete** — modelled in: exact. Proof: refutation of the reported values; soundness of those that are not NaN.
* **C17 constexpr sort sorts** — modelled in: any type and strict weak order, arrays as lists with indices. Proof: partition invariant, induction on range size.
* **C18 k-th largest component selection** — modelled in: IEEE. Proof: via C17.
* **C19 Componentwise vector arithmetic is a vector space** — modelled in: exact / IEEE. Proof: induction on components.
* **C20 dot, cross and length are Euclidean** — modelled in: exact. Proof: induction on components, Cauchy-Schwarz.
* **C21 normalize yields a unit vector in the same direction** — modelled in: exact. Proof: field identities, induction.
* **C22 swizzle and unswizzle are inverse** — modelled in: any scalar. Proof: case analysis on the axis.
* **C23 Homogeneous coordinates round trip** — modelled in: IEEE. Proof: x/1 = x in Flocq, induction.
* **C24 is_colinear and is_parallel** — modelled in: exact. Proof: discriminant argument.
* **C25 is_between** — modelled in: exact. Proof: dot product inequalities.
* **C26 average is the arithmetic mean** — modelled in: exact. Proof: induction on the range.
* **C27 Matrix algebra laws** — modelled in: exact. Proof: sums over lists, induction.
* **C28 transpose swaps rows and columns** — modelled in: any scalar. Proof: loop invariant of the in-place swap.
* **C29 Determinant is the determinant** — modelled in: any commutative ring, then integers/rationals. Proof: Laplace expansion from MathComp.
* **C30 Adjugate** — modelled in: any commutative ring. Proof: MathComp adjugate.
* **C31 LUP decomposition and linear solver** — modelled in: exact. Proof: loop invariants of the in-place elimination.
* **C32 invert returns the two-sided inverse** — modelled in: exact. Proof: via C31; refutation of completeness by a tiny pivot.
* **C33 Constant rotation and mirror matrices** — modelled in: exact. Proof: computation with symbolic points.
* **C34 Affine matrices act as documented** — modelled in: exact. Proof: sums over lists.
* **C35 Rotation matrices are rotations** — modelled in: exact with sin/cos. Proof: trigonometric identities and nsatz-style algebra.
* **C36 Euler angles round trip** — modelled in: exact with asin/atan2. Proof: case split on gimbal lock; every affine, orthogonal matrix of determinant 1 has angles because its columns are cross products of each other.
* **C37 Quaternion product and rotation** — modelled in: exact. Proof: ring identities.
* **C38 Quaternion equality and negation describe the same rotation** — modelled in: exact. Proof: refuted by witnesses.
* **C39 Quaternion from two vectors rotates one onto the other** — modelled in: exact. Proof: algebra; refuted for nearly parallel vectors.
* **C40 Bounding box from points is the smallest one** — modelled in: IEEE. Proof: invariant over the history of add calls.
* **C41 Bounding box predicates are set relations** — modelled in: IEEE. Proof: pointwise order reasoning; witnesses for the set relations.
* **C42 constrain, relative_position, repair, translate, expand** — modelled in: IEEE / exact. Proof: pointwise order reasoning.
* **C43 Box vertices, edges and faces** — modelled in: exact; IEEE for the refutation, and IEEE for boxes with corners on a grid. Proof: symbolic computation, transferred by the relation of C97.
* **C44 Transformed box contains the transformed contents** — modelled in: exact. Proof: affine image of a convex combination.
* **C45 Segments are stored in canonical order** — modelled in: IEEE. Proof: via C01; precision conversion refuted by a witness.
* **C46 segment.contains** — modelled in: exact. Proof: two refutations; exact case d = 0 proved.
* **C47 Lines compare equal exactly when they are the same point set** — modelled in: exact. Proof: uniqueness of the foot point.
* **C48 Projection onto a line is the nearest point** — modelled in: exact. Proof: completing the square.
* **C49 Plane queries** — modelled in: exact; flip in IEEE. Proof: algebra; sign symmetry of rounding.
* **C50 Plane transformation** — modelled in: exact. Proof: refuted for scaling; proved for similarity transforms.
* **C51 Plane from three points** — modelled in: exact. Proof: cross product algebra.
* **C52 Point distances are minimal** — modelled in: exact. Proof: quadratic minimisation.
* **C53 Distances between rays, lines and segments are minimal** — modelled in: exact. Proof: refuted in general; proved: soundness, minimality in the unclamped case, and the exact result of the clamped case (ray parameter set to 0, other point not chosen anew).
* **C54 Ray-plane and line-plane intersection** — modelled in: exact. Proof: algebra.
* **C55 Ray-triangle intersection** — modelled in: exact. Proof: Cramer's rule for barycentric coordinates.
* **C56 Ray-box intersection** — modelled in: exact. Proof: case analysis; refuted for origins inside with an axis-parallel direction.
* **C57 Ray-sphere and ray-torus intersection** — modelled in: exact. Proof: quadratic formula; torus via the quartic.
* **C58 Plane-plane intersection** — modelled in: exact. Proof: algebra.
* **C59 Point in polygon** — modelled in: exact. Proof: refuted for level vertices. Otherwise a point is accepted exactly if the winding number of the polygon around it is odd; the winding number is the total of the signed angles between successive vertices divided by 2π (`S_winding`), and each signed angle is the difference of two arguments plus 2π times a signed crossing. For strictly convex polygons also by half-planes.
* **C60 Convex hull** — modelled in: exact; the anchor swap, the sort by angle (any std::sort that meets its specification), the removal of points in one direction and the stack of the Graham scan, on the swizzled coordinates. Proof: radial order as a strict weak order in the half plane above the anchor, stack invariant (convex chain around the points seen), transfer through the projection; refuted for coincident leading points, small triangles and points on an edge.
* **C61 Polygon normal form** — modelled in: IEEE. Proof: rotation invariance, via C02.
* **C62 Unoriented polygon comparison** — modelled in: IEEE. Proof: refuted by a witness; partial result for equal second vertices.
* **C63 Parsing undoes printing** — modelled in: strings as lists of characters, number conversion as a parameter. Proof: induction on the token list.
* **C64 approx trichotomy** — modelled in: IEEE. Proof: order laws; refutation of operand order agreement.
* **C65 Bezier surface evaluation** — modelled in: exact. Proof: Bernstein identities.
* **C66 Box and point-set transformation matrices** — modelled in: exact. Proof: symbolic computation; lup_solve soundness for the point sets.
* **C67 Coordinate systems and projections** — modelled in: exact. Proof: via C32 and symbolic computation.
* **C68 List operations act elementwise** — modelled in: any scalar. Proof: induction on lists.
* **C69 measure_angle measures the rotation** — modelled in: exact. Proof: trigonometry.
* **C70 Constexpr square root terminates** — modelled in: IEEE, any format with at least 4 digits and emax >= prec + 4. Proof: the Newton iterates are above the root after one step, decrease until they are next to it, and cannot alternate between the two neighbours; convergence bound from the halving of the error; refuted: equality with the correctly rounded root.
* **C71 Matrix comparison** — modelled in: IEEE for the operators, exact for is_equal. Proof: column by column, via C01.
* **C72 Quaternion axis and angle accessors** — modelled in: exact. Proof: half-angle identities.
* **C73 Transforming lines, rays and segments** — modelled in: exact. Proof: an affine map takes combinations to combinations.
* **C74 Printed texts are unambiguous** — modelled in: strings, number printing as a parameter that prints no blanks. Proof: via C63, induction on the texts.
* **C75 Functions evaluated at compile time** — modelled in: IEEE, same formats as C70. Proof: via C70; the specification is the run time function with each root replaced by a neighbour of the exact root.
* **C76 Vector functions act on components** — modelled in: any component type. Proof: induction on components; a failing scalar function is a failing vector function.
* **C77 Vector and matrix predicates** — modelled in: any component type (is_nan), exact (the others). Proof: induction on components, via C07.
* **C78 Construction of vectors and matrices** — modelled in: any component type. Proof: list positions.
* **C79 Conversion and equality of boxes** — modelled in: IEEE, any two formats; is_equal exact. Proof: rounding is monotone, also at overflow; order laws.
* **C80 Equality of rays, planes, segments, quaternions and polygons** — modelled in: IEEE for the operators, exact for is_equal. Proof: via C01 and C03.
* **C81 Named planes** — modelled in: exact. Proof: via C18 and C21.
* **C82 Length, center and vertices of segments** — modelled in: exact. Proof: vector algebra.
* **C83 Rounding errors of inner products and lengths** — modelled in: IEEE. Proof: induction over the components with Flocq's error bound of one rounding; exact vectors and norms of S_vec are the reference.
* **C84 Normalized vectors are unit vectors up to rounding** — modelled in: IEEE. Proof: from C83. Refuted as stated: components around 2^-600 have a squared length of zero and give infinities, components around 2^600 give zero vectors; proved for moderate lengths.
* **C85 Point status is right outside of the rounding error** — modelled in: IEEE. Proof: C83 and one more rounding.
* **C86 Box center and size in floating point** — modelled in: IEEE. Proof: rounding is monotone and twice a machine number is one. Center refuted for corners whose sum overflows; proved for all others.
* **C87 Symmetries survive rounding** — modelled in: IEEE. Proof: rounding to nearest is odd; all cases of special values.
* **C88 Transformations that only move components are exact** — modelled in: IEEE. Proof: sums in which all but one or two terms are products with zero, all cases of special values.
* **C89 Rounding errors of matrix products** — modelled in: IEEE. Proof: entries are inner products of rows and columns, then C83; the last component of an affine image is exactly one.
* **C90 Rounding errors of cross products, distances and points on lines** — modelled in: IEEE. Proof: from the bounds of C83.
* **C91 Interpolation in floating point** — modelled in: IEEE. Proof: C83 and one more rounding. "Between x and y" is refuted: mix(3, 3, 1/5) is greater than 3 in double precision; proved: the end points are exact and the error is bounded.
* **C92 Limits of the component types and the next greater number** — modelled in: IEEE, integers (M_limits.v). Proof: Flocq's theory of successors. **Finding**: vec::min() is documented as "all components set to the minimal possible value", but std::numeric_limits<T>::min() of a floating point type is its smallest positive normal number; the zero vector is less in every component (refuted for every IEEE format). Proved for integers, and max() for all types.
* **C93 Constants and angle conversions in double precision** — modelled in: IEEE double. Proof: pi is enclosed to 17 digits by Machin's series and e by its Taylor series, both computed with rationals inside the kernel; then two roundings per conversion.
* **C94 Arithmetic of integer vectors** — modelled in: machine integers (`Sops w`, `Uops w`). Proof: each component is one or two integer operations; ring homomorphism modulo 2^w for unsigned ones. *Finding*: the signed dot product (and cross product) is undefined when an intermediate sum overflows although its value is representable (`C94_signed_products_refuted`); the positive part asks that the sum of the absolute products be representable.
* **C95 Order and boxes of integer vectors** — modelled in: machine integers. Proof: machine integers satisfy the order laws of P_ord (the key of a number is its value), so every order theorem applies; then translation to Z. *Findings*: for unsigned components `is_equal(v, v, 1)` is false for v = [0], because rhs - epsilon wraps around; the center of an unsigned box near the upper limit lies outside of the box, and for signed boxes min + max overflows.
* **C96 Conversions between component types** — modelled in: IEEE formats (`F_conv`), machine integers (M_convert.v). Proof: a number of the narrow format is one of the wide format, so both roundings are exact; the sign is kept, so even signed zeros return. Integers below 2^prec are numbers of the format; others have one relative error.
* **C97 Coordinates on a grid are computed exactly in floating point** — modelled in: IEEE. Proof: a relation between the same model function run on machine numbers and on exact numbers: every machine number involved is an integer multiple of a power of two that fits the mantissa, so no operation rounds and every comparison agrees; the exact theorems then carry over. The bounds on the integers are in the hypotheses, one per function.
* **C98 The convex hull of grid points is exact in floating point** — modelled in: IEEE. Proof: the relation of C97 carried through the whole scan (colinearity test, choice of the axis, anchor, comparison by angle, sort, erasing and popping): every decision agrees with the one of exact arithmetic, so C60 applies; the result of the sort in machine arithmetic is also a result allowed by the contract of `std::sort` in exact arithmetic. The bound 4729 in double precision comes from the fourth powers in the colinearity test (18 * 4729^4 < 2^53); the grid step is at least 2^-4 because the tolerance 1e-5 of that test must be below the fourth power of the step.
* **C99 Snapping, remainders and degrees on grids are exact in floating point** — modelled in: IEEE. Proof: the rounded quotient of two integers k/l lies on the same side of every half integer as the exact one, because rounding is monotone and could reach m/2 only if |ml - 2k| < 1; so truncation, rounding, floor and ceil of the quotient are the exact ones, and the products and differences after it do not round (C97). Without the grid this fails: C08_snap_up_idempotent_double_refuted, C09_normalize_degrees_terminates_refuted.
* **C100 Moving everything by the same rigid motion does not change what is measured** — modelled in: exact. Proof: the motion is pushed out of every vector expression (differences of points become images of vectors, inner products lose the motion), also where the vectors are not numbers, so that each function takes the same branches; in space the cross product of images is the image of the cross product, up to the sign of the orientation. Refuted for segments whose ends the motion exchanges (a segment stores its smaller end first): `contains` accepts points up to the tolerance before the start but not behind the end, and the distance of a ray and a short segment moves its nearest point to the start.
* **C101 Transforming twice is transforming by the product; transforming by the inverse undoes it** — modelled in: exact. Proof: the image of a direction under the product is a positive multiple of the image of the normalized image, and unit vectors that are positive multiples of each other are equal; making a segment is symmetric in its ends; the inverse of a matrix with last row 0 ... 0 1 has the same last row. Refuted for planes with stretching matrices and, as an equality, for boxes.
* **C102 Calls return unless a stated condition is violated** — modelled in: any component type; IEEE for conversions and for moving boxes. Proof: sorting with any comparison returns a permutation, so that selections are in range; a cubic always has a counted solution, so that the quartic's assertion holds; case analysis of min and max of numbers that need not be comparable; adding the same number is monotone after rounding and saturation; the integer conversions are characterised exactly, with the gap between numbers near 2^63; the hull only returns given points, and if the comparison by angle is an order then the first two points of the stack are never popped. Partial: the comparison by angle is not always an order in double precision, and then the assertion at the end of `convex_hull` fails (finding 32).
* **C103 The convex hull depends only on the set of the points** — modelled in: exact arithmetic, and double precision for clusters of grid points by the transfer of C98. Proof: the axis is that of the plane's normal, since the ordering of the absolute components is kept by factors; the anchor and the farthest points in each direction are determined by the set, and a list that is strictly sorted by angle is determined by its elements; on the vertices of a hull the scan removes nothing. Which lists give an empty result does depend on the order (`C103_order_refuted`).
* **C104 Ray-plane and line-plane intersections in floating point** — modelled in: IEEE formats. Proof: a calculus of values with error bounds for sums, products and quotients; the quotient is well conditioned because the code rejects small cosines, and the residual of the quotient in the plane equation, not its difference from the exact parameter, is bounded.
* **C105 Projections onto a plane in floating point** — modelled in: IEEE formats. Proof: the same calculus; the projection along a direction is the point of C104.
* **C106 The quaternion that rotates one unit vector onto another, in floating point** — modelled in: IEEE formats, with any library that meets `accurate` (S_ft.v; one is constructed). Proof: error bounds of the axis, the angle and the products are compared with the exact rotation about the exact axis. Refuted for vectors that merely pass the constructor's `is_unit` assertion (finding 33).
* **C107 The plane through three points in floating point** — modelled in: IEEE formats. Proof: error bounds of the edges, their cross product, its length and the normal, in units of the product of the edges' lengths. That the three points always have status inside is refuted (findings 34, 35).
* **C108 Solving linear systems and inverting matrices in floating point** — modelled in: IEEE formats, any size. Proof: a loop invariant says that the stored factors are bounded by 2^k M and that their product is the matrix with its rows permuted up to 4 (2^k - 1) u M; the substitutions satisfy the triangular systems up to their rounding errors; a failed search for a pivot means that the exact factors of a close matrix have a small column; an approximate inverse with a small residual shows that the exact one exists. That success implies invertibility, and that large coefficients are solved, is refuted (findings 36, 37).
* **C109 Sequences of rotations in floating point** — modelled in: M_quat (`q_mul`, `q_conjugate`, `q_rotate`, `q_axis_angle`) at the IEEE instance; specification S_chain (length and distance of real quaternions, real products and turns of a sequence). Proof: each component of a product is a sum of four products, whose error is bounded by the Cauchy–Schwarz inequality in terms of the lengths; the real product multiplies lengths and distances; induction over the sequence from the end with the factor (1 + 2d + d² + 25u) per step, and (1 + h)^n ≤ 100/99 when n·h ≤ 1/100. Files P_chain, P_chain2, P_chain3.
* **C110 Iterating over polygons** — modelled in: `M_polyiter` (iterators as indices into the vertices; going past the end is UB). Proof: induction on
* **C111 Points, boxes and rotation matrices in floating point** — modelled in: M_mat (`m_mul_p`), M_matext (`rotation_axis_angle`, `rotation_quat`, `rotation_rpy`), M_bbox (`bb_transform`) at the IEEE instance; specification S_tbox (`affine_up_to` bounds the entries of an affine matrix, `image_error` is the bound, `in_bbox_upto` widens a box). Proof: each component of an image is a sum of four products divided by 1 exactly; the computed box is the merge of the eight computed corners, and by convexity the exact image of a point lies between the least and the greatest exact corner; the entries of a rotation matrix are compared with the entries of the real one by the same error calculus as C105–C109, the real matrix being a rotation by C26/C78. Files P_tbox, P_tbox2–P_tbox6, Props_tbox.
* **C112 Ray-box intersection in floating point** — modelled in: M_intersect (`intersect_ray_bbox`) at the IEEE instance; specification S_raybox (`on_surface_upto`, `enters`, `leaves`, the bound `ray_box_error`). Proof: the distance to a plane is the exact one after two roundings, saturated at infinity; a coordinate that passes the check is bounded by the box, which bounds the product of distance and direction and thus its error; distances of planes whose crossing points are farther than the bound from the edges compare as the exact ones. A ray through an edge can be missed (`C112_edge_refuted`). Files P_raybox, P_raybox2, P_raybox3, Props_raybox.
* **C113 Ray-sphere intersection in floating point** — modelled in: M_intersect (`intersect_ray_sphere`) at the IEEE instance; specification S_sphere (`excess`, the squared distance from the center minus the squared radius, and the bound `sphere_error`). Proof: the coefficients of the quadratic are near the exact ones; the two computed distances are the roots of a quadratic whose coefficients are near those of the exact one, so that the two polynomials differ by at most the bound along the ray, and the sign of the former is known between and outside of its roots. The bound is on the squared distance, since the distance along a grazing ray is ill-conditioned.
* **C114 Ray-triangle intersection in floating point** — modelled in: M_intersect (`intersect_ray_triangle`) at the IEEE instance; specification S_raytri (`placement`, `in_triangle_by`, `close_upto`, the bound `ray_triangle_error`). Proof: the four determinants are near the exact ones, with errors counted in roundings relative to their sizes (`vnear`); Cramer's rule turns the errors of the three quotients into the distance of the hit from a point of the triangle; a ray that meets the triangle far enough from its sides has exact quotients far enough from 0 and 1. A ray through an edge shared by two triangles can miss both (`C114_edge_refuted`).
* **C115 Plane-plane intersection in floating point** — modelled in: M_intersect (`intersect_plane_plane`) and M_geom (`pl_anchor`, `pl_project_vector`) at the IEEE instance; specification S_planes (`angle_sine`). Proof: the second normal projected onto the first plane has an error of at most 100uM and thus the length S up to 335uM, S the sine of the angle; its normalized direction is orthogonal to the first normal up to 370uM/S; the distance along it and the point are bounded by C104. Partial: it needs S² ≥ 100000uM. For smaller angles the projected normal is rounding noise and the result can be anything (`C115_nearly_parallel_refuted`).
* **C116 Point in polygon in floating point** — modelled in: M_intersect (`polygon_contains_point`, `polygon_contains_point_n`, `polygon_edge`, `polygon_loop`) at the IEEE instance; specification S_polyf (`seen`, `axis_dir`, margins) with S_polygon and S_winding. Proof: differences of coordinates have the sign of the exact ones and a relative error of u, so that all comparisons agree with the exact ones; the position where an edge crosses the height of the point has an error of at most 50uM, since the heights of its ends have opposite signs and their difference does not cancel. Hence each edge has the same classification as in exact arithmetic, and the result is that of C59 for the polygon seen along the axis, by induction over the vertices. Partial for the reason of C59: a point at the height of a vertex can be misjudged (`C116_level_refuted`).
* **C117 Distances of points to rays and segments in floating point** — modelled in: M_dist (`ray_point_sqdist`, `ray_point_dist`, `seg_point_sqdist`, `seg_point_dist`) at the IEEE instance; specification S_distf with S_dist and S_geom. Proof: for rays, the computed position differs from that of the nearest point by at most 145uM (the direction is not exactly of unit length), but the squared distance has its minimum there, so that this changes it only by terms of second order; the rest is the error of the inner product of a vector with three errors per component. For segments, the computed direction differs from the exact one by at most 11u in length, the position by at most 69uM, and the squared distance by at most twice the product of the distance and the resulting shift, by the Cauchy-Schwarz inequality. A segment without length has the direction 0/0. Partial: for segments so short that their squared length underflows the claim is refuted.
* **C118 Intersections of rays and polygons in floating point** — modelled in: M_intersect (`intersect_ray_polygon_plane`) at the IEEE instance; specification S_raypoly with S_polyf and S_winding. Proof: by C104, the computed distance is within 82uM/c of t, where c is the slant, and the computed point within 100uM/c of the point that is hit. C116 decides the polygon for the computed point. Two points that are close to each other and clear of the boundary get the same answer for every edge, because the crossing of the edge cannot change sides between them without meeting the boundary; hence the answer is also the one for the exact point. Near-parallel rays and rays leading away are rejected by the test of C104. Points at the height of a vertex are left out, see finding 43.
* **C119 Projections onto lines in floating point** — modelled in: M_geom (`al_distance_to_projected_point`, `al_point_at_distance`, `al_project_point`) at the IEEE instance; specification S_projf with S_geom. Proof: the inner product is within 31uM of the exact one and the square of the length of the direction within 33u of 1, so that the position is within 145uM of that of the foot of the perpendicular, which is the only nearest point in real arithmetic; the point is then within 154uM. The round trip uses the same bound at the computed point.
* **C120 The missing coordinate of a point of a plane in floating point** — modelled in: M_geom (`pl_at`, `pl_at_loop`) at the IEEE instance; specification: S_raypoly (`plane_values`) with S_geom (`on_plane`, `insert`). Proof: the numerator is within 8.3uM of the exact one, by the calculus of errors of C104, and the quotient adds one relative rounding error; multiplying by the component of the normal gives the distance from the plane. The case of a zero component is the early return.
* **C121 Averages in floating point** — modelled in: M_vec (`v_average`) at the IEEE instance; the specification is the sum over the number of vectors, as in C26. Proof: by induction over the range, every addition adds at most u times 1.02nM to the error of every component, and the count is exact because it stays below 2^prec; the division scales the error by 1/n.
* **C122 Bezier surfaces in floating point** — modelled in: M_approx (`bezier_interpolate`, `bezier_surface`) at the IEEE instance; specification: S_bezier (`is_grid`, `control`, `bezier_value`), shared with C65. Proof: the three weights have errors 5.1u, 3.1u and 1.01u, by the calculus of errors of C104; because the exact weights are non-negative with sum one, one interpolation adds 13.3uM to the error of its inputs, and there are two levels. At the corners all weights are exactly 0 or 1 and every operation is exact.
* **C123 Determinants and adjugates in floating point** — modelled in: M_mat (`m_det`, `m_adjugate`, `m_minor`) at the IEEE instance; specification: S_det (`leibniz`) and S_mat (`ent`, `of_ent`), shared with C29 and C30. Proof: by induction over the size. The closed forms for sizes one to three are bounded directly, by the calculus of errors of C104; in the expansion, every term has the relative error of its minor and about two more, and the N additions add 1.05N. The equality of the expansion with the Leibniz sum is that of C29.
* **C124 Quadratic equations in floating point** — modelled in: M_scalar (`solve_quadratic`) at the IEEE instance; specification: S_scalar (`quadratic`), shared with C14. Proof: doubling a is exact; the half coefficient, the constant and the discriminant D of the monic equation have errors 1.001us, 1.001us^2 and 6.1us^2; the residual is a((x + b/2a)^2 - D), and |sqrt x - sqrt y| <= sqrt |x - y| bounds the distance to the exact solutions. That a solution can be missed is shown by computation (finding 44).
* **C125 Transforming rays, lines and planes in floating point** — modelled in: M_geom (`ray_transform`, `ln_transform`, `pl_transform`) and M_matext (`strip_translation`) at the IEEE instance; specification: S_affine (`raffine`), S_rigid (`moved`), S_tbox (`affine_up_to`, `image_error`). Proof: stripping the translation of a machine matrix is exact and leaves the linear part; C111's bound on images gives the error E of the direction before it is normalised; its length is off by at most 3E, so the normalised direction is off by 9u + 4E/N, where N is the exact length; points at parameter t go to parameter tN; for planes the anchor, its image and the inner product with the normal are bounded in turn.
* **C126 Moving segments, polygons and boxes in floating point** — modelled in: M_geom (`seg_transform`, `seg_translate`), M_polygon (`pg_transform`, `pg_translate`), M_bbox (`bb_translate`) at the IEEE instance; specification: S_trs (`vnear`, `vclose`), S_pgon (`rotation_of`), S_affine (`raffine`). Proof: C111's bound for points (a translated coordinate is one rounded sum); the constructors only swap the ends or rotate the vertices, whatever the comparisons answer; the error at a point of a segment is a convex combination of the errors at the ends.
  the vertices left. The reverse iteration is refuted for each polygon whose first and last vertices differ (finding 38): `rbegin` and `rend` return
  the same iterators as `begin` and `end`.

## Findings

Behaviour of the code that contradicts its documentation or a property one would expect, each proved
about the model (`…_refuted`, or the theorem named) unless marked *read*:

1. `solve_quartic` reports multiple roots as often as they were found by the two quadratics, and with
   the default tolerance can report values that are no roots (C16).
2. `intersect_ray_bbox` returns NaN for an origin inside the box and a direction with a zero
   component, and the exit point for an origin on the surface (C56).
3. `polygon_contains_point` misclassifies points level with a vertex (C59).
4. `polygon::compareUnoriented` compares the remaining vertices from index 2 on: triangles that differ
   in the second vertex only compare equal (C62).
5. The comment of `polygon::compare`, "fewer vertices is less", is false; the rotations of a polygon
   whose least vertex occurs twice are different polygons (C61).
6. `bbox::builder::bounds()` of a builder that was given nothing is an invalid box (C40).
7. `quat`'s `==` accepts different rotations and rejects equal ones; unary minus and multiplication by
   a scalar act on the scalar part only (C38).
8. `correct()` is wrong for decimals > 0: it compares the value with the rounded multiple, so that with
   the usual tolerances only values that round to zero are ever changed. It also shifts by the number of
   decimals, which is undefined from 32 on (C10).
9. `normalize_degrees`/`normalize_radians` do not terminate for large doubles and can return a
   negative result (C09).
10. `abs_difference(-1, 1)` is 0 (C13).
11. The converting constructors of `segment` and `polygon` do not restore the order of the vertices
    when the conversion rounds (C45, C61).
12. `segment::contains` accepts points near the ends up to sqrt(2) times the tolerance and fails for
    segments of length 0 (C46).
13. `squared_distance` of rays, lines and segments clamps one parameter without recomputing the
    other; opposite rays and short segments are wrong too (C53); for a segment of length 0 and a point
    the result is NaN (C52).
14. `convex_hull` is empty if the first two points coincide or all triangles are small (side 0.01);
    keeps points in the middle of an edge; does not check that the points are coplanar (C60).
15. `plane::transform` is wrong for maps that do not preserve angles (C50).
16. `round` is wrong for the double below 0.5 and for odd numbers above 2^52 (C07); `sqrt_c` always
    terminates, but is not the correctly rounded root, and extreme arguments need more recursion steps
    than compilers allow at compile time (543 for the smallest double; C70); `vec::min()` is the
    smallest positive number, not the lowest (*read*).
17. `vec::parse_all` drops or mixes up vectors for inputs of the documented syntax with a comma directly
    after a number or a space before the closing parenthesis; `parse` reads a string_view past its end
    (C63).
18. `approx` compares differently with the operands exchanged because of rounding; the trichotomy fails
    for `approx<vec>` (C64); its `>=` does not compile, `approx<line>` has no `!=` (*read*).
19. `min`/`max` depend on the order of the arguments if one is NaN (C05); vector `is_equal` is not
    symmetric (C03); `snapUp` is not idempotent in doubles (C08); `is_equal(inf, inf, eps)` is false (*read*).
20. `vec * mat` writes out of bounds for matrices with more columns than rows (C27).
21. `plane`'s `from_points(cur, end, get)` ignores `get` (*read*).
22. `bbox::for_each_vertex` computes corners as max minus size, which can lie outside the box (C43).
23. `quat(from, to)` treats nearly parallel vectors as parallel and aborts for some vectors that
    `is_unit` accepts (C39).
24. `get_abs_max_component` lacks the bounds assertion of its siblings: k >= S is undefined (*read*).
25. The static_assert of `mat::slice` checks the wrong bound (*read*).
26. `euler_angles` may take asin of a number slightly above 1 after rounding (*read*).
27. `invert` reports invertible matrices with a pivot below 1e-15 as not invertible (C32).
28. `intersect_ray_triangle` never hits triangles with a small determinant (C55);
    `intersect_ray_plane` accepts points behind the origin and treats nearly parallel as parallel (C54);
    `intersect_ray_sphere` and `intersect_ray_torus` return the far point for an origin on the surface
    (C57); nearly parallel planes give the default line (C58).
29. `polygon`'s rbegin/rend are begin/end; `glsh.h` does not compile (*read*).
30. Turning a segment around can change what `segment::contains` says and the distance of a ray to it,
   because the tolerances at the two ends differ and the smaller end always comes first (C100).
31. `plane::transform` with a matrix that is not a similarity is not undone by the inverse: the plane
   comes back shifted (C101).
32. `convex_hull` compares points by angle with a cross product that is rounded. For the four points (0,0,0), (1958191359,2227469579,0),
   (988232810,1124128401,0), (1581544549,1799028657,0) in double precision, which are not on one line, the comparison has a cycle: each of the last
   three is before the next. It is not a strict weak ordering, so that the call of `std::sort` is undefined behaviour, and with an insertion sort the
   assertion `m_points.size() > 2` fails (without assertions a hull of two points is returned). The same happens with the coordinates divided by
   2^17, i.e. with coordinates below 17000 (`C102_hull_refuted`, `C102_hull_small_refuted`).
33. `quat(from, to)` asserts that both vectors are unit vectors up to 0.001. The vector (0.9991, 0, 0) passes, but the quaternion from it to
    itself fails the assertion on the axis: the inner product is not within 0.001 of 1, and the cross product has no direction (C106).
34. A plane that `from_points` returns need not contain its points: in double precision, for (-9970, -9667, 15765.6), (11679.1, 14831, -8639.5) and
    (9514.19, 12381.2, -6198.9895), which are almost on a line, the status of the second point is above (C107).
35. In single precision the threshold 0.00000001 for the sine is below the rounding errors, so that collinear points get a plane whose normal is
    noise: the plane through (-0.2, -6.1, -4.7), (-5, 6.4, 1.3), (-3.08, 1.4, -1.1) is more than 12 away from the second point (C107).
36. `invert` reports success for singular matrices whose pivots do not cancel exactly: the matrix with the rows (10, 20, 30), (40, 50, 60),
    (70, 80, 90) is inverted in double precision, because the threshold 1e-15 for a pivot is absolute and below the rounding errors (C108).
37. With coefficients near the greatest number the elimination overflows and `lup_solve` reports success with a finite but wrong solution: for
    the rows (h, h), (-h, h) and the right-hand side (h, 0) with h = 2^1023 it is (1, 0) instead of (1/2, 1/2) (C108).
38. `polygon::rbegin` and `rend` return `std::begin` and `std::end` of the vertices, so that iterating with them visits the vertices in forward order
   (C110_reverse_order, C110_reverse_refuted).
39. `intersect_ray_bbox` can miss a box because of rounding: in double precision the ray from the origin in the normalized direction of (1, 1, 0)
    enters the box from (7, 7, -1) to (8, 8, 1) through an edge and goes through its middle, but the result is NaN, since the computed coordinate of
    the entry point is just below 7 (C112_edge_refuted).
40. **Rays can slip through the edge between two triangles** (C114). In double precision, the ray from (2, 9, 3) in the normalized direction of (-5, -17, -12) passes exactly through the point (3/4, 19/4, 0) of the edge from (4, 9, 0) to (-9, -8, 0). `intersect_ray_triangle` reports NaN for the triangle (-8, 9, 0), (4, 9, 0), (-9, -8, 0) and for the triangle (-9, -8, 0), (9, -8, 0), (4, 9, 0), which share this edge; given in another order of the vertices, both triangles are hit. The checks of the barycentric coordinates have no tolerance. A ray can thus pass through a closed mesh (`C114_edge_refuted`).
41. **Nearly parallel planes have a bogus intersection** (C115). In double precision, the planes with the normalized normals (1, 2, 2) and (2^32, 2^33 + 1, 2^33) at the distances 1024 and 16 are parallel up to an angle of 6e-11. `intersect_plane_plane` should report the default line, as it does for all planes at an angle well below 1/1000, if it is not too small. It reports a line through (183595.7, -458965.3, 367191.5), a point 1008 away from the first plane. The test for parallel planes looks at the product of the second normal and the direction of its projection onto the first plane. The projection is computed from points (anchor plus normal, projected, minus anchor), so that for distances up to M it carries an error of about uM, which is larger than the projection itself if the angle is very small; normalizing it yields a random direction, far from parallel to the second plane (`C115_nearly_parallel_refuted`).
42. **Short segments have no distance** (C117). In double precision, the segment from the origin to (2^-600, 0, 0) has different end points, but the square of its length is rounded to zero, its computed direction is (inf, NaN, NaN), and `distance` of it and the point (0, 1, 0) is NaN instead of 1. `distance` also returns NaN for every segment whose end points are the same, where the distance of the two points would be expected; neither case is documented.
43. **Rays through the middle of a polygon can miss it** (C118). In double precision, the ray straight down from (0, 0, 5) meets the square with the corners (1, 0, 0), (0, 1, 0), (-1, 0, 0), (0, -1, 0) at its centre, which is as high as two of the corners, and `intersect_ray_polygon` returns NaN. This is the effect of finding 3 on rays.
44. **Quadratic equations can lose their solution** (C124). In double precision and with the tolerance `almost_zero`, `solve_quadratic` reports no solution of 9x^2 + 60000006x + 100000020000001 = (3x + 10000001)^2 = 0, because the rounding error of the discriminant is larger than the tolerance, which is absolute (`C124_no_solution_refuted`). No solution is lost if the tolerance is at least 6.1u times the size of the squared coefficients (`C124_roots`).

## Wrong programs

`seeded/LOG.jsonl` has one line per edit of the model tried against the theorems: the definition, the
edit, the claim it breaks, the theorems that no longer hold, and what was tightened.
