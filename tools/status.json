{
 "C01": [
  "proved",
  "For every IEEE format (any precision and exponent range), NaN and infinities included."
 ],
 "C02": [
  "proved",
  "For every IEEE format."
 ],
 "C04": [
  "proved",
  "For every IEEE format, infinities included."
 ],
 "C05": [
  "proved",
  "Plus the refutation of the same claim for plain min/max."
 ],
 "C17": [
  "proved",
  "For every comparator; sortedness for every irreflexive transitive comparator."
 ],
 "C18": [
  "proved",
  "For every IEEE format; the order-statistic form holds even with NaN components."
 ],
 "C03": [
  "partial",
  "Proved: symmetry and reflexivity of scalar is_equal for every IEEE format, and the meaning of scalar and vector is_equal in exact arithmetic. Refuted for doubles: vector is_equal is not symmetric."
 ],
 "C06": [
  "proved",
  "Every IEEE format; includes the exact boundary of undefined behaviour."
 ],
 "C07": [
  "partial",
  "Proved for every IEEE format up to 63 bits below 2^(prec-1) except one number, and in exact arithmetic. Refuted for the double below 0.5 and for 2^52+1."
 ],
 "C08": [
  "proved",
  "Exact arithmetic as stated. Idempotence in doubles is refuted separately."
 ],
 "C09": [
  "partial",
  "mod, fract, normalisation proved in exact arithmetic within the int64 range of the quotient. Refuted for doubles: termination and non-negativity."
 ],
 "C10": [
  "partial",
  "Proved for zero decimals. Refuted for one or more: the value is compared with the rounded multiple instead of the rounded value, so only values that round to zero are ever changed (proved for 1 to 31 decimals and tolerances up to 1/4)."
 ],
 "C11": [
  "proved",
  "Unsigned types of any width."
 ],
 "C12": [
  "proved",
  "Exact arithmetic."
 ],
 "C13": [
  "partial",
  "Proved for unsigned and for same-signed arguments; refuted for -1 and 1."
 ],
 "C14": [
  "proved",
  "Exact arithmetic; also the error bound inside the tolerance band."
 ],
 "C15": [
  "proved",
  "Exact arithmetic."
 ],
 "C16": [
  "partial",
  "Sound and complete with tolerance zero, and with any tolerance under a gap condition; distinctness refuted for multiple roots; default tolerance refuted."
 ],
 "C19": [
  "proved",
  "Exact arithmetic, every dimension; commutativity of addition and dot for every IEEE format."
 ],
 "C20": [
  "proved",
  "Exact arithmetic, every dimension."
 ],
 "C21": [
  "proved",
  "Exact arithmetic, every dimension."
 ],
 "C22": [
  "proved",
  "Any scalar type."
 ],
 "C23": [
  "proved",
  "Bit for bit in every IEEE format."
 ],
 "C24": [
  "proved",
  "Exact arithmetic, every dimension."
 ],
 "C25": [
  "proved",
  "Exact arithmetic, every dimension."
 ],
 "C26": [
  "proved",
  "Exact arithmetic, every dimension."
 ],
 "C69": [
  "proved",
  "Exact arithmetic."
 ],
 "C27": [
  "proved",
  "All laws over exact real arithmetic for every size; also that the row-vector product writes out of bounds for matrices with more columns than rows."
 ],
 "C28": [
  "proved",
  "For any element type and payload, every size, including extract_minor, slice and set."
 ],
 "C29": [
  "proved",
  "Leibniz sum over all permutations (mathcomp permutations), every size; uses the stdlib axiom constructive_indefinite_description through the mathcomp structure on R."
 ],
 "C30": [
  "proved",
  "Every size >= 2."
 ],
 "C31": [
  "proved",
  "Every size; solution is also unique; failure is reported only within 1e-15 of a singular matrix."
 ],
 "C32": [
  "partial",
  "Full property refuted: invertible matrices with a pivot below 1e-15 are reported as not invertible (C32_invert_complete_refuted). Proved: a successful result is the two-sided inverse; singular matrices are always rejected; a rejected matrix is within 1e-15 per entry of a singular one; every matrix whose inverse has entries of at most K with n*n*K < 10^15 is inverted."
 ],
 "C33": [
  "proved",
  "All twelve constants and zero_out."
 ],
 "C37": [
  "proved",
  "Exact arithmetic. Covers the quaternion product, conjugation, the action on vectors, and construction from axis and angle (which rotates by Rodrigues' formula)."
 ],
 "C38": [
  "partial",
  "The full property is false (C38_refuted): operator== accepts quaternions with the same vector part and opposite scalar part, which describe different rotations, rejects the all-negated quaternion, and unary minus and scalar multiplication act on the scalar part only. Proved: what equality means, and that equal scalar and vector parts rotate alike."
 ],
 "C39": [
  "partial",
  "Exact when |cos(from,to)| < 1 - 1/1000 or the vectors are exactly parallel; otherwise the squared error is at most 2/1000. Refuted in between; a vector accepted as unit can abort."
 ],
 "C72": [
  "proved",
  "Exact arithmetic; the axis is recovered whenever some component of the vector part exceeds 1/1000, as the code requires."
 ],
 "C34": [
  "proved",
  "Exact arithmetic; translation, scaling and strip_translation in every dimension."
 ],
 "C35": [
  "proved",
  "Exact arithmetic. C35_from_to inherits the tolerance of C39."
 ],
 "C36": [
  "proved",
  "Exact arithmetic, including gimbal lock; angles may differ but the matrix is the same."
 ],
 "C66": [
  "proved",
  "Exact arithmetic. A component of the shear delta along the sheared side's normal is ignored by the code, as the theorem states. points_transformation_matrix: the result is the NaN matrix or the unique affine matrix mapping the points; it is not the NaN matrix if the system is well conditioned."
 ],
 "C67": [
  "proved",
  "Exact arithmetic; assertion failures of degenerate arguments are characterised. The perspective view volume is the one the code documents by construction: half height tan(fov/2)*3/4 at unit distance."
 ],
 "C68": [
  "proved",
  "Any scalar type, any list length."
 ],
 "C40": [
  "partial",
  "Builder, merge_all and merge give the smallest box for every IEEE format, in any order. The claim about a builder that was given nothing is refuted: it returns an invalid box."
 ],
 "C41": [
  "proved",
  "For every IEEE format and dimension, infinities included; NaN components excluded."
 ],
 "C42": [
  "proved",
  "Order-only functions for every IEEE format; translate and expand additionally shown never to fail their assertion on finite IEEE boxes; set meaning of translate/expand, nearest point, size, center and volume in exact arithmetic."
 ],
 "C43": [
  "partial",
  "Exact arithmetic, and machine arithmetic for boxes whose corners are on a grid (integer multiples of a power of two that fit the mantissa). Refuted for other IEEE doubles: a vertex computed as max minus size can lie outside the box."
 ],
 "C44": [
  "proved",
  "Exact arithmetic, affine matrices."
 ],
 "C45": [
  "partial",
  "Construction, transform, translate for all IEEE values including NaN; order of segments. Converting constructor: proved for conversion to a wider format, refuted for narrowing (double to float)."
 ],
 "C46": [
  "partial",
  "Exact arithmetic. Full statement refuted near the ends and for segments of length 0. Proved: exact if the point projects onto the segment; never accepts beyond sqrt(2)*d; d = 0 accepts exactly the segment's points."
 ],
 "C47": [
  "proved",
  "Every dimension, exact arithmetic, unit directions."
 ],
 "C48": [
  "proved",
  "Every dimension, exact arithmetic, unit directions."
 ],
 "C49": [
  "proved",
  "Exact arithmetic for distances and projections; flip for every IEEE format and all values, with an epsilon that is not negative."
 ],
 "C50": [
  "partial",
  "Proved for maps that multiply all distances by a constant; refuted for a non-uniform scaling."
 ],
 "C51": [
  "proved",
  "Exact arithmetic with the library's epsilon 1e-8 on the sine."
 ],
 "C73": [
  "proved",
  "Exact arithmetic."
 ],
 "C52": [
  "proved",
  "Exact arithmetic; for a segment with equal end points the code divides by 0 and the result is not a number (C52_segment_point_degenerate)."
 ],
 "C53": [
  "partial",
  "Exact arithmetic. Proved: exactly parallel objects (rays: same direction), and non-parallel objects whose closest points relative to the whole line of the ray lie on the ray and are not within the snapping threshold of an end; for every non-parallel ray and line, and for rays and segments outside the snapping threshold, exactly which two points are returned (the ray parameter is clamped to 0 without choosing the other point anew); in all non-parallel cases the result is the distance of two points of the objects but not always the smallest. Refuted in general: clamping without recomputing the other parameter, opposite rays, short segments."
 ],
 "C54": [
  "partial",
  "Exact result proved in all cases; deviates from the property for near-parallel rays (sine at most 1/1000) and points up to 1/1000 behind the origin, both refuted with witnesses."
 ],
 "C55": [
  "partial",
  "Sound and complete when the determinant exceeds the tolerance; smaller triangles are never hit (refuted)."
 ],
 "C56": [
  "partial",
  "Full for origins outside. Inside: proved for directions without zero component; zero components and origins on the surface refuted."
 ],
 "C57": [
  "partial",
  "Sphere: full except for origins on the surface (refuted). Torus: full under the condition that no number tested by the quartic solver is within its tolerance without being zero; origin on the surface refuted."
 ],
 "C58": [
  "partial",
  "Full when the sine of the angle exceeds 1/1000; nearly parallel planes refuted."
 ],
 "C59": [
  "partial",
  "Polygons of any shape in any plane: away from the boundary, and if no vertex is level with the point, a point is accepted exactly if the winding number of the polygon around it (total signed angle divided by 2 pi) is odd; likewise the intersection with a ray. Strictly convex polygons: points of the polygon are accepted also near the boundary. A point level with a vertex is misclassified (refuted)."
 ],
 "C61": [
  "partial",
  "First vertex least, invert, total order, hasVertex, center, translate, transform proved; rotation equality needs distinct vertices (refuted with repeated ones); converting to a narrower type breaks the normal form (refuted); 'fewer vertices is less' of the comment on compare is refuted."
 ],
 "C62": [
  "partial",
  "Swapping negates: proved. 0 exactly for same order, reverse order or polygons differing only in the second vertex: proved for polygons with distinct vertices. The full property is refuted by two triangles that differ in the second vertex."
 ],
 "C64": [
  "partial",
  "Over the reals: trichotomy, unions and agreement of the operand orders for numbers, and equality for lists, vectors, matrices and lines. Over IEEE numbers of every format: trichotomy and unions with the approx on the right. Refuted: agreement of the operand orders under rounding, trichotomy for vectors."
 ],
 "C65": [
  "proved",
  "Over the reals: value, corners, convex hull, bounding box, affine maps."
 ],
 "C71": [
  "proved",
  "Operators over IEEE numbers of every format; is_equal with an epsilon over the reals."
 ],
 "C63": [
  "partial",
  "parse of vectors and matrices is proved in full for every reading function that stops at blanks and every printing function that prints no blanks; parse_all is proved for printed lists (parenthesised vectors with any separators, bare vectors followed by white space), and refuted for lists that match the documented syntax but have a comma directly after a number or a space before ')'; that string_views are read past their end is proved too"
 ],
 "C74": [
  "proved",
  "for every way of printing numbers without blanks"
 ],
 "C60": [
  "partial",
  "Proved for coplanar points one of which spans, with the first two, a triangle whose doubled area squared exceeds the code's tolerance 0.00001, for any std::sort that meets its specification: the result is a convex polygon of given points that contains all points. It is empty exactly if there is no such point. The full statement is refuted: the first two points equal gives the empty hull, so does a small triangle, and a point in the middle of an edge is returned as a vertex. For points that are not in one plane the result is proved to be the hull of the points seen along the axis closest to the normal of the first triangle, in counter-clockwise order."
 ],
 "C70": [
  "proved",
  "For all binary formats with at least 4 digits and emax >= prec + 4, so float and double. Termination by showing that the iteration decreases to the two neighbours of the root and cannot alternate between them. C70_nearest_refuted: sqrt_c(2.0) is not std::sqrt(2.0)."
 ],
 "C75": [
  "proved",
  "Termination for all vectors. Each function returns what its run time counterpart returns with std::sqrt replaced by a machine number next to the exact root."
 ],
 "C76": [
  "proved",
  "For every component type, in particular IEEE numbers; the failures are the undefined conversions to an integer and the assertions of the scalar functions."
 ],
 "C77": [
  "proved",
  "is_integral for components below 2^63 - 1 in absolute value, as the rounding goes through a 64 bit integer."
 ],
 "C78": [
  "proved",
  "For every component type."
 ],
 "C79": [
  "proved",
  "The conversion for every two IEEE formats, float and double in particular."
 ],
 "C80": [
  "proved",
  "The == of quaternions is C38."
 ],
 "C81": [
  "proved",
  "Exact arithmetic."
 ],
 "C82": [
  "proved",
  "Exact arithmetic."
 ],
 "C83": [
  "proved",
  "Textbook error bound for inner products of any dimension; relative error of lengths for vectors whose length is neither tiny nor huge (the hypothesis is part of the claim)."
 ],
 "C84": [
  "partial",
  "Proved for vectors of moderate length (2^(4-emax/2) to 2^(emax/2-1)); refuted outside: the squared length underflows or overflows."
 ],
 "C85": [
  "proved",
  "Error bound and status for any dimension."
 ],
 "C86": [
  "partial",
  "Size proved. Center proved if no sum of corners overflows; refuted if one does."
 ],
 "C87": [
  "proved",
  "All values, including infinities and NaN."
 ],
 "C88": [
  "proved",
  "exact in every IEEE format for finite operands"
 ],
 "C89": [
  "proved",
  "error bounds for every IEEE format"
 ],
 "C90": [
  "proved",
  "error bounds for every IEEE format"
 ],
 "C91": [
  "partial",
  "end points exact; staying between x and y is refuted (mix(3,3,1/5) > 3), the error is bounded instead"
 ],
 "C92": [
  "partial",
  "vec::min() for floating point types is refuted (smallest positive normal number); everything else is proved."
 ],
 "C93": [
  "proved",
  "Double precision; the angle conversions hold for every math library because they use only pi()."
 ],
 "C94": [
  "partial",
  "Missing: signed dot and cross products whose value is representable although an intermediate result is not; that is refuted (C94_signed_products_refuted)."
 ],
 "C95": [
  "partial",
  "Missing: is_equal and center near the limits of the type; refuted (C95_unsigned_equal_refuted, C95_signed_center_refuted, C95_unsigned_center_refuted)."
 ],
 "C96": [
  "proved",
  "All floating point formats and integer widths; the model of static_cast between floats is F_conv (round to nearest even)."
 ],
 "C97": [
  "proved",
  "For every IEEE format, by running the model on machine numbers and on exact numbers in parallel; hypotheses bound the integers so that the exact result fits the mantissa."
 ],
 "C98": [
  "proved",
  ""
 ],
 "C99": [
  "proved",
  ""
 ],
 "C100": [
  "partial",
  "Exact arithmetic. Everything in the statement is proved for all rigid motions; what is partial is segment::contains and the distance of a ray and a segment, which are kept only if the motion does not exchange the ends of the segment (refuted otherwise)."
 ],
 "C101": [
  "partial",
  "Points, rays, lines and segments in full. Planes: proved for similarities, refuted in general. Boxes: proved as inclusion, equality refuted."
 ],
 "C102": [
  "partial",
  "convex_hull can fail its assertion in double precision (C102_hull_refuted); it returns if the comparison by angle orders the points"
 ],
 "C103": [
  "partial",
  "proved for lists whose first two points span a triangle with some other point; otherwise the result is empty, which depends on the order (C103_order_refuted)"
 ],
 "C104": [
  "proved",
  ""
 ],
 "C105": [
  "proved",
  ""
 ],
 "C106": [
  "partial",
  "Proved for vectors of length 1 up to a few roundings, up to stated errors, for every library of the stated accuracy. For vectors that merely pass the assertion of unit length up to 0.001 it is refuted: the constructor can fail its next assertion."
 ],
 "C107": [
  "partial",
  "Proved up to stated errors, for edges that are not extremely short. The full statement, that the three points have status inside, is refuted in double and in single precision for points that are almost on a line."
 ],
 "C108": [
  "proved",
  "For a finite result and coefficients below the overflow threshold of the elimination. That success implies invertibility and that large coefficients are solved is refuted (C108_success_refuted, C108_large_refuted)."
 ],
 "C109": [
  "proved",
  "Products, rotations, sequences of any length, agreement of product and step by step, axis and angle."
 ],
 "C110": [
  "partial",
  "forward iteration proved; reverse iteration visits the vertices in forward order and is refuted for every polygon whose first and last vertices differ"
 ],
 "C111": [
  "proved",
  "In every IEEE format with at least 20 bits: points and boxes under affine matrices and the rotation matrices, with explicit error bounds."
 ],
 "C112": [
  "partial",
  "Complete for rays that cross the face farther than the rounding error from its edges; a ray through an edge and the middle of the box is missed (refuted in double precision), as are directions with a zero from inside (C56)."
 ],
 "C113": [
  "proved",
  "binary32 and binary64 (and every format of at least 20 bits), origins, centers and radii of up to M with 4096 M^2 representable, directions of unit length up to rounding. The bound is on the squared distance from the center. The exact counterpart is C57."
 ],
 "C114": [
  "partial",
  "binary32 and binary64 (and every format of at least 20 bits). Missing: rays that meet the triangle within the error of its sides, which can be missed even by both triangles at a shared edge (C114_edge_refuted), and rays almost parallel to the triangle, which the function does not consider. The exact counterpart is C55."
 ],
 "C115": [
  "partial",
  "For angles of the planes not smaller than the root of the rounding error, the result is a line along and on both planes with explicit bounds, or the default line and the angle is about 1/1000 or less. For nearly parallel planes the statement is refuted: the result can be a line far from the first plane (C115_nearly_parallel_refuted)."
 ],
 "C116": [
  "partial",
  "For all polygons of machine numbers and all points with a margin of about the tolerance plus 100uM, the result is the parity of the winding number of the polygon seen along the axis; with an axis or a normal. Refuted for points at the height of a vertex, as in exact arithmetic (C116_level_refuted)."
 ],
 "C117": [
  "partial",
  "Proved for rays, and for segments whose squared length does not underflow; refuted for shorter segments, where the distance is NaN."
 ],
 "C118": [
  "partial",
  "C118_hit_partial leaves out points at or close to the height of a vertex; for these the full statement is refuted by C118_level_refuted."
 ],
 "C119": [
  "proved",
  ""
 ],
 "C120": [
  "proved",
  ""
 ],
 "C121": [
  "proved",
  ""
 ],
 "C122": [
  "proved",
  "27uM against the exact surface, the bounding box up to the same error, and exact interpolation of the corners."
 ],
 "C123": [
  "proved",
  "N^2 u relative to N! M^N for the determinant of every size, N^2+2 for the entries of the adjugate."
 ],
 "C124": [
  "proved",
  "Count, residual and distance to the exact solutions, with explicit rounding errors; a witness shows that the condition on the tolerance is needed."
 ],
 "C125": [
  "proved",
  "Rays, lines and planes transformed by affine matrices in IEEE arithmetic, with bounds on origin, direction, points and distance."
 ],
 "C126": [
  "proved",
  "Segments, polygons and boxes moved in IEEE arithmetic, for any number of vertices."
 ]
}