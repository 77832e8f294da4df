{"id": "C01", "title": "Exact vector comparison is a total order with NaN on top", "statement": "compare(lhs, rhs) with epsilon 0 returns -1, 0 or 1, is the lexicographic order of the components in which NaN equals NaN and sorts above every number, is antisymmetric (swapping the arguments negates the result) and transitive; hence operator< is a strict weak order whose equivalence is operator==, and operator<=, >, >= are the derived relations.", "quantifier": "all vectors of every dimension over IEEE-754 numbers of any precision, including NaN, infinities and signed zeros", "why_tests_cant": "transitivity and antisymmetry range over all pairs and triples of vectors; std::map, std::sort and the segment/polygon invariants rely on them for every key", "anchors": [{"file": "include/vecmath/vec.h", "symbols": ["compare", "operator<", "operator==", "operator<=", "operator>", "operator>="]}]}
{"id": "C02", "title": "Comparison of vector ranges is a total order", "statement": "compare(begin1,end1,begin2,end2) with epsilon 0 orders sequences of vectors lexicographically: the sign of the first differing pair decides, a proper prefix is smaller than its extension, and 0 is returned exactly for elementwise equal sequences of equal length; it is antisymmetric and transitive.", "quantifier": "all pairs and triples of finite sequences of vectors, of any lengths", "why_tests_cant": "sequence lengths are unbounded and the order laws quantify over triples", "anchors": [{"file": "include/vecmath/vec.h", "symbols": ["compare"]}]}
{"id": "C03", "title": "Epsilon equality is symmetric and bounded by epsilon", "statement": "is_equal(a,b,eps) for scalars holds exactly when the computed |a-b| is at most eps, is symmetric and reflexive for finite values; for vectors, is_equal(a,b,eps) in exact arithmetic holds exactly when every component differs by at most eps, and is symmetric.", "quantifier": "all scalars and vectors of every dimension and all non-negative eps", "why_tests_cant": "the tolerance and the operands are continuous parameters", "anchors": [{"file": "include/vecmath/scalar.h", "symbols": ["is_equal"]}, {"file": "include/vecmath/vec.h", "symbols": ["is_equal", "compare"]}]}
{"id": "C04", "title": "min, max, clamp, contains select the right value", "statement": "Variadic min/max return one of their arguments that is <= / >= all of them when none is NaN; clamp(v,lo,hi) with lo<=hi returns lo, v or hi, lies in [lo,hi] and is v when v is inside; contains(v,s,e) holds exactly when v lies between s and e in either order; abs_min/abs_max select by absolute value.", "quantifier": "all non-NaN values, argument lists of any length", "why_tests_cant": "variadic lists have no bound and the values range over all numbers", "anchors": [{"file": "include/vecmath/scalar.h", "symbols": ["min", "max", "abs_min", "abs_max", "clamp", "contains"]}, {"file": "include/vecmath/vec.h", "symbols": ["min", "max", "abs_min", "abs_max", "clamp"]}]}
{"id": "C05", "title": "safe_min and safe_max ignore NaN", "statement": "safe_min/safe_max over any argument list return NaN only if every argument is NaN; otherwise they return the least/greatest of the non-NaN arguments. Plain min/max do not have this property: their result depends on the position of the NaN.", "quantifier": "all argument lists of any length over IEEE numbers with NaNs in any positions", "why_tests_cant": "NaN placement combinations grow exponentially with the list", "anchors": [{"file": "include/vecmath/scalar.h", "symbols": ["safe_min", "safe_max", "min", "max"]}]}
{"id": "C06", "title": "trunc, floor, ceil are exact integer parts", "statement": "For every finite IEEE number of magnitude below 2^63, trunc/floor/ceil return, without rounding error, the integer nearest towards zero / the largest integer not above / the smallest integer not below; for NaN, infinities and larger magnitudes the int64 conversion is undefined behaviour.", "quantifier": "all IEEE numbers of every precision", "why_tests_cant": "2^64 doubles; the boundary between defined and undefined behaviour is a single bit pattern", "anchors": [{"file": "include/vecmath/scalar.h", "symbols": ["trunc", "floor", "ceil", "fract"]}]}
{"id": "C07", "title": "round returns the nearest integer", "statement": "round(v) returns an integer at distance at most 1/2 from v (ties away from zero).", "quantifier": "all numbers in the int64 range", "why_tests_cant": "the contract is wrong only at isolated bit patterns (0.49999999999999994, odd integers above 2^52)", "anchors": [{"file": "include/vecmath/scalar.h", "symbols": ["round", "round_up", "round_down"]}]}
{"id": "C08", "title": "Snapping hits the grid within half a cell", "statement": "snap/snapUp/snapDown(v, grid) with grid>0 return an integer multiple of the grid: the nearest one (distance at most grid/2), the next one of larger-or-equal magnitude, and the last one of smaller-or-equal magnitude respectively; snapping is idempotent.", "quantifier": "all values and all positive grids, exact arithmetic", "why_tests_cant": "two continuous parameters", "anchors": [{"file": "include/vecmath/scalar.h", "symbols": ["snap", "snapUp", "snapDown"]}, {"file": "include/vecmath/vec.h", "symbols": ["snap", "snapUp", "snapDown"]}]}
{"id": "C09", "title": "mod, fract and angle normalisation", "statement": "mod(x,y) has the sign of x, magnitude below |y| and differs from x by an integer multiple of y; fract(v) is v minus its integer part; normalize_degrees/normalize_radians terminate for every finite angle and return an angle in [0,360) / [0,2*pi) congruent to the argument.", "quantifier": "all finite angles, exact arithmetic; termination also for IEEE numbers", "why_tests_cant": "the loop count is unbounded in the magnitude of the angle", "anchors": [{"file": "include/vecmath/scalar.h", "symbols": ["mod", "fract", "normalize_radians", "normalize_degrees"]}]}
{"id": "C10", "title": "correct() rounds to the given number of decimals", "statement": "correct(v, decimals, eps) returns a value with at most the given number of decimals that differs from v by less than eps if there is one, and v otherwise.", "quantifier": "all values, numbers of decimals and epsilons", "why_tests_cant": "three independent parameters", "anchors": [{"file": "include/vecmath/scalar.h", "symbols": ["correct"]}, {"file": "include/vecmath/vec.h", "symbols": ["correct"]}]}
{"id": "C11", "title": "succ and pred step cyclically and are inverse", "statement": "For an index below count, succ and pred return an index below count, are addition / subtraction of the stride modulo count, and undo one another, without overflow as long as index+stride and index+count fit the integer type.", "quantifier": "all counts, indices and strides of an unsigned 64-bit type", "why_tests_cant": "three unbounded integer parameters and wrap-around", "anchors": [{"file": "include/vecmath/scalar.h", "symbols": ["succ", "pred"]}]}
{"id": "C12", "title": "sign, step, mix, smoothstep", "statement": "sign returns -1/0/1 by comparison with zero; step(e,v) is the 0/1 threshold; mix interpolates linearly between its endpoints; smoothstep is 0 at and below e0, 1 at and above e1, lies in [0,1] and is monotone in v.", "quantifier": "all arguments (e0<e1), exact arithmetic", "why_tests_cant": "continuous parameters, monotonicity quantifies over pairs", "anchors": [{"file": "include/vecmath/scalar.h", "symbols": ["sign", "step", "mix", "smoothstep"]}, {"file": "include/vecmath/vec.h", "symbols": ["sign", "step", "mix", "smoothstep"]}]}
{"id": "C13", "title": "abs_difference is the distance between its arguments", "statement": "abs_difference(a,b) equals |a-b|.", "quantifier": "all signed and unsigned scalars", "why_tests_cant": "tests use same-signed arguments; the claim is about all pairs", "anchors": [{"file": "include/vecmath/scalar.h", "symbols": ["abs_difference"]}]}
{"id": "C14", "title": "Quadratic solver is sound and complete", "statement": "solve_quadratic(a,b,c) with a nonzero reports exactly the distinct real roots when the reduced discriminant is zero or exceeds eps: every reported value is a root, every root is reported, and the count is right; a negative discriminant beyond eps gives none.", "quantifier": "all real coefficients with a != 0", "why_tests_cant": "continuous parameters; completeness quantifies over all roots", "anchors": [{"file": "include/vecmath/scalar.h", "symbols": ["solve_quadratic"]}]}
{"id": "C15", "title": "Cubic solver is sound and complete", "statement": "solve_cubic(a,b,c,d) with a nonzero reports exactly the distinct real roots when the discriminant is zero or exceeds eps in magnitude.", "quantifier": "all real coefficients with a != 0", "why_tests_cant": "continuous parameters; completeness quantifies over all roots", "anchors": [{"file": "include/vecmath/scalar.h", "symbols": ["solve_cubic"]}]}
{"id": "C16", "title": "Quartic solver is sound and complete", "statement": "solve_quartic reports a count and that many values which are all roots of the quartic, and misses none.", "quantifier": "all real coefficients with a != 0", "why_tests_cant": "fails only for particular combinations of root multiplicities of the two quadratic factors", "anchors": [{"file": "include/vecmath/scalar.h", "symbols": ["solve_quartic"]}]}
{"id": "C17", "title": "constexpr sort sorts", "statement": "detail::sort terminates, touches only elements in the given range, and leaves a permutation of the input that is sorted by the comparator, for every strict weak order.", "quantifier": "all arrays of any length and all strict weak orders", "why_tests_cant": "array length and comparator are unbounded", "anchors": [{"file": "include/vecmath/constexpr_util.h", "symbols": ["sort", "swap"]}]}
{"id": "C18", "title": "k-th largest component selection", "statement": "find_max_component(v,k) / find_abs_max_component(v,k) return a valid index, distinct k give distinct indices, and the component at index for k is the (k+1)-th largest (by value / by magnitude); get_max_component, get_abs_max_component and get_abs_max_component_axis agree with it, and the axis vector has the sign of the selected component.", "quantifier": "all vectors of every dimension and all k below the dimension", "why_tests_cant": "dimension and component values unbounded; relies on the sort", "anchors": [{"file": "include/vecmath/vec.h", "symbols": ["find_max_component", "find_abs_max_component", "get_max_component", "get_abs_max_component", "get_abs_max_component_axis", "sort_vector"]}]}
{"id": "C19", "title": "Componentwise vector arithmetic is a vector space", "statement": "Vector addition, subtraction, negation and scaling act componentwise and satisfy the vector space laws in exact arithmetic; addition and dot product are commutative even in IEEE arithmetic.", "quantifier": "all vectors of every dimension", "why_tests_cant": "algebraic laws quantify over all operands", "anchors": [{"file": "include/vecmath/vec.h", "symbols": ["operator+", "operator-", "operator*", "operator/", "dot"]}]}
{"id": "C20", "title": "dot, cross and length are Euclidean", "statement": "dot is symmetric, bilinear and positive definite; cross is bilinear, antisymmetric, orthogonal to both factors, and |cross|^2 + dot^2 = |a|^2|b|^2; squared_length is dot with itself, length its root; distance is a metric (symmetric, zero only for equal points, triangle inequality).", "quantifier": "all real vectors (cross: 3 dimensions; the rest: every dimension)", "why_tests_cant": "identities over continuous operands of unbounded dimension", "anchors": [{"file": "include/vecmath/vec.h", "symbols": ["dot", "cross", "squared_length", "length", "distance", "squared_distance"]}]}
{"id": "C21", "title": "normalize yields a unit vector in the same direction", "statement": "normalize(v) of a nonzero vector has length 1 and is a positive multiple of v; for the zero vector every component is NaN.", "quantifier": "all real vectors of every dimension", "why_tests_cant": "continuous operands of unbounded dimension", "anchors": [{"file": "include/vecmath/vec.h", "symbols": ["normalize", "is_unit", "is_zero", "is_nan"]}]}
{"id": "C22", "title": "swizzle and unswizzle are inverse", "statement": "unswizzle(swizzle(p,a),a) = p = swizzle(unswizzle(p,a),a) and swizzle moves the component named by the axis into the last position cyclically.", "quantifier": "all points and all axis indices", "why_tests_cant": "quantifies over all scalar payloads including NaN", "anchors": [{"file": "include/vecmath/vec.h", "symbols": ["swizzle", "unswizzle"]}]}
{"id": "C23", "title": "Homogeneous coordinates round trip", "statement": "to_cartesian(to_homogeneous(p)) is p bit for bit in IEEE arithmetic (NaN included), in every dimension; to_cartesian divides by the last component.", "quantifier": "all vectors of every dimension over IEEE numbers", "why_tests_cant": "claims bit equality for all payloads", "anchors": [{"file": "include/vecmath/vec.h", "symbols": ["to_homogeneous", "to_cartesian"]}]}
{"id": "C24", "title": "is_colinear and is_parallel", "statement": "With epsilon 0, is_colinear(a,b,c) holds exactly if the three points lie on a common line (in every dimension), and with positive epsilon exactly if |ac|^2|ab|^2 - (ac.ab)^2 <= eps; is_parallel of nonzero vectors holds exactly when the cosine of their angle is within eps of 1 or -1.", "quantifier": "all points of every dimension", "why_tests_cant": "the equality case of Cauchy-Schwarz for all dimensions", "anchors": [{"file": "include/vecmath/vec.h", "symbols": ["is_colinear", "is_parallel"]}]}
{"id": "C25", "title": "is_between", "statement": "For p colinear with s and e, is_between(p,s,e) is true exactly if p lies on the closed segment from s to e (s = e included).", "quantifier": "all points of every dimension", "why_tests_cant": "continuous operands", "anchors": [{"file": "include/vecmath/vec.h", "symbols": ["is_between"]}]}
{"id": "C26", "title": "average is the arithmetic mean", "statement": "average of a non-empty range is the componentwise sum divided by the number of elements, lies in the bounding box of the elements, and does not depend on their order in exact arithmetic.", "quantifier": "all non-empty sequences of vectors of every dimension", "why_tests_cant": "sequence length unbounded", "anchors": [{"file": "include/vecmath/vec.h", "symbols": ["average"]}]}
{"id": "C27", "title": "Matrix algebra laws", "statement": "Matrix addition, scaling and product satisfy the ring laws; the product is associative, the default-constructed matrix is its identity, (A*B)*v = A*(B*v), v*(A*B) = (v*A)*B, and transpose reverses products.", "quantifier": "all matrices of every conforming size, exact arithmetic", "why_tests_cant": "sizes and entries unbounded", "anchors": [{"file": "include/vecmath/mat.h", "symbols": ["operator*", "operator+", "operator-", "identity", "transpose"]}]}
{"id": "C28", "title": "transpose swaps rows and columns", "statement": "transpose(m)[c][r] = m[r][c] for every square matrix, and transposing twice gives back the matrix, for any payload.", "quantifier": "all square matrices of every size over IEEE numbers", "why_tests_cant": "in-place swap loop, size unbounded", "anchors": [{"file": "include/vecmath/mat.h", "symbols": ["transpose", "slice", "extract_minor", "set"]}]}
{"id": "C29", "title": "Determinant is the determinant", "statement": "compute_determinant equals the Leibniz determinant for every size, including the hand-written 1x1, 2x2 and 3x3 cases; hence it is multiplicative, invariant under transposition and zero exactly for singular matrices.", "quantifier": "all square matrices of every size, exact arithmetic", "why_tests_cant": "size unbounded; tests check a few literals", "anchors": [{"file": "include/vecmath/mat.h", "symbols": ["compute_determinant", "extract_minor"]}]}
{"id": "C30", "title": "Adjugate", "statement": "m * compute_adjugate(m) = compute_adjugate(m) * m = det(m) * identity.", "quantifier": "all square matrices of every size >= 2, exact arithmetic", "why_tests_cant": "size unbounded", "anchors": [{"file": "include/vecmath/mat.h", "symbols": ["compute_adjugate"]}]}
{"id": "C31", "title": "LUP decomposition and linear solver", "statement": "If lup_find_decomposition succeeds, the permuted input matrix is the product of the unit lower and the upper triangular factor it stores; if lup_solve succeeds its result solves A*x=b.", "quantifier": "all square matrices of every size and all right-hand sides, exact arithmetic", "why_tests_cant": "triple loop with pivoting over unbounded size", "anchors": [{"file": "include/vecmath/mat.h", "symbols": ["lup_find_decomposition", "lup_solve", "lup_solve_internal"]}]}
{"id": "C32", "title": "invert returns the two-sided inverse", "statement": "If invert reports success the result is the two-sided inverse; it never reports success for a singular matrix; and it reports success for every invertible matrix.", "quantifier": "all square matrices of every size, exact arithmetic", "why_tests_cant": "the failure is a threshold on pivots, 1e-15", "anchors": [{"file": "include/vecmath/mat.h", "symbols": ["invert"]}]}
{"id": "C33", "title": "Constant rotation and mirror matrices", "statement": "The predefined rot_90/rot_180/mirror matrices are orthogonal, act on a point as the named rotation or reflection, and compose as the names say (rot_90 twice is rot_180, cw undoes ccw, mirror twice is identity).", "quantifier": "all points", "why_tests_cant": "action on all points", "anchors": [{"file": "include/vecmath/mat.h", "symbols": ["rot_90_x_cw", "rot_90_x_ccw", "rot_180_x", "mirror_x", "mirror_y", "mirror_z"]}]}
{"id": "C34", "title": "Affine matrices act as documented", "statement": "translation_matrix(d)*p = p+d; scaling_matrix(f)*p scales componentwise; strip_translation removes exactly the translation; translation and strip recompose affine matrices; shear_matrix and mirror_matrix act as named; translation matrices compose additively and invert by negation.", "quantifier": "all points, offsets, factors; every dimension for translation and scaling", "why_tests_cant": "continuous parameters", "anchors": [{"file": "include/vecmath/mat_ext.h", "symbols": ["translation_matrix", "strip_translation", "scaling_matrix", "shear_matrix", "mirror_matrix"]}]}
{"id": "C35", "title": "Rotation matrices are rotations", "statement": "rotation_matrix(axis,angle) with unit axis is orthogonal with determinant 1, fixes the axis, is the Rodrigues rotation by the angle, angles add up under composition, and agrees with the rotation of the quaternion built from the same axis and angle; rotation_matrix(roll,pitch,yaw) is a rotation.", "quantifier": "all unit axes and all angles, exact arithmetic", "why_tests_cant": "continuous parameters and trigonometric identities", "anchors": [{"file": "include/vecmath/mat_ext.h", "symbols": ["rotation_matrix"]}, {"file": "include/vecmath/quat.h", "symbols": ["quat", "operator*"]}]}
{"id": "C36", "title": "Euler angles round trip", "statement": "rotation_matrix applied to euler_angles of a rotation matrix gives back the same matrix, also in gimbal lock, whether it was built from roll, pitch and yaw, an axis or a quaternion. The angles are in (-pi, pi], [-pi/2, pi/2] and (-pi, pi], and angles inside these ranges come back themselves.", "quantifier": "all roll, pitch, yaw; all orthogonal matrices of determinant 1 without translation", "why_tests_cant": "gimbal lock is a measure-zero set", "anchors": [{"file": "include/vecmath/mat_ext.h", "symbols": ["euler_angles", "rotation_matrix"]}]}
{"id": "C37", "title": "Quaternion product and rotation", "statement": "The quaternion product is associative, norm-multiplicative and conjugation reverses it; a unit quaternion's action on vectors preserves length, dot and cross products, and the action of a product is the composition of the actions.", "quantifier": "all quaternions and vectors, exact arithmetic", "why_tests_cant": "continuous operands", "anchors": [{"file": "include/vecmath/quat.h", "symbols": ["operator*", "conjugate", "quat"]}, {"file": "include/vecmath/mat_ext.h", "symbols": ["rotation_matrix"]}]}
{"id": "C38", "title": "Quaternion equality and negation describe the same rotation", "statement": "Two quaternions that compare equal rotate every vector the same way, and a quaternion and its negation (all four components negated) compare equal because they describe the same rotation; operator- returns that negation and scalar multiplication scales all components.", "quantifier": "all quaternions", "why_tests_cant": "relational claim over all pairs", "anchors": [{"file": "include/vecmath/quat.h", "symbols": ["is_equal", "operator==", "operator-", "operator*"]}]}
{"id": "C39", "title": "Quaternion from two vectors rotates one onto the other", "statement": "quat(from,to) of unit vectors rotates from onto to.", "quantifier": "all pairs of unit vectors", "why_tests_cant": "special-cased near-parallel and opposite configurations", "anchors": [{"file": "include/vecmath/quat.h", "symbols": ["set_rotation", "quat"]}, {"file": "include/vecmath/mat_ext.h", "symbols": ["rotation_matrix"]}]}
{"id": "C40", "title": "Bounding box from points is the smallest one", "statement": "A builder fed any sequence of points and boxes, merge_all of any non-empty range, and merge of a box with a point or box return the smallest box containing everything that was added, independent of order; a builder to which nothing was added returns an empty box at the origin.", "quantifier": "all histories of add calls of any length over non-NaN points", "why_tests_cant": "histories are unbounded", "anchors": [{"file": "include/vecmath/bbox.h", "symbols": ["builder", "merge_all", "merge"]}]}
{"id": "C41", "title": "Bounding box predicates are set relations", "statement": "contains(point), contains(box), encloses and intersects hold exactly when the corresponding relation holds between the sets of points; intersect returns exactly the common points when the boxes intersect.", "quantifier": "all valid boxes and points of every dimension over non-NaN IEEE numbers", "why_tests_cant": "set relations quantify over all points of the boxes", "anchors": [{"file": "include/vecmath/bbox.h", "symbols": ["contains", "encloses", "intersects", "intersect"]}]}
{"id": "C42", "title": "constrain, relative_position, repair, translate, expand", "statement": "constrain returns the componentwise nearest point of the box (itself if inside); relative_position tells less/within/greater per axis; repair makes any pair of corners a valid box spanning them; translate and expand move the sides as named.", "quantifier": "all boxes and points of every dimension", "why_tests_cant": "continuous operands, unbounded dimension", "anchors": [{"file": "include/vecmath/bbox.h", "symbols": ["constrain", "relative_position", "repair", "translate", "expand", "center", "size", "volume"]}]}
{"id": "C43", "title": "Box vertices, edges and faces", "statement": "vertices() lists the eight corners once each, for_each_edge the twelve edges, for_each_face the six faces with outward normals and clockwise vertex order.", "quantifier": "all three-dimensional boxes", "why_tests_cant": "quantifies over all boxes; in IEEE arithmetic the corners computed from max minus size can differ from min", "anchors": [{"file": "include/vecmath/bbox.h", "symbols": ["vertices", "for_each_vertex", "for_each_edge", "for_each_face"]}]}
{"id": "C44", "title": "Transformed box contains the transformed contents", "statement": "transform(m) of a box with an affine matrix returns a box that contains the image of every point of the box and is the smallest box containing the images of the corners.", "quantifier": "all boxes and all affine matrices, exact arithmetic", "why_tests_cant": "quantifies over all interior points", "anchors": [{"file": "include/vecmath/bbox.h", "symbols": ["transform"]}]}
{"id": "C45", "title": "Segments are stored in canonical order", "statement": "For every segment its start is not greater than its end, whichever constructor produced it, and the two argument orders construct the same segment; transform and translate keep this.", "quantifier": "all pairs of points over non-NaN IEEE numbers, all constructors including precision conversion", "why_tests_cant": "the invariant must survive every construction history", "anchors": [{"file": "include/vecmath/segment.h", "symbols": ["segment", "transform", "translate", "compare"]}]}
{"id": "C46", "title": "segment.contains", "statement": "contains(p, d) holds exactly for the points whose distance from the segment is at most d.", "quantifier": "all segments, points and distances", "why_tests_cant": "fails only near the segment's ends", "anchors": [{"file": "include/vecmath/segment.h", "symbols": ["contains", "segment"]}]}
{"id": "C47", "title": "Lines compare equal exactly when they are the same point set", "statement": "make_canonical returns the same line in a normal form that is the same for all representations, is idempotent, and operator== on lines holds exactly if the lines contain the same points.", "quantifier": "all lines with unit direction in every dimension, exact arithmetic", "why_tests_cant": "a line has infinitely many representations", "anchors": [{"file": "include/vecmath/line.h", "symbols": ["make_canonical", "operator==", "is_equal"]}]}
{"id": "C48", "title": "Projection onto a line is the nearest point", "statement": "project_point returns the point of the line nearest to the argument, distance_to_projected_point its signed parameter, point_at_distance inverts it; for rays point_status classifies by the sign of the parameter.", "quantifier": "all lines with unit direction and all points, every dimension", "why_tests_cant": "nearest quantifies over all points of the line", "anchors": [{"file": "include/vecmath/abstract_line.h", "symbols": ["project_point", "point_at_distance", "distance_to_projected_point"]}, {"file": "include/vecmath/ray.h", "symbols": ["point_status"]}]}
{"id": "C49", "title": "Plane queries", "statement": "point_distance is the signed distance; point_status classifies it; project_point returns the nearest plane point; at/xAt/yAt/zAt return the missing coordinate of a plane point; flip swaps above and below exactly in IEEE arithmetic; anchor lies on the plane.", "quantifier": "all planes and points", "why_tests_cant": "continuous operands, bit-level symmetry for flip", "anchors": [{"file": "include/vecmath/plane.h", "symbols": ["point_distance", "point_status", "project_point", "at", "flip", "anchor"]}]}
{"id": "C50", "title": "Plane transformation", "statement": "plane.transform(m) contains the image under m of every point of the plane.", "quantifier": "all planes and all invertible affine matrices", "why_tests_cant": "quantifies over all plane points and all matrices", "anchors": [{"file": "include/vecmath/plane.h", "symbols": ["transform"]}]}
{"id": "C51", "title": "Plane from three points", "statement": "from_points of three points returns a plane with unit normal through all three, oriented by the right-hand rule as documented, or false exactly if they are colinear (within epsilon).", "quantifier": "all triples of points", "why_tests_cant": "continuous operands, degenerate cases", "anchors": [{"file": "include/vecmath/plane.h", "symbols": ["plane_normal", "from_points"]}]}
{"id": "C52", "title": "Point distances are minimal", "statement": "squared_distance(ray,point) and squared_distance(segment,point) return the minimal squared distance over all points of the ray / segment, attained at the returned position.", "quantifier": "all rays with unit direction, all segments and points, every dimension", "why_tests_cant": "minimum over infinitely many points", "anchors": [{"file": "include/vecmath/distance.h", "symbols": ["squared_distance"]}]}
{"id": "C53", "title": "Distances between rays, lines and segments are minimal", "statement": "squared_distance/distance between a ray and a segment, ray or line return the minimal distance and the positions of the closest points.", "quantifier": "all pairs with unit directions", "why_tests_cant": "minimum over two-parameter families; fails when a clamped parameter would require recomputing the other", "anchors": [{"file": "include/vecmath/distance.h", "symbols": ["squared_distance", "distance", "line_distance"]}]}
{"id": "C54", "title": "Ray-plane and line-plane intersection", "statement": "A non-NaN result is the parameter >= 0 of a point of the ray on the plane; NaN is returned exactly when the ray is parallel to or points away from the plane.", "quantifier": "all rays and planes with unit normal, exact arithmetic", "why_tests_cant": "continuous operands", "anchors": [{"file": "include/vecmath/intersection.h", "symbols": ["intersect_ray_plane", "intersect_line_plane"]}]}
{"id": "C55", "title": "Ray-triangle intersection", "statement": "A non-NaN result is the parameter >= 0 of a ray point inside the triangle; NaN is returned only if the ray misses the triangle or is nearly parallel to it.", "quantifier": "all rays and triangles, exact arithmetic", "why_tests_cant": "continuous operands; completeness quantifies over all triangle points", "anchors": [{"file": "include/vecmath/intersection.h", "symbols": ["intersect_ray_triangle"]}]}
{"id": "C56", "title": "Ray-box intersection", "statement": "A non-NaN result is the parameter >= 0 of a ray point on the surface of the box and no earlier surface point exists; NaN is returned exactly when the ray does not meet the surface.", "quantifier": "all rays and boxes, exact arithmetic", "why_tests_cant": "case analysis over origin position and direction components including zeros", "anchors": [{"file": "include/vecmath/intersection.h", "symbols": ["intersect_ray_bbox"]}]}
{"id": "C57", "title": "Ray-sphere and ray-torus intersection", "statement": "A non-NaN result is the parameter >= 0 of the first ray point on the surface; NaN is returned exactly when the ray misses it.", "quantifier": "all rays with unit direction", "why_tests_cant": "completeness quantifies over all surface points", "anchors": [{"file": "include/vecmath/intersection.h", "symbols": ["intersect_ray_sphere", "intersect_ray_torus"]}]}
{"id": "C58", "title": "Plane-plane intersection", "statement": "The returned line lies in both planes and has unit direction; an invalid line is returned exactly if the planes are parallel.", "quantifier": "all pairs of planes with unit normals", "why_tests_cant": "continuous operands", "anchors": [{"file": "include/vecmath/intersection.h", "symbols": ["intersect_plane_plane"]}]}
{"id": "C59", "title": "Point in polygon", "statement": "polygon_contains_point returns true exactly for the points inside or on the boundary of the polygon.", "quantifier": "all polygons and points in the polygon's plane", "why_tests_cant": "number of vertices unbounded; fails when a vertex is level with the point", "anchors": [{"file": "include/vecmath/intersection.h", "symbols": ["polygon_contains_point", "handle_polygon_edge_intersection"]}]}
{"id": "C60", "title": "Convex hull", "statement": "convex_hull returns vertices taken from the input points, in the order of a convex polygon that contains all input points; it is empty exactly if all input points are colinear.", "quantifier": "all sequences of coplanar points of any length", "why_tests_cant": "number and position of points unbounded", "anchors": [{"file": "include/vecmath/convex_hull.h", "symbols": ["convex_hull"]}]}
{"id": "C61", "title": "Polygon normal form", "statement": "A polygon's first vertex is a least vertex; polygons built from rotations of the same vertex sequence are equal; invert is an involution preserving the vertex set; operator< and == form a total order.", "quantifier": "all polygons with any number of vertices over non-NaN IEEE numbers", "why_tests_cant": "unbounded number of vertices", "anchors": [{"file": "include/vecmath/polygon.h", "symbols": ["polygon", "rotate_min_to_front", "invert", "compare", "hasVertex"]}]}
{"id": "C62", "title": "Unoriented polygon comparison", "statement": "compareUnoriented returns 0 exactly if the two polygons have the same vertices in the same or in reverse order, and swapping the arguments negates it.", "quantifier": "all pairs of polygons", "why_tests_cant": "fails only for particular relations between second and last vertices", "anchors": [{"file": "include/vecmath/polygon.h", "symbols": ["compareUnoriented"]}]}
{"id": "C63", "title": "Parsing undoes printing", "statement": "parse<T,S>(to_string(v)) succeeds and returns the vector whose components are read back from the printed components, for vectors and matrices; parse fails exactly if fewer than S tokens are present; parse_all returns every vector of a printed list.", "quantifier": "all vectors and matrices of every size, all separators", "why_tests_cant": "strings are unbounded", "anchors": [{"file": "include/vecmath/vec_io.h", "symbols": ["parse", "parse_all", "operator<<"]}, {"file": "include/vecmath/mat_io.h", "symbols": ["parse", "operator<<"]}]}
{"id": "C64", "title": "approx trichotomy", "statement": "For a non-NaN value and an approx, exactly one of <, ==, > holds, <= and >= are the unions, and the two operand orders agree.", "quantifier": "all values and epsilons", "why_tests_cant": "order laws over all operands; rounding of value +/- epsilon", "anchors": [{"file": "include/vecmath/approx.h", "symbols": ["operator==", "operator<", "operator>", "operator<=", "operator>="]}]}
{"id": "C65", "title": "Bezier surface evaluation", "statement": "evaluate_quadratic_bezier_surface interpolates the corner control points, is a convex combination of the control points for parameters in [0,1] (so stays in their bounding box) and commutes with affine maps.", "quantifier": "all control grids and parameters", "why_tests_cant": "continuous parameters", "anchors": [{"file": "include/vecmath/bezier_surface.h", "symbols": ["evaluate_quadratic_bezier_surface"]}]}
{"id": "C66", "title": "Box and point-set transformation matrices", "statement": "scale_bbox_matrix maps the corners of the old box to those of the new; scale_bbox_matrix_with_anchor keeps the anchor fixed; shear_bbox_matrix keeps the side opposite to the sheared side fixed and moves the sheared side by the delta; points_transformation_matrix maps each given point to its image.", "quantifier": "all boxes and deltas; all point triples/quadruples for which a matrix is found", "why_tests_cant": "continuous parameters", "anchors": [{"file": "include/vecmath/mat_ext.h", "symbols": ["scale_bbox_matrix", "scale_bbox_matrix_with_anchor", "shear_bbox_matrix", "points_transformation_matrix"]}]}
{"id": "C67", "title": "Coordinate systems and projections", "statement": "coordinate_system_matrix maps the offset to the origin and each axis to the matching unit axis; plane_projection_matrix sends plane points to z=0; ortho_matrix and perspective_matrix map their view volume to the unit cube; view_matrix is rigid.", "quantifier": "all non-degenerate parameters", "why_tests_cant": "continuous parameters", "anchors": [{"file": "include/vecmath/mat_ext.h", "symbols": ["coordinate_system_matrix", "plane_projection_matrix", "ortho_matrix", "perspective_matrix", "view_matrix"]}]}
{"id": "C68", "title": "List operations act elementwise", "statement": "Operators between a matrix or vector and a list of vectors return the list of the elementwise results, in order and of the same length.", "quantifier": "all lists of any length", "why_tests_cant": "list length unbounded", "anchors": [{"file": "include/vecmath/mat_ext.h", "symbols": ["operator*"]}, {"file": "include/vecmath/vec_ext.h", "symbols": ["operator+", "operator*", "average"]}]}
{"id": "C69", "title": "measure_angle measures the rotation", "statement": "measure_angle(v, axis, up) for unit vectors with v and axis orthogonal to up is the angle in [0,2*pi) by which axis must be rotated counter-clockwise about up to become v.", "quantifier": "all such triples, exact arithmetic", "why_tests_cant": "continuous parameters; case split on the orientation", "anchors": [{"file": "include/vecmath/vec.h", "symbols": ["measure_angle"]}]}
{"id": "C70", "title": "Constexpr square root terminates", "statement": "sqrt_c(x) terminates for every argument. For a finite argument that is not negative it returns one of the two machine numbers next to the exact square root (not always the nearest one), for a negative one NaN.", "quantifier": "all IEEE numbers", "why_tests_cant": "Newton iteration stops only when two consecutive iterates are equal; oscillation depends on the bit pattern", "anchors": [{"file": "include/vecmath/scalar.h", "symbols": ["sqrt_c", "sqrt_c_nr"]}]}
{"id": "C71", "title": "Matrix comparison", "statement": "operator== of matrices holds exactly if all entries are equal, operator!= is its negation, and is_equal with an epsilon holds exactly if no entry differs by more than the epsilon.", "quantifier": "all matrices of every size over non-NaN IEEE numbers", "why_tests_cant": "a test compares a few matrices; a comparison that skips a row, column or sign case would pass it", "anchors": [{"file": "include/vecmath/mat.h", "symbols": ["operator==", "operator!=", "is_equal"]}]}
{"id": "C72", "title": "Quaternion axis and angle accessors", "statement": "angle() of the quaternion built from a unit axis and an angle in [0, 2*pi] returns that angle, and axis() returns the axis unless the vector part is nearly zero.", "quantifier": "all unit axes and all angles in [0, 2*pi], exact arithmetic", "why_tests_cant": "holds for a continuum of axes and angles", "anchors": [{"file": "include/vecmath/quat.h", "symbols": ["quat::angle", "quat::axis", "quat::quat"]}]}
{"id": "C73", "title": "Transforming lines, rays and segments", "statement": "transform(m) of a line, ray or segment contains exactly the images under m of the points of the original, and its direction has length 1 again.", "quantifier": "all lines, rays and segments in every dimension and all affine matrices that do not map the direction to zero, exact arithmetic", "why_tests_cant": "set equality over infinitely many points and all matrices", "anchors": [{"file": "include/vecmath/line.h", "symbols": ["transform"]}, {"file": "include/vecmath/ray.h", "symbols": ["transform"]}, {"file": "include/vecmath/segment.h", "symbols": ["transform"]}]}
{"id": "C74", "title": "Printed texts are unambiguous", "statement": "If operator<< prints the same text for two vectors, matrices of the same size, boxes, lines, rays or planes, then all their printed components agree.", "quantifier": "all values of every dimension and every way of printing numbers without blanks and parentheses", "why_tests_cant": "a claim about all pairs of values", "anchors": [{"file": "include/vecmath/vec_io.h", "symbols": ["operator<<"]}, {"file": "include/vecmath/mat_io.h", "symbols": ["operator<<"]}, {"file": "include/vecmath/bbox_io.h", "symbols": ["operator<<"]}, {"file": "include/vecmath/line_io.h", "symbols": ["operator<<"]}, {"file": "include/vecmath/ray_io.h", "symbols": ["operator<<"]}, {"file": "include/vecmath/plane_io.h", "symbols": ["operator<<"]}]}
{"id": "C75", "title": "Functions evaluated at compile time", "statement": "length_c, distance_c, normalize_c, is_unit_c, is_parallel_c, is_between_c, segment::length_c and the transform_c of lines, rays and planes terminate for all arguments, and return what their run time counterparts return except that each square root is replaced by a machine number next to the exact root.", "quantifier": "all vectors of IEEE numbers", "why_tests_cant": "termination of the Newton iteration depends on the bit pattern of the squared length", "anchors": [{"file": "include/vecmath/vec.h", "symbols": ["length_c", "normalize_c", "is_unit_c", "distance_c", "is_parallel_c", "is_between_c"]}, {"file": "include/vecmath/segment.h", "symbols": ["segment::length_c"]}, {"file": "include/vecmath/line.h", "symbols": ["transform_c"]}, {"file": "include/vecmath/plane.h", "symbols": ["transform_c"]}]}
{"id": "C76", "title": "Vector functions act on components", "statement": "abs, sign, min, max, abs_min, abs_max, step, smoothstep, mix, floor, ceil, trunc, round, fract, mod, snap, snap_up, snap_down, correct and the arithmetic operators of vectors return the vector of the scalar function's values for the components; they fail exactly if the scalar function fails for some component.", "quantifier": "all vectors of every dimension over every component type", "why_tests_cant": "a test checks one dimension and a few components; an off by one in a loop or a swapped argument can hide", "anchors": [{"file": "include/vecmath/vec.h", "symbols": ["abs", "min", "max", "abs_min", "abs_max", "step", "smoothstep", "mix", "floor", "ceil", "trunc", "round", "fract", "mod", "snap", "snap_up", "snap_down", "correct", "operator+", "operator-", "operator*", "operator/"]}]}
{"id": "C77", "title": "Vector and matrix predicates", "statement": "is_nan holds exactly if some component is NaN; is_zero holds exactly if no component exceeds the epsilon in absolute value, for vectors and matrices; is_integral holds exactly if every component is within the epsilon of an integer.", "quantifier": "all vectors and matrices of every size, is_nan over every component type, the others in exact arithmetic", "why_tests_cant": "ranges over all components, sizes and epsilons", "anchors": [{"file": "include/vecmath/vec.h", "symbols": ["is_nan", "is_zero", "is_integral"]}, {"file": "include/vecmath/mat.h", "symbols": ["is_zero"]}]}
{"id": "C78", "title": "Construction of vectors and matrices", "statement": "The constructors from initializer lists, from vectors of other types and sizes and from a vector and further components, fill, slice, xyz and the converting constructor of matrices copy each component to its place, set missing ones to zero and drop surplus ones; slice asserts that the slice is inside.", "quantifier": "all sizes, offsets and component types", "why_tests_cant": "ranges over all combinations of sizes and offsets", "anchors": [{"file": "include/vecmath/vec.h", "symbols": ["vec::vec", "fill", "slice", "xyz"]}, {"file": "include/vecmath/mat.h", "symbols": ["mat::mat"]}]}
{"id": "C79", "title": "Conversion and equality of boxes", "statement": "Converting a valid box to another floating point type gives a valid box that contains the converted points of the box; a box from two values or from one value contains exactly the points with all components in between, and the values are asserted to be ordered; == compares both corners, != is its negation, and is_equal compares all components up to the epsilon.", "quantifier": "all boxes of every dimension and every two IEEE formats", "why_tests_cant": "rounding to the narrower format must keep min <= max for every pair of numbers", "anchors": [{"file": "include/vecmath/bbox.h", "symbols": ["bbox::bbox", "operator==", "operator!=", "is_equal"]}]}
{"id": "C80", "title": "Equality of rays, planes, segments, quaternions and polygons", "statement": "== holds exactly if all parts are equal and != is its negation; is_equal holds exactly if all parts agree up to the epsilon (the real part of quaternions up to its sign); <=, >, >= of segments agree with < and ==.", "quantifier": "all values of every dimension; operators over IEEE numbers, is_equal in exact arithmetic", "why_tests_cant": "ranges over all pairs of values", "anchors": [{"file": "include/vecmath/ray.h", "symbols": ["operator==", "operator!=", "is_equal"]}, {"file": "include/vecmath/plane.h", "symbols": ["operator==", "operator!=", "is_equal"]}, {"file": "include/vecmath/segment.h", "symbols": ["operator!=", "operator<=", "operator>", "operator>=", "is_equal"]}, {"file": "include/vecmath/quat.h", "symbols": ["is_equal"]}, {"file": "include/vecmath/polygon.h", "symbols": ["is_equal"]}]}
{"id": "C81", "title": "Named planes", "statement": "horizontal_plane, orthogonal_plane and aligned_orthogonal_plane contain the given point; their normals are the z axis, the normalized direction, and the signed coordinate axis of the largest absolute component of the direction.", "quantifier": "all points and all directions other than zero, exact arithmetic", "why_tests_cant": "ranges over all directions, including ties between components", "anchors": [{"file": "include/vecmath/plane.h", "symbols": ["horizontal_plane", "orthogonal_plane", "aligned_orthogonal_plane"]}]}
{"id": "C82", "title": "Length, center and vertices of segments", "statement": "length is the distance of the end points, center is the point halfway between them and equally far from both, and get_vertices lists the start and end points in order.", "quantifier": "all segments in every dimension and all lists of segments, exact arithmetic", "why_tests_cant": "ranges over all segments", "anchors": [{"file": "include/vecmath/segment.h", "symbols": ["length", "center", "get_vertices"]}]}
{"id": "C83", "title": "Rounding errors of inner products and lengths", "statement": "Computed in floating point, dot(a, b) of n-dimensional finite vectors differs from the exact inner product by at most ((1+u)^n - 1) times the sum of |a_i b_i|, plus n (1+u)^n times the underflow error, if that sum stays in range; length(v) has relative error at most (n + 1) u for vectors whose length is neither tiny nor huge (u the unit roundoff).", "quantifier": "all IEEE formats, dimensions and finite vectors", "why_tests_cant": "the bound holds for every choice of floating point components", "anchors": [{"file": "include/vecmath/vec.h", "symbols": ["dot", "squared_length", "length"]}]}
{"id": "C84", "title": "Normalized vectors are unit vectors up to rounding", "statement": "Computed in floating point, normalize(v) has a length within (2n + 3) u of 1, every component has a relative error of at most (2n + 2) u (plus underflow), and is_unit(normalize(v), eps) holds for every eps of at least (4n + 5) u.", "quantifier": "all IEEE formats, dimensions and finite vectors", "why_tests_cant": "ranges over all floating point vectors; the lengths whose square overflows or underflows are easily missed", "anchors": [{"file": "include/vecmath/vec.h", "symbols": ["normalize", "is_unit"]}]}
{"id": "C85", "title": "Point status is right outside of the rounding error", "statement": "Computed in floating point, plane.point_distance differs from the exact signed distance by at most the error bound of C83, and plane.point_status reports above, below or inside correctly for every point whose distance from the borders at +eps and -eps exceeds that bound.", "quantifier": "all IEEE formats, planes, points and tolerances", "why_tests_cant": "the classification must be right for every floating point plane and point", "anchors": [{"file": "include/vecmath/plane.h", "symbols": ["point_distance", "point_status"]}]}
{"id": "C86", "title": "Box center and size in floating point", "statement": "The center of a valid finite box, computed in floating point, is a point of the box, and its size has no negative component.", "quantifier": "all IEEE formats and valid finite boxes", "why_tests_cant": "rounding could move the center out of flat boxes; ranges over all corners", "anchors": [{"file": "include/vecmath/bbox.h", "symbols": ["center", "size"]}]}
{"id": "C87", "title": "Symmetries survive rounding", "statement": "In floating point, distance(a, b) equals distance(b, a) exactly, length(-v) equals length(v), normalize(-v) equals -normalize(v), and cross(a, b) compares equal to -cross(b, a) component by component, for all values including infinities and NaN.", "quantifier": "all IEEE formats and vectors", "why_tests_cant": "must hold for all floating point values and roundings", "anchors": [{"file": "include/vecmath/vec.h", "symbols": ["distance", "squared_distance", "length", "normalize", "cross"]}]}
{"id": "C88", "title": "Transformations that only move components are exact", "statement": "In floating point, the identity matrix, translation matrices, scaling matrices, the constant quarter and half turns and the mirror matrices act on finite points exactly as the component operations do: no rounding other than that of p + d or f * p occurs (equality does not tell the two zeros apart). The transpose of a product is the product of the transposes in reverse order bit by bit, and vector times matrix is transposed matrix times vector.", "quantifier": "all IEEE formats, dimensions, finite vectors and matrices", "why_tests_cant": "the claim is about every floating point component; a single reordered term or a missing factor would show only for some values", "anchors": [{"file": "include/vecmath/mat.h", "symbols": ["operator*", "identity", "rot_90_x_cw", "rot_180_x", "mirror_x", "transpose"]}, {"file": "include/vecmath/mat_ext.h", "symbols": ["translation_matrix", "scaling_matrix", "mirror_matrix"]}]}
{"id": "C89", "title": "Rounding errors of matrix products", "statement": "Computed in floating point, every entry of matrix * vector, matrix * matrix and affine matrix * point differs from the exact one by at most the error bound of an inner product (C83) of the row and the column; the division of the homogeneous component adds no error for affine matrices.", "quantifier": "all IEEE formats, dimensions, finite matrices, vectors and points", "why_tests_cant": "the bound holds for every choice of floating point entries", "anchors": [{"file": "include/vecmath/mat.h", "symbols": ["operator*"]}]}
{"id": "C90", "title": "Rounding errors of cross products, distances and points on lines", "statement": "Computed in floating point, every component of cross(a, b) differs from the exact one by at most the error bound for two products, distance(a, b) has a relative error of at most (n + 3) u for points whose distance is neither tiny nor huge, and point_at_distance differs by at most the bound for a sum and a product.", "quantifier": "all IEEE formats, dimensions, finite vectors", "why_tests_cant": "ranges over all floating point values, including cancellation of nearly equal ones", "anchors": [{"file": "include/vecmath/vec.h", "symbols": ["cross", "distance"]}, {"file": "include/vecmath/abstract_line.h", "symbols": ["point_at_distance"]}]}
{"id": "C91", "title": "Interpolation in floating point", "statement": "mix(x, y, 0) equals x and mix(x, y, 1) equals y exactly in floating point, and for every parameter in [0, 1] mix(x, y, a) lies between x and y.", "quantifier": "all IEEE formats and finite values", "why_tests_cant": "the end points must be met for all pairs of values, and rounding errors show only for some", "anchors": [{"file": "include/vecmath/scalar.h", "symbols": ["mix"]}]}
{"id": "C92", "title": "Limits of the component types and the next greater number", "statement": "nextgreater(x) is the least machine number greater than x for every x below infinity, infinity for infinity and NaN for NaN; no finite vector has a component greater than the corresponding component of vec::max() or less than that of vec::min(); get_vertices appends exactly the vertices of the range, in order.", "quantifier": "all IEEE formats, all machine numbers, all integer widths, dimensions and ranges", "why_tests_cant": "being the least greater number and being an extreme value range over all machine numbers", "anchors": [{"file": "include/vecmath/scalar.h", "symbols": ["nextgreater"]}, {"file": "include/vecmath/vec.h", "symbols": ["vec::min", "vec::max", "vec::get_vertices"]}]}
{"id": "C93", "title": "Constants and angle conversions in double precision", "statement": "pi() and e() are within one unit roundoff of the mathematical constants, two_pi(), half_pi() and quarter_pi() are exact multiples of pi(), to_radians and to_degrees have a relative error of at most 5/2 units for every angle that is neither tiny nor huge, and to_degrees(to_radians(d)) differs from d by at most 5 units.", "quantifier": "all finite doubles of size between 2^-990 and 2^990, all implementations of the math library", "why_tests_cant": "the relative error must be bounded for every double; the constants are compared with the real numbers pi and e", "anchors": [{"file": "include/vecmath/constants.h", "symbols": ["pi", "two_pi", "half_pi", "quarter_pi", "three_half_pi", "e"]}, {"file": "include/vecmath/scalar.h", "symbols": ["to_radians", "to_degrees"]}]}
{"id": "C94", "title": "Arithmetic of integer vectors", "statement": "For vectors of signed integers the sum, difference, product, negation, absolute value, multiple and quotient have the exact value in every component whose exact value is representable, and are undefined in the others; the dot product, squared length and cross product have the exact value. For vectors of unsigned integers all of them are exact modulo 2^w; quotients are rounded towards zero, and dividing by zero is undefined.", "quantifier": "all widths w, all dimensions, all vectors of machine integers", "why_tests_cant": "overflow and wrap-around depend on the operands; the claim is over all pairs of machine integers of every width", "anchors": [{"file": "include/vecmath/vec.h", "symbols": ["operator+", "operator-", "operator*", "operator/", "abs", "dot", "cross", "squared_length"]}, {"file": "include/vecmath/forward.h", "symbols": ["vec3i", "vec3l", "vec3s"]}]}
{"id": "C95", "title": "Order and boxes of integer vectors", "statement": "Comparison operators and range comparisons of integer vectors give the lexicographic order of the integers; min, max, clamp and the component queries give the integer minimum, maximum, median and k-th largest component; is_equal with a tolerance e says whether all components differ by at most e; the bounds and merges of integer boxes are the smallest boxes, containment and intersection those of the sets of integer points, and the center of a box lies in the box.", "quantifier": "all widths w, all dimensions, all vectors, ranges and boxes of signed or unsigned machine integers", "why_tests_cant": "the tolerance and the center overflow only near the limits of the type, so the claim is over all machine integers", "anchors": [{"file": "include/vecmath/vec.h", "symbols": ["compare", "is_equal", "min", "max", "clamp", "get_max_component"]}, {"file": "include/vecmath/bbox.h", "symbols": ["bbox", "builder", "contains", "intersects", "center", "merge_all"]}, {"file": "include/vecmath/forward.h", "symbols": ["vec3i", "vec3s"]}]}
{"id": "C96", "title": "Conversions between component types", "statement": "Converting a vector, matrix, quaternion, line, ray, plane, segment, polygon or box from float to double keeps every component and every comparison, and converting it back gives the original value; converting to a narrower type keeps the order of two components and changes each by at most half a unit in the last place; integer vectors that fit the mantissa convert to floating point and back without change and in the same order, others with one rounding error; converting to integers truncates and is undefined out of range; conversions between integer types keep every representable value and are modulo 2^w otherwise.", "quantifier": "all floating point formats and integer widths, all dimensions and values including NaN, infinities and signed zeros", "why_tests_cant": "every bit pattern of both formats matters: denormals, signed zeros, values between the two formats", "anchors": [{"file": "include/vecmath/vec.h", "symbols": ["vec::vec(const vec<U, V>&)"]}, {"file": "include/vecmath/mat.h", "symbols": ["mat::mat(const mat<U, R, C>&)"]}, {"file": "include/vecmath/quat.h", "symbols": ["quat::quat(const quat<U>&)"]}, {"file": "include/vecmath/line.h", "symbols": ["line::line(const line<U, S>&)"]}, {"file": "include/vecmath/ray.h", "symbols": ["ray::ray(const ray<U, S>&)"]}, {"file": "include/vecmath/plane.h", "symbols": ["plane::plane(const plane<U, S>&)"]}, {"file": "include/vecmath/segment.h", "symbols": ["segment::segment(const segment<U, S>&)"]}, {"file": "include/vecmath/polygon.h", "symbols": ["polygon::polygon(const polygon<U, S>&)"]}, {"file": "include/vecmath/bbox.h", "symbols": ["bbox::bbox(const bbox<U, S>&)"]}]}
{"id": "C97", "title": "Coordinates on a grid are computed exactly in floating point", "statement": "For vectors, matrices, planes and boxes whose components are integer multiples of a power of two (integer coordinates, for example, or editor grids), sums, differences, products, inner and cross products, squared distances, matrix products, determinants, transformed points, plane distances, the size, center and volume of boxes, translated and transformed boxes are computed in floating point without any rounding error as long as the exact results fit the mantissa, results are again on a grid, and the test for collinear points decides collinearity exactly.", "quantifier": "every floating point format, every grid size, every dimension and all operands whose results fit the mantissa", "why_tests_cant": "exactness must hold for all integer coordinates of the range, not for sampled ones", "anchors": [{"file": "include/vecmath/vec.h", "symbols": ["operator+", "operator-", "operator*", "dot", "cross", "squared_distance", "is_colinear"]}, {"file": "include/vecmath/mat.h", "symbols": ["operator*", "compute_determinant"]}, {"file": "include/vecmath/plane.h", "symbols": ["point_distance"]}, {"file": "include/vecmath/bbox.h", "symbols": ["size", "center", "volume", "translate", "transform"]}]}
{"id": "C98", "title": "The convex hull of grid points is exact in floating point", "statement": "For points in space whose coordinates are integer multiples of a power of two (at least 2^-4 in double precision) and differ between points by at most 4729 steps of that grid (in double precision), convex_hull in floating point returns vertices taken from the given points that, if the points are in one plane, form a convex polygon containing all given points, whatever the order of the points and whichever sorting algorithm std::sort uses; if they are not in one plane, this holds for the points seen along one of the axes. It returns nothing exactly when all points are on the line through the first two.", "quantifier": "all lists of grid points, every grid size, every sorting algorithm satisfying the contract of std::sort, every floating point format whose mantissa holds the products involved", "why_tests_cant": "each decision of the scan depends on signs of rounded products; no sample of point sets shows that no rounding error can change a sign", "anchors": [{"file": "include/vecmath/convex_hull.h", "symbols": ["convex_hull", "detail::convex_hull"]}, {"file": "include/vecmath/vec.h", "symbols": ["is_colinear", "find_abs_max_component"]}]}
{"id": "C99", "title": "Snapping, remainders and degrees on grids are exact in floating point", "statement": "For numbers that are integer multiples of one power of two (whole numbers, or fractions such as eighths) snap returns in floating point exactly a nearest multiple of the cell size, snap_up and snap_down the neighbouring multiples away from and towards zero, and snapping again changes nothing; mod returns the exact remainder with the sign of the first argument, and normalize_degrees terminates with the equivalent angle in [0, 360). fract is exact for every number of the range of the 64 bit integers.", "quantifier": "every floating point format, every power of two, all numbers and cell sizes whose integer multiples use at most all but one bit of the mantissa; all numbers for fract", "why_tests_cant": "the quotient by the cell size is rounded; that it never crosses a half integer has to hold for every pair of numbers", "anchors": [{"file": "include/vecmath/scalar.h", "symbols": ["snap", "snapUp", "snapDown", "mod", "fract", "normalize_degrees"]}]}
{"id": "C100", "title": "Moving everything by the same rigid motion does not change what is measured", "statement": "If points, vectors, lines, rays, segments and planes are all transformed by one matrix that keeps distances (translations, rotations, reflections and their products), then all distances between them, the signed distance and side of points with respect to planes and rays, the results of is_colinear, is_parallel and is_between, and the distances returned by the intersection of rays and lines with planes, triangles and spheres stay the same; projections, averages and intersection lines move along; the plane through three points moves along, flipped by a reflection; the measured angle stays the same if the orientation is kept.", "quantifier": "every dimension, every matrix that keeps distances, all objects with directions and normals of length one", "why_tests_cant": "there are infinitely many motions and objects, and the results include all the cases that are not numbers or count as parallel", "anchors": [{"file": "include/vecmath/distance.h", "symbols": ["distance", "squared_distance"]}, {"file": "include/vecmath/intersection.h", "symbols": ["intersect_ray_plane", "intersect_ray_triangle", "intersect_ray_sphere", "intersect_line_plane", "intersect_plane_plane"]}, {"file": "include/vecmath/plane.h", "symbols": ["plane::transform", "plane::point_distance", "plane::point_status", "plane::project_point", "from_points"]}, {"file": "include/vecmath/ray.h", "symbols": ["ray::transform", "ray::point_status"]}, {"file": "include/vecmath/line.h", "symbols": ["line::transform"]}, {"file": "include/vecmath/segment.h", "symbols": ["segment::transform", "segment::contains"]}, {"file": "include/vecmath/vec.h", "symbols": ["is_colinear", "is_parallel", "is_between", "average", "measure_angle"]}]}
{"id": "C101", "title": "Transforming twice is transforming by the product; transforming by the inverse undoes it", "statement": "For matrices whose last row is 0 ... 0 1: transforming a point, ray, line or segment by B and then by A gives the same object as transforming it once by A * B; transforming by A and then by the matrix that a successful invert returns gives back the same object. The same holds for planes if the matrices multiply all distances by a factor; a box transformed by the product lies in the box transformed twice, and a box transformed and transformed back contains the original box. For other matrices planes do not come back, and boxes may come back larger.", "quantifier": "every dimension (boxes: three), all such matrices, all finite points and all objects with directions and normals of length one", "why_tests_cant": "there are infinitely many pairs of matrices; every transform normalizes directions and sorts end points again, so that the results agree is an identity over all inputs", "anchors": [{"file": "include/vecmath/mat.h", "symbols": ["operator*", "invert"]}, {"file": "include/vecmath/ray.h", "symbols": ["ray::transform"]}, {"file": "include/vecmath/line.h", "symbols": ["line::transform"]}, {"file": "include/vecmath/segment.h", "symbols": ["segment::transform"]}, {"file": "include/vecmath/plane.h", "symbols": ["plane::transform"]}, {"file": "include/vecmath/bbox.h", "symbols": ["bbox::transform"]}]}
{"id": "C102", "title": "Calls return unless a stated condition is violated", "statement": "Whatever the component values are (NaN and infinities included), a call aborts or is undefined only under these conditions. Selecting the k-th component: exactly if k is not less than the number of components. solve_quartic and the ray-torus intersection, comparing polygons without orientation: never. Point in polygon: exactly if the range is empty. Box queries, corners, faces, edges, vertices, translate, transform, and expand by a number that is not negative: exactly if the box is not valid. Intersecting and repairing boxes, merging a box with a point, merging valid boxes, builders fed with points and valid boxes: never. merge_all: exactly for an empty range. trunc, floor, ceil, fract, round, round_up, round_down: exactly if the number is not finite or out of the range of int64_t; mod and snapping: the same for the quotient. convex_hull of any points: never.", "quantifier": "every component type where only comparisons are involved, every IEEE format otherwise; all values, sizes and matrices; for convex_hull every correct sorting function", "why_tests_cant": "the claim is about the absence of assertion failures, invalid reads and invalid conversions on every input, including the NaN and infinite values tests rarely use; the failing inputs of convex_hull need coordinates of more than 30 bits in a very narrow angle", "anchors": [{"file": "include/vecmath/vec.h", "symbols": ["find_max_component", "find_abs_max_component", "get_abs_max_component_axis"]}, {"file": "include/vecmath/scalar.h", "symbols": ["trunc", "floor", "ceil", "fract", "round", "mod", "snap", "correct", "solve_quartic"]}, {"file": "include/vecmath/bbox.h", "symbols": ["bbox"]}, {"file": "include/vecmath/polygon.h", "symbols": ["compareUnoriented"]}, {"file": "include/vecmath/intersection.h", "symbols": ["polygon_contains_point", "intersect_ray_torus"]}, {"file": "include/vecmath/convex_hull.h", "symbols": ["convex_hull", "less_than_by_angle", "build_hull"]}]}
{"id": "C103", "title": "The convex hull depends only on the set of the points", "statement": "For points of a plane, the vertices returned by convex_hull and their order do not depend on the order in which the points are given, on how often a point is given, or on how std::sort orders equivalent elements, as long as no two first points are so close or so aligned with the others that the result is empty. The convex hull of the vertices of a convex hull is that hull, in the same order. Both also hold in double precision for points on a grid.", "quantifier": "every finite list of points of a plane, every list with the same points, every sorting function that meets the standard's promise; in double precision every cluster of points on a power-of-two grid", "why_tests_cant": "the orders, multiplicities and tie-breaking choices of std::sort are unbounded; a test runs one order with one library", "anchors": ["include/vecmath/convex_hull.h: convex_hull, detail::convex_hull (less_than_by_angle, find_anchor, sort_points, build_hull, pop_stale_points)"]}
{"id": "C104", "title": "Ray-plane and line-plane intersections in floating point", "statement": "For a ray or line whose direction has length 1 up to a few roundings, a plane with such a normal, and coordinates of size at most M, intersect returns a finite number or NaN, never an infinity. If it is a finite number s, the computed point at distance s is finite and off the plane by at most u (74 M + 18 |s|), where u is the unit roundoff; a ray's s is at least minus 0.001. NaN is returned if the cosine between direction and normal is below 0.001, and a number if it is above (for rays: and the plane is not behind the origin), up to 11 u. If 2^31 u M <= 1 (in double: coordinates up to four million), the point at the returned distance has plane status inside.", "quantifier": "every ray, line and plane of three components in every IEEE format with at least 20 bits of precision and exponent, every bound M", "why_tests_cant": "the errors of the roundings depend on all bits of nine inputs", "anchors": ["include/vecmath/intersection.h: intersect_ray_plane, intersect_line_plane", "include/vecmath/abstract_line.h: point_at_distance", "include/vecmath/plane.h: point_status"]}
{"id": "C105", "title": "Projections onto a plane in floating point", "statement": "For a plane whose normal has length 1 up to a few roundings and coordinates of size at most M, project_point returns a finite point, each component within 24 u M of the exact foot of the perpendicular, off the plane by at most 210 u M; if 2^22 u M <= 1 (in double: coordinates up to 2^31) its plane status is inside. Projecting again moves no component by more than 340 u M. Projecting along a direction of length 1 returns NaN components if the cosine with the normal is below 0.001 and otherwise a finite point off the plane by at most 82000 u M, up to 11 u in the cosine; its status is inside if 2^31 u M <= 1.", "quantifier": "every plane, point and direction of three components in every IEEE format with at least 20 bits of precision and exponent, every bound M", "why_tests_cant": "the errors of the roundings depend on all bits of all inputs", "anchors": ["include/vecmath/plane.h: project_point, point_status"]}
{"id": "C106", "title": "The quaternion that rotates one unit vector onto another, in floating point", "statement": "For two vectors whose length is 1 up to a few roundings, and a mathematical library whose sine, cosine, arc cosine and pi are off by at most 8 units of roundoff u, the quaternion constructed from the two vectors passes all assertions, is finite and has length 1 up to 9000 u. Rotating the first vector with it gives each component of the second up to 80000 u, unless the cosine is within 0.001 of 1 or -1: then the vector stays or is turned round, which is off by at most 0.05.", "quantifier": "every pair of vectors of three components in every IEEE format with at least 20 bits of precision and exponent, every library of the stated accuracy", "why_tests_cant": "the errors of the roundings and of the library depend on all bits of all inputs", "anchors": ["include/vecmath/quat.h: quat(vec, vec), quat(angle, axis), operator*"]}
{"id": "C107", "title": "The plane through three points in floating point", "statement": "For three points with coordinates of size at most M whose edges from the first point are at least 1/M long, from_points says that there is a plane only if the sine of the angle at the first point is at least 0.00000001 up to 42 units of roundoff u and 2^-40, and whenever it exceeds this by 42 u. The plane's normal then has length 1 up to a few roundings, each component is within 39 u / sine of the exact normal, the plane is off the three points by at most 250 u M / sine (in double: 0.000003 M), and their plane status is inside if 2^23 u M is at most the sine.", "quantifier": "every triple of points in every IEEE format with at least 20 bits of precision and 80 of exponent, every bound M with 2^80 M^4 below the greatest number", "why_tests_cant": "the errors of the roundings depend on all bits of all inputs", "anchors": ["include/vecmath/plane.h: plane_normal, from_points, point_status"]}
{"id": "C108", "title": "Solving linear systems and inverting matrices in floating point", "statement": "For a system of n equations whose coefficients are finite and at most M in size, with 2^n M below the greatest number: if lup_solve reports success and the solution is finite with components up to X, then it satisfies each equation up to 11 n^3 2^n M (u X + eta) + 5 n^2 eta (u the unit of roundoff, eta half the smallest positive number), and if the matrix has an inverse with entries up to K it differs from the exact solution by at most n K times that. If invert reports success, the matrix times the result is the unit matrix up to the same bound, and if n times the bound is below 1 the matrix is invertible and the result is correspondingly close to its inverse. If either reports failure, a singular matrix differs in each entry by less than 1.001e-15 + 4 2^n u M; so both report success for every matrix whose inverse has entries small enough. Success does not mean that the matrix is invertible, and near the greatest number a finite solution can be wrong.", "quantifier": "every size n with 100 n^2 u at most 1, every matrix and right-hand side in every IEEE format with at least 20 bits of precision and exponent 64", "why_tests_cant": "the rounding errors, the choice of the pivots and the growth of the entries depend on all bits of all inputs, and there are matrices of every size", "anchors": ["include/vecmath/mat.h: lup_find_decomposition, lup_solve_internal, lup_solve, invert"]}
{"id": "C109", "title": "Sequences of rotations in floating point", "statement": "Multiplying two quaternions, turning a vector by a quaternion of about unit length, turning it by any number of such quaternions one after the other, and multiplying any number of them each stay within a bound of the exact result that is proportional to the unit roundoff and the number of operations; the length of the product drifts from 1 at most in proportion to that number; turning by the product and turning step by step agree within such a bound; and a quaternion built from an axis and an angle turns every vector about that axis by that angle within such a bound.", "quantifier": "every binary floating-point format with at least 20 bits of precision and exponent range, every finite quaternion, every finite vector below a fraction of the largest number, and every finite sequence of quaternions of about unit length, of any length n with n times the deviation and the roundoff at most 1/100; for axis and angle every library whose sine and cosine are accurate to a few roundings", "why_tests_cant": "The claim is about the accumulated rounding error of every sequence of operations of any length on all representable values; a test follows one sequence.", "anchors": ["include/vecmath/quat.h: quat(const vec<T,3>&, T), conjugate, operator*(quat, quat), operator*(quat, vec)"]}
{"id": "C110", "title": "Iterating over the vertices of a polygon", "statement": "Iterating from begin() to end() visits the vertices of a polygon in their order, each once; iterating from rbegin() to rend() visits them in reverse order.", "quantifier": "every polygon with any number of vertices", "why_tests_cant": "polygons have any number of vertices; a test iterates over a few", "anchors": ["include/vecmath/polygon.h: begin, end, rbegin, rend"]}
{"id": "C111", "title": "Transforming points and boxes by matrices in floating point", "statement": "Multiplying a point by an affine 4x4 matrix gives the exact image up to a bound proportional to the unit roundoff. Transforming a box gives a valid box that, up to such a bound, contains the exact image of every point of the box, lies inside every box containing those images, and contains the computed images of the machine points of the box. The rotation matrices built from an axis and an angle, from a quaternion, or from roll, pitch and yaw turn every point as intended up to such a bound, and the matrix and the quaternion of an axis and an angle turn every point to the same place up to such a bound.", "quantifier": "every binary floating-point format with at least 20 bits of precision and exponent range, every finite point, every box and every affine matrix whose magnitudes stay below the largest number; every nearly unit axis, every angle up to 7 in magnitude, every quaternion with length within 1/50 of 1, and every library whose sine and cosine are accurate to a few roundings", "why_tests_cant": "the claim is about the rounding error on every representable input and about all the points of a box, which are not even representable; a test tries a few points with a guessed tolerance", "anchors": ["include/vecmath/mat.h: operator*(mat, vec)", "include/vecmath/mat_ext.h: rotation_matrix", "include/vecmath/bbox.h: transform", "include/vecmath/quat.h: operator*(quat, vec)"]}
{"id": "C112", "title": "Ray-box intersection in floating point", "statement": "The result of intersecting a ray and a box is NaN or a finite distance at which the ray is on the surface of the box up to a bound proportional to the unit roundoff. From outside the ray does not meet the box before that distance, and from inside it stays in the box until then, up to rounding. A ray that enters the box (or leaves it, if its origin is inside and no component of its direction is zero) is found to hit it, at that distance up to rounding.", "quantifier": "every binary floating-point format with at least 20 bits of precision and exponent range, every dimension, every box and origin with coordinates below a sixteenth of the range, every direction of about unit length; the last part for rays that cross the face farther than the error bound from its edges", "why_tests_cant": "every representable ray and box has its own rounding errors; a test tries a few and cannot tell which near misses are due to rounding", "anchors": ["include/vecmath/intersection.h: intersect_ray_bbox"]}
{"id": "C113", "title": "Ray-sphere intersection in floating point", "statement": "The result of intersecting a ray in a normalized direction and a sphere is NaN or a finite distance at which the ray is on the sphere, up to a bound on the squared distance from the center that is proportional to the unit roundoff. If it is NaN, the ray is nowhere deeper in the sphere than that bound. From outside, the ray is not inside of the sphere before that distance up to the bound; from inside, the sphere is always hit, and the ray is not outside of it before that.", "quantifier": "every binary floating-point format with at least 20 bits of precision and exponent range, every origin, center and radius of size up to any M whose square is representable with some room, every direction of unit length up to rounding", "why_tests_cant": "the discriminant cancels for rays that graze the sphere or pass it far away, and whether rounding errors then lose or invent a hit depends on the inputs; the bound must hold for every ray and sphere", "anchors": ["include/vecmath/intersection.h: intersect_ray_sphere"]}
{"id": "C114", "title": "Ray-triangle intersection in floating point", "statement": "The result of intersecting a ray in a normalized direction and a triangle is NaN or a finite distance that is not negative, and the point of the ray at that distance is a point of the triangle up to a bound proportional to the unit roundoff and inversely proportional to how well the ray and the triangle are placed. A ray that meets the triangle is found to hit it, at that distance up to such a bound.", "quantifier": "every binary floating-point format with at least 20 bits of precision and exponent range, every origin and triangle with coordinates up to any M whose cube is representable with some room, every direction of unit length up to rounding", "why_tests_cant": "whether a hit is lost or misplaced depends on cancellation in three determinants for the particular ray and triangle; the bound must hold for all of them", "anchors": ["include/vecmath/intersection.h: intersect_ray_triangle"]}
{"id": "C115", "title": "Plane-plane intersection in floating point", "statement": "The result of intersecting two planes with normals of unit length is a line whose direction is orthogonal to both normals and whose point is on both planes, up to bounds proportional to the unit roundoff and inversely proportional to the angle of the planes, or else the default line, and then the planes are parallel up to the tolerance.", "quantifier": "every binary floating-point format with at least 20 bits of precision and exponent range, every pair of planes with normals of unit length up to rounding and distances up to any M that is representable with some room", "why_tests_cant": "the cancellation when one normal is projected onto the other plane depends on the angle and on the distances of the planes; the bound and the decision between line and default must hold for all of them", "anchors": ["include/vecmath/intersection.h: intersect_plane_plane", "include/vecmath/plane.h: plane::anchor, plane::project_vector"]}
{"id": "C116", "title": "Point in polygon in floating point", "statement": "A point whose distance from the boundary of a polygon, seen along the chosen axis, exceeds the tolerance and the rounding errors is accepted exactly if the polygon winds around it an odd number of times. The polygon can have any number of vertices and any shape, and it does not have to be exactly plane.", "quantifier": "every binary floating-point format with at least 20 bits of precision and exponent range, every axis or normal, every nonempty list of vertices and every point with coordinates up to any M whose square is representable with some room", "why_tests_cant": "each edge is classified by rounded comparisons and a rounded quotient, and a single wrong classification changes the parity; polygons of all lengths and shapes and all positions of the point have to be covered", "anchors": ["include/vecmath/intersection.h: polygon_contains_point, detail::handle_polygon_edge_intersection", "include/vecmath/vec.h: swizzle, find_abs_max_component"]}
{"id": "C117", "title": "Distances of points to rays and segments in floating point", "statement": "squared_distance and distance of a ray or a segment and a point return finite results: a position and a distance which are those of the nearest point of the ray or segment, up to rounding errors relative to the size of the coordinates. A segment whose two end points are the same has NaN as its distance.", "quantifier": "every binary floating-point format with at least 20 bits of precision and exponent range, every ray in a nearly normalized direction, every segment whose squared length does not underflow, every point, with coordinates up to any M whose square is representable with some room", "why_tests_cant": "the position is clamped and the direction, its length and the position are all rounded; that the errors of the distance do not depend on the angle, on the side of the end points or on the length of the segment has to hold for all coordinates", "anchors": ["include/vecmath/distance.h: squared_distance (ray and point, segment and point), distance", "include/vecmath/abstract_line.h: point_at_distance", "include/vecmath/segment.h: direction"]}
{"id": "C118", "title": "Intersections of rays and polygons in floating point", "statement": "intersect_ray_polygon with a ray, a plane and the vertices of a polygon returns the distance at which the ray meets the plane, up to rounding errors that grow only with the slant of the ray, if the polygon winds around the point of the plane an odd number of times, and NaN otherwise. It returns NaN for rays that are almost parallel to the plane or lead away from it.", "quantifier": "every binary floating-point format with at least 20 bits of precision and exponent range, every ray and plane in nearly normalized directions, every polygon of any number of vertices, convex or not, that keeps more than the tolerance and the rounding errors away from the point that is hit, with coordinates up to any M whose square is representable with some room", "why_tests_cant": "the point that is tested against the polygon is itself rounded, so that the answer is right only if no rounding can carry it across an edge or past the level of a vertex, for polygons of any shape", "anchors": ["include/vecmath/intersection.h: intersect_ray_polygon, intersect_ray_plane, polygon_contains_point", "include/vecmath/abstract_line.h: point_at_distance"]}
{"id": "C119", "title": "Projections onto lines in floating point", "statement": "distance_to_projected_point and project_point of a line or ray and a point return the position and the point nearest to the given point on the line, up to rounding errors relative to the size of the coordinates. The position of a point that point_at_distance computed for a distance is that distance, up to rounding errors.", "quantifier": "every binary floating-point format with at least 20 bits of precision and exponent range, every line in a nearly normalized direction, every point and distance, with coordinates up to any M whose square is representable with some room", "why_tests_cant": "the direction is not exactly of unit length and the inner product can cancel; that the errors do not grow with the angle or with the position has to hold for all coordinates", "anchors": ["include/vecmath/abstract_line.h: distance_to_projected_point, point_at_distance, project_point"]}
{"id": "C120", "title": "The missing coordinate of a point of a plane in floating point", "statement": "at, xAt, yAt and zAt of a plane return the one coordinate that makes the two given ones a point of the plane, up to rounding errors that grow only with the slant of the plane; the resulting point is on the plane up to rounding errors independent of the slant. If the plane is parallel to the axis, they return zero.", "quantifier": "every binary floating-point format with at least 20 bits of precision and exponent range, every plane with a nearly normalized normal, every axis and every two coordinates for which the quotient cannot overflow", "why_tests_cant": "the result is a quotient by a component of the normal that can be arbitrarily small, so its error is unbounded in general and only its relation to the slant can be stated for all planes", "anchors": ["include/vecmath/plane.h: plane::at, plane::xAt, plane::yAt, plane::zAt"]}
{"id": "C121", "title": "Averages in floating point", "statement": "average of a non-empty range of vectors returns finite components which are the means of the components, up to as many rounding errors as there are vectors.", "quantifier": "every binary floating-point format with at least 20 bits of precision and exponent range, every non-empty range of vectors of any dimension, of any length up to a hundredth of the largest exact integer, with components up to any M whose sum cannot overflow", "why_tests_cant": "the error accumulates over the range, whose length is not bounded by any test, and the number of vectors is itself counted in floating point", "anchors": ["include/vecmath/vec.h: average"]}
{"id": "C122", "title": "Bezier surfaces in floating point", "statement": "evaluate_quadratic_bezier_surface returns a finite point within 27 rounding errors of the exact point of the surface, so that it leaves the bounding box of the control points by no more than that, and it interpolates the four corner control points without any error.", "quantifier": "every binary floating-point format with at least 20 bits of precision and exponent range (two bits for the corners), every dimension, every grid of finite control points up to any M that cannot overflow, all parameters in [0,1]", "why_tests_cant": "the control points and parameters are unbounded in number and the rounding errors of the nested interpolation depend on all of them", "anchors": ["include/vecmath/bezier_surface.h: evaluate_quadratic_bezier_surface"]}
{"id": "C123", "title": "Determinants and adjugates in floating point", "statement": "compute_determinant returns a finite number that differs from the Leibniz sum of the entries by at most N*N rounding errors relative to the largest possible determinant N!*M^N, and every entry of compute_adjugate is the transposed cofactor up to a similar error.", "quantifier": "every binary floating-point format with at least 20 bits of precision and exponent range, square matrices of every size N with finite entries up to any M >= 1 for which N!*M^N cannot overflow and N*N is at most a hundredth of the inverse rounding error", "why_tests_cant": "the size of the matrix is a template parameter without bound, the expansion into minors is recursive and the error depends on all entries", "anchors": ["include/vecmath/mat.h: compute_determinant, compute_adjugate, extract_minor"]}
{"id": "C124", "title": "Quadratic equations in floating point", "statement": "solve_quadratic reports the right number of solutions whenever the discriminant (of the equation divided by a) is not within the rounding error of the tolerance; every reported solution solves the equation up to rounding errors (up to the tolerance, if it is the only one), every real solution is close to a reported one, and none is missed unless the tolerance is smaller than the rounding error.", "quantifier": "every binary floating-point format with at least 20 bits of precision and exponent range, all finite coefficients with a != 0 whose quotients cannot overflow, every tolerance", "why_tests_cant": "the coefficients are unbounded and errors show only for discriminants that almost cancel", "anchors": ["include/vecmath/scalar.h: solve_quadratic"]}
{"id": "C125", "title": "Transforming rays, lines and planes in floating point", "statement": "transform of a ray or line by an affine matrix gives a direction of length 1 that differs from the exact direction by a bounded multiple of the rounding error, and every point of the transformed object is close to the exact image of the corresponding point, the error growing at most linearly with the distance from the origin; transform of a plane gives a unit normal along the image of the normal and a distance for which the plane contains the image of its anchor, up to a bounded error.", "quantifier": "every binary floating-point format with at least 20 bits of precision and exponent range, all finite rays, lines and planes in space and all affine matrices that cannot overflow and do not squash the direction to the size of the rounding error", "why_tests_cant": "coordinates, matrices and parameters are unbounded, and the error depends on how much the matrix shrinks the direction", "anchors": ["include/vecmath/ray.h: ray::transform", "include/vecmath/line.h: line::transform", "include/vecmath/plane.h: plane::transform"]}
{"id": "C126", "title": "Moving segments, polygons and boxes in floating point", "statement": "transform and translate of a segment give a segment whose ends are, up to a bounded rounding error, the exact images of the ends (in either order) and whose points are the images of the corresponding points; transform and translate of a polygon give a polygon whose vertices are the images of the vertices in the same cyclic order, up to the same error; translate of a box gives a box whose corners are the images of the corners and which contains the image of every point of the box, up to the rounding error of one addition.", "quantifier": "every binary floating-point format with at least 20 bits of precision and exponent range, all finite segments, boxes and polygons in space with any number of vertices, all affine matrices and translations that cannot overflow", "why_tests_cant": "coordinates, matrices, numbers of vertices and positions on the segment are unbounded", "anchors": ["include/vecmath/segment.h: segment::transform, segment::translate", "include/vecmath/polygon.h: polygon::transform, polygon::translate", "include/vecmath/bbox.h: bbox::translate"]}
