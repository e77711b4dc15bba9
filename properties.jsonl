{"id": "C01", "title": "Matrix entries read back independently of storage layout", "statement": "For n=3,4: building a matrix with init(arr, row_major) and reading index(i,j) with i,j<n returns arr[n*i+j] for both values of the layout flag, and never panics.", "quantifier": "every array content, both layouts, every in-range (i,j), every scalar type", "why_tests_cant": "The claim is about every value of the inputs (including NaN, infinities and signed zeros where IEEE is meant); a test samples a handful of literals.", "anchors": ["lib/mat.rs: Mat3::init, Mat3::index, Mat4::init, Mat4::index"]}
{"id": "C02", "title": "Out-of-range matrix access is rejected", "statement": "Reading index(i,j) with i>=n or j>=n panics instead of returning some other entry of the matrix.", "quantifier": "every u64 pair (i,j), both layouts, both overflow-check build modes", "why_tests_cant": "The index arithmetic is over all of u64*u64 and wraps at 2^64 in release builds; a test cannot cover 2^128 pairs.", "anchors": ["lib/mat.rs: Mat3::index, Mat3::index_mut, Mat4::index, Mat4::index_mut"]}
{"id": "C03", "title": "Writing one entry changes exactly that entry", "statement": "After writing v through index_mut(i,j) (i,j<n), index(i,j) reads v, every other in-range entry is unchanged, and the layout flag is unchanged.", "quantifier": "every matrix, layout, in-range (i,j) and value", "why_tests_cant": "The claim is about every value of the inputs (including NaN, infinities and signed zeros where IEEE is meant); a test samples a handful of literals.", "anchors": ["lib/mat.rs: Mat3::index_mut, Mat4::index_mut"]}
{"id": "C04", "title": "Transpose is the transpose", "statement": "transpose() swaps index(i,j) and index(j,i) in both layouts, keeps the layout flag, is an involution, and transpose_self leaves the same matrix; for row/column vectors transpose round-trips with unchanged components.", "quantifier": "every matrix/vector content and layout, every scalar type", "why_tests_cant": "The claim is about every value of the inputs (including NaN, infinities and signed zeros where IEEE is meant); a test samples a handful of literals.", "anchors": ["lib/mat.rs: Mat3::transpose, Mat3::transpose_self, Mat4::transpose, Mat4::transpose_self, Mat*x1::transpose, Mat1x*::transpose"]}
{"id": "C05", "title": "Matrix multiplication is the matrix product in both layouts", "statement": "mul of two matrices with equal layout returns a matrix of the same layout whose entry (i,j) is the sum over k of A(i,k)*B(k,j) evaluated left to right in the scalar arithmetic; with different layouts it panics.", "quantifier": "every pair of matrices, every layout pair, every scalar arithmetic (f32, f64, exact)", "why_tests_cant": "The claim is about every value of the inputs (including NaN, infinities and signed zeros where IEEE is meant); a test samples a handful of literals.", "anchors": ["lib/mat.rs: Mat3::mul, Mat4::mul"]}
{"id": "C06", "title": "Matrix-vector and vector-matrix products agree with entries", "statement": "mul_mat3x1/mul_mat4x1 return sum_k M(i,k)*v(k), mul_mat3x3/mul_mat4x4 return sum_k M(k,j)*v(k), in either layout; and v*M equals the transpose of M^T * v^T component for component, bit for bit.", "quantifier": "every matrix, layout and vector, every scalar arithmetic", "why_tests_cant": "The claim is about every value of the inputs (including NaN, infinities and signed zeros where IEEE is meant); a test samples a handful of literals.", "anchors": ["lib/mat.rs: Mat3::mul_mat3x1, Mat4::mul_mat4x1, Mat1x3::mul_mat3x3, Mat1x4::mul_mat4x4"]}
{"id": "C07", "title": "Matrix algebra laws", "statement": "In exact arithmetic mul is associative, distributes over plus and has iden as two-sided unit for row-major operands; (AB)^T = B^T A^T holds bit for bit in IEEE arithmetic; A*iden = A (as numbers) in IEEE arithmetic for every finite A.", "quantifier": "every triple of matrices", "why_tests_cant": "Identities of polynomials in up to 48 variables, over all values.", "anchors": ["lib/mat.rs: Mat3::mul, Mat3::plus, Mat3::iden, Mat4::mul, Mat4::plus, Mat4::iden"]}
{"id": "C08", "title": "Mat4 inverse is an inverse", "statement": "If inverse() returns Some(R) then M*R = R*M = identity (exact arithmetic); it returns None exactly when |det M| < EPSILON.", "quantifier": "every 4x4 matrix and layout", "why_tests_cant": "A polynomial identity in 16 variables; the project has no test of inverse.", "anchors": ["lib/mat.rs: Mat4::inverse"]}
{"id": "C09", "title": "Mat3 inverse is an inverse", "statement": "If inverse() returns Some(R) then M*R = R*M = identity (exact arithmetic), R has the layout of M; it returns None exactly when det M is in the documented tolerance band.", "quantifier": "every 3x3 matrix and layout", "why_tests_cant": "A polynomial identity in 9 variables; the project has no test of inverse.", "anchors": ["lib/mat.rs: Mat3::inverse"]}
{"id": "C10", "title": "Element-wise operations act on corresponding entries", "statement": "plus, minus, mul_elem, div combine index(i,j) of both operands, scale multiplies each entry, and the result keeps the receiver's layout - also when the operands have different layouts.", "quantifier": "every pair of matrices, every layout pair, every scalar arithmetic", "why_tests_cant": "The claim is about every value of the inputs (including NaN, infinities and signed zeros where IEEE is meant); a test samples a handful of literals.", "anchors": ["lib/mat.rs: Mat3::plus, minus, mul_elem, div, scale; Mat4::plus, minus, mul_elem, div, scale; vectors likewise"]}
{"id": "C11", "title": "Tolerance comparison means every entry is within the tolerance", "statement": "is_equal(a,b,e) is Some(true) exactly when layouts agree and every entry satisfies |a-b| <= e (exact arithmetic); in IEEE arithmetic it is never true if some compared entry or e is NaN, and a matrix or vector with finite entries is equal to itself for every e >= 0, e = infinity included.", "quantifier": "all matrices/vectors, all tolerances including NaN, negative and infinite ones", "why_tests_cant": "The claim is about every value of the inputs (including NaN, infinities and signed zeros where IEEE is meant); a test samples a handful of literals.", "anchors": ["lib/i_comparable.rs: IComparableError::is_equal", "lib/mat.rs: is_equal impls for all eight types"]}
{"id": "C12", "title": "Tolerance comparison is symmetric", "statement": "is_equal(a,b,e) = is_equal(b,a,e).", "quantifier": "all pairs and tolerances, in exact and in IEEE arithmetic", "why_tests_cant": "The asymmetric roundings of b-e, b+e only differ for special triples.", "anchors": ["lib/mat.rs: is_equal impls"]}
{"id": "C13", "title": "Vector length and normalisation", "statement": "magnitude is the Euclidean norm (non-negative, zero only for the zero vector, homogeneous); normalize of a non-zero vector has magnitude 1, and is a positive multiple of it; normalizing the zero vector yields Some of NaN components rather than None.", "quantifier": "every vector of each of the six vector types (exact), every zero vector in IEEE", "why_tests_cant": "The claim is about every value of the inputs (including NaN, infinities and signed zeros where IEEE is meant); a test samples a handful of literals.", "anchors": ["lib/mat.rs: magnitude, normalize for Mat2x1, Mat1x2, Mat3x1, Mat1x3, Mat4x1, Mat1x4"]}
{"id": "C14", "title": "Cross product laws", "statement": "cross is orthogonal to both operands, anti-commutative, bilinear, satisfies |u x v|^2 = |u|^2|v|^2-(u.v)^2; 2- and 4-vectors and square matrices return None for cross.", "quantifier": "every pair of 3-vectors", "why_tests_cant": "Polynomial identities over all values.", "anchors": ["lib/mat.rs: Mat3x1::cross, Mat1x3::cross, cross of the other types"]}
{"id": "C15", "title": "Dot product and triangle inequalities", "statement": "|u.v| <= |u||v| and |u+v| <= |u|+|v| for the library's dot, plus, magnitude (exact); dot, plus and mul_elem are commutative bit for bit in IEEE arithmetic.", "quantifier": "every pair of vectors", "why_tests_cant": "The claim is about every value of the inputs (including NaN, infinities and signed zeros where IEEE is meant); a test samples a handful of literals.", "anchors": ["lib/mat.rs: dot, plus, mul_elem, magnitude"]}
{"id": "C16", "title": "Trace, identity and sub-matrix refer to logical entries", "statement": "trace is the sum of the diagonal entries, iden has 1 on and 0 off the diagonal, submat_mat3 is the upper-left 3x3 block, in both layouts.", "quantifier": "every matrix and layout, every scalar arithmetic", "why_tests_cant": "The claim is about every value of the inputs (including NaN, infinities and signed zeros where IEEE is meant); a test samples a handful of literals.", "anchors": ["lib/mat.rs: Mat3::trace, Mat4::trace, Mat3::iden, Mat4::iden, Mat4::submat_mat3"]}
{"id": "C17", "title": "Quaternions form Hamilton's algebra", "statement": "mul satisfies i^2=j^2=k^2=ijk=-1, is associative, bilinear, has init() as unit; conjugate reverses products; length_squared is multiplicative (exact arithmetic).", "quantifier": "every triple of quaternions", "why_tests_cant": "Polynomial identities in 12 variables.", "anchors": ["lib/quat.rs: mul, add, minus, scale, conjugate, length_squared, init"]}
{"id": "C18", "title": "Quaternion inverse", "statement": "inverse() of a non-zero quaternion is a two-sided inverse (exact); it panics exactly when the squared length compares equal to zero.", "quantifier": "every quaternion; the panic condition also over all IEEE values", "why_tests_cant": "The claim is about every value of the inputs (including NaN, infinities and signed zeros where IEEE is meant); a test samples a handful of literals.", "anchors": ["lib/quat.rs: inverse"]}
{"id": "C19", "title": "Quaternion normalisation", "statement": "normalize / init_from_vals_normalize yield a unit quaternion that is a positive multiple of the input (exact); they panic exactly when the length is zero or NaN.", "quantifier": "every quaternion; the panic condition over all IEEE values", "why_tests_cant": "The claim is about every value of the inputs (including NaN, infinities and signed zeros where IEEE is meant); a test samples a handful of literals.", "anchors": ["lib/quat.rs: normalize, init_from_vals_normalize"]}
{"id": "C20", "title": "Axis-angle construction rotates by the angle about the axis", "statement": "init_from_axis_angle_radian((a,t)) with a non-zero is a unit quaternion and rotate_vector by it is Rodrigues' rotation of angle t about a/|a|; the degree version equals the radian one at t*pi/180.", "quantifier": "every non-zero axis, every angle, every vector", "why_tests_cant": "Trigonometric identity over all angles.", "anchors": ["lib/quat.rs: init_from_axis_angle_radian, init_from_axis_angle_degree, rotate_vector"]}
{"id": "C21", "title": "Unit quaternions act as rotations", "statement": "For unit q rotate_vector preserves lengths, dot products and cross products and is linear; rotating by p.mul(q) equals rotating by q then p; rotating by conjugate undoes it.", "quantifier": "every unit quaternion and vectors", "why_tests_cant": "Polynomial identities on the unit sphere.", "anchors": ["lib/quat.rs: rotate_vector, mul, conjugate"]}
{"id": "C22", "title": "Rotation matrix agrees with quaternion rotation", "statement": "to_rotation_matrix(true) applied to (p,1) gives (rotate_vector(p),1) for unit q, and its upper-left block is orthogonal with determinant 1.", "quantifier": "every unit quaternion and vector", "why_tests_cant": "Polynomial identities on the unit sphere.", "anchors": ["lib/quat.rs: to_rotation_matrix, rotate_vector", "lib/mat.rs: Mat4::mul_mat4x1"]}
{"id": "C23", "title": "Rotation matrix does not depend on the requested layout", "statement": "to_rotation_matrix(false) has the same entries index(i,j) as to_rotation_matrix(true).", "quantifier": "every quaternion", "why_tests_cant": "The claim is about every value of the inputs (including NaN, infinities and signed zeros where IEEE is meant); a test samples a handful of literals.", "anchors": ["lib/quat.rs: to_rotation_matrix", "lib/mat.rs: Mat4::init"]}
{"id": "C24", "title": "Translation matrix translates", "statement": "to_translation_matrix of init_from_translation(t) maps (p,1) to (p+t,1), in both layouts.", "quantifier": "every translation and point", "why_tests_cant": "The claim is about every value of the inputs (including NaN, infinities and signed zeros where IEEE is meant); a test samples a handful of literals.", "anchors": ["lib/quat.rs: init_from_translation, to_translation_matrix"]}
{"id": "C25", "title": "Axis-angle round trip", "statement": "to_axis_angle(init_from_axis_angle_radian((a,t))) returns (a/|a|, t) for t in [0,2pi) outside the small-angle band where it returns ((1,0,0),0), in which sin(t/2) < 1e-6.", "quantifier": "every axis and every angle", "why_tests_cant": "Needs acos(cos) over a continuum of angles.", "anchors": ["lib/quat.rs: to_axis_angle, init_from_axis_angle_radian"]}
{"id": "C26", "title": "Quaternion powers", "statement": "For q with non-zero vector part: pow(0)=1, pow(1)=q, pow(s+t)=pow(s).mul(pow(t)), |pow(t)|=|q|^t; q with zero vector part panics.", "quantifier": "every quaternion, every pair of real exponents", "why_tests_cant": "Trigonometric identities over all exponents.", "anchors": ["lib/quat.rs: pow"]}
{"id": "C27", "title": "Quaternion logarithm", "statement": "ln of q has scalar part ln|q| and vector part (v/|v|) acos(w/|q|).", "quantifier": "every quaternion with non-zero vector part", "why_tests_cant": "The claim ranges over all quaternions.", "anchors": ["lib/quat.rs: ln"]}
{"id": "C28", "title": "Linear interpolation", "statement": "interpolate_linear clamps t to [0,1], returns start at t<=0 and end at t>=1 and the affine combination in between, each component lying between those of the endpoints.", "quantifier": "every pair of quaternions and every t", "why_tests_cant": "The claim is about every value of the inputs (including NaN, infinities and signed zeros where IEEE is meant); a test samples a handful of literals.", "anchors": ["lib/quat.rs: interpolate_linear"]}
{"id": "C29", "title": "Spherical interpolation on the short arc stays on the unit sphere", "statement": "For unit start,end with 0 <= start.end <= 0.9999: result is unit for every t, equals start at t<=0 and end at t>=1, and moves with constant angular speed (angle to start is t*omega).", "quantifier": "every such pair and every t", "why_tests_cant": "Trigonometric identity over a continuum.", "anchors": ["lib/quat.rs: interpolate_slerp"]}
{"id": "C30", "title": "Spherical interpolation of opposite-hemisphere inputs stays on the unit sphere", "statement": "For unit start,end with -0.9999 <= start.end < 0 the result is unit for every t.", "quantifier": "every such pair and every t", "why_tests_cant": "A test of endpoints passes; the failure is in the interior.", "anchors": ["lib/quat.rs: interpolate_slerp"]}
{"id": "C31", "title": "Plane reflection and decomposition", "statement": "For a unit pure quaternion n: reflection_in_plane(p) = p-2(n.p)n, parallel_component_of_plane(p) = p-(n.p)n, orthogonal_component_of_plane(p) = (n.p)n, and the two components sum to p.", "quantifier": "every unit normal and vector", "why_tests_cant": "Polynomial identities.", "anchors": ["lib/quat.rs: reflection_in_plane, parallel_component_of_plane, orthogonal_component_of_plane"]}
{"id": "C32", "title": "Automatic w completes to a unit quaternion", "statement": "init_from_vals_auto_w(x,y,z) is a unit quaternion with w<=0 whenever x^2+y^2+z^2<=1, and keeps x,y,z.", "quantifier": "every x,y,z", "why_tests_cant": "The claim is about every value of the inputs (including NaN, infinities and signed zeros where IEEE is meant); a test samples a handful of literals.", "anchors": ["lib/quat.rs: init_from_vals_auto_w"]}
{"id": "C33", "title": "Bounding-box overlap is symmetric", "statement": "a.intersect(b) = b.intersect(a) for axis-aligned boxes, and it never panics for two boxes.", "quantifier": "all boxes, including NaN, infinite and inverted ones, IEEE arithmetic", "why_tests_cant": "The claim is about every value of the inputs (including NaN, infinities and signed zeros where IEEE is meant); a test samples a handful of literals.", "anchors": ["lib/bound.rs: AxisAlignedBBox::intersect"]}
{"id": "C34", "title": "Bounding-box overlap means sharing a point", "statement": "For boxes with lower <= upper on each axis (infinite bounds allowed) intersect is true exactly if some point lies in both.", "quantifier": "all proper boxes in IEEE arithmetic", "why_tests_cant": "The claim is about every value of the inputs (including NaN, infinities and signed zeros where IEEE is meant); a test samples a handful of literals.", "anchors": ["lib/bound.rs: AxisAlignedBBox::intersect"]}
{"id": "C35", "title": "Union is the smallest enclosing box", "statement": "get_union over boxes without NaN yields a box that contains every operand, is contained in every box that contains all operands, does not depend on operand order nor on the receiver's old value; the union of nothing is the inverted infinite box.", "quantifier": "every finite list of boxes of any length", "why_tests_cant": "Ranges over lists of arbitrary length and all orders.", "anchors": ["lib/bound.rs: AxisAlignedBBox::get_union"]}
{"id": "C36", "title": "Every shape lies inside its bounding box", "statement": "Each point of a point/ray/sphere/plane/segment/box/prism built with init satisfies the bounds returned by get_bound (exact arithmetic).", "quantifier": "every shape parameter and every point of the shape", "why_tests_cant": "Infinitely many points per shape.", "anchors": ["lib/bound.rs: AxisAlignedBBox::init", "lib/point.rs:16-25", "lib/ray.rs:18-33", "lib/sphere.rs:17-27", "lib/plane.rs:17-35", "lib/line.rs:17-67", "lib/rbox.rs:17-27", "lib/triprism.rs:30-121"]}
{"id": "C37", "title": "Longest axis", "statement": "get_longest_axis returns an axis whose extent is maximal, with that extent.", "quantifier": "every box", "why_tests_cant": "The comparator is only wrong for boxes whose z extent is not maximal; no test exists.", "anchors": ["lib/bound.rs: AxisAlignedBBox::get_longest_axis"]}
{"id": "C38", "title": "Centroid lies in the box", "statement": "get_centroid of a finite proper box is the midpoint and lies inside the box.", "quantifier": "every finite proper box, exact and IEEE arithmetic", "why_tests_cant": "IEEE overflow appears only for huge bounds.", "anchors": ["lib/bound.rs: AxisAlignedBBox::get_centroid"]}
{"id": "C39", "title": "Intersection queries do not depend on the receiver", "statement": "a.get_intersect(b) and b.get_intersect(a) return the same flag and location for every supported mixed pair.", "quantifier": "every pair of shapes of different kinds, arbitrary field values, IEEE arithmetic", "why_tests_cant": "The claim is about every value of the inputs (including NaN, infinities and signed zeros where IEEE is meant); a test samples a handful of literals.", "anchors": ["lib/point.rs:39-80", "lib/ray.rs:54-265", "lib/sphere.rs:41-130", "lib/plane.rs:56-94", "lib/line.rs:83-94", "lib/rbox.rs:41-63", "lib/triprism.rs:148-371"]}
{"id": "C40", "title": "A location is returned exactly with a hit", "statement": "get_intersect never returns (true, None) or (false, Some(_)).", "quantifier": "every pair of shapes, arbitrary field values, IEEE arithmetic", "why_tests_cant": "The claim is about every value of the inputs (including NaN, infinities and signed zeros where IEEE is meant); a test samples a handful of literals.", "anchors": ["lib/i_shape.rs: IShape::get_intersect and its seven implementations"]}
{"id": "C41", "title": "Supported pairs never panic, unsupported pairs panic only if bounds overlap", "statement": "get_intersect panics exactly when the bounding boxes overlap and the pair is outside the documented table of supported pairs.", "quantifier": "every pair of shapes, arbitrary field values, IEEE arithmetic", "why_tests_cant": "The claim is about every value of the inputs (including NaN, infinities and signed zeros where IEEE is meant); a test samples a handful of literals.", "anchors": ["lib/point.rs:39-80", "lib/ray.rs:54-265", "lib/sphere.rs:41-130", "lib/plane.rs:56-94", "lib/line.rs:83-94", "lib/rbox.rs:41-63", "lib/triprism.rs:148-371"]}
{"id": "C42", "title": "Point-point query", "statement": "Two points intersect exactly when all coordinates are within the receiver's vicinity of each other.", "quantifier": "every pair of points and every vicinity", "why_tests_cant": "The claim is about every value of the inputs (including NaN, infinities and signed zeros where IEEE is meant); a test samples a handful of literals.", "anchors": ["lib/point.rs: Point3::get_intersect"]}
{"id": "C43", "title": "Sphere-point query never misses", "statement": "Every point of the closed ball is reported as a hit, at that point (exact arithmetic).", "quantifier": "every ball and every point in it", "why_tests_cant": "Continuum of points.", "anchors": ["lib/sphere.rs: Sphere::get_intersect (Point)"]}
{"id": "C44", "title": "Sphere-point query reports only points of the ball", "statement": "A reported hit lies in the closed ball.", "quantifier": "every ball and every point", "why_tests_cant": "Fails only in the eight corners between ball and bounding cube.", "anchors": ["lib/sphere.rs: Sphere::get_intersect (Point)"]}
{"id": "C45", "title": "Box-point query is exact", "statement": "A point is reported inside a box exactly when each coordinate is within size of the centre (exact), and exactly when it lies within the rounded bounds (IEEE).", "quantifier": "every box and point", "why_tests_cant": "The claim is about every value of the inputs (including NaN, infinities and signed zeros where IEEE is meant); a test samples a handful of literals.", "anchors": ["lib/rbox.rs: RecBox::get_intersect"]}
{"id": "C46", "title": "Plane-point query", "statement": "A point is reported on a plane exactly when its distance to the plane is at most the vicinity.", "quantifier": "every plane with non-zero normal, every point and vicinity", "why_tests_cant": "Continuum of configurations.", "anchors": ["lib/plane.rs: Plane::get_intersect (Point)"]}
{"id": "C47", "title": "Ray-point query", "statement": "A point lying exactly on the ray is reported as a hit; a reported location is on the ray and within 2*vicinity of the point in each coordinate.", "quantifier": "every ray and point", "why_tests_cant": "Fails exactly for rays parallel to a coordinate plane; the tests use direction (1,1,1) only.", "anchors": ["lib/ray.rs: Ray3::get_intersect (Point)"]}
{"id": "C48", "title": "Ray-sphere query returns the first hit", "statement": "It reports a hit exactly when the ray meets the sphere surface, and the location is the first surface point along the ray (exact).", "quantifier": "every ray with non-zero direction, every sphere with r>=0", "why_tests_cant": "Continuum of configurations.", "anchors": ["lib/ray.rs: Ray3::get_intersect (Sphere)"]}
{"id": "C49", "title": "Ray-plane query is exact for front faces", "statement": "For a ray pointing against the plane normal it reports a hit exactly if the ray meets the plane, at the unique meeting point; a ray inside the plane hits at its origin; a ray pointing along the normal is never reported.", "quantifier": "every ray and plane", "why_tests_cant": "Continuum of configurations.", "anchors": ["lib/ray.rs: Ray3::get_intersect (Plane)"]}
{"id": "C50", "title": "Intersecting rays are found", "statement": "If two non-parallel rays meet at a point, the query reports exactly that point; if they are collinear and overlap it reports a common point.", "quantifier": "every pair of rays whose directions are not within the parallel tolerance", "why_tests_cant": "Continuum of configurations.", "anchors": ["lib/ray.rs: Ray3::get_intersect (Ray)"]}
{"id": "C51", "title": "Reported ray-ray hits are real", "statement": "A reported location lies on both rays.", "quantifier": "every pair of rays", "why_tests_cant": "The coplanarity test is vacuous, but only skew rays with overlapping bounds show it.", "anchors": ["lib/ray.rs: Ray3::get_intersect (Ray)"]}
{"id": "C52", "title": "Sphere-sphere query is exact", "statement": "Two balls with radii >= 0, not both 0, are reported intersecting exactly when their centre distance is at most the sum of radii, the location lies in both balls, and swapping the receiver gives the same answer (exact).", "quantifier": "every pair of balls", "why_tests_cant": "Continuum of configurations.", "anchors": ["lib/sphere.rs: Sphere::get_intersect (Sphere)"]}
{"id": "C53", "title": "Sphere-plane query never misses and reports plane points", "statement": "Whenever the ball meets the plane a hit is reported; every reported location is the orthogonal projection of the centre onto the plane (exact).", "quantifier": "every ball and plane", "why_tests_cant": "Continuum of configurations.", "anchors": ["lib/sphere.rs: Sphere::get_intersect (Plane)"]}
{"id": "C54", "title": "Sphere-plane query reports only meeting pairs", "statement": "A reported ball is within radius of the plane.", "quantifier": "every ball and plane", "why_tests_cant": "Fails exactly for balls entirely behind the plane.", "anchors": ["lib/sphere.rs: Sphere::get_intersect (Plane)"]}
{"id": "C55", "title": "Prism-point query is exact", "statement": "For a non-degenerate base (any vertex order) and positive height a point is reported inside exactly when it is a point of the prism (base triangle swept along its unit normal by height) (exact).", "quantifier": "every prism and point", "why_tests_cant": "Continuum of configurations.", "anchors": ["lib/triprism.rs: TriPrism::init, get_intersect (Point)"]}
{"id": "C56", "title": "Prism-point query for negative heights", "statement": "For negative height a point of the swept prism is reported inside.", "quantifier": "every prism with negative height and every point of it", "why_tests_cant": "No test uses a negative height.", "anchors": ["lib/triprism.rs: TriPrism::init, get_intersect (Point)"]}
{"id": "C57", "title": "Prism-segment query", "statement": "For a non-degenerate prism and a segment with distinct ends a hit is reported exactly when segment and prism share a point; the location is on both; if the start is outside and so is the end, it is the first shared point (exact).", "quantifier": "every prism of positive height and every segment", "why_tests_cant": "Continuum of configurations.", "anchors": ["lib/triprism.rs: TriPrism::get_intersect (Line)"]}
{"id": "C58", "title": "Prism-segment query for degenerate segments", "statement": "A segment with equal ends outside the prism is not reported as a hit.", "quantifier": "every prism and every degenerate segment", "why_tests_cant": "Needs a NaN to flow through five half-space tests.", "anchors": ["lib/triprism.rs: TriPrism::get_intersect (Line)", "lib/ray.rs: Ray3::init"]}
{"id": "C59", "title": "Support points are extreme", "statement": "get_support(v) for v<>0 returns a point of the sphere/box/prism whose product with v is maximal over the shape; None for v=0 (point: always its location; ray, plane: None).", "quantifier": "every shape and direction", "why_tests_cant": "Maximum over a continuum.", "anchors": ["lib/sphere.rs:131-146", "lib/rbox.rs:64-109", "lib/triprism.rs:372-397", "lib/point.rs:81-83"]}
{"id": "C60", "title": "GJK 'false' is sound", "statement": "If query_intersect(a,b) returns Some(false), the two balls have no common interior point (exact).", "quantifier": "every pair of spheres with radii >= 0, any number of iterations", "why_tests_cant": "Unbounded loop over a continuum.", "anchors": ["lib/intersect_gjk.rs: query_intersect"]}
{"id": "C61", "title": "GJK 'true' is sound", "statement": "If query_intersect(a,b) returns Some(true), the two balls intersect (exact).", "quantifier": "every pair of spheres with radii >= 0, any number of iterations", "why_tests_cant": "Unbounded loop; fails only when the centres differ along x only.", "anchors": ["lib/intersect_gjk.rs: query_intersect, contains_minkowski_origin"]}
{"id": "C62", "title": "GJK does not depend on argument order", "statement": "query_intersect(a,b) = query_intersect(b,a).", "quantifier": "every pair of spheres", "why_tests_cant": "The tests try one order per pair.", "anchors": ["lib/intersect_gjk.rs: query_intersect"]}
{"id": "C63", "title": "GJK never fails its internal assertions", "statement": "query_intersect on two spheres never panics: the simplex never exceeds three vertices and a support point always exists (exact); on any other pair of shapes it panics immediately.", "quantifier": "every pair of shapes, every iteration", "why_tests_cant": "Loop invariant over unboundedly many iterations.", "anchors": ["lib/intersect_gjk.rs: query_intersect, contains_minkowski_origin, support"]}
{"id": "C64", "title": "Vicinity", "statement": "set_vicinity(e) stores |e|, so negative and positive tolerances behave alike; within_vicinity(a,b) holds exactly when |a-b| <= vicinity (exact), and with a NaN operand or NaN vicinity it is false (IEEE); setting it changes nothing else of a shape.", "quantifier": "all shapes and scalars", "why_tests_cant": "The claim is about every value of the inputs (including NaN, infinities and signed zeros where IEEE is meant); a test samples a handful of literals.", "anchors": ["lib/i_vicinity.rs", "lib/point.rs:86-97", "lib/ray.rs:271-282", "lib/sphere.rs:149-160", "lib/plane.rs:100-111", "lib/line.rs:100-111", "lib/rbox.rs:112-123", "lib/triprism.rs:400-411"]}
{"id": "C65", "title": "Rounding error of dot products and matrix products", "statement": "In IEEE arithmetic without overflow the computed dot product differs from the exact one by at most a small multiple of the unit roundoff times sum|u_i v_i| plus an underflow term; each entry of a matrix product likewise.", "quantifier": "all finite operands whose exact intermediate results do not overflow, binary32 and binary64", "why_tests_cant": "Worst-case rounding over 2^384 inputs.", "anchors": ["lib/mat.rs: Mat3x1::dot, Mat3::mul"]}
{"id": "C66", "title": "Nearly parallel spherical interpolation stays close to the unit sphere", "statement": "For unit start,end with |start.end| > 0.9999 (where interpolate_slerp falls back to linear weights) the squared length of the result is between 1-1/20000 and 1 for every t (exact).", "quantifier": "every such pair and every t", "why_tests_cant": "The bound is over a continuum of pairs and parameters; the worst case lies in the interior.", "anchors": ["lib/quat.rs: interpolate_slerp"]}
{"id": "C67", "title": "GJK ends with the right answer", "statement": "query_intersect on two spheres of positive total radius terminates, with Some(true) exactly when the balls intersect (exact).", "quantifier": "every pair of spheres with radii >= 0", "why_tests_cant": "Termination and correctness of an unbounded loop over a continuum of inputs; fails to end only on a measure-zero set.", "anchors": ["lib/intersect_gjk.rs: query_intersect"]}
{"id": "C68", "title": "GJK on an axis is one comparison", "statement": "When the centres differ in x only, or both radii are 0, query_intersect(a,b) answers after one iteration, true exactly when a.x > b.x - (ra+rb).", "quantifier": "every such pair of spheres", "why_tests_cant": "Continuum of inputs.", "anchors": ["lib/intersect_gjk.rs: query_intersect, contains_minkowski_origin"]}
{"id": "C69", "title": "GJK never panics in f32/f64", "statement": "query_intersect on two spheres built from finite f32/f64 numbers never panics.", "quantifier": "every pair of spheres, every number of iterations", "why_tests_cant": "Unbounded loop over 2^256 inputs; fails by underflow only.", "anchors": ["lib/intersect_gjk.rs: query_intersect, support", "lib/sphere.rs: get_support"]}
{"id": "C70", "title": "Support vertex of boxes and prisms in f32/f64", "statement": "For a direction of non-zero computed length get_support of a box or prism returns a vertex whose computed product with the direction is maximal, or panics, exactly when one of these products is NaN.", "quantifier": "all f32/f64 values including NaN and infinities", "why_tests_cant": "All floating-point inputs.", "anchors": ["lib/rbox.rs: get_support", "lib/triprism.rs: get_support"]}
{"id": "C71", "title": "Rounding error of magnitudes and normalised vectors", "statement": "In IEEE arithmetic, if the computed length is finite and the exact squared length is at least 2^(6-emax), magnitude is accurate to a relative error of (1+u)^(n+2)-1, every component of the normalised vector (or quaternion) is finite and within (n+4)u relative plus half the smallest subnormal of the exact one, and the length of the normalised vector differs from 1 by at most (n+4)u plus an underflow term. Without the lower bound normalising a nonzero finite vector can give infinities.", "quantifier": "all finite operands in every binary format with at least 10 bits of precision, six vector types and quaternions", "why_tests_cant": "Worst-case rounding over all bit patterns.", "anchors": ["lib/mat.rs: Mat2x1/Mat1x2/Mat3x1/Mat1x3/Mat4x1/Mat1x4::magnitude, normalize", "lib/quat.rs: Quat::length, normalize"]}
{"id": "C72", "title": "Indexing vectors", "statement": "Reading element i of a vector returns its i-th component and writing replaces exactly that component; an index past the end panics.", "quantifier": "six vector types, all indices, every scalar arithmetic", "why_tests_cant": "All indices and contents, including the panic for every out-of-range index.", "anchors": ["lib/mat.rs: Index/IndexMut for Mat2x1, Mat1x2, Mat3x1, Mat1x3, Mat4x1, Mat1x4"]}
{"id": "C73", "title": "Element-wise vector operations", "statement": "plus, minus, mul_elem, div and scale of each vector type act on each component separately and never fail; default is all zero and size is the number of components.", "quantifier": "six vector types, all contents, every scalar arithmetic", "why_tests_cant": "All contents of six macro-generated types.", "anchors": ["lib/mat.rs: plus, minus, mul_elem, div, scale, default, size"]}
{"id": "C74", "title": "Matrix normalize and remaining methods", "statement": "Mat3/Mat4 normalize divides every entry by the bottom-right entry in either layout; in exact arithmetic a zero entry gives NaN there, in IEEE arithmetic a finite nonzero one becomes exactly 1. dot returns None, magnitude panics, default is all zero.", "quantifier": "all matrices, both layouts, every scalar arithmetic", "why_tests_cant": "All contents and both layouts.", "anchors": ["lib/mat.rs: Mat3/Mat4 normalize, dot, magnitude, size, default"]}
{"id": "C75", "title": "Default values and unimplemented bounds", "statement": "The default quaternion is the identity of mul and rotates no finite vector, in IEEE arithmetic. The default bounding box meets every box, even with NaN bounds, and encloses every box without NaN; its centroid is NaN. The default prism reports every point as inside. BoundSphere and get_shortest_separation always panic.", "quantifier": "all operands", "why_tests_cant": "All operands including NaN and infinities.", "anchors": ["lib/quat.rs: Default", "lib/bound.rs: AxisAlignedBBox", "lib/bound_sphere.rs: BoundSphere", "lib/triprism.rs: Default"]}
{"id": "C76", "title": "GJK decides overlap of open balls; touching balls are a binary search", "statement": "When the centres differ in y or z and ra+rb > 0, every answer of query_intersect is true exactly when |ca-cb| < ra+rb (exact). On touching balls whose centre line makes the angle p with the x axis the loop ends exactly when (3p-2pi)/(2pi-p) is an integer over a power of two, and then answers false.", "quantifier": "every such pair of spheres, any number of iterations", "why_tests_cant": "Non-termination on a dense, uncountable set of inputs cannot be observed by running the loop.", "anchors": ["lib/intersect_gjk.rs: query_intersect, contains_minkowski_origin"]}
{"id": "C77", "title": "Constructors check lengths and keep their data", "statement": "Each shape constructor succeeds exactly when its slices have 3 (prism: 9) entries and otherwise stops at its assertion; the built shape returns the given data unchanged (directions and normals normalised, a prism also its height vector), its type tag, and |e| as vicinity after set_vicinity(e).", "quantifier": "every arithmetic, every slice of every length, every content including NaN and infinities", "why_tests_cant": "All slice lengths and all float contents cannot be enumerated.", "anchors": ["lib/point.rs: init", "lib/ray.rs: init", "lib/sphere.rs: init", "lib/plane.rs: init", "lib/line.rs: init", "lib/rbox.rs: init", "lib/triprism.rs: init", "lib/i_shape.rs: get_shape_data"]}
{"id": "C78", "title": "Bounding boxes in f32/f64 lose no point", "statement": "In every IEEE format the box of a shape built from finite floats contains the rounding of every real point of the shape, hence every representable point, and the box test never rejects two shapes that share a real point - even if the box computation rounds or overflows.", "quantifier": "all seven shapes, all finite parameters, all real points, every IEEE format", "why_tests_cant": "Rounding could push a bound inwards by one ulp for rare parameters; only a proof covers all of them.", "anchors": ["lib/bound.rs: init, intersect", "lib/line.rs: init", "lib/triprism.rs: init"]}
{"id": "C79", "title": "Sphere-sphere query in f32/f64", "statement": "For coordinates up to 2^(emax/2-3), the query answers a hit when (1+u)^4 (D + 2 sqrt eta) <= (1-u)(ra+rb) and a miss when (1+u)(ra+rb) < (1-u)^4 D - 2 sqrt eta, where D is the true distance of the centres; outside these limits overflow and underflow give wrong answers.", "quantifier": "every IEEE format of more than 9 bits, all spheres within the limits", "why_tests_cant": "The claim bounds rounding over all floats and needs witnesses at the edge of the exponent range.", "anchors": ["lib/sphere.rs: get_intersect", "lib/mat.rs: magnitude"]}
{"id": "C80", "title": "Plane queries in f32/f64", "statement": "Plane-point and sphere-plane queries answer as exact arithmetic would whenever the true signed distance differs from the threshold by more than 13 u (|o|+|p|) + 9 eta; the comparison with the vicinity itself adds no error.", "quantifier": "every IEEE format of more than 9 bits, all planes, points and spheres of moderate size with a normal that does not underflow", "why_tests_cant": "Rounding of the normalised normal and of the two dot products varies over all floats.", "anchors": ["lib/plane.rs: get_intersect", "lib/sphere.rs: get_intersect", "lib/i_vicinity.rs: within_vicinity"]}
{"id": "C81", "title": "Quaternion products in f32/f64", "statement": "The running product of any number n of quaternions of length at most m differs from the true product by at most M^n - m^n + 9 n eta M^n with M = m (1 + 9u), and stays finite while M^n (1 + 9 n eta) <= 2^(emax-6).", "quantifier": "every IEEE format of more than 9 bits, lists of any length", "why_tests_cant": "Error growth over lists of arbitrary length and all floats.", "anchors": ["lib/quat.rs: mul", "lib/quat.rs: init"]}
{"id": "C82", "title": "Rotation and reflection of vectors in f32/f64", "statement": "rotate_vector and reflection_in_plane differ from the exact q p q* (q p q) by at most 19 u |q|^2 |p| + 28 eta and do not overflow; a quaternion of length 1 up to 9u keeps lengths up to 38 u.", "quantifier": "every IEEE format of more than 9 bits, |q| <= 2, |p| <= 2^(emax-8)", "why_tests_cant": "Bounds the rounding of 32 multiplications over all floats.", "anchors": ["lib/quat.rs: rotate_vector", "lib/quat.rs: reflection_in_plane"]}
{"id": "C83", "title": "Rotation matrix and linear interpolation in f32/f64", "statement": "Every entry of the row-major rotation matrix differs from the exact one by at most 7 u (1 + |q|^2) + 5 eta; the last row and column are exact. Linear interpolation differs from the exact combination by at most 4 u ((1-c)|a| + c|b|) + 6 eta, c the clamped parameter.", "quantifier": "every IEEE format of more than 9 bits, |q| <= 2, interpolated quaternions up to 2^(emax-4)", "why_tests_cant": "Bounds rounding over all floats.", "anchors": ["lib/quat.rs: to_rotation_matrix", "lib/quat.rs: interpolate_linear"]}
{"id": "C84", "title": "Ray against plane in f32/f64", "statement": "With s the signed distance from the ray origin to the plane along the unit normal and c the cosine of normal and direction: c < -21u and s <= -E gives a hit, c < -21u and s >= E a miss, c > 21u a miss, E = 13u(|o|+|p|)+13 eta. With c <= -42u the returned point is within (3E + 57u s/c)/|c| of the true one.", "quantifier": "every IEEE format of more than 9 bits, coordinates up to 2^(emax/2-3)", "why_tests_cant": "Error margins over all floats, including overflowing and underflowing quotients.", "anchors": ["lib/ray.rs: get_intersect (Plane)"]}
{"id": "C85", "title": "Ray against sphere in f32/f64", "statement": "With b, c and the discriminant D of the ray/sphere quadratic over the reals and M = |o-centre|^2 + r^2: D >= 38uM+20eta together with b <= -(13u|o-centre|+4eta) or c <= -(7uM+6eta) gives a hit; D below -(38uM+20eta), or b and c both above their margins, gives a miss.", "quantifier": "every IEEE format of more than 9 bits, coordinates and radius up to 2^(emax/2-3)", "why_tests_cant": "Error margins over all floats.", "anchors": ["lib/ray.rs: get_intersect (Sphere)"]}
{"id": "C86", "title": "The point where a ray hits a sphere, in f32/f64", "statement": "Whenever the ray/sphere query answers with a point p, p is finite and within 11u|t| + u|o| + 3eta of a point x of the ray's line at parameter t >= -(3u n + 3 sqrt eta), and the squared distance of x from the centre is r^2 up to 80u(n^2+r^2)+30eta, n the distance of origin and centre.", "quantifier": "every IEEE format of more than 9 bits, coordinates and radius up to 2^(emax/2-3), every hit", "why_tests_cant": "No margin: holds for grazing rays too.", "anchors": ["lib/ray.rs: get_intersect (Sphere)"]}
{"id": "C87", "title": "Quaternion inverse and plane components in f32/f64", "statement": "For finite q with 2^(6-emax) <= |q|^2 and |q| <= 2^(emax/2-3) the inverse does not panic, is finite and within 8u/|q| + 2 eta of conj(q)/|q|^2, so its products with q are 1 up to 8u + 2 eta |q|. For |q| <= 2 and |p| <= 2^(emax-8) the components of p along and across the plane are within u(2+11|q|^2)|p| + 17 eta of half the sum and half the difference of p and q p q, which for a unit normal are the projections.", "quantifier": "every IEEE format of more than 9 bits, all finite q and p within the limits", "why_tests_cant": "Error bounds over all floats; the lower limit on |q|^2 guards against underflow, where the code panics (C18).", "anchors": ["lib/quat.rs: inverse", "lib/quat.rs:274-304"]}
{"id": "C88", "title": "GJK query against the sphere-sphere query", "statement": "When the GJK query answers on two spheres, its answer is the flag of get_intersect. False: centres that differ in x only, touching balls, and in f64 balls with a gap of more than 3/10000 at ordinary scale. Proved in exact arithmetic for balls that do not touch and whose centres differ in y or z.", "quantifier": "all centres and radii with positive sum, any number of iterations", "why_tests_cant": "Agreement of two algorithms over all inputs; the number of iterations is unbounded near contact.", "anchors": ["lib/intersect_gjk.rs:65-103", "lib/sphere.rs:53-75"]}
{"id": "C89", "title": "GJK 'false' and panics in f32/f64", "statement": "On spheres of moderate size (at most 2^(emax/2-3)), if the query answers false then the centres are at least ra + rb - 17u(|ca|+|cb|+|ra|+|rb|) - u 2^(3-emax/2) apart. False when the search direction overflows (balls of radius 2^350 with centres 2^349 apart). Proved when the direction in which it gives up does not over- or underflow when squared; with all directions of that kind the query does not panic, and balls that overlap by more than the margin are never reported separate.", "quantifier": "every IEEE format of more than 9 bits, all finite spheres of moderate size, any number of iterations", "why_tests_cant": "Rounding margin over all inputs and executions.", "anchors": ["lib/intersect_gjk.rs:6-103", "lib/sphere.rs:131-146"]}
{"id": "C90", "title": "GJK on tiny spheres in f32/f64", "statement": "If all coordinates and radii are at most 2^-53 (f32) or 2^-362 (f64), triple products underflow: the query ends in its first iteration and only compares the rounded right end of the first ball with the rounded left end of the second along x. In particular tiny balls with centres in the plane x = 0 always intersect, whatever their distance.", "quantifier": "every IEEE format of more than 9 bits, all spheres of that size, any fuel", "why_tests_cant": "A whole range of inputs is decided by underflow; sampling ordinary magnitudes never reaches it.", "anchors": ["lib/intersect_gjk.rs:25-63", "lib/intersect_gjk.rs:65-103"]}
{"id": "C91", "title": "Ray-ray query, every case", "statement": "Exact arithmetic. Rays with directions that are not near-parallel: a hit exactly when the orthants spanned by the two rays have a common point, at arc length (distance of the first origin from the second line) / (sine of the angle) on the first ray; this location is on both rays exactly when the rays meet. Near-parallel: a hit exactly when the orthants meet and the second origin is within the first ray's vicinity of the first line; the location is the first origin if the second origin is behind it, else the point at arc length |p-o|.", "quantifier": "all origins, non-zero directions and vicinities", "why_tests_cant": "A complete characterisation over all pairs of rays, including the false hits on skew rays.", "anchors": ["lib/ray.rs:54-140", "lib/bound.rs:110-132"]}
{"id": "C92", "title": "NaN data and zero directions", "statement": "In exact arithmetic and every IEEE format: a point with a NaN coordinate misses points, planes and rays; a point with all coordinates NaN is inside every box, prism and sphere; a sphere of radius NaN is hit by every point, plane, ray and sphere; the stored direction of a ray or plane built with the zero vector is NaN; a ray with a NaN direction misses points and rays, hits every plane at a NaN location, and hits a sphere at NaN exactly when the bounds overlap; a plane with a NaN normal misses points and hits every sphere and ray at NaN.", "quantifier": "both arithmetics, all other operands, including infinite and NaN ones", "why_tests_cant": "Both arithmetics and all partner shapes; NaN data is outside every test.", "anchors": ["lib/point.rs:39-80", "lib/sphere.rs:41-130", "lib/ray.rs:17-262", "lib/plane.rs:16-94", "lib/bound.rs:110-132"]}
{"id": "C93", "title": "Directions whose square over- or underflows", "statement": "IEEE arithmetic. If some squared component of a finite direction reaches 2^emax, the stored direction is zero: the ray then misses every plane its origin is off by more than 13u(|p|+|o|)+9eta and every sphere its origin is outside of by 7u(D^2+r^2)+6eta < D^2-r^2, whatever its direction, and otherwise can only answer its own origin. If all squared components are below 2^(2-emax-prec), the stored direction has NaN where the direction has a zero entry, and is infinite in every entry otherwise.", "quantifier": "every IEEE format of more than 9 bits, all moderate origins, planes and spheres", "why_tests_cant": "A range of inputs at the ends of the exponent range, for all partner shapes.", "anchors": ["lib/ray.rs:17-35", "lib/ray.rs:166-262", "lib/mat.rs:415-424"]}
{"id": "C94", "title": "Mat4 inverse in IEEE arithmetic", "statement": "IEEE arithmetic, entries finite and of absolute value at most K. If |det| >= 423 u K^4, the inverse is Some, row-major, with entry (i,j) within u(91K^3/|det| + 2534 K^7/det^2) + eta of entry (j,i) of the true inverse. None is answered only when |det| < 2u + 212uK^4; there is never a panic. The converse fails: a singular f64 matrix of integers is given an inverse.", "quantifier": "every IEEE format of more than 9 bits, every 4x4 matrix in either layout, K >= 1 with 128K^4 <= 2^emax", "why_tests_cant": "An error bound over all matrices with a given bound on their entries.", "anchors": ["lib/mat.rs:1525-1656"]}
{"id": "C95", "title": "Queries commute with moving and enlarging", "statement": "Exact arithmetic. If two shapes of any kinds are rebuilt with every position mapped by x -> s x + t, every length and tolerance multiplied by s, directions and normals kept, get_intersect gives the same answer (hit, miss or panic) and the location is mapped in the same way. Without enlarging the tolerance this fails.", "quantifier": "all s > 0, all t, all pairs of the seven kinds, all data including negative radii, zero directions and degenerate prisms", "why_tests_cant": "A relation between two runs for a continuum of scalings, translations and shapes.", "anchors": ["lib/ray.rs:54-265", "lib/sphere.rs:41-146", "lib/plane.rs:56-94", "lib/rbox.rs:41-109", "lib/triprism.rs:148-397", "lib/point.rs:39-80", "lib/bound.rs:110-132"]}
{"id": "C96", "title": "GJK and support functions commute with moving and enlarging", "statement": "Exact arithmetic. Under the same map the GJK query gives the same outcome after every number of iterations, and the support function in a direction scaled by k > 0 gives the moved support point (or the same None or panic).", "quantifier": "all s > 0, t, k > 0, every iteration count, all pairs of kinds", "why_tests_cant": "Holds at every iteration of a loop that need not terminate.", "anchors": ["lib/intersect_gjk.rs:6-103", "lib/sphere.rs:132-146"]}
{"id": "C97", "title": "Queries commute with the symmetries of the axes", "statement": "Exact arithmetic. Renaming the axes cyclically, quarter turns and mirror images (no mirror images for prisms) leave the answer of get_intersect unchanged up to moving the location. False for a ray and a point, whose comparison singles out the y axis; true for every other pair of kinds, flat prisms apart.", "quantifier": "every word in the generators, all pairs, all data", "why_tests_cant": "A relation between runs on transformed inputs, for all inputs.", "anchors": ["lib/ray.rs:54-265", "lib/sphere.rs:41-146", "lib/plane.rs:56-94", "lib/rbox.rs:41-109", "lib/triprism.rs:148-397", "lib/point.rs:39-80", "lib/bound.rs:110-132"]}
{"id": "C98", "title": "Growing a shape never loses a hit", "statement": "If a sphere's radius, a box's half edge, or the tolerance of a point, plane or ray is replaced by a larger finite one (0 <= old <= new), every get_intersect query that was a hit stays a hit, whichever shape is the receiver. Holds in exact arithmetic and in every IEEE format with no allowance for rounding. In exact arithmetic also for prisms made higher and segments made longer.", "quantifier": "every growth, every other shape (its data may be infinite or NaN), every IEEE format", "why_tests_cant": "A relation between two runs over all pairs of inputs, including those at rounding boundaries.", "anchors": ["lib/sphere.rs:41-130", "lib/ray.rs:54-213", "lib/plane.rs:56-94", "lib/point.rs:39-80", "lib/rbox.rs:41-63", "lib/bound.rs:110-132", "lib/i_vicinity.rs:1-4"]}
{"id": "C99", "title": "Prism against point in IEEE arithmetic", "statement": "Let K bound the coordinates and the height, let u be the unit roundoff and let tol = 150000 u K (K^2/2A)^2, where A is the area of the base triangle. In every IEEE format of more than 9 bits a point whose ball of radius tol lies inside the ideal prism is reported as a hit at its own position, and a point farther than tol from the ideal prism is reported as a miss, whichever shape is the receiver.", "quantifier": "every non-degenerate base triangle, height, point, IEEE format, and tolerance setting, within the stated range of magnitudes", "why_tests_cant": "An error bound through the facet construction and the twelve sign tests, over all finite inputs.", "anchors": ["lib/triprism.rs:30-121", "lib/triprism.rs:148-371", "lib/point.rs:39-80"]}
{"id": "C100", "title": "Prism against segment in IEEE arithmetic", "statement": "With the tolerance of C99: a segment through a point deep inside the prism is a hit, a segment staying far from the prism is a miss, and a reported point is close to both shapes.", "quantifier": "every non-degenerate prism, every segment that is not tiny, every IEEE format", "why_tests_cant": "The answer depends on the rounding of five ray-plane intersections; the failing inputs are isolated.", "anchors": ["lib/triprism.rs:148-371", "lib/ray.rs:54-213", "lib/line.rs:17-94"]}
{"id": "C101", "title": "Quaternion from axis and angle in IEEE arithmetic", "statement": "If the platform's sine and cosine are wrong by at most d, the quaternion built from an axis of moderate size and a finite angle is finite and within 3d + 10u of the unit quaternion of the turn; with the angle in degrees the conversion adds a relative u/8 + 2^-60 per degree; rotating a vector by it gives Rodrigues' rotation up to (7d + 43u) times the length of the vector.", "quantifier": "every IEEE format of more than 9 bits, every libm of accuracy d, every axis, angle and vector in range", "why_tests_cant": "An error bound over all finite inputs and all libm implementations of a given accuracy.", "anchors": ["lib/quat.rs:223-258"]}
{"id": "C102", "title": "Axis and angle of a quaternion in IEEE arithmetic", "statement": "The axis reported for a finite quaternion of length near 1 is within 11u of the direction of its vector part, the angle is within 2d of twice the arc cosine of its scalar part, and building a quaternion from them returns the original.", "quantifier": "every IEEE format of at least 20 bits, every libm of accuracy d, every finite quaternion of length near 1", "why_tests_cant": "The failing quaternions are those whose scalar part was rounded above 1.", "anchors": ["lib/quat.rs:199-243"]}
{"id": "C103", "title": "Spherical interpolation in IEEE arithmetic", "statement": "For two quaternions of length at most 1.01 with positive scalar product cos W, spherical interpolation is finite and within 5d/sin W + 110u/sin^2 W of the point on the great circle; where the code switches to the chord the error is at most 5e-5 more.", "quantifier": "every IEEE format of at least 24 bits, every libm of accuracy d, every parameter t and every such pair", "why_tests_cant": "An error bound with the right dependence on the angle, over all inputs and libm implementations.", "anchors": ["lib/quat.rs:455-510"]}
{"id": "C104", "title": "Ray against point in IEEE arithmetic", "statement": "A hit is reported at a finite place within rounding error of a point of the ray that is itself within twice the vicinity, plus rounding errors, of the point; points further than that from the ray are never reported; points near the ray are reported when the vicinity exceeds their distance by a rounding error.", "quantifier": "every IEEE format of more than 9 bits, every moderate origin, direction, point and vicinity", "why_tests_cant": "An error bound over all finite inputs; the missed points lie at distances tests do not use.", "anchors": ["lib/ray.rs:141-165"]}
{"id": "C105", "title": "Ray against ray in IEEE arithmetic", "statement": "Rays whose coordinate orthants have no common point are never reported. Otherwise rays that meet at an angle are reported, near the common point with an error inversely proportional to the sine of the angle; nearly parallel rays are reported exactly when the second origin is within the vicinity, up to rounding, of the first line; rays that do not meet are not reported.", "quantifier": "every IEEE format of at least 24 bits, every moderate pair of rays, directions outside the band of sines between 9.8e-5 and 1.8e-4", "why_tests_cant": "An error bound over all finite inputs, with the right dependence on the angle and the distances.", "anchors": ["lib/ray.rs:59-140"]}
{"id": "C106", "title": "Completing a quaternion to unit length in IEEE arithmetic", "statement": "From a vector part of length at most 1 the computed quaternion keeps the vector part, has a scalar part that is not positive, and the square of its length is 1 up to 7 units of rounding. From a longer vector part the scalar part is the negative remainder 1 - s itself, up to 9 units of rounding.", "quantifier": "every IEEE format of more than 9 bits, every finite vector part", "why_tests_cant": "An error bound over all finite inputs, including the cancellation as the length approaches 1.", "anchors": ["lib/quat.rs:76-93"]}
{"id": "C107", "title": "Powers of quaternions in IEEE arithmetic", "statement": "The argument of the arc cosine stays in [-1,1]; the computed power of a quaternion is finite and within an error bound of the exact power, linear in the rounding unit over the sine of the angle, and never worse than the root of the rounding unit.", "quantifier": "every IEEE format of more than 9 bits, every quaternion of length between 1/2 and 2, every exponent of moderate size, every libm of accuracy d", "why_tests_cant": "An error bound over all finite inputs and all libm implementations; the argument of the arc cosine leaves its domain, if it does, on inputs tests do not use.", "anchors": ["lib/quat.rs:382-400", "lib/quat.rs:344-347"]}
{"id": "C108", "title": "Mirror images in IEEE arithmetic", "statement": "Changing the sign of any of the three coordinates in both shapes of an intersection query gives the mirror image of the answer, bit for bit up to the sign of zeros: for every pair of point, ray, sphere, plane and box other than sphere and point; for sphere and point when no computed coordinate difference exceeds the radius; and for the GJK query on two spheres when the x coordinate keeps its sign. Outside those conditions the code breaks the symmetry.", "quantifier": "every IEEE format, every float including NaN and infinities, every number of iterations", "why_tests_cant": "Bit-for-bit agreement over all floats and all eight mirror images; the failures sit on single rounding boundaries.", "anchors": ["lib/ray.rs:54-265", "lib/sphere.rs:41-130", "lib/plane.rs:56-94", "lib/point.rs:39-80", "lib/rbox.rs:41-63", "lib/intersect_gjk.rs:65-103"]}
{"id": "C109", "title": "The GJK query ends in f32 and f64", "statement": "query_intersect on two spheres built from finite f32/f64 numbers ends. False of the code: on ordinary disjoint spheres that nearly touch along the x axis the search directions circle round the axis for ever, in f32 and in f64, although in exact arithmetic the same query ends with the right answer. Any state in an explicit ring-shaped region never ends, in every format of at least 24 bits.", "quantifier": "every IEEE format of at least 24 bits, every libm, every number of iterations", "why_tests_cant": "Non-termination is a statement about every number of iterations; a test can only give up waiting.", "anchors": ["lib/intersect_gjk.rs:6-103", "lib/sphere.rs:131-146"]}
{"id": "C110", "title": "The GJK query finds deep overlap in f32 and f64", "statement": "In IEEE arithmetic, on two spheres of ordinary size (sum of radii at least 2^19 unit roundoffs times the size of the coordinates, no over- or underflow) that overlap deeply (centres at most half the sum of the radii apart) and whose centres are either on one line along x or differ in y or z by at least 2^-(emax/8), query_intersect answers true within two iterations, and the balls do meet.", "quantifier": "every IEEE format of at least 10 bits with emax >= 128, every libm, all such spheres, every number of iterations from 2 on", "why_tests_cant": "The claim ranges over all centres and radii and bounds the accumulated rounding of two dozen operations per iteration.", "anchors": ["lib/intersect_gjk.rs:6-103", "lib/sphere.rs:131-146"]}
{"id": "C111", "title": "The GJK query rejects clearly separated balls in f32 and f64", "statement": "In IEEE arithmetic, on two spheres of ordinary size whose centres are between 1.5 and 8 sums of the radii apart, query_intersect answers false within three iterations when the first is clearly behind the second along x, or when it is not behind and off the axis; and the balls do not meet.", "quantifier": "every IEEE format of at least 10 bits with emax >= 128, every libm, all such spheres, every number of iterations from 3 on", "why_tests_cant": "The claim ranges over all centres and radii; it rests on a polynomial inequality over the whole region and on a bound of the rounding of a double cross product.", "anchors": ["lib/intersect_gjk.rs:6-103", "lib/sphere.rs:131-146"]}
{"id": "C112", "title": "The GJK answer is right along the x axis in f32 and f64", "statement": "query_intersect on two f32/f64 spheres of ordinary size that are clearly apart answers false also when the centres are on one line along x. False of the code: whenever the first ball is not behind the second on such a line the answer is true, however far apart they are, and swapping the arguments changes the answer.", "quantifier": "every IEEE format of at least 10 bits with emax >= 128, every libm, all such spheres", "why_tests_cant": "Random tests do not hit centres with exactly equal y and z; the theorem says the answer is true on the whole ray of such positions.", "anchors": ["lib/intersect_gjk.rs:6-103", "lib/sphere.rs:131-146"]}
{"id": "C113", "title": "Where spheres hit spheres and planes, in IEEE arithmetic", "statement": "When the sphere-sphere query reports a hit, the reported point is finite and within 6 unit roundoffs times the distance of the centres, plus one times the norm of the first centre, of the point dividing the segment of the centres in the ratio of the radii; it belongs to both balls up to rounding. When the sphere-plane query reports a hit, the point is the foot of the perpendicular and lies on the plane, up to 26 unit roundoffs times the size of the coordinates. Two spheres of radius zero at the same place are reported to meet at (NaN,NaN,NaN).", "quantifier": "every IEEE format of at least 10 bits, every libm, all coordinates of moderate size, all radii", "why_tests_cant": "An error bound over all inputs; tests compare with a tolerance on a handful of round numbers.", "anchors": ["lib/sphere.rs:46-70", "lib/sphere.rs:90-123"]}
{"id": "C114", "title": "Queries do not depend on the names of the axes, in IEEE arithmetic", "statement": "Exchanging two coordinates in both shapes exchanges them in the answer, bit for bit, in every IEEE format and for every float including NaN and infinities. Proved for x and y for all pairs of points, rays, spheres, planes and boxes except a ray and a point, and for y and z for a point against points, spheres and boxes. False of the code elsewhere: sums of squares are rounded from the left, a ray compares the parameters of x with y and y with z only, and GJK starts along x.", "quantifier": "every IEEE format, every libm, every float including NaN, infinities and subnormals", "why_tests_cant": "Bit-for-bit equality over all floats; the failures need coordinates whose squares round differently in another order.", "anchors": ["lib/sphere.rs:41-130", "lib/ray.rs:50-282", "lib/plane.rs:40-111", "lib/point.rs:40-97", "lib/rbox.rs:40-123", "lib/intersect_gjk.rs:6-103"]}
{"id": "C115", "title": "The unit of length does not matter, in IEEE arithmetic", "statement": "When all coordinates, radii and tolerances of both shapes are multiplied by the same power of two, the intersection query gives the same flag and the reported point is multiplied by that power of two exactly, without any rounding difference; directions and normals may each be stretched by a power of two of their own. Shapes are points, rays, spheres, planes and boxes; pairs of two rays are left out, and so is a ray with a zero direction component against a point. For two rays it is false of the code: the tolerance is compared with a number that has no unit.", "quantifier": "every IEEE format of at least 10 bits, every libm, all data that are multiples of 2^-L up to 2^L, every power 2^k with |k| <= L, 8L + 2prec + 16 <= emax", "why_tests_cant": "A scene and its enlargement can be compared for chosen sizes only; here every scene and every power of two within the range is covered, including results that underflow in between.", "anchors": ["lib/point.rs:40-97", "lib/ray.rs:50-282", "lib/sphere.rs:41-130", "lib/plane.rs:40-111", "lib/rbox.rs:40-123", "lib/bound.rs:20-191", "lib/mat.rs:400-480"]}
{"id": "C116", "title": "Moving both shapes, in IEEE arithmetic", "statement": "When two shapes among points, rays, spheres and boxes are moved by the same vector, without rounding, the intersection query gives the same flag, and the reported point moves by that vector up to two roundings of its coordinates. The centres and radii of spheres and boxes must lie on a common grid so that their bounding boxes are not rounded. False of the code for planes, and for spheres off the grid.", "quantifier": "every IEEE format of at least 10 bits, every libm, every real vector by which the coordinates are moved exactly, every grid of multiples of 2^a up to 2^b with b+2 <= a+prec", "why_tests_cant": "Holds for all vectors and all scenes, though every coordinate that enters the computation differs.", "anchors": ["lib/point.rs:40-97", "lib/ray.rs:50-282", "lib/sphere.rs:41-130", "lib/plane.rs:40-111", "lib/rbox.rs:40-123", "lib/bound.rs:20-191"]}
{"id": "C117", "title": "Algebraic laws that hold exactly for floats", "statement": "For all floats, infinities and NaN included: dot product and sum of vectors do not depend on the order of the arguments, bit for bit; difference and cross product change sign with the order, up to the sign of a zero; the cross product of a vector with itself is zero or NaN. Negating an argument negates the result of dot, cross and normalize and leaves the magnitude as it is. A quaternion and its negative have the same rotation matrix and rotate and reflect alike; the matrix of the conjugate is the transpose; conjugating, multiplying, normalizing and inverting commute with the sign. False of floats: the conjugate of a product is the product of the conjugates in reverse order, a quaternion times its conjugate has no vector part, sums of vectors and products of quaternions are associative.", "quantifier": "every IEEE format, every libm, all floats including infinities and NaN", "why_tests_cant": "Bit-for-bit laws over all floats cannot be enumerated, and signed zeros, overflow and NaN are where sampled tests stop.", "anchors": ["lib/mat.rs:170-880", "lib/quat.rs:151-197", "lib/quat.rs:245-272", "lib/quat.rs:306-361", "lib/quat.rs:402-434"]}
{"id": "C118", "title": "Vectors, matrices and quaternions of fixed-point numbers are computed without rounding", "statement": "When all entries are multiples of a power of two with multipliers that are small against the precision (whole numbers, for example), then sums, differences, dot and cross products, products with numbers, products of matrices with matrices and vectors, products of quaternions, q p q* and the rotation matrix have exactly the values they have over the reals, so that products of three matrices or quaternions do not depend on the bracketing. The length is exact when the sum of the squares is a square. Mat4::inverse gives None exactly for singular matrices, and is exact when the determinant is plus or minus a power of two.", "quantifier": "every IEEE format, every libm, all entries n 2^s with |n| <= K for every s in range and every K up to an explicit fraction of 2^prec, all six vector types, both layouts of matrices", "why_tests_cant": "Integer matrices are what tests use, and they pass; this says for which entries that is no accident, for all of them.", "anchors": ["lib/mat.rs:170-880", "lib/mat.rs:949-1110", "lib/mat.rs:1290-1600", "lib/quat.rs:151-197", "lib/quat.rs:245-258", "lib/quat.rs:306-345", "lib/quat.rs:402-434"]}
{"id": "C119", "title": "Intersection queries on fixed-point data give the exact answer", "statement": "For coordinates and radii that are multiples of a power of two with bounded multipliers the flag of the query is that of exact arithmetic, with no margin: touching spheres hit and spheres apart by any gap miss; a point on the face of a box or on a face, edge or vertex of a prism over a triangle perpendicular to an axis is inside; a ray along an axis hits a sphere it touches; rays in any direction and planes perpendicular to an axis are decided exactly, parallel rays included; sphere or point against such a plane compare the exact signed distance with radius or tolerance. Where the code differs from the geometry in exact arithmetic as well (a sphere and a point: the cube; a sphere behind a plane: a hit; a prism of negative height: no points) the statement says what is decided instead.", "quantifier": "every IEEE format (at least 10 bits for the plane queries), every libm, all data n 2^s with |n| <= K, K up to an explicit bound such as 12 K^2 <= 2^prec for spheres and 24 K^3 <= 2^prec for prisms", "why_tests_cant": "Touching and nearly touching configurations are decided by the last bit; every such configuration on the grid is covered.", "anchors": ["lib/sphere.rs:41-130", "lib/rbox.rs:40-123", "lib/plane.rs:40-111", "lib/point.rs:40-97", "lib/ray.rs:50-282", "lib/triprism.rs:29-260", "lib/bound.rs:20-191"]}
{"id": "C120", "title": "Lengths, unit vectors and planes along an axis in IEEE arithmetic", "statement": "A vector or a quaternion with one non-zero component w has length exactly |w|, although the square and the root round, and normalizing it gives the axis exactly. Hence against a plane perpendicular to an axis, whatever the length of its normal, a ray is decided as in exact arithmetic, parallel rays included, and a sphere or a point compares its radius or tolerance with the signed distance rounded once.", "quantifier": "every IEEE format (at least 10 bits for the plane queries), every libm, all finite floats w with |w| <= 2^(emax/2-3) and w^2 >= 2^(2-emax), all moderate positions, all ray directions that are parallel to the plane or meet it at an angle that does not underflow", "why_tests_cant": "That the root of a rounded square gives back the number holds for all floats; a test can try some.", "anchors": ["lib/mat.rs:170-880", "lib/quat.rs:340-361", "lib/plane.rs:40-111", "lib/ray.rs:50-282", "lib/sphere.rs:71-89"]}
{"id": "C121", "title": "Any number of operations on an orientation in IEEE arithmetic", "statement": "Start from a quaternion of length 1 up to 9 roundoffs and apply any sequence of steps: multiply by a further quaternion in front or behind and normalize, conjugate, negate, normalize, invert. No step panics or overflows; after any number of steps the length is within 9 roundoffs of 1, and the outcome differs from the true orientation (the product over the reals of the directions) by the initial error plus 37 roundoffs for each step. A vector turned by the outcome is off by (76 n + 40) roundoffs of its length; a vector turned by n such quaternions one after the other keeps its length up to a factor (1 + 38u)^n.", "quantifier": "every IEEE format of at least 10 bits, every libm, all lists of steps of any length, all finite factors of length 3/4 to 5/4, all vectors up to 2^(emax-8)", "why_tests_cant": "The claim is about sequences of unbounded length; drift shows only after many steps, and a test fixes both the length and the data.", "anchors": ["lib/quat.rs:245-258", "lib/quat.rs:306-361", "lib/quat.rs:402-434"]}
{"id": "C122", "title": "Running products of 4x4 matrices in IEEE arithmetic", "statement": "Multiplying a matrix by n-1 further matrices of the same layout, one after the other, never panics and gives a matrix of that layout with finite entries. If the absolute row sums of the factors are at most m, the absolute row sums of the error against the product over the reals are at most M^n - m^n + 18 n eta M^n, with M = m (1 + 4.5 u), as long as M^n stays clear of the overflow threshold.", "quantifier": "every IEEE format of at least 10 bits, every libm, both layouts, all lists of matrices of any length with finite entries", "why_tests_cant": "The bound covers chains of any length and all entries; error growth is a worst case that sampled chains do not show.", "anchors": ["lib/mat.rs:1290-1345"]}
{"id": "C123", "title": "Searching trees of bounding boxes loses nothing", "statement": "Put any shapes into a tree of any form in which the box of a node is the get_union of the boxes of its children, and search it for a shape q, leaving out everything below a box that AxisAlignedBBox::intersect calls apart from the box of q. The answer is that of asking every shape with get_intersect: the same hits with the same places in the same order, or the same panic. The same holds for all meeting pairs of two trees. Grouping the shapes differently permutes the answers. With a NaN bound it fails, since the union drops it.", "quantifier": "all trees of any depth and width, all lists of shapes whose boxes have no NaN, all q, every IEEE format and exact arithmetic", "why_tests_cant": "Trees, shapes and queries are unbounded; a lost hit needs a box that is too small by one rounding, or NaN.", "anchors": ["lib/bound.rs:110-164", "lib/i_shape.rs:27", "lib/sphere.rs:41-148", "lib/ray.rs:54-270"]}
{"id": "C124", "title": "Vectors under many 4x4 matrices in IEEE arithmetic", "statement": "Applying n matrices one after the other to a vector never panics; with absolute row sums of the matrices up to m and components of the vector up to V, every component is finite and off by at most (M^n - m^n) V + 4.5 n eta M^n against the reals, M = m (1 + 4.5 u), as long as M^n V stays clear of overflow. Multiplying the matrices first and applying the product once gives the same vector up to (M^n (1 + 18 n eta) (1 + 4.5 u) + M^n - 2 m^n) V plus underflow.", "quantifier": "every IEEE format of at least 10 bits, every libm, both layouts, all lists of matrices of any length, all finite vectors", "why_tests_cant": "Chains of any length and all entries; the two ways of computing differ in the last bits on almost every input, so a test needs the bound.", "anchors": ["lib/mat.rs:1290-1345"]}
{"id": "C125", "title": "Rotation matrices against quaternion algebra", "statement": "For unit quaternions the matrix of a product is the product of the matrices (with the order exchanged for column-major storage), the conjugate belongs to the transposed matrix, Mat4::inverse returns the rotation matrix itself (it yields the transposed inverse), and two unit quaternions have the same matrix exactly when they are equal or opposite. In IEEE arithmetic, for quaternions of length 1 up to 9 roundoffs, nothing overflows; the product of the matrices is within 240u of the true rotation and 410u of the matrix of the product in every entry; matrix and quaternion turn a vector alike up to 310u V + 37 eta.", "quantifier": "exact: all unit quaternions, all eps; IEEE: every format of at least 10 bits, every libm, all finite quaternions of length 1 up to 9u, all finite vectors up to 2^(emax-8)", "why_tests_cant": "All pairs of quaternions; the two sides differ in the last bits on almost every input, so only a bound proved for all of them says that the conversions agree.", "anchors": ["lib/quat.rs:151-210", "lib/mat.rs:1290-1345", "lib/mat.rs:1481-1600"]}
{"id": "C126", "title": "Symmetries and constant speed of the interpolations", "statement": "Exchanging the ends and replacing t by 1-t gives the same interpolated quaternion (its negative when the ends are more than a right angle apart). Turning both ends by a unit quaternion from either side, or conjugating them, turns or conjugates every point between. On the short arc the angle between the points at s and t is |t-s| times the whole angle, interpolating between two points of the arc gives the point of the arc at the parameter between theirs, and the interpolation is a (a^-1 b)^t as computed by pow.", "quantifier": "exact arithmetic; reversal and turning for all quaternions, all t and all branches; the rest for all unit quaternions with dot product in [0, 0.9999] and all s, t, w in [0,1]", "why_tests_cant": "Four-dimensional ends and real parameters; laws that relate several calls of the function for all of them at once.", "anchors": ["lib/quat.rs:436-510", "lib/quat.rs:400-428"]}
{"id": "C127", "title": "The unit of length does not matter for a prism and a point", "statement": "If vertices, height and point are multiples of 2^-L of size at most 2^L, and all of them are multiplied by 2^k with |k| <= L, the query of the prism and the point gives the same flag in both orders, and the reported point times 2^k exactly. This holds whatever the tolerances are and also for degenerate base triangles, whose normal is not a number.", "quantifier": "every IEEE format of at least 10 bits with 16 L + 2 prec + 40 <= emax (binary64: L up to 54), every libm, all vertices, heights, points and tolerances as described, all k", "why_tests_cant": "Sixteen floating-point inputs and an exponent; a single rounding that does not scale (underflow in the normal, a constant with a unit) would show only on some of them.", "anchors": ["lib/triprism.rs:30-121", "lib/triprism.rs:148-371", "lib/point.rs:39-80"]}
{"id": "C128", "title": "An orientation kept as a matrix and as a quaternion", "statement": "Take quaternions of length 1 up to 9 roundoffs. The running product of their rotation matrices, accumulated from the left in row-major order, never overflows and never panics. With n further turns and E = (1 + 227 u)^(n+1) - 1, its rows are within E of those of the true rotation, are orthonormal up to 2E + E^2, and its entries are within E + (74 n + 88) u of the matrix of the quaternion that went through the same turns by multiplication. While 227 (n+1) u <= 1/2 the matrix is within 454 (n+1) u of the truth and within 542 (n+1) u of the quaternion's matrix.", "quantifier": "every IEEE format of at least 10 bits, every libm, every start and every list of turns of any length with E below 2^(emax-8)", "why_tests_cant": "The number of turns is not bounded and the drift is a worst case over all sequences of turns.", "anchors": ["lib/quat.rs:151-198", "lib/quat.rs:324-361", "lib/mat.rs:1290-1345"]}
{"id": "C129", "title": "The spherical interpolation as an animation, in IEEE arithmetic", "statement": "Take two quaternions of length 1 up to 9 roundoffs whose dot product is between 6 roundoffs and 0.9998, at angle W. With D = 5 d / sin W + 110 u / sin^2 W and K = 37 u / sin^2 W, where d is the error of sin, cos and atan2: the frame at t from a to b is within 2D of the frame at 1 - t from b to a; the dot product of the frames at s and t is cos ((t - s) W) up to K + 2 D (1 + K) + D^2, with s and t clamped to [0,1], so the speed is constant; and every frame has squared length 1 up to the same bound.", "quantifier": "every IEEE format of at least 24 bits, every libm with errors at most d <= 1/1000, all such quaternions, all finite times s and t", "why_tests_cant": "Ten floating-point inputs and an unknown libm; the bounds are worst cases over all of them.", "anchors": ["lib/quat.rs:455-511"]}
{"id": "C130", "title": "Laws of quaternion powers in IEEE arithmetic", "statement": "For a quaternion q of length between 1/2 and 2 with a vector part that is not negligible, and exponents s, t and s + t for which the power is well conditioned: the powers are computed, and the product of q^s and q^t is within 2 (e(s) + e(t)) + 36 u of the true q^(s+t), within e(s+t) more of the computed one, and commutes up to twice that. So q^s times q^(1-s) gives q back (the square of q^(1/2) is q) and q^s times q^(-s) gives 1, up to 2 (e(s) + e(t)) + 36 u, where e(t) = 6 d + 21 u + |t| (4 d + 140 u / N), N is the sine of the angle and d the error of libm.", "quantifier": "every IEEE format of at least 10 bits, every libm with errors at most d <= 1/64, all such quaternions and exponents", "why_tests_cant": "Six floating-point inputs and an unknown libm; the bounds are worst cases over all of them.", "anchors": ["lib/quat.rs:324-338", "lib/quat.rs:382-400"]}
{"id": "C131", "title": "Steering an orientation by turns about axes", "statement": "Take any number n of turns, each given by an axis that can be normalised, about a fixed axis or one carried along, and a finite angle of at most B. Building each quaternion, multiplying and normalising never panics and never overflows. The orientation keeps length 1 up to 9 roundoffs and is within n (6 d + 57 u) of the true product of the turns, where d is the error of sin and cos. If all axes are the same and the start is the identity, the outcome is the turn by the sum of the angles up to D = n (6 d + 57 u), and a vector v turned by it is within (2.01 D + 20 u) |v| + 28 eta of Rodrigues' rotation by that sum.", "quantifier": "every IEEE format of at least 10 bits, every libm with errors at most d <= 1/64 up to B, every list of controls of any length", "why_tests_cant": "The number of turns is not bounded and the error is a worst case over all sequences of controls and all libm implementations.", "anchors": ["lib/quat.rs:231-258", "lib/quat.rs:324-361"]}
{"id": "C132", "title": "The inverse of a rotation matrix in IEEE arithmetic", "statement": "For a matrix whose rows are within e <= 1/1000 of those of a rotation, Mat4::inverse answers; its entries are within 2.005 e + 3254 u of that rotation and within 3.005 e + 3254 u of the matrix given: the inverse is stored transposed, so inverting a rotation gives the same rotation back. For the matrix of a quaternion of length 1 up to 9 roundoffs the result is within 3463 u of the true rotation and 3515 u of the matrix itself. After a running product of n matrices of such quaternions it is within (911 n + 3254) u of the true rotation and (1365 n + 3254) u of the product.", "quantifier": "every IEEE format of at least 10 bits (17 for a single quaternion), every libm, all such matrices, quaternions and lists of quaternions with 454 n u <= 1/1000", "why_tests_cant": "Sixteen floating-point inputs, or a list of any length; the bounds are worst cases over all of them.", "anchors": ["lib/mat.rs:1525-1656", "lib/quat.rs:151-198", "lib/mat.rs:1290-1345"]}
{"id": "C133", "title": "Turning both shapes together, in IEEE arithmetic", "statement": "Turn points and directions with Quat::rotate_vector by a quaternion of length 1 up to 9 roundoffs. Outside stated margins, proportional to u times the distance from the origin, the queries sphere-sphere, plane-point, sphere-plane, ray-plane and ray-sphere give the same and right answer before and after the turn. When two spheres meet before and after, the place reported for the turned spheres is the turned place up to 92 u (|a| + |b|) + 92 eta.", "quantifier": "every IEEE format of at least 10 bits, every libm, every such quaternion, all points at most 2^(emax/2-4) from the origin and directions whose square does not underflow", "why_tests_cant": "Up to sixteen floating-point inputs; the margins are worst cases over all of them.", "anchors": ["lib/quat.rs:245-258", "lib/sphere.rs:41-130", "lib/plane.rs:56-94", "lib/ray.rs:54-265"]}
{"id": "C134", "title": "Points and spheres carried through a chain of poses, in IEEE arithmetic", "statement": "Apply n poses in turn to a point, each a Quat::rotate_vector by a quaternion of length 1 up to 9 roundoffs followed by Mat3x1::plus of a vector of length at most T. With B at least |p| + n T, the result is finite and within n (40 u B + 29 eta) of the point the true poses give. The distance between two points carried through the same chain changes by at most twice that, and two spheres carried through it get the same and right answer from get_intersect outside that margin.", "quantifier": "every IEEE format of at least 10 bits, every libm, chains of any length n with n (40 u B + 29 eta) <= B/100 and B <= 2^(emax/2-4), all points", "why_tests_cant": "Chains of any length over all floats; the bound is a worst case over every rounding in the chain.", "anchors": ["lib/quat.rs:245-258", "lib/mat.rs:367-375", "lib/sphere.rs:41-130"]}
{"id": "C135", "title": "The tolerance comparison in IEEE arithmetic", "statement": "For finite entries and a finite tolerance e, is_equal never panics; it accepts whenever every |a - b| <= e, whatever overflows on the way; when it accepts, every |a - b| <= e + u (|b| + |e|). A larger tolerance accepts whatever a smaller one accepts, exactly, and the infinite one accepts all operands of the same layout. Symmetry and transitivity, which fail exactly, hold when the tolerance on the right grows by u (M + |e|), respectively is at least e + f + u (2M + |e| + |f|), M bounding the entries.", "quantifier": "every IEEE format, the six vector and two matrix types, all finite entries and tolerances of either sign", "why_tests_cant": "The margins and the overflow cases are at the edge of the format, for every pair of operands and every tolerance.", "anchors": ["lib/i_comparable.rs: IComparableError::is_equal", "lib/mat.rs:238-245", "lib/mat.rs:447-456", "lib/mat.rs:1180-1195", "lib/mat.rs:1659-1675"]}
{"id": "C136", "title": "Two ways of computing the same thing pass is_equal, in IEEE arithmetic", "statement": "For quaternions of length near 1 and a finite tolerance e: the product of two rotation matrices and the rotation matrix of the product are accepted as equal when e >= 410u; the running product of n+1 matrices and the matrix of the running quaternion when e >= 542 n u; Mat4::inverse of a rotation matrix is accepted as that matrix itself when e >= 3515u, and rejected as its transpose when some |R_ij - R_ji| exceeds (1+u)e + 3517u; a vector under the matrix and under the quaternion when e >= 310uV + 37eta; a vector rotated there and back and the vector when e >= 78u|p| + 58eta.", "quantifier": "every IEEE format of more than 9 (for the inverse 16) digits, all quaternions near unit length, all vectors in range, all sequences, all tolerances", "why_tests_cant": "Choosing a tolerance for a test needs the worst case over every rotation and vector, not a sample.", "anchors": ["lib/quat.rs:245-258", "lib/mat.rs:1525-1675", "lib/mat.rs:447-456"]}
{"id": "C137", "title": "Mat3::inverse in IEEE arithmetic", "statement": "For finite entries of absolute value at most K and exact determinant D, with d = |D - 1| + 29uK^3 <= 1/4, Mat3::inverse answers in the layout of its argument, with finite entries within (3d + 10u)K^2 of the adjugate with its middle column negated. So every entry of the middle column clear of that bound has the sign opposite to the inverse's, every other such entry the right sign. None is answered only when -2^-36 - 29uK^3 < D < 2^-33 + 29uK^3. It never panics and always keeps the layout.", "quantifier": "every IEEE format of more than 9 digits and exponent range above 37, all 3x3 matrices in either layout with entries in range", "why_tests_cant": "Rounding of the determinant and of nine entries for every matrix; the wrong signs are small or zero for the matrices one would try first.", "anchors": ["lib/mat.rs:1143-1177"]}
{"id": "C138", "title": "Mat3::inverse for every determinant, in IEEE arithmetic", "statement": "For finite entries of absolute value at most K and an exact determinant D with |D| >= 2^-32 + 58uK^3, Mat3::inverse answers in the layout of its argument, with finite entries within u K^2 (3 + 13/|D| + 116K^3/D^2) + 3eta of what its formulas amount to over the reals: outside the middle row the first product of the minor less the second one over D, in the middle row minus the minor over D. So the middle row is that of the inverse with its middle entry negated.", "quantifier": "every IEEE format of more than 9 digits and exponent range above 40, all 3x3 matrices in either layout with entries and determinant in range", "why_tests_cant": "The error bound is for every matrix and every determinant down to the threshold.", "anchors": ["lib/mat.rs:1143-1177"]}
{"id": "C139", "title": "Linear systems with Mat4::inverse, in IEEE arithmetic", "statement": "For a 4x4 matrix f with entries bounded by K and exact determinant D, |D| >= 423uK^4, and a vector b bounded by V: inverse, then transpose, then the product with b never fails, and its components are finite and within 4dV + 9/2 u (S + 4d)V + 9/2 eta of every solution y of f y = b, where d = u(91K^3/|D| + 2534K^7/D^2) + eta bounds the error of an entry of the inverse and S the row sums of the exact inverse. Without the transpose the same holds for the solutions of the transposed system.", "quantifier": "every IEEE format of more than 9 digits, all matrices in either layout and right-hand sides in range", "why_tests_cant": "The bound is for every matrix and right-hand side; a test with a symmetric matrix does not notice the missing transpose.", "anchors": ["lib/mat.rs:1525-1656", "lib/mat.rs:1326-1349"]}
{"id": "C140", "title": "The translation matrix in IEEE arithmetic", "statement": "For a finite translation t and a finite point p, init_from_translation, to_translation_matrix and the product with (p,1) give, in the row layout, a vector within eta of t/2 with last component exactly 1, whatever p is; so the first component differs from p+t for every p more than eta away from -t/2. In the column layout, for data up to 2^(emax/2-3), they give 0, 0, 0 and a last component within 9/2 u (1 + sum |t_i p_i|) + eta (5 + sum |p_i|) of 1 + t.p/2.", "quantifier": "every IEEE format (column layout: of more than 9 digits), all finite translations and points in range", "why_tests_cant": "It says what comes out for every translation and point, not that one of them fails.", "anchors": ["lib/quat.rs:95-149", "lib/mat.rs:1326-1349"]}
{"id": "C141", "title": "The quaternion logarithm in IEEE arithmetic", "statement": "With a logarithm and an arc cosine accurate to d, ln of a quaternion q of length between 1/2 and 2 whose vector part does not underflow is within rounding of ln|q| + (v/|v|) acos(w/|q|).", "quantifier": "every IEEE format of more than 9 digits, every such quaternion, every libm of that accuracy", "why_tests_cant": "It ranges over all quaternions, all formats and all accurate libms; and it says for which inputs the result is wrong and by how much, not that one of them is.", "anchors": ["lib/quat.rs:363-380"]}
{"id": "C142", "title": "Signs and conjugates of interpolations, powers and logarithms of floats", "statement": "For all floats, infinities and NaN included, and whatever the platform's libm does: negating both ends negates the linear and the spherical interpolation and conjugating both ends conjugates it, up to the sign of a zero; powers and logarithms of the conjugate are the conjugates bit for bit, and panic together; for ends whose computed cosine exceeds 0.9999 in absolute value, negating the second end does not change the spherical interpolation at all.", "quantifier": "every IEEE format (last part: of at least 24 digits), every libm, all floats including infinities and NaN", "why_tests_cant": "Bit-for-bit laws over all floats and all libms cannot be enumerated.", "anchors": ["lib/quat.rs:363-400", "lib/quat.rs:402-418", "lib/quat.rs:436-510"]}
