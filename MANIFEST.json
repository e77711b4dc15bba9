{
 "claims": [
  {
   "property": "C01",
   "status": "proved",
   "theorems": [
    "C01_init_index3",
    "C01_init_index4",
    "C01_no_panic"
   ],
   "note": "Every scalar arithmetic, both layouts, both overflow-check build modes."
  },
  {
   "property": "C02",
   "status": "partial",
   "theorems": [
    "C02_refuted",
    "C02_partial",
    "C02_exact"
   ],
   "note": "False of the code: the fast index is not range checked, so e.g. (0,3) of a row-major Mat3 reads (1,0); in release builds huge indices wrap. C02_exact is the exact rule for all u64 pairs; C02_partial the part that holds."
  },
  {
   "property": "C03",
   "status": "proved",
   "theorems": [
    "C03_set3",
    "C03_set4",
    "C03_repr_total"
   ],
   "note": "Every arithmetic, layout and build mode."
  },
  {
   "property": "C04",
   "status": "proved",
   "theorems": [
    "C04_transpose",
    "C04_transpose_self",
    "C04_vectors"
   ],
   "note": "Every arithmetic."
  },
  {
   "property": "C05",
   "status": "proved",
   "theorems": [
    "C05_mul"
   ],
   "note": "Every arithmetic; order of summation as in the code; mixed layouts panic."
  },
  {
   "property": "C06",
   "status": "proved",
   "theorems": [
    "C06_matrix_vector",
    "C06_vector_matrix",
    "C06_transpose"
   ],
   "note": "Every arithmetic."
  },
  {
   "property": "C07",
   "status": "proved",
   "theorems": [
    "C07_assoc",
    "C07_distributive3",
    "C07_distributive4",
    "C07_unit",
    "C07_transpose_ieee",
    "C07_unit_ieee3",
    "C07_unit_ieee4"
   ],
   "note": "Algebra laws in exact arithmetic; transpose law bit for bit and unit law as numbers in every IEEE format."
  },
  {
   "property": "C08",
   "status": "partial",
   "theorems": [
    "C08_refuted",
    "C08_refuted_f64",
    "C08_partial"
   ],
   "note": "False of the code: Mat4::inverse returns the transpose of the inverse, row-major. Proved exactly that, the None condition and absence of panics."
  },
  {
   "property": "C09",
   "status": "partial",
   "theorems": [
    "C09_refuted",
    "C09_refuted_f64",
    "C09_partial",
    "C09_unimodular_partial"
   ],
   "note": "False of the code: operator precedence and sign errors (even the inverse of the identity is diag(1,-1,1)). The None band, the layout and the det=1 result are proved."
  },
  {
   "property": "C10",
   "status": "partial",
   "theorems": [
    "C10_partial3",
    "C10_partial4",
    "C10_mixed3",
    "C10_mixed4",
    "C10_refuted"
   ],
   "note": "Holds for equal layouts; for mixed layouts the second operand is silently transposed (refuted with f64 witness, exact rule proved)."
  },
  {
   "property": "C11",
   "status": "proved",
   "theorems": [
    "C11_exact",
    "C11_exact_vectors",
    "C11_nan",
    "C11_nan_vectors",
    "C11_self",
    "C11_self_vectors"
   ],
   "note": "Exact characterisation in exact arithmetic; NaN and reflexivity statements in every IEEE format."
  },
  {
   "property": "C12",
   "status": "partial",
   "theorems": [
    "C12_partial",
    "C12_refuted"
   ],
   "note": "Symmetric in exact arithmetic for finite tolerances; false in f64 by rounding of b+e (witness 1+2^-52, 1, 2^-53)."
  },
  {
   "property": "C13",
   "status": "proved",
   "theorems": [
    "C13_magnitude",
    "C13_normalize",
    "C13_normalize_zero"
   ],
   "note": "All six vector types; exact arithmetic, and IEEE for the zero vector."
  },
  {
   "property": "C14",
   "status": "proved",
   "theorems": [
    "C14_cross",
    "C14_bilinear",
    "C14_none"
   ],
   "note": "Exact arithmetic for the identities; None for every arithmetic."
  },
  {
   "property": "C15",
   "status": "proved",
   "theorems": [
    "C15_inequalities",
    "C15_commutative"
   ],
   "note": "Inequalities exact; commutativity bit for bit in every IEEE format."
  },
  {
   "property": "C16",
   "status": "proved",
   "theorems": [
    "C16_trace",
    "C16_iden",
    "C16_submat"
   ],
   "note": "Every arithmetic."
  },
  {
   "property": "C17",
   "status": "proved",
   "theorems": [
    "C17_hamilton",
    "C17_algebra",
    "C17_product"
   ],
   "note": "Exact arithmetic, all real quaternions."
  },
  {
   "property": "C18",
   "status": "proved",
   "theorems": [
    "C18_inverse",
    "C18_panic",
    "C18_panic_ieee"
   ],
   "note": "Two-sided inverse in exact arithmetic; panic condition in every IEEE format (a non-zero quaternion panics when its squared length underflows)."
  },
  {
   "property": "C19",
   "status": "proved",
   "theorems": [
    "C19_normalize",
    "C19_panic",
    "C19_panic_ieee",
    "C19_init"
   ],
   "note": "Exact arithmetic; panic condition in every IEEE format."
  },
  {
   "property": "C20",
   "status": "proved",
   "theorems": [
    "C20_axis_angle",
    "C20_degree",
    "C20_zero_axis"
   ],
   "note": "Exact arithmetic."
  },
  {
   "property": "C21",
   "status": "proved",
   "theorems": [
    "C21_rotation",
    "C21_compose",
    "C21_undo"
   ],
   "note": "Exact arithmetic."
  },
  {
   "property": "C22",
   "status": "proved",
   "theorems": [
    "C22_agrees",
    "C22_orthogonal"
   ],
   "note": "Exact arithmetic."
  },
  {
   "property": "C23",
   "status": "partial",
   "theorems": [
    "C23_refuted",
    "C23_refuted_f64",
    "C23_partial",
    "C23_inverse_partial"
   ],
   "note": "False of the code: to_rotation_matrix(false) has the transposed entries (bit for bit, any arithmetic), i.e. it is the inverse rotation."
  },
  {
   "property": "C24",
   "status": "partial",
   "theorems": [
    "C24_row_refuted",
    "C24_column_refuted",
    "C24_refuted_f64",
    "C24_row_partial",
    "C24_column_partial"
   ],
   "note": "False of the code: the diagonal is 0 and the translation is halved; the exact results and the exact set of inputs for which they happen to be right are proved."
  },
  {
   "property": "C25",
   "status": "proved",
   "theorems": [
    "C25_roundtrip",
    "C25_unit"
   ],
   "note": "Exact arithmetic."
  },
  {
   "property": "C26",
   "status": "proved",
   "theorems": [
    "C26_pow",
    "C26_panic",
    "C26_panic_any"
   ],
   "note": "Exact arithmetic; panic condition in every arithmetic."
  },
  {
   "property": "C27",
   "status": "partial",
   "theorems": [
    "C27_refuted",
    "C27_always_wrong_refuted",
    "C27_partial"
   ],
   "note": "False of the code: the scalar part is ln w instead of ln|q|; wrong for every quaternion. The value actually computed is proved."
  },
  {
   "property": "C28",
   "status": "proved",
   "theorems": [
    "C28_lerp",
    "C28_between",
    "C28_ends_ieee"
   ],
   "note": "Exact arithmetic; ends in every IEEE format."
  },
  {
   "property": "C29",
   "status": "proved",
   "theorems": [
    "C29_slerp",
    "C29_ends"
   ],
   "note": "Exact arithmetic."
  },
  {
   "property": "C30",
   "status": "partial",
   "theorems": [
    "C30_refuted",
    "C30_always_wrong_refuted",
    "C30_partial"
   ],
   "note": "False of the code: the weights use the unadjusted cosine; for every obtuse pair and 0<t<1 the result is longer than 1. Correct at the ends."
  },
  {
   "property": "C31",
   "status": "proved",
   "theorems": [
    "C31_reflection",
    "C31_decomposition"
   ],
   "note": "Exact arithmetic."
  },
  {
   "property": "C32",
   "status": "proved",
   "theorems": [
    "C32_auto_w",
    "C32_beyond"
   ],
   "note": "Exact arithmetic."
  },
  {
   "property": "C33",
   "status": "proved",
   "theorems": [
    "C33_symmetric",
    "C33_symmetric_exact"
   ],
   "note": "Every IEEE format, all bounds including NaN, infinite and inverted."
  },
  {
   "property": "C34",
   "status": "proved",
   "theorems": [
    "C34_common_point",
    "C34_common_point_exact"
   ],
   "note": "Every IEEE format."
  },
  {
   "property": "C35",
   "status": "proved",
   "theorems": [
    "C35_union",
    "C35_union_exact",
    "C35_order",
    "C35_receiver",
    "C35_nothing",
    "C35_sphere_panics"
   ],
   "note": "Every IEEE format, lists of any length."
  },
  {
   "property": "C36",
   "status": "proved",
   "theorems": [
    "C36_point",
    "C36_ray",
    "C36_sphere",
    "C36_plane",
    "C36_line",
    "C36_box",
    "C36_prism",
    "C36_exists"
   ],
   "note": "Exact arithmetic; directions and normals non-zero, base triangle non-degenerate."
  },
  {
   "property": "C37",
   "status": "partial",
   "theorems": [
    "C37_refuted",
    "C37_partial"
   ],
   "note": "False of the code: the comparator never answers Greater, so the answer is always Z (proved for every arithmetic)."
  },
  {
   "property": "C38",
   "status": "partial",
   "theorems": [
    "C38_exact",
    "C38_ieee_partial",
    "C38_refuted"
   ],
   "note": "Exact arithmetic: proved. IEEE: proved when no sum lower+upper overflows; refuted in f64 for huge bounds."
  },
  {
   "property": "C39",
   "status": "proved",
   "theorems": [
    "C39_symmetric",
    "C39_symmetric_exact"
   ],
   "note": "Every IEEE format, every pair of different kinds (also unsupported ones), arbitrary fields."
  },
  {
   "property": "C40",
   "status": "proved",
   "theorems": [
    "C40_answer",
    "C40_answer_exact"
   ],
   "note": "Every IEEE format, arbitrary fields."
  },
  {
   "property": "C41",
   "status": "proved",
   "theorems": [
    "C41_panics",
    "C41_panics_exact",
    "C41_kind",
    "C41_disjoint"
   ],
   "note": "Every IEEE format, arbitrary fields; the table of supported pairs is SpecInter.supported."
  },
  {
   "property": "C42",
   "status": "partial",
   "theorems": [
    "C42_refuted",
    "C42_partial",
    "C42_equal_ieee_partial",
    "C42_ieee_partial",
    "C42_nan_partial"
   ],
   "note": "False of the code: the bounding boxes of two different points never overlap, so the vicinity has no effect. Proved: exactly equal points are reported (exact); only equal coordinates in every IEEE format."
  },
  {
   "property": "C43",
   "status": "proved",
   "theorems": [
    "C43_sphere_point",
    "C43_ieee"
   ],
   "note": "Exact arithmetic, and every IEEE format for finite inputs."
  },
  {
   "property": "C44",
   "status": "partial",
   "theorems": [
    "C44_refuted",
    "C44_partial",
    "C44_refuted_f64"
   ],
   "note": "False of the code: the query tests the bounding cube. Proved: exactly the points of the cube are reported."
  },
  {
   "property": "C45",
   "status": "proved",
   "theorems": [
    "C45_box_point",
    "C45_box_point_ieee",
    "C45_nan_point",
    "C45_ieee_complete"
   ],
   "note": "Exact arithmetic and every IEEE format."
  },
  {
   "property": "C46",
   "status": "proved",
   "theorems": [
    "C46_plane_point"
   ],
   "note": "Exact arithmetic, non-zero normal."
  },
  {
   "property": "C47",
   "status": "partial",
   "theorems": [
    "C47_refuted",
    "C47_partial",
    "C47_zero_partial",
    "C47_location",
    "C47_refuted_f64"
   ],
   "note": "First half false of the code for every ray with a zero direction component (such rays miss every point); proved for all other rays. Second half proved for all rays."
  },
  {
   "property": "C48",
   "status": "proved",
   "theorems": [
    "C48_first_hit"
   ],
   "note": "Exact arithmetic."
  },
  {
   "property": "C49",
   "status": "proved",
   "theorems": [
    "C49_front",
    "C49_inside",
    "C49_back"
   ],
   "note": "Exact arithmetic."
  },
  {
   "property": "C50",
   "status": "proved",
   "theorems": [
    "C50_found",
    "C50_collinear"
   ],
   "note": "Exact arithmetic."
  },
  {
   "property": "C51",
   "status": "partial",
   "theorems": [
    "C51_refuted",
    "C51_partial",
    "C51_refuted_f64"
   ],
   "note": "False of the code: skew rays with overlapping bounds are reported. Proved: the location is on the receiver. C91 describes every case."
  },
  {
   "property": "C52",
   "status": "proved",
   "theorems": [
    "C52_sphere_sphere",
    "C52_meets"
   ],
   "note": "Exact arithmetic."
  },
  {
   "property": "C53",
   "status": "proved",
   "theorems": [
    "C53_complete",
    "C53_location"
   ],
   "note": "Exact arithmetic."
  },
  {
   "property": "C54",
   "status": "partial",
   "theorems": [
    "C54_refuted",
    "C54_partial",
    "C54_refuted_f64"
   ],
   "note": "False of the code: balls behind the plane are reported. Proved: exactly the balls reaching the closed half space behind the plane."
  },
  {
   "property": "C55",
   "status": "proved",
   "theorems": [
    "C55_prism_point"
   ],
   "note": "Exact arithmetic."
  },
  {
   "property": "C56",
   "status": "partial",
   "theorems": [
    "C56_refuted",
    "C56_always_wrong_refuted",
    "C56_flat_partial",
    "C56_refuted_f64"
   ],
   "note": "False of the code: a prism of negative height reports no point at all. Height 0: exactly the bounding box."
  },
  {
   "property": "C57",
   "status": "proved",
   "theorems": [
    "C57_prism_segment",
    "C57_negative"
   ],
   "note": "Exact arithmetic."
  },
  {
   "property": "C58",
   "status": "partial",
   "theorems": [
    "C58_refuted",
    "C58_partial",
    "C58_refuted_f64"
   ],
   "note": "False of the code: inside the bounding box the answer is a hit at (NaN,NaN,NaN). The exact behaviour is proved."
  },
  {
   "property": "C59",
   "status": "proved",
   "theorems": [
    "C59_sphere",
    "C59_box",
    "C59_prism",
    "C59_zero",
    "C59_point",
    "C59_unbounded",
    "C59_segment"
   ],
   "note": "Exact arithmetic; radius and half edge >= 0, any height of a prism."
  },
  {
   "property": "C60",
   "status": "proved",
   "theorems": [
    "C60_false_sound"
   ],
   "note": "Exact arithmetic, any number of iterations."
  },
  {
   "property": "C61",
   "status": "partial",
   "theorems": [
    "C61_refuted",
    "C61_partial",
    "C61_refuted_f64",
    "C61_rounding_refuted_f64"
   ],
   "note": "False of the code when the centres differ in x only (or both radii are 0). Proved everywhere else (exact), any number of iterations. In f64 rounding breaks it off the axis as well."
  },
  {
   "property": "C62",
   "status": "partial",
   "theorems": [
    "C62_refuted",
    "C62_partial",
    "C62_refuted_f64"
   ],
   "note": "False of the code along the x axis. Proved (exact) for balls that do not touch and whose centres differ in y or z."
  },
  {
   "property": "C63",
   "status": "proved",
   "theorems": [
    "C63_spheres",
    "C63_others"
   ],
   "note": "Spheres: exact arithmetic, any number of iterations. Other pairs: every arithmetic. For IEEE see C69."
  },
  {
   "property": "C64",
   "status": "proved",
   "theorems": [
    "C64_set",
    "C64_sign",
    "C64_within",
    "C64_nan"
   ],
   "note": "Every arithmetic / exact / every IEEE format."
  },
  {
   "property": "C65",
   "status": "proved",
   "theorems": [
    "C65_dot",
    "C65_cross",
    "C65_mul3",
    "C65_mul4",
    "C65_mulv3",
    "C65_mulv4",
    "C65_quat_mul"
   ],
   "note": "Every IEEE format; no overflow is the hypothesis that the computed value is finite."
  },
  {
   "property": "C66",
   "status": "proved",
   "theorems": [
    "C66_near"
   ],
   "note": "Exact arithmetic."
  },
  {
   "property": "C67",
   "status": "partial",
   "theorems": [
    "C67_refuted",
    "C67_partial"
   ],
   "note": "False of the code: on touching balls whose centres have the same x the exact loop never ends (C76 says exactly when touching balls end). Proved: total correctness for balls that do not touch and whose centres differ in y or z. IEEE arithmetic: C109 to C112."
  },
  {
   "property": "C68",
   "status": "proved",
   "theorems": [
    "C68_axis"
   ],
   "note": "Exact arithmetic."
  },
  {
   "property": "C69",
   "status": "partial",
   "theorems": [
    "C69_refuted_f32",
    "C69_refuted_f64",
    "C69_partial"
   ],
   "note": "False of the code for tiny spheres (underflow). Proved for every arithmetic: no other panic is possible. C110 and C111 give spheres for which the loop ends with the right answer."
  },
  {
   "property": "C70",
   "status": "proved",
   "theorems": [
    "C70_box",
    "C70_prism"
   ],
   "note": "Every IEEE format, all values."
  },
  {
   "property": "C71",
   "status": "proved",
   "theorems": [
    "C71_normalize",
    "C71_quat",
    "C71_underflow_refuted"
   ],
   "note": "The lower bound on the squared length is needed: C71_underflow_refuted gives a nonzero f64 vector normalised to infinities."
  },
  {
   "property": "C72",
   "status": "proved",
   "theorems": [
    "C72_read",
    "C72_write",
    "C72_read_after_write"
   ],
   "note": "Every scalar arithmetic, six vector types."
  },
  {
   "property": "C73",
   "status": "proved",
   "theorems": [
    "C73_elementwise",
    "C73_default_size"
   ],
   "note": "Every scalar arithmetic, six vector types."
  },
  {
   "property": "C74",
   "status": "proved",
   "theorems": [
    "C74_normalize",
    "C74_exact",
    "C74_last_ieee",
    "C74_rest"
   ],
   "note": ""
  },
  {
   "property": "C75",
   "status": "proved",
   "theorems": [
    "C75_quat_ieee",
    "C75_quat",
    "C75_box",
    "C75_box_exact",
    "C75_unimplemented",
    "C75_prism",
    "C75_prism_vicinity",
    "C75_prism_vicinity_ieee"
   ],
   "note": ""
  },
  {
   "property": "C76",
   "status": "proved",
   "theorems": [
    "C76_decides",
    "C76_touching"
   ],
   "note": "Exact arithmetic. Together with C68 this describes every pair of spheres."
  },
  {
   "property": "C77",
   "status": "proved",
   "theorems": [
    "C77_lengths",
    "C77_point",
    "C77_ray",
    "C77_sphere",
    "C77_plane",
    "C77_line",
    "C77_box",
    "C77_prism"
   ],
   "note": "Any arithmetic."
  },
  {
   "property": "C78",
   "status": "proved",
   "theorems": [
    "C78_rounded",
    "C78_representable",
    "C78_meet"
   ],
   "note": "Every IEEE format. A prism is taken as the convex hull of the six vertices it stores."
  },
  {
   "property": "C79",
   "status": "proved",
   "theorems": [
    "C79_spheres",
    "C79_overflow_refuted",
    "C79_underflow_refuted"
   ],
   "note": "Every IEEE format. Without the size limits the query is wrong in f64: overlapping huge spheres are missed, tiny spheres whose boxes touch are reported."
  },
  {
   "property": "C80",
   "status": "proved",
   "theorems": [
    "C80_plane_point",
    "C80_sphere_plane"
   ],
   "note": "Every IEEE format."
  },
  {
   "property": "C81",
   "status": "proved",
   "theorems": [
    "C81_mul",
    "C81_product"
   ],
   "note": "Every IEEE format."
  },
  {
   "property": "C82",
   "status": "proved",
   "theorems": [
    "C82_rotate",
    "C82_length",
    "C82_reflect"
   ],
   "note": "Every IEEE format."
  },
  {
   "property": "C83",
   "status": "proved",
   "theorems": [
    "C83_matrix",
    "C83_reference",
    "C83_lerp"
   ],
   "note": "Every IEEE format. The column-major matrix is the transpose (C23)."
  },
  {
   "property": "C84",
   "status": "proved",
   "theorems": [
    "C84_decision",
    "C84_location",
    "C84_reference"
   ],
   "note": "Every IEEE format. C84_reference ties s/c to the plane over the reals."
  },
  {
   "property": "C85",
   "status": "proved",
   "theorems": [
    "C85_decision",
    "C85_reference"
   ],
   "note": "Every IEEE format. C85_reference: the real conditions say that ray and ball meet."
  },
  {
   "property": "C86",
   "status": "proved",
   "theorems": [
    "C86_location"
   ],
   "note": "Every IEEE format; no margin needed."
  },
  {
   "property": "C87",
   "status": "proved",
   "theorems": [
    "C87_inverse",
    "C87_product",
    "C87_parallel",
    "C87_orthogonal",
    "C87_reference"
   ],
   "note": "Every IEEE format."
  },
  {
   "property": "C88",
   "status": "partial",
   "theorems": [
    "C88_refuted",
    "C88_refuted_f64",
    "C88_partial"
   ],
   "note": "False of the code along the x axis, for touching balls, and by rounding in f64. Proved (exact) for balls that do not touch and whose centres differ in y or z."
  },
  {
   "property": "C89",
   "status": "partial",
   "theorems": [
    "C89_refuted_f64",
    "C89_partial",
    "C89_no_panic",
    "C89_overlap"
   ],
   "note": "False of the code when the search direction overflows. Proved, every IEEE format, for directions that do not over- or underflow when squared. Termination and answers: C109 to C112."
  },
  {
   "property": "C90",
   "status": "proved",
   "theorems": [
    "C90_tiny",
    "C90_plane"
   ],
   "note": "Every IEEE format. Describes behaviour that is wrong geometrically: see also C61, C69."
  },
  {
   "property": "C91",
   "status": "proved",
   "theorems": [
    "C91_skew",
    "C91_right",
    "C91_near"
   ],
   "note": "Exact arithmetic. Complete description of behaviour that is wrong on skew rays (C51)."
  },
  {
   "property": "C92",
   "status": "proved",
   "theorems": [
    "C92_point",
    "C92_inside",
    "C92_radius",
    "C92_zero",
    "C92_ray",
    "C92_plane"
   ],
   "note": "Both arithmetics at once."
  },
  {
   "property": "C93",
   "status": "proved",
   "theorems": [
    "C93_direction",
    "C93_plane",
    "C93_sphere",
    "C93_tiny"
   ],
   "note": "Every IEEE format. Describes behaviour that is wrong geometrically."
  },
  {
   "property": "C94",
   "status": "proved",
   "theorems": [
    "C94_inverse",
    "C94_none",
    "C94_singular_f64"
   ],
   "note": "Every IEEE format. The result is the transpose of the inverse, as in exact arithmetic."
  },
  {
   "property": "C95",
   "status": "proved",
   "theorems": [
    "C95_moved",
    "C95_tolerance"
   ],
   "note": "Exact arithmetic, all kinds of shapes."
  },
  {
   "property": "C96",
   "status": "proved",
   "theorems": [
    "C96_gjk",
    "C96_support"
   ],
   "note": "Exact arithmetic, all kinds of shapes, every number of iterations."
  },
  {
   "property": "C97",
   "status": "partial",
   "theorems": [
    "C97_refuted",
    "C97_partial",
    "C97_witness"
   ],
   "note": "The code falsifies the full statement for a ray and a point: only t0 with t1 and t1 with t2 are compared. C97_partial is every other pair, prisms on collinear points apart."
  },
  {
   "property": "C98",
   "status": "proved",
   "theorems": [
    "C98_exact",
    "C98_ieee",
    "C98_prism_point",
    "C98_prism_segment"
   ],
   "note": "Both arithmetics; prisms and segments exact only."
  },
  {
   "property": "C99",
   "status": "proved",
   "theorems": [
    "C99_prism_point"
   ],
   "note": "Margins explicit; hypotheses instantiated in f32 and f64."
  },
  {
   "property": "C100",
   "status": "partial",
   "theorems": [
    "C100_sound",
    "C100_far_partial",
    "C100_deep_partial",
    "C100_refuted_deep_f64",
    "C100_refuted_deep_f32",
    "C100_refuted_far_f64",
    "C100_refuted_far_f32"
   ],
   "note": "A hit at a finite point is near both shapes (proved). Far segments miss unless a non-finite point is reported; segments with an END deep inside hit. The full claims are FALSE of the code: a segment through the deep interior can be missed in f64 and f32, because the entry point is rounded to just outside its facet; a far segment can be reported as a hit at a NaN point, when a tiny direction component makes the ray parameter infinite and infinity meets a zero component."
  },
  {
   "property": "C101",
   "status": "proved",
   "theorems": [
    "C101_radian",
    "C101_degree",
    "C101_rotate"
   ],
   "note": "Conditional on an accuracy bound of the platform libm, stated as a hypothesis and met by a correctly rounding libm (example)."
  },
  {
   "property": "C102",
   "status": "partial",
   "theorems": [
    "C102_axis_angle_partial",
    "C102_one",
    "C102_round_trip_partial",
    "C102_refuted_f64",
    "C102_refuted_f32"
   ],
   "note": "Proved for scalar parts in [-1,1] away from the cut-off, and exactly at 1 and -1. The full claim is FALSE of the code: a scalar part rounded above 1, e.g. of q times its conjugate for q = normalize (0,0,3,3), gives an axis of three NaNs in f64 and f32."
  },
  {
   "property": "C103",
   "status": "proved",
   "theorems": [
    "C103_slerp"
   ],
   "note": "Acute pairs (obtuse pairs are wrong even in exact arithmetic, C30). Conditional on the accuracy of the platform libm."
  },
  {
   "property": "C104",
   "status": "partial",
   "theorems": [
    "C104_location",
    "C104_far",
    "C104_found_partial",
    "C104_flat",
    "C104_refuted_f64",
    "C104_refuted_f32"
   ],
   "note": "Location and misses are proved in full; hits only for directions without small components. The full claim is FALSE of the code: a ray with a zero direction component reports no point at all, and with the vicinity the constructor sets, points exactly on the ray are missed (distance about 2^43 in f64, 43 in f32)."
  },
  {
   "property": "C105",
   "status": "partial",
   "theorems": [
    "C105_apart",
    "C105_skew",
    "C105_found",
    "C105_parallel_far",
    "C105_parallel_near",
    "C105_default",
    "C105_refuted_f64",
    "C105_refuted_f32",
    "C105_refuted_skew"
   ],
   "note": "Every case is characterised except sines within rounding of the parallel tolerance 1e-4. The full claim is FALSE of the code: rays that pass each other are reported, and with the vicinity the constructor sets a ray misses its own tail (at distance about 2^43 in f64, 43 in f32)."
  },
  {
   "property": "C106",
   "status": "proved",
   "theorems": [
    "C106_unit",
    "C106_outside"
   ],
   "note": "Unit length up to 7u when the vector part has length at most 1; for longer vector parts C106_outside says what the code returns instead (the remainder, not a root)."
  },
  {
   "property": "C107",
   "status": "proved",
   "theorems": [
    "C107_domain",
    "C107_pow",
    "C107_wide",
    "C107_reference"
   ],
   "note": "Given the accuracy of sin, cos, acos and powf. Proved for lengths in [1/2,2] and vector parts that do not underflow."
  },
  {
   "property": "C108",
   "status": "partial",
   "theorems": [
    "C108_mirror",
    "C108_ball_point",
    "C108_gjk",
    "C108_refuted_f64",
    "C108_gjk_refuted_f64"
   ],
   "note": "Proved bit for bit for all pairs but sphere and point, for sphere and point away from the rounded edge of the bounds, and for GJK with x kept. False of the code elsewhere: C108_refuted_f64 (only the upper side of the ball is tested) and C108_gjk_refuted_f64 (the search starts along the x axis and answers differently on its two sides)."
  },
  {
   "property": "C109",
   "status": "partial",
   "theorems": [
    "C109_ring",
    "C109_refuted_f64",
    "C109_refuted_f32",
    "C109_exact"
   ],
   "note": "False of the code, with witnesses: spheres of radius 1/2 with centres 1+2^-14 (f64) or 1+2^-10 (f32) apart along x and slightly off the axis never get an answer. C109_ring is the invariant region; C109_exact shows that the f64 witness ends in exact arithmetic."
  },
  {
   "property": "C110",
   "status": "proved",
   "theorems": [
    "C110_deep"
   ],
   "note": "Every IEEE format of at least 10 bits with emax >= 128. Left out by off_axis: centres that differ in y or z, but by less than 2^-(emax/8), where products may underflow."
  },
  {
   "property": "C111",
   "status": "proved",
   "theorems": [
    "C111_apart"
   ],
   "note": "Every IEEE format of at least 10 bits with emax >= 128. Distances between 1.5 and 8 sums of radii; the pairs with the first ball behind by between 3/4 and 5/4 of the sum of the radii are left out."
  },
  {
   "property": "C112",
   "status": "partial",
   "theorems": [
    "C112_axis",
    "C112_refuted_f64",
    "C112_refuted_f32"
   ],
   "note": "False of the code, with witnesses: unit-diameter balls centred at (3,0,0) and the origin are reported to meet, and swapped they are not. C112_axis says on which positions this happens, in every IEEE format."
  },
  {
   "property": "C113",
   "status": "proved",
   "theorems": [
    "C113_spheres",
    "C113_both",
    "C113_zero",
    "C113_plane"
   ],
   "note": "Every IEEE format of at least 10 bits."
  },
  {
   "property": "C114",
   "status": "partial",
   "theorems": [
    "C114_xy_partial",
    "C114_yz_partial",
    "C114_refuted_yz_f64",
    "C114_refuted_ray_f64",
    "C114_refuted_gjk_f64"
   ],
   "note": "False of the code, with f64 witnesses for exchanging y and z, for a ray and a point, and for GJK. Proved bit for bit for exchanging x and y in all other queries, and y and z in queries of a point against points, spheres and boxes. Prisms are not covered (C97 has them in exact arithmetic)."
  },
  {
   "property": "C115",
   "status": "proved",
   "theorems": [
    "C115_units",
    "C115_normalize",
    "C115_refuted_f64"
   ],
   "note": "Every IEEE format of at least 10 bits. Two rays are not in the statement: C115_refuted_f64 shows that they do depend on the unit."
  },
  {
   "property": "C116",
   "status": "proved",
   "theorems": [
    "C116_move",
    "C116_refuted_plane_f64",
    "C116_refuted_ball_f64"
   ],
   "note": "Every IEEE format of at least 10 bits. The two refuted theorems show that neither planes nor spheres off the grid can be added to the statement."
  },
  {
   "property": "C117",
   "status": "proved",
   "theorems": [
    "C117_order",
    "C117_sign",
    "C117_quaternions",
    "C117_rotations",
    "C117_refuted_conjugate_f64",
    "C117_refuted_norm_f64",
    "C117_refuted_assoc_f64",
    "C117_refuted_qassoc_f64"
   ],
   "note": "Every IEEE format, all floats. The refuted theorems show which laws of exact arithmetic do not carry over."
  },
  {
   "property": "C118",
   "status": "proved",
   "theorems": [
    "C118_vectors",
    "C118_sums",
    "C118_length",
    "C118_matrices",
    "C118_associative",
    "C118_inverse",
    "C118_quaternions",
    "C118_rotation"
   ],
   "note": "Every IEEE format. The entry (i,j) of Mat4::inverse holds entry (j,i) of the inverse, as in C08 and C94."
  },
  {
   "property": "C119",
   "status": "proved",
   "theorems": [
    "C119_spheres",
    "C119_box_point",
    "C119_sphere_point",
    "C119_plane_point",
    "C119_sphere_plane",
    "C119_ray_plane",
    "C119_ray_sphere",
    "C119_prism_point"
   ],
   "note": "Every IEEE format. Sphere and point, sphere behind a plane and negative heights are stated as the code decides them (C44, C54, C56)."
  },
  {
   "property": "C120",
   "status": "proved",
   "theorems": [
    "C120_lengths",
    "C120_quaternions",
    "C120_sphere_plane",
    "C120_plane_point",
    "C120_ray_plane"
   ],
   "note": "Every IEEE format. For normals in general directions see C80 and C84, with margins."
  },
  {
   "property": "C121",
   "status": "proved",
   "theorems": [
    "C121_run",
    "C121_vector",
    "C121_spin"
   ],
   "note": "Every IEEE format. The constants are not sharp."
  },
  {
   "property": "C122",
   "status": "proved",
   "theorems": [
    "C122_product"
   ],
   "note": "Every IEEE format, both layouts."
  },
  {
   "property": "C123",
   "status": "proved",
   "theorems": [
    "C123_search",
    "C123_search_exact",
    "C123_hits",
    "C123_pairs",
    "C123_pairs_exact",
    "C123_regroup",
    "C123_nan_refuted"
   ],
   "note": "Every IEEE format and exact arithmetic. The tree is part of the specification (SpecTree.v), the boxes, unions, overlaps and queries are those of the library. C123_nan_refuted shows that the condition on NaN is needed."
  },
  {
   "property": "C124",
   "status": "proved",
   "theorems": [
    "C124_vector",
    "C124_compose"
   ],
   "note": "Every IEEE format, both layouts."
  },
  {
   "property": "C125",
   "status": "proved",
   "theorems": [
    "C125_product",
    "C125_conjugate",
    "C125_inverse",
    "C125_same",
    "C125_product_ieee",
    "C125_apply_ieee"
   ],
   "note": "Exact arithmetic for the identities, every IEEE format for the bounds."
  },
  {
   "property": "C126",
   "status": "proved",
   "theorems": [
    "C126_reverse",
    "C126_turn",
    "C126_turn_linear",
    "C126_speed",
    "C126_part",
    "C126_pow"
   ],
   "note": "Exact arithmetic. C30 shows what goes wrong on the long way round; reversal and turning hold there too."
  },
  {
   "property": "C127",
   "status": "proved",
   "theorems": [
    "C127_prism_units"
   ],
   "note": "Every IEEE format. C115 has the other pairs of shapes."
  },
  {
   "property": "C128",
   "status": "proved",
   "theorems": [
    "C128_both",
    "C128_linear"
   ],
   "note": "Every IEEE format."
  },
  {
   "property": "C129",
   "status": "proved",
   "theorems": [
    "C129_frames"
   ],
   "note": "Every IEEE format of at least 24 bits, every libm with a stated error."
  },
  {
   "property": "C130",
   "status": "proved",
   "theorems": [
    "C130_laws"
   ],
   "note": "Every IEEE format, every libm with a stated error."
  },
  {
   "property": "C131",
   "status": "proved",
   "theorems": [
    "C131_steer",
    "C131_wheel"
   ],
   "note": "Every IEEE format, every libm with a stated error."
  },
  {
   "property": "C132",
   "status": "proved",
   "theorems": [
    "C132_near",
    "C132_rotation",
    "C132_course"
   ],
   "note": "Every IEEE format."
  },
  {
   "property": "C133",
   "status": "proved",
   "theorems": [
    "C133_spheres",
    "C133_spheres_place",
    "C133_plane_point",
    "C133_sphere_plane",
    "C133_ray_plane",
    "C133_ray_sphere"
   ],
   "note": "Every IEEE format."
  },
  {
   "property": "C134",
   "status": "proved",
   "theorems": [
    "C134_point",
    "C134_distance",
    "C134_spheres"
   ],
   "note": "Every IEEE format."
  },
  {
   "property": "C135",
   "status": "proved",
   "theorems": [
    "C135_never_rejects",
    "C135_sound",
    "C135_monotone",
    "C135_infinite",
    "C135_swapped",
    "C135_chained",
    "C135_total"
   ],
   "note": "Every IEEE format, all eight types."
  },
  {
   "property": "C136",
   "status": "proved",
   "theorems": [
    "C136_product",
    "C136_course",
    "C136_inverse",
    "C136_apply",
    "C136_return"
   ],
   "note": "Every IEEE format of the stated size. C136_inverse says that the code returns the matrix itself where its transpose is meant."
  },
  {
   "property": "C137",
   "status": "proved",
   "theorems": [
    "C137_unimodular",
    "C137_signs",
    "C137_none",
    "C137_total"
   ],
   "note": "Every IEEE format of the stated size. The division by the determinant and the signs are those of the code, which are wrong; the theorems say what comes out."
  },
  {
   "property": "C138",
   "status": "proved",
   "theorems": [
    "C138_formulas",
    "C138_middle_row"
   ],
   "note": "Every IEEE format of the stated size. The formulas are those of the code, which are wrong outside the middle row (C09)."
  },
  {
   "property": "C139",
   "status": "proved",
   "theorems": [
    "C139_solve",
    "C139_transposed"
   ],
   "note": "Every IEEE format of more than 9 digits. The transpose in C139_solve undoes the one the code applies to its result (C08)."
  },
  {
   "property": "C140",
   "status": "proved",
   "theorems": [
    "C140_row",
    "C140_row_wrong",
    "C140_column"
   ],
   "note": "Every IEEE format. The IEEE counterpart of the partial theorems of C24: what the code computes instead of the translated point."
  },
  {
   "property": "C141",
   "status": "partial",
   "theorems": [
    "C141_scalar_partial",
    "C141_nan_partial",
    "C141_refuted"
   ],
   "note": "False of the code, with a witness in f64 whose result is not finite. Proved instead for every format: the scalar part is ln w up to d, hence off by at least ln(|q|/w) - d; and when ln w + d <= -9/8 |q| the whole vector part is not a number. The IEEE counterpart of C27."
  },
  {
   "property": "C142",
   "status": "proved",
   "theorems": [
    "C142_interpolations",
    "C142_conjugate",
    "C142_short_way"
   ],
   "note": "Every IEEE format and libm. An example shows that the sign of the second end does matter outside the nearly parallel range."
  }
 ]
}