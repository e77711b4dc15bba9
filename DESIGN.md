# Formal model of mazth in Rocq (Coq 8.16.1)

## Shape of the development

One model, two arithmetics.  Every function of the library is transcribed once, generically over a
record `Num` of scalar operations (`Num.v`): `+ - * / neg abs sqrt`, the IEEE partial comparison, literals,
infinities, EPSILON, PI and the libm functions `sin cos acos ln atan2 powf`.  The record is instantiated twice:

* `Exact eps zs` (`Exact.v`): exact extended reals `Fin r | PInf | NInf | NaN`, with the special-value rules of
  IEEE 754 but no rounding, no overflow and a single zero.  libm functions are the real functions.  Because there is
  only one zero, the sign of `x / 0` for `x` non-zero is not determined; it is taken from an arbitrary function
  `zs : XR -> bool`.  `eps` is the value of EPSILON.  Theorems quantify over both.
* `Ieee prec emax lm` (`Float.v`): IEEE 754 arithmetic of any precision and exponent range (Flocq
  `BinarySingleNaN`, round to nearest even), in particular `F32` and `F64`.  The libm functions are an arbitrary
  record `lm`, over which theorems quantify.

A property that is true whatever the arithmetic is proved for an arbitrary `Num`.  A property of comparisons, panics,
special values or bits is proved on the IEEE instance, for all formats and all values.  Geometry and algebra
are proved on the exact instance.  The gap between the last two is rounding: it is stated in the MANIFEST
note, covered by the rounding-error theorems C65, C71 and later ones, and by IEEE counterexamples where rounding or special
values break the claim.

A panic is a value: functions return `res A := Ok a | Panic kind` wherever the Rust code can panic
(asserts, `unwrap`, indexing, `unimplemented!`, `panic!`).  Loops with constant bounds are folds over the same index
range with in-place updates.  The GJK `loop` is a step function iterated with fuel, with a separate
out-of-fuel outcome; theorems quantify over the fuel, so they cover executions of any length.

When the unchanged code violates a property, the theorem is named `..._refuted` and exhibits a witness;
the part that does hold is proved under a name ending in `_partial`, or as an exact characterisation of
what the code computes.  `_refuted_f64` theorems evaluate the model in binary64.

## Files (`rocq/theories`, all in the build)

| files | content |
|-------|---------|
| `Base Num Vec Mat Quat Bound Shape Intersect Gjk` | the model, no proofs; every definition cites file and lines |
| `Exact Float` | the two arithmetics |
| `SpecMat SpecReal SpecGeom SpecQuat SpecBound SpecShape SpecInter SpecRound SpecMisc SpecGjk` and later `Spec*` | specification vocabulary: logical matrices, vectors and point sets of R^3, Hamilton's quaternions, boxes, constructed shapes, error bounds |
| `Order ExactFacts FloatFacts FloatRound`, `P*.v` (not `Properties*`) | proofs |
| `Properties*.v` | only the property theorems, each with `Print Assumptions` and an `Example` meeting its hypotheses |
| `RepoTests` | the unit tests of the repository (lib/test), run on the model: 143 assertions and the 1000 directions of the support test in f64, test_quat.rs in f32 |

`SpecMat`, `SpecBound`, `SpecShape`, `SpecInter` necessarily mention model types (a stored matrix *represents* a logical
one, a shape *was built from* real numbers); `SpecReal`, `SpecGeom`, `SpecQuat`, `SpecRound`, `SpecMisc` do not refer to the
library's algorithms.

## What is modelled

All of `/repo/lib/*.rs` that contains code: `mat.rs`, `quat.rs`, `dualquat.rs`, `bound.rs`, `bound_sphere.rs`, `i_bound.rs`,
`i_shape.rs`, `i_vicinity.rs`, `i_comparable.rs`, `i_intersect.rs`, the seven shapes and `intersect_gjk.rs`.
`surf_interact.rs` consists of comments.  `Mat*`/`Quat*` macros are instantiated by the library for `f32` and `f64`; shapes use `f64`.

Simplifications, also noted at the definitions:

* `Num.v`: `min`/`max` of `+0.0` and `-0.0` return the first argument (Rust leaves it open); `powi(2)` is `x*x`.
* `Float.v`: one NaN (no payloads, no sign of NaN); no flags; no FMA contraction (rustc does not contract).
* `Float.v`: a literal `p/q` is the quotient of the two integers; `FloatFacts.lit_correct` shows it is the correctly rounded literal
  where both are exact, and `lit_1em11_f32` covers the one that is not.
* `Exact.v`: `atan2` and `powf` of infinite or (for `powf`) negative arguments are NaN; no theorem uses them there.
* `Mat.v`: reads of the same cell in the inverse code are hoisted into `let`s.
* Index arithmetic of `Mat3/Mat4` is on unbounded `N` with the u64 overflow behaviour of both build modes made explicit (`chk`).
* Trait objects are closed sums over the implementors in the crate.  `Debug`, `Clone`, `Copy` derives and `println!` are left out.
* Stack/heap exhaustion is not modelled.

## Trusted base

* The Coq 8.16.1 kernel (including `vm_compute`), the Flocq 4.1 definitions of the IEEE operations, and the standard library.
* That `Base.v` .. `Gjk.v` transcribe the Rust code.  Evidence: line citations, `RepoTests.v`, and
  the mutation log `seeded/LOG.jsonl` (each mutation edits one model definition; the theorems that fail are listed).
* Axioms: only those of the standard library below (real numbers, functional extensionality, excluded middle), as
  reported by `Print Assumptions`.  None are added here.

`Print Assumptions` of the 477 property theorems:

* **No axioms** (52 theorems, "Closed under the global context"): `C01_init_index3`, `C01_init_index4`, `C01_no_panic`, `C02_exact`, `C02_partial`, `C02_refuted`, `C03_repr_total`, `C03_set3`, `C03_set4`, `C04_transpose`, `C04_transpose_self`, `C04_vectors`, `C05_mul`, `C06_matrix_vector`, `C06_transpose`, `C06_vector_matrix`, `C10_mixed3`, `C10_mixed4`, `C10_partial3`, `C10_partial4`, `C14_none`, `C16_iden`, `C16_submat`, `C16_trace`, `C19_init`, `C23_partial`, `C26_panic_any`, `C35_nothing`, `C35_receiver`, `C35_sphere_panics`, `C37_partial`, `C59_segment`, `C63_others`, `C64_set`, `C69_partial`, `C72_read`, `C72_read_after_write`, `C72_write`, `C73_default_size`, `C73_elementwise`, `C74_normalize`, `C74_rest`, `C75_quat`, `C75_unimplemented`, `C77_box`, `C77_lengths`, `C77_line`, `C77_plane`, `C77_point`, `C77_prism`, `C77_ray`, `C77_sphere`.
* **`ClassicalDedekindReals.sig_forall_dec`, `FunctionalExtensionality.functional_extensionality_dep`** (2 theorems): `C83_reference`, `C87_reference`.
* **`ClassicalDedekindReals.sig_forall_dec`, `ClassicalDedekindReals.sig_not_dec`, `FunctionalExtensionality.functional_extensionality_dep`** (3 theorems): `C52_meets`, `C84_reference`, `C85_reference`.
* **`ClassicalDedekindReals.sig_forall_dec`, `ClassicalDedekindReals.sig_not_dec`, `Classical_Prop.classic`, `FunctionalExtensionality.functional_extensionality_dep`** (420 theorems): `C07_assoc`, `C07_distributive3`, `C07_distributive4`, `C07_transpose_ieee`, `C07_unit`, `C07_unit_ieee3`, `C07_unit_ieee4`, `C08_partial`, `C08_refuted`, `C08_refuted_f64`, `C09_partial`, `C09_refuted`, `C09_refuted_f64`, `C09_unimodular_partial`, `C100_deep_partial`, `C100_far_partial`, `C100_refuted_deep_f32`, `C100_refuted_deep_f64`, `C100_refuted_far_f32`, `C100_refuted_far_f64`, `C100_sound`, `C101_degree`, `C101_radian`, `C101_rotate`, `C102_axis_angle_partial`, `C102_one`, `C102_refuted_f32`, `C102_refuted_f64`, `C102_round_trip_partial`, `C103_slerp`, `C104_far`, `C104_flat`, `C104_found_partial`, `C104_location`, `C104_refuted_f32`, `C104_refuted_f64`, `C105_apart`, `C105_default`, `C105_found`, `C105_parallel_far`, `C105_parallel_near`, `C105_refuted_f32`, `C105_refuted_f64`, `C105_refuted_skew`, `C105_skew`, `C106_outside`, `C106_unit`, `C107_domain`, `C107_pow`, `C107_reference`, `C107_wide`, `C108_ball_point`, `C108_gjk`, `C108_gjk_refuted_f64`, `C108_mirror`, `C108_refuted_f64`, `C109_exact`, `C109_refuted_f32`, `C109_refuted_f64`, `C109_ring`, `C10_refuted`, `C110_deep`, `C111_apart`, `C112_axis`, `C112_refuted_f32`, `C112_refuted_f64`, `C113_both`, `C113_plane`, `C113_spheres`, `C113_zero`, `C114_refuted_gjk_f64`, `C114_refuted_ray_f64`, `C114_refuted_yz_f64`, `C114_xy_partial`, `C114_yz_partial`, `C115_normalize`, `C115_refuted_f64`, `C115_units`, `C116_move`, `C116_refuted_ball_f64`, `C116_refuted_plane_f64`, `C117_order`, `C117_quaternions`, `C117_refuted_assoc_f64`, `C117_refuted_conjugate_f64`, `C117_refuted_norm_f64`, `C117_refuted_qassoc_f64`, `C117_rotations`, `C117_sign`, `C118_associative`, `C118_inverse`, `C118_length`, `C118_matrices`, `C118_quaternions`, `C118_rotation`, `C118_sums`, `C118_vectors`, `C119_box_point`, `C119_plane_point`, `C119_prism_point`, `C119_ray_plane`, `C119_ray_sphere`, `C119_sphere_plane`, `C119_sphere_point`, `C119_spheres`, `C11_exact`, `C11_exact_vectors`, `C11_nan`, `C11_nan_vectors`, `C11_self`, `C11_self_vectors`, `C120_lengths`, `C120_plane_point`, `C120_quaternions`, `C120_ray_plane`, `C120_sphere_plane`, `C121_run`, `C121_spin`, `C121_vector`, `C122_product`, `C123_hits`, `C123_nan_refuted`, `C123_pairs`, `C123_pairs_exact`, `C123_regroup`, `C123_search`, `C123_search_exact`, `C124_compose`, `C124_vector`, `C125_apply_ieee`, `C125_conjugate`, `C125_inverse`, `C125_product`, `C125_product_ieee`, `C125_same`, `C126_part`, `C126_pow`, `C126_reverse`, `C126_speed`, `C126_turn`, `C126_turn_linear`, `C127_prism_units`, `C128_both`, `C128_linear`, `C129_frames`, `C12_partial`, `C12_refuted`, `C130_laws`, `C131_steer`, `C131_wheel`, `C132_course`, `C132_near`, `C132_rotation`, `C133_plane_point`, `C133_ray_plane`, `C133_ray_sphere`, `C133_sphere_plane`, `C133_spheres`, `C133_spheres_place`, `C134_distance`, `C134_point`, `C134_spheres`, `C135_chained`, `C135_infinite`, `C135_monotone`, `C135_never_rejects`, `C135_sound`, `C135_swapped`, `C135_total`, `C136_apply`, `C136_course`, `C136_inverse`, `C136_product`, `C136_return`, `C137_none`, `C137_signs`, `C137_total`, `C137_unimodular`, `C138_formulas`, `C138_middle_row`, `C139_solve`, `C139_transposed`, `C13_magnitude`, `C13_normalize`, `C13_normalize_zero`, `C140_column`, `C140_row`, `C140_row_wrong`, `C141_nan_partial`, `C141_refuted`, `C141_scalar_partial`, `C142_conjugate`, `C142_interpolations`, `C142_short_way`, `C14_bilinear`, `C14_cross`, `C15_commutative`, `C15_inequalities`, `C17_algebra`, `C17_hamilton`, `C17_product`, `C18_inverse`, `C18_panic`, `C18_panic_ieee`, `C19_normalize`, `C19_panic`, `C19_panic_ieee`, `C20_axis_angle`, `C20_degree`, `C20_zero_axis`, `C21_compose`, `C21_rotation`, `C21_undo`, `C22_agrees`, `C22_orthogonal`, `C23_inverse_partial`, `C23_refuted`, `C23_refuted_f64`, `C24_column_partial`, `C24_column_refuted`, `C24_refuted_f64`, `C24_row_partial`, `C24_row_refuted`, `C25_roundtrip`, `C25_unit`, `C26_panic`, `C26_pow`, `C27_always_wrong_refuted`, `C27_partial`, `C27_refuted`, `C28_between`, `C28_ends_ieee`, `C28_lerp`, `C29_ends`, `C29_slerp`, `C30_always_wrong_refuted`, `C30_partial`, `C30_refuted`, `C31_decomposition`, `C31_reflection`, `C32_auto_w`, `C32_beyond`, `C33_symmetric`, `C33_symmetric_exact`, `C34_common_point`, `C34_common_point_exact`, `C35_order`, `C35_union`, `C35_union_exact`, `C36_box`, `C36_exists`, `C36_line`, `C36_plane`, `C36_point`, `C36_prism`, `C36_ray`, `C36_sphere`, `C37_refuted`, `C38_exact`, `C38_ieee_partial`, `C38_refuted`, `C39_symmetric`, `C39_symmetric_exact`, `C40_answer`, `C40_answer_exact`, `C41_disjoint`, `C41_kind`, `C41_panics`, `C41_panics_exact`, `C42_equal_ieee_partial`, `C42_ieee_partial`, `C42_nan_partial`, `C42_partial`, `C42_refuted`, `C43_ieee`, `C43_sphere_point`, `C44_partial`, `C44_refuted`, `C44_refuted_f64`, `C45_box_point`, `C45_box_point_ieee`, `C45_ieee_complete`, `C45_nan_point`, `C46_plane_point`, `C47_location`, `C47_partial`, `C47_refuted`, `C47_refuted_f64`, `C47_zero_partial`, `C48_first_hit`, `C49_back`, `C49_front`, `C49_inside`, `C50_collinear`, `C50_found`, `C51_partial`, `C51_refuted`, `C51_refuted_f64`, `C52_sphere_sphere`, `C53_complete`, `C53_location`, `C54_partial`, `C54_refuted`, `C54_refuted_f64`, `C55_prism_point`, `C56_always_wrong_refuted`, `C56_flat_partial`, `C56_refuted`, `C56_refuted_f64`, `C57_negative`, `C57_prism_segment`, `C58_partial`, `C58_refuted`, `C58_refuted_f64`, `C59_box`, `C59_point`, `C59_prism`, `C59_sphere`, `C59_unbounded`, `C59_zero`, `C60_false_sound`, `C61_partial`, `C61_refuted`, `C61_refuted_f64`, `C61_rounding_refuted_f64`, `C62_partial`, `C62_refuted`, `C62_refuted_f64`, `C63_spheres`, `C64_nan`, `C64_sign`, `C64_within`, `C65_cross`, `C65_dot`, `C65_mul3`, `C65_mul4`, `C65_mulv3`, `C65_mulv4`, `C65_quat_mul`, `C66_near`, `C67_partial`, `C67_refuted`, `C68_axis`, `C69_refuted_f32`, `C69_refuted_f64`, `C70_box`, `C70_prism`, `C71_normalize`, `C71_quat`, `C71_underflow_refuted`, `C74_exact`, `C74_last_ieee`, `C75_box`, `C75_box_exact`, `C75_prism`, `C75_prism_vicinity`, `C75_prism_vicinity_ieee`, `C75_quat_ieee`, `C76_decides`, `C76_touching`, `C78_meet`, `C78_representable`, `C78_rounded`, `C79_overflow_refuted`, `C79_spheres`, `C79_underflow_refuted`, `C80_plane_point`, `C80_sphere_plane`, `C81_mul`, `C81_product`, `C82_length`, `C82_reflect`, `C82_rotate`, `C83_lerp`, `C83_matrix`, `C84_decision`, `C84_location`, `C85_decision`, `C86_location`, `C87_inverse`, `C87_orthogonal`, `C87_parallel`, `C87_product`, `C88_partial`, `C88_refuted`, `C88_refuted_f64`, `C89_no_panic`, `C89_overlap`, `C89_partial`, `C89_refuted_f64`, `C90_plane`, `C90_tiny`, `C91_near`, `C91_right`, `C91_skew`, `C92_inside`, `C92_plane`, `C92_point`, `C92_radius`, `C92_ray`, `C92_zero`, `C93_direction`, `C93_plane`, `C93_sphere`, `C93_tiny`, `C94_inverse`, `C94_none`, `C94_singular_f64`, `C95_moved`, `C95_tolerance`, `C96_gjk`, `C96_support`, `C97_partial`, `C97_refuted`, `C97_witness`, `C98_exact`, `C98_ieee`, `C98_prism_point`, `C98_prism_segment`, `C99_prism_point`.

The axioms come with `Reals` (`sig_forall_dec`, `sig_not_dec`, `functional_extensionality_dep`) and, through Flocq and `Classical`,
`classic`.  A theorem about IEEE values depends on them because Flocq specifies rounding through real numbers.

## Plan per property

| id | modelled | proof |
|----|----------|-------|
| C01 | `init`, `index` with u64 arithmetic | any Num, case analysis on layout and indices |
| C02 | `index` in both overflow modes (panic / wrap mod 2^64) | refuted by aliasing; exact panic condition |
| C03 | `index_mut` as get/set | any Num |
| C04 | transpose loops | any Num, evaluation of the loop on symbolic arrays |
| C05,C06 | product loops | any Num, evaluation of the loops |
| C07 | same | exact: ring; IEEE: commutativity of rounding, Flocq for A*I |
| C08,C09 | cofactor code verbatim | exact: field; refutations with witnesses, exact statement of what is returned |
| C10 | element-wise code | any Num for equal layouts; refuted for mixed |
| C11,C12 | is_equal | exact: lra; IEEE: monotonicity of rounding; witness for asymmetry |
| C13-C15 | vector code | exact; IEEE for NaN and commutativity |
| C16 | trace, iden, submat | any Num |
| C17-C22 | quaternion algebra | exact: ring/field/trig |
| C23,C24 | matrices from quaternions | refuted with witness + exact statement of what is returned |
| C25-C27 | axis-angle, pow, ln | exact with real trigonometry; ln refuted |
| C28-C30, C66 | lerp/slerp | exact; C30 refuted with the real witness omega=2pi/3 |
| C31,C32 | reflections, auto w | exact |
| C33-C35 | boxes over comparisons | IEEE, all values; induction over the list of operands |
| C36 | AABB::init for each shape | exact |
| C37 | max_by with the code's comparator | any Num: always Z; refuted |
| C38 | centroid | exact; IEEE refuted by overflow |
| C39-C41 | dispatch of get_intersect | any Num with swap-symmetric comparison |
| C42-C58 | each pair of shapes | exact, against set-membership specifications; refutations on IEEE and exact |
| C59, C70 | get_support | exact; vertices in any IEEE format |
| C60-C63, C67-C69, C76 | GJK loop with fuel | invariant over iterations (exact); refutations on IEEE |
| C64 | vicinity | exact and IEEE |
| C65, C71 | dot, cross, products, magnitude, normalize | Flocq rounding-error analysis, every format |
| C72-C74 | element access, element-wise vector code, remaining matrix methods | any Num; IEEE for normalize |
| C75 | defaults, unimplemented parts | IEEE and exact |
| C77 | the seven constructors and `get_shape_data` | any Num |
| C78, C43 | `AABB::init`, box test, sphere-point test | every IEEE format: rounding is monotone, overflow included |
| C79, C80 | sphere-sphere, plane-point, sphere-plane | rounding-error analysis with no-overflow proved from size limits; f64 witnesses beyond them |
| C81-C83 | quaternion product, rotation, reflection, rotation matrix, linear interpolation | IEEE error bounds in the Euclidean norm; induction over the list of factors |
| C84-C86 | ray against plane and sphere | IEEE error margins for the decision, error bounds for the returned point |
| C87 | quaternion inverse, components along and across a plane | IEEE error bounds |
| C88 | GJK and get_intersect on two spheres agree | exact; refuted by rounding in f64 |
| C89 | GJK answer false, panics | IEEE with error margin |
| C90 | GJK on tiny spheres | IEEE, underflow |
| C91 | ray-ray query, every case | exact |
| C92 | NaN data, zero directions and normals | exact and IEEE |
| C93 | directions whose square over- or underflows | IEEE with error margin |
| C94 | Mat4 inverse: error bound, None, singular matrices | IEEE with error margin |
| C95 | Queries under x -> s x + t | exact |
| C96 | GJK and support functions under x -> s x + t | exact |
| C97 | Queries under the symmetries of the axes | exact; false for ray and point |
| C98 | Growing a shape never loses a hit | both, no error margin |
| C99 | Prism against point, error margins | IEEE |
| C100 | Prism against segment | IEEE; partial, refuted by missed interior segments and by NaN hits |
| C101 | Quaternion from axis and angle | IEEE, given libm accuracy |
| C102 | Axis and angle of a quaternion | IEEE; partial, refuted by NaN axes |
| C103 | Spherical interpolation, acute pairs | IEEE, given libm accuracy |
| C104 | Ray against point | IEEE; partial, refuted for flat directions and far points |
| C105 | Ray against ray | IEEE; partial, refuted for passing rays and tails |
| C106 | Completing to unit length | IEEE |
| C107 | Quaternion powers | IEEE, given the accuracy of libm |
| C108 | Mirror images | IEEE |
| C109 | GJK ends | IEEE, false of the code |
| C110 | GJK finds deep overlap | IEEE, every format |
| C111 | GJK rejects balls clearly apart | IEEE, every format |
| C112 | GJK right along the x axis | IEEE, false of the code |
| C113 | location of sphere hits | IEEE error bounds |
| C114 | exchanging coordinates | IEEE, bit for bit; refuted in f64 where false |
| C115 | all lengths times a power of two | IEEE, exact; refuted in f64 for two rays |
| C116 | moving both shapes | IEEE; refuted in f64 for planes and off the grid |
| C117 | order and sign laws of vectors and quaternions | IEEE, all floats; associativity and others refuted in f64 |
| C118 | vectors, matrices, quaternions of fixed-point numbers | IEEE, without rounding |
| C119 | intersection queries on fixed-point data | IEEE, exact answers |
| C120 | lengths and planes along an axis | IEEE, exact or one rounding |
| C121 | any number of operations on an orientation | IEEE, error linear in the number of steps |
| C122 | running products of 4x4 matrices | IEEE, error bound by row sums |
| C123 | searching trees of bounding boxes | any tree; exact and IEEE, bit for bit |
| C124 | vectors under many 4x4 matrices | IEEE, error bound by row sums |
| C125 | rotation matrices against quaternion algebra | exact identities; IEEE bounds |
| C126 | symmetries and constant speed of the interpolations | exact |
| C127 | the unit of length does not matter for a prism and a point | IEEE, every format |
| C128 | an orientation kept as a matrix and as a quaternion | IEEE, every format |
| C129 | reversal, speed and length of the spherical interpolation | IEEE, 24 bits and more, libm with a stated error |
| C130 | laws of quaternion powers | IEEE, every format, libm with a stated error |
| C131 | steering an orientation by any number of turns about axes | IEEE, every format, libm with a stated error |
| C132 | the inverse of rotation matrices and of their running products | IEEE, every format |
| C133 | queries about shapes turned together by a quaternion | IEEE, every format |
| C134 | points and spheres carried through a chain of poses | IEEE, every format |
| C135 | is_equal: what it accepts, monotone, near-symmetric, near-transitive | IEEE, every format |
| C136 | matrices and quaternions agree under is_equal with explicit tolerances | IEEE, every format of more than 9 digits |
| C137 | Mat3::inverse near determinant 1: entries, wrong signs, None | IEEE, every format of more than 9 digits |
| C138 | Mat3::inverse at any determinant: distance from its own formulas, middle row | IEEE, every format of more than 9 digits |
| C139 | solving f y = b with inverse, transpose and product | IEEE, every format of more than 9 digits |
| C140 | the translation matrix: what it does to a point, both layouts | IEEE, every format |
| C141 | logarithm of a quaternion: what the code computes, and where it is not a number | IEEE, every format |
| C142 | signs and conjugates under interpolation, power and logarithm | IEEE, every format, bit for bit |
