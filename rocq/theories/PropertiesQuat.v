(** PropertiesQuat.v — the property theorems C17-C32 and C66 (quaternions) and nothing else.  Each theorem is closed by a
    lemma of the P*.v files; below it, [Print Assumptions] and an [Example] showing that a concrete case meets its
    hypotheses.  [eq4 eps zs q] is the real quaternion [q : H4] as a value of the library's type, [ev eps zs p] the real
    vector [p] as Mat3x1, [ev4 eps zs p w] the homogeneous vector (p, w) as Mat4x1. *)
From Coq Require Import Reals List ZArith NArith Bool Lra Lia.
From Flocq Require Import Core BinarySingleNaN.
Import ListNotations.
From Verif Require Import Base Num Vec Mat Quat Float Exact SpecMat SpecReal SpecGeom SpecQuat ExactFacts FloatFacts Order
  PMat PQuat PQuat2 PQuat3.
Local Open Scope R_scope.

(** a unit quaternion for the examples *)
Definition exq : H4 := H (V (3 / 5) 0 0) (4 / 5).
Example exq_unit : hunit exq /\ exq <> hzero /\ hv exq <> vzero.
Proof.
  unfold exq, hunit, hdot, vdot, hzero, vzero. simpl. split; [lra |]. split; intro C; inversion C; lra.
Qed.

(** ---- C17: Hamilton's algebra ---- *)
Theorem C17_hamilton (eps : R) (zs : XR -> bool) :
  let i := eq4 eps zs hi in let j := eq4 eps zs hj in let k := eq4 eps zs hk in let m1 := eq4 eps zs (H vzero (-1)) in
  quat_mul i i = m1 /\ quat_mul j j = m1 /\ quat_mul k k = m1 /\ quat_mul (quat_mul i j) k = m1 /\
  quat_mul i j = k /\ quat_mul j k = i /\ quat_mul k i = j.
Proof. exact (hamilton_rules eps zs). Qed.
Print Assumptions C17_hamilton.
Theorem C17_algebra (eps : R) (zs : XR -> bool) (a b c : H4) (s : R) :
  let E := Exact eps zs in let qa := eq4 eps zs a in let qb := eq4 eps zs b in let qc := eq4 eps zs c in let s := (Fin s : E) in
  quat_mul (quat_mul qa qb) qc = quat_mul qa (quat_mul qb qc) /\
  quat_mul (quat_add qa qb) qc = quat_add (quat_mul qa qc) (quat_mul qb qc) /\
  quat_mul qa (quat_add qb qc) = quat_add (quat_mul qa qb) (quat_mul qa qc) /\
  quat_mul (quat_minus qa qb) qc = quat_minus (quat_mul qa qc) (quat_mul qb qc) /\
  quat_mul (quat_scale qa s) qb = quat_scale (quat_mul qa qb) s /\
  quat_mul qa (quat_scale qb s) = quat_scale (quat_mul qa qb) s /\
  quat_mul quat_init qa = qa /\ quat_mul qa quat_init = qa /\
  quat_conjugate (quat_mul qa qb) = quat_mul (quat_conjugate qb) (quat_conjugate qa) /\
  quat_negate qa = quat_scale qa (Fin (-1) : E) /\
  quat_length_squared (quat_mul qa qb) = nmul E (quat_length_squared qa) (quat_length_squared qb) /\
  quat_mul qa (quat_conjugate qa) = eq4 eps zs (H vzero (hdot a a)) /\
  quat_length_squared qa = (Fin (hdot a a) : E) /\ quat_length qa = (Fin (hlen a) : E).
Proof. exact (algebra eps zs a b c s). Qed.
Print Assumptions C17_algebra.
(** the product is Hamilton's, in scalar and vector parts; sum, difference, scaling and conjugation componentwise *)
Theorem C17_product (eps : R) (zs : XR -> bool) (a b : H4) (s : R) :
  quat_mul (eq4 eps zs a) (eq4 eps zs b) = eq4 eps zs (hmul a b) /\
  quat_add (eq4 eps zs a) (eq4 eps zs b) = eq4 eps zs (hadd a b) /\
  quat_minus (eq4 eps zs a) (eq4 eps zs b) = eq4 eps zs (hsub a b) /\
  quat_scale (eq4 eps zs a) (Fin s : Exact eps zs) = eq4 eps zs (hscale s a) /\
  quat_conjugate (eq4 eps zs a) = eq4 eps zs (hconj a) /\ quat_init = eq4 eps zs hone.
Proof.
  exact (conj (q_mul eps zs a b) (conj (q_add eps zs a b) (conj (q_minus eps zs a b) (conj (q_scale eps zs a s)
    (conj (q_conj eps zs a) (q_init eps zs)))))).
Qed.
Print Assumptions C17_product.
Example C17_case eps zs : quat_mul (eq4 eps zs exq) (eq4 eps zs hj) = eq4 eps zs (H (V 0 (4 / 5) (3 / 5)) 0).
Proof. rewrite q_mul. f_equal. unfold exq. hring. Qed.

(** ---- C18: inverse ---- *)
Theorem C18_inverse (eps : R) (zs : XR -> bool) (q : H4) : q <> hzero -> exists g,
  quat_inverse (eq4 eps zs q) = Ok (eq4 eps zs g) /\
  quat_mul (eq4 eps zs q) (eq4 eps zs g) = quat_init /\ quat_mul (eq4 eps zs g) (eq4 eps zs q) = quat_init.
Proof. exact (inverse_two_sided eps zs q). Qed.
Print Assumptions C18_inverse.
Theorem C18_panic (eps : R) (zs : XR -> bool) : quat_inverse (eq4 eps zs hzero) = Panic PAssert.
Proof. exact (q_inverse_zero eps zs). Qed.
Print Assumptions C18_panic.
(** every IEEE format, all values: NaN, infinities and underflow included; otherwise a value is returned *)
Theorem C18_panic_ieee prec emax {Hp : Prec_gt_0 prec} {Hm : Prec_lt_emax prec emax} (lm : libm (binary_float prec emax))
    (q : quat (@Ieee prec emax Hp Hm lm)) :
  (quat_inverse q = Panic PAssert <-> neqb (quat_length_squared q) n0 = true) /\
  (quat_inverse q = Panic PAssert \/ exists r, quat_inverse q = Ok r).
Proof. exact (conj (inverse_panics_ieee prec emax lm q) (proj2 (inverse_panics q))). Qed.
Print Assumptions C18_panic_ieee.
(** so in f64 a non-zero quaternion panics when its squared length underflows: 2^-600 *)
Example C18_case_underflow lm :
  quat_inverse (Q (@binary_normalize 53 1024 f64_prec_gt_0 f64_prec_lt_emax mode_NE 1 (-600) false : F64 lm) n0 n0 n0) = Panic PAssert.
Proof. apply (inverse_panics_ieee 53 1024 lm). vm_compute. reflexivity. Qed.
Example C18_case : exq <> hzero. Proof. exact (proj1 (proj2 exq_unit)). Qed.

(** ---- C19: normalisation ---- *)
Theorem C19_normalize (eps : R) (zs : XR -> bool) (q : H4) : q <> hzero -> exists c, 0 < c /\
  quat_normalize (eq4 eps zs q) = Ok (eq4 eps zs (hscale c q)) /\ hunit (hscale c q).
Proof. exact (q_normalize eps zs q). Qed.
Print Assumptions C19_normalize.
Theorem C19_panic (eps : R) (zs : XR -> bool) (q : H4) : quat_normalize (eq4 eps zs q) = Panic PExplicit <-> q = hzero.
Proof. exact (normalize_panics eps zs q). Qed.
Print Assumptions C19_panic.
Theorem C19_panic_ieee prec emax {Hp : Prec_gt_0 prec} {Hm : Prec_lt_emax prec emax} (lm : libm (binary_float prec emax))
    (q : quat (@Ieee prec emax Hp Hm lm)) :
  (quat_normalize q = Panic PExplicit <-> (neqb (quat_length q) n0 = true \/ nisnan (quat_length q) = true)) /\
  (quat_normalize q = Panic PExplicit \/ exists r, quat_normalize q = Ok r).
Proof. exact (normalize_panics_ieee prec emax lm q). Qed.
Print Assumptions C19_panic_ieee.
Theorem C19_init {Nm : Num} (x y z w : Nm) :
  quat_init_from_vals_normalize x y z w = quat_normalize (quat_init_from_vals_raw x y z w).
Proof. exact eq_refl. Qed.
Print Assumptions C19_init.
Example C19_case lm : quat_normalize (Q (B754_nan : F64 lm) n0 n0 n1) = Panic PExplicit /\
  quat_normalize (Q n0 n0 n0 n0 : quat (F64 lm)) = Panic PExplicit.
Proof. split; apply (normalize_panics_ieee 53 1024 lm); [right | left]; vm_compute; reflexivity. Qed.

(** ---- C20: axis-angle construction ---- *)
Theorem C20_axis_angle (eps : R) (zs : XR -> bool) (a : V3) (t : R) : a <> vzero -> exists q,
  quat_init_from_axis_angle_radian (ev eps zs a) (Fin t : Exact eps zs) = Ok (eq4 eps zs q) /\ hunit q /\
  forall p, quat_rotate_vector (eq4 eps zs q) (ev eps zs p) = ev eps zs (rodrigues (vscale (/ norm a) a) t p).
Proof. exact (axis_angle_rotates eps zs a t). Qed.
Print Assumptions C20_axis_angle.
Theorem C20_degree (eps : R) (zs : XR -> bool) (a : V3) (d : R) :
  quat_init_from_axis_angle_degree (ev eps zs a) (Fin d : Exact eps zs)
  = quat_init_from_axis_angle_radian (ev eps zs a) (Fin (d * PI / 180) : Exact eps zs).
Proof. exact (q_degree eps zs a d). Qed.
Print Assumptions C20_degree.
(** the zero axis is not rejected: the vector part is NaN *)
Theorem C20_zero_axis (eps : R) (zs : XR -> bool) (t : R) :
  quat_init_from_axis_angle_radian (ev eps zs vzero) (Fin t : Exact eps zs)
  = Ok (Q (NaN : Exact eps zs) NaN NaN (Fin (cos (t / 2)))).
Proof. exact (axis_angle_zero eps zs t). Qed.
Print Assumptions C20_zero_axis.
(** a quarter turn about (0,0,2) takes x to y *)
Example C20_case : V 0 0 2 <> vzero /\ rodrigues (vscale (/ 2) (V 0 0 2)) (PI / 2) (V 1 0 0) = V 0 1 0.
Proof.
  split; [intro C; inversion C; lra |]. unfold rodrigues. rewrite cos_PI2, sin_PI2. unfold vadd, vscale, vcross, vdot. simpl.
  apply V3_eq; simpl; field.
Qed.

(** ---- C21: unit quaternions act as rotations ---- *)
Theorem C21_rotation (eps : R) (zs : XR -> bool) (q : H4) : hunit q -> exists rho : V3 -> V3,
  (forall p, quat_rotate_vector (eq4 eps zs q) (ev eps zs p) = ev eps zs (rho p)) /\
  (forall p, norm (rho p) = norm p) /\ (forall u v, vdot (rho u) (rho v) = vdot u v) /\
  (forall u v, vcross (rho u) (rho v) = rho (vcross u v)) /\
  (forall a b u v, rho (vadd (vscale a u) (vscale b v)) = vadd (vscale a (rho u)) (vscale b (rho v))).
Proof. exact (rotation_laws eps zs q). Qed.
Print Assumptions C21_rotation.
Theorem C21_compose (eps : R) (zs : XR -> bool) (p q : H4) (v : V3) :
  quat_rotate_vector (quat_mul (eq4 eps zs p) (eq4 eps zs q)) (ev eps zs v)
  = quat_rotate_vector (eq4 eps zs p) (quat_rotate_vector (eq4 eps zs q) (ev eps zs v)).
Proof. exact (rotation_compose eps zs p q v). Qed.
Print Assumptions C21_compose.
Theorem C21_undo (eps : R) (zs : XR -> bool) (q : H4) (v : V3) : hunit q ->
  quat_rotate_vector (quat_conjugate (eq4 eps zs q)) (quat_rotate_vector (eq4 eps zs q) (ev eps zs v)) = ev eps zs v.
Proof. exact (rotation_undo eps zs q v). Qed.
Print Assumptions C21_undo.
Example C21_case eps zs : hunit exq /\
  quat_rotate_vector (eq4 eps zs exq) (ev eps zs (V 0 1 0)) = ev eps zs (V 0 (7 / 25) (24 / 25)).
Proof.
  split; [exact (proj1 exq_unit) |]. rewrite q_rot. f_equal. rewrite hrot_formula.
  unfold exq, vadd, vscale, vcross, vdot. simpl. apply V3_eq; simpl; field.
Qed.

(** ---- C22: rotation matrix ---- *)
Theorem C22_agrees (eps : R) (zs : XR -> bool) (q : H4) (p : V3) : hunit q -> exists r,
  quat_rotate_vector (eq4 eps zs q) (ev eps zs p) = ev eps zs r /\
  mat4_mul_mat4x1 (quat_to_rotation_matrix (eq4 eps zs q) true) (ev4 eps zs p 1) = Ok (Some (ev4 eps zs r 1)).
Proof. exact (rotation_matrix_agrees eps zs q p). Qed.
Print Assumptions C22_agrees.
Theorem C22_orthogonal (eps : R) (zs : XR -> bool) (q : H4) : hunit q -> exists f : rmat,
  repr4 (quat_to_rotation_matrix (eq4 eps zs q) true) (fin f : lmat (Exact eps zs)) /\
  lmat_eq 3 (rmul3 f (ltrans f)) riden /\ lmat_eq 3 (rmul3 (ltrans f) f) riden /\ rdet3 f = 1 /\
  (forall i, (i < 3)%N -> f i 3%N = 0 /\ f 3%N i = 0) /\ f 3%N 3%N = 1.
Proof. exact (rotation_matrix_orthogonal eps zs q). Qed.
Print Assumptions C22_orthogonal.
Example C22_case : hunit exq. Proof. exact (proj1 exq_unit). Qed.

(** ---- C23: the layout does not matter: false of the code ---- *)
Theorem C23_refuted (eps : R) (zs : XR -> bool) : let E := Exact eps zs in
  ~ (forall (q : H4) (f : rmat), repr4 (quat_to_rotation_matrix (eq4 eps zs q) true) (fin f : lmat E) ->
       repr4 (quat_to_rotation_matrix (eq4 eps zs q) false) (fin f : lmat E)).
Proof. exact (rotation_layout_differs eps zs). Qed.
Print Assumptions C23_refuted.
(** on f64: a unit quaternion (1/2,1/2,1/2,1/2) for which entry (0,1) differs *)
Theorem C23_refuted_f64 lm : let F := F64 lm in exists q : quat F,
  (let! a := mat4_index true (quat_to_rotation_matrix q true) 0 1 in
   let! b := mat4_index true (quat_to_rotation_matrix q false) 0 1 in Ok (neqb a b)) = Ok false /\
  neqb (quat_length_squared q) n1 = true.
Proof. exact (quarter_turn_layout lm). Qed.
Print Assumptions C23_refuted_f64.
(** What holds (full statement: the same entries): the column version has the transposed entries, bit for bit in every
    arithmetic, so for a unit quaternion it is the inverse rotation. *)
Theorem C23_partial {Nm : Num} (q : quat Nm) (f : lmat Nm) : repr4 (quat_to_rotation_matrix q true) f ->
  repr4 (quat_to_rotation_matrix q false) (ltrans f).
Proof. exact (rotation_layout q f). Qed.
Print Assumptions C23_partial.
Theorem C23_inverse_partial (eps : R) (zs : XR -> bool) (q : H4) (p : V3) : hunit q ->
  mat4_mul_mat4x1 (quat_to_rotation_matrix (eq4 eps zs q) false) (ev4 eps zs p 1)
  = Ok (Some (ev4 eps zs (hrot (hconj q) p) 1)).
Proof. exact (rotation_layout_inverse eps zs q p). Qed.
Print Assumptions C23_inverse_partial.
Example C23_case {Nm : Num} (q : quat Nm) : exists f, repr4 (quat_to_rotation_matrix q true) f.
Proof. exists (log4 (quat_to_rotation_matrix q true)). apply repr4_log. Qed.

(** ---- C24: translation matrix: false of the code ---- *)
(** row layout: the result is (t/2, 1) whatever p is, so it is p+t only if p = -t/2 *)
Theorem C24_row_refuted (eps : R) (zs : XR -> bool) (t p : V3) :
  mat4_mul_mat4x1 (quat_to_translation_matrix (quat_init_from_translation (ev eps zs t)) true) (ev4 eps zs p 1)
    = Ok (Some (ev4 eps zs (vadd p t) 1)) <-> p = vscale (- (1 / 2)) t.
Proof. exact (translation_row_iff eps zs t p). Qed.
Print Assumptions C24_row_refuted.
(** column layout: correct only for the zero translation of the origin *)
Theorem C24_column_refuted (eps : R) (zs : XR -> bool) (t p : V3) :
  mat4_mul_mat4x1 (quat_to_translation_matrix (quat_init_from_translation (ev eps zs t)) false) (ev4 eps zs p 1)
    = Ok (Some (ev4 eps zs (vadd p t) 1)) <-> t = vzero /\ p = vzero.
Proof. exact (translation_col_iff eps zs t p). Qed.
Print Assumptions C24_column_refuted.
(** on f64, both layouts: a translation and a point for which the first component is not p0+t0 *)
Theorem C24_refuted_f64 lm (rm : bool) : let F := F64 lm in exists t p, exists m : mat4x1 F,
  mat4_mul_mat4x1 (quat_to_translation_matrix (quat_init_from_translation (M3x1 t)) rm)
    (match p with A3 a b c => M4x1 (A4 a b c n1) end) = Ok (Some m) /\
  match t, p, v4x1 m with A3 t0 _ _, A3 p0 _ _, A4 m0 _ _ _ => neqb m0 (nadd F p0 t0) = false end.
Proof. exact (translation_f64 lm rm). Qed.
Print Assumptions C24_refuted_f64.
(** what the code computes instead (full statement: (p+t, 1) in both layouts) *)
Theorem C24_row_partial (eps : R) (zs : XR -> bool) (t p : V3) :
  mat4_mul_mat4x1 (quat_to_translation_matrix (quat_init_from_translation (ev eps zs t)) true) (ev4 eps zs p 1)
  = Ok (Some (ev4 eps zs (vscale (1 / 2) t) 1)).
Proof. exact (trans_row eps zs t p). Qed.
Print Assumptions C24_row_partial.
Theorem C24_column_partial (eps : R) (zs : XR -> bool) (t p : V3) :
  mat4_mul_mat4x1 (quat_to_translation_matrix (quat_init_from_translation (ev eps zs t)) false) (ev4 eps zs p 1)
  = Ok (Some (ev4 eps zs vzero (vdot t p / 2 + 1))).
Proof. exact (trans_col eps zs t p). Qed.
Print Assumptions C24_column_partial.

(** ---- C25: axis-angle round trip ---- *)
Theorem C25_roundtrip (eps : R) (zs : XR -> bool) (a : V3) (t : R) : let E := Exact eps zs in
  a <> vzero -> 0 <= t < 2 * PI ->
  (let! q := quat_init_from_axis_angle_radian (ev eps zs a) (Fin t : E) in quat_to_axis_angle q) =
    if Rlt_dec (sin (t / 2)) (1 / 1000000) then Ok (ev eps zs (V 1 0 0), (Fin 0 : E))
    else Ok (ev eps zs (vscale (/ norm a) a), (Fin t : E)).
Proof. exact (roundtrip eps zs a t). Qed.
Print Assumptions C25_roundtrip.
(** the other way: what to_axis_angle returns for any unit quaternion *)
Theorem C25_unit (eps : R) (zs : XR -> bool) (q : H4) : hunit q -> 1 / 1000000 <= sqrt (1 - hs q * hs q) ->
  quat_to_axis_angle (eq4 eps zs q)
  = Ok (ev eps zs (vscale (/ norm (hv q)) (hv q)), (Fin (2 * acos (hs q)) : Exact eps zs)).
Proof. exact (axis_angle_big eps zs q). Qed.
Print Assumptions C25_unit.
Example C25_case : V 1 2 3 <> vzero /\ 0 <= PI < 2 * PI /\ ~ sin (PI / 2) < 1 / 1000000.
Proof. pose proof PI_RGT_0. rewrite sin_PI2. split; [intro C; inversion C; lra | lra]. Qed.

(** ---- C26: powers ---- *)
Theorem C26_pow (eps : R) (zs : XR -> bool) (q : H4) : let E := Exact eps zs in hv q <> vzero ->
  quat_pow (eq4 eps zs q) (Fin 0 : E) = Ok quat_init /\
  quat_pow (eq4 eps zs q) (Fin 1 : E) = Ok (eq4 eps zs q) /\
  (forall s t, exists a b, quat_pow (eq4 eps zs q) (Fin s : E) = Ok a /\ quat_pow (eq4 eps zs q) (Fin t : E) = Ok b /\
    quat_pow (eq4 eps zs q) (Fin (s + t) : E) = Ok (quat_mul a b)) /\
  (forall t, exists a, quat_pow (eq4 eps zs q) (Fin t : E) = Ok a /\ quat_length a = (Fin (Rpower (hlen q) t) : E)).
Proof. exact (pow_laws eps zs q). Qed.
Print Assumptions C26_pow.
Theorem C26_panic (eps : R) (zs : XR -> bool) (q : H4) (t : R) : hv q = vzero ->
  quat_pow (eq4 eps zs q) (Fin t : Exact eps zs) = Panic PAssert.
Proof. exact (pow_zero_vec eps zs q t). Qed.
Print Assumptions C26_panic.
(** every arithmetic: it panics exactly when the computed length of the vector part equals zero *)
Theorem C26_panic_any {Nm : Num} (q : quat Nm) (t : Nm) :
  (quat_pow q t = Panic PAssert <->
    neqb (nsqrt Nm (nadd Nm (nadd Nm (nmul Nm (qx q) (qx q)) (nmul Nm (qy q) (qy q))) (nmul Nm (qz q) (qz q)))) n0 = true) /\
  (quat_pow q t = Panic PAssert \/ exists r, quat_pow q t = Ok r).
Proof. exact (pow_panics q t). Qed.
Print Assumptions C26_panic_any.
Example C26_case : hv exq <> vzero /\ hv hone = vzero. Proof. exact (conj (proj2 (proj2 exq_unit)) eq_refl). Qed.

(** ---- C27: logarithm: false of the code ---- *)
Theorem C27_refuted (eps : R) (zs : XR -> bool) : ~ (forall q : H4, hv q <> vzero ->
  quat_ln (eq4 eps zs q) = Ok (eq4 eps zs (H (vscale (acos (hs q / hlen q) / norm (hv q)) (hv q)) (ln (hlen q))))).
Proof. exact (ln_refuted eps zs). Qed.
Print Assumptions C27_refuted.
(** indeed the scalar part is wrong for every quaternion for which a value is returned *)
Theorem C27_always_wrong_refuted (eps : R) (zs : XR -> bool) (q : H4) : hv q <> vzero -> exists r,
  quat_ln (eq4 eps zs q) = Ok r /\ qw r <> Fin (ln (hlen q)).
Proof. exact (ln_wrong eps zs q). Qed.
Print Assumptions C27_always_wrong_refuted.
(** What the code computes (full statement: scalar part ln|q|, vector part (v/|v|) acos(w/|q|)): ln of the scalar part in
    both places. *)
Theorem C27_partial (eps : R) (zs : XR -> bool) (q : H4) : let E := Exact eps zs in hv q <> vzero -> exists s : E,
  quat_ln (eq4 eps zs q) =
    Ok (Q (nmul E (Fin (vx (haxis_of q)) : E) s) (nmul E (Fin (vy (haxis_of q)) : E) s) (nmul E (Fin (vz (haxis_of q)) : E) s)
          (xln (Fin (hs q)) : E)) /\ s = nacos E (ndiv E (xln (Fin (hs q)) : E) (Fin (hlen q) : E)).
Proof. exact (ln_value eps zs q). Qed.
Print Assumptions C27_partial.
Example C27_case : hv hi <> vzero. Proof. intro C. inversion C. lra. Qed.

(** ---- C28: linear interpolation ---- *)
Theorem C28_lerp (eps : R) (zs : XR -> bool) (a b : H4) (t : R) : let E := Exact eps zs in
  (t <= 0 -> quat_interpolate_linear (eq4 eps zs a) (eq4 eps zs b) (Fin t : E) = eq4 eps zs a) /\
  (1 <= t -> quat_interpolate_linear (eq4 eps zs a) (eq4 eps zs b) (Fin t : E) = eq4 eps zs b) /\
  (0 <= t <= 1 -> quat_interpolate_linear (eq4 eps zs a) (eq4 eps zs b) (Fin t : E)
                  = eq4 eps zs (hadd (hscale (1 - t) a) (hscale t b))).
Proof. exact (lerp_limits eps zs a b t). Qed.
Print Assumptions C28_lerp.
Theorem C28_between (eps : R) (zs : XR -> bool) (a b : H4) (t : R) : exists r,
  quat_interpolate_linear (eq4 eps zs a) (eq4 eps zs b) (Fin t : Exact eps zs) = eq4 eps zs r /\
  r = hadd (hscale (1 - clamp01 t) a) (hscale (clamp01 t) b) /\
  Rmin (vx (hv a)) (vx (hv b)) <= vx (hv r) <= Rmax (vx (hv a)) (vx (hv b)) /\
  Rmin (vy (hv a)) (vy (hv b)) <= vy (hv r) <= Rmax (vy (hv a)) (vy (hv b)) /\
  Rmin (vz (hv a)) (vz (hv b)) <= vz (hv r) <= Rmax (vz (hv a)) (vz (hv b)) /\
  Rmin (hs a) (hs b) <= hs r <= Rmax (hs a) (hs b).
Proof. exact (lerp_between eps zs a b t). Qed.
Print Assumptions C28_between.
(** IEEE, every format: at and beyond the ends (infinite t included) the endpoints come back unrounded *)
Theorem C28_ends_ieee prec emax {Hp : Prec_gt_0 prec} {Hm : Prec_lt_emax prec emax} (lm : libm (binary_float prec emax))
    (a b : quat (@Ieee prec emax Hp Hm lm)) (t : @Ieee prec emax Hp Hm lm) :
  qfinite prec emax lm a -> qfinite prec emax lm b ->
  (nle t n0 = true -> qsame prec emax lm (quat_interpolate_linear a b t) a) /\
  (nge t n1 = true -> qsame prec emax lm (quat_interpolate_linear a b t) b).
Proof. exact (lerp_ends prec emax lm a b t). Qed.
Print Assumptions C28_ends_ieee.
Example C28_case lm : qfinite 53 1024 lm (Q n1 n2 n0 (nlit (F64 lm) 1 3)) /\ @nle (F64 lm) (nninf _) n0 = true.
Proof. repeat split; vm_compute; reflexivity. Qed.

(** ---- C29: spherical interpolation, acute case ---- *)
Theorem C29_slerp (eps : R) (zs : XR -> bool) (a b : H4) (t : R) : hunit a -> hunit b -> 0 <= hdot a b <= 9999 / 10000 ->
  exists r, quat_interpolate_slerp (eq4 eps zs a) (eq4 eps zs b) (Fin t : Exact eps zs) = eq4 eps zs r /\ hunit r /\
    hdot a r = cos (clamp01 t * acos (hdot a b)).
Proof. exact (slerp_short eps zs a b t). Qed.
Print Assumptions C29_slerp.
Theorem C29_ends (eps : R) (zs : XR -> bool) (a b : H4) (t : R) : let E := Exact eps zs in 0 <= hdot a b <= 9999 / 10000 ->
  (t <= 0 -> quat_interpolate_slerp (eq4 eps zs a) (eq4 eps zs b) (Fin t : E) = eq4 eps zs a) /\
  (1 <= t -> quat_interpolate_slerp (eq4 eps zs a) (eq4 eps zs b) (Fin t : E) = eq4 eps zs b).
Proof. exact (slerp_ends eps zs a b t). Qed.
Print Assumptions C29_ends.
Example C29_case : hunit hone /\ hunit exq /\ 0 <= hdot hone exq <= 9999 / 10000.
Proof. unfold hunit, hdot, vdot, hone, exq, vzero. simpl. repeat split; lra. Qed.

(** ---- C30: spherical interpolation, obtuse case: false of the code ---- *)
Theorem C30_refuted (eps : R) (zs : XR -> bool) :
  ~ (forall a b t, hunit a -> hunit b -> -9999 / 10000 <= hdot a b < 0 -> exists r,
       quat_interpolate_slerp (eq4 eps zs a) (eq4 eps zs b) (Fin t : Exact eps zs) = eq4 eps zs r /\ hunit r).
Proof. exact (slerp_obtuse_refuted eps zs). Qed.
Print Assumptions C30_refuted.
(** indeed for every such pair and every t strictly between 0 and 1 the result is longer than 1 *)
Theorem C30_always_wrong_refuted (eps : R) (zs : XR -> bool) (a b : H4) (t : R) :
  hunit a -> hunit b -> -9999 / 10000 <= hdot a b < 0 -> 0 < t < 1 -> exists r,
  quat_interpolate_slerp (eq4 eps zs a) (eq4 eps zs b) (Fin t : Exact eps zs) = eq4 eps zs r /\ 1 < hdot r r.
Proof. exact (slerp_obtuse_wrong eps zs a b t). Qed.
Print Assumptions C30_always_wrong_refuted.
(** What holds (full statement: unit for every t): at the ends it is start and -end (the same rotation as end). *)
Theorem C30_partial (eps : R) (zs : XR -> bool) (a b : H4) (t : R) : let E := Exact eps zs in
  -9999 / 10000 <= hdot a b < 0 ->
  (t <= 0 -> quat_interpolate_slerp (eq4 eps zs a) (eq4 eps zs b) (Fin t : E) = eq4 eps zs a) /\
  (1 <= t -> quat_interpolate_slerp (eq4 eps zs a) (eq4 eps zs b) (Fin t : E) = eq4 eps zs (hneg b)).
Proof. exact (slerp_obtuse_ends eps zs a b t). Qed.
Print Assumptions C30_partial.
Example C30_case : hunit hone /\ hunit (H (V (4 / 5) 0 0) (- (3 / 5))) /\
  -9999 / 10000 <= hdot hone (H (V (4 / 5) 0 0) (- (3 / 5))) < 0.
Proof. exact obtuse_pair. Qed.

(** ---- C31: reflection and decomposition ---- *)
Theorem C31_reflection (eps : R) (zs : XR -> bool) (n p : V3) : vdot n n = 1 ->
  quat_reflection_in_plane (eq4 eps zs (H n 0)) (ev eps zs p) = ev eps zs (vsub p (vscale (2 * vdot n p) n)) /\
  quat_parallel_component_of_plane (eq4 eps zs (H n 0)) (ev eps zs p) = ev eps zs (vsub p (vscale (vdot n p) n)) /\
  quat_orthogonal_component_of_plane (eq4 eps zs (H n 0)) (ev eps zs p) = ev eps zs (vscale (vdot n p) n).
Proof. exact (reflect_eval eps zs n p). Qed.
Print Assumptions C31_reflection.
Theorem C31_decomposition (eps : R) (zs : XR -> bool) (n p : V3) : vdot n n = 1 -> exists a b,
  quat_parallel_component_of_plane (eq4 eps zs (H n 0)) (ev eps zs p) = ev eps zs a /\
  quat_orthogonal_component_of_plane (eq4 eps zs (H n 0)) (ev eps zs p) = ev eps zs b /\
  vadd a b = p /\ vdot n a = 0 /\ vcross n b = vzero.
Proof. exact (reflect_sum eps zs n p). Qed.
Print Assumptions C31_decomposition.
Example C31_case : vdot (V (3 / 5) 0 (4 / 5)) (V (3 / 5) 0 (4 / 5)) = 1.
Proof. unfold vdot. simpl. field. Qed.

(** ---- C32: automatic w ---- *)
Theorem C32_auto_w (eps : R) (zs : XR -> bool) (x y z : R) : x * x + y * y + z * z <= 1 -> exists w,
  w <= 0 /\ hunit (H (V x y z) w) /\
  quat_init_from_vals_auto_w (Fin x : Exact eps zs) (Fin y) (Fin z) = eq4 eps zs (H (V x y z) w).
Proof. exact (auto_w_unit eps zs x y z). Qed.
Print Assumptions C32_auto_w.
(** beyond the unit ball w is the negative number 1-x^2-y^2-z^2 and the result is not unit *)
Theorem C32_beyond (eps : R) (zs : XR -> bool) (x y z : R) : 1 < x * x + y * y + z * z ->
  quat_init_from_vals_auto_w (Fin x : Exact eps zs) (Fin y) (Fin z) = eq4 eps zs (H (V x y z) (1 - x * x - y * y - z * z)).
Proof. exact (auto_w_beyond eps zs x y z). Qed.
Print Assumptions C32_beyond.
Example C32_case : 3 / 5 * (3 / 5) + 0 * 0 + 0 * 0 <= 1 /\ 1 < 1 * 1 + 1 * 1 + 0 * 0. Proof. lra. Qed.

(** ---- C66: nearly parallel spherical interpolation ---- *)
Theorem C66_near (eps : R) (zs : XR -> bool) (a b : H4) (t : R) : hunit a -> hunit b -> 9999 / 10000 < Rabs (hdot a b) ->
  exists r, quat_interpolate_slerp (eq4 eps zs a) (eq4 eps zs b) (Fin t : Exact eps zs) = eq4 eps zs r /\
    1 - 1 / 20000 <= hdot r r <= 1.
Proof. exact (slerp_near_norm eps zs a b t). Qed.
Print Assumptions C66_near.
Example C66_case : hunit exq /\ 9999 / 10000 < Rabs (hdot exq exq).
Proof. pose proof (proj1 exq_unit) as Hu. split; [exact Hu |]. rewrite Hu, Rabs_R1. lra. Qed.
