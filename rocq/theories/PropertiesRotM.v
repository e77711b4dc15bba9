(** PropertiesRotM.v — C125: the matrices of quaternions multiply, transpose and act like the quaternions. *)
From Coq Require Import Reals List ZArith NArith Bool Lra Lia.
From Flocq Require Import Core BinarySingleNaN.
Import ListNotations.
From Verif Require Import Base Num Vec Mat Quat Exact Float FloatFacts SpecMat SpecReal SpecRound SpecGeom SpecQuat SpecBuild SpecFq SpecRun SpecRotM PMat PQuat PRound PRotM PRotMF PropertiesQuat PropertiesRun.
Local Open Scope R_scope.

Section Exact.
Context (eps : R) (zs : XR -> bool).
Notation eq4 := (PQuat.eq4 eps zs).
(** The matrix of a product is the product of the matrices; with column-major storage the order is exchanged, because that layout
    holds the transposed matrix. *)
Theorem C125_product p q : hunit p -> hunit q ->
  mat4_mul (quat_to_rotation_matrix (eq4 p) true) (quat_to_rotation_matrix (eq4 q) true) = Ok (Some (quat_to_rotation_matrix (quat_mul (eq4 p) (eq4 q)) true)) /\
  mat4_mul (quat_to_rotation_matrix (eq4 p) false) (quat_to_rotation_matrix (eq4 q) false) = Ok (Some (quat_to_rotation_matrix (quat_mul (eq4 q) (eq4 p)) false)).
Proof. exact (rot_mat_mul eps zs p q). Qed.
(** the conjugate belongs to the transposed matrix *)
Theorem C125_conjugate q : mat4_transpose (quat_to_rotation_matrix (eq4 q) true) = Ok (quat_to_rotation_matrix (quat_conjugate (eq4 q)) true).
Proof. exact (rot_mat_conj eps zs q). Qed.
(** Mat4::inverse hands a rotation matrix back unchanged, since it returns the transposed inverse *)
Theorem C125_inverse q : 0 < eps <= 1 -> hunit q -> mat4_inverse (quat_to_rotation_matrix (eq4 q) true) = Ok (Some (quat_to_rotation_matrix (eq4 q) true)).
Proof. exact (rot_mat_inverse eps zs q). Qed.
(** two unit quaternions have the same matrix exactly when they are equal or opposite *)
Theorem C125_same p q : hunit p -> hunit q -> (quat_to_rotation_matrix (eq4 p) true = quat_to_rotation_matrix (eq4 q) true <-> p = q \/ p = hneg q).
Proof. exact (rot_mat_same eps zs p q). Qed.
End Exact.
Section Ieee.
Context (prec emax : Z) {Hp : Prec_gt_0 prec} {Hm : Prec_lt_emax prec emax} (lm : libm (binary_float prec emax)).
Notation bf := (binary_float prec emax).
Notation F := (@Ieee prec emax Hp Hm lm).
Notation u := (uro prec).
Notation et := (eta prec emax).
Notation val := (@B2R prec emax).
(** In IEEE arithmetic, for quaternions of length 1 up to 9 roundoffs: the product of the matrices is off by at most 240 roundoffs from
    the true rotation, and by at most 410 from the matrix of the product. *)
Theorem C125_product_ieee (p q : quat F) : (9 < prec)%Z -> near (p : quat bf) -> near (q : quat bf) -> exists c h g,
  mat4_mul (quat_to_rotation_matrix p true) (quat_to_rotation_matrix q true) = Ok (Some c) /\ m4_rm c = true /\ repr4 c h /\ mfin4 (h : lmat bf) /\
  repr4 (quat_to_rotation_matrix (quat_mul p q) true) g /\ mfin4 (g : lmat bf) /\
  (forall i j, (i < 4)%N -> (j < 4)%N -> Rabs (val (h i j) - hmat (hmul (hdir (qval (p : quat bf))) (hdir (qval (q : quat bf)))) i j) <= 240 * u) /\
  (forall i j, (i < 4)%N -> (j < 4)%N -> Rabs (val (h i j) - val (g i j)) <= 410 * u).
Proof. exact (rot_product prec emax lm p q). Qed.
(** turning a vector by the matrix or by the quaternion *)
Theorem C125_apply_ieee (q : quat F) (a b c d : F) V : (9 < prec)%Z -> near (q : quat bf) -> let p : mat3x1 F := M3x1 (A3 a b c) in fin3 (p : mat3x1 bf) -> is_finite (d : bf) = true -> norm (v3 (p : mat3x1 bf)) <= V -> Rabs (val d) <= V -> V <= bpow radix2 (emax - 8) ->
  exists x y z t, mat4_mul_mat4x1 (quat_to_rotation_matrix q true) (M4x1 (A4 a b c d)) = Ok (Some (M4x1 (A4 x y z t))) /\
  fin3 (M3x1 (A3 x y z) : mat3x1 bf) /\ is_finite (t : bf) = true /\ fin3 (quat_rotate_vector q p : mat3x1 bf) /\
  dist (v3 (M3x1 (A3 x y z) : mat3x1 bf)) (v3 (quat_rotate_vector q p : mat3x1 bf)) <= 310 * u * V + 37 * et /\
  Rabs (val t - val d) <= 9 * u * V + 5 * et.
Proof. exact (rot_apply prec emax lm q a b c d V). Qed.
End Ieee.
Print Assumptions C125_product.
Print Assumptions C125_conjugate.
Print Assumptions C125_inverse.
Print Assumptions C125_same.
Print Assumptions C125_product_ieee.
Print Assumptions C125_apply_ieee.

(** ---- cases ---- *)
Example C125_case eps zs : 0 < eps <= 1 -> exists m, quat_to_rotation_matrix (PQuat.eq4 eps zs exq) true = m /\ mat4_inverse m = Ok (Some m) /\
  mat4_mul m (quat_to_rotation_matrix (PQuat.eq4 eps zs hj) true) = Ok (Some (quat_to_rotation_matrix (PQuat.eq4 eps zs (H (V 0 (4 / 5) (3 / 5)) 0)) true)) /\
  m <> quat_to_rotation_matrix (PQuat.eq4 eps zs hj) true.
Proof.
  intro E. destruct exq_unit as (U & _). assert (J : hunit hj) by (unfold hunit, hdot, vdot; cbn; ring). eexists. split; [reflexivity |]. split; [apply C125_inverse; assumption |]. split.
  - rewrite (proj1 (C125_product eps zs exq hj U J)), C17_case. reflexivity.
  - intro C. apply (C125_same eps zs exq hj U J) in C. unfold exq, hj, hneg, hscale, vscale in C. cbn in C. destruct C as [C | C]; injection C; intros; lra.
Qed.
(** a third of a turn in binary64, twice, and on the point (1,0,1) *)
Example C125_case_ieee (lm : libm f64) : (exists c, mat4_mul (quat_to_rotation_matrix (third lm) true) (quat_to_rotation_matrix (third lm) true) = Ok (Some c)) /\
  exists x y z t, mat4_mul_mat4x1 (quat_to_rotation_matrix (third lm) true) (M4x1 (A4 n1 n0 n1 n1)) = Ok (Some (M4x1 (A4 x y z t : arr4 (F64 lm)))).
Proof.
  destruct (third_len lm) as [A B]. assert (N : near (third lm : quat f64)) by (split; [exact A |]; rewrite B, Rminus_diag_eq, Rabs_R0 by reflexivity; pose proof (u_pos 53); lra). split.
  - destruct (@C125_product_ieee 53 1024 f64_prec_gt_0 f64_prec_lt_emax lm (third lm) (third lm) eq_refl N N) as (c & _ & _ & C & _). exists c. exact C.
  - pose proof (@fv_lit_1 53 1024 f64_prec_gt_0 f64_prec_lt_emax) as [F1 V1]. pose proof (@fv_lit_0 53 1024 f64_prec_gt_0 f64_prec_lt_emax) as [F0 V0].
    destruct (@C125_apply_ieee 53 1024 f64_prec_gt_0 f64_prec_lt_emax lm (third lm) n1 n0 n1 n1 2 eq_refl N) as (x & y & z & t & C & _).
    + repeat split.
    + exact F1.
    + set (X := B2R (@f_lit 53 1024 f64_prec_gt_0 f64_prec_lt_emax 1 1)) in *. set (Z := B2R (@f_lit 53 1024 f64_prec_gt_0 f64_prec_lt_emax 0 1)) in *. change (sqrt (X * X + Z * Z + X * X) <= 2). rewrite V1, V0. rewrite <- (sqrt_square 2) by lra. apply sqrt_le_1; lra.
    + change (B2R (n1 : F64 lm)) with (B2R (@f_lit 53 1024 f64_prec_gt_0 f64_prec_lt_emax 1 1)). rewrite V1, Rabs_R1. lra.
    + change 2 with (bpow radix2 1). apply bpow_le. lia.
    + exists x, y, z, t. exact C.
Qed.
