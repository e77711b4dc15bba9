(** PropertiesFq.v — quaternions in IEEE arithmetic: C81 (products of any number of factors), C82 (rotation and reflection
    of vectors), C83 (rotation matrix and linear interpolation), and nothing else.  Every format with more than 9 bits;
    u = 2^-prec, eta = half the smallest positive number.  No overflow is proved from the stated limits. *)
From Coq Require Import Reals List ZArith NArith Bool Lra Lia.
From Flocq Require Import Core BinarySingleNaN.
Import ListNotations.
From Verif Require Import Base Num Vec Mat Quat Float Exact SpecMat SpecGeom SpecBound SpecQuat SpecRound SpecBuild SpecFq
  FloatFacts PMat PQuat PIeee4.
Local Open Scope R_scope.

Section Fq.
Context (prec emax : Z) {Hp : Prec_gt_0 prec} {Hm : Prec_lt_emax prec emax} (lm : libm (binary_float prec emax)).
Notation F := (@Ieee prec emax Hp Hm lm).
Notation u := (uro prec).
Notation et := (eta prec emax).
Notation qval := (@qval prec emax).
Notation qfin := (@qfin prec emax).

(** ---- C81: products ---- *)
(** one product of quaternions of length up to 2^j and 2^k *)
Theorem C81_mul j k (p q : quat F) : (9 < prec)%Z -> (3 - emax - prec <= j + k)%Z -> (j + k + 3 < emax)%Z -> qfin p -> qfin q ->
  hlen (qval p) <= bpow radix2 j -> hlen (qval q) <= bpow radix2 k ->
  qfin (quat_mul p q) /\ hdist (qval (quat_mul p q)) (hmul (qval p) (qval q)) <= 9 * u * (hlen (qval p) * hlen (qval q)) + 9 * et.
Proof. exact (qmul_ieee prec emax lm j k p q). Qed.
(** the running product of a list of any length, all factors of length at most m, against the true product *)
Theorem C81_product (m : R) (l : list (quat F)) : (9 < prec)%Z -> 1 <= m <= 2 ->
  (forall q, In q l -> qfin q /\ hlen (qval q) <= m) ->
  let M := m * (1 + 9 * u) in let n := length l in
  M ^ n * (1 + 9 * INR n * et) <= bpow radix2 (emax - 6) ->
  let r := fold_left quat_mul l quat_init in
  qfin r /\ hlen (hprod (map qval l)) <= m ^ n /\ hdist (qval r) (hprod (map qval l)) <= M ^ n - m ^ n + 9 * INR n * et * M ^ n.
Proof. exact (qlist_ieee prec emax lm m l). Qed.

(** ---- C82: vectors ---- *)
Theorem C82_rotate (q : quat F) (p : mat3x1 F) : (9 < prec)%Z -> qfin q -> fin3 p -> hlen (qval q) <= 2 -> norm (v3 p) <= bpow radix2 (emax - 8) ->
  let r := quat_rotate_vector q p in
  fin3 r /\ dist (v3 r) (hrot (qval q) (v3 p)) <= 19 * u * (hdot (qval q) (qval q) * norm (v3 p)) + 28 * et.
Proof. exact (rotate_ieee prec emax lm q p). Qed.
Theorem C82_length (q : quat F) (p : mat3x1 F) : (9 < prec)%Z -> qfin q -> fin3 p -> Rabs (hlen (qval q) - 1) <= 9 * u ->
  norm (v3 p) <= bpow radix2 (emax - 8) ->
  Rabs (norm (v3 (quat_rotate_vector q p)) - norm (v3 p)) <= 38 * u * norm (v3 p) + 28 * et.
Proof. exact (rotate_length prec emax lm q p). Qed.
Theorem C82_reflect (q : quat F) (p : mat3x1 F) : (9 < prec)%Z -> qfin q -> fin3 p -> hlen (qval q) <= 2 -> norm (v3 p) <= bpow radix2 (emax - 8) ->
  let r := quat_reflection_in_plane q p in
  fin3 r /\ dist (v3 r) (hv (hmul (hmul (qval q) (H (v3 p) 0)) (qval q))) <= 19 * u * (hdot (qval q) (qval q) * norm (v3 p)) + 28 * et.
Proof. exact (reflect_ieee prec emax lm q p). Qed.

(** ---- C83: rotation matrix and linear interpolation ---- *)
(** every entry of the row-major matrix: entry (i,j) is close to component i of the rotated j-th unit vector *)
Theorem C83_matrix (q : quat F) : (9 < prec)%Z -> qfin q -> hlen (qval q) <= 2 -> exists f,
  repr4 (quat_to_rotation_matrix q true) f /\
  (forall i j, (i < 3)%N -> (j < 3)%N -> within (f i j) (comp i (hact (qval q) (axis j))) (7 * u * (1 + hdot (qval q) (qval q)) + 5 * et)) /\
  (forall i, (i < 3)%N -> f i 3%N = n0 /\ f 3%N i = n0) /\ f 3%N 3%N = n1.
Proof.
  intros P Fq L. exists (log4 (quat_to_rotation_matrix q true)). split; [apply repr4_log |]. exact (rotmat_ieee prec emax lm q P Fq L).
Qed.
(** for unit quaternions the reference is the rotation itself *)
Theorem C83_reference q v : hunit q -> hact q v = hrot q v.
Proof. exact (hact_rot q v). Qed.
Theorem C83_lerp (a b : quat F) (t : F) : (9 < prec)%Z -> qfin a -> qfin b -> is_finite (t : binary_float prec emax) = true ->
  hlen (qval a) <= bpow radix2 (emax - 4) -> hlen (qval b) <= bpow radix2 (emax - 4) ->
  let r := quat_interpolate_linear a b t in let c := clamp01 (@B2R prec emax t) in
  qfin r /\ hdist (qval r) (hadd (hscale (1 - c) (qval a)) (hscale c (qval b))) <= 4 * u * ((1 - c) * hlen (qval a) + c * hlen (qval b)) + 6 * et.
Proof. exact (lerp_ieee prec emax lm a b t). Qed.
End Fq.
Print Assumptions C81_mul.
Print Assumptions C81_product.
Print Assumptions C82_rotate.
Print Assumptions C82_length.
Print Assumptions C82_reflect.
Print Assumptions C83_matrix.
Print Assumptions C83_reference.
Print Assumptions C83_lerp.

(** ---- the hypotheses can be met ---- *)
(** the f64 quaternion (1/2, 1/2, 1/2, 1/2) *)
Definition qhalf lm : quat (F64 lm) := let h := binary_normalize 53 1024 f64_prec_gt_0 f64_prec_lt_emax mode_NE 1 (-1) false in Q h h h h.
Lemma qhalf_ok lm : @qfin 53 1024 (qhalf lm) /\ hlen (@qval 53 1024 (qhalf lm)) = 1.
Proof.
  split; [repeat split; vm_compute; reflexivity |].
  assert (V : @B2R 53 1024 (binary_normalize 53 1024 f64_prec_gt_0 f64_prec_lt_emax mode_NE 1 (-1) false) = / 2).
  { replace (binary_normalize 53 1024 f64_prec_gt_0 f64_prec_lt_emax mode_NE 1 (-1) false) with (@B754_finite 53 1024 false 4503599627370496 (-53) eq_refl).
    - unfold B2R, F2R. simpl. lra.
    - apply B2SF_inj. vm_compute. reflexivity. }
  unfold SpecFq.qval, qhalf. cbn [qx qy qz qw]. rewrite V. unfold hlen, hdot, vdot. simpl. replace (/ 2 * / 2 + / 2 * / 2 + / 2 * / 2 + / 2 * / 2) with 1 by lra. apply sqrt_1.
Qed.
Lemma bpow_nat n : bpow radix2 (Z.of_nat n) = 2 ^ n.
Proof. induction n as [| n IH]; [reflexivity |]. rewrite Nat2Z.inj_succ, <- Z.add_1_l, bpow_plus, IH. reflexivity. Qed.
(** a thousand factors *)
Example C81_case lm : let l := repeat (qhalf lm) 1000 in
  (forall q, In q l -> @qfin 53 1024 q /\ hlen (@qval 53 1024 q) <= 1) /\
  (1 * (1 + 9 * uro 53)) ^ length l * (1 + 9 * INR (length l) * eta 53 1024) <= bpow radix2 (1024 - 6).
Proof.
  destruct (qhalf_ok lm) as [Fq L]. intro l. split.
  - intros q I. apply repeat_spec in I. subst q. split; [exact Fq | lra].
  - unfold l. rewrite repeat_length, Rmult_1_l.
    assert (U : 0 < uro 53 <= / 1024) by (split; [apply bpow_gt_0 | change (/ 1024) with (bpow radix2 (-10)); apply bpow_le; lia]).
    assert (T : 0 < eta 53 1024 <= / 16384) by (split; [apply bpow_gt_0 | change (/ 16384) with (bpow radix2 (-14)); apply bpow_le; lia]).
    assert (I : INR 1000 = 1000) by (rewrite INR_IZR_INZ; reflexivity). rewrite I.
    apply Rle_trans with (2 ^ 1000 * 2).
    + apply Rmult_le_compat; [apply pow_le; lra | lra | apply pow_incr; lra | lra].
    + replace (2 ^ 1000 * 2) with (bpow radix2 1001); [apply bpow_le; lia |].
      change 1001%Z with (1000 + 1)%Z. rewrite bpow_plus. change (bpow radix2 1) with 2. f_equal. exact (bpow_nat 1000).
Qed.
Example C82_case lm : @qfin 53 1024 (qhalf lm) /\ Rabs (hlen (@qval 53 1024 (qhalf lm)) - 1) <= 9 * uro 53 /\
  @fin3 53 1024 (M3x1 (A3 (qx (qhalf lm)) (qx (qhalf lm)) (@n0 (F64 lm)))) /\ norm (@v3 53 1024 (M3x1 (A3 (qx (qhalf lm)) (qx (qhalf lm)) (@n0 (F64 lm))))) <= bpow radix2 (1024 - 8).
Proof.
  destruct (qhalf_ok lm) as [Fq L]. split; [exact Fq |]. split.
  - rewrite L, Rminus_diag_eq, Rabs_R0 by reflexivity. assert (0 < uro 53) by apply bpow_gt_0. lra.
  - split; [repeat split; vm_compute; reflexivity |].
    assert (V : Rabs (@B2R 53 1024 (qx (qhalf lm))) <= 1).
    { destruct (hlen_comp (@qval 53 1024 (qhalf lm))) as [C _]. rewrite L in C. exact C. }
    apply Rabs_le_inv in V. apply Rle_trans with 2; [| change 2 with (bpow radix2 1); apply bpow_le; lia].
    unfold v3, norm, vdot. cbn [vx vy vz]. replace (@B2R 53 1024 (@n0 (F64 lm))) with 0 by (symmetry; exact (@zero_val 53 1024 f64_prec_gt_0 f64_prec_lt_emax lm)).
    set (h := @B2R 53 1024 (qx (qhalf lm))) in *. clearbody h.
    rewrite <- (sqrt_square 2) by lra. apply sqrt_le_1_alt. nra.
Qed.
(** C83 applies to the same quaternion *)
Example C83_case lm : exists f, repr4 (quat_to_rotation_matrix (qhalf lm) true) f /\
  within (f 1%N 0%N : f64) 1 (14 * uro 53 + 5 * eta 53 1024).
Proof.
  destruct (qhalf_ok lm) as [Fq L]. destruct (@C83_matrix 53 1024 f64_prec_gt_0 f64_prec_lt_emax lm (qhalf lm) ltac:(lia) Fq ltac:(lra)) as [f [Rf [W _]]].
  exists f. split; [exact Rf |]. specialize (W 1%N 0%N ltac:(lia) ltac:(lia)).
  assert (D : hdot (@qval 53 1024 (qhalf lm)) (@qval 53 1024 (qhalf lm)) = 1) by (rewrite <- hlen_sq, L; lra).
  rewrite D in W. rewrite C83_reference in W by exact D. destruct W as [W1 W2]. split; [exact W1 |].
  replace (comp 1 (hrot (@qval 53 1024 (qhalf lm)) (axis 0))) with 1 in W2; [lra |].
  clear W1 W2. assert (V : @B2R 53 1024 (qx (qhalf lm)) = / 2).
  { unfold hdot, vdot, SpecFq.qval, qhalf in D. cbn [hv hs vx vy vz qx qy qz qw] in D. unfold qhalf. cbn [qx].
    match type of D with ?h * _ + _ + _ + _ = 1 => set (x := h) in * end.
    assert (0 <= x) by (unfold x; replace (binary_normalize 53 1024 f64_prec_gt_0 f64_prec_lt_emax mode_NE 1 (-1) false) with (@B754_finite 53 1024 false 4503599627370496 (-53) eq_refl);
      [unfold B2R, F2R; simpl; lra | apply B2SF_inj; vm_compute; reflexivity]). nra. }
  unfold hrot, hmul, axis, SpecFq.qval, comp. unfold qhalf in V |- *. cbn [qx qy qz qw] in V |- *. rewrite V. simpl. unfold vdot. simpl. lra.
Qed.
