(** PropertiesTrig.v — C101, C102, C103: quaternions from and to axis and angle, and spherical interpolation, in IEEE arithmetic.
    The platform's sine, cosine, arc cosine and arc tangent enter through one hypothesis: on finite arguments they are
    finite and wrong by at most d.  A libm that rounds correctly has d = 4u (examples at the end). *)
From Coq Require Import Reals List ZArith Bool Lra Lia.
From Flocq Require Import Core BinarySingleNaN.
Import ListNotations.
From Verif Require Import Base Num Vec Mat Quat Float FloatFacts SpecGeom SpecQuat SpecRound SpecBuild SpecFq SpecTrig PIeee6 PPrismF PTrig PTrig2 PTrig3 PTrig4.
Local Open Scope R_scope.

(** C101. The quaternion built from an axis and an angle in radians is within 3d + 10u of the unit quaternion of the turn. *)
Theorem C101_radian : forall prec emax {Hp : Prec_gt_0 prec} {Hm : Prec_lt_emax prec emax} (lm : libm (binary_float prec emax))
    (axis : mat3x1 (Ieee prec emax lm)) (r : Ieee prec emax lm) (B d : R),
  (9 < prec)%Z -> good_normal (axis : mat3x1 (binary_float prec emax)) -> is_finite (r : binary_float prec emax) = true -> Rabs (B2R (r : binary_float prec emax)) <= B ->
  sincos_acc lm B d -> d <= / 64 ->
  exists q, quat_init_from_axis_angle_radian axis r = Ok q /\ qfin (q : quat (binary_float prec emax)) /\
    hdist (qval (q : quat (binary_float prec emax))) (turn (s_unit (v3 (axis : mat3x1 (binary_float prec emax)))) (B2R (r : binary_float prec emax))) <= 3 * d + 10 * uro prec.
Proof. exact @axis_angle_ieee. Qed.
Print Assumptions C101_radian.
(** C101. The same with the angle in degrees; the conversion costs a relative error of u/8 + 2^-60 per degree. *)
Theorem C101_degree : forall prec emax {Hp : Prec_gt_0 prec} {Hm : Prec_lt_emax prec emax} (lm : libm (binary_float prec emax))
    (axis : mat3x1 (Ieee prec emax lm)) (a : Ieee prec emax lm) (B d : R),
  (9 < prec)%Z -> good_normal (axis : mat3x1 (binary_float prec emax)) -> is_finite (a : binary_float prec emax) = true -> Rabs (B2R (a : binary_float prec emax)) <= B ->
  1 <= B <= bpow radix2 (emax - 2) -> sincos_acc lm B d -> d <= / 64 ->
  exists q, quat_init_from_axis_angle_degree axis a = Ok q /\ qfin (q : quat (binary_float prec emax)) /\
    hdist (qval (q : quat (binary_float prec emax))) (turn (s_unit (v3 (axis : mat3x1 (binary_float prec emax)))) (B2R (a : binary_float prec emax) * PI / 180))
      <= 3 * d + 11 * uro prec + Rabs (B2R (a : binary_float prec emax)) * (uro prec / 8 + bpow radix2 (-60)).
Proof. exact @axis_degree_ieee. Qed.
Print Assumptions C101_degree.
(** C101. Rotating a vector by the quaternion so built gives Rodrigues' rotation of the vector up to (7d + 43u) times its length. *)
Theorem C101_rotate : forall prec emax {Hp : Prec_gt_0 prec} {Hm : Prec_lt_emax prec emax} (lm : libm (binary_float prec emax))
    (axis p : mat3x1 (Ieee prec emax lm)) (r : Ieee prec emax lm) (B d : R),
  (9 < prec)%Z -> good_normal (axis : mat3x1 (binary_float prec emax)) -> is_finite (r : binary_float prec emax) = true -> Rabs (B2R (r : binary_float prec emax)) <= B ->
  sincos_acc lm B d -> d <= / 64 -> fin3 (p : mat3x1 (binary_float prec emax)) -> norm (v3 (p : mat3x1 (binary_float prec emax))) <= bpow radix2 (emax - 8) ->
  exists q, quat_init_from_axis_angle_radian axis r = Ok q /\ fin3 (quat_rotate_vector q p : mat3x1 (binary_float prec emax)) /\
    dist (v3 (quat_rotate_vector q p : mat3x1 (binary_float prec emax))) (rodrigues (s_unit (v3 (axis : mat3x1 (binary_float prec emax)))) (B2R (r : binary_float prec emax)) (v3 (p : mat3x1 (binary_float prec emax))))
      <= (7 * d + 43 * uro prec) * norm (v3 (p : mat3x1 (binary_float prec emax))) + 28 * eta prec emax.
Proof. exact @axis_rotate_ieee. Qed.
Print Assumptions C101_rotate.

(** C102. Axis and angle of a quaternion whose scalar part is in [-1,1] and not within the cut-off of 1 or -1. *)
Theorem C102_axis_angle_partial : forall prec emax {Hp : Prec_gt_0 prec} {Hm : Prec_lt_emax prec emax} (lm : libm (binary_float prec emax)) (q : quat (Ieee prec emax lm)) (d : R),
  (20 <= prec)%Z -> (48 <= emax)%Z -> qfin (q : quat (binary_float prec emax)) -> let Q := qval (q : quat (binary_float prec emax)) in
  Rabs (hs Q) <= 1 -> 4 / 1000000000000 + 3 * uro prec <= 1 - hs Q * hs Q -> norm (hv Q) <= 2 -> bpow radix2 (10 - emax) <= vdot (hv Q) (hv Q) -> acos_acc lm d -> d <= 1 ->
  exists a t, quat_to_axis_angle q = Ok (a, t) /\ fin3 (a : mat3x1 (binary_float prec emax)) /\
    dist (v3 (a : mat3x1 (binary_float prec emax))) (s_unit (hv Q)) <= 11 * uro prec /\ within t (2 * acos (hs Q)) (2 * d).
Proof. exact @to_axis_ieee. Qed.
Print Assumptions C102_axis_angle_partial.
(** C102. A scalar part of exactly 1 or -1 gives the axis (1,0,0) and the angle 0, whatever the vector part. *)
Theorem C102_one : forall prec emax {Hp : Prec_gt_0 prec} {Hm : Prec_lt_emax prec emax} (lm : libm (binary_float prec emax)) (q : quat (Ieee prec emax lm)),
  (20 <= prec)%Z -> (48 <= emax)%Z -> is_finite (qw q : binary_float prec emax) = true -> B2R (qw q : binary_float prec emax) * B2R (qw q : binary_float prec emax) = 1 ->
  quat_to_axis_angle q = Ok (M3x1 (A3 n1 n0 n0), n0).
Proof. exact @to_axis_one. Qed.
Print Assumptions C102_one.
(** C102. To axis and angle and back: the quaternion returns up to 5d + 33u and its own deviation from unit length. *)
Theorem C102_round_trip_partial : forall prec emax {Hp : Prec_gt_0 prec} {Hm : Prec_lt_emax prec emax} (lm : libm (binary_float prec emax)) (q : quat (Ieee prec emax lm)) (d B : R),
  (20 <= prec)%Z -> (48 <= emax)%Z -> qfin (q : quat (binary_float prec emax)) -> let Q := qval (q : quat (binary_float prec emax)) in
  Rabs (hs Q) <= 1 -> 4 / 1000000000000 + 3 * uro prec <= 1 - hs Q * hs Q -> norm (hv Q) <= 2 -> bpow radix2 (10 - emax) <= vdot (hv Q) (hv Q) ->
  acos_acc lm d -> sincos_acc lm B d -> 7 <= B -> d <= / 64 ->
  exists a t p, quat_to_axis_angle q = Ok (a, t) /\ quat_init_from_axis_angle_radian a t = Ok p /\ qfin (p : quat (binary_float prec emax)) /\
    hdist (qval (p : quat (binary_float prec emax))) Q <= 5 * d + 33 * uro prec + Rabs (1 - hdot Q Q) / sqrt (1 - hs Q * hs Q).
Proof. exact @round_trip_ieee. Qed.
Print Assumptions C102_round_trip_partial.
(** C102 is false of the code for scalar parts that rounding has pushed above 1: normalise (0,0,3,3) and multiply by the
    conjugate; every component of the reported axis is NaN, in f64 and in f32. *)
Definition nan3 {prec emax} (v : mat3x1 (binary_float prec emax)) : bool := match v with M3x1 (A3 a b c) => is_nan a && is_nan b && is_nan c end.
Definition turned_back (Nm : Num) : res (mat3x1 Nm * Nm) :=
  let! q := quat_normalize (Q (nlit Nm 0 1) (nlit Nm 0 1) (nlit Nm 3 1) (nlit Nm 3 1)) in quat_to_axis_angle (quat_mul q (quat_conjugate q)).
Lemma turned_back_split (Nm : Num) (f : mat3x1 Nm -> bool) : match turned_back Nm with Ok (a, _) => f a | _ => false end = true -> exists (q : quat Nm) a t,
  quat_normalize (Q (nlit Nm 0 1) (nlit Nm 0 1) (nlit Nm 3 1) (nlit Nm 3 1)) = Ok q /\ quat_to_axis_angle (quat_mul q (quat_conjugate q)) = Ok (a, t) /\ f a = true.
Proof.
  intro E. unfold turned_back in E. destruct (quat_normalize (Q (nlit Nm 0 1) (nlit Nm 0 1) (nlit Nm 3 1) (nlit Nm 3 1))) as [q | p]; [| discriminate]. cbn [bind] in E.
  exists q. destruct (quat_to_axis_angle (quat_mul q (quat_conjugate q))) as [[a t] | p]; [| discriminate]. exists a, t. split; [reflexivity |]. split; [reflexivity | exact E].
Qed.
Theorem C102_refuted_f64 : forall lm : libm (binary_float 53 1024), exists (q : quat (F64 lm)) a t,
  quat_normalize (Q (nlit (F64 lm) 0 1) (nlit (F64 lm) 0 1) (nlit (F64 lm) 3 1) (nlit (F64 lm) 3 1)) = Ok q /\
  quat_to_axis_angle (quat_mul q (quat_conjugate q)) = Ok (a, t) /\ nan3 (a : mat3x1 (binary_float 53 1024)) = true.
Proof. intro lm. apply (turned_back_split (F64 lm) (fun a => nan3 (a : mat3x1 (binary_float 53 1024)))). vm_compute. reflexivity. Qed.
Print Assumptions C102_refuted_f64.
Theorem C102_refuted_f32 : forall lm : libm (binary_float 24 128), exists (q : quat (F32 lm)) a t,
  quat_normalize (Q (nlit (F32 lm) 0 1) (nlit (F32 lm) 0 1) (nlit (F32 lm) 3 1) (nlit (F32 lm) 3 1)) = Ok q /\
  quat_to_axis_angle (quat_mul q (quat_conjugate q)) = Ok (a, t) /\ nan3 (a : mat3x1 (binary_float 24 128)) = true.
Proof. intro lm. apply (turned_back_split (F32 lm) (fun a => nan3 (a : mat3x1 (binary_float 24 128)))). vm_compute. reflexivity. Qed.
Print Assumptions C102_refuted_f32.

(** C103. Spherical interpolation between quaternions of length at most 1.01 whose scalar product is positive: the point of
    the great circle, up to 5d/sin W + 110u/sin^2 W (and 5e-5 more when the code switches to the chord). *)
Theorem C103_slerp : forall prec emax {Hp : Prec_gt_0 prec} {Hm : Prec_lt_emax prec emax} (lm : libm (binary_float prec emax)) (a b : quat (Ieee prec emax lm)) (t : Ieee prec emax lm) (d B : R),
  (24 <= prec)%Z -> (48 <= emax)%Z -> qfin (a : quat (binary_float prec emax)) -> qfin (b : quat (binary_float prec emax)) -> is_finite (t : binary_float prec emax) = true ->
  let A := qval (a : quat (binary_float prec emax)) in let Bq := qval (b : quat (binary_float prec emax)) in
  hlen A <= 101 / 100 -> hlen Bq <= 101 / 100 -> 6 * uro prec <= hdot A Bq < 1 -> sincos_acc lm B d -> atan2_acc lm d -> 2 <= B -> d <= / 1000 ->
  let r := quat_interpolate_slerp a b t in let W := acos (hdot A Bq) in let X := arc_point W (clamp01 (B2R (t : binary_float prec emax))) A Bq in
  qfin (r : quat (binary_float prec emax)) /\
  (hdot A Bq <= 9998 / 10000 -> hdist (qval (r : quat (binary_float prec emax))) X <= 5 * d / sin W + 110 * uro prec / (sin W * sin W)) /\
  (hdist (qval (r : quat (binary_float prec emax))) X <= 5 / 100000 + 5 * d / sin W + 110 * uro prec / (sin W * sin W)).
Proof. exact @slerp_ieee. Qed.
Print Assumptions C103_slerp.

(** The hypotheses hold in every format of at least 24 bits for the libm that rounds correctly, for the axis (1,2,2), for
    the quaternion (1/2,1/2,1/2,1/2), and for that quaternion and 1. *)
Section Case.
  Context (prec emax : Z) {Hp : Prec_gt_0 prec} {Hm : Prec_lt_emax prec emax}.
  Hypotheses (P24 : (24 <= prec)%Z) (E64 : (64 <= emax)%Z).
  Notation bf := (binary_float prec emax).
  Notation lm := (rounded_libm prec emax).
  Notation F := (@Ieee prec emax Hp Hm lm).
  Notation h := (nlit F 1 2).
  Lemma case_libm : sincos_acc lm 1000 (4 * uro prec) /\ acos_acc lm (4 * uro prec) /\ atan2_acc lm (4 * uro prec) /\ 4 * uro prec <= / 1000.
  Proof.
    assert (P9 : (9 < prec)%Z) by lia. pose proof (u24 prec P24). pose proof (PRound.u_pos prec). repeat split; try lra.
    1-4: pose proof (rounded_sincos prec emax 1000 P9 x H1 H2) as [[A1 B1] [A2 B2]]; first [exact A1 | exact A2 | eapply Rle_trans; [first [exact B1 | exact B2] | lra]].
    all: first [apply rounded_acos | apply rounded_atan2]; assumption.
  Qed.
  Lemma case_axis : good_normal (z3 F 1 2 2 : mat3x1 bf) /\ v3 (z3 F 1 2 2 : mat3x1 bf) = V 1 2 2.
  Proof.
    destruct (z3_ok prec emax lm ltac:(lia) 1 2 2 ltac:(lia) ltac:(lia) ltac:(lia)) as [Fi Va]. split; [| exact Va]. split; [split; [exact Fi |] |].
    - assert (L : 2 <= bpow radix2 (emax / 2 - 3)) by (change 2 with (bpow radix2 1); apply bpow_le; assert (32 <= emax / 2)%Z by (apply Z.div_le_lower_bound; lia); lia).
      pose proof (f_equal vx Va) as X. pose proof (f_equal vy Va) as Y. pose proof (f_equal vz Va) as Z. unfold z3 in *. cbn [v3 vx vy vz] in X, Y, Z. cbv zeta. rewrite X, Y. rewrite !Rabs_pos_eq by lra. lra.
    - rewrite Va. apply Rle_trans with (bpow radix2 0); [apply bpow_le; lia | unfold vdot; simpl; lra].
  Qed.
  Lemma case_half : is_finite (h : bf) = true /\ B2R (h : bf) = / 2.
  Proof. exact (lit_half prec emax ltac:(lia)). Qed.
  Example C101_case : exists q, quat_init_from_axis_angle_degree (z3 F 1 2 2) (nlit F 90 1) = Ok q /\
    hdist (qval (q : quat bf)) (turn (V (1 / 3) (2 / 3) (2 / 3)) (PI / 2)) <= 35 * uro prec + bpow radix2 (-53).
  Proof.
    destruct case_axis as [G V3]. destruct case_libm as (SC & _ & _ & D). destruct (lit_z prec emax lm ltac:(lia) 90 ltac:(lia)) as [F9 V9].
    destruct (C101_degree prec emax lm (z3 F 1 2 2) (nlit F 90 1) 1000 (4 * uro prec) ltac:(lia) G F9 ltac:(rewrite V9, Rabs_pos_eq; lra)) as (q & E & _ & B); [| exact SC | lra |].
    - split; [lra |]. apply Rle_trans with (bpow radix2 10); [change (bpow radix2 10) with 1024; lra | apply bpow_le; lia].
    - exists q. split; [exact E |]. rewrite V9, V3 in B. rewrite (Rabs_pos_eq 90) in B by lra.
      replace (s_unit (V 1 2 2)) with (V (1 / 3) (2 / 3) (2 / 3)) in B.
      2: { unfold s_unit, norm, vdot. simpl. replace (1 * 1 + 2 * 2 + 2 * 2) with (3 * 3) by ring. rewrite sqrt_square by lra. unfold vscale. simpl. f_equal; field. }
      replace (90 * PI / 180) with (PI / 2) in B by field. pose proof (PRound.u_pos prec).
      replace (bpow radix2 (-53)) with (128 * bpow radix2 (-60)) by (change 128 with (bpow radix2 7); rewrite <- bpow_plus; reflexivity). pose proof (bpow_gt_0 radix2 (-60)). lra.
  Qed.
  Example C102_case : exists a t, quat_to_axis_angle (Q h h h h) = Ok (a, t) /\
    dist (v3 (a : mat3x1 bf)) (s_unit (V (/ 2) (/ 2) (/ 2))) <= 11 * uro prec /\ within t (2 * acos (/ 2)) (8 * uro prec).
  Proof.
    destruct case_half as [Fh Vh]. destruct case_libm as (_ & AC & _ & D). pose proof (u24 prec P24) as U.
    destruct (C102_axis_angle_partial prec emax lm (Q h h h h) (4 * uro prec) ltac:(lia) ltac:(lia)) as (a & t & E & _ & B & Ft & Bt); try (unfold qval; cbn [hv hs qx qy qz qw]; rewrite Vh).
    - repeat split; exact Fh.
    - rewrite Rabs_pos_eq; lra.
    - lra.
    - unfold norm, vdot. simpl. replace 2 with (sqrt (2 * 2)) at 7 by (rewrite sqrt_square; lra). apply sqrt_le_1; lra.
    - apply Rle_trans with (bpow radix2 (-1)); [apply bpow_le; lia | unfold vdot; simpl; lra].
    - exact AC.
    - lra.
    - exists a, t. split; [exact E |]. unfold qval in B, Bt. cbn [hv hs qx qy qz qw] in B, Bt. rewrite Vh in B, Bt. split; [exact B |]. split; [exact Ft | lra].
  Qed.
  Example C103_case : let X := arc_point (acos (/ 2)) (/ 2) (H (V (/ 2) (/ 2) (/ 2)) (/ 2)) (H (V 0 0 0) 1) in
    hdist (qval (quat_interpolate_slerp (Q h h h h) (Q n0 n0 n0 n1) h : quat bf)) X <= 180 * uro prec.
  Proof.
    intro X. destruct case_half as [Fh Vh]. destruct case_libm as (SC & _ & AT & D). pose proof (u24 prec P24) as U. pose proof (PRound.u_pos prec) as U0. destruct (PIeee2.fv_n0 prec emax lm) as [F0 V0]. destruct (fv_one prec emax lm) as [F1 V1].
    assert (EA : qval (Q h h h h : quat bf) = H (V (/ 2) (/ 2) (/ 2)) (/ 2)) by (unfold qval; cbn [qx qy qz qw]; rewrite Vh; reflexivity).
    assert (EB : qval (Q n0 n0 n0 n1 : quat F) = H (V 0 0 0) 1) by (unfold qval; cbn [qx qy qz qw]; rewrite V0, V1; reflexivity).
    pose proof (C103_slerp prec emax lm (Q h h h h) (Q n0 n0 n0 n1) h (4 * uro prec) 1000 P24 ltac:(lia) ltac:(repeat split; exact Fh) ltac:(repeat split; assumption) Fh) as S. cbv zeta in S.
    rewrite EA, EB, Vh in S.
    assert (HA : hlen (H (V (/ 2) (/ 2) (/ 2)) (/ 2)) = 1) by (unfold hlen, hdot, vdot; simpl; replace (/ 2 * / 2 + / 2 * / 2 + / 2 * / 2 + / 2 * / 2) with 1 by field; apply sqrt_1).
    assert (HB : hlen (H (V 0 0 0) 1) = 1) by (unfold hlen, hdot, vdot; simpl; replace (0 * 0 + 0 * 0 + 0 * 0 + 1 * 1) with 1 by ring; apply sqrt_1).
    assert (HD : hdot (H (V (/ 2) (/ 2) (/ 2)) (/ 2)) (H (V 0 0 0) 1) = / 2) by (unfold hdot, vdot; simpl; field).
    rewrite HA, HB, HD in S. destruct (S ltac:(lra) ltac:(lra) ltac:(lra) SC AT ltac:(lra) D) as (_ & B & _). specialize (B ltac:(lra)).
    assert (CL : clamp01 (/ 2) = / 2) by (unfold clamp01; rewrite Rmin_right, Rmax_right; lra). rewrite CL in B. fold X in B.
    eapply Rle_trans; [exact B |]. assert (SS : sin (acos (/ 2)) * sin (acos (/ 2)) = 3 / 4) by (rewrite sin_acos by lra; rewrite sqrt_sqrt; unfold Rsqr; lra).
    assert (S0 : 86 / 100 <= sin (acos (/ 2))) by (assert (0 <= sin (acos (/ 2))) by (rewrite sin_acos by lra; apply sqrt_pos); nra).
    rewrite SS. assert (I : / sin (acos (/ 2)) <= 100 / 86) by (apply Rle_trans with (/ (86 / 100)); [apply Rinv_le; lra | lra]). unfold Rdiv at 1. assert (5 * (4 * uro prec) * / sin (acos (/ 2)) <= 5 * (4 * uro prec) * (100 / 86)) by (apply Rmult_le_compat_l; lra). lra.
  Qed.
End Case.
