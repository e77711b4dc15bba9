(** PropertiesIeee.v — C77 (constructors, any arithmetic), C78 (bounding boxes in f32/f64) and the IEEE part of C43. *)
From Coq Require Import Reals List ZArith NArith Bool Lra Lia.
From Flocq Require Import Core BinarySingleNaN.
Import ListNotations.
From Verif Require Import Base Num Vec Mat Bound Shape Intersect Float Exact FloatFacts Order SpecMat SpecGeom SpecBound SpecCtor SpecBuild
  SpecShape SpecRound ExactFacts PBuild PIeee1 PIeee2 PIeee3.
Local Open Scope R_scope.

(** ---- C77: constructors ---- *)
Theorem C77_lengths (Nm : Num) (l k : list Nm) (r : Nm) :
  checks (length l = 3%nat) (point_init l) /\
  checks (length l = 3%nat /\ length k = 3%nat) (ray_init l k) /\
  checks (length l = 3%nat) (sphere_init l r) /\
  checks (length l = 3%nat /\ length k = 3%nat) (plane_init l k) /\
  checks (length l = 3%nat /\ length k = 3%nat) (line_init l k) /\
  checks (length l = 3%nat) (recbox_init l r) /\
  checks (length l = 9%nat) (triprism_init l r).
Proof.
  exact (conj (point_checks l) (conj (ray_checks l k) (conj (sphere_checks l r) (conj (plane_checks l k)
    (conj (line_checks l k) (conj (box_checks l r) (prism_checks l r))))))).
Qed.
Print Assumptions C77_lengths.
(** the data handed in come back from get_shape_data; directions and normals come back normalised *)
Theorem C77_point (Nm : Num) (p : mat3x1 Nm) e s : mk_point p e s ->
  shape_get_type s = TPoint /\ shape_get_shape_data s = sl p /\ shape_vicinity s = nabs Nm e.
Proof. exact (point_data p e s). Qed.
Print Assumptions C77_point.
Theorem C77_ray (Nm : Num) (o d : mat3x1 Nm) e s : mk_ray o d e s -> exists u, mat3x1_normalize d = Ok (Some u) /\
  shape_get_type s = TRay /\ shape_get_shape_data s = sl o ++ sl u /\ shape_vicinity s = nabs Nm e.
Proof. exact (ray_data o d e s). Qed.
Print Assumptions C77_ray.
Theorem C77_sphere (Nm : Num) (c : mat3x1 Nm) r e s : mk_sphere c r e s ->
  shape_get_type s = TSphere /\ shape_get_shape_data s = sl c ++ [r] /\ shape_vicinity s = nabs Nm e.
Proof. exact (sphere_data c r e s). Qed.
Print Assumptions C77_sphere.
Theorem C77_plane (Nm : Num) (o n : mat3x1 Nm) e s : mk_plane o n e s -> exists u, mat3x1_normalize n = Ok (Some u) /\
  shape_get_type s = TPlane /\ shape_get_shape_data s = sl o ++ sl u /\ shape_vicinity s = nabs Nm e.
Proof. exact (plane_data o n e s). Qed.
Print Assumptions C77_plane.
Theorem C77_line (Nm : Num) (a b : mat3x1 Nm) e s : mk_line a b e s ->
  shape_get_type s = TLine /\ shape_get_shape_data s = sl a ++ sl b /\ shape_vicinity s = nabs Nm e.
Proof. exact (line_data a b e s). Qed.
Print Assumptions C77_line.
Theorem C77_box (Nm : Num) (c : mat3x1 Nm) h e s : mk_box c h e s ->
  shape_get_type s = TBox /\ shape_get_shape_data s = sl c ++ [h] /\ shape_vicinity s = nabs Nm e.
Proof. exact (box_data c h e s). Qed.
Print Assumptions C77_box.
(** a prism also stores the normalised cross product of its edges times the height *)
Theorem C77_prism (Nm : Num) (a b c : mat3x1 Nm) h e s : mk_prism a b c h e s -> exists ab ac n u w,
  mat3x1_minus b a = Some ab /\ mat3x1_minus c a = Some ac /\ mat3x1_cross ab ac = Some n /\
  mat3x1_normalize n = Ok (Some u) /\ mat3x1_scale u h = Some w /\
  shape_get_type s = TTriPrism /\ shape_get_shape_data s = (sl a ++ sl b ++ sl c) ++ sl w /\ shape_vicinity s = nabs Nm e.
Proof. exact (prism_data a b c h e s). Qed.
Print Assumptions C77_prism.
(** every shape can be built *)
Example C77_case (Nm : Num) (p q w : mat3x1 Nm) (r e : Nm) :
  (exists s, mk_point p e s) /\ (exists s, mk_ray p q e s) /\ (exists s, mk_sphere p r e s) /\ (exists s, mk_plane p q e s) /\
  (exists s, mk_line p q e s) /\ (exists s, mk_box p r e s) /\ (exists s, mk_prism p q w r e s).
Proof.
  repeat split; eexists; [apply point_any | apply ray_any_eq | apply sphere_any | apply plane_any | apply line_any | apply box_any | apply prism_any]; reflexivity.
Qed.
Example C77_length_case (Nm : Num) (x : Nm) : @sphere_init Nm [x; x] x = Panic PAssert /\ @triprism_init Nm [x; x; x] x = Panic PAssert.
Proof. split; reflexivity. Qed.

(** ---- C78: bounding boxes in IEEE arithmetic ---- *)
Section Ieee.
Context (prec emax : Z) {Hp : Prec_gt_0 prec} {Hm : Prec_lt_emax prec emax} (lm : libm (binary_float prec emax)).
Notation F := (@Ieee prec emax Hp Hm lm).
Notation fin x := (is_finite (x : binary_float prec emax) = true).
(** the rounding of every real point of the shape is in the box, whatever overflows *)
Theorem C78_rounded (s : shape F) x : owns prec emax lm s x -> exists b, shape_get_bound s = BBox b /\ rholds b x.
Proof. exact (owns_holds prec emax lm s x). Qed.
(** every representable point of the shape is in the box *)
Theorem C78_representable (s : shape F) (p : mat3x1 F) : fin3 p -> owns prec emax lm s (v3 p) ->
  exists b, shape_get_bound s = BBox b /\ inb b (v3x1 p).
Proof. exact (owns_inb prec emax lm s p). Qed.
(** two shapes that share a real point are never turned away by the test on their boxes *)
Theorem C78_meet (s t : shape F) x : owns prec emax lm s x -> owns prec emax lm t x ->
  ibound_intersect (shape_get_bound s) (shape_get_bound t) = Ok true.
Proof. exact (owns_meet prec emax lm s t x). Qed.
(** ---- C43 in IEEE arithmetic: no representable point of the ball is missed ---- *)
Theorem C43_ieee c (r : F) e p f (a b : shape F) : mk_sphere c r e a -> mk_point p f b -> fin3 c -> fin r -> fin3 p ->
  s_ball (v3 c) (B2R r) (v3 p) -> shape_get_intersect a b = Ok (true, Some p) /\ shape_get_intersect b a = Ok (true, Some p).
Proof. exact (sphere_point_ieee prec emax lm c r e p f a b). Qed.
(** the box query misses no representable point of the cube *)
Theorem C45_ieee_complete (c : mat3x1 F) (h : F) e (p : mat3x1 F) f (a b : shape F) : fin3 c -> fin h -> fin3 p ->
  mk_box c h e a -> mk_point p f b -> s_cube (v3 c) (B2R h) (v3 p) -> shape_get_intersect a b = Ok (true, Some p).
Proof. exact (box_point_ieee prec emax lm c h e p f a b). Qed.
(** ---- C42 in IEEE arithmetic ---- *)
Theorem C42_ieee_partial (p q : mat3x1 F) (e : F) f (a b : shape F) : fin3 p -> fin3 q -> nisnan e = false ->
  mk_point p e a -> mk_point q f b ->
  (v3 p = v3 q -> shape_get_intersect a b = Ok (true, Some p)) /\ (v3 p <> v3 q -> shape_get_intersect a b = Ok (false, None)).
Proof. exact (point_point_finite prec emax lm p q e f a b). Qed.
Theorem C42_nan_partial (p0 p1 p2 q0 q1 q2 : F) e f (a b : shape F) : mk_point (M3x1 (A3 p0 p1 p2)) e a -> mk_point (M3x1 (A3 q0 q1 q2)) f b ->
  (exists x : F, In x [p0; p1; p2; q0; q1; q2] /\ nisnan x = true) -> shape_get_intersect a b = Ok (false, None).
Proof. exact (point_point_nan prec emax lm p0 p1 p2 q0 q1 q2 e f a b). Qed.

(** ---- C79: sphere against sphere, right answers outside a margin ---- *)
Notation u := (uro prec).
Notation et := (eta prec emax).
Theorem C79_spheres (a b : mat3x1 F) (r s : F) e f (x y : shape F) : (9 < prec)%Z -> moderate a -> moderate b ->
  (fin r /\ Rabs (B2R r) <= bpow radix2 (emax - 2)) -> (fin s /\ Rabs (B2R s) <= bpow radix2 (emax - 2)) -> 0 <= B2R r -> 0 <= B2R s ->
  mk_sphere a r e x -> mk_sphere b s f y ->
  let D := dist (v3 b) (v3 a) in let R := B2R r + B2R s in
  ((1 + u) ^ 4 * (D + 2 * sqrt et) <= (1 - u) * R -> exists p, shape_get_intersect x y = Ok (true, Some p)) /\
  ((1 + u) * R < (1 - u) ^ 4 * D - 2 * sqrt et -> shape_get_intersect x y = Ok (false, None)).
Proof. exact (sphere_sphere_ieee prec emax lm a b r s e f x y). Qed.

(** ---- C80: planes, right answers outside a margin ---- *)
Theorem C80_plane_point (o n p : mat3x1 F) (e : F) f (a b : shape F) : (9 < prec)%Z -> good_normal n -> moderate o -> moderate p ->
  fin e -> mk_plane o n e a -> mk_point p f b ->
  let q := Rabs (vdot (s_unit (v3 n)) (vsub (v3 p) (v3 o))) in let E := 13 * u * (norm (v3 o) + norm (v3 p)) + 9 * et in
  (q + E <= Rabs (B2R e) -> shape_get_intersect a b = Ok (true, Some p)) /\
  (Rabs (B2R e) < q - E -> shape_get_intersect a b = Ok (false, None)).
Proof. exact (plane_point_ieee prec emax lm o n p e f a b). Qed.
Theorem C80_sphere_plane (c : mat3x1 F) (r : F) e (o n : mat3x1 F) f (a b : shape F) : (9 < prec)%Z -> good_normal n -> moderate o -> moderate c ->
  fin r -> 0 <= B2R r -> mk_sphere c r e a -> mk_plane o n f b ->
  let q := vdot (s_unit (v3 n)) (vsub (v3 c) (v3 o)) in let E := 13 * u * (norm (v3 c) + norm (v3 o)) + 9 * et in
  (q + E <= B2R r -> exists p, shape_get_intersect a b = Ok (true, Some p)) /\
  (B2R r < q - E -> shape_get_intersect a b = Ok (false, None)).
Proof. exact (sphere_plane_ieee prec emax lm c r e o n f a b). Qed.
End Ieee.
Print Assumptions C45_ieee_complete.
Print Assumptions C42_ieee_partial.
Print Assumptions C42_nan_partial.
Print Assumptions C79_spheres.
Print Assumptions C80_plane_point.
Print Assumptions C80_sphere_plane.
Print Assumptions C78_rounded.
Print Assumptions C78_representable.
Print Assumptions C78_meet.
Print Assumptions C43_ieee.

(** a ball and a segment through an irrational point *)
Section Case.
  Variable lm : libm f32.
  Notation F := (F32 lm).
  Definition i2 : F := nlit F 2 1.
  Lemma v_0 : B2R (@n0 F : f32) = 0. Proof. exact (proj2 (fv_lit_0 24 128)). Qed.
  Lemma v_1 : B2R (@n1 F : f32) = 1. Proof. exact (proj2 (fv_lit_1 24 128)). Qed.
  Lemma v_2 : B2R (i2 : f32) = 2. Proof. exact (proj2 (fv_lit_2 24 128)). Qed.
  Definition cen : mat3x1 F := M3x1 (A3 n0 n0 n0).
  Definition far : mat3x1 F := M3x1 (A3 i2 n0 n0).
  Lemma fin_cen : fin3 (cen : mat3x1 f32). Proof. repeat split. Qed.
  Lemma fin_far : fin3 (far : mat3x1 f32). Proof. repeat split. Qed.
  Lemma v_cen : v3 (cen : mat3x1 f32) = V 0 0 0. Proof. unfold v3, cen. rewrite v_0. reflexivity. Qed.
  Lemma v_far : v3 (far : mat3x1 f32) = V 2 0 0. Proof. unfold v3, far. rewrite v_0, v_2. reflexivity. Qed.
  Lemma sqrt2_le : 1 <= sqrt 2 <= 2.
  Proof. split; [rewrite <- sqrt_1 at 1; apply sqrt_le_1; lra | rewrite <- (sqrt_Rsqr 2) at 2 by lra; apply sqrt_le_1; unfold Rsqr; lra]. Qed.
  Example C78_case : exists s t : shape F, @owns 24 128 f32_prec_gt_0 f32_prec_lt_emax lm s (V (sqrt 2) 0 0) /\ @owns 24 128 f32_prec_gt_0 f32_prec_lt_emax lm t (V (sqrt 2) 0 0) /\ s <> t.
  Proof.
    pose proof sqrt2_le as Q.
    eexists. eexists. split; [| split].
    - eapply (@own_sphere 24 128 f32_prec_gt_0 f32_prec_lt_emax lm _ _ cen i2 n0); [apply sphere_any; reflexivity | exact fin_cen | reflexivity |].
      rewrite v_cen, v_2. unfold s_ball, dist, norm, vdot, vsub. simpl.
      replace ((sqrt 2 - 0) * (sqrt 2 - 0) + (0 - 0) * (0 - 0) + (0 - 0) * (0 - 0)) with (Rsqr (sqrt 2)) by (unfold Rsqr; ring). rewrite sqrt_Rsqr; lra.
    - eapply (@own_line 24 128 f32_prec_gt_0 f32_prec_lt_emax lm _ _ cen far n0); [apply line_any; reflexivity | exact fin_cen | exact fin_far |].
      rewrite v_cen, v_far. exists (sqrt 2 / 2). split; [lra |]. unfold vadd, vscale, vsub. simpl. f_equal; lra.
    - discriminate.
  Qed.
  Example C43_ieee_case : s_ball (v3 (cen : mat3x1 f32)) (B2R (i2 : f32)) (v3 (far : mat3x1 f32)).
  Proof.
    rewrite v_cen, v_far, v_2. unfold s_ball, dist, norm, vdot, vsub. simpl.
    replace ((2 - 0) * (2 - 0) + (0 - 0) * (0 - 0) + (0 - 0) * (0 - 0)) with (Rsqr 2) by (unfold Rsqr; ring). rewrite sqrt_Rsqr; lra.
  Qed.
End Case.

(** ---- C79: without the limits the answers are wrong (binary64) ---- *)
Section Limits.
  Variable lm : libm f64.
  Notation F := (F64 lm).
  Definition p2_600 : F := @B754_finite 53 1024 false 4503599627370496 548 eq_refl.
  Definition m2_600 : F := @B754_finite 53 1024 true 4503599627370496 548 eq_refl.
  Definition p2_700 : F := @B754_finite 53 1024 false 4503599627370496 648 eq_refl.
  Definition t2_600 : F := @B754_finite 53 1024 false 4503599627370496 (-652) eq_refl.
  Definition t2_601 : F := @B754_finite 53 1024 false 4503599627370496 (-653) eq_refl.
  (** overflow: two overlapping spheres are missed *)
  Theorem C79_overflow_refuted : ~ (forall (a b : mat3x1 F) (r s : F) e f (x y : shape F), fin3 (a : mat3x1 f64) -> fin3 (b : mat3x1 f64) ->
    is_finite (r : f64) = true -> is_finite (s : f64) = true -> mk_sphere a r e x -> mk_sphere b s f y ->
    dist (v3 (b : mat3x1 f64)) (v3 (a : mat3x1 f64)) <= / 2 * (B2R (r : f64) + B2R (s : f64)) -> exists p, shape_get_intersect x y = Ok (true, Some p)).
  Proof.
    intro H. specialize (H (M3x1 (A3 m2_600 n0 n0)) (M3x1 (A3 p2_600 n0 n0)) p2_700 p2_700 n0 n0 _ _
      ltac:(repeat split) ltac:(repeat split) eq_refl eq_refl (proj2 (sphere_any _ _ _ _) eq_refl) (proj2 (sphere_any _ _ _ _) eq_refl)).
    destruct H as [p H].
    - change (B2R (p2_700 : f64)) with (IZR 4503599627370496 * bpow radix2 648).
      change (v3 (M3x1 (A3 p2_600 n0 n0) : mat3x1 f64)) with (V (IZR 4503599627370496 * bpow radix2 548) (B2R (@n0 F : f64)) (B2R (@n0 F : f64))).
      change (v3 (M3x1 (A3 m2_600 n0 n0) : mat3x1 f64)) with (V (IZR (-4503599627370496) * bpow radix2 548) (B2R (@n0 F : f64)) (B2R (@n0 F : f64))).
      rewrite (proj2 (fv_lit_0 53 1024) : B2R (@n0 F : f64) = 0).
      replace 648%Z with (100 + 548)%Z by reflexivity. rewrite bpow_plus. pose proof (bpow_gt_0 radix2 548) as B. set (w := bpow radix2 548) in *.
      assert (G : 4 <= bpow radix2 100) by (change 4 with (bpow radix2 2); apply bpow_le; lia). set (g := bpow radix2 100) in *.
      unfold dist, norm, vdot, vsub. cbn [vx vy vz].
      match goal with |- sqrt ?t <= _ => replace t with (Rsqr (2 * (4503599627370496 * w))) by (unfold Rsqr; ring) end. rewrite sqrt_Rsqr by nra. nra.
    - apply (f_equal (fun r => match r with Ok (t, _) => t | _ => false end)) in H. revert H. vm_compute. discriminate.
  Qed.
  (** underflow: two spheres whose boxes touch at a corner are reported although they are 1.7 times too far apart *)
  Theorem C79_underflow_refuted : ~ (forall (a b : mat3x1 F) (r s : F) e f (x y : shape F) p, fin3 (a : mat3x1 f64) -> fin3 (b : mat3x1 f64) ->
    is_finite (r : f64) = true -> is_finite (s : f64) = true -> mk_sphere a r e x -> mk_sphere b s f y ->
    shape_get_intersect x y = Ok (true, p) -> dist (v3 (b : mat3x1 f64)) (v3 (a : mat3x1 f64)) <= 17 / 10 * (B2R (r : f64) + B2R (s : f64))).
  Proof.
    intro H.
    assert (X : exists p, @shape_get_intersect F (SSphere (MkSphere (M3x1 (A3 n0 n0 n0)) t2_601 (cube_any (M3x1 (A3 n0 n0 n0)) t2_601) (nabs F n0)))
      (SSphere (MkSphere (M3x1 (A3 t2_600 t2_600 t2_600)) t2_601 (cube_any (M3x1 (A3 t2_600 t2_600 t2_600)) t2_601) (nabs F n0))) = Ok (true, p)).
    { match goal with |- exists p, ?t = _ => assert (Y : match t with Ok (b, _) => b | _ => false end = true) by (vm_compute; reflexivity); destruct t as [[[] p] |]; try discriminate Y end.
      exists p. reflexivity. }
    destruct X as [p X].
    specialize (H (M3x1 (A3 n0 n0 n0)) (M3x1 (A3 t2_600 t2_600 t2_600)) t2_601 t2_601 n0 n0 _ _ p
      ltac:(repeat split) ltac:(repeat split) eq_refl eq_refl (proj2 (sphere_any _ _ _ _) eq_refl) (proj2 (sphere_any _ _ _ _) eq_refl) X).
    revert H. change (B2R (t2_601 : f64)) with (IZR 4503599627370496 * bpow radix2 (-653)). set (k := IZR 4503599627370496 * bpow radix2 (-652)).
    change (v3 (M3x1 (A3 t2_600 t2_600 t2_600) : mat3x1 f64)) with (V k k k).
    change (v3 (M3x1 (A3 (@n0 F) (@n0 F) (@n0 F)) : mat3x1 f64)) with (V (B2R (@n0 F : f64)) (B2R (@n0 F : f64)) (B2R (@n0 F : f64))).
    rewrite (proj2 (fv_lit_0 53 1024) : B2R (@n0 F : f64) = 0).
    assert (K : k = 2 * (4503599627370496 * bpow radix2 (-653))).
    { unfold k. replace (-652)%Z with (1 + -653)%Z by reflexivity. rewrite bpow_plus. change (bpow radix2 1) with 2. ring. }
    assert (B : 0 < k) by (apply Rmult_lt_0_compat; [lra | apply bpow_gt_0]).
    unfold dist, norm, vdot, vsub. cbn [vx vy vz]. intro H.
    assert (L : 17 / 10 * k < sqrt ((k - 0) * (k - 0) + (k - 0) * (k - 0) + (k - 0) * (k - 0))).
    { rewrite <- (sqrt_Rsqr (17 / 10 * k)) by lra. apply sqrt_lt_1_alt. unfold Rsqr. assert (0 < k * k) by (apply Rmult_lt_0_compat; exact B). lra. }
    lra.
  Qed.
  (** the theorems apply: a unit sphere against one at distance 2 of radius 2, and a plane *)
  Example C79_case : (9 < 53)%Z /\ moderate (M3x1 (A3 (@n0 F) (@n0 F) (@n0 F)) : mat3x1 f64) /\ moderate (M3x1 (A3 (nlit F 2 1) (@n0 F) (@n0 F)) : mat3x1 f64) /\
    is_finite (@n1 F : f64) = true /\ B2R (@n1 F : f64) = 1 /\ 1 <= bpow radix2 (1024 - 2) /\
    v3 (M3x1 (A3 (nlit F 2 1) (@n0 F) (@n0 F)) : mat3x1 f64) = V 2 0 0 /\ good_normal (M3x1 (A3 (nlit F 2 1) (@n0 F) (@n0 F)) : mat3x1 f64).
  Proof.
    pose proof (@fv_lit_0 53 1024 f64_prec_gt_0 f64_prec_lt_emax) as [Z1 Z2]. pose proof (@fv_lit_1 53 1024 f64_prec_gt_0 f64_prec_lt_emax) as [O1 O2]. pose proof (@fv_lit_2 53 1024 f64_prec_gt_0 f64_prec_lt_emax) as [T1 T2].
    assert (L : 2 <= bpow radix2 (1024 / 2 - 3)) by (change 2 with (bpow radix2 1); apply bpow_le; reflexivity || (vm_compute; discriminate)).
    assert (A0 : Rabs 0 <= bpow radix2 (1024 / 2 - 3)) by (rewrite Rabs_R0; lra). assert (A2 : Rabs 2 <= bpow radix2 (1024 / 2 - 3)) by (rewrite Rabs_pos_eq; lra).
    assert (M2 : moderate (M3x1 (A3 (nlit F 2 1) (@n0 F) (@n0 F)) : mat3x1 f64)).
    { split; [exact (conj T1 (conj Z1 Z1)) |]. cbv zeta. change (B2R (nlit F 2 1 : f64)) with (B2R (@f_lit 53 1024 f64_prec_gt_0 f64_prec_lt_emax 2 1)). change (B2R (@n0 F : f64)) with (B2R (@f_lit 53 1024 f64_prec_gt_0 f64_prec_lt_emax 0 1)).
      rewrite T2, Z2. exact (conj A2 (conj A0 A0)). }
    assert (V2 : v3 (M3x1 (A3 (nlit F 2 1) (@n0 F) (@n0 F)) : mat3x1 f64) = V 2 0 0).
    { unfold v3. change (B2R (nlit F 2 1 : f64)) with (B2R (@f_lit 53 1024 f64_prec_gt_0 f64_prec_lt_emax 2 1)). change (B2R (@n0 F : f64)) with (B2R (@f_lit 53 1024 f64_prec_gt_0 f64_prec_lt_emax 0 1)). rewrite T2, Z2. reflexivity. }
    split; [lia |]. split.
    { split; [exact (conj Z1 (conj Z1 Z1)) |]. cbv zeta. change (B2R (@n0 F : f64)) with (B2R (@f_lit 53 1024 f64_prec_gt_0 f64_prec_lt_emax 0 1)). rewrite Z2. exact (conj A0 (conj A0 A0)). }
    split; [exact M2 |]. split; [exact O1 |]. split; [exact O2 |]. split; [change 1 with (bpow radix2 0); apply bpow_le; lia |]. split; [exact V2 |].
    split; [exact M2 |]. rewrite V2. unfold vdot. cbn [vx vy vz]. apply Rle_trans with (bpow radix2 0); [apply bpow_le; lia | simpl; lra].
  Qed.
End Limits.
Print Assumptions C79_overflow_refuted.
Print Assumptions C79_underflow_refuted.
