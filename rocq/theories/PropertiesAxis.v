(** PropertiesAxis.v — C120: lengths, unit vectors and planes along the coordinate axes in IEEE arithmetic, for floats in general. *)
From Coq Require Import Reals List ZArith NArith Bool Lra Lia.
From Flocq Require Import Core BinarySingleNaN.
Import ListNotations.
From Verif Require Import Base Num Vec Mat Quat Shape Intersect Float FloatFacts SpecMat SpecGeom SpecBuild SpecInt ExactFacts PVec PBuild PGeo1 PPrismF PSqr PAxis PAxis2.
Local Open Scope R_scope.

Section Axis.
Context (prec emax : Z) {Hp : Prec_gt_0 prec} {Hm : Prec_lt_emax prec emax} (lm : libm (binary_float prec emax)).
Notation bf := (binary_float prec emax).
Notation rnd := (round radix2 (SpecFloat.fexp prec emax) ZnearestE).
Notation val := (@B2R prec emax).
Notation F := (@Ieee prec emax Hp Hm lm).
Notation v3 v := (v3 (v : mat3x1 bf)).
Notation vec := (mat3x1 F).
(** One non-zero component w: the square and the root both round, yet the length is |w| exactly and the unit vector is the axis. *)
Theorem C120_lengths k (u : vcar F k) w : lone w (vcomps u : list bf) -> Rabs w <= bpow radix2 (emax / 2 - 3) -> bpow radix2 (2 - emax) <= w * w ->
  (exists m, vec_magnitude u = Some m /\ exactly (m : bf) (Rabs w)) /\ (exists v, vec_normalize u = Ok (Some v) /\ lone (w / Rabs w) (vcomps v : list bf)).
Proof. exact (vec_lone prec emax lm k u w). Qed.
Theorem C120_quaternions (q : quat F) w : let comps (p : quat F) : list bf := [qx p; qy p; qz p; qw p] in lone w (comps q) -> Rabs w <= bpow radix2 (emax / 2 - 3) -> bpow radix2 (2 - emax) <= w * w ->
  exactly (quat_length q : bf) (Rabs w) /\ exists p, quat_normalize q = Ok p /\ lone (w / Rabs w) (comps p).
Proof. exact (quat_lone prec emax lm q w). Qed.
(** A plane perpendicular to an axis: the one rounding left is that of the difference of two coordinates. *)
Theorem C120_sphere_plane (c o n : vec) (r : F) e f (x y : shape F) : (9 < prec)%Z -> good_normal (n : mat3x1 bf) -> axial (v3 n) -> moderate (c : mat3x1 bf) -> moderate (o : mat3x1 bf) -> is_finite (r : bf) = true -> mk_sphere c r e x -> mk_plane o n f y ->
  let d := vdot (s_unit (v3 n)) (vsub (v3 c) (v3 o)) in
  (rnd d <= val r -> exists p, shape_get_intersect x y = Ok (true, Some p)) /\ (val r < rnd d -> shape_get_intersect x y = Ok (false, None)).
Proof. exact (sphere_plane_axis prec emax lm c o n r e f x y). Qed.
Theorem C120_plane_point (o n p : vec) e f (x y : shape F) : (9 < prec)%Z -> good_normal (n : mat3x1 bf) -> axial (v3 n) -> moderate (p : mat3x1 bf) -> moderate (o : mat3x1 bf) -> is_finite (e : bf) = true -> mk_plane o n e x -> mk_point p f y ->
  let d := vdot (s_unit (v3 n)) (vsub (v3 p) (v3 o)) in
  (Rabs (rnd d) <= Rabs (val e) -> shape_get_intersect x y = Ok (true, Some p)) /\ (Rabs (val e) < Rabs (rnd d) -> shape_get_intersect x y = Ok (false, None)).
Proof. exact (plane_point_axis prec emax lm o n p e f x y). Qed.
(** A ray against it is decided as in exact arithmetic. *)
Theorem C120_ray_plane (p d o n : vec) e f (x y : shape F) : (9 < prec)%Z -> moderate (p : mat3x1 bf) -> good_normal (d : mat3x1 bf) -> moderate (o : mat3x1 bf) -> good_normal (n : mat3x1 bf) -> axial (v3 n) ->
  vdot (v3 n) (v3 d) = 0 \/ bpow radix2 (2 - emax) * norm (v3 n) * norm (v3 d) <= Rabs (vdot (v3 n) (v3 d)) -> mk_ray p d e x -> mk_plane o n f y ->
  (vdot (v3 n) (v3 d) < 0 -> (meets (s_ray (v3 p) (v3 d)) (s_plane (v3 o) (v3 n)) -> exists z, shape_get_intersect x y = Ok (true, Some z)) /\ (~ meets (s_ray (v3 p) (v3 d)) (s_plane (v3 o) (v3 n)) -> shape_get_intersect x y = Ok (false, None))) /\
  (vdot (v3 n) (v3 d) = 0 -> (s_plane (v3 o) (v3 n) (v3 p) -> shape_get_intersect x y = Ok (true, Some p)) /\ (~ s_plane (v3 o) (v3 n) (v3 p) -> shape_get_intersect x y = Ok (false, None))) /\
  (0 < vdot (v3 n) (v3 d) -> shape_get_intersect x y = Ok (false, None)).
Proof. exact (ray_plane_axis prec emax lm p d o n e f x y). Qed.
End Axis.
Print Assumptions C120_lengths.
Print Assumptions C120_quaternions.
Print Assumptions C120_sphere_plane.
Print Assumptions C120_plane_point.
Print Assumptions C120_ray_plane.

(** ---- cases in binary64 ---- *)
Section Case.
  Variable lm : libm f64.
  Notation F := (F64 lm).
  Notation i z := (nlit F z 1).
  Lemma a_val z : (Z.abs z < 512)%Z -> is_finite (i z : f64) = true /\ B2R (i z : f64) = IZR z.
  Proof. apply (lit_z 53 1024 lm). reflexivity. Qed.
  Lemma a_pt x y z : (Z.abs x < 512)%Z -> (Z.abs y < 512)%Z -> (Z.abs z < 512)%Z -> fin3 (z3 F x y z : mat3x1 f64) /\ v3 (z3 F x y z : mat3x1 f64) = V (IZR x) (IZR y) (IZR z).
  Proof. apply (z3_ok 53 1024 lm). reflexivity. Qed.
  Lemma big509 : 512 <= bpow radix2 509. Proof. change 512 with (bpow radix2 9). apply bpow_le. lia. Qed.
  Lemma small1022 : bpow radix2 (-1022) <= 1. Proof. change 1 with (bpow radix2 0). apply bpow_le. lia. Qed.
  (** any f64 x in the middle of the range, not only a literal: the vector (0, x, 0) *)
  Example C120_lengths_case (x : f64) : is_finite x = true -> 1 <= B2R x <= 512 -> forall y0 : f64, exactly y0 0 ->
    exists m v, vec_magnitude (k := K3x1) (M3x1 (A3 y0 x y0) : vcar F K3x1) = Some m /\ B2R (m : f64) = B2R x /\ vec_normalize (k := K3x1) (M3x1 (A3 y0 x y0) : vcar F K3x1) = Ok (Some v) /\ lone 1 (vcomps v : list f64).
  Proof.
    intros Fx [X1 X2] y0 Z0. assert (L : lone (B2R x) ([y0; x; y0] : list f64)) by (exists [y0], x, [y0]; repeat split; auto).
    destruct (@C120_lengths 53 1024 f64_prec_gt_0 f64_prec_lt_emax lm K3x1 (M3x1 (A3 y0 x y0)) (B2R x) L) as [(m & M1 & M2) (v & V1 & V2)].
    - rewrite Rabs_pos_eq by lra. change (1024 / 2 - 3)%Z with 509%Z. pose proof big509. lra.
    - change (2 - 1024)%Z with (-1022)%Z. pose proof small1022. nra.
    - rewrite Rabs_pos_eq in M2, V2 by lra. exists m, v. split; [exact M1 |]. split; [apply M2 |]. split; [exact V1 |]. replace (B2R x / B2R x) with 1 in V2 by (field; lra). exact V2.
  Qed.
  (** from (1, 1, 7) along (1, 2, -3) onto the plane through the origin with normal (0, 0, 5), and away from it *)
  Example C120_ray_plane_case e f x w y : mk_ray (z3 F 1 1 7) (z3 F 1 2 (-3)) e x -> mk_ray (z3 F 1 1 7) (z3 F 1 2 3) e w -> mk_plane (z3 F 0 0 0) (z3 F 0 0 5) f y ->
    (exists z, shape_get_intersect x y = Ok (true, Some z)) /\ shape_get_intersect w y = Ok (false, None).
  Proof.
    intros Mx Mw My.
    destruct (a_pt 1 1 7) as [P1 P2]; [reflexivity .. |]. destruct (a_pt 1 2 (-3)) as [D1 D2]; [reflexivity .. |]. destruct (a_pt 1 2 3) as [E1 E2]; [reflexivity .. |]. destruct (a_pt 0 0 0) as [O1 O2]; [reflexivity .. |]. destruct (a_pt 0 0 5) as [N1 N2]; [reflexivity .. |].
    assert (B := big509). assert (S := small1022).
    assert (Mod : forall v : mat3x1 f64, fin3 v -> Rabs (vx (v3 v)) <= 512 -> Rabs (vy (v3 v)) <= 512 -> Rabs (vz (v3 v)) <= 512 -> moderate v).
    { intros [[v0 v1 v2]] V1 V2 V3 V4. cbn [v3 vx vy vz] in *. split; [exact V1 |]. cbv zeta. change (1024 / 2 - 3)%Z with 509%Z. repeat split; lra. }
    assert (Md : forall v, v3 v = V 1 2 (-3) \/ v3 v = V 1 2 3 -> fin3 v -> good_normal (v : mat3x1 f64)).
    { intros v W V1. assert (S' : bpow radix2 (6 - 1024) <= 1) by (change 1 with (bpow radix2 0); apply bpow_le; lia).
      split; [apply Mod; [exact V1 | ..]; destruct W as [W | W]; rewrite W; cbn [vx vy vz]; apply Rabs_le; lra |]. destruct W as [W | W]; rewrite W; unfold vdot; cbn [vx vy vz]; lra. }
    assert (Mp : moderate (z3 F 1 1 7 : mat3x1 f64)) by (apply Mod; [exact P1 | ..]; rewrite P2; cbn [vx vy vz]; apply Rabs_le; lra).
    assert (Mo : moderate (z3 F 0 0 0 : mat3x1 f64)) by (apply Mod; [exact O1 | ..]; rewrite O2; cbn [vx vy vz]; apply Rabs_le; lra).
    assert (Gn : good_normal (z3 F 0 0 5 : mat3x1 f64)).
    { split; [apply Mod; [exact N1 | ..]; rewrite N2; cbn [vx vy vz]; apply Rabs_le; lra |]. rewrite N2. assert (S' : bpow radix2 (6 - 1024) <= 1) by (change 1 with (bpow radix2 0); apply bpow_le; lia). unfold vdot; cbn [vx vy vz]. lra. }
    assert (An : axial (v3 (z3 F 0 0 5 : mat3x1 f64))) by (rewrite N2; split; [intro H; apply (f_equal vz) in H; cbn in H; lra | cbn; tauto]).
    assert (L5 : norm (V 0 0 5) = 5) by (unfold norm, vdot; cbn [vx vy vz]; replace (0 * 0 + 0 * 0 + 5 * 5) with (5 * 5) by ring; apply sqrt_square; lra).
    assert (L4 : forall t, t * t = 9 -> 0 <= norm (V 1 2 t) <= 4).
    { intros t T. unfold norm, vdot. cbn [vx vy vz]. split; [apply sqrt_pos |]. rewrite <- (sqrt_square 4) by lra. apply sqrt_le_1_alt. lra. }
    assert (Big : forall t, t * t = 9 -> bpow radix2 (2 - 1024) * norm (V 0 0 5) * norm (V 1 2 t) <= 15).
    { intros t T. rewrite L5. pose proof (L4 t T). assert (S' : bpow radix2 (2 - 1024) <= bpow radix2 (-2)) by (apply bpow_le; lia). change (bpow radix2 (-2)) with (/ 4) in S'. pose proof (bpow_gt_0 radix2 (2 - 1024)). nra. }
    split.
    - destruct (@C120_ray_plane 53 1024 f64_prec_gt_0 f64_prec_lt_emax lm (z3 F 1 1 7) (z3 F 1 2 (-3)) (z3 F 0 0 0) (z3 F 0 0 5) e f x y) as [H _]; try assumption; [reflexivity | apply Md; [left; exact D2 | exact D1] | | ].
      + right. rewrite N2, D2. eapply Rle_trans; [apply Big; ring |]. unfold vdot. cbn [vx vy vz]. rewrite Rabs_left; lra.
      + rewrite P2, D2, O2, N2 in H. apply H; [unfold vdot; cbn [vx vy vz]; lra |]. exists (V (1 + 7 / 3) (1 + 14 / 3) 0). split.
        * exists (7 / 3). split; [lra |]. apply V3_eq; cbn; lra.
        * unfold s_plane, vdot, vsub. cbn [vx vy vz]. lra.
    - destruct (@C120_ray_plane 53 1024 f64_prec_gt_0 f64_prec_lt_emax lm (z3 F 1 1 7) (z3 F 1 2 3) (z3 F 0 0 0) (z3 F 0 0 5) e f w y) as [_ [_ H]]; try assumption; [reflexivity | apply Md; [right; exact E2 | exact E1] | | ].
      + right. rewrite N2, E2. eapply Rle_trans; [apply Big; ring |]. unfold vdot. cbn [vx vy vz]. rewrite Rabs_pos_eq; lra.
      + apply H. rewrite E2, N2. unfold vdot. cbn [vx vy vz]. lra.
  Qed.
End Case.
