(** PropertiesIntQ.v — C119: intersection queries on fixed-point data are decided as in exact arithmetic. *)
From Coq Require Import Reals List ZArith NArith Bool Lra Lia.
From Flocq Require Import Core BinarySingleNaN.
Import ListNotations.
From Verif Require Import Base Num Vec Mat Shape Intersect Float FloatFacts SpecMat SpecGeom SpecBuild SpecInt ExactFacts PBuild PGeo1 PGeo3 PPrismF PInt PInt2 PSqr PIntQ PIntQ2 PIntP.
Local Open Scope R_scope.

Section IntQ.
Context (prec emax : Z) {Hp : Prec_gt_0 prec} {Hm : Prec_lt_emax prec emax} (lm : libm (binary_float prec emax)).
Notation bf := (binary_float prec emax).
Notation val := (@B2R prec emax).
Notation F := (@Ieee prec emax Hp Hm lm).
Notation full := (bpow radix2 prec).
Notation room := (room prec emax).
Notation v3 v := (v3 (v : mat3x1 bf)).
Notation vec := (mat3x1 F).
(** Two spheres whose centres and radii are multiples of 2^s up to K 2^s: touching spheres hit, and spheres apart by any gap do not. *)
Theorem C119_spheres (a b : vec) (r q : F) e f (x y : shape F) s K : room s -> room (s + s) -> 1 <= K -> 12 * (K * K) <= full ->
  fix3 s K (a : mat3x1 bf) -> fix3 s K (b : mat3x1 bf) -> fixed s K (r : bf) -> fixed s K (q : bf) -> 0 <= val r -> 0 <= val q -> mk_sphere a r e x -> mk_sphere b q f y ->
  (meets (s_ball (v3 a) (val r)) (s_ball (v3 b) (val q)) -> exists p, shape_get_intersect x y = Ok (true, Some p)) /\
  (~ meets (s_ball (v3 a) (val r)) (s_ball (v3 b) (val q)) -> shape_get_intersect x y = Ok (false, None)).
Proof. exact (balls_int prec emax lm a b r q e f x y s K). Qed.
(** A cube and a point; a sphere and a point, where the code tests the cube (C44). *)
Theorem C119_box_point (c p : vec) (h : F) e f (x y : shape F) s K : room s -> 2 * K <= full -> fix3 s K (c : mat3x1 bf) -> fix3 s K (p : mat3x1 bf) -> fixed s K (h : bf) -> mk_box c h e x -> mk_point p f y ->
  (s_cube (v3 c) (val h) (v3 p) -> shape_get_intersect x y = Ok (true, Some p)) /\ (~ s_cube (v3 c) (val h) (v3 p) -> shape_get_intersect x y = Ok (false, None)).
Proof. exact (box_int prec emax lm c p h e f x y s K). Qed.
Theorem C119_sphere_point (c p : vec) (r : F) e f (x y : shape F) s K : room s -> 2 * K <= full -> fix3 s K (c : mat3x1 bf) -> fix3 s K (p : mat3x1 bf) -> fixed s K (r : bf) -> mk_sphere c r e x -> mk_point p f y ->
  (s_cube (v3 c) (val r) (v3 p) -> shape_get_intersect x y = Ok (true, Some p)) /\ (~ s_cube (v3 c) (val r) (v3 p) -> shape_get_intersect x y = Ok (false, None)).
Proof. exact (ball_point_int prec emax lm c p r e f x y s K). Qed.
(** A plane perpendicular to an axis, its normal of any moderate length: against a point with tolerance f, and against a sphere. *)
Theorem C119_plane_point (o n p : vec) (f : F) g (x y : shape F) s K : (9 < prec)%Z -> room s -> 1 <= K -> 7 * K <= full -> fix3 s K (o : mat3x1 bf) -> good_normal (n : mat3x1 bf) -> axial (v3 n) -> fix3 s K (p : mat3x1 bf) ->
  is_finite (f : bf) = true -> mk_plane o n f y -> mk_point p g x ->
  let d := vdot (s_unit (v3 n)) (vsub (v3 p) (v3 o)) in
  (Rabs d <= Rabs (val f) -> shape_get_intersect y x = Ok (true, Some p)) /\ (Rabs (val f) < Rabs d -> shape_get_intersect y x = Ok (false, None)).
Proof. intros P R K1 KB Fo Gn An Fp Ff My Mx. exact (plane_point_int prec emax lm o n s K f y P R K1 KB Fo Gn An My p g x Ff Fp Mx). Qed.
Theorem C119_sphere_plane (c o n : vec) (r f : F) g (x y : shape F) s K : room s -> 1 <= K -> 7 * K <= full -> fix3 s K (o : mat3x1 bf) -> good_normal (n : mat3x1 bf) -> axial (v3 n) -> fix3 s K (c : mat3x1 bf) ->
  is_finite (r : bf) = true -> mk_sphere c r g x -> mk_plane o n f y ->
  let d := vdot (s_unit (v3 n)) (vsub (v3 c) (v3 o)) in
  (d <= val r -> exists p, shape_get_intersect x y = Ok (true, Some p)) /\ (val r < d -> shape_get_intersect x y = Ok (false, None)).
Proof. intros R K1 KB Fo Gn An Fc Fr Mx My. exact (sphere_plane_int prec emax lm o n s K f y R K1 KB Fo Gn An My c r g x Fc Fr Mx). Qed.
(** A ray in any direction on a grid against such a plane (facing, parallel, receding), and a ray along an axis against a sphere. *)
Theorem C119_ray_plane (p d o n : vec) s t K L e f (x y : shape F) : (9 < prec)%Z -> room s -> room (s + s) -> room t -> room (t + t) -> 1 <= K -> 7 * K <= full -> 1 <= L -> 3 * (L * L) <= full ->
  fix3 s K (p : mat3x1 bf) -> fix3 t L (d : mat3x1 bf) -> fix3 s K (o : mat3x1 bf) -> good_normal (n : mat3x1 bf) -> axial (v3 n) -> v3 d <> vzero -> mk_ray p d e x -> mk_plane o n f y ->
  (vdot (v3 n) (v3 d) < 0 -> (meets (s_ray (v3 p) (v3 d)) (s_plane (v3 o) (v3 n)) -> exists z, shape_get_intersect x y = Ok (true, Some z)) /\ (~ meets (s_ray (v3 p) (v3 d)) (s_plane (v3 o) (v3 n)) -> shape_get_intersect x y = Ok (false, None))) /\
  (vdot (v3 n) (v3 d) = 0 -> (s_plane (v3 o) (v3 n) (v3 p) -> shape_get_intersect x y = Ok (true, Some p)) /\ (~ s_plane (v3 o) (v3 n) (v3 p) -> shape_get_intersect x y = Ok (false, None))) /\
  (0 < vdot (v3 n) (v3 d) -> shape_get_intersect x y = Ok (false, None)).
Proof. exact (ray_plane_int prec emax lm p d o n s t K L e f x y). Qed.
Theorem C119_ray_sphere (p d c : vec) (r : F) s K e f (x y : shape F) : room s -> room (s + s) -> 1 <= K -> 49 * (K * K) <= full ->
  fix3 s K (p : mat3x1 bf) -> good_normal (d : mat3x1 bf) -> axial (v3 d) -> fix3 s K (c : mat3x1 bf) -> fixed s K (r : bf) -> 0 <= val r -> mk_ray p d e x -> mk_sphere c r f y ->
  (meets (s_ray (v3 p) (v3 d)) (s_surface (v3 c) (val r)) -> exists z, shape_get_intersect x y = Ok (true, Some z)) /\
  (~ meets (s_ray (v3 p) (v3 d)) (s_surface (v3 c) (val r)) -> shape_get_intersect x y = Ok (false, None)).
Proof. exact (ray_sphere_int prec emax lm p d c r s K e f x y). Qed.
(** A prism over a triangle perpendicular to an axis against a point: vertices, edges and faces included.  For a negative height the
    code reports no point at all (C56). *)
Theorem C119_prism_point (a b c p : vec) (h : F) s K e f (x y : shape F) : (6 - emax <= 4 * s)%Z -> (2 * s + prec <= emax / 2 - 3)%Z -> 1 <= K -> 24 * (K * K * K) <= full ->
  fix3 s K (a : mat3x1 bf) -> fix3 s K (b : mat3x1 bf) -> fix3 s K (c : mat3x1 bf) -> fixed s K (h : bf) -> fix3 s K (p : mat3x1 bf) ->
  axial (vcross (vsub (v3 b) (v3 a)) (vsub (v3 c) (v3 a))) -> mk_prism a b c h e x -> mk_point p f y ->
  (0 < val h -> (s_prism (v3 a) (v3 b) (v3 c) (val h) (v3 p) -> shape_get_intersect x y = Ok (true, Some p)) /\ (~ s_prism (v3 a) (v3 b) (v3 c) (val h) (v3 p) -> shape_get_intersect x y = Ok (false, None))) /\
  (val h < 0 -> shape_get_intersect x y = Ok (false, None)).
Proof. intros S1 S2 K1 KB Fa Fb Fc Fh Fp Ax. exact (prism_point_int prec emax lm a b c p h s K S1 S2 K1 KB Fa Fb Fc Fh Fp Ax e f x y). Qed.
End IntQ.
Print Assumptions C119_spheres.
Print Assumptions C119_box_point.
Print Assumptions C119_sphere_point.
Print Assumptions C119_plane_point.
Print Assumptions C119_sphere_plane.
Print Assumptions C119_ray_plane.
Print Assumptions C119_ray_sphere.
Print Assumptions C119_prism_point.

(** ---- cases in binary64: small integers ---- *)
Section Case.
  Variable lm : libm f64.
  Notation F := (F64 lm).
  Notation i z := (nlit F z 1).
  Notation P x y z := (z3 F x y z).
  Lemma i_fix z : (Z.abs z <= 8)%Z -> fixed 0 8 (i z : f64).
  Proof. intro B. assert (H : is_finite (i z : f64) = true /\ B2R (i z : f64) = IZR z) by (apply (lit_z 53 1024 lm); lia). destruct H as [A V]. split; [exact A |]. exists z. cbn [bpow]. rewrite Rmult_1_r. split; [exact V |]. rewrite <- abs_IZR. apply IZR_le, B. Qed.
  Lemma p_fix x y z : (Z.abs x <= 8)%Z -> (Z.abs y <= 8)%Z -> (Z.abs z <= 8)%Z -> fix3 0 8 (P x y z : mat3x1 f64).
  Proof. intros X Y Z. split; [apply i_fix, X | split; [apply i_fix, Y | apply i_fix, Z]]. Qed.
  Lemma p_val x y z : (Z.abs x <= 8)%Z -> (Z.abs y <= 8)%Z -> (Z.abs z <= 8)%Z -> v3 (P x y z : mat3x1 f64) = V (IZR x) (IZR y) (IZR z).
  Proof. intros X Y Z. apply (z3_ok 53 1024 lm); lia. Qed.
  Lemma i_val z : (Z.abs z <= 8)%Z -> B2R (i z : f64) = IZR z.
  Proof. intro B. apply (lit_z 53 1024 lm); lia. Qed.
  Lemma full64 : bpow radix2 53 = 9007199254740992. Proof. cbn; lra. Qed.
  (** radii 2 and 3 at distance 5 touch; radii 2 and 2 do not *)
  Example C119_spheres_case e f x y z : mk_sphere (P 0 0 0) (i 2) e x -> mk_sphere (P 3 4 0) (i 3) f y -> mk_sphere (P 3 4 0) (i 2) f z ->
    (exists p, shape_get_intersect x y = Ok (true, Some p)) /\ shape_get_intersect x z = Ok (false, None).
  Proof.
    intros Mx My Mz. assert (R : room 53 1024 0) by (split; lia). assert (KB : 12 * (8 * 8) <= bpow radix2 53) by (rewrite full64; lra).
    assert (D5 : dist (V 3 4 0) (V 0 0 0) = 5). { unfold dist, norm, vdot, vsub. cbn [vx vy vz]. replace ((3 - 0) * (3 - 0) + (4 - 0) * (4 - 0) + (0 - 0) * (0 - 0)) with (5 * 5) by ring. apply sqrt_square. lra. }
    destruct (@C119_spheres 53 1024 f64_prec_gt_0 f64_prec_lt_emax lm _ _ _ _ _ _ _ _ 0 8 R R ltac:(lra) KB (p_fix 0 0 0 ltac:(lia) ltac:(lia) ltac:(lia)) (p_fix 3 4 0 ltac:(lia) ltac:(lia) ltac:(lia)) (i_fix 2 ltac:(lia)) (i_fix 3 ltac:(lia)) ltac:(rewrite i_val by lia; lra) ltac:(rewrite i_val by lia; lra) Mx My) as [H _].
    destruct (@C119_spheres 53 1024 f64_prec_gt_0 f64_prec_lt_emax lm _ _ _ _ _ _ _ _ 0 8 R R ltac:(lra) KB (p_fix 0 0 0 ltac:(lia) ltac:(lia) ltac:(lia)) (p_fix 3 4 0 ltac:(lia) ltac:(lia) ltac:(lia)) (i_fix 2 ltac:(lia)) (i_fix 2 ltac:(lia)) ltac:(rewrite i_val by lia; lra) ltac:(rewrite i_val by lia; lra) Mx Mz) as [_ G].
    rewrite !p_val, !i_val in * by lia. split; [apply H | apply G].
    - apply (balls_meet _ _ _ _); [lra | lra |]. rewrite D5. lra.
    - intro M. apply (balls_meet _ _ _ _) in M; [| lra | lra]. rewrite D5 in M. lra.
  Qed.
  (** the prism over (0,0,0), (4,0,0), (0,4,0) of height 3: an edge point of the top face is in it, (2,3,1) is not *)
  Lemma case_cross : vcross (vsub (V 4 0 0) (V 0 0 0)) (vsub (V 0 4 0) (V 0 0 0)) = V 0 0 16.
  Proof. apply V3_eq; cbn; ring. Qed.
  Example C119_prism_case e f x y z : mk_prism (P 0 0 0) (P 4 0 0) (P 0 4 0) (i 3) e x -> mk_point (P 1 3 3) f y -> mk_point (P 2 3 1) f z ->
    shape_get_intersect x y = Ok (true, Some (P 1 3 3)) /\ shape_get_intersect x z = Ok (false, None).
  Proof.
    intros Mx My Mz. assert (KB : 24 * (8 * 8 * 8) <= bpow radix2 53) by (rewrite full64; lra). assert (Ax : axial (vcross (vsub (v3 (P 4 0 0 : mat3x1 f64)) (v3 (P 0 0 0 : mat3x1 f64))) (vsub (v3 (P 0 4 0 : mat3x1 f64)) (v3 (P 0 0 0 : mat3x1 f64))))).
    { rewrite !p_val by lia. rewrite case_cross. split; [intro H; apply (f_equal vz) in H; cbn in H; lra | cbn; tauto]. }
    assert (TN : tri_normal (V 0 0 0) (V 4 0 0) (V 0 4 0) = V 0 0 1).
    { unfold tri_normal. rewrite case_cross. assert (N : norm (V 0 0 16) = 16) by (unfold norm, vdot; cbn [vx vy vz]; replace (0 * 0 + 0 * 0 + 16 * 16) with (16 * 16) by ring; apply sqrt_square; lra). rewrite N. apply V3_eq; cbn; lra. }
    destruct (@C119_prism_point 53 1024 f64_prec_gt_0 f64_prec_lt_emax lm _ _ _ (P 1 3 3) _ 0 8 e f x y ltac:(lia) ltac:(lia) ltac:(lra) KB (p_fix 0 0 0 ltac:(lia) ltac:(lia) ltac:(lia)) (p_fix 4 0 0 ltac:(lia) ltac:(lia) ltac:(lia)) (p_fix 0 4 0 ltac:(lia) ltac:(lia) ltac:(lia)) (i_fix 3 ltac:(lia)) (p_fix 1 3 3 ltac:(lia) ltac:(lia) ltac:(lia)) Ax Mx My) as [H _].
    destruct (@C119_prism_point 53 1024 f64_prec_gt_0 f64_prec_lt_emax lm _ _ _ (P 2 3 1) _ 0 8 e f x z ltac:(lia) ltac:(lia) ltac:(lra) KB (p_fix 0 0 0 ltac:(lia) ltac:(lia) ltac:(lia)) (p_fix 4 0 0 ltac:(lia) ltac:(lia) ltac:(lia)) (p_fix 0 4 0 ltac:(lia) ltac:(lia) ltac:(lia)) (i_fix 3 ltac:(lia)) (p_fix 2 3 1 ltac:(lia) ltac:(lia) ltac:(lia)) Ax Mx Mz) as [G _].
    rewrite !p_val, !i_val in * by lia. split; [apply H; [lra |] | apply G; [lra |]].
    - exists (V 1 3 0), 1. split; [| split; [lra |]].
      + exists (1 / 4), (3 / 4). split; [lra |]. split; [lra |]. split; [lra |]. apply V3_eq; cbn; lra.
      + rewrite TN. apply V3_eq; cbn; lra.
    - intros (w & k & (u & v & U & W & UW & ->) & _ & E). rewrite TN in E. pose proof (f_equal vx E) as E0. pose proof (f_equal vy E) as E1. cbn in E0, E1. lra.
  Qed.
End Case.
