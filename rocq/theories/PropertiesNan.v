(** PropertiesNan.v — the ray-ray query completely described (C91), queries on shapes with NaN data or zero directions
    (C92), directions whose square over- or underflows (C93), and nothing else.  u = 2^-prec, et = eta. *)
From Coq Require Import Reals List ZArith NArith Bool Lra Lia.
From Flocq Require Import Core BinarySingleNaN.
Import ListNotations.
From Verif Require Import Base Num Vec Mat Bound Shape Intersect Float Exact SpecMat SpecGeom SpecBound SpecShape SpecInter SpecBuild SpecRound SpecRays SpecNan
  FloatFacts ExactFacts Order PShape PInter PBuild PGeo1 PGeo2 PIeee1 PRays PNan PNan2 PropertiesGjk2.
Local Open Scope R_scope.

(** ---- C91: ray - ray, every case ---- *)
Section Rays.
Variable eps : R.
Variable zs : XR -> bool.
Notation E := (Exact eps zs).
Notation ev := (ev eps zs).
(** not near-parallel: a hit exactly when the orthants of the two rays have a common point; the location is at arc length
    (distance of [o] from the other line) / (sine of the angle), whether or not the rays come near each other *)
Theorem C91_skew o d e p g f a b : d <> vzero -> g <> vzero -> is_ray eps zs o d e a -> is_ray eps zs p g f b -> ~ near_parallel d g ->
  (meets (s_orthant o d) (s_orthant p g) -> shape_get_intersect a b = Ok (true, Some (ev (at_length o d (line_dist p g o / sine d g))))) /\
  (~ meets (s_orthant o d) (s_orthant p g) -> shape_get_intersect a b = Ok (false, None)).
Proof. intros Hd Hg Ha Hb Np. split; intro H; [exact (rr_skew eps zs o d p g e f a b Hd Hg Ha Hb H Np) | exact (rr_apart eps zs o d p g e f a b Hd Hg Ha Hb H)]. Qed.
(** the location is right exactly when the rays meet *)
Theorem C91_right o d e p g f a b l : d <> vzero -> g <> vzero -> is_ray eps zs o d e a -> is_ray eps zs p g f b -> ~ near_parallel d g ->
  shape_get_intersect a b = Ok (true, Some l) ->
  ((exists x, l = ev x /\ s_ray o d x /\ s_ray p g x) <-> meets (s_ray o d) (s_ray p g)).
Proof. intros Hd Hg Ha Hb. exact (rr_right eps zs o d p g e f a b Hd Hg Ha Hb l). Qed.
(** near-parallel: a hit exactly when the orthants meet and the second origin is within the first ray's vicinity of the first
    line; the location is the first origin if the second origin is behind it, else at arc length |p - o| *)
Theorem C91_near o d e p g f a b : d <> vzero -> g <> vzero -> is_ray eps zs o d e a -> is_ray eps zs p g f b -> near_parallel d g ->
  (meets (s_orthant o d) (s_orthant p g) -> line_dist o d p <= Rabs e ->
     (vdot d (vsub p o) < 0 -> shape_get_intersect a b = Ok (true, Some (ev o))) /\
     (0 <= vdot d (vsub p o) -> shape_get_intersect a b = Ok (true, Some (ev (at_length o d (dist p o)))))) /\
  (~ meets (s_orthant o d) (s_orthant p g) \/ Rabs e < line_dist o d p -> shape_get_intersect a b = Ok (false, None)).
Proof.
  intros Hd Hg Ha Hb Np. split.
  - intros M L. split; intro S; [exact (rr_near_behind eps zs o d p g e f a b Hd Hg Ha Hb M Np L S) | exact (rr_near_ahead eps zs o d p g e f a b Hd Hg Ha Hb M Np L S)].
  - intros [M | L]; [exact (rr_apart eps zs o d p g e f a b Hd Hg Ha Hb M) | exact (rr_near_far eps zs o d p g e f a b Hd Hg Ha Hb Np L)].
Qed.
(** the hypotheses can be met: two skew rays, one unit apart, with meeting orthants; two rays on one line *)
Example C91_skew_case : exists a b, is_ray eps zs (V 0 0 0) (V 1 0 0) 0 a /\ is_ray eps zs (V 1 1 1) (V 0 (-1) (-1)) 0 b /\
  ~ near_parallel (V 1 0 0) (V 0 (-1) (-1)) /\ meets (s_orthant (V 0 0 0) (V 1 0 0)) (s_orthant (V 1 1 1) (V 0 (-1) (-1))).
Proof.
  assert (N2 : 0 < norm (V 0 (-1) (-1))) by (unfold norm, vdot; cbn [vx vy vz]; apply sqrt_lt_R0; lra).
  assert (N1 : norm (V 1 0 0) = 1) by (apply norm_val; [lra |]; unfold vdot; simpl; ring).
  eexists. eexists. split; [apply is_ray_inv; [intro C; injection C; lra | reflexivity] |]. split; [apply is_ray_inv; [intro C; injection C; lra | reflexivity] |]. split.
  - unfold near_parallel. cbv zeta. rewrite N1. cbn [vx vy vz vscale vcross].
    assert (I : 1 / 2 <= / norm (V 0 (-1) (-1))).
    { replace (1 / 2) with (/ 2) by field. apply Rinv_le_contravar; [exact N2 |]. unfold norm, vdot. cbn [vx vy vz].
      replace 2 with (sqrt (Rsqr 2)) by (rewrite sqrt_Rsqr; lra). apply sqrt_le_1; unfold Rsqr; lra. }
    intros [_ [C _]]. apply Rabs_le_inv in C. lra.
  - exists (V 1 0 0). unfold s_orthant, reach. cbn [vx vy vz]. repeat split; intros; lra.
Qed.
Example C91_near_case : exists a b, is_ray eps zs (V 0 0 0) (V 1 0 0) 0 a /\ is_ray eps zs (V 2 0 0) (V 3 0 0) 0 b /\
  near_parallel (V 1 0 0) (V 3 0 0) /\ meets (s_orthant (V 0 0 0) (V 1 0 0)) (s_orthant (V 2 0 0) (V 3 0 0)) /\
  line_dist (V 0 0 0) (V 1 0 0) (V 2 0 0) <= Rabs 0 /\ 0 <= vdot (V 1 0 0) (vsub (V 2 0 0) (V 0 0 0)).
Proof.
  eexists. eexists. split; [apply is_ray_inv; [intro C; injection C; lra | reflexivity] |]. split; [apply is_ray_inv; [intro C; injection C; lra | reflexivity] |].
  split; [apply collinear_near; apply V3_eq; simpl; ring |]. split; [| split].
  - exists (V 2 0 0). unfold s_orthant, reach. cbn [vx vy vz]. repeat split; intros; lra.
  - unfold line_dist. rewrite Rabs_R0, (norm_val (vcross _ _) 0), (norm_val (V 1 0 0) 1); [lra | lra | unfold vdot; simpl; ring | lra | unfold vdot, vcross, vsub; simpl; ring].
  - unfold vdot, vsub. simpl. lra.
Qed.
End Rays.
Print Assumptions C91_skew.
Print Assumptions C91_right.
Print Assumptions C91_near.

(** ---- C92: NaN data, in exact arithmetic and in every IEEE format ---- *)
Section NanData.
Context {Nm : Num}.
Hypothesis H : library_arith Nm.
(** a point with a NaN coordinate misses points, planes and rays, in both orders *)
Theorem C92_point (p : mat3x1 Nm) e P : mk_point p e P -> some_nan p ->
  (forall q f Q, mk_point q f Q -> shape_get_intersect P Q = Ok (false, None) /\ shape_get_intersect Q P = Ok (false, None)) /\
  (forall o n f Q, mk_plane o n f Q -> shape_get_intersect P Q = Ok (false, None) /\ shape_get_intersect Q P = Ok (false, None)) /\
  (forall o d f Q, mk_ray o d f Q -> shape_get_intersect P Q = Ok (false, None) /\ shape_get_intersect Q P = Ok (false, None)).
Proof.
  intros HP Hn. destruct (laws Nm H) as [L [O _]]. split; [| split]; intros.
  - eapply (nan_point_point O L); eassumption.
  - eapply (nan_point_plane O L); eassumption.
  - eapply (nan_point_ray O L); eassumption.
Qed.
(** but a point with all coordinates NaN is inside every box, prism and sphere *)
Theorem C92_inside (p : mat3x1 Nm) e P : mk_point p e P -> all_nan p ->
  (forall c h f Q, mk_box c h f Q -> shape_get_intersect Q P = Ok (true, Some p)) /\
  (forall a b c h f Q, mk_prism a b c h f Q -> shape_get_intersect Q P = Ok (true, Some p)) /\
  (forall c r f Q, mk_sphere c r f Q -> shape_get_intersect Q P = Ok (true, Some p)).
Proof.
  intros HP Hn. destruct (laws Nm H) as [L [O _]]. split; [| split]; intros.
  - eapply (nan_all_box O); eassumption.
  - eapply (nan_all_prism O L); eassumption.
  - eapply (nan_all_sphere O L); eassumption.
Qed.
(** a sphere with radius NaN is hit by every point, plane, ray and sphere *)
Theorem C92_radius (c : mat3x1 Nm) r e S : mk_sphere c r e S -> nisnan r = true ->
  (forall p f Q, mk_point p f Q -> shape_get_intersect Q S = Ok (true, Some p)) /\
  (forall o n f Q, mk_plane o n f Q -> exists x, shape_get_intersect Q S = Ok (true, Some x)) /\
  (forall o d f Q, mk_ray o d f Q -> exists x, shape_get_intersect Q S = Ok (true, Some x) /\ all_nan x) /\
  (forall q s f Q, mk_sphere q s f Q ->
     (exists x, shape_get_intersect Q S = Ok (true, Some x) /\ all_nan x) /\ exists x, shape_get_intersect S Q = Ok (true, Some x) /\ all_nan x).
Proof.
  intros HS Hr. destruct (laws Nm H) as [L [O _]]. split; [| split; [| split]]; intros.
  - eapply (nan_radius_point O L); eassumption.
  - eapply (nan_radius_plane O L); eassumption.
  - eapply (nan_radius_ray O L); eassumption.
  - eapply (nan_radius_sphere O L); eassumption.
Qed.
(** the stored direction of a ray or plane built with the zero vector is NaN *)
Theorem C92_zero (d u : mat3x1 Nm) : zero3 d -> unit_of d u -> all_nan u.
Proof. destruct (laws Nm H) as [L _]. exact (zero_unit L d u). Qed.
(** a ray whose stored direction has a NaN entry misses points and rays, hits every plane at NaN, and hits a sphere at NaN
    exactly when the bounds overlap *)
Theorem C92_ray (o d u : mat3x1 Nm) e R : mk_ray o d e R -> unit_of d u -> some_nan u ->
  (forall p f Q, mk_point p f Q -> shape_get_intersect R Q = Ok (false, None)) /\
  (forall p g f Q, mk_ray p g f Q -> shape_get_intersect R Q = Ok (false, None) /\ shape_get_intersect Q R = Ok (false, None)) /\
  (forall q n f Q, mk_plane q n f Q -> exists x, shape_get_intersect R Q = Ok (true, Some x) /\ all_nan x) /\
  (forall c r f Q, mk_sphere c r f Q ->
     (ibound_intersect (shape_get_bound R) (shape_get_bound Q) = Ok true -> exists x, shape_get_intersect R Q = Ok (true, Some x) /\ all_nan x) /\
     (ibound_intersect (shape_get_bound R) (shape_get_bound Q) = Ok false -> shape_get_intersect R Q = Ok (false, None))).
Proof.
  intros HR Hu Hn. destruct (laws Nm H) as [L [O _]]. split; [| split; [| split]]; intros.
  - eapply (nan_ray_point O L); eassumption.
  - eapply (nan_ray_ray O L); eassumption.
  - eapply (nan_ray_plane O L); eassumption.
  - destruct (nan_ray_sphere O L o d u e R HR Hu Hn c r f Q) as [A B]; [assumption |]. unfold overlap in A, B.
    split; intro X; rewrite X in A, B; [apply A | apply B]; reflexivity.
Qed.
(** a plane whose stored normal has a NaN entry misses points, and hits every sphere and ray at NaN *)
Theorem C92_plane (o n u : mat3x1 Nm) e P : mk_plane o n e P -> unit_of n u -> some_nan u ->
  (forall p f Q, mk_point p f Q -> shape_get_intersect P Q = Ok (false, None)) /\
  (forall c r f Q, mk_sphere c r f Q -> exists x, shape_get_intersect P Q = Ok (true, Some x) /\ all_nan x) /\
  (forall p d f Q, mk_ray p d f Q -> exists x, shape_get_intersect P Q = Ok (true, Some x) /\ all_nan x).
Proof.
  intros HP Hu Hn. destruct (laws Nm H) as [L [O _]]. split; [| split]; intros.
  - eapply (nan_plane_point O L); eassumption.
  - eapply (nan_plane_sphere O L); eassumption.
  - eapply (nan_plane_ray O L); eassumption.
Qed.
End NanData.
Print Assumptions C92_point.
Print Assumptions C92_inside.
Print Assumptions C92_radius.
Print Assumptions C92_zero.
Print Assumptions C92_ray.
Print Assumptions C92_plane.
(** the hypotheses can be met, in f64: the zero ray, the zero plane, a NaN point and a NaN radius all exist *)
Section NanCase.
  Variable lm : libm f64.
  Notation F := (F64 lm).
  Definition fnan : F := ndiv F n0 n0.
  Definition z3 : mat3x1 F := M3x1 (A3 n0 n0 n0).
  Definition nan3 : mat3x1 F := M3x1 (A3 fnan fnan fnan).
  Definition one_nan : mat3x1 F := M3x1 (A3 n1 fnan n1).
  Example C92_case e : library_arith F /\ zero3 z3 /\ unit_of z3 nan3 /\ some_nan one_nan /\ all_nan nan3 /\ nisnan fnan = true /\
    (exists P, mk_point one_nan e P) /\ (exists R, mk_ray z3 z3 e R) /\ (exists P, mk_plane z3 z3 e P) /\ (exists S, mk_sphere z3 fnan e S).
  Proof.
    split; [apply la_ieee |]. split; [repeat split; vm_compute; reflexivity |]. split; [vm_compute; reflexivity |].
    split; [right; left; vm_compute; reflexivity |]. split; [repeat split; vm_compute; reflexivity |]. split; [vm_compute; reflexivity |].
    split; [eexists; apply point_any; reflexivity |]. split; [eexists; apply ray_any_eq; reflexivity |].
    split; [eexists; apply plane_any; reflexivity | eexists; apply sphere_any; reflexivity].
  Qed.
End NanCase.

(** ---- C93: directions whose square over- or underflows, IEEE arithmetic ---- *)
Section Extreme.
Context (prec emax : Z) {Hp : Prec_gt_0 prec} {Hm : Prec_lt_emax prec emax} (lm : libm (binary_float prec emax)).
Notation bf := (binary_float prec emax).
Notation F := (@Ieee prec emax Hp Hm lm).
Notation val := (@B2R prec emax).
Notation w3 v := (v3 (v : mat3x1 bf)).
(** overflow: the stored direction is zero *)
Theorem C93_direction (d w : mat3x1 F) : fin3 (d : mat3x1 bf) -> square_overflows (d : mat3x1 bf) -> unit_of d w -> fin3 (w : mat3x1 bf) /\ w3 w = vzero.
Proof.
  intros Hf Ho Hw. rewrite (unit_nrm _ _ Hw). destruct (huge_nrm prec emax lm d Hf Ho) as [s [t [r ->]]]. split; [repeat split | reflexivity].
Qed.
(** then the ray misses every plane its origin is not on, by a margin, whatever the direction; otherwise its origin is the answer *)
Theorem C93_plane (o d p n : mat3x1 F) e f a b : (9 < prec)%Z -> moderate (o : mat3x1 bf) -> fin3 (d : mat3x1 bf) -> square_overflows (d : mat3x1 bf) ->
  moderate (p : mat3x1 bf) -> good_normal (n : mat3x1 bf) -> mk_ray o d e a -> mk_plane p n f b ->
  (shape_get_intersect a b = Ok (true, Some o) \/ shape_get_intersect a b = Ok (false, None)) /\
  (13 * uro prec * (norm (w3 p) + norm (w3 o)) + 9 * eta prec emax < Rabs (vdot (s_unit (w3 n)) (vsub (w3 o) (w3 p))) ->
   shape_get_intersect a b = Ok (false, None)).
Proof.
  intros P Mo Fd Hd Mp Gn Ka Kb. split; [exact (huge_plane_cases prec emax lm o d p n e f a b P Mo Fd Hd Mp Gn Ka Kb) | exact (huge_plane_miss prec emax lm o d p n e f a b P Mo Fd Hd Mp Gn Ka Kb)].
Qed.
(** and misses every sphere its origin is outside of, by a margin; otherwise its origin is the answer *)
Theorem C93_sphere (o d c : mat3x1 F) (r e f : F) a b : (9 < prec)%Z -> moderate (o : mat3x1 bf) -> fin3 (d : mat3x1 bf) -> square_overflows (d : mat3x1 bf) ->
  moderate (c : mat3x1 bf) -> is_finite (r : bf) = true -> 0 <= val r <= bpow radix2 (emax / 2 - 3) -> mk_ray o d e a -> mk_sphere c r f b ->
  (shape_get_intersect a b = Ok (false, None) \/ exists p, shape_get_intersect a b = Ok (true, Some p) /\ fin3 (p : mat3x1 bf) /\ w3 p = w3 o) /\
  (let D := dist (w3 o) (w3 c) in 7 * uro prec * (D * D + val r * val r) + 6 * eta prec emax < D * D - val r * val r ->
   shape_get_intersect a b = Ok (false, None)).
Proof.
  intros P Mo Fd Hd Mc Fr Lr Ka Kb. split; [exact (huge_sphere_cases prec emax lm o d c r e f a b P Mo Fd Hd Mc Fr Lr Ka Kb) | exact (huge_sphere_miss prec emax lm o d c r e f a b P Mo Fd Hd Mc Fr Lr Ka Kb)].
Qed.
(** underflow: NaN where the direction has a zero entry (so C92 applies), infinite entries otherwise *)
Theorem C93_tiny (x y z : F) (w : mat3x1 F) : fin3 (M3x1 (A3 x y z) : mat3x1 bf) -> square_underflows (M3x1 (A3 x y z) : mat3x1 bf) ->
  unit_of (M3x1 (A3 x y z)) w -> (val x = 0 \/ val y = 0 \/ val z = 0 -> some_nan w) /\
  (val x <> 0 -> val y <> 0 -> val z <> 0 -> match w with M3x1 (A3 a b c) =>
     (is_finite (a : bf) = false /\ nisnan a = false) /\ (is_finite (b : bf) = false /\ nisnan b = false) /\ (is_finite (c : bf) = false /\ nisnan c = false) end).
Proof. exact (tiny_unit prec emax lm x y z w). Qed.
End Extreme.
Print Assumptions C93_direction.
Print Assumptions C93_plane.
Print Assumptions C93_sphere.
Print Assumptions C93_tiny.

(** the hypotheses can be met: a ray from (0,-4,0) along (0,2^512,0) goes through the unit ball at the origin and is reported
    to miss it; the same ray and the plane y = 0; a direction (0,2^-600,0) *)
Section ExtremeCase.
  Variable lm : libm f64.
  Notation F := (F64 lm).
  Notation val := (@B2R 53 1024).
  Definition xo : mat3x1 F := M3x1 (A3 n0 (nlit F (-4) 1) n0).
  Definition xd : mat3x1 F := M3x1 (A3 n0 (nlit F (2 ^ 512) 1) n0).
  Definition xn : mat3x1 F := M3x1 (A3 n0 n1 n0).
  Definition xt : F := nlit F 1 (2 ^ 600).
  Definition xa (e : F) : shape F := SRay (MkRay xo (nrm xd) (ray_any xo xd) (nabs F e)).
  Definition xb (e : F) : shape F := SSphere (MkSphere (z3 lm) n1 (cube_any (z3 lm) n1) (nabs F e)).
  Definition xp (e : F) : shape F := SPlane (MkPlane (z3 lm) (nrm xn) whole_any (nabs F e)).
  Lemma v0 : val (@n0 F : f64) = 0. Proof. exact (proj2 (fv_lit_0 53 1024)). Qed.
  Lemma v1 : val (@n1 F : f64) = 1. Proof. exact (proj2 (fv_lit_1 53 1024)). Qed.
  Lemma vm4 : val (nlit F (-4) 1 : f64) = -4.
  Proof. rewrite (PropertiesGjk2.lit_val2 lm (-4) 1 true 4503599627370496 (-50) eq_refl) by (vm_compute; reflexivity). unfold F2R. simpl. lra. Qed.
  Lemma vxd : val (nlit F (2 ^ 512) 1 : f64) = bpow radix2 512.
  Proof. apply (v_p lm _ 4503599627370496 460 eq_refl); [vm_compute; reflexivity | vm_compute; reflexivity | lia]. Qed.
  Lemma v_o : v3 (xo : mat3x1 f64) = V 0 (-4) 0. Proof. unfold v3, xo. rewrite v0, vm4. reflexivity. Qed.
  Lemma v_d : v3 (xd : mat3x1 f64) = V 0 (bpow radix2 512) 0. Proof. unfold v3, xd. rewrite v0, vxd. reflexivity. Qed.
  Lemma v_n : v3 (xn : mat3x1 f64) = V 0 1 0. Proof. unfold v3, xn. rewrite v0, v1. reflexivity. Qed.
  Lemma v_z : v3 (z3 lm : mat3x1 f64) = V 0 0 0. Proof. unfold v3, z3. rewrite v0. reflexivity. Qed.
  Lemma xmods : moderate (xo : mat3x1 f64) /\ fin3 (xd : mat3x1 f64) /\ square_overflows (xd : mat3x1 f64) /\ moderate (z3 lm : mat3x1 f64) /\ good_normal (xn : mat3x1 f64).
  Proof.
    assert (L : 4 <= bpow radix2 (1024 / 2 - 3)) by (change 4 with (bpow radix2 2); apply bpow_le; vm_compute; discriminate).
    assert (A0 : Rabs (val (@n0 F : f64)) <= bpow radix2 (1024 / 2 - 3)) by (rewrite v0, Rabs_R0; lra).
    assert (A4 : Rabs (val (nlit F (-4) 1 : f64)) <= bpow radix2 (1024 / 2 - 3)) by (rewrite vm4, Rabs_left; lra).
    assert (A1 : Rabs (val (@n1 F : f64)) <= bpow radix2 (1024 / 2 - 3)) by (rewrite v1, Rabs_pos_eq; lra).
    split; [split; [repeat split; vm_compute; reflexivity | split; [exact A0 | split; [exact A4 | exact A0]]] |].
    split; [repeat split; vm_compute; reflexivity |].
    split; [right; left; rewrite vxd, <- bpow_plus; apply bpow_le; lia |].
    split; [split; [repeat split; vm_compute; reflexivity | split; [exact A0 | split; [exact A0 | exact A0]]] |].
    split; [split; [repeat split; vm_compute; reflexivity | split; [exact A0 | split; [exact A1 | exact A0]]] |].
    rewrite v_n. unfold vdot. cbn [vx vy vz]. assert (bpow radix2 (6 - 1024) <= 1) by (change 1 with (bpow radix2 0); apply bpow_le; lia). lra.
  Qed.
  Lemma small_ue : 0 < uro 53 <= / 1048576 /\ 0 < eta 53 1024 <= / 1048576.
  Proof. split; (split; [apply bpow_gt_0 | change (/ 1048576) with (bpow radix2 (-20)); apply bpow_le; lia]). Qed.
  Example C93_sphere_case e f : mk_ray xo xd e (xa e) /\ mk_sphere (z3 lm) n1 f (xb f) /\
    meets (s_ray (v3 (xo : mat3x1 f64)) (v3 (xd : mat3x1 f64))) (s_ball (v3 (z3 lm : mat3x1 f64)) (val (@n1 F : f64))) /\
    shape_get_intersect (xa e) (xb f) = Ok (false, None).
  Proof.
    destruct xmods as (M1 & M2 & M3 & M4 & M5). assert (Ka : mk_ray xo xd e (xa e)) by (apply ray_any_eq; reflexivity).
    assert (Kb : mk_sphere (z3 lm) n1 f (xb f)) by (apply sphere_any; reflexivity). split; [exact Ka |]. split; [exact Kb |].
    assert (B : 0 < bpow radix2 512) by apply bpow_gt_0. split.
    - rewrite v_o, v_d, v_z, v1. exists (V 0 0 0). split.
      + exists (4 / bpow radix2 512). split; [apply Rlt_le, Rdiv_lt_0_compat; lra |]. apply V3_eq; unfold vadd, vscale; cbn [vx vy vz]; field; lra.
      + unfold s_ball, dist. rewrite (norm_val _ 0); [lra | lra | unfold vdot, vsub; simpl; ring].
    - assert (Lr : 0 <= val (@n1 F : f64) <= bpow radix2 (1024 / 2 - 3)).
      { rewrite v1. split; [lra | change 1 with (bpow radix2 0); apply bpow_le; vm_compute; discriminate]. }
      assert (Fr : is_finite (@n1 F : f64) = true) by (vm_compute; reflexivity).
      apply (proj2 (C93_sphere 53 1024 lm xo xd (z3 lm) n1 e f (xa e) (xb f) ltac:(lia) M1 M2 M3 M4 Fr Lr Ka Kb)).
      cbv zeta. change (@Ieee 53 1024 f64_prec_gt_0 f64_prec_lt_emax lm) with F. rewrite v_o, v_z, v1. unfold dist. rewrite (norm_val (vsub (V 0 (-4) 0) (V 0 0 0)) 4); [| lra | unfold vdot, vsub; simpl; ring]. pose proof small_ue. lra.
  Qed.
  Example C93_plane_case e f : mk_ray xo xd e (xa e) /\ mk_plane (z3 lm) xn f (xp f) /\
    meets (s_ray (v3 (xo : mat3x1 f64)) (v3 (xd : mat3x1 f64))) (s_plane (v3 (z3 lm : mat3x1 f64)) (v3 (xn : mat3x1 f64))) /\
    shape_get_intersect (xa e) (xp f) = Ok (false, None).
  Proof.
    destruct xmods as (M1 & M2 & M3 & M4 & M5). assert (Ka : mk_ray xo xd e (xa e)) by (apply ray_any_eq; reflexivity).
    assert (Kb : mk_plane (z3 lm) xn f (xp f)) by (apply plane_any; reflexivity). split; [exact Ka |]. split; [exact Kb |].
    assert (B : 0 < bpow radix2 512) by apply bpow_gt_0. split.
    - rewrite v_o, v_d, v_z, v_n. exists (V 0 0 0). split.
      + exists (4 / bpow radix2 512). split; [apply Rlt_le, Rdiv_lt_0_compat; lra |]. apply V3_eq; unfold vadd, vscale; cbn [vx vy vz]; field; lra.
      + unfold s_plane, vdot, vsub. cbn [vx vy vz]. ring.
    - apply (proj2 (C93_plane 53 1024 lm xo xd (z3 lm) xn e f (xa e) (xp f) ltac:(lia) M1 M2 M3 M4 M5 Ka Kb)).
      rewrite v_o, v_z, v_n. unfold s_unit. rewrite (norm_val (V 0 (-4) 0) 4), (norm_val (V 0 0 0) 0), (norm_val (V 0 1 0) 1) by (try lra; unfold vdot; simpl; ring).
      unfold vdot, vsub, vscale. cbn [vx vy vz]. replace (_ + _ + _) with (-4) by field. rewrite Rabs_left by lra. pose proof small_ue. lra.
  Qed.
  Example C93_tiny_case : exists w, unit_of (M3x1 (A3 n0 xt n0)) w /\ some_nan w /\ square_underflows (M3x1 (A3 (@n0 F) xt (@n0 F)) : mat3x1 f64).
  Proof.
    assert (X : val xt = bpow radix2 (-600)).
    { unfold xt. rewrite (PropertiesGjk2.lit_val2 lm 1 (2 ^ 600) false 4503599627370496 (-652) eq_refl) by (vm_compute; reflexivity). unfold F2R. cbn [Fnum Fexp cond_Zopp].
      change 4503599627370496%Z with (Zpower radix2 52). rewrite IZR_Zpower by lia. rewrite <- bpow_plus. reflexivity. }
    eexists. split; [vm_compute; reflexivity |]. split; [left; vm_compute; reflexivity |]. unfold square_underflows. cbv zeta. rewrite v0, X, <- bpow_plus.
    assert (bpow radix2 (-600 + -600) < bpow radix2 (2 - 1024 - 53)) by (apply bpow_lt; lia). pose proof (bpow_gt_0 radix2 (2 - 1024 - 53)). repeat split; lra.
  Qed.
End ExtremeCase.
