(** PropertiesRayP.v — C104: ray against point in every IEEE format. *)
From Coq Require Import Reals List ZArith NArith Bool Lra Lia Psatz.
From Flocq Require Import Core BinarySingleNaN.
Import ListNotations.
From Verif Require Import Base Num Vec Mat Bound Shape Intersect Float Exact FloatFacts Order SpecMat SpecGeom SpecBound SpecCtor SpecBuild
  SpecShape SpecRound SpecFr ExactFacts PShape PBuild PIeee1 PIeee2 PIeee3 PIeee5 PPrismF PRayP PropertiesGeo.
Local Open Scope R_scope.

Section Ieee.
Context (prec emax : Z) {Hp : Prec_gt_0 prec} {Hm : Prec_lt_emax prec emax} (lm : libm (binary_float prec emax)).
Notation F := (@Ieee prec emax Hp Hm lm).
Notation bf := (binary_float prec emax).
Notation fin x := (is_finite (x : bf) = true).
Notation fin3 p := (SpecBuild.fin3 (p : mat3x1 bf)).
Notation moderate p := (SpecBuild.moderate (p : mat3x1 bf)).
Notation good_normal p := (SpecBuild.good_normal (p : mat3x1 bf)).
Notation v3 p := (SpecBuild.v3 (p : mat3x1 bf)).
Notation B2R x := (B2R (x : bf)).
Notation u := (uro prec).
Notation et := (eta prec emax).

(** a hit is reported at a finite place near the ray, at a point of the ray near the point: within twice the vicinity, and
    rounding errors proportional to the distance of the point from the origin of the ray and to the vicinity *)
Theorem C104_location (o d : mat3x1 F) (e : F) (p : mat3x1 F) f (a b : shape F) q : (9 < prec)%Z -> moderate o -> good_normal d -> moderate p ->
  fin e -> Rabs (B2R e) <= bpow radix2 (emax / 2) -> mk_ray o d e a -> mk_point p f b -> shape_get_intersect a b = Ok (true, Some q) ->
  let w := Rabs (B2R e) in
  fin3 q /\ exists t, 0 <= t /\ dist (v3 q) (ray_at (v3 o) (v3 d) t) <= 11 * u * t + u * norm (v3 o) + 3 * et /\
    dist (ray_at (v3 o) (v3 d) t) (v3 p) <= 2 * w + 48 * u * (dist (v3 p) (v3 o) + w) + 3 * et.
Proof. intros P Mo Gd Mp Fe Le. exact (ray_point_loc prec emax lm o d e p f a b q P Mo Gd Mp (conj Fe Le)). Qed.
(** so points further from every point of the ray are not reported *)
Theorem C104_far (o d : mat3x1 F) (e : F) (p : mat3x1 F) f (a b : shape F) : (9 < prec)%Z -> moderate o -> good_normal d -> moderate p ->
  fin e -> Rabs (B2R e) <= bpow radix2 (emax / 2) -> mk_ray o d e a -> mk_point p f b -> let w := Rabs (B2R e) in
  (forall t, 0 <= t -> 2 * w + 48 * u * (dist (v3 p) (v3 o) + w) + 3 * et < dist (ray_at (v3 o) (v3 d) t) (v3 p)) ->
  shape_get_intersect a b = Ok (false, None).
Proof. intros P Mo Gd Mp Fe Le. exact (ray_point_far prec emax lm o d e p f a b P Mo Gd Mp (conj Fe Le)). Qed.
(** FULL STATEMENT: a point within dl of the ray at distance s from its origin is reported when the vicinity exceeds dl by a
    rounding error proportional to s.  Proved with dl and the error of s divided by the smallest component m of the unit
    direction, and dl not above s m; false for m = 0 (C104_flat) *)
Theorem C104_found_partial (o d : mat3x1 F) (e : F) (p : mat3x1 F) f (a b : shape F) (m s dl : R) : (9 < prec)%Z -> moderate o -> good_normal d -> moderate p ->
  fin e -> mk_ray o d e a -> mk_point p f b -> let D := s_unit (v3 d) in
  2 * u <= m -> m <= Rabs (vx D) -> m <= Rabs (vy D) -> m <= Rabs (vz D) -> 0 <= s -> dist (v3 p) (ray_at (v3 o) (v3 d) s) <= dl -> dl <= s * m ->
  204 / 100 * (dl / m) + 22 * u * s + 2 * et <= Rabs (B2R e) -> exists q, shape_get_intersect a b = Ok (true, Some q).
Proof. exact (ray_point_found prec emax lm o d e p f a b m s dl). Qed.
(** a ray with a zero direction component reports no point at all, whatever the vicinity *)
Theorem C104_flat (o d : mat3x1 F) (e : F) (p : mat3x1 F) f (a b : shape F) : (9 < prec)%Z -> moderate o -> good_normal d -> moderate p ->
  fin e -> Rabs (B2R e) <= bpow radix2 (emax / 2) -> mk_ray o d e a -> mk_point p f b -> vx (v3 d) = 0 \/ vy (v3 d) = 0 \/ vz (v3 d) = 0 ->
  shape_get_intersect a b = Ok (false, None).
Proof. intros P Mo Gd Mp Fe Le. exact (ray_point_flat prec emax lm o d e p f a b P Mo Gd Mp (conj Fe Le)). Qed.
End Ieee.
Print Assumptions C104_location.
Print Assumptions C104_far.
Print Assumptions C104_found_partial.
Print Assumptions C104_flat.

(** with the vicinity the constructor sets, points exactly on the ray are missed: (1,4,5) times 2^40 in f64, times 8 of (2,3,4) in f32 *)
Theorem C104_refuted_f64 lm : flag (Nm := F64 lm) (b_ray (l3 0 0 0 1) (l3 1 4 5 1)) (b_point (l3 (1 * 2 ^ 40) (4 * 2 ^ 40) (5 * 2 ^ 40) 1)) = Some false.
Proof. vm_compute. reflexivity. Qed.
Theorem C104_refuted_f32 lm : flag (Nm := F32 lm) (b_ray (l3 0 0 0 1) (l3 2 3 4 1)) (b_point (l3 16 24 32 1)) = Some false.
Proof. vm_compute. reflexivity. Qed.
Print Assumptions C104_refuted_f64.
Print Assumptions C104_refuted_f32.

(** the hypotheses are met in every format of at least 24 bits by the ray from 0 along (1,2,2), vicinity 1, and the points
    (2,4,4), on the ray at distance 6, and (-3,0,9), more than 8 off the ray *)
Section Case.
  Context (prec emax : Z) {Hp : Prec_gt_0 prec} {Hm : Prec_lt_emax prec emax} (lm : libm (binary_float prec emax)).
  Hypotheses (P24 : (24 <= prec)%Z) (E64 : (64 <= emax)%Z).
  Notation bf := (binary_float prec emax).
  Notation F := (@Ieee prec emax Hp Hm lm).
  Notation zz := (z3 F).
  Notation w3 p := (SpecBuild.v3 (p : mat3x1 bf)).
  Lemma case_mod x y z : (Z.abs x <= 9)%Z -> (Z.abs y <= 9)%Z -> (Z.abs z <= 9)%Z -> SpecBuild.moderate (zz x y z : mat3x1 bf) /\ w3 (zz x y z) = V (IZR x) (IZR y) (IZR z).
  Proof.
    intros X Y Z. destruct (z3_ok prec emax lm ltac:(lia) x y z ltac:(lia) ltac:(lia) ltac:(lia)) as [Fi Va]. split; [| exact Va]. split; [exact Fi |].
    assert (L : 9 <= bpow radix2 (emax / 2 - 3)) by (apply Rle_trans with (bpow radix2 4); [simpl; lra |]; apply bpow_le; assert (32 <= emax / 2)%Z by (apply Z.div_le_lower_bound; lia); lia).
    pose proof (f_equal vx Va) as Ex. pose proof (f_equal vy Va) as Ey. pose proof (f_equal vz Va) as Ez. unfold z3 in *. cbn [SpecBuild.v3 vx vy vz] in Ex, Ey, Ez. cbv zeta. rewrite Ex, Ey, Ez.
    rewrite <- !abs_IZR. apply IZR_le in X, Y, Z. lra.
  Qed.
  Lemma case_unit : s_unit (V 1 2 2) = V (/ 3) (2 / 3) (2 / 3).
  Proof.
    unfold s_unit. assert (N : norm (V 1 2 2) = 3) by (unfold norm, vdot; simpl; replace (1 * 1 + 2 * 2 + 2 * 2) with (3 * 3) by ring; apply sqrt_square; lra).
    rewrite N. apply V3_eq; simpl; field.
  Qed.
  Lemma case_u : 0 < uro prec <= / 1024 /\ 0 < eta prec emax <= / 1024.
  Proof.
    pose proof (u_small prec ltac:(lia)). pose proof (PRound.u_pos prec). pose proof (PRound.et_pos prec emax). pose proof (et_small prec emax ltac:(lia)). lra.
  Qed.
  Lemma case_hit f a b : mk_ray (zz 0 0 0) (zz 1 2 2) (nlit F 1 1) a -> mk_point (zz 2 4 4) f b -> exists q, shape_get_intersect a b = Ok (true, Some q).
  Proof.
    intros Ma Mb. destruct (case_mod 0 0 0 ltac:(lia) ltac:(lia) ltac:(lia)) as [M0 V0], (case_mod 1 2 2 ltac:(lia) ltac:(lia) ltac:(lia)) as [M1 V1], (case_mod 2 4 4 ltac:(lia) ltac:(lia) ltac:(lia)) as [M2 V2].
    destruct (lit_z prec emax lm ltac:(lia) 1 ltac:(lia)) as [Fe Ve]. destruct case_u as [U T].
    apply (C104_found_partial prec emax lm (zz 0 0 0) (zz 1 2 2) (nlit F 1 1) (zz 2 4 4) f a b (/ 3) 6 0); try assumption; try lia; try lra; rewrite ?V1, ?V0, ?V2, ?Ve; unfold ray_at; rewrite ?case_unit.
    - split; [exact M1 |]. rewrite V1. apply Rle_trans with (bpow radix2 0); [apply bpow_le; lia | unfold vdot; simpl; lra].
    - cbn [vx]. rewrite Rabs_pos_eq; lra.
    - cbn [vy]. rewrite Rabs_pos_eq; lra.
    - cbn [vz]. rewrite Rabs_pos_eq; lra.
    - right. unfold dist. replace (vsub _ _) with vzero by (apply V3_eq; unfold vsub, vadd, vscale, vzero; simpl; field). apply norm_vzero.
    - rewrite Rabs_R1. unfold Rdiv. rewrite Rmult_0_l. lra.
  Qed.
  Lemma case_miss f a b : mk_ray (zz 0 0 0) (zz 1 2 2) (nlit F 1 1) a -> mk_point (zz (-3) 0 9) f b -> shape_get_intersect a b = Ok (false, None).
  Proof.
    intros Ma Mb. destruct (case_mod 0 0 0 ltac:(lia) ltac:(lia) ltac:(lia)) as [M0 V0], (case_mod 1 2 2 ltac:(lia) ltac:(lia) ltac:(lia)) as [M1 V1], (case_mod (-3) 0 9 ltac:(lia) ltac:(lia) ltac:(lia)) as [M2 V2].
    destruct (lit_z prec emax lm ltac:(lia) 1 ltac:(lia)) as [Fe Ve]. destruct case_u as [U T].
    apply (C104_far prec emax lm (zz 0 0 0) (zz 1 2 2) (nlit F 1 1) (zz (-3) 0 9) f a b); try assumption; try lia.
    - split; [exact M1 |]. rewrite V1. apply Rle_trans with (bpow radix2 0); [apply bpow_le; lia | unfold vdot; simpl; lra].
    - rewrite Ve, Rabs_R1. apply (bpow_le radix2 0). apply Z.div_pos; lia.
    - intros t Ht. rewrite V0, V1, V2, Ve, Rabs_R1. unfold ray_at. rewrite case_unit.
      assert (D1 : dist (V (-3) 0 9) (V 0 0 0) <= 10) by (unfold dist; apply norm_le_sq; [lra |]; unfold vdot, vsub; simpl; lra).
      assert (D2 : 8 <= dist (vadd (V 0 0 0) (vscale t (V (/ 3) (2 / 3) (2 / 3)))) (V (-3) 0 9)).
      { apply Rsqr_incr_0_var; [| apply norm_pos]. unfold dist. rewrite (norm_sq (vsub _ _) : Rsqr _ = _). unfold Rsqr, vdot, vsub, vadd, vscale. simpl. pose proof (Rle_0_sqr (t - 5)). unfold Rsqr in *. lra. }
      assert (uro prec * (dist (V (-3) 0 9) (V 0 0 0) + 1) <= / 1024 * 11) by (apply Rmult_le_compat; try lra; pose proof (norm_pos (vsub (V (-3) 0 9) (V 0 0 0))); unfold dist; lra). lra.
  Qed.
End Case.
Example C104_case_f32 : forall (lm : libm (binary_float 24 128)) f, exists a b c q, mk_ray (z3 (F32 lm) 0 0 0) (z3 (F32 lm) 1 2 2) (nlit (F32 lm) 1 1) a /\
  mk_point (z3 (F32 lm) 2 4 4) f b /\ mk_point (z3 (F32 lm) (-3) 0 9) f c /\ shape_get_intersect a b = Ok (true, Some q) /\ shape_get_intersect a c = Ok (false, None).
Proof.
  intros lm f. assert (A : exists a, mk_ray (z3 (F32 lm) 0 0 0) (z3 (F32 lm) 1 2 2) (nlit (F32 lm) 1 1) a) by (eexists; apply ray_any_eq; reflexivity).
  destruct A as [a A]. assert (Bp : exists b, mk_point (z3 (F32 lm) 2 4 4) f b) by (eexists; apply point_any; reflexivity). destruct Bp as [b B].
  assert (Cp : exists c, mk_point (z3 (F32 lm) (-3) 0 9) f c) by (eexists; apply point_any; reflexivity). destruct Cp as [c C].
  destruct (case_hit 24 128 lm ltac:(lia) ltac:(lia) f a b A B) as [q Q]. exists a, b, c, q. split; [exact A | split; [exact B | split; [exact C | split; [exact Q |]]]].
  exact (case_miss 24 128 lm ltac:(lia) ltac:(lia) f a c A C).
Qed.
Example C104_case_f64 : forall (lm : libm (binary_float 53 1024)) f, exists a b c q, mk_ray (z3 (F64 lm) 0 0 0) (z3 (F64 lm) 1 2 2) (nlit (F64 lm) 1 1) a /\
  mk_point (z3 (F64 lm) 2 4 4) f b /\ mk_point (z3 (F64 lm) (-3) 0 9) f c /\ shape_get_intersect a b = Ok (true, Some q) /\ shape_get_intersect a c = Ok (false, None).
Proof.
  intros lm f. assert (A : exists a, mk_ray (z3 (F64 lm) 0 0 0) (z3 (F64 lm) 1 2 2) (nlit (F64 lm) 1 1) a) by (eexists; apply ray_any_eq; reflexivity).
  destruct A as [a A]. assert (Bp : exists b, mk_point (z3 (F64 lm) 2 4 4) f b) by (eexists; apply point_any; reflexivity). destruct Bp as [b B].
  assert (Cp : exists c, mk_point (z3 (F64 lm) (-3) 0 9) f c) by (eexists; apply point_any; reflexivity). destruct Cp as [c C].
  destruct (case_hit 53 1024 lm ltac:(lia) ltac:(lia) f a b A B) as [q Q]. exists a, b, c, q. split; [exact A | split; [exact B | split; [exact C | split; [exact Q |]]]].
  exact (case_miss 53 1024 lm ltac:(lia) ltac:(lia) f a c A C).
Qed.
