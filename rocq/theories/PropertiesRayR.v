(** PropertiesRayR.v — C105: ray against ray in every IEEE format of at least 24 bits. *)
From Coq Require Import Reals List ZArith NArith Bool Lra Lia Psatz.
From Flocq Require Import Core BinarySingleNaN.
Import ListNotations.
From Verif Require Import Base Num Vec Mat Bound Shape Intersect Float Exact FloatFacts Order SpecMat SpecGeom SpecBound SpecCtor SpecBuild
  SpecShape SpecInter SpecRays SpecRound SpecFr ExactFacts PShape PBuild PIeee1 PIeee2 PIeee3 PIeee5 PIeee6 PPrismF PRayP PRayR PropertiesGeo.
Local Open Scope R_scope.

Section Ieee.
Context (prec emax : Z) {Hp : Prec_gt_0 prec} {Hm : Prec_lt_emax prec emax} (lm : libm (binary_float prec emax)).
Notation F := (@Ieee prec emax Hp Hm lm).
Notation bf := (binary_float prec emax).
Notation fin x := (is_finite (x : bf) = true).
Notation fin3 p := (SpecBuild.fin3 (p : mat3x1 bf)).
Notation moderate p := (SpecBuild.moderate (p : mat3x1 bf)).
Notation good_normal p := (SpecBuild.good_normal (p : mat3x1 bf)).
Notation v3 p := (SpecBuild.v3 (p : mat3x1 bf)).
Notation B2R x := (B2R (x : bf)).
Notation u := (uro prec).
Notation et := (eta prec emax).

(** no common coordinate region: never a hit *)
Theorem C105_apart (o d p g : mat3x1 F) (e f : F) (a b : shape F) : moderate o -> good_normal d -> moderate p -> good_normal g ->
  mk_ray o d e a -> mk_ray p g f b -> ~ meets (s_orthant (v3 o) (v3 d)) (s_orthant (v3 p) (v3 g)) -> shape_get_intersect a b = Ok (false, None).
Proof. intros Mo Gd Mp Gg. exact (two_apart prec emax lm o d p g Mo Gd Mp Gg e f a b). Qed.
(** otherwise, directions that are not nearly parallel: always a hit, whether or not the rays meet, near the point of the first ray
    at the distance the exact formula gives *)
Theorem C105_skew (o d p g : mat3x1 F) (e f : F) (a b : shape F) : (23 < prec)%Z -> moderate o -> good_normal d -> moderate p -> good_normal g ->
  fin e -> 14 * u <= Rabs (B2R e) -> mk_ray o d e a -> mk_ray p g f b -> meets (s_orthant (v3 o) (v3 d)) (s_orthant (v3 p) (v3 g)) ->
  let S := sine (v3 d) (v3 g) in let T := line_dist (v3 p) (v3 g) (v3 o) / S in 18 / 100000 <= S -> T <= bpow radix2 (emax / 2) ->
  exists q, shape_get_intersect a b = Ok (true, Some q) /\ fin3 q /\
    dist (v3 q) (at_length (v3 o) (v3 d) T) <= (35 * u * dist (v3 p) (v3 o) + 70 * u * T + 9 * sqrt et) / S + u * norm (v3 o).
Proof. intros P Mo Gd Mp Gg. exact (two_skew prec emax lm o d p g ltac:(lia) Mo Gd Mp Gg e f a b P). Qed.
(** rays that meet at x are found, near x *)
Theorem C105_found (o d p g : mat3x1 F) (e f : F) (a b : shape F) x : (23 < prec)%Z -> moderate o -> good_normal d -> moderate p -> good_normal g ->
  fin e -> 14 * u <= Rabs (B2R e) -> mk_ray o d e a -> mk_ray p g f b -> s_ray (v3 o) (v3 d) x -> s_ray (v3 p) (v3 g) x ->
  let S := sine (v3 d) (v3 g) in 18 / 100000 <= S -> dist x (v3 o) <= bpow radix2 (emax / 2) ->
  exists q, shape_get_intersect a b = Ok (true, Some q) /\ fin3 q /\
    dist (v3 q) x <= (35 * u * dist (v3 p) (v3 o) + 70 * u * dist x (v3 o) + 9 * sqrt et) / S + u * norm (v3 o).
Proof. intros P Mo Gd Mp Gg. exact (two_found prec emax lm o d p g ltac:(lia) Mo Gd Mp Gg e f a b x P). Qed.
(** nearly parallel directions: a miss when the second origin is further from the line of the first ray than the vicinity ... *)
Theorem C105_parallel_far (o d p g : mat3x1 F) (e f : F) (a b : shape F) : (23 < prec)%Z -> moderate o -> good_normal d -> moderate p -> good_normal g ->
  fin e -> mk_ray o d e a -> mk_ray p g f b -> sine (v3 d) (v3 g) <= 98 / 1000000 ->
  Rabs (B2R e) + 17 * u * dist (v3 p) (v3 o) + 4 * sqrt et < line_dist (v3 o) (v3 d) (v3 p) -> shape_get_intersect a b = Ok (false, None).
Proof. intros P Mo Gd Mp Gg. exact (two_par_far prec emax lm o d p g ltac:(lia) Mo Gd Mp Gg e f a b P). Qed.
(** ... and a hit when it is nearer: at the first origin if the second lies behind it, else near the point of the first ray as far
    away as the second origin *)
Theorem C105_parallel_near (o d p g : mat3x1 F) (e f : F) (a b : shape F) : (23 < prec)%Z -> moderate o -> good_normal d -> moderate p -> good_normal g ->
  fin e -> 14 * u <= Rabs (B2R e) -> mk_ray o d e a -> mk_ray p g f b -> meets (s_orthant (v3 o) (v3 d)) (s_orthant (v3 p) (v3 g)) ->
  sine (v3 d) (v3 g) <= 98 / 1000000 -> let R := dist (v3 p) (v3 o) in
  line_dist (v3 o) (v3 d) (v3 p) + 17 * u * R + 4 * sqrt et <= Rabs (B2R e) ->
  let m := vdot (vsub (v3 p) (v3 o)) (s_unit (v3 d)) in
  exists q, shape_get_intersect a b = Ok (true, Some q) /\ fin3 q /\
    (q = o /\ m <= 13 * u * R + sqrt et \/
     - (13 * u * R + 4 * sqrt et) <= m /\ dist (v3 q) (at_length (v3 o) (v3 d) R) <= 60 * u * R + 8 * sqrt et + u * norm (v3 o)).
Proof. intros P Mo Gd Mp Gg. exact (two_par_near prec emax lm o d p g ltac:(lia) Mo Gd Mp Gg e f a b P). Qed.
(** the vicinity the constructor sets passes the first test *)
Theorem C105_default : (23 < prec)%Z -> fin (vicinity0 : F) /\ 14 * u <= Rabs (B2R (vicinity0 : F)).
Proof.
  intro P. assert (HM : (prec < emax)%Z) by exact Hm. assert (Q : (2 ^ 20 <= 2 ^ prec)%Z) by (apply Z.pow_le_mono_r; lia). assert (Q1 : (2 ^ prec <= 2 ^ emax)%Z) by (apply Z.pow_le_mono_r; lia).
  change (2 ^ 20)%Z with 1048576%Z in Q.
  destruct (lit_ok prec emax 1 1000000) as [Fl Vl]; [left; lia | apply (f_int_fmt prec emax 1 1 0); lia | apply (f_int_fmt prec emax 1000000 1000000 0); lia |].
  change (vicinity0 : F) with (@f_lit prec emax Hp Hm 1 1000000). split; [exact Fl |]. rewrite Vl. change (IZR 1 / IZR (Zpos 1000000)) with (1 / 1000000).
  assert (U : u <= / 16777216) by (unfold uro; change (/ 16777216) with (bpow radix2 (-24)); apply bpow_le; lia). pose proof (PRound.u_pos prec) as U0.
  destruct (rnd_rel prec emax (1 / 1000000)) as (c & Hc & ->).
  - rewrite Rabs_pos_eq by lra. apply Rle_trans with (bpow radix2 (-20)); [apply bpow_le; lia | change (bpow radix2 (-20)) with (/ 1048576); lra].
  - apply Rabs_le_inv in Hc. rewrite Rabs_pos_eq; nra.
Qed.
End Ieee.
Print Assumptions C105_apart.
Print Assumptions C105_skew.
Print Assumptions C105_found.
Print Assumptions C105_parallel_far.
Print Assumptions C105_parallel_near.
Print Assumptions C105_default.

(** with that vicinity a ray misses its own tail: the ray from 0 along (1,4,5) against the ray from 2^40 (1,4,5) along (1,4,5) in f64,
    the ray from 0 along (2,3,4) against the ray from (16,24,32) along (2,3,4) in f32 *)
Theorem C105_refuted_f64 lm : flag (Nm := F64 lm) (b_ray (l3 0 0 0 1) (l3 1 4 5 1)) (b_ray (l3 (1 * 2 ^ 40) (4 * 2 ^ 40) (5 * 2 ^ 40) 1) (l3 1 4 5 1)) = Some false.
Proof. vm_compute. reflexivity. Qed.
Theorem C105_refuted_f32 lm : flag (Nm := F32 lm) (b_ray (l3 0 0 0 1) (l3 2 3 4 1)) (b_ray (l3 16 24 32 1) (l3 2 3 4 1)) = Some false.
Proof. vm_compute. reflexivity. Qed.
(** and rays that do not meet are reported: from 0 along (1,1,1), from (5,0,0) along (1,1,2) *)
Theorem C105_refuted_skew lm lm' : flag (Nm := F64 lm) (b_ray (l3 0 0 0 1) (l3 1 1 1 1)) (b_ray (l3 5 0 0 1) (l3 1 1 2 1)) = Some true /\
  flag (Nm := F32 lm') (b_ray (l3 0 0 0 1) (l3 1 1 1 1)) (b_ray (l3 5 0 0 1) (l3 1 1 2 1)) = Some true /\
  ~ meets (s_ray (V 0 0 0) (V 1 1 1)) (s_ray (V 5 0 0) (V 1 1 2)).
Proof.
  split; [vm_compute; reflexivity |]. split; [vm_compute; reflexivity |].
  intros [x [[t [Ht E]] [s [Hs E']]]]. rewrite E in E'. injection E' as E0 E1 E2. lra.
Qed.
Print Assumptions C105_refuted_f64.
Print Assumptions C105_refuted_f32.
Print Assumptions C105_refuted_skew.

(** the hypotheses are met in every format of at least 24 bits: the rays from 0 along (1,2,2) and from (1,2,5) along (0,0,-1) meet at
    (1,2,2); the rays from 0 and from (2,4,4) along (1,2,2) are parallel and overlap; that from (-3,0,9) is parallel and far *)
Section Case.
  Context (prec emax : Z) {Hp : Prec_gt_0 prec} {Hm : Prec_lt_emax prec emax} (lm : libm (binary_float prec emax)).
  Hypotheses (P24 : (23 < prec)%Z) (E64 : (64 <= emax)%Z).
  Notation bf := (binary_float prec emax).
  Notation F := (@Ieee prec emax Hp Hm lm).
  Notation zz := (z3 F).
  Notation w3 p := (SpecBuild.v3 (p : mat3x1 bf)).
  Lemma case_mod x y z : (Z.abs x <= 9)%Z -> (Z.abs y <= 9)%Z -> (Z.abs z <= 9)%Z -> SpecBuild.moderate (zz x y z : mat3x1 bf) /\ w3 (zz x y z) = V (IZR x) (IZR y) (IZR z).
  Proof.
    intros X Y Z. destruct (z3_ok prec emax lm ltac:(lia) x y z ltac:(lia) ltac:(lia) ltac:(lia)) as [Fi Va]. split; [| exact Va]. split; [exact Fi |].
    assert (L : 9 <= bpow radix2 (emax / 2 - 3)) by (apply Rle_trans with (bpow radix2 4); [simpl; lra |]; apply bpow_le; assert (32 <= emax / 2)%Z by (apply Z.div_le_lower_bound; lia); lia).
    pose proof (f_equal vx Va) as Ex. pose proof (f_equal vy Va) as Ey. pose proof (f_equal vz Va) as Ez. unfold z3 in *. cbn [SpecBuild.v3 vx vy vz] in Ex, Ey, Ez. cbv zeta. rewrite Ex, Ey, Ez.
    rewrite <- !abs_IZR. apply IZR_le in X, Y, Z. lra.
  Qed.
  Lemma case_good x y z : (Z.abs x <= 9)%Z -> (Z.abs y <= 9)%Z -> (Z.abs z <= 9)%Z -> 1 <= IZR x * IZR x + IZR y * IZR y + IZR z * IZR z -> SpecBuild.good_normal (zz x y z : mat3x1 bf).
  Proof.
    intros X Y Z H. destruct (case_mod x y z X Y Z) as [M E]. split; [exact M |]. rewrite E. apply Rle_trans with (bpow radix2 0); [apply bpow_le; lia | unfold vdot; simpl; lra].
  Qed.
  Lemma case_u : 0 < uro prec <= / 16777216 /\ 0 <= sqrt (eta prec emax) <= / 1000000.
  Proof.
    assert (U : uro prec <= / 16777216) by (unfold uro; change (/ 16777216) with (bpow radix2 (-24)); apply bpow_le; lia). pose proof (PRound.u_pos prec).
    pose proof (et_root prec emax). pose proof (sqrt_pos (eta prec emax)). split; lra.
  Qed.
  Lemma n122 : norm (V 1 2 2) = 3.
  Proof. unfold norm, vdot; simpl. replace (1 * 1 + 2 * 2 + 2 * 2) with (3 * 3) by ring. apply sqrt_square; lra. Qed.
  Lemma case_skew f a b : mk_ray (zz 0 0 0) (zz 1 2 2) (nlit F 1 1) a -> mk_ray (zz 1 2 5) (zz 0 0 (-1)) f b ->
    exists q, shape_get_intersect a b = Ok (true, Some q) /\ dist (w3 q) (V 1 2 2) <= / 1000.
  Proof.
    intros Ma Mb. destruct (case_mod 0 0 0 ltac:(lia) ltac:(lia) ltac:(lia)) as [M0 V0]. destruct (case_mod 1 2 5 ltac:(lia) ltac:(lia) ltac:(lia)) as [M2 V2].
    destruct (case_mod 1 2 2 ltac:(lia) ltac:(lia) ltac:(lia)) as [_ V1]. destruct (case_mod 0 0 (-1) ltac:(lia) ltac:(lia) ltac:(lia)) as [_ V3].
    destruct (lit_z prec emax lm ltac:(lia) 1 ltac:(lia)) as [Fe Ve]. destruct case_u as [U T].
    pose proof (C105_found prec emax lm (zz 0 0 0) (zz 1 2 2) (zz 1 2 5) (zz 0 0 (-1)) (nlit F 1 1) f a b (V 1 2 2) P24 M0 (case_good 1 2 2 ltac:(lia) ltac:(lia) ltac:(lia) ltac:(lra)) M2 (case_good 0 0 (-1) ltac:(lia) ltac:(lia) ltac:(lia) ltac:(lra)) Fe) as Q.
    rewrite V0, V1, V2, V3, Ve, Rabs_R1 in Q. cbv zeta in Q.
    assert (N1 : norm (V 0 0 (-1)) = 1) by (unfold norm, vdot; simpl; replace (0 * 0 + 0 * 0 + -1 * -1) with 1 by ring; apply sqrt_1).
    assert (S : 1 / 2 <= sine (V 1 2 2) (V 0 0 (-1))).
    { unfold sine. rewrite n122, N1. assert (2 <= norm (vcross (V 1 2 2) (V 0 0 (-1)))).
      { apply Rle_trans with (sqrt (2 * 2)); [rewrite sqrt_square; lra |]. unfold norm. apply sqrt_le_1_alt. unfold vdot, vcross; simpl. lra. }
      apply Rmult_le_reg_r with 3; [lra |]. replace (norm (vcross (V 1 2 2) (V 0 0 (-1))) / (3 * 1) * 3) with (norm (vcross (V 1 2 2) (V 0 0 (-1)))) by field. lra. }
    assert (D0 : dist (V 1 2 2) (V 0 0 0) = 3) by (unfold dist; replace (vsub (V 1 2 2) (V 0 0 0)) with (V 1 2 2) by (apply V3_eq; simpl; ring); exact n122).
    assert (D1 : 0 <= dist (V 1 2 5) (V 0 0 0) <= 6) by (split; [apply norm_pos |]; unfold dist; apply norm_le_sq; [lra |]; unfold vdot, vsub; simpl; lra).
    assert (Nz : norm (V 0 0 0) = 0) by (unfold norm, vdot; simpl; rewrite Rmult_0_l, !Rplus_0_r; apply sqrt_0).
    destruct Q as (q & E & _ & Dq); try assumption; try lra.
    - exists 1. split; [lra |]. apply V3_eq; simpl; ring.
    - exists 3. split; [lra |]. apply V3_eq; simpl; ring.
    - rewrite D0. apply Rle_trans with (bpow radix2 2); [simpl; lra |]. apply bpow_le. apply Z.div_le_lower_bound; lia.
    - exists q. split; [exact E |]. eapply Rle_trans; [exact Dq |]. rewrite D0, Nz. set (S' := sine _ _) in *. apply Rle_trans with ((35 * uro prec * 6 + 70 * uro prec * 3 + 9 * sqrt (eta prec emax)) * 2 + uro prec * 0).
      + apply Rplus_le_compat_r. unfold Rdiv. assert (/ S' <= 2) by (replace 2 with (/ (1 / 2)) by field; apply Rinv_le_contravar; lra). assert (0 < / S') by (apply Rinv_0_lt_compat; lra).
        assert (35 * uro prec * dist (V 1 2 5) (V 0 0 0) <= 35 * uro prec * 6) by (apply Rmult_le_compat_l; lra). assert (0 <= uro prec * dist (V 1 2 5) (V 0 0 0)) by (apply Rmult_le_pos; lra). apply Rmult_le_compat; lra.
      + lra.
  Qed.
  Lemma case_sine : sine (V 1 2 2) (V 1 2 2) = 0.
  Proof. unfold sine. replace (vcross (V 1 2 2) (V 1 2 2)) with (V 0 0 0) by (apply V3_eq; simpl; ring). assert (Nz : norm (V 0 0 0) = 0) by (unfold norm, vdot; simpl; rewrite Rmult_0_l, !Rplus_0_r; apply sqrt_0). rewrite Nz. unfold Rdiv. ring. Qed.
  Lemma case_par f a b : mk_ray (zz 0 0 0) (zz 1 2 2) (nlit F 1 1) a -> mk_ray (zz 2 4 4) (zz 1 2 2) f b ->
    exists q, shape_get_intersect a b = Ok (true, Some q) /\ dist (w3 q) (V 2 4 4) <= / 1000.
  Proof.
    intros Ma Mb. destruct (case_mod 0 0 0 ltac:(lia) ltac:(lia) ltac:(lia)) as [M0 V0]. destruct (case_mod 2 4 4 ltac:(lia) ltac:(lia) ltac:(lia)) as [M2 V2].
    destruct (case_mod 1 2 2 ltac:(lia) ltac:(lia) ltac:(lia)) as [_ V1]. assert (G := case_good 1 2 2 ltac:(lia) ltac:(lia) ltac:(lia) ltac:(lra)).
    destruct (lit_z prec emax lm ltac:(lia) 1 ltac:(lia)) as [Fe Ve]. destruct case_u as [U T].
    pose proof (C105_parallel_near prec emax lm (zz 0 0 0) (zz 1 2 2) (zz 2 4 4) (zz 1 2 2) (nlit F 1 1) f a b P24 M0 G M2 G Fe) as Q.
    rewrite V0, V1, V2, Ve, Rabs_R1, case_sine in Q. cbv zeta in Q.
    assert (N6 : dist (V 2 4 4) (V 0 0 0) = 6) by (unfold dist, norm, vdot; simpl; replace (_ + _ + _) with (6 * 6) by ring; apply sqrt_square; lra). rewrite N6 in Q.
    assert (Nz : norm (V 0 0 0) = 0) by (unfold norm, vdot; simpl; rewrite Rmult_0_l, !Rplus_0_r; apply sqrt_0).
    assert (LD : line_dist (V 0 0 0) (V 1 2 2) (V 2 4 4) = 0).
    { unfold line_dist. replace (vcross (V 1 2 2) (vsub (V 2 4 4) (V 0 0 0))) with (V 0 0 0) by (apply V3_eq; simpl; ring). rewrite Nz. unfold Rdiv. ring. }
    rewrite LD in Q. destruct Q as (q & E & _ & [[_ Dq] | [_ Dq]]); try assumption; try lra.
    - exists (V 2 4 4). split; repeat split; simpl; intros; lra.
    - exfalso. revert Dq. unfold s_unit. rewrite n122. unfold vdot, vsub, vscale; simpl. lra.
    - exists q. split; [exact E |]. replace (V 2 4 4) with (at_length (V 0 0 0) (V 1 2 2) 6); [eapply Rle_trans; [exact Dq |]; rewrite Nz; lra |].
      unfold at_length. rewrite n122. apply V3_eq; simpl; field.
  Qed.
  Lemma case_far f a b : mk_ray (zz 0 0 0) (zz 1 2 2) (nlit F 1 1) a -> mk_ray (zz (-3) 0 9) (zz 1 2 2) f b -> shape_get_intersect a b = Ok (false, None).
  Proof.
    intros Ma Mb. destruct (case_mod 0 0 0 ltac:(lia) ltac:(lia) ltac:(lia)) as [M0 V0]. destruct (case_mod (-3) 0 9 ltac:(lia) ltac:(lia) ltac:(lia)) as [M2 V2].
    destruct (case_mod 1 2 2 ltac:(lia) ltac:(lia) ltac:(lia)) as [_ V1]. assert (G := case_good 1 2 2 ltac:(lia) ltac:(lia) ltac:(lia) ltac:(lra)).
    destruct (lit_z prec emax lm ltac:(lia) 1 ltac:(lia)) as [Fe Ve]. destruct case_u as [U T].
    apply (C105_parallel_far prec emax lm (zz 0 0 0) (zz 1 2 2) (zz (-3) 0 9) (zz 1 2 2) (nlit F 1 1) f a b P24 M0 G M2 G Fe Ma Mb); rewrite ?V0, ?V1, ?V2, ?Ve, ?Rabs_R1, ?case_sine; [lra |].
    assert (D1 : 0 <= dist (V (-3) 0 9) (V 0 0 0) <= 10) by (split; [apply norm_pos |]; unfold dist; apply norm_le_sq; [lra |]; unfold vdot, vsub; simpl; lra).
    assert (D2 : 6 <= line_dist (V 0 0 0) (V 1 2 2) (V (-3) 0 9)).
    { unfold line_dist. rewrite n122. assert (18 <= norm (vcross (V 1 2 2) (vsub (V (-3) 0 9) (V 0 0 0)))).
      { apply Rle_trans with (sqrt (18 * 18)); [rewrite sqrt_square; lra |]. unfold norm. apply sqrt_le_1_alt. unfold vdot, vcross, vsub; simpl. lra. } lra. }
    assert (17 * uro prec * dist (V (-3) 0 9) (V 0 0 0) <= 17 * uro prec * 10) by (apply Rmult_le_compat_l; lra). lra.
  Qed.
End Case.
Example C105_case_f32 : forall (lm : libm (binary_float 24 128)) f, let z := z3 (F32 lm) in exists a b c d q r, mk_ray (z 0 0 0)%Z (z 1 2 2)%Z (nlit (F32 lm) 1 1) a /\
  mk_ray (z 1 2 5)%Z (z 0 0 (-1))%Z f b /\ mk_ray (z 2 4 4)%Z (z 1 2 2)%Z f c /\ mk_ray (z (-3) 0 9)%Z (z 1 2 2)%Z f d /\
  shape_get_intersect a b = Ok (true, Some q) /\ shape_get_intersect a c = Ok (true, Some r) /\ shape_get_intersect a d = Ok (false, None).
Proof.
  intros lm f z. assert (K : forall o d e, exists a, mk_ray (Nm := F32 lm) o d e a) by (intros; eexists; apply ray_any_eq; reflexivity).
  destruct (K (z 0 0 0)%Z (z 1 2 2)%Z (nlit (F32 lm) 1 1)) as [a A], (K (z 1 2 5)%Z (z 0 0 (-1))%Z f) as [b B], (K (z 2 4 4)%Z (z 1 2 2)%Z f) as [c C], (K (z (-3) 0 9)%Z (z 1 2 2)%Z f) as [d D].
  destruct (case_skew 24 128 lm ltac:(lia) ltac:(lia) f a b A B) as (q & Q & _). destruct (case_par 24 128 lm ltac:(lia) ltac:(lia) f a c A C) as (r & R & _).
  exists a, b, c, d, q, r. split; [exact A | split; [exact B | split; [exact C | split; [exact D | split; [exact Q | split; [exact R |]]]]]]. exact (case_far 24 128 lm ltac:(lia) ltac:(lia) f a d A D).
Qed.
Example C105_case_f64 : forall (lm : libm (binary_float 53 1024)) f, let z := z3 (F64 lm) in exists a b c d q r, mk_ray (z 0 0 0)%Z (z 1 2 2)%Z (nlit (F64 lm) 1 1) a /\
  mk_ray (z 1 2 5)%Z (z 0 0 (-1))%Z f b /\ mk_ray (z 2 4 4)%Z (z 1 2 2)%Z f c /\ mk_ray (z (-3) 0 9)%Z (z 1 2 2)%Z f d /\
  shape_get_intersect a b = Ok (true, Some q) /\ shape_get_intersect a c = Ok (true, Some r) /\ shape_get_intersect a d = Ok (false, None).
Proof.
  intros lm f z. assert (K : forall o d e, exists a, mk_ray (Nm := F64 lm) o d e a) by (intros; eexists; apply ray_any_eq; reflexivity).
  destruct (K (z 0 0 0)%Z (z 1 2 2)%Z (nlit (F64 lm) 1 1)) as [a A], (K (z 1 2 5)%Z (z 0 0 (-1))%Z f) as [b B], (K (z 2 4 4)%Z (z 1 2 2)%Z f) as [c C], (K (z (-3) 0 9)%Z (z 1 2 2)%Z f) as [d D].
  destruct (case_skew 53 1024 lm ltac:(lia) ltac:(lia) f a b A B) as (q & Q & _). destruct (case_par 53 1024 lm ltac:(lia) ltac:(lia) f a c A C) as (r & R & _).
  exists a, b, c, d, q, r. split; [exact A | split; [exact B | split; [exact C | split; [exact D | split; [exact Q | split; [exact R |]]]]]]. exact (case_far 53 1024 lm ltac:(lia) ltac:(lia) f a d A D).
Qed.
