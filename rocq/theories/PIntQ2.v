(** PIntQ2.v — rays on fixed-point data in IEEE arithmetic (C119). *)
From Coq Require Import Reals List ZArith NArith Bool Lra Lia Psatz.
From Flocq Require Import Core Relative BinarySingleNaN.
Import ListNotations.
From Verif Require Import Base Num Vec Mat Bound Shape Intersect Float FloatFacts FloatRound Order SpecMat SpecRound SpecGeom SpecBound SpecBuild SpecInt
  PMat PBound PShape PInter PBuild PRound ExactFacts PGeo1 PGeo2 PIeee1 PIeee2 PIeee3 PIeee5 PIeee6 PNan PMirror1 PMirror2 PNan2 PInt PInt2 PSqr PIntQ.
Local Open Scope R_scope.

Section IntR.
  Context (prec emax : Z) {Hp : Prec_gt_0 prec} {Hm : Prec_lt_emax prec emax} (lm : libm (binary_float prec emax)).
  Notation bf := (binary_float prec emax).
  Notation fmt := (SpecFloat.fexp prec emax).
  Notation rnd := (round radix2 fmt ZnearestE).
  Notation F := (@Ieee prec emax Hp Hm lm).
  Notation val := (@B2R prec emax).
  Notation fin x := (is_finite (x : bf) = true).
  Notation full := (bpow radix2 prec).
  Notation room := (room prec emax).
  Notation X := (X prec emax).
  Notation X3 := (X3 prec emax lm).
  Notation vec := (mat3x1 F).
  Notation v3 v := (v3 (v : mat3x1 bf)).
  (** ---- normalised directions keep the signs of their components ---- *)
  Definition sgn_of (a b : R) : Prop := (a < 0 <-> b < 0) /\ (0 < a <-> 0 < b).
  Lemma fmt_bpow k : (3 - emax - prec <= k)%Z -> rnd (bpow radix2 k) = bpow radix2 k.
  Proof. intro H. apply round_generic; [apply valid_rnd_N |]. apply generic_format_bpow. change fmt with (FLT_exp (3 - emax - prec) prec). unfold FLT_exp. unfold Prec_gt_0 in Hp. lia. Qed.
  Lemma nrm_signs t L (d : vec) : (9 < prec)%Z -> room (t + t) -> room t -> fix3 t L (d : mat3x1 bf) -> v3 d <> vzero -> 3 * (L * L) <= full -> 1 <= L ->
    let w := v3 (nrm d) in fin3 (nrm d : mat3x1 bf) /\ (Rabs (vx w) <= 1 /\ Rabs (vy w) <= 1 /\ Rabs (vz w) <= 1) /\ sgn_of (vx w) (vx (v3 d)) /\ sgn_of (vy w) (vy (v3 d)) /\ sgn_of (vz w) (vz (v3 d)).
  Proof.
    intros P R2 R Hf Nz H L1. pose proof (X3_fix prec emax lm _ _ _ Hf) as D. pose proof (X_dot prec emax lm _ _ _ _ d d _ _ R2 D D H) as DD. assert (LF : L <= full) by nra.
    assert (Nd : 0 < vdot (v3 d) (v3 d)). { pose proof (norm_nz _ Nz) as Q. rewrite <- norm_sq. apply Rmult_lt_0_compat; exact Q. }
    destruct DD as (FD & VD & n & En & Bn). destruct (sqrt_ok prec emax (vdotn d d : F) FD) as [M1 M2]; [rewrite VD; lra |]. set (m := Bsqrt mode_NE (vdotn d d : F)) in *. rewrite VD in M2.
    assert (B0 := bpow_gt_0 radix2 t). assert (B2 := bpow_gt_0 radix2 (t + t)).
    assert (Np : (1 <= n)%Z). { assert (0 < IZR n) by (rewrite En in Nd; nra). apply lt_IZR in H0. lia. }
    assert (Nf : IZR n <= full) by (eapply Rle_trans; [apply Rle_abs | lra]).
    assert (Mlo : forall x, fin x -> val x * val x <= vdot (v3 d) (v3 d) -> Rabs (val x) <= val m).
    { intros x Fx Hx. rewrite M2. apply Rle_trans with (rnd (Rabs (val x))); [rewrite <- (B2R_Babs prec emax x), (rnd_B2R prec emax); apply Rle_refl |]. apply (rnd_le prec emax). rewrite <- sqrt_Rsqr_abs. apply sqrt_le_1_alt. exact Hx. }
    assert (Mhi : val m <= bpow radix2 (prec + t)).
    { rewrite M2, <- (fmt_bpow (prec + t)) by (destruct R; unfold Prec_gt_0 in Hp; lia). apply (rnd_le prec emax). rewrite En. apply Rle_trans with (sqrt (Rsqr (bpow radix2 (prec + t)))); [apply sqrt_le_1_alt | rewrite sqrt_Rsqr by apply bpow_ge_0; apply Rle_refl].
      unfold Rsqr. replace (bpow radix2 (prec + t) * bpow radix2 (prec + t)) with (full * full * bpow radix2 (t + t)) by (rewrite !bpow_plus; ring). apply Rmult_le_compat_r; [lra |]. assert (1 <= full) by (apply (bpow_le radix2 0); unfold Prec_gt_0 in Hp; lia). nra. }
    assert (Mpos : 0 < val m).
    { apply Rlt_le_trans with (bpow radix2 t); [exact B0 |]. rewrite M2, <- (fmt_bpow t) by apply R. apply (rnd_le prec emax). rewrite En. apply Rle_trans with (sqrt (Rsqr (bpow radix2 t))); [rewrite sqrt_Rsqr by lra; apply Rle_refl | apply sqrt_le_1_alt].
      unfold Rsqr. rewrite <- bpow_plus. assert (1 <= IZR n) by (apply IZR_le; exact Np). nra. }
    assert (Cp : forall x : F, X t L x (val (x : bf)) -> val (x : bf) * val (x : bf) <= vdot (v3 d) (v3 d) -> fin (ndiv F x m) /\ Rabs (val (ndiv F x m)) <= 1 /\ sgn_of (val (ndiv F x m)) (val (x : bf))).
    { intros x (Fx & _ & k & Ek & Bk) Hx. specialize (Mlo x Fx Hx). assert (Q1 : Rabs (val (x : bf) / val m) <= 1).
      { unfold Rdiv. rewrite Rabs_mult, (Rabs_pos_eq (/ _)) by (apply Rlt_le, Rinv_0_lt_compat; exact Mpos). apply Rmult_le_reg_r with (val m); [exact Mpos |]. rewrite Rmult_assoc, Rinv_l by lra. lra. }
      assert (R1 : rnd 1 = 1) by (apply (fmt_bpow 0); unfold Prec_gt_0 in Hp; unfold Prec_lt_emax in Hm; lia).
      assert (Q2 : Rabs (rnd (val (x : bf) / val m)) <= 1). { apply Rabs_le_inv in Q1. pose proof (rnd_le prec emax _ _ (proj1 Q1)) as U1. pose proof (rnd_le prec emax _ _ (proj2 Q1)) as U2. rewrite (rnd_opp prec emax), R1 in U1. rewrite R1 in U2. apply Rabs_le. lra. }
      assert (Bg : 1 < bpow radix2 emax) by (apply (bpow_lt radix2 0); unfold Prec_gt_0 in Hp; unfold Prec_lt_emax in Hm; lia).
      destruct (div_round prec emax (x : bf) m Fx ltac:(lra)) as [G _]. destruct (G ltac:(lra)) as [G1 G2]. cbn [ndiv Ieee]. split; [exact G1 |]. rewrite G2. split; [exact Q2 |].
      assert (Up : forall y, (1 <= y)%Z -> bpow radix2 (- prec) <= IZR y * bpow radix2 t / val m).
      { intros y Hy. apply IZR_le in Hy. apply Rmult_le_reg_r with (val m); [exact Mpos |]. unfold Rdiv. rewrite Rmult_assoc, Rinv_l, Rmult_1_r by lra. apply Rle_trans with (bpow radix2 (- prec) * bpow radix2 (prec + t)); [apply Rmult_le_compat_l; [apply bpow_ge_0 | exact Mhi] |].
        rewrite <- bpow_plus. replace (- prec + (prec + t))%Z with t by lia. nra. }
      assert (Fp : rnd (bpow radix2 (- prec)) = bpow radix2 (- prec)) by (apply fmt_bpow; unfold Prec_gt_0 in Hp; unfold Prec_lt_emax in Hm; lia). assert (Bp := bpow_gt_0 radix2 (- prec)).
      assert (Pos : (1 <= k)%Z -> 0 < rnd (val (x : bf) / val m)). { intro Hk. specialize (Up k Hk). rewrite <- Ek in Up. apply (rnd_le prec emax) in Up. lra. }
      assert (Neg : (k <= -1)%Z -> rnd (val (x : bf) / val m) < 0).
      { intro Hk. specialize (Up (- k)%Z ltac:(lia)). apply (rnd_le prec emax) in Up. rewrite opp_IZR in Up. replace (- IZR k * bpow radix2 t / val m) with (- (val (x : bf) / val m)) in Up by (rewrite Ek; unfold Rdiv; ring). rewrite (rnd_opp prec emax) in Up. lra. }
      assert (Zer : (k = 0)%Z -> rnd (val (x : bf) / val m) = 0). { intro Hk. rewrite Ek, Hk, Rmult_0_l. unfold Rdiv. rewrite Rmult_0_l. apply (rnd_0 prec emax). }
      assert (Kx : ((k < 0)%Z /\ val (x : bf) < 0 \/ k = 0%Z /\ val (x : bf) = 0 \/ (0 < k)%Z /\ 0 < val (x : bf))).
      { destruct (Z_lt_ge_dec k 0) as [Hk | Hk]; [left; split; [exact Hk |]; apply IZR_lt in Hk; nra |]. destruct (Z.eq_dec k 0) as [-> | Hk']; [right; left; split; [reflexivity | lra] |]. right; right. assert (0 < k)%Z by lia. split; [assumption |]. apply IZR_lt in H0. nra. }
      unfold sgn_of. destruct Kx as [[Hk Hx'] | [[Hk Hx'] | [Hk Hx']]].
      - specialize (Neg ltac:(lia)). split; split; intro; lra.
      - specialize (Zer Hk). split; split; intro; lra.
      - specialize (Pos ltac:(lia)). split; split; intro; lra. }
    destruct D as (D0 & D1 & D2). destruct d as [[x y z]]. cbn [c0 c1 c2 SpecBuild.v3 vx vy vz vdot] in *.
    assert (Sx := Rle_0_sqr (val (x : bf))). assert (Sy := Rle_0_sqr (val (y : bf))). assert (Sz := Rle_0_sqr (val (z : bf))). unfold Rsqr in Sx, Sy, Sz.
    destruct (Cp x D0 ltac:(unfold vdot; cbn; lra)) as (A1 & A2 & A3). destruct (Cp y D1 ltac:(unfold vdot; cbn; lra)) as (C1 & C2 & C3). destruct (Cp z D2 ltac:(unfold vdot; cbn; lra)) as (E1 & E2 & E3).
    split; [split; [exact A1 | split; [exact C1 | exact E1]] |]. split; [split; [exact A2 | split; [exact C2 | exact E2]] |]. split; [exact A3 | split; [exact C3 | exact E3]].
  Qed.
  (** ---- a unit vector along an axis against any finite vector: no rounding ---- *)
  Lemma mul_unit (a x : F) (z : Z) : fin a -> val a = IZR z -> (z = 0 \/ z = 1 \/ z = -1)%Z -> fin x -> exists b : bf, fin b /\ val b = IZR z * val x /\ fin (nmul F a x) /\ val (nmul F a x) = IZR z * val x.
  Proof.
    intros Fa Ea C Fx. assert (W : exists b : bf, fin b /\ val b = IZR z * val x).
    { destruct C as [-> | [-> | ->]]; [exists (n0 : F); destruct (fv_lit_0 prec emax) as [Q1 Q2]; split; [exact Q1 | rewrite Rmult_0_l; exact Q2] | exists x; split; [exact Fx | ring] | exists (Bopp x); rewrite is_finite_Bopp, B2R_Bopp; split; [exact Fx | ring]]. }
    destruct W as (b & Fb & Eb). exists b. split; [exact Fb |]. split; [exact Eb |]. rewrite <- Eb. apply (fv_mult_exact prec emax a x b Fa Fx). rewrite Ea. symmetry. exact Eb.
  Qed.
  Lemma dot_axis (a v : vec) (w : V3) : X3 0 1 a w -> axial w -> fin3 (v : mat3x1 bf) -> fin (vdotn a v) /\ val (vdotn a v) = vdot w (v3 v).
  Proof.
    intros (A0 & A1 & A2) [_ A] Fv. assert (Z : forall x r, X 0 1 x r -> exists z : Z, fin x /\ val x = IZR z /\ r = IZR z /\ (z = 0 \/ z = 1 \/ z = -1)%Z).
    { intros x r (Fx & Ex & z & Ez & Bz). cbn [bpow] in Ez. rewrite Rmult_1_r in Ez. exists z. split; [exact Fx |]. split; [rewrite Ex; exact Ez |]. split; [exact Ez |]. rewrite <- abs_IZR in Bz. apply le_IZR in Bz. lia. }
    destruct (Z _ _ A0) as (z0 & F0 & E0 & W0 & C0). destruct (Z _ _ A1) as (z1 & F1 & E1 & W1 & C1). destruct (Z _ _ A2) as (z2 & F2 & E2 & W2 & C2). clear Z.
    destruct v as [[x y z]]. destruct Fv as (Fx & Fy & Fz). unfold vdotn. cbn [c0 c1 c2 SpecBuild.v3]. unfold vdot. cbn [vx vy vz].
    destruct (mul_unit _ x z0 F0 E0 C0 Fx) as (_ & _ & _ & P0 & Q0). destruct (mul_unit _ y z1 F1 E1 C1 Fy) as (_ & _ & _ & P1 & Q1). destruct (mul_unit _ z z2 F2 E2 C2 Fz) as (_ & _ & _ & P2 & Q2).
    rewrite W0, W1, W2 in A |- *. destruct (add_zero prec emax lm _ _ P0 P1) as [S1 T1]. { rewrite Q0, Q1. destruct A as [[-> _] | [[-> _] | [-> _]]]; [right | left | left]; ring. }
    destruct (add_zero prec emax lm _ _ S1 P2) as [S2 T2]. { rewrite T1, Q0, Q1, Q2. destruct A as [[_ ->] | [[_ ->] | [-> ->]]]; [right | right | left]; ring. }
    split; [exact S2 |]. rewrite T2, T1, Q0, Q1, Q2. reflexivity.
  Qed.
  Lemma axial_unit v : axial v -> axial (s_unit v).
  Proof.
    intros [N A]. pose proof (norm_nz v N) as Q. split.
    - intro E. apply N. unfold s_unit, vscale, vzero in E. injection E as E0 E1 E2. assert (I := Rinv_0_lt_compat _ Q). destruct v as [a b c]. cbn in *. unfold vzero. f_equal; [apply Rmult_integral in E0 | apply Rmult_integral in E1 | apply Rmult_integral in E2]; lra.
    - unfold s_unit, vscale. cbn [vx vy vz]. destruct A as [[-> ->] | [[-> ->] | [-> ->]]]; rewrite !Rmult_0_r; tauto.
  Qed.
  Lemma axial_sign n d w : axial n -> sgn_of (vx w) (vx d) -> sgn_of (vy w) (vy d) -> sgn_of (vz w) (vz d) -> sgn_of (vdot (s_unit n) w) (vdot n d).
  Proof.
    intros [N A] S0 S1 S2. pose proof (norm_nz n N) as Q. assert (I := Rinv_0_lt_compat _ Q).
    assert (G : forall k a b, sgn_of a b -> sgn_of (/ norm n * k * a) (k * b)).
    { intros k a b [[U1 U2] [U3 U4]]. destruct (Rtotal_order k 0) as [Hk | [-> | Hk]].
      - assert (Hk' : / norm n * k < 0) by nra. set (k' := / norm n * k) in *. unfold sgn_of. destruct (Rtotal_order b 0) as [Hb | [Hb | Hb]]; [specialize (U2 Hb) | | specialize (U4 Hb)]; [| assert (a = 0) by (destruct (Rtotal_order a 0) as [Y | [Y | Y]]; [specialize (U1 Y) | | specialize (U3 Y)]; lra); subst b a |]; split; split; intro; nra.
      - rewrite Rmult_0_r, !Rmult_0_l. split; split; intro; lra.
      - assert (Hk' : 0 < / norm n * k) by nra. set (k' := / norm n * k) in *. unfold sgn_of. destruct (Rtotal_order b 0) as [Hb | [Hb | Hb]]; [specialize (U2 Hb) | | specialize (U4 Hb)]; [| assert (a = 0) by (destruct (Rtotal_order a 0) as [Y | [Y | Y]]; [specialize (U1 Y) | | specialize (U3 Y)]; lra); subst b a |]; split; split; intro; nra. }
    unfold s_unit, vdot, vscale. cbn [vx vy vz]. destruct A as [[-> ->] | [[-> ->] | [-> ->]]]; rewrite !Rmult_0_r, !Rmult_0_l, ?Rplus_0_l, ?Rplus_0_r; apply G; assumption.
  Qed.
  (** ---- ray against a plane perpendicular to an axis ---- *)
  Lemma ray_meets_plane o d q n : vdot n d < 0 -> (meets (s_ray o d) (s_plane q n) <-> vdot n (vsub q o) <= 0).
  Proof.
    intro Nd. split.
    - intros (x & (t & Pt & ->) & Hx). unfold s_plane in Hx. replace (vdot n (vsub (vadd o (vscale t d)) q)) with (t * vdot n d - vdot n (vsub q o)) in Hx by (unfold vdot, vsub, vadd, vscale; cbn; ring). nra.
    - intro H. exists (vadd o (vscale (vdot n (vsub q o) / vdot n d) d)). split; [eexists; split; [| reflexivity] |].
      + unfold Rdiv. pose proof (Rinv_lt_0_compat _ Nd). nra.
      + unfold s_plane. set (t := vdot n (vsub q o) / vdot n d). replace (vdot n (vsub (vadd o (vscale t d)) q)) with (t * vdot n d - vdot n (vsub q o)) by (unfold vdot, vsub, vadd, vscale; cbn; ring). unfold t. field. lra.
  Qed.
  Theorem ray_plane_int (p d o n : vec) s t K L e f (x y : shape F) : (9 < prec)%Z -> room s -> room (s + s) -> room t -> room (t + t) -> 1 <= K -> 7 * K <= full -> 1 <= L -> 3 * (L * L) <= full ->
    fix3 s K (p : mat3x1 bf) -> fix3 t L (d : mat3x1 bf) -> fix3 s K (o : mat3x1 bf) -> good_normal (n : mat3x1 bf) -> axial (v3 n) -> v3 d <> vzero -> mk_ray p d e x -> mk_plane o n f y ->
    (vdot (v3 n) (v3 d) < 0 -> (meets (s_ray (v3 p) (v3 d)) (s_plane (v3 o) (v3 n)) -> exists z, shape_get_intersect x y = Ok (true, Some z)) /\ (~ meets (s_ray (v3 p) (v3 d)) (s_plane (v3 o) (v3 n)) -> shape_get_intersect x y = Ok (false, None))) /\
    (vdot (v3 n) (v3 d) = 0 -> (s_plane (v3 o) (v3 n) (v3 p) -> shape_get_intersect x y = Ok (true, Some p)) /\ (~ s_plane (v3 o) (v3 n) (v3 p) -> shape_get_intersect x y = Ok (false, None))) /\
    (0 < vdot (v3 n) (v3 d) -> shape_get_intersect x y = Ok (false, None)).
  Proof.
    intros P R R2 Rd Rd2 K1 KB L1' LB' Fp Fd Fo Fn An Nd Mx My. apply ray_any_eq in Mx. apply plane_any in My. rewrite (intersect_core (ieee_ordered prec emax lm)).
    assert (Ov : overlap x y = true) by (apply (plane_overlap (ieee_ordered prec emax lm)); subst y; reflexivity). rewrite Ov. subst x y. cbn [core]. rewrite (ray_plane_any (Nm := F)). cbv zeta.
    assert (NX : X3 0 1 (nrm n) (s_unit (v3 n))) by (apply (nrm_axial prec emax lm); assumption).
    destruct (nrm_signs t L d P Rd2 Rd Fd Nd LB' L1') as (Fk & (B0 & B1 & B2) & S0 & S1 & S2). destruct (dot_axis _ _ _ NX (axial_unit _ An) Fk) as [Q1 Q2]. pose proof (axial_sign _ _ _ An S0 S1 S2) as Sg. rewrite <- Q2 in Sg. destruct Sg as [Sn Sp].
    assert (Qb : Rabs (val (vdotn (nrm n) (nrm d))) <= 2).
    { rewrite Q2. pose proof NX as ((_ & _ & z0 & E0 & C0) & (_ & _ & z1 & E1 & C1) & (_ & _ & z2 & E2 & C2)). pose proof (proj2 (axial_unit _ An)) as AU. set (w := s_unit (v3 n)) in *. cbn [bpow] in E0, E1, E2. rewrite Rmult_1_r in E0, E1, E2.
      apply Rle_trans with 1; [| lra]. unfold vdot. destruct AU as [[-> ->] | [[-> ->] | [-> ->]]]; rewrite !Rmult_0_l, ?Rplus_0_l, ?Rplus_0_r, Rabs_mult; rewrite <- (Rmult_1_r 1); apply Rmult_le_compat; try apply Rabs_pos; rewrite ?E0, ?E1, ?E2; assumption. }
    destruct (fv_lit_0 prec emax) as [F0 V0]. change (@f_lit prec emax Hp Hm 0 1) with (@n0 F : bf) in F0, V0.
    pose proof (side_dot' prec emax lm n s K R K1 KB Fn An o Fo) as Ko. pose proof (side_dot prec emax lm n s K R K1 KB Fn An p Fp) as Kp. pose proof (side_dot' prec emax lm n s K R K1 KB Fn An p Fp) as Kp'.
    assert (Un : forall v, vdot (s_unit (v3 n)) v = / norm (v3 n) * vdot (v3 n) v) by (intro v; apply vdot_scale_l). assert (In' : 0 < / norm (v3 n)) by (apply Rinv_0_lt_compat, norm_nz, (proj1 An)).
    split; [| split].
    - intro D. rewrite (neqb_val_false prec emax lm _ _ Q1 F0) by (rewrite V0; apply Sn in D; lra). rewrite (ngt_val_false prec emax lm _ _ Q1 F0) by (rewrite V0; apply Sn in D; lra).
      pose proof (X_minus prec emax lm s _ _ _ _ _ _ R Ko Kp ltac:(lra)) as (G1 & G2 & k & Ek & Bk). rewrite <- vdot_sub_r in G2, Ek. rewrite Un in G2, Ek.
      destruct (div_sign prec emax lm (nsub F (vdotn o (nrm n)) (vdotn (nrm n) p)) (vdotn (nrm n) (nrm d)) G1 Q1 (proj2 Sn D) Qb) as [T1 T2]. cbn [ndiv Ieee].
      pose proof (ray_meets_plane (v3 p) (v3 d) (v3 o) (v3 n) D) as Mt. split; intro M.
      + rewrite T1; [eexists; reflexivity |]. rewrite G2. apply Mt in M. nra.
      + rewrite T2; [reflexivity |]. rewrite G2. assert (0 < vdot (v3 n) (vsub (v3 o) (v3 p))) by (apply Rnot_le_lt; intro C; apply M, Mt, C).
        rewrite Ek. assert (Bs := bpow_gt_0 radix2 s). assert (1 <= k)%Z. { assert (0 < IZR k) as Hk by nra. apply lt_IZR in Hk. lia. } apply IZR_le in H0. apply Rle_trans with (bpow radix2 s); [apply bpow_le | nra].
        destruct R2, R. unfold Prec_lt_emax in Hm. lia.
    - intro D. assert (Zq : val (vdotn (nrm n) (nrm d)) = 0). { destruct (Rtotal_order (val (vdotn (nrm n) (nrm d))) 0) as [H | [H | H]]; [apply Sn in H; lra | exact H | apply Sp in H; lra]. }
      rewrite (proj2 (neqb_val prec emax lm _ _ Q1 F0)) by (rewrite V0; exact Zq). destruct Ko as (K01 & K02 & _), Kp' as (K11 & K12 & _).
      assert (Eq : val (vdotn o (nrm n)) = val (vdotn p (nrm n)) <-> s_plane (v3 o) (v3 n) (v3 p)).
      { rewrite K02, K12, !Un. unfold s_plane. rewrite vdot_sub_r. split; intro H; [apply Rmult_eq_reg_l in H; lra | f_equal; lra]. }
      split; intro M.
      + rewrite (proj2 (neqb_val prec emax lm _ _ K01 K11)) by (apply Eq; exact M). reflexivity.
      + rewrite (neqb_val_false prec emax lm _ _ K01 K11) by (intro H; apply M, Eq, H). reflexivity.
    - intro D. apply Sp in D. rewrite (neqb_val_false prec emax lm _ _ Q1 F0) by (rewrite V0; lra). rewrite (proj2 (ngt_val prec emax lm _ _ Q1 F0)) by (rewrite V0; lra). reflexivity.
  Qed.
  (** ---- ray along an axis against a sphere ---- *)
  Lemma ray_meets_surface o d c r : d <> vzero -> 0 <= r -> (meets (s_ray o d) (s_surface c r) <-> ~ (0 < rsb o d c /\ 0 < rsc o c r) /\ 0 <= rsd o d c r).
  Proof.
    intros Nd Pr. set (B := rsb o d c). set (D := rsd o d c r). assert (DE : D = B * B - rsc o c r) by reflexivity. split.
    - intros (x & Hx & Hs). apply (ray_unit o d x Nd) in Hx. destruct Hx as (t & Pt & ->). apply (ray_quad o d c t r Nd Pr) in Hs. fold B D in Hs. split; [intros [H1 H2]; nra | rewrite <- Hs; apply Rle_0_sqr].
    - intros [H1 H2]. pose proof (sqrt_pos D) as Sp. pose proof (sqrt_sqrt D H2) as Sq. exists (vadd o (vscale (- B + sqrt D) (unit d))). assert (Pt : 0 <= - B + sqrt D).
      { destruct (Rlt_dec 0 B) as [HB | HB]; [| lra]. assert (rsc o c r <= 0) by (apply Rnot_lt_le; intro; apply H1; split; assumption). nra. }
      split; [apply (ray_unit o d _ Nd); exists (- B + sqrt D); split; [exact Pt | reflexivity] |]. apply (ray_quad o d c _ r Nd Pr). fold B D. nra.
  Qed.
  Theorem ray_sphere_int (p d c : vec) (r : F) s K e f (x y : shape F) : room s -> room (s + s) -> 1 <= K -> 49 * (K * K) <= full ->
    fix3 s K (p : mat3x1 bf) -> good_normal (d : mat3x1 bf) -> axial (v3 d) -> fix3 s K (c : mat3x1 bf) -> fixed s K (r : bf) -> 0 <= val r -> mk_ray p d e x -> mk_sphere c r f y ->
    (meets (s_ray (v3 p) (v3 d)) (s_surface (v3 c) (val r)) -> exists z, shape_get_intersect x y = Ok (true, Some z)) /\
    (~ meets (s_ray (v3 p) (v3 d)) (s_surface (v3 c) (val r)) -> shape_get_intersect x y = Ok (false, None)).
  Proof.
    intros R R2 K1 KB Fp Fd Ad Fc Fr Pr Mx My. rewrite (ray_meets_surface _ _ _ _ (proj1 Ad) Pr).
    assert (NX : X3 0 1 (nrm d) (s_unit (v3 d))) by (apply (nrm_axial prec emax lm); assumption).
    pose proof (X3_minus prec emax lm s K K p c _ _ R (X3_fix prec emax lm _ _ _ Fp) (X3_fix prec emax lm _ _ _ Fc) ltac:(nra)) as Dl.
    pose proof (X_dot prec emax lm s 0 _ _ _ _ _ _ ltac:(rewrite Z.add_0_r; exact R) Dl NX ltac:(nra)) as Bx. rewrite Z.add_0_r in Bx.
    pose proof (X_dot prec emax lm s s _ _ _ _ _ _ R2 Dl Dl ltac:(nra)) as Dd. pose proof (X_mult prec emax lm s s K K _ _ _ _ R2 (X_fixed _ _ _ _ _ Fr) (X_fixed _ _ _ _ _ Fr) ltac:(nra)) as Rr.
    pose proof (X_minus prec emax lm (s + s) _ _ _ _ _ _ R2 Dd Rr ltac:(nra)) as Cx. pose proof (X_mult prec emax lm s s _ _ _ _ _ _ R2 Bx Bx ltac:(nra)) as BB. pose proof (X_minus prec emax lm (s + s) _ _ _ _ _ _ R2 BB Cx ltac:(nra)) as Qx.
    change (vdot (vsub (v3 p) (v3 c)) (s_unit (v3 d))) with (rsb (v3 p) (v3 d) (v3 c)) in *. change (vdot (vsub (v3 p) (v3 c)) (vsub (v3 p) (v3 c)) - val r * val r) with (rsc (v3 p) (v3 c) (val r)) in *.
    change (rsb (v3 p) (v3 d) (v3 c) * rsb (v3 p) (v3 d) (v3 c) - rsc (v3 p) (v3 c) (val r)) with (rsd (v3 p) (v3 d) (v3 c) (val r)) in Qx.
    pose proof (X_gt prec emax lm _ _ _ _ _ _ _ _ Bx (lit0 prec emax lm s)) as G1. pose proof (X_gt prec emax lm _ _ _ _ _ _ _ _ Cx (lit0 prec emax lm s)) as G2. pose proof (X_lt prec emax lm _ _ _ _ _ _ _ _ Qx (lit0 prec emax lm s)) as G3.
    rewrite (intersect_core (ieee_ordered prec emax lm)). assert (Co : core x y = if (ngt (vdotn (vminus p c) (nrm d)) n0 && ngt (nsub F (vdotn (vminus p c) (vminus p c)) (nmul F r r)) n0)%bool then Ok miss else if nlt (nsub F (nmul F (vdotn (vminus p c) (nrm d)) (vdotn (vminus p c) (nrm d))) (nsub F (vdotn (vminus p c) (vminus p c)) (nmul F r r))) n0 then Ok miss else core x y).
    { apply ray_any_eq in Mx. apply sphere_any in My. subst x y. cbn [core]. rewrite (ray_sphere_any (Nm := F)). cbv zeta. destruct (_ && _)%bool; [reflexivity |]. destruct (nlt _ _); reflexivity. }
    split.
    - intros M. assert (Ov : overlap x y = true).
      { pose proof (proj2 (ray_meets_surface (v3 p) (v3 d) (v3 c) (val r) (proj1 Ad) Pr) M) as (z & Z1 & Z2). apply overlap_of. apply (owns_meet prec emax lm x y z); [eapply own_ray; [exact Mx | apply (fin_of prec emax lm _ _ _ Fp) | apply (proj1 (proj1 Fd)) | exact Z1] | eapply own_sphere; [exact My | apply (fin_of prec emax lm _ _ _ Fc) | apply Fr | unfold s_ball; unfold s_surface in Z2; lra]]. }
      rewrite Ov. destruct M as [M1 M2]. clear Co. apply ray_any_eq in Mx. apply sphere_any in My. subst x y. cbn [core]. rewrite (ray_sphere_any (Nm := F)). cbv zeta.
      replace (ngt (vdotn (vminus p c) (nrm d)) n0 && ngt (nsub F (vdotn (vminus p c) (vminus p c)) (nmul F r r)) n0)%bool with false.
      + replace (nlt (nsub F (nmul F (vdotn (vminus p c) (nrm d)) (vdotn (vminus p c) (nrm d))) (nsub F (vdotn (vminus p c) (vminus p c)) (nmul F r r))) n0) with false; [eexists; reflexivity |]. symmetry. apply not_true_is_false. rewrite G3. lra.
      + symmetry. apply not_true_is_false. rewrite andb_true_iff, G1, G2. exact M1.
    - intro M. destruct (overlap x y); [| reflexivity]. rewrite Co.
      destruct (ngt (vdotn (vminus p c) (nrm d)) n0 && ngt (nsub F (vdotn (vminus p c) (vminus p c)) (nmul F r r)) n0)%bool eqn:E1; [reflexivity |].
      destruct (nlt (nsub F (nmul F (vdotn (vminus p c) (nrm d)) (vdotn (vminus p c) (nrm d))) (nsub F (vdotn (vminus p c) (vminus p c)) (nmul F r r))) n0) eqn:E2; [reflexivity |]. exfalso. apply M. split.
      + rewrite <- G1, <- G2, <- andb_true_iff, E1. discriminate.
      + apply Rnot_lt_le. intro C. apply G3 in C. discriminate C.
  Qed.
End IntR.
