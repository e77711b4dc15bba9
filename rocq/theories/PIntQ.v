(** PIntQ.v — intersection queries on fixed-point data in IEEE arithmetic (C119). *)
From Coq Require Import Reals List ZArith NArith Bool Lra Lia Psatz.
From Flocq Require Import Core Relative BinarySingleNaN.
Import ListNotations.
From Verif Require Import Base Num Vec Mat Bound Shape Intersect Float FloatFacts FloatRound Order SpecMat SpecRound SpecGeom SpecBound SpecBuild SpecInt
  PMat PBound PShape PInter PBuild PRound ExactFacts PGeo1 PGeo2 PIeee1 PIeee2 PIeee3 PIeee5 PIeee6 PNan PMirror1 PMirror2 PInt PInt2 PSqr.
Local Open Scope R_scope.

Section IntQ.
  Context (prec emax : Z) {Hp : Prec_gt_0 prec} {Hm : Prec_lt_emax prec emax} (lm : libm (binary_float prec emax)).
  Notation bf := (binary_float prec emax).
  Notation fmt := (SpecFloat.fexp prec emax).
  Notation rnd := (round radix2 fmt ZnearestE).
  Notation F := (@Ieee prec emax Hp Hm lm).
  Notation val := (@B2R prec emax).
  Notation fin x := (is_finite (x : bf) = true).
  Notation full := (bpow radix2 prec).
  Notation room := (room prec emax).
  Notation X := (X prec emax).
  Notation vec := (mat3x1 F).
  Notation u := (uro prec).
  Notation v3 v := (v3 (v : mat3x1 bf)).
  Definition X3 (s : Z) (K : R) (v : vec) (w : V3) : Prop := X s K (c0 v) (vx w) /\ X s K (c1 v) (vy w) /\ X s K (c2 v) (vz w).
  Lemma X3_fix s K (v : vec) : fix3 s K (v : mat3x1 bf) -> X3 s K v (v3 v).
  Proof. destruct v as [[x y z]]. intros (A & B & C). split; [| split]; apply X_fixed; assumption. Qed.
  Lemma X_gt s t K L x y a b : X s K x a -> X t L y b -> (ngt (x : F) (y : F) = true <-> b < a).
  Proof. intros (A & <- & _) (B & <- & _). apply ngt_val; assumption. Qed.
  Lemma X_lt s t K L x y a b : X s K x a -> X t L y b -> (nlt (x : F) (y : F) = true <-> a < b).
  Proof. intros (A & <- & _) (B & <- & _). apply nlt_val; assumption. Qed.
  Lemma X3_minus s K L (v w : vec) a b : room s -> X3 s K v a -> X3 s L w b -> K + L <= full -> X3 s (K + L) (vminus v w) (vsub a b).
  Proof. intros R (A & B & C) (A' & B' & C') H. split; [| split]; apply (X_minus prec emax lm); assumption. Qed.
  Lemma X_dot s t K L (v w : vec) a b : room (s + t) -> X3 s K v a -> X3 t L w b -> 3 * (K * L) <= full -> X (s + t) (3 * (K * L)) (vdotn v w) (vdot a b).
  Proof.
    intros R (A & B & C) (A' & B' & C') H. assert (P : 0 <= K * L) by (apply Rmult_le_pos; [exact (X_pos _ _ _ _ _ _ A) | exact (X_pos _ _ _ _ _ _ A')]).
    apply (X_ext prec emax) with (K := K * L + K * L + K * L) (v := vx a * vx b + vy a * vy b + vz a * vz b); [| reflexivity | lra].
    apply (X_plus prec emax lm); [exact R | apply (X_plus prec emax lm); [exact R | | | lra] | | lra]; apply (X_mult prec emax lm); try assumption; lra.
  Qed.
  (** a rounded square root is on the right side of an integer *)
  Lemma sqrt_cut s N' (x : F) (n m : Z) : room (s + s) -> X (s + s) N' x (IZR n * bpow radix2 (s + s)) -> (0 <= n)%Z -> (0 <= m)%Z -> 2 * (IZR m * IZR m + 1) < full ->
    fin (nsqrt F x) /\ (val (nsqrt F x) <= IZR m * bpow radix2 s <-> (n <= m * m)%Z).
  Proof.
    intros R (Fx & Ex & _) Hn Hm' Hf. assert (Pn : 0 <= IZR n) by (apply IZR_le; exact Hn). assert (Pm : 0 <= IZR m) by (apply IZR_le; exact Hm').
    assert (Pv : 0 <= val x) by (rewrite Ex; apply Rmult_le_pos; [exact Pn | apply bpow_ge_0]).
    destruct (sqrt_ok prec emax x Fx Pv) as [Q1 Q2]. cbn [nsqrt Ieee]. split; [exact Q1 |]. rewrite Q2, Ex, bpow_plus. clear Q1 Q2.
    assert (B0 := bpow_gt_0 radix2 s). replace (IZR n * (bpow radix2 s * bpow radix2 s)) with (IZR n * Rsqr (bpow radix2 s)) by reflexivity. rewrite sqrt_mult_alt, sqrt_Rsqr by lra.
    assert (Hr : room s) by (destruct R; unfold Prec_gt_0 in Hp; unfold Prec_lt_emax in Hm; split; lia).
    assert (Im : IZR m <= full) by nra. destruct (int_fmt prec emax s m Hr ltac:(rewrite Rabs_pos_eq; lra)) as [Jm _].
    assert (S0 := sqrt_pos (IZR n)). assert (SS := sqrt_sqrt (IZR n) Pn). split; intro H.
    - apply Z.nlt_ge. intro L. assert (Ln : IZR m * IZR m + 1 <= IZR n) by (rewrite <- mult_IZR, <- plus_IZR; apply IZR_le; lia).
      assert (S1 : 1 <= sqrt (IZR n)) by nra.
      destruct (rnd_rel prec emax (sqrt (IZR n) * bpow radix2 s)) as (e & Be & Er).
      { rewrite Rabs_pos_eq by (apply Rmult_le_pos; lra). apply Rle_trans with (1 * bpow radix2 s); [| apply Rmult_le_compat_r; lra]. rewrite Rmult_1_l. apply bpow_le. destruct R. unfold Prec_lt_emax in Hm. lia. }
      apply Rabs_le_inv in Be.
      assert (U : 0 < u) by apply bpow_gt_0.
      assert (U2 : u * full = 1) by (unfold uro; rewrite <- bpow_plus; replace (- prec + prec)%Z with 0%Z by lia; reflexivity).
      assert (U3 : 2 * (IZR m * IZR m + 1) * u < 1) by (apply Rlt_le_trans with (full * u); [apply Rmult_lt_compat_r; assumption | lra]).
      assert (K1 : sqrt (IZR n) * (1 - u) <= IZR m) by (apply Rmult_le_reg_r with (bpow radix2 s); [exact B0 |]; assert (0 <= sqrt (IZR n) * bpow radix2 s) by (apply Rmult_le_pos; lra); nra).
      set (q := sqrt (IZR n)) in *. assert (U4 : u <= / 2) by nra. assert (K2 : (q * (1 - u)) * (q * (1 - u)) <= IZR m * IZR m) by (apply Rmult_le_compat; nra).
      assert (K3 : IZR n * (1 - 2 * u) <= IZR n * ((1 - u) * (1 - u))) by (apply Rmult_le_compat_l; [exact Pn | nra]). nra.
    - rewrite <- Jm. apply (rnd_le prec emax). apply Rmult_le_compat_r; [lra |]. rewrite <- (sqrt_Rsqr (IZR m)) by exact Pm. apply sqrt_le_1_alt. unfold Rsqr. rewrite <- mult_IZR. apply IZR_le, H.
  Qed.
  Lemma lit0 s : X s 0 (n0 : F) 0. Proof. apply X_zero. Qed.
  (** ---- unit vectors along the axes are exact ---- *)
  Lemma unit_comp (w N0 : R) : w = 0 \/ N0 = Rabs w -> 0 < N0 -> exists z : Z, / N0 * w = IZR z /\ (z = 0 \/ z = 1 \/ z = -1)%Z.
  Proof.
    intros [-> | ->] P. { exists 0%Z. split; [ring | tauto]. }
    destruct (Rle_dec 0 w) as [L | L].
    - exists 1%Z. rewrite Rabs_pos_eq in * by exact L. split; [field; lra | tauto].
    - exists (-1)%Z. rewrite Rabs_left in * by lra. split; [field; lra | tauto].
  Qed.
  Lemma X_unit (x : F) (z : Z) : fin x -> val x = IZR z -> (z = 0 \/ z = 1 \/ z = -1)%Z -> X 0 1 x (IZR z).
  Proof. intros A B C. split; [exact A |]. split; [exact B |]. exists z. split; [cbn [bpow]; ring |]. rewrite <- abs_IZR. apply IZR_le. lia. Qed.
  Lemma unit_fv z : (z = 0 \/ z = 1 \/ z = -1)%Z -> exists b : bf, fin b /\ val b = IZR z.
  Proof.
    intros [-> | [-> | ->]].
    - exists (n0 : F). exact (fv_lit_0 prec emax).
    - exists (n1 : F). exact (fv_lit_1 prec emax).
    - exists (Bopp (n1 : F)). destruct (fv_lit_1 prec emax) as [A B]. rewrite is_finite_Bopp, B2R_Bopp. split; [exact A |]. change (- val (@f_lit prec emax Hp Hm 1 1) = -1). rewrite B. lra.
  Qed.
  Lemma nrm_axial (n : vec) : good_normal (n : mat3x1 bf) -> axial (v3 n) -> X3 0 1 (nrm n) (s_unit (v3 n)).
  Proof.
    intros Gn A. pose proof (axial_norm _ A) as NN. assert (N0 := norm_nz _ (proj1 A)). destruct (mag_axial prec emax lm n Gn A) as [FM NV].
    assert (Cp : forall (x : F) w, fin x -> val x = w -> w = 0 \/ norm (v3 n) = Rabs w -> X 0 1 (ndiv F x (vmag n)) (/ norm (v3 n) * w)).
    { intros x w Fx Ew C. destruct (unit_comp w _ C N0) as (z & Ez & Cz). rewrite Ez. destruct (unit_fv z Cz) as (b & Fb & Eb).
      destruct (fv_div_exact prec emax (x : bf) (vmag n : bf) b Fx) as [G1 G2]; [rewrite NV; lra | rewrite NV, Ew, Eb, <- Ez; field; lra |]. apply X_unit; [exact G1 | rewrite <- Eb; exact G2 | exact Cz]. }
    destruct Gn as [[D _] _]. destruct n as [[x y z]]. destruct D as (F0 & F1 & F2). cbn [SpecBuild.v3 vx vy vz] in *. rewrite NN in Cp.
    split; [| split]; cbn [nrm c0 c1 c2 s_unit vscale vx vy vz SpecBuild.v3]; rewrite NN; refine (Cp _ _ _ _ _); try assumption; try reflexivity; destruct A as [_ A]; cbn [SpecBuild.v3 vx vy vz] in *;
      destruct A as [[-> ->] | [[-> ->] | [-> ->]]]; rewrite ?Rabs_R0, ?Rplus_0_r, ?Rplus_0_l; first [left; reflexivity | right; reflexivity].
  Qed.
  (** ---- spheres ---- *)
  Lemma overlap_of (x y : shape F) : ibound_intersect (shape_get_bound x) (shape_get_bound y) = Ok true -> overlap x y = true.
  Proof. intro H. unfold overlap. rewrite H. reflexivity. Qed.
  Lemma fin_of s K (v : vec) : fix3 s K (v : mat3x1 bf) -> fin3 (v : mat3x1 bf).
  Proof. destruct v as [[x y z]]. intros ([A _] & [B _] & [C _]). repeat split; assumption. Qed.
  Theorem balls_int (a b : vec) (r q : F) e f (x y : shape F) s K : room s -> room (s + s) -> 1 <= K -> 12 * (K * K) <= full -> fix3 s K (a : mat3x1 bf) -> fix3 s K (b : mat3x1 bf) -> fixed s K (r : bf) -> fixed s K (q : bf) ->
    0 <= val r -> 0 <= val q -> mk_sphere a r e x -> mk_sphere b q f y ->
    (meets (s_ball (v3 a) (val r)) (s_ball (v3 b) (val q)) -> exists p, shape_get_intersect x y = Ok (true, Some p)) /\
    (~ meets (s_ball (v3 a) (val r)) (s_ball (v3 b) (val q)) -> shape_get_intersect x y = Ok (false, None)).
  Proof.
    intros R R2 K1 KB Fa Fb Fr Fq Pr Pq Mx My. assert (KF : 2 * K <= full) by nra.
    pose proof (X3_minus s K K b a _ _ R (X3_fix _ _ _ Fb) (X3_fix _ _ _ Fa) ltac:(lra)) as C. pose proof (X_dot _ _ _ _ _ _ _ _ R2 C C ltac:(nra)) as CC.
    pose proof (X_plus prec emax lm s K K _ _ _ _ R (X_fixed _ _ _ _ _ Fq) (X_fixed _ _ _ _ _ Fr) ltac:(lra)) as (FS & VS & m & Em & Bm).
    assert (Key : fin (vmag (vminus b a)) /\ (val (vmag (vminus b a)) <= val (nadd F q r) <-> dist (v3 b) (v3 a) <= val r + val q)).
    { pose proof CC as (_ & _ & n & En & Bn). rewrite En in CC. assert (B0 := bpow_gt_0 radix2 s). assert (B2 := bpow_gt_0 radix2 (s + s)).
      assert (Nn : (0 <= n)%Z). { apply le_IZR. apply Rmult_le_reg_r with (bpow radix2 (s + s)); [exact B2 |]. rewrite Rmult_0_l, <- En. unfold vdot. nra. }
      assert (Nm : (0 <= m)%Z). { apply le_IZR. apply Rmult_le_reg_r with (bpow radix2 s); [exact B0 |]. rewrite Rmult_0_l, <- Em. lra. }
      destruct (sqrt_cut s _ _ n m R2 CC Nn Nm) as [G1 G2]. { rewrite Rabs_pos_eq in Bm by (apply IZR_le; exact Nm). assert (0 <= IZR m) by (apply IZR_le; exact Nm). nra. }
      split; [exact G1 |]. rewrite VS, Em. change (vmag (vminus b a)) with (nsqrt F (vdotn (vminus b a) (vminus b a))). rewrite G2. rewrite (Rplus_comm (val r)), Em. unfold dist, norm. rewrite En.
      assert (Im : 0 <= IZR m) by (apply IZR_le; exact Nm). split; intro L.
      - rewrite <- (sqrt_Rsqr (IZR m * bpow radix2 s)) by (apply Rmult_le_pos; lra). apply sqrt_le_1_alt. unfold Rsqr. rewrite bpow_plus. apply IZR_le in L. rewrite mult_IZR in L. nra.
      - apply le_IZR. rewrite mult_IZR. apply Rmult_le_reg_r with (bpow radix2 (s + s)); [exact B2 |]. assert (Q := sqrt_sqrt (IZR n * bpow radix2 (s + s)) ltac:(apply Rmult_le_pos; [apply IZR_le; exact Nn | lra])).
        rewrite <- Q. replace (IZR m * IZR m * bpow radix2 (s + s)) with ((IZR m * bpow radix2 s) * (IZR m * bpow radix2 s)) by (rewrite bpow_plus; ring). apply Rmult_le_compat; try apply sqrt_pos; exact L. }
    destruct Key as [FM Key]. rewrite !(intersect_core (ieee_ordered prec emax lm)). split.
    - intro M. pose proof M as M'. destruct M' as (z & Z1 & Z2). rewrite (overlap_of x y).
      + apply (balls_meet _ _ _ _ Pr Pq) in M. apply Key in M. apply sphere_any in Mx. apply sphere_any in My. subst x y. cbn [core]. rewrite (sphere_sphere_any (Nm := F)). cbv zeta. rewrite (ngt_val_false prec emax lm _ _ FM FS M). eexists. reflexivity.
      + apply (owns_meet prec emax lm x y z); [eapply own_sphere; [exact Mx | apply (fin_of _ _ _ Fa) | apply Fr | exact Z1] | eapply own_sphere; [exact My | apply (fin_of _ _ _ Fb) | apply Fq | exact Z2]].
    - intro M. destruct (overlap x y); [| reflexivity]. apply sphere_any in Mx. apply sphere_any in My. subst x y. cbn [core]. rewrite (sphere_sphere_any (Nm := F)). cbv zeta.
      replace (ngt (vmag (vminus b a)) (nadd F q r)) with true; [reflexivity |]. symmetry. apply (ngt_val prec emax lm _ _ FM FS). apply Rnot_le_lt. intro L. apply M. apply (balls_meet _ _ _ _ Pr Pq). apply Key. exact L.
  Qed.
  (** ---- cubes ---- *)
  Lemma X_fin s K x v : X s K x v -> fin x. Proof. intros (A & _). exact A. Qed.
  Lemma cube_overlap (c p : vec) (r : F) s K (x y : shape F) : room s -> 2 * K <= full -> fix3 s K (c : mat3x1 bf) -> fix3 s K (p : mat3x1 bf) -> fixed s K (r : bf) ->
    shape_get_bound x = BBox (cube_any c r) -> shape_get_bound y = BBox (AABB (v3x1 p) (v3x1 p)) -> (overlap x y = true <-> s_cube (v3 c) (val r) (v3 p)).
  Proof.
    intros R H Fc Fp Fr Bx By. unfold overlap. rewrite Bx, By, ibb, intersect_eval. destruct c as [[x0 x1 x2]], p as [[p0 p1 p2]]. destruct Fc as (C0 & C1 & C2), Fp as (P0 & P1 & P2).
    assert (One : forall (a q : F), fixed s K (a : bf) -> fixed s K (q : bf) -> (ngt (nsub F a r) q || nlt (nadd F a r) q)%bool = false <-> Rabs (val q - val a) <= val r).
    { intros a q Fa Fq. pose proof (X_minus prec emax lm s K K _ _ _ _ R (X_fixed _ _ _ _ _ Fa) (X_fixed _ _ _ _ _ Fr) ltac:(lra)) as A. pose proof (X_plus prec emax lm s K K _ _ _ _ R (X_fixed _ _ _ _ _ Fa) (X_fixed _ _ _ _ _ Fr) ltac:(lra)) as B.
      pose proof (X_gt _ _ _ _ _ _ _ _ A (X_fixed _ _ _ _ _ Fq)) as G. pose proof (X_lt _ _ _ _ _ _ _ _ B (X_fixed _ _ _ _ _ Fq)) as Lt'. rewrite orb_false_iff. rewrite <- !not_true_iff_false, G, Lt'. split.
      - intros [U1 U2]. apply Rabs_le. lra.
      - intro U. apply Rabs_le_inv in U. lra. }
    pose proof (One x0 p0 C0 P0) as O0. pose proof (One x1 p1 C1 P1) as O1. pose proof (One x2 p2 C2 P2) as O2. unfold apart, lo, up. cbn [cube_any b_lower b_upper v3x1 comps3].
    cbn [s_cube SpecBuild.v3 vx vy vz] in *. rewrite !andb_true_iff, !negb_true_iff. unfold s_cube. cbn [vx vy vz]. rewrite <- O0, <- O1, <- O2. tauto.
  Qed.
  Theorem box_int (c p : vec) (h : F) e f (x y : shape F) s K : room s -> 2 * K <= full -> fix3 s K (c : mat3x1 bf) -> fix3 s K (p : mat3x1 bf) -> fixed s K (h : bf) -> mk_box c h e x -> mk_point p f y ->
    (s_cube (v3 c) (val h) (v3 p) -> shape_get_intersect x y = Ok (true, Some p)) /\ (~ s_cube (v3 c) (val h) (v3 p) -> shape_get_intersect x y = Ok (false, None)).
  Proof.
    intros R H Fc Fp Fh Mx My. apply box_any in Mx. apply point_any in My. rewrite (intersect_core (ieee_ordered prec emax lm)).
    pose proof (cube_overlap c p h s K x y R H Fc Fp Fh ltac:(subst; reflexivity) ltac:(subst; reflexivity)) as O. subst x y. split; intro M.
    - apply O in M. rewrite M. reflexivity.
    - destruct (overlap _ _); [exfalso; apply M, O; reflexivity | reflexivity].
  Qed.
  Theorem ball_point_int (c p : vec) (r : F) e f (x y : shape F) s K : room s -> 2 * K <= full -> fix3 s K (c : mat3x1 bf) -> fix3 s K (p : mat3x1 bf) -> fixed s K (r : bf) -> mk_sphere c r e x -> mk_point p f y ->
    (s_cube (v3 c) (val r) (v3 p) -> shape_get_intersect x y = Ok (true, Some p)) /\ (~ s_cube (v3 c) (val r) (v3 p) -> shape_get_intersect x y = Ok (false, None)).
  Proof.
    intros R H Fc Fp Fh Mx My. apply sphere_any in Mx. apply point_any in My. rewrite (intersect_core (ieee_ordered prec emax lm)).
    pose proof (cube_overlap c p r s K x y R H Fc Fp Fh ltac:(subst; reflexivity) ltac:(subst; reflexivity)) as O. subst x y. split; intro M.
    - pose proof M as M'. apply O in M. rewrite M. cbn [core]. rewrite (sphere_point_any (Nm := F)). cbv zeta.
      destruct (X3_minus s K K p c _ _ R (X3_fix _ _ _ Fp) (X3_fix _ _ _ Fc) ltac:(lra)) as (D0 & D1 & D2). destruct M' as (M0 & M1 & M2). apply Rabs_le_inv in M0, M1, M2.
      assert (G : forall d v, X s (K + K) d v -> v <= val r -> ngt (d : F) r = false). { intros d v D L. apply not_true_is_false. intro T. apply (X_gt _ _ _ _ _ _ _ _ D (X_fixed _ _ _ _ _ Fh)) in T. lra. }
      rewrite (G _ _ D0), (G _ _ D1), (G _ _ D2); [reflexivity | cbn; lra | cbn; lra | cbn; lra].
    - destruct (overlap _ _); [exfalso; apply M, O; reflexivity | reflexivity].
  Qed.
  (** ---- planes perpendicular to an axis ---- *)
  Section Plane.
    Variables (o n : vec) (s : Z) (K : R) (f : F) (y : shape F).
    Hypothesis P : (9 < prec)%Z.
    Hypothesis R : room s.
    Hypothesis K1 : 1 <= K.
    Hypothesis KB : 7 * K <= full.
    Hypothesis Fo : fix3 s K (o : mat3x1 bf).
    Hypothesis Fn : good_normal (n : mat3x1 bf).
    Hypothesis An : axial (v3 n).
    Hypothesis My : mk_plane o n f y.
    Lemma plane_eq : y = SPlane (MkPlane o (nrm n) whole_any (nabs F f)). Proof. apply plane_any, My. Qed.
    Lemma N1 : X3 0 1 (nrm n) (s_unit (v3 n)). Proof. apply nrm_axial; assumption. Qed.
    Lemma s0 : (0 + s)%Z = s. Proof. reflexivity. Qed.
    Lemma side_dot (p : vec) : fix3 s K (p : mat3x1 bf) -> X s (3 * K) (vdotn (nrm n) p) (vdot (s_unit (v3 n)) (v3 p)).
    Proof. intro Fp. pose proof (X_dot 0 s 1 K _ _ _ _ R N1 (X3_fix _ _ _ Fp) ltac:(lra)) as D. rewrite s0 in D. apply (X_ext prec emax) with (1 := D); [reflexivity | lra]. Qed.
    Lemma side_dot' (p : vec) : fix3 s K (p : mat3x1 bf) -> X s (3 * K) (vdotn p (nrm n)) (vdot (s_unit (v3 n)) (v3 p)).
    Proof.
      intro Fp. replace (vdotn p (nrm n)) with (vdotn (nrm n) p); [apply side_dot, Fp |]. unfold vdotn. rewrite (nmul_comm_F prec emax lm (c0 p)), (nmul_comm_F prec emax lm (c1 p)), (nmul_comm_F prec emax lm (c2 p)). reflexivity.
    Qed.
    Lemma gap_to (p q : vec) : fix3 s K (p : mat3x1 bf) -> fix3 s K (q : mat3x1 bf) -> X s (6 * K) (nsub F (vdotn (nrm n) p) (vdotn (nrm n) q)) (vdot (s_unit (v3 n)) (vsub (v3 p) (v3 q))).
    Proof.
      intros Fp Fq. pose proof (X_minus prec emax lm s _ _ _ _ _ _ R (side_dot p Fp) (side_dot q Fq) ltac:(lra)) as D. apply (X_ext prec emax) with (1 := D); [symmetry; apply vdot_sub_r | lra].
    Qed.
    (** the distance from the plane, exact; the tolerance is any finite float *)
    Theorem plane_point_int (p : vec) g (x : shape F) : fin f -> fix3 s K (p : mat3x1 bf) -> mk_point p g x ->
      let d := vdot (s_unit (v3 n)) (vsub (v3 p) (v3 o)) in
      (Rabs d <= Rabs (val f) -> shape_get_intersect y x = Ok (true, Some p)) /\ (Rabs (val f) < Rabs d -> shape_get_intersect y x = Ok (false, None)).
    Proof.
      intros Ff Fp Mx d. apply point_any in Mx. rewrite (intersect_symmetric (ieee_ordered prec emax lm)) by (rewrite plane_eq, Mx; discriminate). rewrite (intersect_core (ieee_ordered prec emax lm)), plane_eq.
      rewrite (plane_overlap (ieee_ordered prec emax lm)) by reflexivity. rewrite Mx. cbn [core]. rewrite (plane_point_any (Nm := F)).
      destruct (gap_to o p Fo Fp) as (G1 & G2 & _). destruct (nabs_val prec emax lm f Ff) as [A1 A2]. pose proof (within_zero prec emax lm (nabs F f) _ ltac:(lia) A1 G1) as W. rewrite A2, G2 in W.
      assert (E : Rabs (vdot (s_unit (v3 n)) (vsub (v3 o) (v3 p))) = Rabs d). { unfold d. rewrite <- Rabs_Ropp. f_equal. rewrite !vdot_sub_r. ring. } rewrite E in W. split; intro H.
      - rewrite (proj2 W H). reflexivity.
      - replace (Shape.within _ _ _) with false; [reflexivity |]. symmetry. apply not_true_is_false. intro T. apply W in T. lra.
    Qed.
    (** the centre is above the plane by at most the radius (this is the test of the code, C53, C54) *)
    Theorem sphere_plane_int (c : vec) (r : F) g (x : shape F) : fix3 s K (c : mat3x1 bf) -> fin r -> mk_sphere c r g x ->
      let d := vdot (s_unit (v3 n)) (vsub (v3 c) (v3 o)) in
      (d <= val r -> exists p, shape_get_intersect x y = Ok (true, Some p)) /\ (val r < d -> shape_get_intersect x y = Ok (false, None)).
    Proof.
      intros Fc Fr Mx d. apply sphere_any in Mx. rewrite (intersect_core (ieee_ordered prec emax lm)), plane_eq. rewrite (plane_overlap (ieee_ordered prec emax lm)) by reflexivity. rewrite Mx. cbn [core]. rewrite (sphere_plane_any (Nm := F)). cbv zeta.
      destruct (gap_to c o Fc Fo) as (G1 & G2 & _). split; intro H.
      - rewrite (ngt_val_false prec emax lm _ _ G1 Fr) by (rewrite G2; exact H). eexists. reflexivity.
      - rewrite (proj2 (ngt_val prec emax lm _ _ G1 Fr)) by (rewrite G2; exact H). reflexivity.
    Qed.
  End Plane.
End IntQ.
