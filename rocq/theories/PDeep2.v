(** PDeep2.v — two balls of ordinary size, and the GJK search up to its first triangle, in IEEE arithmetic (C110). *)
From Coq Require Import Reals List ZArith NArith Bool Lra Lia Psatz.
From Flocq Require Import Core BinarySingleNaN Relative.
Import ListNotations.
From Verif Require Import Base Num Vec Mat Bound Shape Gjk Intersect Float Exact FloatFacts FloatRound Order SpecMat SpecGeom SpecBound
  SpecRound SpecBuild SpecTrace ExactFacts PMat PShape PGeo1 PBuild PSup2 PRound PRound2 PRound3 PIeee1 PIeee2 PIeee3 PIeee5 PIeee6 PIeee7 PPrismF PPrismL PRayR PNan2 PMirror1 PMirror3 PDeep0 PDeep1 PFar0 PFar1.
Local Open Scope R_scope.

Section Deep2.
  Context (prec emax : Z) {Hp : Prec_gt_0 prec} {Hm : Prec_lt_emax prec emax} (lm : libm (binary_float prec emax)).
  Notation bf := (binary_float prec emax).
  Notation fmt := (SpecFloat.fexp prec emax).
  Notation rnd := (round radix2 fmt ZnearestE).
  Notation val := (@B2R prec emax).
  Notation fin x := (is_finite (x : bf) = true).
  Notation u := (uro prec).
  Notation et := (eta prec emax).
  Notation fv := (fv prec emax).
  Notation bnd := (bnd prec emax).
  Notation bnd3 := (bnd3 prec emax lm).
  Notation F := (@Ieee prec emax Hp Hm lm).
  Notation vec := (mat3x1 F).
  Notation w3 v := (v3 (v : mat3x1 bf)).
  Notation sz := (sz prec emax).
  Variables (ca cb : vec) (ra rb : F).
  Notation C := (vsub (w3 ca) (w3 cb)).
  Notation K := (val ra + val rb).
  Notation S := (norm (w3 ca) + norm (w3 cb) + val ra + val rb).
  Notation L := (emax / 8)%Z.
  Hypotheses (HP : (9 < prec)%Z) (HE : (128 <= emax)%Z) (Fa : fin3 (ca : mat3x1 bf)) (Fb : fin3 (cb : mat3x1 bf)) (Fra : fin ra) (Frb : fin rb)
    (Ra : 0 <= val ra) (Rb : 0 <= val rb) (KL : bpow radix2 (- L) <= K) (SL : S <= bpow radix2 L) (US : 262144 * u * S <= K).
  Lemma L_ok : (16 <= L /\ 8 * L <= emax /\ 4 * L <= emax / 2)%Z.
  Proof. pose proof (Z.div_mod emax 8 ltac:(lia)). pose proof (Z.mod_pos_bound emax 8 ltac:(lia)). pose proof (Z.div_mod emax 2 ltac:(lia)). pose proof (Z.mod_pos_bound emax 2 ltac:(lia)). lia. Qed.
  Lemma K_pos : 0 < K. Proof. eapply Rlt_le_trans; [apply bpow_gt_0 | exact KL]. Qed.
  Lemma KS : K <= S. Proof. pose proof (norm_pos (w3 ca)). pose proof (norm_pos (w3 cb)). lra. Qed.
  Lemma et_S : 8 * et <= u * S.
  Proof.
    pose proof KS as H. pose proof (u_pos prec) as U0. rewrite (PRound2.et_u prec emax). replace (8 * (u * bpow radix2 (2 - emax))) with (u * (bpow radix2 3 * bpow radix2 (2 - emax))) by (change (bpow radix2 3) with 8; ring).
    apply Rmult_le_compat_l; [lra |]. rewrite <- bpow_plus. eapply Rle_trans; [| exact H]. eapply Rle_trans; [| exact KL]. apply bpow_le. pose proof L_ok. lia.
  Qed.
  Lemma uS_pos : 0 < u * S. Proof. pose proof KS. pose proof K_pos. pose proof (u_pos prec). apply Rmult_lt_0_compat; lra. Qed.
  Lemma mod_c (c : vec) : fin3 (c : mat3x1 bf) -> norm (w3 c) <= S -> moderate (c : mat3x1 bf).
  Proof.
    intros Fc N. split; [exact Fc |]. destruct (abs_comp_norm (w3 c)) as (N0 & N1 & N2). destruct c as [[x y z]]. cbn [v3 vx vy vz] in *. cbv zeta.
    assert (B : bpow radix2 L <= bpow radix2 (emax / 2 - 3)) by (apply bpow_le; pose proof L_ok; lia). repeat split; lra.
  Qed.
  Lemma bnd_r (r : F) : fin r -> 0 <= val r <= S -> bnd (emax / 2 - 3) r.
  Proof. intros Fr H. split; [exact Fr |]. rewrite Rabs_pos_eq by lra. assert (B : bpow radix2 L <= bpow radix2 (emax / 2 - 3)) by (apply bpow_le; pose proof L_ok; lia). lra. Qed.
  Lemma sup (d : vec) : good_normal (d : mat3x1 bf) -> exists p, mink ca ra cb rb d = Some p /\ bnd3 (emax / 2) p /\
    dist (w3 p) (vadd C (vscale K (unit (w3 d)))) <= 14 * (u * S) /\ norm (w3 p) <= 103 / 100 * S.
  Proof.
    intro Gd. pose proof (norm_pos (w3 ca)) as Na. pose proof (norm_pos (w3 cb)) as Nb.
    destruct (gjk_support_ieee prec emax lm ca cb ra rb ra rb (AABB (v3x1 ca) (v3x1 ca)) (AABB (v3x1 cb) (v3x1 cb)) d HP Gd) as [p [E [B [D N]]]].
    - apply mod_c; [exact Fa | lra].
    - apply mod_c; [exact Fb | lra].
    - apply bnd_r; [exact Fra | lra].
    - apply bnd_r; [exact Frb | lra].
    - exists p. rewrite mink_any in E. injection E as E. pose proof et_S as T. rewrite (Rabs_pos_eq (val ra)), (Rabs_pos_eq (val rb)) in D, N by assumption.
      pose proof (u_small prec HP) as U. pose proof KS as Q. pose proof K_pos as Q0. assert (u * S <= / 1024 * S) by (apply Rmult_le_compat_r; lra).
      split; [exact E |]. split; [exact B |]. split; lra.
  Qed.
  (** ---- the first two points ---- *)
  Notation d0 := (M3x1 (A3 (@minus1 F) (@n0 F) (@n0 F))).
  Notation d1 := (vtimes (M3x1 (A3 (@minus1 F) (@n0 F) (@n0 F))) (@minus1 F)).
  Lemma axis_good (x y z : F) s : s = 1 \/ s = -1 -> fv x s -> fv y 0 -> fv z 0 -> good_normal (M3x1 (A3 x y z) : mat3x1 bf) /\ unit (v3 (M3x1 (A3 x y z) : mat3x1 bf)) = vscale s e_x /\ norm (v3 (M3x1 (A3 x y z) : mat3x1 bf)) = 1.
  Proof.
    intros Hs [Fx Vx] [Fy Vy] [Fz Vz]. pose proof L_ok as LO.
    assert (N : norm (v3 (M3x1 (A3 x y z) : mat3x1 bf)) = 1).
    { unfold norm. replace (vdot _ _) with 1; [apply sqrt_1 |]. unfold vdot, v3. cbn [vx vy vz]. rewrite Vx, Vy, Vz. destruct Hs as [-> | ->]; ring. }
    split; [split; [split; [repeat split; assumption |] |] | split; [| exact N]].
    - cbv zeta. rewrite Vx, Vy, Vz, Rabs_R0. assert (Q : 1 <= bpow radix2 (emax / 2 - 3)) by (change 1 with (bpow radix2 0); apply bpow_le; lia).
      repeat split; try lra. destruct Hs as [-> | ->]; [rewrite Rabs_R1 | rewrite Rabs_left by lra]; lra.
    - rewrite <- norm_sq, N, Rmult_1_l. change 1 with (bpow radix2 0). apply bpow_le. lia.
    - unfold unit. rewrite N. unfold vscale, v3, e_x. cbn [vx vy vz]. rewrite Vx, Vy, Vz. apply V3_eq; cbn [vx vy vz]; field.
  Qed.
  Lemma d0_vals : fv (@minus1 F) (-1) /\ fv (@n0 F) 0. Proof. split; [apply fv_m1 | apply fv_n0]. Qed.
  Lemma d1_vals : fv (Bmult mode_NE (@minus1 F : bf) (@minus1 F)) 1 /\ fv (Bmult mode_NE (@n0 F : bf) (@minus1 F)) 0.
  Proof. destruct d0_vals as [A B]. split; [replace 1 with (- (-1)) by ring; apply mulm1; exact A | apply (mul0l prec emax _ _ (-1)); [exact B | exact A]]. Qed.
  Lemma start_points : exists s p, mink ca ra cb rb d0 = Some s /\ mink ca ra cb rb d1 = Some p /\ bnd3 (emax / 2) s /\ bnd3 (emax / 2) p /\
    dist (w3 s) (vadd C (vscale K (vscale (-1) e_x))) <= 14 * (u * S) /\ dist (w3 p) (vadd C (vscale K e_x)) <= 14 * (u * S) /\ norm (w3 s) <= 103 / 100 * S /\ norm (w3 p) <= 103 / 100 * S /\
    val (c1 s) = val (c1 p) /\ val (c2 s) = val (c2 p) /\ val (c1 p) = rnd (vy C) /\ val (c2 p) = rnd (vz C) /\ good_normal (d1 : mat3x1 bf) /\ w3 d1 = e_x.
  Proof.
    destruct d0_vals as [A0 B0], d1_vals as [A1 B1]. assert (Hm1 : -1 = 1 \/ -1 = -1) by (right; reflexivity). assert (Hp1 : 1 = 1 \/ 1 = -1) by (left; reflexivity).
    destruct (axis_good _ _ _ (-1) Hm1 A0 B0 B0) as (G0 & U0 & _). destruct (axis_good _ _ _ 1 Hp1 A1 B1 B1) as (G1 & U1 & _).
    destruct (sup d0 G0) as [s (Es & Bs & Ds & Ns)]. destruct (sup d1 G1) as [p (Ep & Bp & Dp & Np)].
    rewrite U0 in Ds. assert (Ud : unit (w3 d1) = vscale 1 e_x) by exact U1. rewrite Ud in Dp.
    replace (vscale 1 e_x) with e_x in Dp by (apply V3_eq; unfold vscale, e_x; cbn [vx vy vz]; ring).
    destruct (axis_mink prec emax lm (-1) ca cb ra rb _ _ _ s Hm1 A0 B0 B0 Fa Fb Fra Frb Es (bnd3_fin prec emax lm _ _ Bs)) as [Y0 Z0].
    destruct (axis_mink prec emax lm 1 ca cb ra rb _ _ _ p Hp1 A1 B1 B1 Fa Fb Fra Frb Ep (bnd3_fin prec emax lm _ _ Bp)) as [Y1 Z1].
    exists s, p. split; [exact Es |]. split; [exact Ep |]. split; [exact Bs |]. split; [exact Bp |]. split; [exact Ds |]. split; [exact Dp |]. split; [exact Ns |]. split; [exact Np |].
    split; [rewrite Y0, Y1; reflexivity |]. split; [rewrite Z0, Z1; reflexivity |].
    split; [rewrite Y1; destruct ca as [[]], cb as [[]]; reflexivity |]. split; [rewrite Z1; destruct ca as [[]], cb as [[]]; reflexivity |].
    split; [exact G1 |]. unfold vtimes, v3, e_x. cbn [c0 c1 c2]. apply V3_eq; cbn [vx vy vz]; [apply A1 | apply B1 | apply B1].
  Qed.
  (** ---- the direction found from them ---- *)
  Lemma c_of (v : vec) : val (c0 v) = vx (w3 v) /\ val (c1 v) = vy (w3 v) /\ val (c2 v) = vz (w3 v). Proof. destruct v as [[x y z]]. repeat split; reflexivity. Qed.
  Section Dir.
  Variables (s p : vec).
  Notation n := (vcrossn (vcrossn (vminus s p) (vtimes p minus1)) (vtimes p minus1)).
  Notation A := (val (Bminus mode_NE (c0 s : bf) (c0 p))).
  Hypotheses (Bs : bnd3 (emax / 2) s) (Bp : bnd3 (emax / 2) p) (Ds : dist (w3 s) (vadd C (vscale K (vscale (-1) e_x))) <= 14 * (u * S)) (Dp : dist (w3 p) (vadd C (vscale K e_x)) <= 14 * (u * S))
    (Np : norm (w3 p) <= 103 / 100 * S) (Ey : val (c1 s) = val (c1 p)) (Ez : val (c2 s) = val (c2 p)) (Vy : val (c1 p) = rnd (vy C)) (Vz : val (c2 p) = rnd (vz C)).
  Lemma A_fin : fin (Bminus mode_NE (c0 s : bf) (c0 p)) /\ 198 / 100 * K <= - A <= 202 / 100 * K.
  Proof.
    destruct s as [[s0 s1 s2]], p as [[p0 p1 p2]]. cbn [c0 c1 c2] in *. destruct Bs as (B0 & _ & _), Bp as (Q0 & _ & _). pose proof L_ok as LO. assert (HM : (prec < emax)%Z) by exact Hm.
    destruct (minus_bnd prec emax (emax / 2) s0 p0 ltac:(lia) ltac:(lia) B0 Q0) as [[Fm Vm] _]. split; [exact Fm |]. rewrite Vm.
    destruct (minus_rel prec emax s0 p0) as [e [He Re]]. rewrite Re.
    pose proof (abs_comp_norm (vsub (v3 (M3x1 (A3 s0 s1 s2) : mat3x1 bf)) (vadd C (vscale K (vscale (-1) e_x))))) as (X1 & _ & _).
    pose proof (abs_comp_norm (vsub (v3 (M3x1 (A3 p0 p1 p2) : mat3x1 bf)) (vadd C (vscale K e_x)))) as (X2 & _ & _).
    unfold dist in Ds, Dp. set (ns := norm _) in Ds, X1. set (np := norm _) in Dp, X2. clearbody ns np.
    unfold vsub, vadd, vscale, e_x, v3 in X1, X2. cbn [vx vy vz] in X1, X2. set (g := vx (vsub (w3 ca) (w3 cb))) in *.
    change (vx (w3 ca) - vx (w3 cb)) with g in X1, X2. clearbody g.
    pose proof K_pos as K0. pose proof US as U. pose proof uS_pos as UP. set (us := u * S) in *. assert (U' : 262144 * us <= K) by (unfold us; lra). clearbody us.
    pose proof (u_small prec HP) as Usm. apply Rabs_le_inv in X1, X2, He. set (k := K) in *. clearbody k.
    assert (Y : 199 / 100 * k <= - (val s0 - val p0) <= 201 / 100 * k) by lra. nra.
  Qed.
  Lemma px_near : Rabs (val (c0 p) - (vx C + K)) <= 14 * (u * S).
  Proof.
    destruct (abs_comp_norm (vsub (w3 p) (vadd C (vscale K e_x)))) as (X & _ & _). eapply Rle_trans; [| exact Dp]. eapply Rle_trans; [| exact X]. right. f_equal.
    destruct p as [[p0 p1 p2]]. unfold vsub, vadd, vscale, e_x, v3. cbn [vx vy vz c0]. ring.
  Qed.
  Definition TT : R := Rmax (Rabs (val (c1 p))) (Rabs (val (c2 p))).
  Lemma TT_y : Rabs (val (c1 p)) <= TT. Proof. apply Rmax_l. Qed.
  Lemma TT_z : Rabs (val (c2 p)) <= TT. Proof. apply Rmax_r. Qed.
  Lemma TT_one : TT <= Rabs (val (c1 p)) \/ TT <= Rabs (val (c2 p)).
  Proof. unfold TT, Rmax. destruct (Rle_dec _ _); [right | left]; lra. Qed.
  Lemma TT_up : TT <= 103 / 100 * S.
  Proof. destruct (abs_comp_norm (w3 p)) as (_ & X1 & X2). destruct (c_of p) as (_ & E1 & E2). unfold TT. rewrite E1, E2. apply Rmax_lub; lra. Qed.
  Lemma TT_low : bpow radix2 (- L) <= Rabs (vy C) \/ bpow radix2 (- L) <= Rabs (vz C) -> bpow radix2 (- L) <= TT.
  Proof.
    pose proof L_ok as LO. assert (HM : (prec < emax)%Z) by exact Hm.
    assert (Q : forall x : R, bpow radix2 (- L) <= Rabs x -> bpow radix2 (- L) <= Rabs (rnd x)).
    { intros x Hx. apply abs_round_ge_generic; [apply fexp_correct; exact Hp | apply valid_rnd_N | | exact Hx]. apply generic_format_bpow. unfold SpecFloat.fexp, SpecFloat.emin. lia. }
    intros [H | H]; apply Q in H; [rewrite <- Vy in H; pose proof TT_y | rewrite <- Vz in H; pose proof TT_z]; lra.
  Qed.
  Hypotheses (X8 : K / 8 <= vx C + K) (Off : bpow radix2 (- L) <= Rabs (vy C) \/ bpow radix2 (- L) <= Rabs (vz C)).
  Lemma px_low : K / 9 <= val (c0 p) <= 103 / 100 * S.
  Proof.
    pose proof px_near as X. apply Rabs_le_inv in X. pose proof US as U. pose proof K_pos as K0. split.
    - assert (14 * (u * S) <= K / 1000) by lra. lra.
    - destruct (abs_comp_norm (w3 p)) as (X1 & _ & _). destruct (c_of p) as (E0 & _ & _). rewrite E0. apply Rabs_le_inv in X1. lra.
  Qed.
  Lemma sz_of V P : u <= V -> bpow radix2 (- (4 * L)) <= P -> P <= bpow radix2 (4 * L) -> sz V P.
  Proof.
    intros HV P1 P2. pose proof L_ok as LO. pose proof (u_pos prec) as U0. split.
    - rewrite (PRound2.et_u prec emax). replace (/ 512 * V * P) with (V * (/ 512 * P)) by ring. pose proof (bpow_gt_0 radix2 (2 - emax)).
      apply Rmult_le_compat; try lra. apply Rle_trans with (/ 512 * bpow radix2 (- (4 * L))); [| lra]. change (/ 512) with (bpow radix2 (-9)). rewrite <- bpow_plus. apply bpow_le. lia.
    - apply Rle_trans with (64 * bpow radix2 (4 * L)); [lra |]. change 64 with (bpow radix2 6). rewrite <- bpow_plus. apply bpow_le. lia.
  Qed.
  Notation a := (Rabs A). Notation m := (Rabs (val (c0 p))). Notation l := (bpow radix2 (- L)). Notation h := (bpow radix2 L).
  Lemma a_m : l <= a /\ a <= 4 * h /\ l / 16 <= m /\ m <= 2 * h /\ l <= TT /\ TT <= 2 * h.
  Proof.
    destruct A_fin as [_ [A1 A2]]. pose proof K_pos as K0. pose proof px_low as [M1 M2]. pose proof (TT_low Off) as T1. pose proof TT_up as T2. pose proof KS as Q.
    rewrite (Rabs_left A) by lra. rewrite (Rabs_pos_eq (val (c0 p))) by lra. repeat split; lra.
  Qed.
  Lemma l_h : 0 < l /\ 0 < h /\ l <= / 65536 /\ l * h = 1.
  Proof.
    pose proof L_ok as LO. split; [apply bpow_gt_0 |]. split; [apply bpow_gt_0 |]. split.
    - change (/ 65536) with (bpow radix2 (-16)). apply bpow_le. lia.
    - rewrite <- bpow_plus. replace (- L + L)%Z with 0%Z by lia. reflexivity.
  Qed.
  Lemma l4 : bpow radix2 (- (4 * L)) = l * l * l * l. Proof. rewrite <- !bpow_plus. f_equal. lia. Qed.
  Lemma h4 : bpow radix2 (4 * L) = h * h * h * h. Proof. rewrite <- !bpow_plus. f_equal. lia. Qed.
  Lemma dir_sz : sz u (a * TT) /\ sz u (a * TT * TT) /\ sz u (a * TT * m).
  Proof.
    destruct a_m as (A1 & A2 & M1 & M2 & T1 & T2). destruct l_h as (L0 & H0 & L1 & LH). pose proof (u_pos prec) as U0.
    assert (H1 : 65536 <= h) by (clear - L0 H0 L1 LH; nra).
    set (aa := a) in *. set (mm := m) in *. set (t := TT) in *. clearbody aa mm t.
    assert (P1 : l * l <= aa * t) by (apply Rmult_le_compat; lra). assert (P2 : aa * t <= 4 * h * (2 * h)) by (apply Rmult_le_compat; lra).
    assert (LL : 0 < l * l) by (apply Rmult_lt_0_compat; lra). assert (HH : 0 < h * h) by (apply Rmult_lt_0_compat; lra).
    assert (P3 : l * l * l <= aa * t * t) by (apply Rmult_le_compat; lra). assert (P4 : aa * t * t <= 4 * h * (2 * h) * (2 * h)) by (apply Rmult_le_compat; lra).
    assert (P5 : l * l * (l / 16) <= aa * t * mm) by (apply Rmult_le_compat; lra). assert (P6 : aa * t * mm <= 4 * h * (2 * h) * (2 * h)) by (apply Rmult_le_compat; lra).
    assert (Q1 : l * l * l * l <= l * l * l * / 16) by (apply Rmult_le_compat_l; [nra | lra]).
    assert (Q2 : l * l * l * / 16 <= l * l) by (assert (l * l * l <= l * l * 1) by (apply Rmult_le_compat_l; lra); lra).
    assert (Q3 : 16 * (h * h * h) <= h * h * h * h) by (replace (16 * (h * h * h)) with (h * h * h * 16) by ring; apply Rmult_le_compat_l; [nra | lra]).
    assert (Q4 : h * h <= h * h * h) by (rewrite <- (Rmult_1_r (h * h)) at 1; apply Rmult_le_compat_l; lra).
    clear A1 A2 M1 M2 T1 T2. assert (0 < l * l * l) by (apply Rmult_lt_0_compat; lra). assert (0 < h * h * h) by (apply Rmult_lt_0_compat; lra).
    split; [| split]; apply sz_of; rewrite ?l4, ?h4; lra.
  Qed.
  Lemma dir_good : good_normal (n : mat3x1 bf) /\ Rabs (vdot (unit (w3 n)) (vadd C (vscale K e_x))) <= 33 * (u * S).
  Proof.
    destruct dir_sz as (S1 & S2 & S3). pose proof (bnd3_fin prec emax lm _ _ Bs) as Fs. pose proof (bnd3_fin prec emax lm _ _ Bp) as Fp. destruct A_fin as [FA _].
    pose proof (n_fin prec emax lm s p TT HP Fs Fp FA Ey Ez TT_y TT_z S1 S2 S3) as Fn.
    pose proof (n_len prec emax lm s p TT HP Fs Fp FA Ey Ez TT_y TT_z S1 S2 S3 TT_one) as Ln.
    pose proof (n_perp prec emax lm s p TT HP Fs Fp FA Ey Ez TT_y TT_z S1 S2 S3) as Pn.
    destruct a_m as (A1 & A2 & M1 & M2 & T1 & T2). destruct l_h as (L0 & H0 & L1 & LH). pose proof L_ok as LO.
    pose proof (n_size prec emax lm s p TT HP Fs Fp FA Ey Ez TT_y TT_z S1 S2 S3 (16 * (h * h * h))) as Zn. clear S1 S2 S3.
    pose proof TT_up as T3. pose proof TT_one as T4.
    set (nn := n) in *. set (aa := a) in *. set (mm := m) in *. set (t := TT) in *. clearbody nn aa mm t.
    assert (P1 : l * l <= aa * t) by (apply Rmult_le_compat; lra). assert (P2 : aa * t <= 4 * h * (2 * h)) by (apply Rmult_le_compat; lra). assert (LL : 0 < l * l) by (apply Rmult_lt_0_compat; lra).
    assert (P4 : aa * t * t <= 4 * h * (2 * h) * (2 * h)) by (apply Rmult_le_compat; lra).
    assert (P5 : l * l * (l / 16) <= aa * t * mm) by (apply Rmult_le_compat; lra). assert (P6 : aa * t * mm <= 4 * h * (2 * h) * (2 * h)) by (apply Rmult_le_compat; lra).
    specialize (Zn ltac:(lra) ltac:(lra)). assert (LLL : 0 < l * l * l) by (apply Rmult_lt_0_compat; lra).
    specialize (Pn ltac:(lra) T4).
    assert (N1 : l * l * l * / 32 <= norm (w3 nn)) by lra.
    assert (HB : 3 * (16 * (h * h * h)) <= bpow radix2 (emax / 2 - 3)).
    { apply Rle_trans with (bpow radix2 (6 + 3 * L)); [| apply bpow_le; lia]. rewrite bpow_plus. replace (bpow radix2 (3 * L)) with (h * h * h) by (rewrite <- !bpow_plus; f_equal; lia).
      change (bpow radix2 6) with 64. assert (0 < h * h * h) by (repeat apply Rmult_lt_0_compat; lra). lra. }
    split.
    - split; [split; [exact Fn |] |].
      + destruct nn as [[x y z]]. cbv zeta. cbn [c0 c1 c2] in Zn. destruct Zn as (Z0 & Z1 & Z2). repeat split; lra.
      + rewrite <- norm_sq. apply Rle_trans with ((l * l * l * / 32) * (l * l * l * / 32)).
        * change (/ 32) with (bpow radix2 (-5)). rewrite <- !bpow_plus. apply bpow_le. lia.
        * apply Rmult_le_compat; lra.
    - assert (Nz : w3 nn <> vzero) by (intro E; rewrite E in N1; unfold norm, vdot, vzero in N1; cbn [vx vy vz] in N1; rewrite Rmult_0_l, !Rplus_0_r, sqrt_0 in N1; lra).
      pose proof (unit_norm _ Nz) as Un. set (d := unit (w3 nn)) in *. clearbody d.
      pose proof (cauchy d (vsub (w3 p) (vadd C (vscale K e_x)))) as Q. rewrite Un, Rmult_1_l in Q. fold (dist (w3 p) (vadd C (vscale K e_x))) in Q.
      replace (vdot d (vadd C (vscale K e_x))) with (vdot d (w3 p) - vdot d (vsub (w3 p) (vadd C (vscale K e_x)))) by (unfold vdot, vsub; cbn [vx vy vz]; ring).
      unfold Rminus. eapply Rle_trans; [apply Rabs_triang |]. rewrite Rabs_Ropp.
      pose proof (u_pos prec) as U0. pose proof uS_pos as UP. assert (u * t <= u * (103 / 100 * S)) by (apply Rmult_le_compat_l; lra). lra.
  Qed.
  Lemma dir_side : 0 <= vx (unit (w3 n)) /\ let t := vy C * vz (unit (w3 n)) - vz C * vy (unit (w3 n)) in t * t <= 80 * (u * u) * (vy C * vy C + vz C * vz C).
  Proof.
    destruct dir_sz as (S1 & S2 & S3). pose proof (bnd3_fin prec emax lm _ _ Bs) as Fs. pose proof (bnd3_fin prec emax lm _ _ Bp) as Fp. destruct A_fin as [FA [A1 A2]]. pose proof K_pos as K0.
    destruct (n_vals prec emax lm s p TT HP Fs Fp FA Ey Ez TT_y TT_z S1 S2 S3) as ((_ & H0 & _) & (_ & H1 & _) & (_ & H2 & _)).
    pose proof (n_len prec emax lm s p TT HP Fs Fp FA Ey Ez TT_y TT_z S1 S2 S3 TT_one) as Ln. clear S1 S2 S3.
    pose proof (u_small prec HP) as U. pose proof (u_pos prec) as U0. destruct a_m as (a1 & _ & m1 & _ & t1 & _). destruct l_h as (L0 & _).
    assert (R1 : exists f, Rabs f <= u /\ val (c1 p) = vy C * (1 + f)) by (rewrite Vy; destruct (c_of ca) as (_ & E1 & _), (c_of cb) as (_ & E2 & _); unfold vsub; cbn [vy]; rewrite <- E1, <- E2; exact (minus_rel prec emax _ _)).
    assert (R2 : exists f, Rabs f <= u /\ val (c2 p) = vz C * (1 + f)) by (rewrite Vz; destruct (c_of ca) as (_ & _ & E1), (c_of cb) as (_ & _ & E2); unfold vsub; cbn [vz]; rewrite <- E1, <- E2; exact (minus_rel prec emax _ _)).
    destruct R1 as (f1 & F1 & Y1), R2 as (f2 & F2 & Y2). destruct (c_of n) as (G0 & G1 & G2). pose proof TT_y as T1. pose proof TT_z as T2. pose proof TT_one as T3.
    set (nn := w3 n) in *. rewrite G0 in H0. rewrite G1 in H1. rewrite G2 in H2. clearbody nn. set (A' := A) in *. set (px := val (c0 p)) in *. set (cy := vy C) in *. set (cz := vz C) in *. set (t := TT) in *.
    rewrite Y1 in H0, H1, T1, T3. rewrite Y2 in H0, H2, T2, T3. clearbody A' px cy cz t. set (aa := Rabs A') in *. set (mm := Rabs px) in *.
    assert (AT : 0 < aa * t * mm) by (apply Rmult_lt_0_compat; [apply Rmult_lt_0_compat |]; lra). assert (N0 : 0 < norm nn) by lra. assert (I0 : 0 < / norm nn) by (apply Rinv_0_lt_compat; exact N0).
    unfold unit, vscale. cbn [vx vy vz]. split.
    - apply Rmult_le_pos; [lra |]. assert (TT0 : t * t <= cy * (1 + f1) * (cy * (1 + f1)) + cz * (1 + f2) * (cz * (1 + f2))).
      { pose proof (Rle_0_sqr (cy * (1 + f1))) as Q1. pose proof (Rle_0_sqr (cz * (1 + f2))) as Q2. unfold Rsqr in *. clear - T3 Q1 Q2 t1 L0. destruct T3 as [T3 | T3].
        - assert (t * t <= Rabs (cy * (1 + f1)) * Rabs (cy * (1 + f1))) by (apply Rmult_le_compat; lra). rewrite <- Rabs_mult, (Rabs_pos_eq _ Q1) in H. lra.
        - assert (t * t <= Rabs (cz * (1 + f2)) * Rabs (cz * (1 + f2))) by (apply Rmult_le_compat; lra). rewrite <- Rabs_mult, (Rabs_pos_eq _ Q2) in H. lra. }
      apply Rabs_le_inv in H0. set (q := cy * (1 + f1) * (cy * (1 + f1)) + _) in *. assert (EA : aa = - A') by (apply Rabs_left; lra).
      assert (aa * (t * t) <= aa * q) by (apply Rmult_le_compat_l; lra). assert (0 <= aa * (t * t)) by (apply Rmult_le_pos; [lra | apply Rle_0_sqr]).
      assert (82 / 10 * u * (aa * t * t) <= / 2 * (aa * t * t)) by (apply Rmult_le_compat_r; lra). rewrite EA in *. lra.
    - cbv zeta. set (k := cy * vz nn - cz * vy nn).
      assert (B1 : forall g f, Rabs f <= u -> Rabs (g * (1 + f)) <= t -> Rabs g <= 101 / 100 * t).
      { intros g f Hf Hg. rewrite Rabs_mult in Hg. apply Rabs_le_inv in Hf. rewrite (Rabs_pos_eq (1 + f)) in Hg by lra. pose proof (Rabs_pos g). assert (Rabs g * (1 - / 1000) <= Rabs g * (1 + f)) by (apply Rmult_le_compat_l; lra). lra. }
      pose proof (B1 cy f1 F1 T1) as Cy. pose proof (Rabs_pos cy) as Py. pose proof (Rabs_pos cz) as Pz.
      assert (HK : Rabs k <= 62 / 10 * u * (aa * t * mm) * (Rabs cy + Rabs cz)).
      { replace k with (cy * (vz nn - A' * (cz * (1 + f2)) * px) - cz * (vy nn - A' * (cy * (1 + f1)) * px) + A' * px * (cy * cz) * (f2 - f1)) by (unfold k; ring).
        eapply Rle_trans; [apply Rabs_triang |]. unfold Rminus at 1. eapply Rle_trans; [apply Rplus_le_compat_r, Rabs_triang |]. rewrite Rabs_Ropp, !(Rabs_mult cy), (Rabs_mult cz), (Rabs_mult _ (f2 - f1)), (Rabs_mult _ (cy * cz)), (Rabs_mult A'), (Rabs_mult cy).
        fold aa mm. assert (Rabs (f2 - f1) <= 2 * u) by (apply Rabs_le; apply Rabs_le_inv in F1, F2; lra).
        assert (M1 : Rabs cy * Rabs (vz nn - A' * (cz * (1 + f2)) * px) <= Rabs cy * (41 / 10 * u * (aa * t * mm))) by (apply Rmult_le_compat_l; assumption).
        assert (M2 : Rabs cz * Rabs (vy nn - A' * (cy * (1 + f1)) * px) <= Rabs cz * (41 / 10 * u * (aa * t * mm))) by (apply Rmult_le_compat_l; assumption).
        assert (AM : 0 <= aa * mm) by (apply Rmult_le_pos; lra). assert (CC : 0 <= Rabs cy * Rabs cz) by (apply Rmult_le_pos; assumption).
        assert (M3 : aa * mm * (Rabs cy * Rabs cz) <= aa * mm * (101 / 100 * t * Rabs cz)) by (apply Rmult_le_compat_l; [exact AM |]; apply Rmult_le_compat_r; assumption).
        assert (M4 : aa * mm * (Rabs cy * Rabs cz) * Rabs (f2 - f1) <= aa * mm * (101 / 100 * t * Rabs cz) * (2 * u)) by (apply Rmult_le_compat; try apply Rabs_pos; try assumption; apply Rmult_le_pos; assumption).
        assert (0 <= u * (aa * t * mm) * Rabs cy) by (repeat apply Rmult_le_pos; lra). assert (0 <= u * (aa * t * mm) * Rabs cz) by (repeat apply Rmult_le_pos; lra). lra. }
      replace (cy * (/ norm nn * vz nn) - cz * (/ norm nn * vy nn)) with (k / norm nn) by (unfold k; field; lra).
      assert (HN : Rabs (k / norm nn) <= 63 / 10 * u * (Rabs cy + Rabs cz)).
      { unfold Rdiv. rewrite Rabs_mult, (Rabs_pos_eq (/ norm nn)) by lra. apply Rmult_le_reg_r with (norm nn); [exact N0 |]. rewrite Rmult_assoc, Rinv_l, Rmult_1_r by lra. eapply Rle_trans; [exact HK |].
        assert (0 <= u * (Rabs cy + Rabs cz)) by (apply Rmult_le_pos; lra). assert (u * (Rabs cy + Rabs cz) * (99 / 100 * (aa * t * mm)) <= u * (Rabs cy + Rabs cz) * norm nn) by (apply Rmult_le_compat_l; assumption).
        assert (0 <= u * (Rabs cy + Rabs cz) * (aa * t * mm)) by (apply Rmult_le_pos; lra). lra. }
      set (q := k / norm nn) in *. clearbody q. clear - HN U0. pose proof (Rabs_pos q) as Pq.
      assert (Rabs q * Rabs q <= 63 / 10 * u * (Rabs cy + Rabs cz) * (63 / 10 * u * (Rabs cy + Rabs cz))) by (apply Rmult_le_compat; assumption).
      rewrite <- Rabs_mult, Rabs_pos_eq in H by apply Rle_0_sqr. eapply Rle_trans; [exact H |].
      replace (63 / 10 * u * (Rabs cy + Rabs cz) * (63 / 10 * u * (Rabs cy + Rabs cz))) with (3969 / 100 * (u * u) * ((Rabs cy + Rabs cz) * (Rabs cy + Rabs cz))) by field.
      assert (E : (Rabs cy + Rabs cz) * (Rabs cy + Rabs cz) <= 2 * (cy * cy + cz * cz)).
      { assert (E1 : Rabs cy * Rabs cy = cy * cy) by (rewrite <- Rabs_mult; apply Rabs_pos_eq, Rle_0_sqr). assert (E2 : Rabs cz * Rabs cz = cz * cz) by (rewrite <- Rabs_mult; apply Rabs_pos_eq, Rle_0_sqr).
        pose proof (Rle_0_sqr (Rabs cy - Rabs cz)) as Q. unfold Rsqr in Q. lra. }
      assert (UU : 0 <= u * u) by apply Rle_0_sqr. assert (CC : 0 <= cy * cy + cz * cz) by (pose proof (Rle_0_sqr cy); pose proof (Rle_0_sqr cz); unfold Rsqr in *; lra).
      assert (3969 / 100 * (u * u) * ((Rabs cy + Rabs cz) * (Rabs cy + Rabs cz)) <= 3969 / 100 * (u * u) * (2 * (cy * cy + cz * cz))) by (apply Rmult_le_compat_l; lra).
      assert (0 <= u * u * (cy * cy + cz * cz)) by (apply Rmult_le_pos; assumption). lra.
  Qed.
  End Dir.
  Lemma nz_good (d : vec) : good_normal (d : mat3x1 bf) -> w3 d <> vzero.
  Proof. intros [_ H] E. rewrite E in H. unfold vdot, vzero in H. cbn [vx vy vz] in H. pose proof (bpow_gt_0 radix2 (6 - emax)). lra. Qed.
  Lemma dot_sign (q d : vec) : good_normal (d : mat3x1 bf) -> bnd3 (emax / 2) q -> norm (w3 q) <= 103 / 100 * S ->
    (5 * (u * S) < vdot (w3 q) (unit (w3 d)) -> ngt (PMirror1.vdotn q d) n0 = true) /\ (vdot (w3 q) (unit (w3 d)) < - (5 * (u * S)) -> ngt (PMirror1.vdotn q d) n0 = false).
  Proof.
    intros Gd Bq Nq. pose proof L_ok as LO. assert (HM : (prec < emax)%Z) by exact Hm.
    assert (Bd : bnd3 (emax / 2 - 3) d) by (apply moderate_bnd3; exact (proj1 Gd)).
    destruct (dot_v prec emax lm q d (emax / 2) (emax / 2 - 3) HP ltac:(lia) ltac:(lia) Bq Bd) as [t [Et [Ft Ht]]]. rewrite (vdotn_some prec emax lm _ _ _ Et). clear Et.
    pose proof (nz_good d Gd) as Nz. pose proof (norm_nz (w3 d) Nz) as ND. destruct Gd as [_ HS].
    assert (NL : bpow radix2 (2 - emax / 2) <= norm (w3 d)).
    { apply Rsqr_incr_0_var; [| lra]. unfold Rsqr. rewrite norm_sq. eapply Rle_trans; [| exact HS]. rewrite <- bpow_plus. apply bpow_le. pose proof (Z.div_mod emax 2 ltac:(lia)). pose proof (Z.mod_pos_bound emax 2 ltac:(lia)). lia. }
    pose proof (u_pos prec) as U0. pose proof (et_pos prec emax) as T0. pose proof KS as KS'. pose proof K_pos as K0'. pose proof uS_pos as UP.
    assert (E4 : 4 * et <= u * S * norm (w3 d)).
    { rewrite (PRound2.et_u prec emax). apply Rle_trans with (u * (bpow radix2 (- L) * bpow radix2 (2 - emax / 2))).
      - replace (4 * (u * bpow radix2 (2 - emax))) with (u * (bpow radix2 2 * bpow radix2 (2 - emax))) by (change (bpow radix2 2) with 4; ring). apply Rmult_le_compat_l; [lra |]. rewrite <- !bpow_plus. apply bpow_le. lia.
      - rewrite (Rmult_assoc u). apply Rmult_le_compat_l; [lra |]. apply Rmult_le_compat; try apply bpow_ge_0; lra. }
    assert (Q3 : 301 / 100 * u * (norm (w3 q) * norm (w3 d)) <= 32 / 10 * (u * S) * norm (w3 d)).
    { assert (u * (norm (w3 q) * norm (w3 d)) <= u * (103 / 100 * S * norm (w3 d))) by (apply Rmult_le_compat_l; [lra |]; apply Rmult_le_compat_r; lra).
      assert (0 <= u * S * norm (w3 d)) by (apply Rmult_le_pos; lra). lra. }
    assert (Eu : vdot (w3 q) (w3 d) = vdot (w3 q) (unit (w3 d)) * norm (w3 d)) by (unfold unit, vdot, vscale; cbn [vx vy vz]; field; lra).
    rewrite Eu in Ht. apply Rabs_le_inv in Ht. destruct (fv_n0 prec emax lm) as [Fz Vz]. set (g := vdot (w3 q) (unit (w3 d))) in *. set (nd := norm (w3 d)) in *. clearbody g nd. split; intro H.
    - apply (ngt_val prec emax lm); [exact Ft | exact Fz |]. rewrite Vz. assert (5 * (u * S) * nd < g * nd) by (apply Rmult_lt_compat_r; assumption). assert (0 < u * S * nd) by (apply Rmult_lt_0_compat; lra). lra.
    - apply not_true_iff_false. intro G. apply (ngt_val prec emax lm) in G; [| exact Ft | exact Fz]. rewrite Vz in G.
      assert (g * nd < - (5 * (u * S)) * nd) by (apply Rmult_lt_compat_r; assumption). assert (0 < u * S * nd) by (apply Rmult_lt_0_compat; lra). lra.
  Qed.
  Lemma ngt_false (t : F) : fin t -> val t <= 0 -> ngt t n0 = false.
  Proof. intros Ft H. destruct (fv_n0 prec emax lm) as [Fz Vz]. apply not_true_iff_false. intro G. apply (ngt_val prec emax lm) in G; [| exact Ft | exact Fz]. rewrite Vz in G. lra. Qed.
  Lemma loop_one (x y : shape F) l d r fuel : gjk_iter x y l d = Ok (inl (Some r)) -> (1 <= fuel)%nat -> gjk_loop fuel x y l d = Done (Ok (Some r)).
  Proof. intros E H. destruct fuel as [| f]; [lia |]. cbn [gjk_loop]. rewrite E. reflexivity. Qed.
  Lemma loop_more (x y : shape F) l d l' d' r k fuel : gjk_iter x y l d = Ok (inr (l', d')) -> (forall f, (k <= f)%nat -> gjk_loop f x y l' d' = Done (Ok (Some r))) -> (Datatypes.S k <= fuel)%nat -> gjk_loop fuel x y l d = Done (Ok (Some r)).
  Proof. intros E H G. destruct fuel as [| f]; [lia |]. cbn [gjk_loop]. rewrite E. apply H. lia. Qed.
  (** ---- centres on a line along the x axis ---- *)
  Lemma axis_query (ba bb : aabb F) (ea eb : F) fuel : vy C = 0 -> vz C = 0 -> - (7 / 8 * K) <= vx C -> (1 <= fuel)%nat -> query_intersect fuel (SSphere (MkSphere ca ra ba ea)) (SSphere (MkSphere cb rb bb eb)) = Done (Ok (Some true)).
  Proof.
    intros Oy Oz OX HF. destruct start_points as (s & p & Es & Ep & Bs & Bp & Ds & Dp & Ns & Np & Ey & Ez & Vy & Vz & G1 & W1).
    unfold query_intersect. rewrite start_any. cbv zeta. rewrite Es. revert Ep G1 W1. generalize d1. intros d Ep G1 W1. apply loop_one; [| exact HF]. rewrite iter_one_any, Ep. f_equal.
    destruct (A_fin s p Bs Bp Ds Dp Np Ey Ez Vy Vz) as [FA _]. assert (Fs : fin3 (s : mat3x1 bf)) by exact (bnd3_fin prec emax lm _ _ Bs). assert (Fp : fin3 (p : mat3x1 bf)) by exact (bnd3_fin prec emax lm _ _ Bp).
    pose proof K_pos as P. pose proof uS_pos as UP. assert (N1 : norm e_x = 1) by (unfold norm; replace (vdot e_x e_x) with 1 by (unfold vdot, e_x; cbn [vx vy vz]; ring); apply sqrt_1).
    assert (U1 : unit (w3 d) = e_x) by (rewrite W1; unfold unit; rewrite N1, Rinv_1; apply V3_eq; unfold vscale; cbn [vx vy vz]; ring).
    unfold first. cbv zeta. assert (T1 : ngt (PMirror1.vdotn p d) n0 = true).
    { apply (dot_sign p d G1 Bp Np). rewrite U1. assert (PX : Rabs (val (c0 p) - (vx C + K)) <= 14 * (u * S)) by (eapply px_near; eassumption). destruct (c_of p) as (E0 & _ & _). rewrite E0 in PX. apply Rabs_le_inv in PX.
      replace (vdot (w3 p) e_x) with (vx (w3 p)) by (unfold vdot, e_x; cbn [vx vy vz]; ring). pose proof US. lra. }
    rewrite T1. cbn [negb]. rewrite Oy, round_0 in Vy by apply valid_rnd_N. rewrite Oz, round_0 in Vz by apply valid_rnd_N.
    rewrite (n_zero prec emax lm s p Fs Fp FA); [reflexivity | rewrite Ey; exact Vy | rewrite Ez; exact Vz | exact Vy | exact Vz].
  Qed.

  Section Overlap.
  Hypotheses (Deep : dist (w3 ca) (w3 cb) <= K / 2)
    (Off : (vy C = 0 /\ vz C = 0) \/ bpow radix2 (- L) <= Rabs (vy C) \/ bpow radix2 (- L) <= Rabs (vz C)).
  Variables (ba bb : aabb F) (ea eb : F).
  Notation A := (SSphere (MkSphere ca ra ba ea)).
  Notation B := (SSphere (MkSphere cb rb bb eb)).
  Notation Cn := (vscale (/ K) C).
  Definition U : R := 14 * (u * S) / K.
  Lemma U_val : U * K = 14 * (u * S). Proof. pose proof K_pos as H. unfold U. field. lra. Qed.
  Lemma U_ok : unit_ok prec U /\ U <= 14 / 262144.
  Proof.
    pose proof K_pos as H. pose proof U_val as E. pose proof KS as Q. pose proof (u_pos prec) as U0.
    assert (U <= 14 / 262144) by (apply Rmult_le_reg_r with K; [exact H |]; lra).
    split; [split; [exact HP |] | assumption]. split; [| lra]. apply Rmult_le_reg_r with K; [exact H |]. rewrite E. assert (u * K <= u * S) by (apply Rmult_le_compat_l; lra). pose proof uS_pos. lra.
  Qed.
  Lemma corner_eq v : corner K Cn v = vadd C (vscale K v).
  Proof. pose proof K_pos as H. unfold corner. apply V3_eq; unfold vadd, vscale; cbn [vx vy vz]; field; lra. Qed.
  Lemma corner_norm v : norm v <= 1 -> norm (corner K Cn v) <= 3 / 2 * K.
  Proof.
    intro H. pose proof K_pos as P. rewrite corner_eq. eapply Rle_trans; [apply triangle |]. rewrite norm_scale_abs, (Rabs_pos_eq K) by lra. unfold dist in Deep. pose proof (norm_pos v). nra.
  Qed.
  Lemma corner_edge v w : norm v <= 1 -> norm w <= 1 -> norm (vsub (corner K Cn v) (corner K Cn w)) <= 2 * K.
  Proof.
    intros H1 H2. pose proof K_pos as P. replace (vsub (corner K Cn v) (corner K Cn w)) with (vscale K (vsub v w)) by (unfold corner; apply V3_eq; unfold vadd, vsub, vscale; cbn [vx vy vz]; ring).
    rewrite norm_scale_abs, (Rabs_pos_eq K) by lra. pose proof (norm_sub v w). nra.
  Qed.
  Lemma norm_e : norm e_x = 1. Proof. unfold norm. replace (vdot e_x e_x) with 1 by (unfold vdot, e_x; cbn [vx vy vz]; ring). apply sqrt_1. Qed.
  Lemma norm_me : norm (vscale (-1) e_x) = 1. Proof. rewrite norm_scale_abs, norm_e, Rabs_left; lra. Qed.
  Lemma szK : sz U K /\ sz U (K * K) /\ sz U (K * K * K) /\ sz U (K * K * K * K).
  Proof.
    destruct U_ok as [[_ [H1 _]] _]. pose proof K_pos as P. pose proof KS as Q. destruct l_h as (L0 & H0 & L1 & LH). pose proof l4 as E4. pose proof h4 as E5.
    set (l := bpow radix2 (- L)) in *. set (h := bpow radix2 L) in *. assert (K <= h) by lra. assert (LK : l <= K) by exact KL. set (k := K) in *. clearbody k l h.
    assert (H2 : 1 <= h) by (clear - L0 H0 L1 LH; nra).
    assert (LL : 0 <= l * l) by (apply Rmult_le_pos; lra). assert (LLL : 0 <= l * l * l) by (apply Rmult_le_pos; lra). assert (KK : 0 < k * k) by (apply Rmult_lt_0_compat; lra). assert (KKK : 0 < k * k * k) by (apply Rmult_lt_0_compat; lra).
    assert (P2 : l * l <= k * k) by (apply Rmult_le_compat; lra). assert (P3 : l * l * l <= k * k * k) by (apply Rmult_le_compat; lra). assert (P4 : l * l * l * l <= k * k * k * k) by (apply Rmult_le_compat; lra).
    assert (Q2 : k * k <= h * h) by (apply Rmult_le_compat; lra). assert (Q3 : k * k * k <= h * h * h) by (apply Rmult_le_compat; lra). assert (Q4 : k * k * k * k <= h * h * h * h) by (apply Rmult_le_compat; lra).
    assert (G1 : l * l <= l) by (rewrite <- (Rmult_1_r l) at 3; apply Rmult_le_compat_l; lra). assert (G2 : l * l * l <= l * l) by (rewrite <- (Rmult_1_r (l * l)) at 2; apply Rmult_le_compat_l; lra). assert (G3 : l * l * l * l <= l * l * l) by (rewrite <- (Rmult_1_r (l * l * l)) at 2; apply Rmult_le_compat_l; lra).
    assert (HH : 0 <= h * h) by (apply Rmult_le_pos; lra). assert (HHH : 0 <= h * h * h) by (apply Rmult_le_pos; lra).
    assert (J1 : h <= h * h) by (rewrite <- (Rmult_1_r h) at 1; apply Rmult_le_compat_l; lra). assert (J2 : h * h <= h * h * h) by (rewrite <- (Rmult_1_r (h * h)) at 1; apply Rmult_le_compat_l; lra). assert (J3 : h * h * h <= h * h * h * h) by (rewrite <- (Rmult_1_r (h * h * h)) at 1; apply Rmult_le_compat_l; lra).
    split; [| split; [| split]]; (apply sz_of; [exact H1 | |]); rewrite ?E4, ?E5; lra.
  Qed.

  Lemma unit_near (d : vec) q : good_normal (d : mat3x1 bf) -> dist (w3 q) (vadd C (vscale K (unit (w3 d)))) <= 14 * (u * S) -> 5 * (u * S) < vdot (w3 q) (unit (w3 d)).
  Proof.
    intros Gd D. pose proof (unit_norm _ (nz_good d Gd)) as Un. set (n := unit (w3 d)) in *. clearbody n. pose proof K_pos as P. pose proof uS_pos as UP.
    pose proof (cauchy (vsub (w3 q) (vadd C (vscale K n))) n) as Q. rewrite Un, Rmult_1_r in Q. fold (dist (w3 q) (vadd C (vscale K n))) in Q. apply Rabs_le_inv in Q.
    pose proof (cauchy C n) as Q2. rewrite Un, Rmult_1_r in Q2. fold (dist (w3 ca) (w3 cb)) in Q2. apply Rabs_le_inv in Q2.
    assert (E : vdot (w3 q) n = vdot (vsub (w3 q) (vadd C (vscale K n))) n + vdot C n + K * vdot n n) by (unfold vdot, vsub, vadd, vscale; cbn [vx vy vz]; ring).
    rewrite <- norm_sq, Un in E. rewrite E. lra.
  Qed.
  Lemma deep_next (s p q d : vec) : fin3 (s : mat3x1 bf) -> fin3 (p : mat3x1 bf) -> bnd3 (emax / 2) q -> norm (w3 q) <= 103 / 100 * S -> good_normal (d : mat3x1 bf) ->
    dist (w3 s) (vadd C (vscale K (vscale (-1) e_x))) <= 14 * (u * S) -> dist (w3 p) (vadd C (vscale K e_x)) <= 14 * (u * S) ->
    dist (w3 q) (vadd C (vscale K (unit (w3 d)))) <= 14 * (u * S) -> Rabs (vdot (unit (w3 d)) (vadd C (vscale K e_x))) <= 33 * (u * S) ->
    next s p q d = inl (Some true).
  Proof.
    intros Fs Fp Bq Nq Gd Ds Dp Dq Pd. unfold next. cbv zeta. rewrite (proj1 (dot_sign q d Gd Bq Nq) (unit_near d q Gd Dq)). cbn [negb].
    destruct U_ok as [UO UB]. pose proof U_val as UV. pose proof K_pos as P. destruct szK as (Z1 & Z2 & Z3 & Z4). pose proof (unit_norm _ (nz_good d Gd)) as Un.
    pose proof (nz_good d Gd) as Nz. pose proof (unit_dot _ Nz) as Ud. set (n := unit (w3 d)) in *. clearbody n. rewrite <- corner_eq in Ds, Dp, Dq. rewrite <- corner_eq in Pd. rewrite <- UV in Ds, Dp, Dq.
    assert (N1 : norm n <= 1) by lra. pose proof norm_e as Ne. pose proof norm_me as Nm. assert (Ne' : norm e_x <= 1) by lra. assert (Nm' : norm (vscale (-1) e_x) <= 1) by lra.
    assert (Rs : nr3 prec emax U (s : mat3x1 bf) (corner K Cn (vscale (-1) e_x)) (3 / 2) 1 K) by (apply (nr3_near prec emax lm); [exact Fs | lra | apply corner_norm; exact Nm']).
    assert (Rp : nr3 prec emax U (p : mat3x1 bf) (corner K Cn e_x) (3 / 2) 1 K) by (apply (nr3_near prec emax lm); [exact Fp | lra | apply corner_norm; exact Ne']).
    assert (Rq : nr3 prec emax U (q : mat3x1 bf) (corner K Cn n) (3 / 2) 1 K) by (apply (nr3_near prec emax lm); [exact (bnd3_fin prec emax lm _ _ Bq) | lra | apply corner_norm; exact N1]).
    assert (HC : vdot Cn Cn <= 1 / 4).
    { rewrite <- norm_sq, norm_scale_abs, (Rabs_pos_eq (/ K)) by (left; apply Rinv_0_lt_compat; exact P). fold (dist (w3 ca) (w3 cb)).
      assert (H : 0 <= / K * dist (w3 ca) (w3 cb) <= 1 / 2).
      { assert (I : 0 < / K) by (apply Rinv_0_lt_compat; exact P). split; [apply Rmult_le_pos; [lra | apply norm_pos] |]. apply Rmult_le_reg_l with K; [exact P |]. rewrite <- Rmult_assoc, Rinv_r by lra. lra. }
      nra. }
    assert (Hh : Rabs (vdot Cn n + vx n) <= / 500).
    { replace (vdot n (corner K Cn e_x)) with (K * (vdot Cn n + vx n)) in Pd by (unfold corner, vdot, vadd, vscale, e_x; cbn [vx vy vz]; ring).
      rewrite Rabs_mult, (Rabs_pos_eq K) in Pd by lra. apply Rmult_le_reg_l with K; [exact P |]. pose proof US as HUS. lra. }
    destruct (corner_sides Cn n HC Ud Hh) as [G1 G2].
    assert (K4 : 0 < K * K * K * K) by (repeat apply Rmult_lt_0_compat; exact P).
    assert (UB4 : 14684 / 10 * U * (K * K * K * K) <= 8 / 100 * (K * K * K * K)) by (apply Rmult_le_compat_r; lra).
    pose proof (side_dot prec emax lm U UO K s p q _ _ _ P Z1 Z2 Z3 Z4 Rs Rp Rq (corner_edge _ _ Nm' N1) (corner_edge _ _ Ne' N1)) as (Fb1 & Vb & _). rewrite side_b in Vb by exact Ud.
    pose proof (side_dot prec emax lm U UO K p s q _ _ _ P Z1 Z2 Z3 Z4 Rp Rs Rq (corner_edge _ _ Ne' N1) (corner_edge _ _ Nm' N1)) as (Fc1 & Vc & _). rewrite side_c in Vc by exact Ud.
    set (k4 := K * K * K * K) in *. clearbody k4. apply Rabs_le_inv in Vb, Vc.
    set (g1 := (2 - 2 * vx n) * _) in *. set (g2 := (2 + 2 * vx n) * _) in *. clearbody g1 g2.
    rewrite (ngt_false _ Fb1) by (assert (k4 * (39 / 100) <= k4 * g1) by (apply Rmult_le_compat_l; lra); lra).
    rewrite (ngt_false _ Fc1) by (assert (k4 * (13 / 100) <= k4 * g2) by (apply Rmult_le_compat_l; lra); lra).
    reflexivity.
  Qed.
  Lemma mag_ne (n : vec) : good_normal (n : mat3x1 bf) -> neqb (vmag n) n0 = false.
  Proof. intro Gn. pose proof (mag_good prec emax lm n HP Gn) as M. unfold magnitude_nonzero in M. destruct n as [[x y z]]. cbn [mat3x1_magnitude] in M. unfold nne in M. apply negb_true_iff in M. exact M. Qed.
  Lemma deep_first (s p d : vec) : bnd3 (emax / 2) s -> bnd3 (emax / 2) p -> dist (w3 s) (vadd C (vscale K (vscale (-1) e_x))) <= 14 * (u * S) -> dist (w3 p) (vadd C (vscale K e_x)) <= 14 * (u * S) ->
    norm (w3 p) <= 103 / 100 * S -> val (c1 s) = val (c1 p) -> val (c2 s) = val (c2 p) -> val (c1 p) = rnd (vy C) -> val (c2 p) = rnd (vz C) -> good_normal (d : mat3x1 bf) -> w3 d = e_x ->
    first s p d = inl (Some true) \/ exists n, first s p d = inr ([s; p], n) /\ good_normal (n : mat3x1 bf) /\ Rabs (vdot (unit (w3 n)) (vadd C (vscale K e_x))) <= 33 * (u * S).
  Proof.
    intros Bs Bp Ds Dp Np Ey Ez Vy Vz G1 W1. pose proof K_pos as P. pose proof uS_pos as UP. pose proof US as US'.
    assert (Fs : fin3 (s : mat3x1 bf)) by exact (bnd3_fin prec emax lm _ _ Bs). assert (Fp : fin3 (p : mat3x1 bf)) by exact (bnd3_fin prec emax lm _ _ Bp).
    assert (U1 : unit (w3 d) = e_x) by (rewrite W1; unfold unit; rewrite norm_e, Rinv_1; apply V3_eq; unfold vscale; cbn [vx vy vz]; ring).
    assert (T1 : ngt (PMirror1.vdotn p d) n0 = true).
    { apply (dot_sign p d G1 Bp Np). apply unit_near; [exact G1 |]. rewrite U1. exact Dp. }
    destruct (A_fin s p Bs Bp Ds Dp Np Ey Ez Vy Vz) as [FA _]. unfold first. cbv zeta. rewrite T1. cbn [negb].
    destruct Off as [[Oy Oz] | Off'].
    - left. rewrite Oy, round_0 in Vy by apply valid_rnd_N. rewrite Oz, round_0 in Vz by apply valid_rnd_N.
      rewrite (n_zero prec emax lm s p Fs Fp FA); [reflexivity | rewrite Ey; exact Vy | rewrite Ez; exact Vz | exact Vy | exact Vz].
    - right. assert (X8 : K / 8 <= vx C + K).
      { destruct (abs_comp_norm C) as (X & _ & _). fold (dist (w3 ca) (w3 cb)) in X. apply Rabs_le_inv in X. lra. }
      destruct (dir_good s p Bs Bp Ds Dp Np Ey Ez Vy Vz X8 Off') as [Gn Pn]. set (n := vcrossn (vcrossn (vminus s p) (vtimes p minus1)) (vtimes p minus1)) in *. clearbody n.
      exists n. split; [| split; [exact Gn | exact Pn]]. rewrite (mag_ne n Gn). reflexivity.
  Qed.
  Lemma deep_loop (s p d : vec) fuel : mink ca ra cb rb d = Some p -> bnd3 (emax / 2) s -> bnd3 (emax / 2) p -> dist (w3 s) (vadd C (vscale K (vscale (-1) e_x))) <= 14 * (u * S) -> dist (w3 p) (vadd C (vscale K e_x)) <= 14 * (u * S) ->
    norm (w3 p) <= 103 / 100 * S -> val (c1 s) = val (c1 p) -> val (c2 s) = val (c2 p) -> val (c1 p) = rnd (vy C) -> val (c2 p) = rnd (vz C) -> good_normal (d : mat3x1 bf) -> w3 d = e_x ->
    (2 <= fuel)%nat -> gjk_loop fuel A B [s] d = Done (Ok (Some true)).
  Proof.
    intros Ep Bs Bp Ds Dp Np Ey Ez Vy Vz G1 W1 HF. assert (I1 : gjk_iter A B [s] d = Ok (first s p d)) by (rewrite iter_one_any, Ep; reflexivity).
    destruct (deep_first s p d Bs Bp Ds Dp Np Ey Ez Vy Vz G1 W1) as [E | (n & E & Gn & Pn)]; rewrite E in I1.
    - apply (loop_one _ _ _ _ true); [exact I1 | lia].
    - apply (loop_more _ _ _ _ [s; p] n true 1); [exact I1 | | exact HF].
      intros f Hf. destruct (sup n Gn) as (q & Eq & Bq & Dq & Nq). apply loop_one; [| exact Hf]. rewrite iter_two_any, Eq. f_equal.
      apply (deep_next s p q n); try assumption; [exact (bnd3_fin prec emax lm _ _ Bs) | exact (bnd3_fin prec emax lm _ _ Bp)].
  Qed.
  Lemma deep_query fuel : (2 <= fuel)%nat -> query_intersect fuel A B = Done (Ok (Some true)).
  Proof.
    intro HF. destruct start_points as (s & p & Es & Ep & Bs & Bp & Ds & Dp & Ns & Np & Ey & Ez & Vy & Vz & G1 & W1).
    unfold query_intersect. rewrite start_any. cbv zeta. rewrite Es. revert Ep G1 W1. generalize d1. intros d Ep G1 W1.
    apply (deep_loop s p d fuel Ep Bs Bp Ds Dp Np Ey Ez Vy Vz G1 W1 HF).
  Qed.
  End Overlap.
  (** ---- balls that are clearly apart ---- *)
  Section Apart.
  Hypotheses (US2 : 524288 * u * S <= K) (Far : 3 * K <= 2 * dist (w3 ca) (w3 cb)) (Near : dist (w3 ca) (w3 cb) <= 8 * K).
  Notation Cn := (vscale (/ K) C).
  Notation dl := (31 * (u * S)).
  Lemma dl_ok : 0 < dl /\ dl <= 6 / 100000 * K /\ u * K <= dl / 31 /\ u <= / 524288.
  Proof.
    pose proof uS_pos as UP. pose proof K_pos as P. pose proof KS as Q. pose proof (u_pos prec) as U0. assert (E : u * K <= u * S) by (apply Rmult_le_compat_l; lra).
    split; [lra |]. split; [lra |]. split; [lra |]. apply Rmult_le_reg_r with K; [exact P |]. lra.
  Qed.
  Lemma et_K : et <= u * (K * K) / 1048576 /\ et <= u * (K * K * K) / 1048576 /\ et <= u * (K * K * K * K) / 1048576.
  Proof.
    pose proof L_ok as LO. pose proof (u_pos prec) as U0. pose proof K_pos as P. rewrite (PRound2.et_u prec emax). pose proof (bpow_gt_0 radix2 (- L)) as L0. pose proof KL as LK.
    assert (E : forall k X, (0 <= k)%Z -> (k <= 4)%Z -> bpow radix2 (- (k * L)) <= X -> u * bpow radix2 (2 - emax) <= u * X / 1048576).
    { intros k X K1 K2 H. replace (u * X / 1048576) with (u * (/ 1048576 * X)) by field. apply Rmult_le_compat_l; [lra |]. apply Rle_trans with (/ 1048576 * bpow radix2 (- (k * L))); [| lra].
      change (/ 1048576) with (bpow radix2 (-20)). rewrite <- bpow_plus. apply bpow_le. nia. }
    set (l := bpow radix2 (- L)) in *. assert (LL : 0 <= l * l) by (apply Rmult_le_pos; lra). assert (LLL : 0 <= l * l * l) by (apply Rmult_le_pos; lra).
    assert (P2 : l * l <= K * K) by (apply Rmult_le_compat; lra). assert (P3 : l * l * l <= K * K * K) by (apply Rmult_le_compat; lra). assert (P4 : l * l * l * l <= K * K * K * K) by (apply Rmult_le_compat; lra).
    assert (B2 : bpow radix2 (- (2 * L)) = l * l) by (unfold l; rewrite <- !bpow_plus; f_equal; lia). assert (B3 : bpow radix2 (- (3 * L)) = l * l * l) by (unfold l; rewrite <- !bpow_plus; f_equal; lia). assert (B4 : bpow radix2 (- (4 * L)) = l * l * l * l) by (unfold l; rewrite <- !bpow_plus; f_equal; lia).
    split; [| split]; [apply (E 2%Z) | apply (E 3%Z) | apply (E 4%Z)]; lia || lra.
  Qed.
  Lemma point_bnd (p : vec) : fin3 (p : mat3x1 bf) -> norm (w3 p) <= 103 / 100 * S -> bnd3 (L + 1) p.
  Proof.
    intros Fp Np. destruct (abs_comp_norm (w3 p)) as (N0 & N1 & N2). destruct p as [[x y z]]. destruct Fp as (F0 & F1 & F2). cbn [v3 vx vy vz] in N0, N1, N2, Np.
    pose proof (bpow_gt_0 radix2 L). assert (B : 2 * bpow radix2 L = bpow radix2 (L + 1)) by (rewrite bpow_plus; change (bpow radix2 1) with 2; ring). repeat split; try assumption; rewrite <- B; lra.
  Qed.
  Lemma point_neg (p : vec) j : bnd3 j p -> bnd3 j (vtimes p minus1) /\ w3 (vtimes p minus1) = vscale (-1) (w3 p).
  Proof.
    destruct p as [[x y z]]. intros ((F0 & B0) & (F1 & B1) & (F2 & B2)). unfold vtimes. cbn [c0 c1 c2].
    destruct (neg_fv prec emax lm x F0) as [G0 V0], (neg_fv prec emax lm y F1) as [G1 V1], (neg_fv prec emax lm z F2) as [G2 V2].
    change (nmul F x minus1) with (Bmult mode_NE (x : bf) (@minus1 F)). change (nmul F y minus1) with (Bmult mode_NE (y : bf) (@minus1 F)). change (nmul F z minus1) with (Bmult mode_NE (z : bf) (@minus1 F)).
    split.
    - repeat split; try assumption; [rewrite V0 | rewrite V1 | rewrite V2]; rewrite Rabs_Ropp; assumption.
    - apply V3_eq; unfold v3, vscale; cbn [vx vy vz]; [rewrite V0 | rewrite V1 | rewrite V2]; ring.
  Qed.
  (** an edge of the triangle *)
  Lemma edge_near (x a : vec) v w : bnd3 (L + 1) x -> bnd3 (L + 1) a -> dist (w3 x) (corner K Cn v) <= 14 * (u * S) -> dist (w3 a) (corner K Cn w) <= 14 * (u * S) -> norm v <= 1 -> norm w <= 1 ->
    bnd3 (L + 2) (vminus x a) /\ dist (w3 (vminus x a)) (vsub (corner K Cn v) (corner K Cn w)) <= dl.
  Proof.
    intros Bx Ba Dx Da Nv Nw. pose proof L_ok as LO. assert (HM : (prec < emax)%Z) by exact Hm. destruct (minus_v prec emax lm x a (L + 1) HP ltac:(lia) ltac:(lia) Bx Ba) as [B E].
    split; [replace (L + 2)%Z with (L + 1 + 1)%Z by ring; exact B |]. pose proof (corner_edge v w Nv Nw) as G. destruct dl_ok as (D0 & D1 & D2 & D3). pose proof (u_pos prec) as U0. pose proof K_pos as P.
    set (cv := corner K Cn v) in *. set (cw := corner K Cn w) in *.
    assert (Q : dist (w3 x) (w3 a) <= norm (vsub cv cw) + 28 * (u * S)).
    { unfold dist in *. replace (vsub (w3 x) (w3 a)) with (vadd (vsub cv cw) (vsub (vsub (w3 x) cv) (vsub (w3 a) cw))) by (apply V3_eq; unfold vadd, vsub; cbn [vx vy vz]; ring).
      eapply Rle_trans; [apply triangle |]. pose proof (norm_sub (vsub (w3 x) cv) (vsub (w3 a) cw)). lra. }
    assert (Q2 : dist (vsub (w3 x) (w3 a)) (vsub cv cw) <= 28 * (u * S)).
    { unfold dist in *. replace (vsub (vsub (w3 x) (w3 a)) (vsub cv cw)) with (vsub (vsub (w3 x) cv) (vsub (w3 a) cw)) by (apply V3_eq; unfold vsub; cbn [vx vy vz]; ring).
      pose proof (norm_sub (vsub (w3 x) cv) (vsub (w3 a) cw)). lra. }
    pose proof (dist_tri3 (w3 (vminus x a)) (vsub (w3 x) (w3 a)) (vsub cv cw)) as T.
    assert (u * dist (w3 x) (w3 a) <= u * (2001 / 1000 * K)) by (apply Rmult_le_compat_l; lra). lra.
  Qed.
  (** the value of one test of the triangle *)
  Lemma side_val (N' q : vec) N Q e : bnd3 (3 * (L + 2) + 2) N' -> bnd3 (L + 1) q -> dist (w3 N') N <= e -> dist (w3 q) Q <= 14 * (u * S) -> norm Q <= 9 * K ->
    fin (PMirror1.vdotn N' (vtimes q minus1)) /\ Rabs (val (PMirror1.vdotn N' (vtimes q minus1)) - vdot N (vscale (-1) Q)) <= 91 / 10 * (K * e) + 135 / 100 * (dl * norm N) + 4 * et.
  Proof.
    intros BN Bq DN Dq NQ. pose proof L_ok as LO. assert (HM : (prec < emax)%Z) by exact Hm. destruct (point_neg q _ Bq) as [Bm Em].
    destruct (dot_v prec emax lm N' (vtimes q minus1) (3 * (L + 2) + 2) (L + 1) HP ltac:(lia) ltac:(lia) BN Bm) as [t [Et [Ft Ht]]]. rewrite (vdotn_some prec emax lm _ _ _ Et). split; [exact Ft |]. clear Et.
    rewrite Em in Ht. destruct dl_ok as (D0 & D1 & D2 & D3). pose proof (u_pos prec) as U0. pose proof K_pos as P. pose proof (norm_close (w3 q) Q) as Nq. pose proof (norm_close (w3 N') N) as NN.
    assert (Lq : norm (w3 q) <= 901 / 100 * K) by lra. assert (Emq : norm (vscale (-1) (w3 q)) = norm (w3 q)) by (rewrite norm_scale_abs, Rabs_left; lra).
    pose proof (dot_near (w3 N') (vscale (-1) (w3 q)) N (vscale (-1) Q)) as Dn. rewrite Emq in Dn, Ht.
    assert (Es : dist (vscale (-1) (w3 q)) (vscale (-1) Q) = dist (w3 q) Q).
    { unfold dist. replace (vsub (vscale (-1) (w3 q)) (vscale (-1) Q)) with (vscale (-1) (vsub (w3 q) Q)) by (apply V3_eq; unfold vsub, vscale; cbn [vx vy vz]; ring). rewrite norm_scale_abs, Rabs_left; lra. }
    rewrite Es in Dn. clear Es Em Bm BN Bq Ft Emq. set (n' := norm (w3 N')) in *. set (n := norm N) in *. set (nq := norm (w3 q)) in *.
    pose proof (norm_pos (w3 N')) as P1. pose proof (norm_pos N) as P2. pose proof (norm_pos (w3 q)) as P3. fold n' in P1. fold n in P2. fold nq in P3. assert (P4 : 0 <= e) by (eapply Rle_trans; [apply norm_pos | exact DN]).
    assert (Q1 : dist (w3 N') N * nq <= e * (901 / 100 * K)) by (apply Rmult_le_compat; try assumption; apply norm_pos).
    assert (Q2 : n * dist (w3 q) Q <= n * (14 * (u * S))) by (apply Rmult_le_compat_l; assumption).
    assert (Q3 : n' * nq <= (n + e) * (901 / 100 * K)) by (apply Rmult_le_compat; lra).
    assert (Q4 : u * (n' * nq) <= u * ((n + e) * (901 / 100 * K))) by (apply Rmult_le_compat_l; lra).
    assert (Q5 : u * K * (n + e) <= dl / 31 * (n + e)) by (apply Rmult_le_compat_r; lra).
    assert (Q6 : dl * e <= 6 / 100000 * K * e) by (apply Rmult_le_compat_r; assumption). assert (Q7 : 0 <= K * e) by (apply Rmult_le_pos; lra). assert (Q8 : 0 <= u * S * n) by (apply Rmult_le_pos; lra).
    set (tt := val t) in *. clearbody tt. replace (tt - vdot N (vscale (-1) Q)) with ((tt - vdot (w3 N') (vscale (-1) (w3 q))) + (vdot (w3 N') (vscale (-1) (w3 q)) - vdot N (vscale (-1) Q))) by ring.
    eapply Rle_trans; [apply Rabs_triang |]. lra.
  Qed.
  Section Third.
  Hypothesis (NB : - (3 / 4 * K) <= vx C).
  Variables (s p q d : vec).
  Notation n := (unit (w3 d)).
  Notation x := (vx n). Notation c := (vx Cn). Notation h := (vdot Cn n + vx n). Notation g := (norm (vsub n e_x)).
  Hypotheses (Bs : bnd3 (L + 1) s) (Bp : bnd3 (L + 1) p) (Bq : bnd3 (L + 1) q) (Gd : good_normal (d : mat3x1 bf))
    (Ds : dist (w3 s) (vadd C (vscale K (vscale (-1) e_x))) <= 14 * (u * S)) (Dp : dist (w3 p) (vadd C (vscale K e_x)) <= 14 * (u * S))
    (Dq : dist (w3 q) (vadd C (vscale K n)) <= 14 * (u * S)) (Pd : Rabs (vdot n (vadd C (vscale K e_x))) <= 33 * (u * S)) (Nx : 0 <= x)
    (Sd : let t := vy C * vz n - vz C * vy n in t * t <= 80 * (u * u) * (vy C * vy C + vz C * vz C)).
  Lemma unit_C : 9 / 4 <= vdot Cn Cn /\ vdot Cn Cn <= 64 /\ -3/4 <= c.
  Proof.
    pose proof K_pos as P. assert (I : 0 < / K) by (apply Rinv_0_lt_compat; exact P).
    assert (E : vdot Cn Cn = / K * dist (w3 ca) (w3 cb) * (/ K * dist (w3 ca) (w3 cb))) by (rewrite <- norm_sq, norm_scale_abs, (Rabs_pos_eq (/ K)) by lra; reflexivity). rewrite E.
    assert (H : 3 / 2 <= / K * dist (w3 ca) (w3 cb) <= 8) by (split; (apply Rmult_le_reg_l with K; [exact P |]; rewrite <- Rmult_assoc, Rinv_r by lra; lra)).
    set (r := / K * dist _ _) in *. clearbody r. split; [nra |]. split; [nra |]. unfold vscale. cbn [vx]. apply Rmult_le_reg_l with K; [exact P |]. rewrite <- Rmult_assoc, Rinv_r by lra. lra.
  Qed.
  Lemma unit_d : vdot n n = 1 /\ norm n = 1. Proof. pose proof (nz_good d Gd) as Nz. split; [apply unit_dot; exact Nz | apply unit_norm; exact Nz]. Qed.
  Lemma unit_h : Rabs h <= / 10000.
  Proof.
    pose proof K_pos as P. replace (vdot n (vadd C (vscale K e_x))) with (K * h) in Pd by (unfold vdot, vadd, vscale, e_x; cbn [vx vy vz]; field; lra).
    rewrite Rabs_mult, (Rabs_pos_eq K) in Pd by lra. apply Rmult_le_reg_l with K; [exact P |]. pose proof uS_pos. lra.
  Qed.
  Lemma unit_t : (vy Cn * vz n - vz Cn * vy n) * (vy Cn * vz n - vz Cn * vy n) <= / 1000000000 * (vy Cn * vy Cn + vz Cn * vz Cn).
  Proof.
    pose proof K_pos as P. cbv zeta in Sd. unfold vscale. cbn [vx vy vz]. destruct dl_ok as (_ & _ & _ & U). pose proof (u_pos prec) as U0.
    set (k := / K). set (cy := vy C) in *. set (cz := vz C) in *. set (t := cy * vz n - cz * vy n) in *.
    replace ((k * cy * vz n - k * cz * vy n) * (k * cy * vz n - k * cz * vy n)) with (k * k * (t * t)) by (unfold t; ring).
    replace (/ 1000000000 * (k * cy * (k * cy) + k * cz * (k * cz))) with (k * k * (/ 1000000000 * (cy * cy + cz * cz))) by ring.
    apply Rmult_le_compat_l; [apply Rle_0_sqr |]. eapply Rle_trans; [exact Sd |]. apply Rmult_le_compat_r; [pose proof (Rle_0_sqr cy); pose proof (Rle_0_sqr cz); unfold Rsqr in *; lra |].
    assert (u * u <= / 524288 * / 524288) by (apply Rmult_le_compat; lra). lra.
  Qed.
  Lemma third_facts : 0 <= x <= 1 /\ g * g = 2 - 2 * x /\ 27 / 1000 <= g <= 15 / 10 /\ 299 / 10000 <= c + 2 * x - 1 - h /\ vdot Cn (vsub n e_x) + g <= - (299 / 10000) /\ 67 / 10000 <= g * (1 + c + h) /\ norm (vadd Cn n) <= 9.
  Proof.
    destruct unit_C as (C1 & C2 & C3), unit_d as (U1 & U2). pose proof unit_h as H. pose proof unit_t as T.
    destruct (apart_x Cn n C1 C2 C3 U1 Nx H T) as (_ & X1 & _). pose proof (g_sq n U1) as G. destruct (g_vals Cn n C1 C2 C3 U1 Nx H T) as ((_ & G1) & _ & G2).
    destruct (apart_near Cn n C1 C2 C3 U1 Nx H T) as (A1 & A2). pose proof (apart_far Cn n C1 C2 C3 U1 Nx H T) as A3.
    split; [lra |]. split; [exact G |]. split; [lra |]. split; [exact A1 |]. split; [exact A2 |]. split.
    - eapply Rle_trans; [| exact A3]. assert (/ 4 * / 4 <= (1 + c) * (1 + c)) by (apply Rmult_le_compat; lra). lra.
    - eapply Rle_trans; [apply triangle |]. rewrite U2. assert (norm Cn <= 8); [| lra]. apply norm_le_sq; lra.
  Qed.
  Notation ab := (vsub (corner K Cn e_x) (corner K Cn n)). Notation ac := (vsub (corner K Cn (vscale (-1) e_x)) (corner K Cn n)).
  Lemma edges : norm ab = K * g /\ norm ac <= 2 * K.
  Proof.
    pose proof K_pos as P. destruct unit_d as (U1 & U2). split.
    - replace ab with (vscale (- K) (vsub n e_x)) by (unfold corner; apply V3_eq; unfold vadd, vsub, vscale; cbn [vx vy vz]; ring). rewrite norm_scale_abs, Rabs_Ropp, Rabs_pos_eq; lra.
    - apply corner_edge; [rewrite norm_me; lra | lra].
  Qed.
  Lemma nb_eq : vcross (vcross ac ab) ab = vscale (K * K * K * (g * g)) (vadd n e_x).
  Proof.
    destruct unit_d as (U1 & _). rewrite triple_v, (dot_bc K Cn n U1), (dot_bb K Cn n U1), (g_sq n U1). unfold corner. apply V3_eq; unfold vadd, vsub, vscale, e_x; cbn [vx vy vz]; ring.
  Qed.
  Lemma nc_eq : vcross (vcross ab ac) ac = vscale (K * K * K * (2 + 2 * x)) (vsub n e_x).
  Proof.
    destruct unit_d as (U1 & _). rewrite triple_v, (dot_cb K Cn n U1), (dot_cc K Cn n U1). unfold corner. apply V3_eq; unfold vadd, vsub, vscale, e_x; cbn [vx vy vz]; ring.
  Qed.
  Notation AB := (vminus p q). Notation AC := (vminus s q).
  Notation NBf := (vcrossn (vcrossn AC AB) AB). Notation NCf := (vcrossn (vcrossn AB AC) AC).
  Lemma edges_f : bnd3 (L + 2) AB /\ bnd3 (L + 2) AC /\ dist (w3 AB) ab <= dl /\ dist (w3 AC) ac <= dl.
  Proof.
    destruct unit_d as (_ & U2). pose proof norm_e as Ne. pose proof norm_me as Nm.
    assert (Ds' : dist (w3 s) (corner K Cn (vscale (-1) e_x)) <= 14 * (u * S)) by (rewrite corner_eq; exact Ds). assert (Dp' : dist (w3 p) (corner K Cn e_x) <= 14 * (u * S)) by (rewrite corner_eq; exact Dp).
    assert (Dq' : dist (w3 q) (corner K Cn n) <= 14 * (u * S)) by (rewrite corner_eq; exact Dq).
    destruct (edge_near p q e_x n Bp Bq Dp' Dq' ltac:(lra) ltac:(lra)) as [E1 E2]. destruct (edge_near s q (vscale (-1) e_x) n Bs Bq Ds' Dq' ltac:(lra) ltac:(lra)) as [E3 E4]. tauto.
  Qed.
  Lemma nb_near : bnd3 (3 * (L + 2) + 2) NBf /\ dist (w3 NBf) (vcross (vcross ac ab) ab) <= 622 / 100 * (g * K * K * dl).
  Proof.
    destruct edges_f as (B1 & B2 & D1 & D2). destruct edges as [N1 N2]. destruct third_facts as (_ & _ & (G1 & G2) & _). destruct dl_ok as (Q0 & Q1 & Q2 & Q3). destruct et_K as (T2 & T3 & _). pose proof K_pos as P. pose proof L_ok as LO. assert (HM : (prec < emax)%Z) by exact Hm.
    pose proof (u_pos prec) as U0. set (gg := g) in *. clearbody gg. assert (KK : 0 < K * K) by (apply Rmult_lt_0_compat; exact P). assert (KKK : 0 < K * K * K) by (apply Rmult_lt_0_compat; assumption).
    assert (Y0 : K * (27 / 1000) <= K * gg) by (apply Rmult_le_compat_l; lra). assert (Y1 : K * gg <= K * (15 / 10)) by (apply Rmult_le_compat_l; lra).
    assert (E1 : 5 * et <= / 100 * (dl * (K * gg))).
    { assert (u * K * (31 * (K * (27 / 1000))) <= dl / 31 * (31 * (K * gg))) by (apply Rmult_le_compat; try lra; apply Rmult_le_pos; lra). assert (0 < u * (K * K)) by (apply Rmult_lt_0_compat; lra). lra. }
    assert (E2 : 5 * et <= / 100 * (dl * (K * gg) * (K * gg))).
    { assert (Z : K * (27 / 1000) * (K * (27 / 1000)) <= K * gg * (K * gg)) by (apply Rmult_le_compat; lra). assert (u * K * (31 * (K * (27 / 1000) * (K * (27 / 1000)))) <= dl / 31 * (31 * (K * gg * (K * gg)))) by (apply Rmult_le_compat; try lra; apply Rmult_le_pos; lra).
      assert (0 < u * (K * K * K)) by (apply Rmult_lt_0_compat; lra). lra. }
    destruct (triple_err prec emax lm AC AB ac ab (2 * K) (K * gg) dl (L + 2) HP ltac:(lia) ltac:(lia) B2 B1 D2 D1 N2 ltac:(lra) ltac:(lra) ltac:(lra) ltac:(lra) ltac:(lra) E1 E2) as [R1 R2].
    split; [exact R1 |]. eapply Rle_trans; [exact R2 |]. assert (Z : 0 <= dl * (K * gg)) by (apply Rmult_le_pos; lra).
    assert (dl * (K * gg) * (145 / 100 * (K * gg) + 202 / 100 * (2 * K)) <= dl * (K * gg) * (622 / 100 * K)) by (apply Rmult_le_compat_l; lra). lra.
  Qed.
  Lemma nc_near : bnd3 (3 * (L + 2) + 2) NCf /\ dist (w3 NCf) (vcross (vcross ab ac) ac) <= 119 / 10 * (K * K * dl).
  Proof.
    destruct edges_f as (B1 & B2 & D1 & D2). destruct edges as [N1 N2]. destruct third_facts as (_ & _ & (G1 & G2) & _). destruct dl_ok as (Q0 & Q1 & Q2 & Q3). destruct et_K as (T2 & T3 & _). pose proof K_pos as P. pose proof L_ok as LO. assert (HM : (prec < emax)%Z) by exact Hm.
    pose proof (u_pos prec) as U0. set (gg := g) in *. clearbody gg. assert (KK : 0 < K * K) by (apply Rmult_lt_0_compat; exact P). assert (KKK : 0 < K * K * K) by (apply Rmult_lt_0_compat; assumption).
    assert (Y1 : K * gg <= K * (15 / 10)) by (apply Rmult_le_compat_l; lra).
    assert (E1 : 5 * et <= / 100 * (dl * (2 * K))).
    { assert (u * K * K <= dl / 31 * K) by (apply Rmult_le_compat_r; lra). assert (0 < u * (K * K)) by (apply Rmult_lt_0_compat; lra). lra. }
    assert (E2 : 5 * et <= / 100 * (dl * (2 * K) * (2 * K))).
    { assert (u * K * (K * K) <= dl / 31 * (K * K)) by (apply Rmult_le_compat_r; lra). assert (0 < u * (K * K * K)) by (apply Rmult_lt_0_compat; lra). lra. }
    destruct (triple_err prec emax lm AB AC ab ac (15 / 10 * K) (2 * K) dl (L + 2) HP ltac:(lia) ltac:(lia) B1 B2 D1 D2 ltac:(lra) N2 ltac:(lra) ltac:(lra) ltac:(lra) ltac:(lra) E1 E2) as [R1 R2].
    split; [exact R1 |]. eapply Rle_trans; [exact R2 |]. assert (Z : 0 <= dl * (K * K)) by (apply Rmult_le_pos; lra). lra.
  Qed.
  Lemma corner_q : norm (corner K Cn n) <= 9 * K /\ dist (w3 q) (corner K Cn n) <= 14 * (u * S).
  Proof.
    pose proof K_pos as P. destruct third_facts as (_ & _ & _ & _ & _ & _ & N). split; [| rewrite corner_eq; exact Dq]. unfold corner. rewrite norm_scale_abs, (Rabs_pos_eq K) by lra. rewrite (Rmult_comm 9). apply Rmult_le_compat_l; lra.
  Qed.
  Lemma test_b : ngt (PMirror1.vdotn NBf (vtimes q minus1)) n0 = false.
  Proof.
    destruct nb_near as [B E]. destruct corner_q as [Q1 Q2]. destruct (side_val NBf q _ _ _ B Bq E Q2 Q1) as [Ft Ht]. apply ngt_false; [exact Ft |]. clear B E Q1 Q2 Ft. destruct unit_d as (U1 & U2).
    rewrite (side_b K Cn n U1), nb_eq in Ht. destruct third_facts as (_ & G & (G1 & G2) & _ & _ & F & _). destruct dl_ok as (D0 & D1 & D2 & D3). destruct et_K as (_ & _ & T4). pose proof K_pos as P. pose proof (u_pos prec) as U0.
    rewrite norm_scale_abs in Ht. pose proof (triangle n e_x) as TR. rewrite U2, norm_e in TR. rewrite <- G in Ht. match goal with |- ?t <= 0 => set (y := t) in * end. clearbody y. set (gg := g) in *. set (w := 1 + c + h) in *. clearbody gg w.
    assert (KK : 0 < K * K) by (apply Rmult_lt_0_compat; exact P). assert (KKK : 0 < K * K * K) by (apply Rmult_lt_0_compat; assumption). assert (K4 : 0 < K * K * K * K) by (apply Rmult_lt_0_compat; assumption). set (k3 := K * K * K) in *.
    assert (G3 : 0 < gg * k3) by (apply Rmult_lt_0_compat; lra). rewrite (Rabs_pos_eq (k3 * (gg * gg))) in Ht by (apply Rmult_le_pos; [lra | apply Rle_0_sqr]).
    assert (M1 : k3 * (gg * gg) * norm (vadd n e_x) <= gg * k3 * 3).
    { replace (k3 * (gg * gg) * norm (vadd n e_x)) with (gg * k3 * (gg * norm (vadd n e_x))) by ring. apply Rmult_le_compat_l; [lra |]. pose proof (norm_pos (vadd n e_x)). assert (gg * norm (vadd n e_x) <= 15 / 10 * 2) by (apply Rmult_le_compat; lra). lra. }
    assert (M2 : dl * (k3 * (gg * gg) * norm (vadd n e_x)) <= dl * (gg * k3 * 3)) by (apply Rmult_le_compat_l; lra).
    assert (M3 : gg * k3 * dl <= gg * k3 * (6 / 100000 * K)) by (apply Rmult_le_compat_l; lra).
    assert (M4 : gg * k3 * K * (67 / 10000) <= gg * k3 * K * (gg * w)) by (apply Rmult_le_compat_l; [apply Rmult_le_pos; lra | exact F]).
    assert (M5 : u * (k3 * K) <= / 524288 * (k3 * K)) by (apply Rmult_le_compat_r; lra). assert (M6 : 27 / 1000 * (k3 * K) <= gg * (k3 * K)) by (apply Rmult_le_compat_r; lra).
    apply Rabs_le_inv in Ht. replace (- (k3 * K) * (gg * gg * w)) with (- (gg * k3 * K * (gg * w))) in Ht by ring. replace (K * (622 / 100 * (gg * K * K * dl))) with (622 / 100 * (gg * k3 * dl)) in Ht by (unfold k3; ring). lra.
  Qed.
  Lemma nc_size : norm (vcross (vcross ab ac) ac) = K * K * K * (2 + 2 * x) * g /\ norm (vcross (vcross ab ac) ac) <= 6 * (K * K * K) /\ 54 / 1000 * (K * K * K) <= norm (vcross (vcross ab ac) ac).
  Proof.
    destruct third_facts as ((X0 & X1) & _ & (G1 & G2) & _). pose proof K_pos as P. assert (KKK : 0 < K * K * K) by (repeat apply Rmult_lt_0_compat; exact P).
    rewrite nc_eq, norm_scale_abs. set (gg := g) in *. set (xx := x) in *. clearbody gg xx. rewrite Rabs_pos_eq by (apply Rmult_le_pos; lra). set (k3 := K * K * K) in *. split; [reflexivity |].
    assert ((2 + 2 * xx) * gg <= 4 * (15 / 10)) by (apply Rmult_le_compat; lra). assert (2 * (27 / 1000) <= (2 + 2 * xx) * gg) by (apply Rmult_le_compat; lra).
    split; [assert (k3 * ((2 + 2 * xx) * gg) <= k3 * 6) by (apply Rmult_le_compat_l; lra) | assert (k3 * (54 / 1000) <= k3 * ((2 + 2 * xx) * gg)) by (apply Rmult_le_compat_l; lra)]; lra.
  Qed.
  Lemma test_c : ngt (PMirror1.vdotn NCf (vtimes q minus1)) n0 = true.
  Proof.
    destruct nc_near as [B E]. destruct corner_q as [Q1 Q2]. destruct (side_val NCf q _ _ _ B Bq E Q2 Q1) as [Ft Ht]. destruct (fv_n0 prec emax lm) as [Fz Vz]. apply (ngt_val prec emax lm); [exact Ft | exact Fz |]. rewrite Vz. clear B E Q1 Q2 Ft Fz Vz.
    destruct unit_d as (U1 & U2). rewrite (side_c K Cn n U1) in Ht. destruct nc_size as (_ & N1 & _). destruct third_facts as ((X0 & X1) & _ & _ & F & _). destruct dl_ok as (D0 & D1 & D2 & D3). destruct et_K as (_ & _ & T4). pose proof K_pos as P. pose proof (u_pos prec) as U0.
    match goal with |- 0 < ?t => set (y := t) in * end. clearbody y. set (nn := norm (vcross (vcross ab ac) ac)) in *. clearbody nn. set (w := 1 - c - 2 * x + h) in *. assert (W : w <= - (299 / 10000)) by (unfold w; lra). clearbody w. set (xx := x) in *. clearbody xx.
    assert (KKK : 0 < K * K * K) by (repeat apply Rmult_lt_0_compat; exact P). assert (K4 : 0 < K * K * K * K) by (apply Rmult_lt_0_compat; assumption). set (k3 := K * K * K) in *.
    assert (M1 : dl * nn <= dl * (6 * k3)) by (apply Rmult_le_compat_l; lra). assert (M2 : k3 * dl <= k3 * (6 / 100000 * K)) by (apply Rmult_le_compat_l; lra).
    assert (M3 : (2 + 2 * xx) * w <= - (598 / 10000)) by (assert (2 * (299 / 10000) <= (2 + 2 * xx) * - w) by (apply Rmult_le_compat; lra); lra).
    assert (M4 : k3 * K * ((2 + 2 * xx) * w) <= k3 * K * - (598 / 10000)) by (apply Rmult_le_compat_l; lra). assert (M5 : u * (k3 * K) <= / 524288 * (k3 * K)) by (apply Rmult_le_compat_r; lra).
    apply Rabs_le_inv in Ht. replace (K * (119 / 10 * (K * K * dl))) with (119 / 10 * (k3 * dl)) in Ht by (unfold k3; ring). lra.
  Qed.
  Lemma nc_good : good_normal (NCf : mat3x1 bf).
  Proof.
    destruct nc_near as [B E]. destruct nc_size as (_ & N1 & N2). destruct dl_ok as (D0 & D1 & D2 & D3). pose proof K_pos as P. pose proof L_ok as LO. pose proof KS as Q. pose proof KL as LK. pose proof SL as SL'. destruct l_h as (L0 & H0 & _ & _).
    pose proof (norm_close (w3 NCf) (vcross (vcross ab ac) ac)) as C1. pose proof (norm_close (vcross (vcross ab ac) ac) (w3 NCf)) as C2. rewrite PPrismL.dist_sym_any in C2.
    assert (KKK : 0 < K * K * K) by (repeat apply Rmult_lt_0_compat; exact P). assert (KK : 0 < K * K) by (apply Rmult_lt_0_compat; exact P).
    assert (M : K * K * dl <= K * K * (6 / 100000 * K)) by (apply Rmult_le_compat_l; lra). pose proof (abs_comp_norm (w3 NCf)) as (A0 & A1 & A2).
    pose proof (bnd3_fin prec emax lm _ _ B) as Fn. set (NN := NCf) in *. clearbody NN. set (l := bpow radix2 (- L)) in *. set (hh := bpow radix2 L) in *.
    assert (Lo : l * l * l * / 32 <= norm (w3 NN)).
    { assert (l * l <= K * K) by (apply Rmult_le_compat; lra). assert (l * l * l <= K * K * K) by (apply Rmult_le_compat; try lra; apply Rmult_le_pos; lra). lra. }
    assert (Hi : norm (w3 NN) <= 8 * (hh * hh * hh)).
    { assert (K <= hh) by lra. assert (K * K <= hh * hh) by (apply Rmult_le_compat; lra). assert (K * K * K <= hh * hh * hh) by (apply Rmult_le_compat; lra). lra. }
    assert (HB : 8 * (hh * hh * hh) <= bpow radix2 (emax / 2 - 3)).
    { apply Rle_trans with (bpow radix2 (3 + 3 * L)); [| apply bpow_le; lia]. rewrite bpow_plus. replace (bpow radix2 (3 * L)) with (hh * hh * hh) by (unfold hh; rewrite <- !bpow_plus; f_equal; lia). change (bpow radix2 3) with 8. lra. }
    split; [split; [exact Fn |] |].
    - destruct NN as [[y0 y1 y2]]. cbv zeta. cbn [v3 vx vy vz] in A0, A1, A2, Hi. repeat split; lra.
    - rewrite <- norm_sq. apply Rle_trans with ((l * l * l * / 32) * (l * l * l * / 32)).
      + change (/ 32) with (bpow radix2 (-5)). unfold l. rewrite <- !bpow_plus. apply bpow_le. lia.
      + assert (0 < l * l * l) by (repeat apply Rmult_lt_0_compat; lra). apply Rmult_le_compat; lra.
  Qed.
  (** beyond the next point in the direction found there is nothing *)
  Lemma nc_beyond : vdot C (unit (w3 NCf)) + K <= - (8 / 1000 * K).
  Proof.
    destruct nc_near as [_ E]. destruct nc_size as (N0 & N1 & N2). destruct dl_ok as (D0 & D1 & D2 & D3). pose proof K_pos as P. pose proof (nz_good NCf nc_good) as Nz. pose proof (norm_nz _ Nz) as Np. 
    destruct third_facts as ((X0 & X1) & _ & _ & _ & F & _). pose proof (norm_close (w3 NCf) (vcross (vcross ab ac) ac)) as C1.
    assert (Eu : vdot C (unit (w3 NCf)) = vdot C (w3 NCf) / norm (w3 NCf)) by (unfold unit, vdot, vscale; cbn [vx vy vz]; field; lra). rewrite Eu. clear Eu Nz.
    assert (Ed : vdot C (w3 NCf) = vdot C (vcross (vcross ab ac) ac) + vdot C (vsub (w3 NCf) (vcross (vcross ab ac) ac))) by (unfold vdot, vsub; cbn [vx vy vz]; ring).
    pose proof (cauchy C (vsub (w3 NCf) (vcross (vcross ab ac) ac))) as CS. fold (dist (w3 ca) (w3 cb)) in CS. fold (dist (w3 NCf) (vcross (vcross ab ac) ac)) in CS. apply Rabs_le_inv in CS.
    assert (En : vdot C (vcross (vcross ab ac) ac) = K * K * K * K * (2 + 2 * x) * vdot Cn (vsub n e_x)) by (rewrite nc_eq; unfold vdot, vscale; cbn [vx vy vz]; field; lra).
    rewrite En in Ed. clear En. set (vc := vdot C (vsub (w3 NCf) _)) in *. set (dn := dist (w3 NCf) _) in *. set (n1 := norm (vcross _ _)) in *. set (n2 := norm (w3 NCf)) in *. set (v := vdot C (w3 NCf)) in *. set (f := vdot Cn (vsub n e_x)) in *. set (gg := g) in *. set (xx := x) in *.
    clearbody vc n1 n2 v f gg xx. assert (Dn : 0 <= dn) by apply norm_pos. clearbody dn.
    assert (KKK : 0 < K * K * K) by (repeat apply Rmult_lt_0_compat; exact P). assert (KK : 0 < K * K) by (apply Rmult_lt_0_compat; exact P). assert (K4 : 0 < K * K * K * K) by (apply Rmult_lt_0_compat; assumption).
    assert (M0 : K * K * dl <= K * K * (6 / 100000 * K)) by (apply Rmult_le_compat_l; lra). assert (M1 : dn <= 72 / 100000 * (K * K * K)) by lra.
    assert (M2 : dist (w3 ca) (w3 cb) * dn <= 8 * K * (72 / 100000 * (K * K * K))) by (apply Rmult_le_compat; try assumption; apply norm_pos).
    assert (M3 : K * n2 <= K * (n1 + dn)) by (apply Rmult_le_compat_l; lra). assert (M4 : K * dn <= K * (72 / 100000 * (K * K * K))) by (apply Rmult_le_compat_l; lra).
    assert (M5 : (2 + 2 * xx) * (f + gg) <= - (598 / 10000)) by (assert (2 * (299 / 10000) <= (2 + 2 * xx) * - (f + gg)) by (apply Rmult_le_compat; lra); lra).
    assert (M6 : K * K * K * K * ((2 + 2 * xx) * (f + gg)) <= K * K * K * K * - (598 / 10000)) by (apply Rmult_le_compat_l; lra).
    assert (M7 : v + K * n2 <= - (53 / 1000) * (K * K * K * K)) by (rewrite N0 in M3; lra).
    assert (M8 : n2 <= 601 / 100 * (K * K * K)) by lra.
    apply Rmult_le_reg_r with n2; [exact Np |]. replace ((v / n2 + K) * n2) with (v + K * n2) by (field; lra). assert (8 / 1000 * K * n2 <= 8 / 1000 * K * (601 / 100 * (K * K * K))) by (apply Rmult_le_compat_l; lra). lra.
  Qed.
  Lemma apart_next : next s p q d = inl (Some false) \/ exists n', next s p q d = inr ([s; q], n') /\ good_normal (n' : mat3x1 bf) /\ vdot C (unit (w3 n')) + K <= - (8 / 1000 * K).
  Proof.
    unfold next. cbv zeta. destruct (ngt (PMirror1.vdotn q d) n0) eqn:T; cbn [negb]; [right | left; reflexivity]. rewrite test_b, test_c. exists NCf. split; [reflexivity |]. split; [exact nc_good | exact nc_beyond].
  Qed.
  End Third.
  (** a point of the difference beyond which there is nothing ends the search *)
  Lemma beyond_dot (q d : vec) : good_normal (d : mat3x1 bf) -> bnd3 (emax / 2) q -> norm (w3 q) <= 103 / 100 * S -> dist (w3 q) (vadd C (vscale K (unit (w3 d)))) <= 14 * (u * S) ->
    vdot C (unit (w3 d)) + K <= - (8 / 1000 * K) -> ngt (PMirror1.vdotn q d) n0 = false.
  Proof.
    intros Gd Bq Nq D V. apply (dot_sign q d Gd Bq Nq). pose proof (unit_norm _ (nz_good d Gd)) as Un. set (n := unit (w3 d)) in *. clearbody n. pose proof uS_pos as UP. pose proof K_pos as P.
    pose proof (cauchy (vsub (w3 q) (vadd C (vscale K n))) n) as Q. rewrite Un, Rmult_1_r in Q. fold (dist (w3 q) (vadd C (vscale K n))) in Q. apply Rabs_le_inv in Q.
    assert (E : vdot (w3 q) n = vdot (vsub (w3 q) (vadd C (vscale K n))) n + vdot C n + K * vdot n n) by (unfold vdot, vsub, vadd, vscale; cbn [vx vy vz]; ring).
    rewrite <- norm_sq, Un in E. rewrite E. lra.
  Qed.
  Variables (ba bb : aabb F) (ea eb : F).
  Notation A := (SSphere (MkSphere ca ra ba ea)).
  Notation B := (SSphere (MkSphere cb rb bb eb)).
  Lemma behind_loop (s p d : vec) fuel : vx C <= - (5 / 4 * K) -> mink ca ra cb rb d = Some p -> bnd3 (emax / 2) p -> dist (w3 p) (vadd C (vscale K e_x)) <= 14 * (u * S) ->
    norm (w3 p) <= 103 / 100 * S -> good_normal (d : mat3x1 bf) -> w3 d = e_x -> (1 <= fuel)%nat -> gjk_loop fuel A B [s] d = Done (Ok (Some false)).
  Proof.
    intros HB Ep Bp Dp Np G1 W1 HF. pose proof K_pos as P. assert (U1 : unit (w3 d) = e_x) by (rewrite W1; unfold unit; rewrite norm_e, Rinv_1; apply V3_eq; unfold vscale; cbn [vx vy vz]; ring).
    apply loop_one; [| exact HF]. rewrite iter_one_any, Ep. f_equal. unfold first. cbv zeta. rewrite (beyond_dot p d G1 Bp Np); [reflexivity | rewrite U1; exact Dp |].
    rewrite U1. replace (vdot C e_x) with (vx C) by (unfold vdot, e_x; cbn [vx vy vz]; ring). lra.
  Qed.
  Lemma apart_loop (s p d : vec) fuel : - (3 / 4 * K) <= vx C -> bpow radix2 (- L) <= Rabs (vy C) \/ bpow radix2 (- L) <= Rabs (vz C) ->
    mink ca ra cb rb d = Some p -> bnd3 (emax / 2) s -> bnd3 (emax / 2) p -> dist (w3 s) (vadd C (vscale K (vscale (-1) e_x))) <= 14 * (u * S) -> dist (w3 p) (vadd C (vscale K e_x)) <= 14 * (u * S) ->
    norm (w3 s) <= 103 / 100 * S -> norm (w3 p) <= 103 / 100 * S -> val (c1 s) = val (c1 p) -> val (c2 s) = val (c2 p) -> val (c1 p) = rnd (vy C) -> val (c2 p) = rnd (vz C) -> good_normal (d : mat3x1 bf) -> w3 d = e_x ->
    (3 <= fuel)%nat -> gjk_loop fuel A B [s] d = Done (Ok (Some false)).
  Proof.
    intros NB Off Ep Bs Bp Ds Dp Ns Np Ey Ez Vy Vz G1 W1 HF. pose proof K_pos as P. assert (X8 : K / 8 <= vx C + K) by lra.
    assert (Fs : fin3 (s : mat3x1 bf)) by exact (bnd3_fin prec emax lm _ _ Bs). assert (Fp : fin3 (p : mat3x1 bf)) by exact (bnd3_fin prec emax lm _ _ Bp).
    destruct (dir_good s p Bs Bp Ds Dp Np Ey Ez Vy Vz X8 Off) as [Gn Pn]. destruct (dir_side s p Bs Bp Ds Dp Np Ey Ez Vy Vz X8 Off) as [Nx Sd].
    assert (I1 : gjk_iter A B [s] d = Ok (first s p d)) by (rewrite iter_one_any, Ep; reflexivity). unfold first in I1. cbv zeta in I1.
    set (n := vcrossn (vcrossn (vminus s p) (vtimes p minus1)) (vtimes p minus1)) in *. clearbody n. rewrite (mag_ne n Gn) in I1.
    destruct (ngt (PMirror1.vdotn p d) n0); cbn [negb] in I1; [| apply (loop_one _ _ _ _ false); [exact I1 | lia]].
    apply (loop_more _ _ _ _ [s; p] n false 2); [exact I1 | | exact HF]. intros f2 Hf2. clear I1.
    destruct (sup n Gn) as (q & Eq & Bq & Dq & Nq). assert (Fq : fin3 (q : mat3x1 bf)) by exact (bnd3_fin prec emax lm _ _ Bq).
    assert (I2 : gjk_iter A B [s; p] n = Ok (next s p q n)) by (rewrite iter_two_any, Eq; reflexivity).
    destruct (apart_next NB s p q n (point_bnd s Fs Ns) (point_bnd p Fp Np) (point_bnd q Fq Nq) Gn Ds Dp Dq Pn Nx Sd) as [E | (n' & E & Gn' & V)]; rewrite E in I2.
    - apply (loop_one _ _ _ _ false); [exact I2 | lia].
    - apply (loop_more _ _ _ _ [s; q] n' false 1); [exact I2 | | exact Hf2]. intros f3 Hf3. destruct (sup n' Gn') as (q3 & Eq3 & Bq3 & Dq3 & Nq3).
      apply loop_one; [| exact Hf3]. rewrite iter_two_any, Eq3. f_equal. unfold next. cbv zeta. rewrite (beyond_dot q3 n' Gn' Bq3 Nq3 Dq3 V). reflexivity.
  Qed.
  Lemma apart_query fuel : vx C <= - (5 / 4 * K) \/ - (3 / 4 * K) <= vx C /\ (bpow radix2 (- L) <= Rabs (vy C) \/ bpow radix2 (- L) <= Rabs (vz C)) -> (3 <= fuel)%nat -> query_intersect fuel A B = Done (Ok (Some false)).
  Proof.
    intros O HF. destruct start_points as (s & p & Es & Ep & Bs & Bp & Ds & Dp & Ns & Np & Ey & Ez & Vy & Vz & G1 & W1).
    unfold query_intersect. rewrite start_any. cbv zeta. rewrite Es. revert Ep G1 W1. generalize d1. intros d Ep G1 W1. destruct O as [O | [O1 O2]].
    - apply (behind_loop s p d fuel O Ep Bp Dp Np G1 W1). lia.
    - apply (apart_loop s p d fuel O1 O2 Ep Bs Bp Ds Dp Ns Np Ey Ez Vy Vz G1 W1 HF).
  Qed.
  End Apart.
End Deep2.
