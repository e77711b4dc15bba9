(** PSlerpF.v — length, speed and reversal of the spherical interpolation in IEEE arithmetic (C129). *)
From Coq Require Import Reals List ZArith Bool Lra Lia Psatz.
From Flocq Require Import Core BinarySingleNaN.
Import ListNotations.
From Verif Require Import Base Num Vec Mat Quat Float FloatFacts SpecGeom SpecQuat SpecRound SpecBuild SpecFq SpecTrig SpecRun PGeo1 PRound PQuat PQuat2 PIeee2 PIeee4 PIeee6 PRun PTrig4 PSlerp PSpinM.
Local Open Scope R_scope.

(** ---- over the reals ---- *)
Lemma arc_flip w t a b : arc_point w (1 - t) b a = arc_point w t a b.
Proof. unfold arc_point. replace (1 - (1 - t)) with t by ring. set (x := sin (t * w) / sin w). set (y := sin ((1 - t) * w) / sin w). destruct a as [[? ? ?] ?], b as [[? ? ?] ?]. unfold hadd, hscale, vadd, vscale. cbn. f_equal; [f_equal |]; ring. Qed.
Lemma arc_weights w s t : sin w <> 0 -> sin ((1 - s) * w) / sin w * (sin ((1 - t) * w) / sin w) + sin (s * w) / sin w * (sin (t * w) / sin w) +
  (sin ((1 - s) * w) / sin w * (sin (t * w) / sin w) + sin ((1 - t) * w) / sin w * (sin (s * w) / sin w)) * cos w = cos ((t - s) * w).
Proof.
  intro Sn. replace ((1 - s) * w) with (w - s * w) by ring. replace ((1 - t) * w) with (w - t * w) by ring. replace ((t - s) * w) with (t * w - s * w) by ring. rewrite !sin_minus, cos_minus.
  pose proof (sin2_cos2 w) as Q. unfold Rsqr in Q. set (S := sin w) in *. set (C := cos w) in *. set (s1 := sin (s * w)). set (c1 := cos (s * w)). set (s2 := sin (t * w)). set (c2 := cos (t * w)).
  set (k := C * / S). set (i := / S). assert (K1 : i * C = k) by (unfold i, k; ring). assert (K0 : S * i = 1) by (unfold i; field; exact Sn). assert (K2 : i * i = 1 + k * k) by (unfold k; fold i; replace (1 + C * i * (C * i)) with (S * i * (S * i) + C * i * (C * i)) by (rewrite K0; ring); replace (S * i * (S * i) + C * i * (C * i)) with ((S * S + C * C) * (i * i)) by ring; rewrite Q; ring).
  assert (A1 : (S * c1 - C * s1) / S = c1 - k * s1) by (unfold k; field; exact Sn). assert (A2 : (S * c2 - C * s2) / S = c2 - k * s2) by (unfold k; field; exact Sn). rewrite A1, A2. unfold Rdiv. fold i.
  replace ((c1 - k * s1) * (c2 - k * s2) + s1 * i * (s2 * i) + ((c1 - k * s1) * (s2 * i) + (c2 - k * s2) * (s1 * i)) * C)
    with ((c1 - k * s1) * (c2 - k * s2) + s1 * s2 * (i * i) + ((c1 - k * s1) * s2 + (c2 - k * s2) * s1) * (i * C)) by ring. rewrite K1, K2. ring.
Qed.
Lemma arc_dot w s t a b : sin w <> 0 -> hdot a b = cos w -> hdot (arc_point w s a b) (arc_point w t a b) =
  cos ((t - s) * w) + sin ((1 - s) * w) / sin w * (sin ((1 - t) * w) / sin w) * (hdot a a - 1) + sin (s * w) / sin w * (sin (t * w) / sin w) * (hdot b b - 1).
Proof.
  intros Sn Dc. rewrite <- (arc_weights w s t Sn), <- Dc. unfold arc_point. set (x := sin ((1 - s) * w) / sin w). set (y := sin (s * w) / sin w). set (x' := sin ((1 - t) * w) / sin w). set (y' := sin (t * w) / sin w).
  destruct a as [[? ? ?] ?], b as [[? ? ?] ?]. unfold hadd, hscale, vadd, vscale, hdot, vdot. cbn. ring.
Qed.
Lemma arc_dot_near w s t a b e : 0 < w < PI / 2 -> 0 <= s <= 1 -> 0 <= t <= 1 -> hdot a b = cos w -> Rabs (hdot a a - 1) <= e -> Rabs (hdot b b - 1) <= e ->
  Rabs (hdot (arc_point w s a b) (arc_point w t a b) - cos ((t - s) * w)) <= 2 * e / (sin w * sin w).
Proof.
  intros W Hs Ht Dc Ea Eb. pose proof PI_RGT_0 as P0. assert (S0 : 0 < sin w) by (apply sin_gt_0; lra). assert (e0 : 0 <= e) by (eapply Rle_trans; [apply Rabs_pos | exact Ea]). rewrite (arc_dot w s t a b) by (lra || assumption).
  assert (SN : forall r, 0 <= r <= 1 -> 0 <= sin (r * w) / sin w <= / sin w).
  { intros r Hr. assert (0 <= r * w <= w) by nra. assert (0 <= sin (r * w)) by (apply sin_ge_0; lra). pose proof (SIN_bound (r * w)). assert (0 < / sin w) by (apply Rinv_0_lt_compat; exact S0). unfold Rdiv. split; [nra |]. apply Rle_trans with (1 * / sin w); [apply Rmult_le_compat_r; lra | lra]. }
  destruct (SN (1 - s) ltac:(lra)) as [X0 X1]. destruct (SN (1 - t) ltac:(lra)) as [X2 X3]. destruct (SN s Hs) as [Y0 Y1]. destruct (SN t Ht) as [Y2 Y3].
  set (x := sin ((1 - s) * w) / sin w) in *. set (y := sin (s * w) / sin w) in *. set (x' := sin ((1 - t) * w) / sin w) in *. set (y' := sin (t * w) / sin w) in *. set (i := / sin w) in *.
  assert (I : 2 * e / (sin w * sin w) = i * i * e + i * i * e) by (unfold i; field; lra). rewrite I.
  replace (cos ((t - s) * w) + x * x' * (hdot a a - 1) + y * y' * (hdot b b - 1) - cos ((t - s) * w)) with (x * x' * (hdot a a - 1) + y * y' * (hdot b b - 1)) by ring.
  eapply Rle_trans; [apply Rabs_triang |]. assert (0 <= x * x' <= i * i) by (split; [apply Rmult_le_pos; assumption | apply Rmult_le_compat; assumption]). assert (0 <= y * y' <= i * i) by (split; [apply Rmult_le_pos; assumption | apply Rmult_le_compat; assumption]).
  rewrite !(Rabs_mult (_ * _)). rewrite (Rabs_pos_eq (x * x')), (Rabs_pos_eq (y * y')) by tauto. apply Rplus_le_compat; (apply Rmult_le_compat; [tauto | apply Rabs_pos | tauto | assumption]).
Qed.

Section SlerpF.
  Context (prec emax : Z) {Hp : Prec_gt_0 prec} {Hm : Prec_lt_emax prec emax} (lm : libm (binary_float prec emax)).
  Notation bf := (binary_float prec emax).
  Notation F := (@Ieee prec emax Hp Hm lm).
  Notation u := (uro prec).
  Notation val := (@B2R prec emax).
  Notation hq q := (qval (q : quat bf)).
  Theorem slerp_frames (a b : quat F) (s t t' : F) (d B : R) : (24 <= prec)%Z -> (48 <= emax)%Z -> near (a : quat bf) -> near (b : quat bf) ->
    is_finite (s : bf) = true -> is_finite (t : bf) = true -> is_finite (t' : bf) = true -> val t' = 1 - val t -> 6 * u <= hdot (hq a) (hq b) <= 9998 / 10000 -> sincos_acc lm B d -> atan2_acc lm d -> 2 <= B -> d <= / 1000 ->
    let W := acos (hdot (hq a) (hq b)) in let D := 5 * d / sin W + 110 * u / (sin W * sin W) in let K := 37 * u / (sin W * sin W) in
    let p := quat_interpolate_slerp a b s in let q := quat_interpolate_slerp a b t in let r := quat_interpolate_slerp b a t' in
    qfin (p : quat bf) /\ qfin (q : quat bf) /\ qfin (r : quat bf) /\ hdist (hq q) (hq r) <= 2 * D /\
    Rabs (hdot (hq p) (hq q) - cos ((clamp01 (val t) - clamp01 (val s)) * W)) <= K + 2 * D * (1 + K) + D * D /\ Rabs (hdot (hq q) (hq q) - 1) <= K + 2 * D * (1 + K) + D * D.
  Proof.
    intros P E [Fa Na] [Fb Nb] Fs Ft Ft' Tt [C0 C1] SC AT B2 d0 W D K p q r. pose proof (u_pos prec) as U0. assert (P9 : (9 < prec)%Z) by lia. pose proof (u_small prec P9) as U1.
    pose proof Na as Na'. pose proof Nb as Nb'. apply Rabs_le_inv in Na'. apply Rabs_le_inv in Nb'. assert (L1 : hlen (hq a) <= 101 / 100) by lra. assert (L2 : hlen (hq b) <= 101 / 100) by lra.
    assert (Sy : hdot (hq b) (hq a) = hdot (hq a) (hq b)) by (destruct (hq a) as [[? ? ?] ?], (hq b) as [[? ? ?] ?]; unfold hdot, vdot; cbn; ring).
    destruct (slerp_ieee prec emax lm a b s d B P E Fa Fb Fs L1 L2 ltac:(lra) SC AT B2 d0) as (Fp & Dp & _). destruct (slerp_ieee prec emax lm a b t d B P E Fa Fb Ft L1 L2 ltac:(lra) SC AT B2 d0) as (Fq & Dq & _).
    destruct (slerp_ieee prec emax lm b a t' d B P E Fb Fa Ft' L2 L1 ltac:(lra) SC AT B2 d0) as (Fr & Dr & _). rewrite Sy in Dr. specialize (Dp C1). specialize (Dq C1). specialize (Dr C1). rewrite Tt, clamp01_flip, arc_flip in Dr.
    fold p in Fp, Dp. fold q in Fq, Dq. fold r in Fr, Dr. fold W in Dp, Dq, Dr. fold D in Dp, Dq, Dr.
    set (X := arc_point W (clamp01 (val s)) (hq a) (hq b)) in *. set (Y := arc_point W (clamp01 (val t)) (hq a) (hq b)) in *.
    split; [exact Fp |]. split; [exact Fq |]. split; [exact Fr |]. split; [pose proof (hdist_triangle (hq q) Y (hq r)) as Q; rewrite (hdist_sym Y) in Q; lra |].
    assert (CW : cos W = hdot (hq a) (hq b)) by (apply cos_acos; lra).
    assert (WB : 0 < W < PI / 2).
    { assert (A : 0 <= W <= PI) by apply acos_bound. pose proof PI_RGT_0. assert (NZ : W <> 0) by (intro Z; rewrite Z, cos_0 in CW; lra). split; [lra |]. destruct (Rlt_or_le W (PI / 2)) as [L | L]; [exact L |]. exfalso. assert (cos W <= 0) by (rewrite <- cos_PI2; apply cos_decr_1; lra). lra. }
    assert (S0 : 0 < sin W) by (apply sin_gt_0; pose proof PI_RGT_0; lra). assert (SS : 0 < sin W * sin W) by nra.
    assert (Ea : Rabs (hdot (hq a) (hq a) - 1) <= 37 / 2 * u) by (rewrite <- hlen_sq; apply Rabs_le; nra). assert (Eb : Rabs (hdot (hq b) (hq b) - 1) <= 37 / 2 * u) by (rewrite <- hlen_sq; apply Rabs_le; nra).
    assert (KE : 2 * (37 / 2 * u) / (sin W * sin W) = K) by (unfold K; field; lra).
    pose proof (arc_dot_near W _ _ _ _ _ WB (clamp01_box (val s)) (clamp01_box (val t)) (eq_sym CW) Ea Eb) as XY. pose proof (arc_dot_near W _ _ _ _ _ WB (clamp01_box (val s)) (clamp01_box (val s)) (eq_sym CW) Ea Eb) as XX. pose proof (arc_dot_near W _ _ _ _ _ WB (clamp01_box (val t)) (clamp01_box (val t)) (eq_sym CW) Ea Eb) as YY.
    fold X Y in XY. fold X in XX. fold Y in YY. rewrite KE in XY, XX, YY. unfold Rminus in XX at 2. unfold Rminus in YY at 2. rewrite Rplus_opp_r, Rmult_0_l, cos_0 in XX, YY.
    assert (K0 : 0 <= K) by (unfold K; apply Rmult_le_pos; [lra | left; apply Rinv_0_lt_compat; exact SS]).
    assert (LX : forall Z, Rabs (hdot Z Z - 1) <= K -> hlen Z <= 1 + K).
    { intros Z HZ. apply Rabs_le_inv in HZ. pose proof (hlen_sq Z). pose proof (hlen_pos Z). apply Rnot_lt_le. intro. nra. }
    pose proof (LX X XX) as HX. pose proof (LX Y YY) as HY. assert (D0 : 0 <= D) by (eapply Rle_trans; [| exact Dp]; unfold hdist; apply hlen_pos).
    assert (Gen : forall x y X0 Y0 c, hdist x X0 <= D -> hdist y Y0 <= D -> hlen X0 <= 1 + K -> hlen Y0 <= 1 + K -> Rabs (hdot X0 Y0 - c) <= K -> Rabs (hdot x y - c) <= K + 2 * D * (1 + K) + D * D).
    { intros x y X0 Y0 c Hx Hy HX0 HY0 Hc. unfold hdist in *. replace (hdot x y - c) with ((hdot X0 Y0 - c) + (hdot (hsub x X0) Y0 + (hdot X0 (hsub y Y0) + hdot (hsub x X0) (hsub y Y0)))) by (destruct x as [[? ? ?] ?], y as [[? ? ?] ?], X0 as [[? ? ?] ?], Y0 as [[? ? ?] ?]; unfold hsub, hdot, vdot, vsub; cbn; ring).
      pose proof (hdot_abs (hsub x X0) Y0) as Q1. pose proof (hdot_abs X0 (hsub y Y0)) as Q2. pose proof (hdot_abs (hsub x X0) (hsub y Y0)) as Q3. pose proof (hlen_pos (hsub x X0)). pose proof (hlen_pos (hsub y Y0)). pose proof (hlen_pos X0). pose proof (hlen_pos Y0).
      assert (hlen (hsub x X0) * hlen Y0 <= D * (1 + K)) by (apply Rmult_le_compat; assumption). assert (hlen X0 * hlen (hsub y Y0) <= (1 + K) * D) by (apply Rmult_le_compat; assumption). assert (hlen (hsub x X0) * hlen (hsub y Y0) <= D * D) by (apply Rmult_le_compat; assumption).
      apply Rabs_le_inv in Hc. apply Rabs_le_inv in Q1. apply Rabs_le_inv in Q2. apply Rabs_le_inv in Q3. apply Rabs_le. split; lra. }
    split; [apply (Gen _ _ X Y); assumption | apply (Gen _ _ Y Y); assumption].
  Qed.
End SlerpF.
