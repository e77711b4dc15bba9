(** PTrig4.v — spherical interpolation in IEEE arithmetic, continued (C103). *)
From Coq Require Import Reals List ZArith NArith Bool Lra Lia Psatz.
From Flocq Require Import Core BinarySingleNaN.
Import ListNotations.
From Verif Require Import Base Num Vec Mat Quat Float Exact FloatFacts FloatRound Order SpecMat SpecGeom SpecBound SpecQuat
  SpecRound SpecBuild SpecFq SpecTrig ExactFacts PMat PShape PBuild PGeo1 PQuat PRound PRound2 PRound3 PIeee1 PIeee2 PIeee3 PIeee4 PIeee5 PIeee6 PIeee7 PPrismF PTrig PTrig2 PTrig3.
Local Open Scope R_scope.

(** for a small angle the two coefficients of the arc are close to those of the chord *)
Lemma sin_two_sided x : 0 <= x <= 1 -> x * (1 - x * x / 6) <= sin x <= x.
Proof.
  intros [X0 X1]. destruct (pre_sin_bound x 0 X0 ltac:(lra)) as [L _]. unfold sin_approx, sin_term in L. simpl in L.
  split; [lra |]. destruct X0 as [X0 | <-]; [left; apply sin_lt_x; exact X0 | rewrite sin_0; lra].
Qed.
Lemma coef_small W t : 0 < W -> W * W <= 23 / 100000 -> 0 <= t <= 1 -> Rabs (sin (t * W) / sin W - t) <= 40 / 1000000 * t.
Proof.
  intros W0 W2 Ht. assert (W1 : W <= 1) by nra. destruct (sin_two_sided W ltac:(lra)) as [L1 L2].
  assert (TW : 0 <= t * W <= W) by (split; [apply Rmult_le_pos; lra | rewrite <- (Rmult_1_l W) at 2; apply Rmult_le_compat_r; lra]).
  destruct (sin_two_sided (t * W) ltac:(lra)) as [M1 M2]. set (s := sin W) in *. set (m := sin (t * W)) in *.
  assert (Q : W * W / 6 <= 39 / 1000000) by lra. assert (L3 : W * (1 - 39 / 1000000) <= s) by (eapply Rle_trans; [| exact L1]; apply Rmult_le_compat_l; lra).
  assert (S0 : 0 < s) by lra.
  assert (Q2 : t * W * (t * W) / 6 <= 39 / 1000000) by (assert (t * W * (t * W) <= W * W) by (apply Rmult_le_compat; lra); lra).
  assert (M3 : t * W * (1 - 39 / 1000000) <= m) by (eapply Rle_trans; [| exact M1]; apply Rmult_le_compat_l; lra).
  assert (TS : 0 <= t * s) by (apply Rmult_le_pos; lra).
  assert (T1 : t * (W * (1 - 39 / 1000000)) <= t * s) by (apply Rmult_le_compat_l; lra). assert (T2 : t * s <= t * W) by (apply Rmult_le_compat_l; lra).
  replace (m / s - t) with ((m - t * s) * / s) by (field; lra). rewrite Rabs_mult, Rabs_inv, (Rabs_pos_eq s) by lra. apply Rmult_le_reg_r with s; [exact S0 |]. rewrite Rmult_assoc, Rinv_l, Rmult_1_r by lra.
  replace (40 / 1000000 * t * s) with (40 / 1000000 * (t * s)) by ring. apply Rabs_le. lra.
Qed.
Lemma acos_small C : 99989 / 100000 <= C < 1 -> 0 < acos C /\ acos C * acos C <= 22 / 100000 + 1 / 1000000.
Proof.
  intros [C0 C1]. assert (P : 0 < acos C) by (pose proof (acos_bound C) as [B _]; destruct B as [B | B]; [exact B | exfalso; pose proof (cos_acos C ltac:(lra)) as E; rewrite <- B, cos_0 in E; lra]).
  split; [exact P |]. pose proof (cos_acos C ltac:(lra)) as E. pose proof (sin_acos C ltac:(lra)) as S. set (W := acos C) in *.
  assert (WP : W <= PI / 2) by (apply Rnot_lt_le; intro G; pose proof (acos_bound C) as [_ B]; fold W in B; pose proof (cos_le_0 W ltac:(lra) ltac:(pose proof PI_RGT_0; lra)); lra).
  pose proof (jordan W ltac:(lra)) as J. assert (SS : sin W * sin W <= 22 / 100000) by (pose proof (sin2_cos2 W) as Q; unfold Rsqr in Q; rewrite E in Q; nra).
  assert (S0 : 0 <= sin W) by (apply sin_ge_0; pose proof PI_RGT_0; lra).
  assert (W <= 1 / 10) by nra. destruct (sin_two_sided W ltac:(lra)) as [L _]. assert (W * W / 6 <= 1 / 600) by nra. assert (W * (1 - 1 / 600) <= sin W) by (eapply Rle_trans; [| exact L]; apply Rmult_le_compat_l; lra). nra.
Qed.

Section Trig4.
  Context (prec emax : Z) {Hp : Prec_gt_0 prec} {Hm : Prec_lt_emax prec emax} (lm : libm (binary_float prec emax)).
  Notation bf := (binary_float prec emax).
  Notation F := (@Ieee prec emax Hp Hm lm).
  Notation u := (uro prec).
  Notation et := (eta prec emax).
  Notation val := (@B2R prec emax).
  Notation fin x := (@is_finite prec emax x = true).
  Notation fmt := (SpecFloat.fexp prec emax).
  Notation rnd := (round radix2 fmt ZnearestE).

  Lemma lit_9999 : (24 <= prec)%Z -> fin (nlit F 9999 10000) /\ Rabs (val (nlit F 9999 10000) - 9999 / 10000) <= u.
  Proof.
    intro P. assert (Q : (2 ^ 24 <= 2 ^ prec)%Z) by (apply Z.pow_le_mono_r; lia). assert (Q1 : (2 ^ prec <= 2 ^ emax)%Z) by (apply Z.pow_le_mono_r; [lia |]; apply Z.lt_le_incl; exact Hm).
    change (2 ^ 24)%Z with 16777216%Z in Q. assert (HE : (24 < emax)%Z) by (unfold Prec_lt_emax in Hm; lia).
    destruct (lit_ok prec emax 9999 10000) as [Fl Vl]; [left; lia | apply (f_int_fmt prec emax 9999 9999 0); lia | apply (f_int_fmt prec emax 10000 10000 0); lia |].
    change (nlit F 9999 10000) with (@f_lit prec emax Hp Hm 9999 10000). split; [exact Fl |]. rewrite Vl. change (IZR 9999 / IZR (Zpos 10000)) with (9999 / 10000).
    destruct (rnd_rel prec emax (9999 / 10000)) as (e & He & Ee).
    - rewrite Rabs_pos_eq by lra. apply Rle_trans with (bpow radix2 (-1)); [apply bpow_le; lia | change (bpow radix2 (-1)) with (/ 2); lra].
    - rewrite Ee. pose proof (u_pos prec). apply Rabs_le_inv in He. apply Rabs_le. lra.
  Qed.
  Lemma slerp_acute (a b : quat F) (t : F) : nlt (qdot prec emax lm a b) n0 = false -> quat_interpolate_slerp a b t =
    let tc := clampF prec emax lm t in let c := qdot prec emax lm a b in
    if ngt c (nlit F 9999 10000) then quat_interpolate_linear a b t
    else let s := leg prec emax lm c in let om := natan2 F s c in
      comb prec emax lm a b (nmul F (nsin F (nmul F (nsub F n1 tc) om)) (ndiv F n1 s)) (nmul F (nsin F (nmul F tc om)) (ndiv F n1 s)).
  Proof.
    intro N. unfold quat_interpolate_slerp. fold (qdot prec emax lm a b). rewrite N. cbv zeta. fold (clampF prec emax lm t).
    destruct (ngt (qdot prec emax lm a b) (nlit F 9999 10000)); destruct a, b; reflexivity.
  Qed.
  Lemma slerp_ieee (a b : quat F) (t : F) (d B : R) : (24 <= prec)%Z -> (48 <= emax)%Z -> qfin (a : quat bf) -> qfin (b : quat bf) -> fin t ->
    let A := qval (a : quat bf) in let Bq := qval (b : quat bf) in
    hlen A <= 101 / 100 -> hlen Bq <= 101 / 100 -> 6 * u <= hdot A Bq < 1 -> sincos_acc lm B d -> atan2_acc lm d -> 2 <= B -> d <= / 1000 ->
    let r := quat_interpolate_slerp a b t in let W := acos (hdot A Bq) in let X := arc_point W (clamp01 (val t)) A Bq in
    qfin (r : quat bf) /\
    (hdot A Bq <= 9998 / 10000 -> hdist (qval (r : quat bf)) X <= 5 * d / sin W + 110 * u / (sin W * sin W)) /\
    (hdist (qval (r : quat bf)) X <= 5 / 100000 + 5 * d / sin W + 110 * u / (sin W * sin W)).
  Proof.
    intros P HE Fa Fb Ft A Bq La Lb HD SC AT HB Hd r W X. assert (P9 : (9 < prec)%Z) by lia. assert (HE0 : (0 < emax)%Z) by lia. assert (HE1 : (1 <= emax - 4)%Z) by lia. pose proof (u24 prec P) as U. pose proof (u_pos prec) as U0. pose proof (et_pos prec emax) as T0. pose proof (et_small prec emax P9) as T. pose proof pi_close as PC.
    destruct (qdot_ieee prec emax lm a b P9 Fa Fb La Lb) as [Fc Ec]. set (c := qdot prec emax lm a b) in *. fold A Bq in Ec. pose proof Ec as Ec'. apply Rabs_le_inv in Ec'.
    destruct (fv_n0 prec emax lm) as [Fz Vz]. destruct (fv_one prec emax lm) as [F1 V1]. destruct (lit_9999 P) as [Fl Vl]. apply Rabs_le_inv in Vl.
    assert (N : nlt c n0 = false).
    { destruct (nlt c n0) eqn:E; [| reflexivity]. apply (nlt_val prec emax lm) in E; [| exact Fc | exact Fz]. rewrite Vz in E. lra. }
    destruct (clamp_val prec emax lm t Ft) as [Ftc Vtc]. pose proof (clamp_range (val t)) as TR. set (T' := clamp01 (val t)) in *.
    assert (d0 : 0 <= d) by (destruct (SC (@n0 F) Fz ltac:(rewrite Vz, Rabs_R0; lra)) as [[_ Q] _]; pose proof (Rabs_pos (val (lm_sin lm (@n0 F)) - sin (val (@n0 F)))); lra).
    assert (CW : cos W = hdot A Bq) by (apply cos_acos; lra).
    assert (WB : 0 <= W <= PI / 2).
    { pose proof (acos_bound (hdot A Bq)) as AB. fold W in AB. split; [lra |]. apply Rnot_lt_le. intro G. pose proof (cos_le_0 W ltac:(lra) ltac:(lra)). lra. }
    assert (W0 : 0 < W) by (destruct WB as [[WB | WB] _]; [exact WB | rewrite <- WB, cos_0 in CW; lra]).
    assert (S0 : 0 < sin W) by (apply sin_gt_0; lra).
    assert (I0 : 0 < / sin W) by (apply Rinv_0_lt_compat; exact S0).
    assert (DP : 0 <= 5 * d / sin W) by (unfold Rdiv; apply Rmult_le_pos; lra). assert (UP : 0 <= 110 * u / (sin W * sin W)) by (unfold Rdiv; rewrite Rinv_mult; repeat apply Rmult_le_pos; lra).
    unfold r. rewrite (slerp_acute a b t N). fold c. cbv zeta. destruct (ngt c (nlit F 9999 10000)) eqn:NG.
    - (* the chord *)
      apply (ngt_val prec emax lm) in NG; [| exact Fc | exact Fl]. destruct (acos_small (hdot A Bq) ltac:(lra)) as [_ W2]. fold W in W2.
      assert (BB : 2 <= bpow radix2 (emax - 4)) by (change 2 with (bpow radix2 1); apply bpow_le; exact HE1).
      assert (BA : hlen A <= bpow radix2 (emax - 4)) by lra. assert (BBq : hlen Bq <= bpow radix2 (emax - 4)) by lra.
      destruct (lerp_ieee prec emax lm a b t P9 Fa Fb Ft BA BBq) as [Fr Dr]. fold A Bq T' in Dr. split; [exact Fr |]. split; [intro G; lra |].
      assert (DX : hdist (hadd (hscale (1 - T') A) (hscale T' Bq)) X <= 41 / 1000000).
      { pose proof (coef_small W (1 - T') W0 ltac:(lra) ltac:(lra)) as C1. pose proof (coef_small W T' W0 ltac:(lra) TR) as C2. unfold X, arc_point. set (k1 := sin ((1 - T') * W) / sin W) in *. set (k2 := sin (T' * W) / sin W) in *.
        unfold hdist. replace (hsub (hadd (hscale (1 - T') A) (hscale T' Bq)) (hadd (hscale k1 A) (hscale k2 Bq))) with (hadd (hscale (1 - T' - k1) A) (hscale (T' - k2) Bq)) by hring.
        eapply Rle_trans; [apply hlen_triangle |].
        assert (Lsc : forall k q, hlen (hscale k q) = Rabs k * hlen q).
        { intros k q. rewrite <- (sqrt_Rsqr_abs k). unfold hlen. rewrite <- sqrt_mult by (try apply Rle_0_sqr; apply hdot_pos). f_equal. unfold Rsqr. hring. }
        rewrite !Lsc, (Rabs_minus_sym (1 - T')), (Rabs_minus_sym T'). pose proof (hlen_pos A). pose proof (hlen_pos Bq).
        assert (Rabs (k1 - (1 - T')) * hlen A <= 40 / 1000000 * (1 - T') * (101 / 100)) by (apply Rmult_le_compat; [apply Rabs_pos | lra | exact C1 | lra]).
        assert (Rabs (k2 - T') * hlen Bq <= 40 / 1000000 * T' * (101 / 100)) by (apply Rmult_le_compat; [apply Rabs_pos | lra | exact C2 | lra]). lra. }
      pose proof (hdist_triangle (qval (quat_interpolate_linear a b t : quat bf)) (hadd (hscale (1 - T') A) (hscale T' Bq)) X).
      assert (Q : (1 - T') * hlen A + T' * hlen Bq <= 101 / 100).
      { assert ((1 - T') * hlen A <= (1 - T') * (101 / 100)) by (apply Rmult_le_compat_l; lra). assert (T' * hlen Bq <= T' * (101 / 100)) by (apply Rmult_le_compat_l; lra). lra. }
      assert (4 * u * ((1 - T') * hlen A + T' * hlen Bq) <= 4 * u * (101 / 100)) by (apply Rmult_le_compat_l; lra). lra.
    - (* the arc *)
      assert (NG' : val c <= 99991 / 100000 - 6 * u).
      { apply Rnot_lt_le. intro G. assert (ngt c (nlit F 9999 10000) = true) as Q; [| congruence]. apply (ngt_val prec emax lm); [exact Fc | exact Fl |]. lra. }
      destruct (slerp_angle prec emax lm c W d P WB ltac:(rewrite CW; lra) Fc ltac:(lra) ltac:(rewrite CW; exact Ec) AT) as (Hi & Fs & Bs & Es & Fo & Eo).
      set (s := leg prec emax lm c) in *. set (om := natan2 F s c) in *.
      assert (tc0 : 0 <= val (clampF prec emax lm t) <= 1) by (rewrite Vtc; exact TR).
      destruct (minus_round prec emax (@n1 F) (clampF prec emax lm t) F1 Ftc) as [D _]. rewrite V1 in D.
      assert (R01 : 0 <= rnd (1 - val (clampF prec emax lm t)) <= 1) by (split; [apply (rnd_nonneg prec emax); lra | rewrite <- (rnd_1 prec emax lm) at 2; apply (rnd_le prec emax); lra]).
      destruct D as [Fm Vm]; [rewrite Rabs_pos_eq by lra; apply Rle_lt_trans with (bpow radix2 0); [simpl; lra | apply bpow_lt; exact HE0] |].
      destruct (minus_rel prec emax (@n1 F) (clampF prec emax lm t)) as (e & He & Ee). rewrite V1 in Ee. set (m := nsub F n1 (clampF prec emax lm t)) in *. change (Bminus mode_NE (@n1 F) (clampF prec emax lm t)) with m in Fm, Vm. rewrite <- Vm in R01. rewrite Ee in Vm.
      assert (Em : Rabs (val m - (1 - T')) <= u).
      { rewrite Vm, Vtc. replace ((1 - T') * (1 + e) - (1 - T')) with ((1 - T') * e) by ring. rewrite Rabs_mult, (Rabs_pos_eq (1 - T')) by lra. apply Rle_trans with (1 * u); [apply Rmult_le_compat; [lra | apply Rabs_pos | lra | exact He] | lra]. }
      destruct (slerp_coef prec emax lm m s om (1 - T') W d B P HE WB ltac:(lra) Fm R01 Em SC HB ltac:(lra) S0 Hi Fs Bs Es Fo Eo) as (G0 & E0 & L0).
      destruct (slerp_coef prec emax lm (clampF prec emax lm t) s om T' W d B P HE WB TR Ftc tc0 ltac:(rewrite Vtc, Rminus_diag_eq, Rabs_R0 by reflexivity; lra) SC HB ltac:(lra) S0 Hi Fs Bs Es Fo Eo) as (G1 & E1 & L1).
      destruct (comb_ieee prec emax lm a b _ _ _ _ _ P9 Fa Fb ltac:(fold A; lra) ltac:(fold Bq; lra) G0 G1 L0 L1 E0 E1) as [Fr Dr]. fold A Bq in Dr.
      split; [exact Fr |].
      set (r' := comb prec emax lm a b _ _) in *. change (hadd (hscale (sin ((1 - T') * W) / sin W) A) (hscale (sin (T' * W) / sin W) Bq)) with X in Dr.
      assert (BD : hdist (qval (r' : quat bf)) X <= 5 * d / sin W + 110 * u / (sin W * sin W)).
      { replace (5 * d / sin W) with (5 * (d * / sin W)) by (field; lra). replace (110 * u / (sin W * sin W)) with (110 * (u * / sin W * / sin W)) by (field; lra). set (i := / sin W) in *.
        assert (K1 : u <= u * i) by (rewrite <- (Rmult_1_r u) at 1; apply Rmult_le_compat_l; lra). assert (K2 : u * i <= u * i * i) by (rewrite <- (Rmult_1_r (u * i)) at 1; apply Rmult_le_compat_l; [apply Rmult_le_pos |]; lra).
        assert (D1 : 0 <= d * i) by (apply Rmult_le_pos; lra).
        assert (Q : (201 / 100 * (d * i) + 50 * (u * i * i) + 25 / 10 * u) * (hlen A + hlen Bq) <= (201 / 100 * (d * i) + 50 * (u * i * i) + 25 / 10 * u) * (202 / 100)) by (apply Rmult_le_compat_l; lra).
        lra. }
      split; [intros _; exact BD | lra].
  Qed.
End Trig4.
