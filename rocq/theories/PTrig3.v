(** PTrig3.v — spherical interpolation in IEEE arithmetic (C103). *)
From Coq Require Import Reals List ZArith NArith Bool Lra Lia Psatz.
From Flocq Require Import Core BinarySingleNaN.
Import ListNotations.
From Verif Require Import Base Num Vec Mat Quat Float Exact FloatFacts FloatRound Order SpecMat SpecGeom SpecBound SpecQuat
  SpecRound SpecBuild SpecFq SpecTrig ExactFacts PMat PShape PBuild PGeo1 PQuat PRound PRound2 PRound3 PIeee1 PIeee2 PIeee3 PIeee4 PIeee5 PIeee6 PIeee7 PPrismF PTrig PTrig2.
Local Open Scope R_scope.

Lemma jordan x : 0 <= x <= PI / 2 -> x <= 17 / 10 * sin x.
Proof.
  intros [X0 X1]. pose proof pi_close as PC. destruct (pre_sin_bound x 0 X0 ltac:(lra)) as [L _]. unfold sin_approx, sin_term in L. simpl in L.
  assert (x * x <= 2468 / 1000) by nra. assert (x * (1 - x * x / 6) <= sin x) by lra. nra.
Qed.
Lemma jordan_abs x : Rabs x <= PI / 2 -> Rabs x <= 17 / 10 * Rabs (sin x).
Proof.
  intro B. destruct (Rle_dec 0 x) as [G | G].
  - rewrite (Rabs_pos_eq x) in * by exact G. eapply Rle_trans; [apply jordan; lra |]. apply Rmult_le_compat_l; [lra | apply Rle_abs].
  - rewrite (Rabs_left x) in * by lra. eapply Rle_trans; [apply jordan; lra |]. rewrite sin_neg. apply Rmult_le_compat_l; [lra |]. rewrite <- Rabs_Ropp. apply Rle_abs.
Qed.
Lemma angle_near s c w E : 0 < s -> 0 <= c -> 0 <= w <= PI / 2 -> 98 / 100 <= s * s + c * c -> Rabs (s * cos w - c * sin w) <= E -> Rabs (PI / 2 - atan (c / s) - w) <= 175 / 100 * E.
Proof.
  intros S0 C0 W L HE. pose proof (atan_bound (c / s)) as AB. assert (Q0 : 0 <= c / s) by (apply Rmult_le_pos; [exact C0 | left; apply Rinv_0_lt_compat; exact S0]).
  assert (A0 : 0 <= atan (c / s)) by (destruct Q0 as [Q | <-]; [rewrite <- atan_0; left; apply atan_increasing; exact Q | rewrite atan_0; lra]).
  eapply Rle_trans; [apply jordan_abs; apply Rabs_le; lra |].
  rewrite sin_minus, sin_shift, cos_shift, cos_atan, sin_atan.
  set (r := sqrt (1 + (c / s)²)). assert (R0 : 0 < r) by (apply sqrt_lt_R0; pose proof (Rle_0_sqr (c / s)); lra).
  assert (RR : r * r = 1 + (c / s)²) by (apply sqrt_sqrt; pose proof (Rle_0_sqr (c / s)); lra).
  assert (SR : (s * r) * (s * r) = s * s + c * c) by (replace (s * r * (s * r)) with (s * s * (r * r)) by ring; rewrite RR; unfold Rsqr; field; lra).
  assert (SL : 98 / 100 <= s * r) by (assert (0 < s * r) by (apply Rmult_lt_0_compat; assumption); nra).
  replace (1 / r * cos w - c / s / r * sin w) with ((s * cos w - c * sin w) * / (s * r)) by (field; lra).
  rewrite Rabs_mult, Rabs_inv, (Rabs_pos_eq (s * r)) by lra. assert (I : / (s * r) <= 100 / 98) by (apply Rle_trans with (/ (98 / 100)); [apply Rinv_le; lra | lra]).
  assert (I0 : 0 < / (s * r)) by (apply Rinv_0_lt_compat; lra). pose proof (Rabs_pos (s * cos w - c * sin w)) as P0.
  assert (Rabs (s * cos w - c * sin w) * / (s * r) <= E * (100 / 98)) by (apply Rmult_le_compat; lra). lra.
Qed.

Section Trig3.
  Context (prec emax : Z) {Hp : Prec_gt_0 prec} {Hm : Prec_lt_emax prec emax} (lm : libm (binary_float prec emax)).
  Notation bf := (binary_float prec emax).
  Notation F := (@Ieee prec emax Hp Hm lm).
  Notation u := (uro prec).
  Notation et := (eta prec emax).
  Notation val := (@B2R prec emax).
  Notation fin x := (@is_finite prec emax x = true).
  Notation fmt := (SpecFloat.fexp prec emax).
  Notation rnd := (round radix2 fmt ZnearestE).

  Lemma u24 : (24 <= prec)%Z -> u <= 6 / 100000000.
  Proof. intro P. unfold uro. apply Rle_trans with (bpow radix2 (-24)); [apply bpow_le; lia | change (bpow radix2 (-24)) with (/ 16777216); lra]. Qed.
  Lemma mul_near (x y : F) k : (9 < prec)%Z -> (2 * k < emax)%Z -> (0 <= k)%Z -> bnd prec emax k x -> bnd prec emax k y ->
    fin (nmul F x y) /\ Rabs (val (nmul F x y) - val x * val y) <= u * Rabs (val x * val y) + et.
  Proof.
    intros P K1 K2 Bx By. destruct (mult_bnd prec emax k k x y ltac:(lia) ltac:(lia) Bx By) as [[Fm Vm] _]. change (nmul F x y) with (Bmult mode_NE (x : bf) y). split; [exact Fm |]. rewrite Vm.
    destruct (rnd_err prec emax (val x * val y)) as (e & h & He & Hh & E). rewrite E. set (t := val x * val y). replace (t * (1 + e) + h - t) with (e * t + h) by ring.
    eapply Rle_trans; [apply Rabs_triang |]. rewrite Rabs_mult. pose proof (Rabs_pos t). assert (Rabs e * Rabs t <= u * Rabs t) by (apply Rmult_le_compat_r; assumption). lra.
  Qed.
  (** the sine and the angle computed from a rounded cosine *)
  Lemma slerp_angle (c : F) (W d : R) : (24 <= prec)%Z -> 0 <= W <= PI / 2 -> cos W <= 99991 / 100000 -> fin c -> 0 <= val c <= 1 -> Rabs (val c - cos W) <= 5 * u -> atan2_acc lm d ->
    let s := leg prec emax lm c in let i := / sin W in
    1 <= i <= 747 / 10 /\ fin s /\ 0 < val s <= 1 /\ Rabs (val s - sin W) <= 122 / 10 * (u * i) /\ fin (natan2 F s c) /\ Rabs (val (natan2 F s c) - W) <= d + 302 / 10 * (u * i).
  Proof.
    intros P HW HC Fc Bc Ec AT s i. assert (P9 : (9 < prec)%Z) by lia. pose proof (u24 P) as U. pose proof (u_pos prec) as U0. pose proof (et_pos prec emax) as T0. pose proof (et_small prec emax P9) as T. pose proof pi_close as PC.
    pose proof (sin2_cos2 W) as SC. unfold Rsqr in SC. assert (C0 : 0 <= cos W) by (apply cos_ge_0; lra).
    set (C := cos W) in *. assert (G0 : 0 <= sin W) by (apply sin_ge_0; lra). set (g := sin W) in *. assert (G1 : 134 / 10000 <= g) by nra. assert (G2 : g <= 1) by nra.
    assert (IG : i * g = 1) by (unfold i; field; lra). assert (I1 : 1 <= i) by (unfold i; rewrite <- Rinv_1 at 1; apply Rinv_le; lra).
    assert (I2 : i <= 747 / 10) by (unfold i; apply Rle_trans with (/ (134 / 10000)); [apply Rinv_le; lra | lra]). split; [split; assumption |].
    assert (K : u <= u * i) by nra. assert (K2 : u * i <= 45 / 10000000) by nra.
    assert (KG : u * i * g = u) by (rewrite Rmult_assoc, IG; ring).
    destruct (leg_ieee prec emax lm c P9 Fc ltac:(rewrite Rabs_pos_eq; lra)) as (x & X0 & Ex & Fs & Bs & Es). fold s in Fs, Bs, Es. split; [exact Fs |].
    assert (EX : Rabs (x - g * g) <= 111 / 10 * u).
    { replace (x - g * g) with ((x - (1 - val c * val c)) - (val c - C) * (val c + C)) by lra. eapply Rle_trans; [apply Rabs_triang |]. rewrite Rabs_Ropp, (Rabs_mult (val c - C)), (Rabs_pos_eq (val c + C)) by lra.
      assert (Rabs (val c - C) * (val c + C) <= 5 * u * 2) by (apply Rmult_le_compat; [apply Rabs_pos | lra | exact Ec | lra]). lra. }
    assert (SX : Rabs (sqrt x - g) <= 111 / 10 * (u * i)).
    { pose proof (sqrt_pos x) as Q0. assert (QQ : sqrt x * sqrt x = x) by (apply sqrt_sqrt; exact X0).
      apply Rmult_le_reg_r with g; [lra |]. replace (111 / 10 * (u * i) * g) with (111 / 10 * u) by (rewrite Rmult_assoc, KG; reflexivity).
      apply Rle_trans with (Rabs (sqrt x - g) * (sqrt x + g)); [apply Rmult_le_compat_l; [apply Rabs_pos | lra] |]. rewrite <- (Rabs_pos_eq (sqrt x + g)) by lra. rewrite <- Rabs_mult. replace ((sqrt x - g) * (sqrt x + g)) with (x - g * g) by (rewrite <- QQ at 1; ring). exact EX. }
    assert (SX1 : 0 <= sqrt x <= 1001 / 1000) by (split; [apply sqrt_pos | apply Rabs_le_inv in SX; lra]).
    assert (US : u * sqrt x <= u * (1001 / 1000)) by (apply Rmult_le_compat_l; lra).
    assert (DS : Rabs (val s - g) <= 122 / 10 * (u * i)).
    { replace (val s - g) with ((val s - sqrt x) + (sqrt x - g)) by ring. eapply Rle_trans; [apply Rabs_triang |]. lra. }
    pose proof DS as DS'. apply Rabs_le_inv in DS'. split; [lra |]. split; [exact DS |].
    destruct (AT s c Fs Fc ltac:(lra)) as [Fa Ea]. change (natan2 F s c) with (lm_atan2 lm s c). split; [exact Fa |].
    assert (AN : Rabs (PI / 2 - atan (val c / val s) - W) <= 175 / 100 * (172 / 10 * (u * i))).
    { apply angle_near; try lra.
      - apply Rabs_le_inv in Ec. pose proof (Rle_0_sqr (val s - g)) as Z1. pose proof (Rle_0_sqr (val c - C)) as Z2. unfold Rsqr in Z1, Z2.
        assert ((g - / 1000) * g <= val s * g) by (apply Rmult_le_compat_r; lra). assert ((C - / 1000) * C <= val c * C) by (apply Rmult_le_compat_r; lra). lra.
      - fold C g. replace (val s * C - val c * g) with ((val s - g) * C - (val c - C) * g) by ring. eapply Rle_trans; [apply Rabs_triang |]. rewrite Rabs_Ropp, !Rabs_mult, (Rabs_pos_eq C), (Rabs_pos_eq g) by lra.
        assert (Rabs (val s - g) * C <= 122 / 10 * (u * i) * 1) by (apply Rmult_le_compat; [apply Rabs_pos | lra | exact DS | lra]). assert (Rabs (val c - C) * g <= 5 * u * 1) by (apply Rmult_le_compat; [apply Rabs_pos | lra | exact Ec | lra]). lra. }
    replace (val (lm_atan2 lm s c) - W) with ((val (lm_atan2 lm s c) - (PI / 2 - atan (val c / val s))) + (PI / 2 - atan (val c / val s) - W)) by ring.
    eapply Rle_trans; [apply Rabs_triang |]. lra.
  Qed.
  (** one coefficient *)
  Lemma slerp_coef (tau s om : F) (T W d B : R) : (24 <= prec)%Z -> (48 <= emax)%Z -> 0 <= W <= PI / 2 -> 0 <= T <= 1 -> fin tau -> 0 <= val tau <= 1 -> Rabs (val tau - T) <= u -> sincos_acc lm B d -> 2 <= B -> 0 <= d <= / 1000 ->
    let i := / sin W in 0 < sin W -> 1 <= i <= 747 / 10 -> fin s -> 0 < val s <= 1 -> Rabs (val s - sin W) <= 122 / 10 * (u * i) -> fin om -> Rabs (val om - W) <= d + 302 / 10 * (u * i) ->
    let k := nmul F (nsin F (nmul F tau om)) (ndiv F n1 s) in
    fin k /\ Rabs (val k - sin (T * W) / sin W) <= 201 / 100 * (d * i) + 50 * (u * i * i) /\ Rabs (val k) <= 12 / 10.
  Proof.
    intros P HE HW HT Ft Bt Et SC HB Hd i G0 Hi Fs Bs Es Fo Eo k. assert (P9 : (9 < prec)%Z) by lia. pose proof (u24 P) as U. pose proof (u_pos prec) as U0. pose proof (et_pos prec emax) as T0. pose proof (et_small prec emax P9) as TS. pose proof pi_close as PC.
    set (g := sin W) in *. assert (IG : i * g = 1) by (unfold i; field; lra). assert (G1 : 133 / 10000 <= g <= 1) by (pose proof (SIN_bound W); fold g in H; split; [nra | lra]).
    assert (K : u <= u * i) by nra. assert (K2 : u * i <= 45 / 10000000) by nra. assert (K3 : u * i <= u * i * i) by nra. assert (K4 : u * i * i <= 34 / 100000) by nra.
    assert (KG : u * i * g = u) by (rewrite Rmult_assoc, IG; ring). assert (KG2 : u * i * i * g = u * i) by (rewrite Rmult_assoc, IG; ring).
    assert (TW0 : 0 <= T * W) by (apply Rmult_le_pos; lra). assert (TW2 : T * W <= W) by (rewrite <- (Rmult_1_l W) at 2; apply Rmult_le_compat_r; lra). assert (TW1 : T * W <= 158 / 100) by lra.
    (* the angle *)
    assert (OM : Rabs (val om) <= 158 / 100) by (replace (val om) with ((val om - W) + W) by ring; eapply Rle_trans; [apply Rabs_triang |]; rewrite (Rabs_pos_eq W) by lra; lra).
    destruct (mul_near tau om 1 P9 ltac:(lia) ltac:(lia) ltac:(split; [exact Ft | change (bpow radix2 1) with 2; rewrite Rabs_pos_eq; lra]) ltac:(split; [exact Fo | change (bpow radix2 1) with 2; lra])) as [Fp Ep]. set (p := nmul F tau om) in *.
    assert (TO : Rabs (val tau * val om) <= 158 / 100) by (rewrite Rabs_mult, (Rabs_pos_eq (val tau)) by lra; apply Rle_trans with (1 * Rabs (val om)); [apply Rmult_le_compat_r; [apply Rabs_pos | lra] | lra]).
    assert (UTO : u * Rabs (val tau * val om) <= u * (158 / 100)) by (apply Rmult_le_compat_l; lra).
    assert (DP : Rabs (val p - T * W) <= d + 35 * (u * i)).
    { replace (val p - T * W) with ((val p - val tau * val om) + val tau * (val om - W) + (val tau - T) * W) by ring. eapply Rle_trans; [apply Rabs_triang |]. eapply Rle_trans; [apply Rplus_le_compat_r, Rabs_triang |].
      rewrite (Rabs_mult (val tau)), (Rabs_mult (val tau - T)), (Rabs_pos_eq (val tau)), (Rabs_pos_eq W) by lra.
      assert (val tau * Rabs (val om - W) <= 1 * (d + 302 / 10 * (u * i))) by (apply Rmult_le_compat; [lra | apply Rabs_pos | lra | exact Eo]). assert (Rabs (val tau - T) * W <= u * (158 / 100)) by (apply Rmult_le_compat; [apply Rabs_pos | lra | exact Et | lra]). lra. }
    assert (BP : Rabs (val p) <= B).
    { replace (val p) with ((val p - T * W) + T * W) by ring. eapply Rle_trans; [apply Rabs_triang |]. rewrite (Rabs_pos_eq (T * W)) by (apply Rmult_le_pos; lra). pose proof TW1. lra. }
    destruct (SC p Fp BP) as [[FS ES] _]. change (nsin F p) with (lm_sin lm p) in k. set (S := lm_sin lm p) in *.
    assert (DS : Rabs (val S - sin (T * W)) <= 2 * d + 35 * (u * i)).
    { replace (val S - sin (T * W)) with ((val S - sin (val p)) + (sin (val p) - sin (T * W))) by ring. eapply Rle_trans; [apply Rabs_triang |]. pose proof (sin_lip (val p) (T * W)). lra. }
    assert (TW : 0 <= sin (T * W) <= g).
    { split; [apply sin_ge_0; lra |]. unfold g. destruct (Rle_lt_or_eq_dec (T * W) W TW2) as [L | ->]; [| lra]. left. apply sin_increasing_1; try lra; assert (0 <= T * W) by (apply Rmult_le_pos; lra); lra. }
    assert (BS : Rabs (val S) <= 101 / 100) by (replace (val S) with ((val S - sin (T * W)) + sin (T * W)) by ring; eapply Rle_trans; [apply Rabs_triang |]; rewrite (Rabs_pos_eq (sin (T * W))) by lra; lra).
    (* the reciprocal *)
    apply Rabs_le_inv in Es. assert (KI : u * i <= 34 / 100000 * g) by (rewrite <- KG2; apply Rmult_le_compat_r; lra). assert (SG : 9958 / 10000 * g <= val s) by lra. set (j := / val s). assert (J : j * val s = 1) by (unfold j; field; lra). assert (J0 : 0 < j) by (apply Rinv_0_lt_compat; lra).
    assert (J1 : j <= 1005 / 1000 * i).
    { apply Rmult_le_reg_r with (val s); [lra |]. rewrite J. assert (1005 / 1000 * i * (9958 / 10000 * g) <= 1005 / 1000 * i * val s) by (apply Rmult_le_compat_l; lra). replace (1005 / 1000 * i * (9958 / 10000 * g)) with (1000779 / 1000000 * (i * g)) in H by field. rewrite IG in H. lra. }
    assert (DJ : Rabs (j - i) <= 1227 / 100 * (u * i * i * i)).
    { replace (j - i) with ((g - val s) * (i * j)).
      2: { replace ((g - val s) * (i * j)) with ((i * g) * j - i * (j * val s)) by ring. rewrite IG, J. ring. }
      rewrite Rabs_mult, (Rabs_pos_eq (i * j)) by (apply Rmult_le_pos; lra).
      apply Rle_trans with (122 / 10 * (u * i) * (i * (1005 / 1000 * i))).
      - apply Rmult_le_compat; [apply Rabs_pos | apply Rmult_le_pos; lra | apply Rabs_le; lra | apply Rmult_le_compat_l; lra].
      - assert (0 <= u * i * i * i) by (repeat apply Rmult_le_pos; lra). lra. }
    destruct (fv_one prec emax lm) as [F1 V1].
    destruct (div_near prec emax lm (@n1 F) s HE ltac:(lia) F1 ltac:(rewrite V1, Rabs_pos_eq; lra) ltac:(lra)) as (FI & EI & _). rewrite V1 in EI. replace (1 / val s) with j in EI by (unfold j; field; lra). rewrite (Rabs_pos_eq j) in EI by lra.
    set (v := ndiv F n1 s) in *. assert (UJ : u * j <= u * (1005 / 1000 * i)) by (apply Rmult_le_compat_l; lra).
    assert (K5 : u * i * i <= u * i * i * i) by (rewrite <- (Rmult_1_r (u * i * i)) at 1; apply Rmult_le_compat_l; [repeat apply Rmult_le_pos; lra | lra]).
    assert (DV : Rabs (val v - i) <= 133 / 10 * (u * i * i * i)).
    { replace (val v - i) with ((val v - j) + (j - i)) by ring. eapply Rle_trans; [apply Rabs_triang |]. lra. }
    assert (K6 : u * i * i * i <= 34 / 100000 * i) by (apply Rmult_le_compat_r; lra).
    assert (BV : Rabs (val v) <= 1005 / 1000 * i) by (replace (val v) with ((val v - i) + i) by ring; eapply Rle_trans; [apply Rabs_triang |]; rewrite (Rabs_pos_eq i) by lra; lra).
    destruct (mul_near S v 7 P9 ltac:(lia) ltac:(lia) ltac:(split; [exact FS | change (bpow radix2 7) with 128; lra]) ltac:(split; [exact FI | change (bpow radix2 7) with 128; lra])) as [Fk Ek]. fold k in Fk, Ek.
    assert (DK : Rabs (val S * val v - sin (T * W) * i) <= 201 / 100 * (d * i) + 485 / 10 * (u * i * i)).
    { replace (val S * val v - sin (T * W) * i) with ((val S - sin (T * W)) * val v + sin (T * W) * (val v - i)) by ring. eapply Rle_trans; [apply Rabs_triang |]. rewrite !Rabs_mult, (Rabs_pos_eq (sin (T * W))) by lra.
      assert (Q1 : Rabs (val S - sin (T * W)) * Rabs (val v) <= (2 * d + 35 * (u * i)) * (1005 / 1000 * i)) by (apply Rmult_le_compat; [apply Rabs_pos | apply Rabs_pos | exact DS | exact BV]).
      assert (Q2 : sin (T * W) * Rabs (val v - i) <= g * (133 / 10 * (u * i * i * i))) by (apply Rmult_le_compat; [lra | apply Rabs_pos | lra | exact DV]).
      replace (g * (133 / 10 * (u * i * i * i))) with (133 / 10 * (u * i * i) * (i * g)) in Q2 by ring. rewrite IG in Q2. assert (0 <= u * i * i) by (repeat apply Rmult_le_pos; lra). assert (0 <= d * i) by (apply Rmult_le_pos; lra). lra. }
    assert (D0 : 0 <= d * i <= 748 / 10000) by (split; [apply Rmult_le_pos; lra | apply Rle_trans with (/ 1000 * (747 / 10)); [apply Rmult_le_compat; lra | lra]]).
    assert (TI : 0 <= sin (T * W) * i <= 1) by (split; [apply Rmult_le_pos; lra | rewrite <- IG, (Rmult_comm i); apply Rmult_le_compat_r; lra]).
    assert (BK : Rabs (val S * val v) <= 117 / 100) by (replace (val S * val v) with ((val S * val v - sin (T * W) * i) + sin (T * W) * i) by ring; eapply Rle_trans; [apply Rabs_triang |]; rewrite (Rabs_pos_eq (sin (T * W) * i)) by lra; lra).
    assert (UK : u * Rabs (val S * val v) <= u * (117 / 100)) by (apply Rmult_le_compat_l; lra).
    split; [exact Fk |]. change (sin (T * W) / g) with (sin (T * W) * i).
    assert (DD : Rabs (val k - sin (T * W) * i) <= 201 / 100 * (d * i) + 50 * (u * i * i)).
    { replace (val k - sin (T * W) * i) with ((val k - val S * val v) + (val S * val v - sin (T * W) * i)) by ring. eapply Rle_trans; [apply Rabs_triang |]. lra. }
    split; [exact DD |]. replace (val k) with ((val k - sin (T * W) * i) + sin (T * W) * i) by ring. eapply Rle_trans; [apply Rabs_triang |]. rewrite (Rabs_pos_eq (sin (T * W) * i)) by lra. lra.
  Qed.
  Lemma comb_comp (a b k0 k1 : bf) (K0 K1 E : R) : (9 < prec)%Z -> bnd prec emax 1 a -> bnd prec emax 1 b -> fin k0 -> fin k1 -> Rabs (val k0) <= 12 / 10 -> Rabs (val k1) <= 12 / 10 -> Rabs (val k0 - K0) <= E -> Rabs (val k1 - K1) <= E ->
    within (Bplus mode_NE (Bmult mode_NE a k0) (Bmult mode_NE b k1)) (K0 * val a + K1 * val b) ((E + 25 / 10 * u) * Rabs (val a) + (E + 25 / 10 * u) * Rabs (val b) + 3 * et).
  Proof.
    intros P Ba Bb F0 F1 L0 L1 E0 E1. assert (HE : (10 < emax)%Z) by (unfold Prec_lt_emax in Hm; lia). pose proof (u_pos prec) as U0. pose proof (et_pos prec emax) as T0.
    assert (B0 : bnd prec emax 1 k0) by (split; [exact F0 | change (bpow radix2 1) with 2; lra]). assert (B1 : bnd prec emax 1 k1) by (split; [exact F1 | change (bpow radix2 1) with 2; lra]).
    destruct (mult_bnd prec emax 1 1 a k0 ltac:(lia) ltac:(lia) Ba B0) as [_ M1]. destruct (mult_bnd prec emax 1 1 b k1 ltac:(lia) ltac:(lia) Bb B1) as [_ M2].
    destruct (plus_bnd prec emax 2 _ _ ltac:(lia) ltac:(lia) M1 M2) as [[Ft _] _]. split; [exact Ft |].
    destruct (sum2_approx prec emax a k0 b k1 Ft) as [[_ D] _]. set (t := Bplus mode_NE (Bmult mode_NE a k0) (Bmult mode_NE b k1)) in *. clearbody t.
    pose proof (Rabs_pos (val a)) as A0. pose proof (Rabs_pos (val b)) as A1.
    assert (G0 : Rabs (val a * val k0) <= 12 / 10 * Rabs (val a)) by (rewrite Rabs_mult, Rmult_comm; apply Rmult_le_compat_r; assumption).
    assert (G1 : Rabs (val b * val k1) <= 12 / 10 * Rabs (val b)) by (rewrite Rabs_mult, Rmult_comm; apply Rmult_le_compat_r; assumption).
    pose proof (err2_small prec emax (Rabs (val a * val k0) + Rabs (val b * val k1)) P ltac:(pose proof (Rabs_pos (val a * val k0)); pose proof (Rabs_pos (val b * val k1)); lra)) as E2.
    assert (UA : u * (Rabs (val a * val k0) + Rabs (val b * val k1)) <= u * (12 / 10 * Rabs (val a) + 12 / 10 * Rabs (val b))) by (apply Rmult_le_compat_l; lra).
    replace (val t - (K0 * val a + K1 * val b)) with ((val t - (val a * val k0 + val b * val k1)) + ((val k0 - K0) * val a + (val k1 - K1) * val b)) by ring.
    eapply Rle_trans; [apply Rabs_triang |]. eapply Rle_trans; [apply Rplus_le_compat_l, Rabs_triang |]. rewrite (Rabs_mult (val k0 - K0)), (Rabs_mult (val k1 - K1)).
    assert (Rabs (val k0 - K0) * Rabs (val a) <= E * Rabs (val a)) by (apply Rmult_le_compat_r; assumption). assert (Rabs (val k1 - K1) * Rabs (val b) <= E * Rabs (val b)) by (apply Rmult_le_compat_r; assumption).
    assert (0 <= u * Rabs (val a)) by (apply Rmult_le_pos; lra). assert (0 <= u * Rabs (val b)) by (apply Rmult_le_pos; lra). lra.
  Qed.
  Definition comb (a b : quat F) (k0 k1 : F) : quat F :=
    Q (nadd F (nmul F (qx a) k0) (nmul F (qx b) k1)) (nadd F (nmul F (qy a) k0) (nmul F (qy b) k1)) (nadd F (nmul F (qz a) k0) (nmul F (qz b) k1)) (nadd F (nmul F (qw a) k0) (nmul F (qw b) k1)).
  Lemma comb_ieee (a b : quat F) (k0 k1 : F) (K0 K1 E : R) : (9 < prec)%Z -> qfin (a : quat bf) -> qfin (b : quat bf) -> hlen (qval (a : quat bf)) <= 2 -> hlen (qval (b : quat bf)) <= 2 ->
    fin k0 -> fin k1 -> Rabs (val k0) <= 12 / 10 -> Rabs (val k1) <= 12 / 10 -> Rabs (val k0 - K0) <= E -> Rabs (val k1 - K1) <= E ->
    let r := comb a b k0 k1 in
    qfin (r : quat bf) /\ hdist (qval (r : quat bf)) (hadd (hscale K0 (qval (a : quat bf))) (hscale K1 (qval (b : quat bf)))) <= (E + 25 / 10 * u) * (hlen (qval (a : quat bf)) + hlen (qval (b : quat bf))) + 6 * et.
  Proof.
    intros P Fa Fb La Lb F0 F1 L0 L1 E0 E1 r. pose proof (u_pos prec) as U0. pose proof (et_pos prec emax) as T0. assert (E' : 0 <= E) by (pose proof (Rabs_pos (val k0 - K0)); lra).
    destruct (comp_bnd prec emax lm 1 a Fa La) as (A1 & A2 & A3 & A4). destruct (comp_bnd prec emax lm 1 b Fb Lb) as (B1 & B2 & B3 & B4).
    destruct (comb_comp (qx a) (qx b) k0 k1 K0 K1 E P A1 B1 F0 F1 L0 L1 E0 E1) as [G1 D1]. destruct (comb_comp (qy a) (qy b) k0 k1 K0 K1 E P A2 B2 F0 F1 L0 L1 E0 E1) as [G2 D2].
    destruct (comb_comp (qz a) (qz b) k0 k1 K0 K1 E P A3 B3 F0 F1 L0 L1 E0 E1) as [G3 D3]. destruct (comb_comp (qw a) (qw b) k0 k1 K0 K1 E P A4 B4 F0 F1 L0 L1 E0 E1) as [G4 D4].
    split; [repeat split; assumption |].
    pose (ab := fun q : H4 => H (V (Rabs (vx (hv q))) (Rabs (vy (hv q))) (Rabs (vz (hv q)))) (Rabs (hs q))).
    assert (Lab : forall q, hlen (ab q) = hlen q) by (intro q; unfold hlen, hdot, vdot, ab; simpl; rewrite <- !Rabs_mult, !sqr_abs; reflexivity).
    assert (Lsc : forall k q, 0 <= k -> hlen (hscale k q) = k * hlen q).
    { intros k q Hk. unfold hlen. rewrite <- sqrt_sqk by (try apply hdot_pos; exact Hk). f_equal. hring. }
    set (G := E + 25 / 10 * u) in *. assert (HG : 0 <= G) by (unfold G; lra).
    unfold hdist. eapply Rle_trans.
    - apply (hlen_mono _ (hadd (hadd (hscale G (ab (qval (a : quat bf)))) (hscale G (ab (qval (b : quat bf))))) (hscale (3 * et) (H (V 1 1 1) 1)))).
      + eapply Rle_trans; [exact D1 |]. simpl. right. ring.
      + eapply Rle_trans; [exact D2 |]. simpl. right. ring.
      + eapply Rle_trans; [exact D3 |]. simpl. right. ring.
      + eapply Rle_trans; [exact D4 |]. simpl. right. ring.
    - eapply Rle_trans; [apply hlen_triangle |]. eapply Rle_trans; [apply Rplus_le_compat_r, hlen_triangle |].
      rewrite !Lsc by (repeat apply Rmult_le_pos; lra). rewrite !Lab.
      replace (hlen (H (V 1 1 1) 1)) with 2; [right; ring |].
      unfold hlen, hdot, vdot. simpl. replace (1 * 1 + 1 * 1 + 1 * 1 + 1 * 1) with (2 * 2) by ring. rewrite sqrt_square; lra.
  Qed.
  (** the computed cosine *)
  Definition qdot (a b : quat F) : F := nadd F (nadd F (nadd F (nmul F (qw a) (qw b)) (nmul F (qx a) (qx b))) (nmul F (qy a) (qy b))) (nmul F (qz a) (qz b)).
  Lemma qdot_ieee (a b : quat F) : (9 < prec)%Z -> qfin (a : quat bf) -> qfin (b : quat bf) -> hlen (qval (a : quat bf)) <= 101 / 100 -> hlen (qval (b : quat bf)) <= 101 / 100 ->
    fin (qdot a b) /\ Rabs (val (qdot a b) - hdot (qval (a : quat bf)) (qval (b : quat bf))) <= 5 * u.
  Proof.
    intros P Fa Fb La Lb. pose proof (u_pos prec) as U0. pose proof (et_pos prec emax) as T0. pose proof (et_small prec emax P) as T. assert (HE : (10 < emax)%Z) by (unfold Prec_lt_emax in Hm; lia).
    destruct (comp_bnd prec emax lm 1 a Fa ltac:(change (bpow radix2 1) with 2; lra)) as (A1 & A2 & A3 & A4). destruct (comp_bnd prec emax lm 1 b Fb ltac:(change (bpow radix2 1) with 2; lra)) as (B1 & B2 & B3 & B4).
    destruct (mult_bnd prec emax 1 1 _ _ ltac:(lia) ltac:(lia) A1 B1) as [_ M1]. destruct (mult_bnd prec emax 1 1 _ _ ltac:(lia) ltac:(lia) A2 B2) as [_ M2].
    destruct (mult_bnd prec emax 1 1 _ _ ltac:(lia) ltac:(lia) A3 B3) as [_ M3]. destruct (mult_bnd prec emax 1 1 _ _ ltac:(lia) ltac:(lia) A4 B4) as [_ M4].
    destruct (sum4_fin prec emax false false false 2 _ _ _ _ ltac:(lia) ltac:(lia) M4 M1 M2 M3) as [Ft _]. split; [exact Ft |].
    destruct (sum4_approx prec emax false false false (qw a) (qw b) (qx a) (qx b) (qy a) (qy b) (qz a) (qz b) Ft) as [[_ D] _].
    set (A := Rabs _ + Rabs _ + Rabs _ + Rabs _) in D.
    pose proof (cs4 (val (qw a)) (val (qx a)) (val (qy a)) (val (qz a)) (val (qw b)) (val (qx b)) (val (qy b)) (val (qz b)) (hlen (qval (a : quat bf))) (hlen (qval (b : quat bf))) (hlen_pos _) (hlen_pos _)
      ltac:(rewrite hlen_sq; unfold hdot, vdot; simpl; ring) ltac:(rewrite hlen_sq; unfold hdot, vdot; simpl; ring)) as CS.
    assert (AB : A <= 1021 / 1000).
    { eapply Rle_trans; [exact CS |]. apply Rle_trans with (101 / 100 * (101 / 100)); [apply Rmult_le_compat; try apply hlen_pos; assumption | lra]. }
    assert (A0 : 0 <= A) by (unfold A; repeat apply Rplus_le_le_0_compat; apply Rabs_pos).
    pose proof (err4_small prec emax A P A0) as E4. assert (UA : u * A <= u * (1021 / 1000)) by (apply Rmult_le_compat_l; lra).
    replace (hdot (qval (a : quat bf)) (qval (b : quat bf))) with (val (qw a) * val (qw b) + val (qx a) * val (qx b) + val (qy a) * val (qy b) + val (qz a) * val (qz b)) by (unfold hdot, vdot; simpl; ring).
    eapply Rle_trans; [exact D |]. lra.
  Qed.
End Trig3.
