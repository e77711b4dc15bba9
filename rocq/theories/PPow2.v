(** PPow2.v — quaternion powers in IEEE arithmetic: the error of the result (C107). *)
From Coq Require Import Reals List ZArith NArith Bool Lra Lia Psatz.
From Flocq Require Import Core BinarySingleNaN.
Import ListNotations.
From Verif Require Import Shape Base Num Vec Mat Quat Float Exact FloatFacts FloatRound Order SpecMat SpecGeom SpecBound SpecQuat
  SpecRound SpecBuild SpecFq SpecTrig SpecPow ExactFacts PMat PShape PBuild PGeo1 PQuat PQuat2 PRound PRound2 PRound3 PIeee1 PIeee2 PIeee3 PIeee4 PIeee5 PIeee6 PIeee7 PPrismF PTrig PTrig2 PTrig3 PPow PPow0.
Local Open Scope R_scope.

Section Pow2.
  Context (prec emax : Z) {Hp : Prec_gt_0 prec} {Hm : Prec_lt_emax prec emax} (lm : libm (binary_float prec emax)).
  Notation bf := (binary_float prec emax).
  Notation F := (@Ieee prec emax Hp Hm lm).
  Notation w3 v := (v3 (v : mat3x1 bf)).
  Notation u := (uro prec).
  Notation et := (eta prec emax).
  Notation val := (@B2R prec emax).
  Notation fin x := (@is_finite prec emax x = true).
  Notation fmt := (SpecFloat.fexp prec emax).
  Notation rnd := (round radix2 fmt ZnearestE).

  (** sine and cosine of the multiple of the angle *)
  Lemma pow_turn (t al : F) (a d e0 B : R) : (9 < prec)%Z -> fin t -> fin al -> 0 <= a <= 32 / 10 -> Rabs (val al - a) <= 1 / 4 -> Rabs (val t) * (Rabs (val al - a) + 4 * u) <= e0 -> e0 <= / 32 ->
    sincos_acc lm B d -> 4 * Rabs (val t) + 1 <= B -> let b := nmul F t al in
    fin (nsin F b) /\ fin (ncos F b) /\ Rabs (val (nsin F b) - sin (val t * a)) <= d + e0 + et /\ Rabs (val (ncos F b) - cos (val t * a)) <= d + e0 + et.
  Proof.
    intros P Ft Fa Ha Ea E0 L0 A HB b. pose proof (u_small prec P) as U. pose proof (u_pos prec) as U0. pose proof (et_pos prec emax) as T0. pose proof (et_small prec emax P) as T.
    pose proof (Rabs_pos (val t)) as Pt. pose proof (Rabs_pos (val al - a)) as Pa. assert (Al : Rabs (val al) <= 35 / 10) by (apply Rabs_le_inv in Ea; apply Rabs_le; lra).
    assert (Tu : Rabs (val t) * (4 * u) <= / 32) by (assert (0 <= Rabs (val t) * Rabs (val al - a)) by (apply Rmult_le_pos; assumption); lra).
    assert (BT : Rabs (val t * val al) <= bpow radix2 (prec - 5)).
    { rewrite Rabs_mult. apply Rle_trans with (Rabs (val t) * 4); [apply Rmult_le_compat_l; lra |].
      replace (bpow radix2 (prec - 5)) with (/ 32 * / u); [| unfold uro; rewrite bpow_opp, Rinv_inv; replace (prec - 5)%Z with (-5 + prec)%Z by ring; rewrite bpow_plus; reflexivity].
      apply Rmult_le_reg_r with u; [exact U0 |]. replace (/ 32 * / u * u) with (/ 32) by (field; lra). lra. }
    assert (HM : (prec < emax)%Z) by exact Hm. destruct (mult_round prec emax t al Ft Fa) as [M _].
    destruct M as [Fb Vb]; [eapply Rle_lt_trans; [apply (rnd_bpow prec emax (prec - 5)); [lia | exact BT] | apply bpow_lt; lia] |]. change (Bmult mode_NE (t : bf) al) with (b : bf) in Fb, Vb.
    assert (Eb : Rabs (val b - val t * a) <= e0 + et).
    { rewrite Vb. destruct (rnd_err prec emax (val t * val al)) as (e & h & He & Hh & E). rewrite E. replace (val t * val al * (1 + e) + h - val t * a) with (val t * (val al - a) + e * (val t * val al) + h) by ring.
      eapply Rle_trans; [apply Rabs_triang |]. apply Rplus_le_compat; [| exact Hh]. eapply Rle_trans; [apply Rabs_triang |]. rewrite !Rabs_mult. 
      assert (Rabs e * (Rabs (val t) * Rabs (val al)) <= u * (Rabs (val t) * 4)).
      { apply Rmult_le_compat; [apply Rabs_pos | apply Rmult_le_pos; [exact Pt | apply Rabs_pos] | exact He | apply Rmult_le_compat_l; lra]. }
      lra. }
    assert (Bb : Rabs (val b) <= B).
    { replace (val b) with (val t * a + (val b - val t * a)) by ring. eapply Rle_trans; [apply Rabs_triang |]. rewrite Rabs_mult, (Rabs_pos_eq a) by lra. assert (Rabs (val t) * a <= Rabs (val t) * 4) by (apply Rmult_le_compat_l; lra). lra. }
    destruct (A b Fb Bb) as [[Fs Es] [Fc Ec]]. change (nsin F b) with (lm_sin lm b). change (ncos F b) with (lm_cos lm b). split; [exact Fs |]. split; [exact Fc |].
    pose proof (sin_lip (val b) (val t * a)). pose proof (cos_lip (val b) (val t * a)). split.
    - replace (val (lm_sin lm b) - sin (val t * a)) with ((val (lm_sin lm b) - sin (val b)) + (sin (val b) - sin (val t * a))) by ring. eapply Rle_trans; [apply Rabs_triang | lra].
    - replace (val (lm_cos lm b) - cos (val t * a)) with ((val (lm_cos lm b) - cos (val b)) + (cos (val b) - cos (val t * a))) by ring. eapply Rle_trans; [apply Rabs_triang | lra].
  Qed.
  (** the result from its parts *)
  Lemma pow_parts (n : mat3x1 F) (c s k : F) (D : V3) (G S K g e : R) : (9 < prec)%Z -> bnd3 prec emax lm 1 n -> dist (w3 n) D <= 8 * u -> norm D = 1 -> fin c -> fin s -> fin k ->
    0 <= G <= 174 / 100 -> Rabs (val c - G) <= g -> g <= / 32 -> Rabs S <= 1 -> Rabs K <= 1 -> Rabs (val s - S) <= e -> Rabs (val k - K) <= e -> e <= / 16 ->
    let q := match n with M3x1 (A3 x y z) => Q (nmul F (nmul F c x) s) (nmul F (nmul F c y) s) (nmul F (nmul F c z) s) (nmul F c k) end in
    qfin (q : quat bf) /\ hdist (qval (q : quat bf)) (H (vscale (G * S) D) (G * K)) <= 205 / 10 * u + 202 / 100 * g + 36 / 10 * e.
  Proof.
    intros P Bn Dn ND Fc Fs Fk HG Eg Hg HS HK Es Ek He q. pose proof (u_small prec P) as U. pose proof (u_pos prec) as U0. pose proof (et_pos prec emax) as T0. pose proof (et_small prec emax P) as T.
    pose proof (Rabs_pos (val c - G)) as g0. pose proof (Rabs_pos (val s - S)) as e0.
    assert (Ac : Rabs (val c) <= 178 / 100) by (apply Rabs_le_inv in Eg; apply Rabs_le; lra).
    assert (As : Rabs (val s) <= 107 / 100) by (apply Rabs_le_inv in Es, HS; apply Rabs_le; lra).
    assert (Ak : Rabs (val k) <= 107 / 100) by (apply Rabs_le_inv in Ek, HK; apply Rabs_le; lra).
    destruct n as [[x y z]]. destruct Bn as ([Fx Bx] & [Fy By] & [Fz Bz]). change (bpow radix2 1) with 2 in Bx, By, Bz.
    assert (PR : forall a b : R, Rabs a <= 2 -> Rabs b <= 2 -> Rabs (a * b) <= 4) by (intros a b Ha Hb; rewrite Rabs_mult; pose proof (Rabs_pos a); pose proof (Rabs_pos b); replace 4 with (2 * 2) by ring; apply Rmult_le_compat; assumption).
    assert (CX : forall v : F, fin v -> Rabs (val v) <= 2 -> let m := nmul F c v in fin m /\ Rabs (val m - val c * val v) <= u * Rabs (val c * val v) + et /\ Rabs (val m) <= 37 / 10 /\
      fin (nmul F m s) /\ Rabs (val (nmul F m s) - val s * val m) <= u * Rabs (val s * val m) + et).
    { intros v Fv Bv m. destruct (mul_err prec emax lm c v Fc Fv ltac:(pose proof (PR (val c) (val v) ltac:(lra) Bv); lra) P) as [Fm Em]. fold m in Fm, Em. split; [exact Fm |]. split; [exact Em |].
      assert (Rabs (val c * val v) <= 356 / 100) by (rewrite Rabs_mult; replace (356 / 100) with (178 / 100 * 2) by lra; apply Rmult_le_compat; try apply Rabs_pos; assumption).
      assert (Bm : Rabs (val m) <= 37 / 10). { replace (val m) with (val c * val v + (val m - val c * val v)) by ring. eapply Rle_trans; [apply Rabs_triang |]. assert (u * Rabs (val c * val v) <= u * 4) by (apply Rmult_le_compat_l; lra). lra. }
      split; [exact Bm |]. destruct (mul_err prec emax lm m s Fm Fs ltac:(rewrite Rabs_mult; pose proof (Rabs_pos (val m)); pose proof (Rabs_pos (val s)); apply Rle_trans with (4 * 2); [apply Rmult_le_compat; lra | lra]) P) as [Fr Er].
      split; [exact Fr |]. rewrite (Rmult_comm (val s)). exact Er. }
    destruct (CX x Fx Bx) as (Fx1 & Ex1 & _ & Fx2 & Ex2). destruct (CX y Fy By) as (Fy1 & Ey1 & _ & Fy2 & Ey2). destruct (CX z Fz Bz) as (Fz1 & Ez1 & _ & Fz2 & Ez2).
    destruct (mul_err prec emax lm c k Fc Fk ltac:(pose proof (PR (val c) (val k) ltac:(lra) ltac:(lra)); lra) P) as [Fw Ew].
    split; [split; [exact Fx2 | split; [exact Fy2 | split; [exact Fz2 | exact Fw]]] |].
    set (m := V (val (nmul F c x)) (val (nmul F c y)) (val (nmul F c z))).
    assert (D1 : dist m (vscale G D) <= 16 * u + 101 / 100 * g).
    { eapply Rle_trans; [apply (scale_real m (w3 (M3x1 (A3 x y z))) D (val c) G (8 * u) g u et); try assumption; lra |]. rewrite ND, (Rabs_pos_eq G) by lra.
      assert (G * (8 * u) <= 174 / 100 * (8 * u)) by (apply Rmult_le_compat_r; lra). assert (g * (1 + 8 * u) <= g * (101 / 100)) by (apply Rmult_le_compat_l; lra).
      assert (u * ((G + g) * (1 + 8 * u)) <= u * (18 / 10)) by (apply Rmult_le_compat_l; [lra |]; apply Rle_trans with (178 / 100 * (101 / 100)); [apply Rmult_le_compat; lra | lra]). lra. }
    set (r := V (val (nmul F (nmul F c x) s)) (val (nmul F (nmul F c y) s)) (val (nmul F (nmul F c z) s))).
    assert (D2 : dist r (vscale (G * S) D) <= 181 / 10 * u + 101 / 100 * g + 18 / 10 * e).
    { replace (vscale (G * S) D) with (vscale S (vscale G D)) by (apply V3_eq; simpl; ring). set (a := 16 * u + 101 / 100 * g) in *. assert (a0 : 0 <= a <= 5 / 100) by (unfold a; lra).
      eapply Rle_trans; [apply (scale_real r m (vscale G D) (val s) S a e u et); try assumption; lra |]. rewrite norm_scale_abs, ND, (Rabs_pos_eq G), Rmult_1_r by lra. pose proof (Rabs_pos S).
      assert (Rabs S * a <= 1 * a) by (apply Rmult_le_compat_r; lra). assert (e * (G + a) <= e * (18 / 10)) by (apply Rmult_le_compat_l; lra).
      assert (u * ((Rabs S + e) * (G + a)) <= u * 2) by (apply Rmult_le_compat_l; [lra |]; apply Rle_trans with (107 / 100 * (18 / 10)); [apply Rmult_le_compat; lra | lra]). unfold a in *. lra. }
    assert (D3 : Rabs (val (nmul F c k) - G * K) <= 21 / 10 * u + g + 18 / 10 * e).
    { replace (val (nmul F c k) - G * K) with ((val (nmul F c k) - val c * val k) + val c * (val k - K) + (val c - G) * K) by ring.
      eapply Rle_trans; [apply Rabs_triang |]. apply Rle_trans with (Rabs (val (nmul F c k) - val c * val k + val c * (val k - K)) + g).
      - apply Rplus_le_compat_l. rewrite Rabs_mult. replace g with (g * 1) by ring. apply Rmult_le_compat; try apply Rabs_pos; assumption.
      - assert (Rabs (val (nmul F c k) - val c * val k + val c * (val k - K)) <= 21 / 10 * u + 18 / 10 * e); [| lra].
        eapply Rle_trans; [apply Rabs_triang |]. apply Rplus_le_compat.
        + eapply Rle_trans; [exact Ew |]. assert (u * Rabs (val c * val k) <= u * 2); [| lra]. apply Rmult_le_compat_l; [lra |]. rewrite Rabs_mult. apply Rle_trans with (178 / 100 * (107 / 100)); [apply Rmult_le_compat; try apply Rabs_pos; assumption | lra].
        + rewrite Rabs_mult. apply Rmult_le_compat; try apply Rabs_pos; lra. }
    eapply Rle_trans; [apply hdist_parts |]. change (hv (qval (q : quat bf))) with r. change (hs (qval (q : quat bf))) with (val (nmul F c k)). cbn [hv hs]. lra.
  Qed.
  Lemma pow_from_angle (q : quat F) (t : F) (d B v : R) : (9 < prec)%Z -> qfin (q : quat bf) -> fin t -> let Q := qval (q : quat bf) in let T := Rabs (val t) in
    / 2 <= hlen Q <= 2 -> bpow radix2 (6 - emax) <= vdot (hv Q) (hv Q) -> T * Rabs (ln (hlen Q)) <= / 2 -> u <= v <= / 128 -> T * (d + 32 * v) <= / 32 ->
    let al := nacos F (ndiv F (qw q) (quat_length q)) in fin al -> Rabs (val al - acos (hs Q / hlen Q)) <= d + 28 * v ->
    sincos_acc lm B d -> powf_acc lm d -> 4 * T + 1 <= B -> d <= / 64 ->
    exists r, quat_pow q t = Ok r /\ qfin (r : quat bf) /\ hdist (qval (r : quat bf)) (hpower Q (val t)) <= 6 * d + 21 * u + T * (4 * d + 140 * v).
  Proof.
    intros P Fq Ft Q T HL HV HT Hv HE al Fa Ea As Ap HB Hd. pose proof (u_small prec P) as U. pose proof (u_pos prec) as U0. pose proof (et_pos prec emax) as T0. pose proof (et_small prec emax P) as Te.
    destruct (scalar_over prec emax lm q P Fq HL) as (Fl & El & _). fold Q in El. set (l := quat_length q) in *. set (a := acos (hs Q / hlen Q)) in *.
    assert (PT : 0 <= T) by apply Rabs_pos. assert (d0 : 0 <= d) by (destruct (Ap (@n1 F) (@n0 F)) as [_ X]; [apply (fv_one prec emax lm) | apply (@fv_lit_0 prec emax Hp Hm) | rewrite (proj2 (fv_one prec emax lm)); lra | rewrite (proj2 (fv_one prec emax lm)), ln_1, Rmult_0_r, Rabs_R0; lra |]; eapply Rle_trans; [apply Rabs_pos | exact X]).
    pose proof (acos_bound (hs Q / hlen Q)) as AB. fold a in AB. assert (PC : PI <= 3.2) by (pose proof pi_close; lra).
    assert (TU : T * u <= T * v) by (apply Rmult_le_compat_l; lra). assert (Td0 : 0 <= T * d) by (apply Rmult_le_pos; lra). assert (TU0 : 0 <= T * u) by (apply Rmult_le_pos; lra).
    destruct (pow_turn t al a d (T * (d + 32 * v)) B P Ft Fa ltac:(lra) ltac:(lra) ltac:(apply Rmult_le_compat_l; lra) HE As HB) as (Fs & Fc & Es & Ec).
    set (b := nmul F t al) in *.
    assert (L0 : 0 < hlen Q) by lra. destruct (rpower_near (hlen Q) (val l) (val t) (604 / 100 * u) L0 ltac:(lra) El ltac:(fold T; lra)) as (l0 & Ln & Rp). fold T in Ln, Rp.
    assert (TL : Rabs (val t * ln (hlen Q)) <= / 2) by (rewrite Rabs_mult; exact HT).
    assert (Hln : Rabs (val t * ln (val l)) <= 1). { apply Rabs_le_inv in TL, Ln. apply Rabs_le. lra. }
    destruct (Ap l t Fl Ft l0 Hln) as [Fp Ep]. change (lm_powf lm l t) with (npowf F l t) in Fp, Ep. set (c := npowf F l t) in *. set (G := Rpower (hlen Q) (val t)) in *.
    assert (G0 : 0 <= G <= 174 / 100).
    { unfold G, Rpower. split; [left; apply exp_pos |]. apply Rle_trans with (exp (/ 2)); [| apply exp_half]. apply Rabs_le_inv in TL. destruct (Rle_lt_or_eq_dec (val t * ln (hlen Q)) (/ 2) ltac:(lra)) as [X | ->]; [left; apply exp_increasing; exact X | right; reflexivity]. }
    assert (Eg : Rabs (val c - G) <= d + 115 / 10 * (T * u)).
    { replace (val c - G) with ((val c - Rpower (val l) (val t)) + (Rpower (val l) (val t) - G)) by ring. eapply Rle_trans; [apply Rabs_triang |]. apply Rplus_le_compat; [exact Ep |]. eapply Rle_trans; [exact Rp |].
      apply Rle_trans with (174 / 100 * (108 / 100 * (T * (604 / 100 * u)))); [apply Rmult_le_compat_r; lra | lra]. }
    assert (GN : good_normal (part prec emax lm q : mat3x1 bf)).
    { destruct Fq as (F1 & F2 & F3 & _). destruct (hlen_comp Q) as (C1 & C2 & C3 & _). pose proof (half_k prec emax P) as [Hk1 Hk2].
      assert (B2 : 2 <= bpow radix2 (emax / 2 - 3)) by (change 2 with (bpow radix2 1) at 1; apply bpow_le; clear - Hk2; lia).
      split; [split; [repeat split; assumption |]; cbv zeta; change (Rabs (vx (hv Q)) <= bpow radix2 (emax / 2 - 3) /\ Rabs (vy (hv Q)) <= bpow radix2 (emax / 2 - 3) /\ Rabs (vz (hv Q)) <= bpow radix2 (emax / 2 - 3)); repeat split; lra |].
      exact HV. }
    destruct (nrm_ieee prec emax lm (part prec emax lm q) P GN) as (Bn & Dn & ND).
    assert (MG : magnitude_nonzero (part prec emax lm q) = true) by (apply (mag_good prec emax lm); assumption).
    rewrite pow_any; [| exact MG]. eexists. split; [reflexivity |].
    pose proof (pow_parts (nrm (part prec emax lm q)) c (nsin F b) (ncos F b) (PShape.unit (w3 (part prec emax lm q))) G (sin (val t * a)) (cos (val t * a)) (d + 115 / 10 * (T * u)) (d + T * (d + 32 * v) + et) P Bn Dn ND Fp Fs Fc G0 Eg ltac:(lra)
      ltac:(apply Rabs_le; pose proof (SIN_bound (val t * a)); lra) ltac:(apply Rabs_le; pose proof (COS_bound (val t * a)); lra) Es Ec ltac:(lra)) as Z. cbv zeta in Z |- *. fold l c al b.
    destruct Z as [Fz Dz]. split; [exact Fz |]. eapply Rle_trans; [exact Dz |]. lra.
  Qed.
  (** any quaternion of length between 1/2 and 2 whose vector part does not underflow *)
  Lemma pow_ieee (q : quat F) (t : F) (d B : R) : (9 < prec)%Z -> qfin (q : quat bf) -> fin t -> let Q := qval (q : quat bf) in let T := Rabs (val t) in
    / 2 <= hlen Q <= 2 -> bpow radix2 (6 - emax) <= vdot (hv Q) (hv Q) -> T * Rabs (ln (hlen Q)) <= / 2 -> T * (d + 8 * sqrt u) <= / 32 ->
    acos_acc lm d -> sincos_acc lm B d -> powf_acc lm d -> 4 * T + 1 <= B -> d <= / 64 ->
    exists r, quat_pow q t = Ok r /\ qfin (r : quat bf) /\ hdist (qval (r : quat bf)) (hpower Q (val t)) <= 6 * d + 21 * u + T * (4 * d + 35 * sqrt u).
  Proof.
    intros P Fq Ft Q T HL HV HT HE Aa As Ap HB Hd. destruct (pow_angle prec emax lm q d P Fq HL Aa) as (Fa & Ea & _). fold Q in Ea. pose proof (u_small prec P) as U. pose proof (u_pos prec) as U0.
    pose proof (sqrt_sqrt u ltac:(lra)) as SS. pose proof (sqrt_lt_R0 u U0) as S0. assert (S1 : sqrt u <= / 32). { rewrite <- (sqrt_square (/ 32)) by lra. apply sqrt_le_1_alt. lra. }
    destruct (pow_from_angle q t d B (sqrt u / 4) P Fq Ft HL HV HT) as (r & E & Fr & Dr); try assumption.
    - split; [| lra]. assert (sqrt u * sqrt u <= sqrt u * / 32) by (apply Rmult_le_compat_l; lra). lra.
    - fold Q T. eapply Rle_trans; [| exact HE]. apply Rmult_le_compat_l; [apply Rabs_pos | lra].
    - fold Q. lra.
    - exists r. split; [exact E |]. split; [exact Fr |]. fold Q T in Dr. replace (4 * d + 35 * sqrt u) with (4 * d + 140 * (sqrt u / 4)) by field. exact Dr.
  Qed.
  (** and when the sine of the angle is not small *)
  Lemma pow_ieee_wide (q : quat F) (t : F) (d B : R) : (9 < prec)%Z -> qfin (q : quat bf) -> fin t -> let Q := qval (q : quat bf) in let N := norm (hv Q) / hlen Q in let T := Rabs (val t) in
    / 2 <= hlen Q <= 2 -> bpow radix2 (6 - emax) <= vdot (hv Q) (hv Q) -> 128 * u <= N -> T * Rabs (ln (hlen Q)) <= / 2 -> T * (d + 32 * (u / N)) <= / 32 ->
    acos_acc lm d -> sincos_acc lm B d -> powf_acc lm d -> 4 * T + 1 <= B -> d <= / 64 ->
    exists r, quat_pow q t = Ok r /\ qfin (r : quat bf) /\ hdist (qval (r : quat bf)) (hpower Q (val t)) <= 6 * d + 21 * u + T * (4 * d + 140 * (u / N)).
  Proof.
    intros P Fq Ft Q N T HL HV HN HT HE Aa As Ap HB Hd. pose proof (u_small prec P) as U. pose proof (u_pos prec) as U0. assert (N0 : 0 < N) by lra.
    destruct (pow_angle prec emax lm q d P Fq HL Aa) as (Fa & _ & Ea). fold Q N in Ea. specialize (Ea N0).
    assert (N1 : N <= 1). { assert (NE : norm (hv Q) = N * hlen Q) by (unfold N; field; lra). pose proof (hlen_split Q) as HS. rewrite NE in HS. assert (L2 : 0 < hlen Q) by lra. clear - HS L2 N0. pose proof (Rle_0_sqr (hs Q)) as S2. unfold Rsqr in S2.
      assert (N * hlen Q <= hlen Q); [| nra]. apply Rsqr_incr_0; unfold Rsqr; try lra. apply Rmult_le_pos; lra. }
    destruct (pow_from_angle q t d B (u / N) P Fq Ft HL HV HT) as (r & E & Fr & Dr); try assumption.
    - split; apply Rmult_le_reg_r with N; try exact N0; replace (u / N * N) with u by (field; lra); [| lra]. assert (u * N <= u * 1) by (apply Rmult_le_compat_l; lra). lra.
    - exists r. split; [exact E |]. split; [exact Fr |]. exact Dr.
  Qed.
  (** ---- the reference ---- *)
  Lemma hpower_polar (q : H4) (t : R) : hpower q t = hpolar (Rpower (hlen q) t) (haxis_of q) (t * hangle q).
  Proof. reflexivity. Qed.
  Lemma hpower_law (q : H4) : hv q <> vzero -> hpower q 1 = q /\ (forall s t, hpower q (s + t) = hmul (hpower q s) (hpower q t)) /\ (forall t, hlen (hpower q t) = Rpower (hlen q) t).
  Proof.
    intro Hv. pose proof (haxis_of_unit q Hv) as Hn. split; [| split].
    - rewrite hpower_polar, Rpower_1, Rmult_1_l; [apply hpolar_form; exact Hv |]. pose proof (hs_lt q Hv). pose proof (Rabs_pos (hs q)). lra.
    - intros s t. rewrite !hpower_polar, hpolar_mul by exact Hn. rewrite Rpower_plus. f_equal. ring.
    - intro t. rewrite hpower_polar. apply hpolar_len; [exact Hn | left; apply exp_pos].
  Qed.
  Lemma rounded_powf : (9 < prec)%Z -> powf_acc (rounded_libm prec emax) (4 * u).
  Proof.
    intros P x y Fx Fy X0 L. pose proof (u_pos prec) as U0. pose proof (et_small prec emax P) as T. set (r := Rpower (val x) (val y)).
    assert (R3 : 0 < r <= 3.03). { split; [apply exp_pos |]. unfold r, Rpower. apply Rle_trans with (exp (/ 2 + / 2)); [| rewrite exp_plus; pose proof exp_half; pose proof (exp_pos (/ 2)); replace 3.03 with (3.03) by lra; nra].
      apply Rabs_le_inv in L. destruct (Rle_lt_or_eq_dec (val y * ln (val x)) (/ 2 + / 2) ltac:(lra)) as [X | ->]; [left; apply exp_increasing; exact X | right; reflexivity]. }
    destruct (rn_ok prec emax r ltac:(rewrite Rabs_pos_eq; lra) P) as [G D]. split; [exact G |]. rewrite (Rabs_pos_eq r) in D by lra. assert (u * r <= u * 3.03) by (apply Rmult_le_compat_l; lra). eapply Rle_trans; [exact D |]. lra.
  Qed.
End Pow2.
