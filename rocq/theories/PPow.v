(** PPow.v — completing a quaternion to unit length (C106) and quaternion powers (C107) in IEEE arithmetic. *)
From Coq Require Import Reals List ZArith NArith Bool Lra Lia Psatz.
From Flocq Require Import Core BinarySingleNaN.
Import ListNotations.
From Verif Require Import Shape Base Num Vec Mat Quat Float Exact FloatFacts FloatRound Order SpecMat SpecGeom SpecBound SpecQuat
  SpecRound SpecBuild SpecFq SpecTrig SpecPow ExactFacts PMat PShape PBuild PGeo1 PQuat PQuat2 PRound PRound2 PRound3 PIeee1 PIeee2 PIeee3 PIeee4 PIeee5 PIeee6 PIeee7 PPrismF PTrig PTrig2 PTrig3.
Local Open Scope R_scope.

(** the arc cosine away from 1 and -1 *)
Lemma acos_near a b : -1 <= a <= 1 -> -1 <= b <= 1 -> Rabs (acos a - acos b) * sin (acos a) <= 34 / 10 * Rabs (a - b).
Proof.
  intros Ha Hb. pose proof (acos_bound a) as X. pose proof (acos_bound b) as Y. rewrite <- (cos_acos a Ha) at 3. rewrite <- (cos_acos b Hb) at 2. set (x := acos a) in *. set (y := acos b) in *.
  rewrite form2. set (A := (x + y) / 2). set (B := (x - y) / 2). pose proof PI_RGT_0 as PP.
  assert (J : Rabs B <= 17 / 10 * Rabs (sin B)) by (apply jordan_abs; apply Rabs_le; unfold B; lra).
  assert (SA : 0 <= sin A) by (apply sin_ge_0; unfold A; lra). assert (SX : 0 <= sin x) by (apply sin_ge_0; lra). assert (SY : 0 <= sin y) by (apply sin_ge_0; lra).
  assert (E : sin x + sin y = 2 * sin A * cos B) by (rewrite form3; unfold A, B; ring). pose proof (COS_bound B) as CB. assert (H2 : sin x <= 2 * sin A) by nra.
  replace (x - y) with (2 * B) by (unfold B; lra). rewrite !Rabs_mult, (Rabs_pos_eq (sin A)), (Rabs_pos_eq 2) by lra. replace (Rabs (-2)) with 2 by (rewrite Rabs_left; lra).
  pose proof (Rabs_pos B). pose proof (Rabs_pos (sin B)). apply Rle_trans with (2 * Rabs B * (2 * sin A)); [apply Rmult_le_compat_l; lra |].
  replace (34 / 10 * (2 * Rabs (sin B) * sin A)) with (2 * (17 / 10 * Rabs (sin B)) * (2 * sin A)) by lra. apply Rmult_le_compat_r; lra.
Qed.
Lemma ln_mono x y : 0 < x -> x <= y -> ln x <= ln y.
Proof. intros X [L | ->]; [left; apply ln_increasing; assumption | right; reflexivity]. Qed.
(** a power of a number known up to a relative error *)
Lemma rpower_near L l t ep : 0 < L -> 0 <= ep <= / 100 -> Rabs (l - L) <= ep * L -> Rabs t * ep <= / 64 ->
  0 < l /\ Rabs (t * ln l - t * ln L) <= 105 / 100 * (Rabs t * ep) /\ Rabs (Rpower l t - Rpower L t) <= Rpower L t * (108 / 100 * (Rabs t * ep)).
Proof.
  intros HL He HD Ht. apply Rabs_le_inv in HD. set (r := l / L). assert (El : l = L * r) by (unfold r; field; lra).
  assert (R : 1 - ep <= r <= 1 + ep). { unfold r. split; [apply Rmult_le_reg_r with L; [exact HL |]; replace (l / L * L) with l by (field; lra); lra | apply Rmult_le_reg_r with L; [exact HL |]; replace (l / L * L) with l by (field; lra); lra]. }
  assert (r0 : 0 < r) by lra. assert (l0 : 0 < l) by (rewrite El; apply Rmult_lt_0_compat; lra). split; [exact l0 |].
  assert (U : ln r <= ep). { apply Rle_trans with (ln (1 + ep)); [apply ln_mono; lra |]. rewrite <- (ln_exp ep) at 2. apply ln_mono; [lra |]. destruct (Req_dec ep 0) as [-> | N]; [rewrite exp_0; lra | left; apply exp_ineq1; exact N]. }
  assert (W : - (105 / 100 * ep) <= ln r).
  { assert (ln (/ r) <= / r - 1). { rewrite <- (ln_exp (/ r - 1)). apply ln_mono; [apply Rinv_0_lt_compat; exact r0 |]. destruct (Req_dec (/ r - 1) 0) as [Z | N]; [rewrite Z, exp_0; lra | left; replace (/ r) with (1 + (/ r - 1)) at 1 by ring; apply exp_ineq1; exact N]. }
    rewrite ln_Rinv in H by exact r0. assert (/ r <= 1 + 105 / 100 * ep). { apply Rmult_le_reg_l with r; [exact r0 |]. rewrite Rinv_r by lra. nra. } lra. }
  assert (Z : Rabs (t * ln r) <= 105 / 100 * (Rabs t * ep)). { rewrite Rabs_mult. pose proof (Rabs_pos t). apply Rle_trans with (Rabs t * (105 / 100 * ep)); [apply Rmult_le_compat_l; [lra | apply Rabs_le; lra] | lra]. }
  split; [rewrite El, ln_mult by lra; replace (t * (ln L + ln r) - t * ln L) with (t * ln r) by ring; exact Z |].
  unfold Rpower. rewrite El, ln_mult by lra. replace (t * (ln L + ln r)) with (t * ln L + t * ln r) by ring. rewrite exp_plus. set (G := exp (t * ln L)). set (z := t * ln r) in *. assert (G0 : 0 < G) by apply exp_pos.
  replace (G * exp z - G) with (G * (exp z - 1)) by ring. rewrite Rabs_mult, (Rabs_pos_eq G) by lra. apply Rmult_le_compat_l; [lra |]. set (m := Rabs t * ep) in *. apply Rabs_le_inv in Z.
  assert (m0 : 0 <= m) by (unfold m; apply Rmult_le_pos; [apply Rabs_pos | lra]).
  assert (E1 : forall v, 1 + v <= exp v) by (intro v; destruct (Req_dec v 0) as [-> | N]; [rewrite exp_0; lra | left; apply exp_ineq1; exact N]).
  pose proof (E1 z) as A1. pose proof (E1 (- z)) as A2. rewrite exp_Ropp in A2. pose proof (exp_pos z) as A3.
  assert (A4 : exp z * (1 - z) <= 1). { apply Rle_trans with (exp z * / exp z); [apply Rmult_le_compat_l; lra | rewrite Rinv_r; lra]. }
  apply Rabs_le. split; [lra |]. apply Rnot_lt_le. intro C. assert ((1 + 108 / 100 * m) * (1 - z) < 1). { eapply Rlt_le_trans; [| exact A4]. apply Rmult_lt_compat_r; lra. } clear - H Z Ht m0. nra.
Qed.
Lemma exp_half : exp (/ 2) <= 174 / 100.
Proof.
  assert (exp (/ 2) * exp (/ 2) <= 3) by (rewrite <- exp_plus; replace (/ 2 + / 2) with 1 by lra; apply exp_le_3). pose proof (exp_pos (/ 2)). apply Rnot_lt_le. intro. nra.
Qed.
(** a scaled vector with rounding *)
Lemma scale_real (r v X : V3) (s S a d u et : R) : 0 <= u -> 0 <= et -> dist v X <= a -> Rabs (s - S) <= d ->
  Rabs (vx r - s * vx v) <= u * Rabs (s * vx v) + et -> Rabs (vy r - s * vy v) <= u * Rabs (s * vy v) + et -> Rabs (vz r - s * vz v) <= u * Rabs (s * vz v) + et ->
  dist r (vscale S X) <= Rabs S * a + d * (norm X + a) + u * ((Rabs S + d) * (norm X + a)) + 2 * et.
Proof.
  intros U T A D Ex Ey Ez. assert (NV : norm v <= norm X + a) by (pose proof (norm_close v X); lra). pose proof (norm_pos v) as V0.
  assert (d0 : 0 <= d) by (pose proof (Rabs_pos (s - S)); lra). assert (SS : Rabs s <= Rabs S + d) by (replace s with (S + (s - S)) by ring; eapply Rle_trans; [apply Rabs_triang | lra]).
  assert (D1 : dist r (vscale s v) <= u * ((Rabs S + d) * (norm X + a)) + 2 * et).
  { apply Rle_trans with (u * norm (vscale s v) + 2 * et).
    - pose proof (norm_comb (vsub r (vscale s v)) (vscale s v) vzero u 0 et U ltac:(lra) T) as NC. rewrite norm_vzero in NC. unfold dist. eapply Rle_trans; [apply NC; unfold vsub, vscale, vzero; cbn [vx vy vz]; lra | lra].
    - apply Rplus_le_compat_r, Rmult_le_compat_l; [exact U |]. rewrite norm_scale_abs. apply Rmult_le_compat; [apply Rabs_pos | exact V0 | exact SS | exact NV]. }
  assert (D2 : dist (vscale s v) (vscale S v) <= d * (norm X + a)).
  { unfold dist. replace (vsub (vscale s v) (vscale S v)) with (vscale (s - S) v) by (destruct v; apply V3_eq; simpl; ring). rewrite norm_scale_abs. apply Rmult_le_compat; [apply Rabs_pos | exact V0 | exact D | exact NV]. }
  assert (D3 : dist (vscale S v) (vscale S X) <= Rabs S * a).
  { unfold dist. replace (vsub (vscale S v) (vscale S X)) with (vscale S (vsub v X)) by (destruct v, X; apply V3_eq; simpl; ring). rewrite norm_scale_abs. apply Rmult_le_compat_l; [apply Rabs_pos | exact A]. }
  pose proof (dist_tri3 r (vscale s v) (vscale S X)). pose proof (dist_tri3 (vscale s v) (vscale S v) (vscale S X)). lra.
Qed.

Section Pow.
  Context (prec emax : Z) {Hp : Prec_gt_0 prec} {Hm : Prec_lt_emax prec emax} (lm : libm (binary_float prec emax)).
  Notation bf := (binary_float prec emax).
  Notation F := (@Ieee prec emax Hp Hm lm).
  Notation w3 v := (v3 (v : mat3x1 bf)).
  Notation u := (uro prec).
  Notation et := (eta prec emax).
  Notation val := (@B2R prec emax).
  Notation fin x := (@is_finite prec emax x = true).
  Notation fmt := (SpecFloat.fexp prec emax).
  Notation rnd := (round radix2 fmt ZnearestE).

  (** ---- C106: automatic w ---- *)
  Lemma sq_near (x : F) : (9 < prec)%Z -> fin x -> Rabs (val x) <= 2 -> bnd prec emax 2 (nmul F x x) /\ Rabs (val (nmul F x x) - val x * val x) <= u * (val x * val x) + et.
  Proof.
    intros P Fx Bx. assert (HE : (10 < emax)%Z) by (unfold Prec_lt_emax in Hm; lia). assert (B : bnd prec emax 1 x) by (split; [exact Fx | exact Bx]).
    destruct (mult_bnd prec emax 1 1 x x ltac:(lia) ltac:(lia) B B) as [[Fm Vm] M]. split; [exact M |]. change (nmul F x x) with (Bmult mode_NE (x : bf) x). rewrite Vm.
    destruct (rnd_err prec emax (val x * val x)) as (e & h & He & Hh & E). rewrite E. set (t := val x * val x). replace (t * (1 + e) + h - t) with (e * t + h) by ring.
    assert (T0 : 0 <= t) by (unfold t; nra). eapply Rle_trans; [apply Rabs_triang |]. rewrite Rabs_mult, (Rabs_pos_eq t) by exact T0. assert (Rabs e * t <= u * t) by (apply Rmult_le_compat_r; assumption). lra.
  Qed.
  Lemma sub_near (a b : F) : (9 < prec)%Z -> bnd prec emax 4 a -> bnd prec emax 4 b -> fin (nsub F a b) /\ Rabs (val (nsub F a b) - (val a - val b)) <= u * Rabs (val a - val b).
  Proof.
    intros P Ba Bb. assert (HE : (10 < emax)%Z) by (unfold Prec_lt_emax in Hm; lia). destruct (minus_bnd prec emax 4 a b ltac:(lia) ltac:(lia) Ba Bb) as [[Fd Vd] _]. change (nsub F a b) with (Bminus mode_NE (a : bf) b). split; [exact Fd |]. rewrite Vd.
    destruct (minus_rel prec emax a b) as (e & He & E). rewrite E. set (t := val a - val b). replace (t * (1 + e) - t) with (e * t) by ring. rewrite Rabs_mult. apply Rmult_le_compat_r; [apply Rabs_pos | exact He].
  Qed.
  Lemma auto_w_rest (x y z : F) : (9 < prec)%Z -> fin x -> fin y -> fin z -> let s := val x * val x + val y * val y + val z * val z in s <= 2 ->
    let w := nsub F (nsub F (nsub F n1 (nmul F x x)) (nmul F y y)) (nmul F z z) in
    fin w /\ Rabs (val w - (1 - s)) <= 41 / 10 * u + 4 * (u * Rmax 0 (s - 1)).
  Proof.
    intros P Fx Fy Fz s Hs w. pose proof (u_small prec P) as U. pose proof (u_pos prec) as U0. pose proof (et_pos prec emax) as T0. pose proof (et_small prec emax P) as T.
    set (X := val x * val x) in *. set (Y := val y * val y) in *. set (Z := val z * val z) in *. assert (X0 : 0 <= X) by (unfold X; nra). assert (Y0 : 0 <= Y) by (unfold Y; nra). assert (Z0 : 0 <= Z) by (unfold Z; nra).
    assert (Q : forall r, 0 <= r * r <= 2 -> Rabs r <= 2) by (intros r Hr; apply Rabs_le; nra).
    destruct (sq_near x P Fx (Q (val x) ltac:(fold X; unfold s in Hs; lra))) as [Bx Ex]. destruct (sq_near y P Fy (Q (val y) ltac:(fold Y; unfold s in Hs; lra))) as [By Ey]. destruct (sq_near z P Fz (Q (val z) ltac:(fold Z; unfold s in Hs; lra))) as [Bz Ez].
    fold X in Ex. fold Y in Ey. fold Z in Ez. destruct (fv_one prec emax lm) as [F1 V1].
    assert (B4 : forall a k, bnd prec emax k a -> (k <= 4)%Z -> bnd prec emax 4 a) by (intros a k B K; apply (bnd_le prec emax k 4); [lia | exact B]).
    assert (B1 : bnd prec emax 4 (@n1 F)) by (split; [exact F1 | rewrite V1, Rabs_R1; change (bpow radix2 4) with 16; lra]).
    destruct (sub_near n1 (nmul F x x) P B1 (B4 _ _ Bx ltac:(lia))) as [Fa Ea]. set (a := nsub F n1 (nmul F x x)) in *. rewrite V1 in Ea.
    set (p := val (nmul F x x)) in *. set (q := val (nmul F y y)) in *. set (r := val (nmul F z z)) in *.
    assert (uX : 0 <= u * X <= u * 2) by (split; [apply Rmult_le_pos; lra | apply Rmult_le_compat_l; unfold s in Hs; lra]).
    assert (uY : 0 <= u * Y <= u * 2) by (split; [apply Rmult_le_pos; lra | apply Rmult_le_compat_l; unfold s in Hs; lra]).
    assert (uZ : 0 <= u * Z <= u * 2) by (split; [apply Rmult_le_pos; lra | apply Rmult_le_compat_l; unfold s in Hs; lra]).
    apply Rabs_le_inv in Ex, Ey, Ez.
    assert (A1 : Rabs (1 - p) <= 1 + Rmax 0 (s - 1) + 2 * u + et).
    { apply Rabs_le. pose proof (Rmax_l 0 (s - 1)). pose proof (Rmax_r 0 (s - 1)). unfold s in *. lra. }
    set (M := Rmax 0 (s - 1)) in *. assert (M0 : 0 <= M <= 1) by (unfold M; split; [apply Rmax_l | apply Rmax_lub; lra]). assert (Ms : s - 1 <= M) by apply Rmax_r.
    assert (K1 : forall k, k <= 2 / 100 -> u * (1 + M + k) <= u * (102 / 100) + u * M) by (intros k Hk; assert (u * k <= u * (2 / 100)) by (apply Rmult_le_compat_l; lra); lra).
    assert (Ea' : Rabs (val a - (1 - p)) <= u * (102 / 100) + u * M).
    { eapply Rle_trans; [exact Ea |]. apply Rle_trans with (u * (1 + M + (2 * u + et))); [apply Rmult_le_compat_l; lra |]. apply K1; lra. }
    clear Ea A1. apply Rabs_le_inv in Ea'. assert (uM : 0 <= u * M <= u * 1) by (split; [apply Rmult_le_pos; lra | apply Rmult_le_compat_l; lra]).
    assert (Ba : bnd prec emax 4 a) by (split; [exact Fa | change (bpow radix2 4) with 16; apply Rabs_le; unfold s in *; lra]).
    destruct (sub_near a (nmul F y y) P Ba (B4 _ _ By ltac:(lia))) as [Fb Eb]. set (b := nsub F a (nmul F y y)) in *. fold q in Eb.
    assert (Eb' : Rabs (val b - (val a - q)) <= u * (102 / 100) + u * M).
    { eapply Rle_trans; [exact Eb |]. apply Rle_trans with (u * (1 + M + (8 * u + 2 * et))); [apply Rmult_le_compat_l; [lra |]; apply Rabs_le; unfold s in *; lra |]. apply K1; lra. }
    clear Eb. apply Rabs_le_inv in Eb'.
    assert (Bb : bnd prec emax 4 b) by (split; [exact Fb | change (bpow radix2 4) with 16; apply Rabs_le; unfold s in *; lra]).
    destruct (sub_near b (nmul F z z) P Bb (B4 _ _ Bz ltac:(lia))) as [Fw Ew]. fold w in Fw, Ew. fold r in Ew. split; [exact Fw |].
    assert (Ew' : Rabs (val w - (val b - r)) <= u * (102 / 100) + u * M).
    { eapply Rle_trans; [exact Ew |]. apply Rle_trans with (u * (1 + M + (12 * u + 3 * et))); [apply Rmult_le_compat_l; [lra |]; apply Rabs_le; unfold s in *; lra |]. apply K1; lra. }
    apply Rabs_le_inv in Ew'. assert (us : u * X + u * Y + u * Z <= u + u * M) by (replace (u * X + u * Y + u * Z) with (u * s) by (unfold s; ring); apply Rle_trans with (u * (1 + M)); [apply Rmult_le_compat_l; lra | lra]).
    apply Rabs_le. unfold s. lra.
  Qed.
  Lemma neg_one (r : F) : (9 < prec)%Z -> fin r -> fin (nmul F (nlit F (-1) 1) r) /\ val (nmul F (nlit F (-1) 1) r) = - val r.
  Proof.
    intros P Fr. destruct (lit_z prec emax lm P (-1) ltac:(lia)) as [Fm Vm]. destruct (mult_round prec emax (nlit F (-1) 1) r Fm Fr) as [M _].
    replace (val (nlit F (-1) 1) * val r) with (- val r) in M by (rewrite Vm; ring). rewrite (rnd_opp prec emax (val r)), (rnd_B2R prec emax r) in M.
    apply M. rewrite Rabs_Ropp. apply B2R_lt_emax.
  Qed.
  Lemma auto_w_ieee (x y z : F) : (9 < prec)%Z -> fin x -> fin y -> fin z -> let s := val x * val x + val y * val y + val z * val z in s <= 1 ->
    let q := quat_init_from_vals_auto_w x y z in
    qfin (q : quat bf) /\ qx q = x /\ qy q = y /\ qz q = z /\ val (qw q) <= 0 /\ Rabs (hdot (qval (q : quat bf)) (qval (q : quat bf)) - 1) <= 7 * u.
  Proof.
    intros P Fx Fy Fz s Hs q. pose proof (u_small prec P) as U. pose proof (u_pos prec) as U0. pose proof (et_pos prec emax) as T0. pose proof (et_small prec emax P) as T.
    destruct (auto_w_rest x y z P Fx Fy Fz ltac:(fold s; lra)) as [Fw Ew]. fold s in Ew. rewrite (Rmax_left 0 (s - 1)), Rmult_0_r, Rmult_0_r, Rplus_0_r in Ew by lra. apply Rabs_le_inv in Ew.
    unfold quat_init_from_vals_auto_w in q. set (w := nsub F (nsub F (nsub F n1 (nmul F x x)) (nmul F y y)) (nmul F z z)) in *.
    destruct (@fv_lit_0 prec emax Hp Hm) as [F0 V0]. change (@f_lit prec emax Hp Hm 0 1) with (@n0 F) in *.
    assert (s0 : 0 <= s) by (unfold s; pose proof (Rle_0_sqr (val x)); pose proof (Rle_0_sqr (val y)); pose proof (Rle_0_sqr (val z)); unfold Rsqr in *; lra).
    destruct (nlt w n0) eqn:L; unfold q; cbn [qx qy qz qw].
    - apply (nlt_val prec emax lm w n0 Fw F0) in L. rewrite V0 in L. split; [repeat split; assumption |]. split; [reflexivity |]. split; [reflexivity |]. split; [reflexivity |]. split; [lra |].
      unfold hdot, SpecFq.qval, vdot. cbn [hv hs vx vy vz qx qy qz qw]. fold s. assert (0 <= val w * val w <= u) by (clear - L Ew U U0 Hs; split; nra). apply Rabs_le. lra.
    - assert (W0 : 0 <= val w) by (apply Rnot_lt_le; intro C; rewrite <- V0 in C; apply (nlt_val prec emax lm w n0 Fw F0) in C; congruence).
      destruct (sqrt_ok prec emax w Fw W0) as [Fr Vr]. change (Bsqrt mode_NE (w : bf)) with (nsqrt F w : bf) in Fr, Vr. set (r := nsqrt F w) in *.
      destruct (neg_one r P Fr) as [Fn Vn]. split; [repeat split; assumption |]. split; [reflexivity |]. split; [reflexivity |]. split; [reflexivity |].
      pose proof (sqrt_pos (val w)) as R0. pose proof (sqrt_sqrt (val w) W0) as RR.
      assert (R1 : 0 <= val r) by (rewrite Vr; apply (rnd_nonneg prec emax); exact R0). split; [rewrite Vn; lra |].
      unfold hdot, SpecFq.qval, vdot. cbn [hv hs vx vy vz qx qy qz qw]. fold s. rewrite Vn. replace (s + - val r * - val r - 1) with ((val r * val r - val w) + (val w - (1 - s))) by ring.
      destruct (rnd_err prec emax (sqrt (val w))) as (e & h & He & Hh & E). rewrite E in Vr. apply Rabs_le_inv in He, Hh.
      assert (S1 : sqrt (val w) <= 11 / 10) by (clear - R0 RR Ew U Hs s0; nra).
      assert (ES : Rabs (e * sqrt (val w) + h) <= 111 / 100 * u).
      { eapply Rle_trans; [apply Rabs_triang |]. rewrite Rabs_mult, (Rabs_pos_eq (sqrt (val w))) by exact R0. assert (Rabs e * sqrt (val w) <= u * (11 / 10)) by (apply Rmult_le_compat; [apply Rabs_pos | exact R0 | apply Rabs_le; lra | exact S1]). assert (Rabs h <= et) by (apply Rabs_le; lra). lra. }
      assert (S2 : sqrt (val w) <= 1 + 3 * u) by (clear - R0 RR Ew U U0 Hs s0; nra).
      assert (D : Rabs (val r * val r - val w) <= 25 / 10 * u).
      { rewrite Vr. set (g := sqrt (val w)) in *. rewrite <- RR. replace ((g * (1 + e) + h) * (g * (1 + e) + h) - g * g) with ((e * g + h) * (2 * g + (e * g + h))) by ring. rewrite Rabs_mult.
        assert (Rabs (2 * g + (e * g + h)) <= 2 + 8 * u) by (apply Rabs_le; apply Rabs_le_inv in ES; lra).
        apply Rle_trans with (111 / 100 * u * (2 + 8 * u)); [apply Rmult_le_compat; try apply Rabs_pos; assumption |]. clear - U U0. nra. }
      apply Rabs_le_inv in D. apply Rabs_le. lra.
  Qed.
  Lemma auto_w_out (x y z : F) : (9 < prec)%Z -> fin x -> fin y -> fin z -> let s := val x * val x + val y * val y + val z * val z in 1 + 5 * u <= s <= 2 ->
    let q := quat_init_from_vals_auto_w x y z in
    qfin (q : quat bf) /\ qx q = x /\ qy q = y /\ qz q = z /\ Rabs (val (qw q) - (1 - s)) <= 9 * u.
  Proof.
    intros P Fx Fy Fz s Hs q. pose proof (u_small prec P) as U. pose proof (u_pos prec) as U0.
    destruct (auto_w_rest x y z P Fx Fy Fz ltac:(fold s; lra)) as [Fw Ew]. fold s in Ew. rewrite (Rmax_right 0 (s - 1)) in Ew by lra. assert (4 * (u * (s - 1)) <= 4 * u) by nra.
    unfold quat_init_from_vals_auto_w in q. set (w := nsub F (nsub F (nsub F n1 (nmul F x x)) (nmul F y y)) (nmul F z z)) in *.
    destruct (@fv_lit_0 prec emax Hp Hm) as [F0 V0]. change (@f_lit prec emax Hp Hm 0 1) with (@n0 F) in *.
    assert (L : nlt w n0 = true). { apply (nlt_val prec emax lm w n0 Fw F0). rewrite V0. apply Rabs_le_inv in Ew. assert (u * (s - 1) <= / 1024 * (s - 1)) by (apply Rmult_le_compat_r; lra). lra. }
    unfold q. rewrite L. cbn [qx qy qz qw]. split; [repeat split; assumption |]. repeat (split; [reflexivity |]). lra.
  Qed.

  (** ---- C107: powers ---- *)
  Lemma qlen_fin (q : quat F) : (9 < prec)%Z -> qfin (q : quat bf) -> hlen (qval (q : quat bf)) <= 2 -> fin (quat_length q).
  Proof.
    intros P Fq L. assert (HE : (10 < emax)%Z) by (unfold Prec_lt_emax in Hm; lia). destruct (comp_bnd prec emax lm 1 q Fq L) as (Bx & By & Bz & Bw).
    assert (M : forall x : bf, bnd prec emax 1 x -> bnd prec emax 2 (Bmult mode_NE x x) /\ 0 <= val (Bmult mode_NE x x)).
    { intros x B. destruct (mult_bnd prec emax 1 1 x x ltac:(lia) ltac:(lia) B B) as [[_ V] M]. split; [exact M |]. rewrite V. apply (rnd_nonneg prec emax). pose proof (Rle_0_sqr (val x)) as Q. exact Q. }
    destruct (M _ Bx) as [Mx Px], (M _ By) as [My Py], (M _ Bz) as [Mz Pz], (M _ Bw) as [Mw Pw].
    destruct (plus_bnd prec emax 2 _ _ ltac:(lia) ltac:(lia) Mx My) as [[_ V1] M1]. destruct (plus_bnd prec emax 3 _ _ ltac:(lia) ltac:(lia) M1 (bnd_le prec emax 2 3 _ ltac:(lia) Mz)) as [[_ V2] M2].
    destruct (plus_bnd prec emax 4 _ _ ltac:(lia) ltac:(lia) M2 (bnd_le prec emax 2 4 _ ltac:(lia) Mw)) as [[F3 V3] M3].
    assert (P1 : 0 <= rnd (val (Bmult mode_NE (qx q : bf) (qx q)) + val (Bmult mode_NE (qy q : bf) (qy q)))) by (apply (rnd_nonneg prec emax); lra). rewrite <- V1 in P1.
    match type of V2 with _ = rnd ?e => assert (P2 : 0 <= rnd e) by (apply (rnd_nonneg prec emax); lra) end. rewrite <- V2 in P2.
    match type of V3 with _ = rnd ?e => assert (P3 : 0 <= rnd e) by (apply (rnd_nonneg prec emax); lra) end. rewrite <- V3 in P3.
    destruct (sqrt_ok prec emax _ F3 P3) as [Fs _]. exact Fs.
  Qed.
  Definition part (q : quat F) : mat3x1 F := M3x1 (A3 (qx q) (qy q) (qz q)).
  Lemma pow_any (q : quat F) (t : F) : nne (nsqrt F (nadd F (nadd F (nmul F (qx q) (qx q)) (nmul F (qy q) (qy q))) (nmul F (qz q) (qz q)))) n0 = true ->
    quat_pow q t = Ok (let l := quat_length q in let c := npowf F l t in let b := nmul F t (nacos F (ndiv F (qw q) l)) in
      match nrm (part q) with M3x1 (A3 x y z) => Q (nmul F (nmul F c x) (nsin F b)) (nmul F (nmul F c y) (nsin F b)) (nmul F (nmul F c z) (nsin F b)) (nmul F c (ncos F b)) end).
  Proof. intro H. unfold quat_pow. rewrite H. reflexivity. Qed.
  Lemma mul_err (x y : F) : fin x -> fin y -> Rabs (val x * val y) <= 8 -> (9 < prec)%Z -> fin (nmul F x y) /\ Rabs (val (nmul F x y) - val x * val y) <= u * Rabs (val x * val y) + et.
  Proof.
    intros Fx Fy B P. assert (HE : (10 < emax)%Z) by (unfold Prec_lt_emax in Hm; lia). destruct (mult_round prec emax x y Fx Fy) as [M _].
    destruct M as [Fm Vm]; [eapply Rle_lt_trans; [apply (rnd_bpow prec emax 3); [lia | exact B] | apply bpow_lt; lia] |]. change (nmul F x y) with (Bmult mode_NE (x : bf) y). split; [exact Fm |]. rewrite Vm.
    destruct (rnd_err prec emax (val x * val y)) as (e & h & He & Hh & E). rewrite E. set (t := val x * val y). replace (t * (1 + e) + h - t) with (e * t + h) by ring.
    eapply Rle_trans; [apply Rabs_triang |]. rewrite Rabs_mult. pose proof (Rabs_pos t). assert (Rabs e * Rabs t <= u * Rabs t) by (apply Rmult_le_compat_r; assumption). lra.
  Qed.
End Pow.
