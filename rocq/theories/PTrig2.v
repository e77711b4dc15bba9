(** PTrig2.v — quaternion to axis and angle in IEEE arithmetic (C102). *)
From Coq Require Import Reals List ZArith NArith Bool Lra Lia Psatz.
From Flocq Require Import Core BinarySingleNaN.
Import ListNotations.
From Verif Require Import Shape Base Num Vec Mat Quat Float Exact FloatFacts FloatRound Order SpecMat SpecGeom SpecBound SpecQuat
  SpecRound SpecBuild SpecFq SpecTrig ExactFacts PMat PShape PBuild PGeo1 PQuat PRound PRound2 PRound3 PIeee1 PIeee2 PIeee3 PIeee4 PIeee5 PIeee6 PIeee7 PPrismF PTrig.
Local Open Scope R_scope.

Section Trig2.
  Context (prec emax : Z) {Hp : Prec_gt_0 prec} {Hm : Prec_lt_emax prec emax} (lm : libm (binary_float prec emax)).
  Notation bf := (binary_float prec emax).
  Notation F := (@Ieee prec emax Hp Hm lm).
  Notation w3 v := (v3 (v : mat3x1 bf)).
  Notation u := (uro prec).
  Notation et := (eta prec emax).
  Notation val := (@B2R prec emax).
  Notation fin x := (@is_finite prec emax x = true).
  Notation fmt := (SpecFloat.fexp prec emax).
  Notation rnd := (round radix2 fmt ZnearestE).

  Lemma fv_one : fin (@n1 F) /\ val (@n1 F) = 1.
  Proof. exact (@fv_lit_1 prec emax Hp Hm). Qed.
  Lemma rnd_1 : rnd 1 = 1.
  Proof. destruct fv_one as [_ V]. rewrite <- V. apply rnd_B2R. Qed.
  (** the other leg of a right triangle with hypotenuse 1 *)
  Definition leg (w : F) : F := nsqrt F (nsub F n1 (nmul F w w)).
  Lemma leg_ieee (w : F) : (9 < prec)%Z -> fin w -> Rabs (val w) <= 1 ->
    exists x, 0 <= x /\ Rabs (x - (1 - val w * val w)) <= 102 / 100 * u /\ fin (leg w) /\ 0 <= val (leg w) <= 1 /\ Rabs (val (leg w) - sqrt x) <= u * sqrt x + et.
  Proof.
    intros P Fw Bw. pose proof (u_small prec P) as U. pose proof (u_pos prec) as U0. pose proof (et_pos prec emax) as T0. pose proof (et_small prec emax P) as T.
    assert (HE : (10 < emax)%Z) by (unfold Prec_lt_emax in Hm; lia). destruct fv_one as [F1 V1].
    assert (W : 0 <= val w * val w <= 1) by (apply Rabs_le_inv in Bw; nra).
    assert (Bw0 : bnd prec emax 0 w) by (split; [exact Fw | simpl; lra]).
    destruct (mult_bnd prec emax 0 0 w w ltac:(lia) ltac:(lia) Bw0 Bw0) as [[Fm Vm] _]. set (m := Bmult mode_NE (w : bf) w) in *.
    assert (M0 : 0 <= val m <= 1) by (rewrite Vm; split; [apply (rnd_nonneg prec emax); lra | rewrite <- rnd_1; apply (rnd_le prec emax); lra]).
    assert (Em : Rabs (val m - val w * val w) <= u * (val w * val w) + et).
    { destruct (rnd_err prec emax (val w * val w)) as (e & h & He & Hh & E). rewrite Vm, E. replace (val w * val w * (1 + e) + h - val w * val w) with (e * (val w * val w) + h) by ring.
      eapply Rle_trans; [apply Rabs_triang |]. rewrite Rabs_mult, (Rabs_pos_eq (val w * val w)) by lra. assert (Rabs e * (val w * val w) <= u * (val w * val w)) by (apply Rmult_le_compat_r; lra). lra. }
    destruct (minus_round prec emax (@n1 F) m F1 Fm) as [D _]. rewrite V1 in D. destruct (minus_rel prec emax (@n1 F) m) as (e & He & Ee). rewrite V1 in Ee.
    assert (X0 : 0 <= rnd (1 - val m) <= 1) by (split; [apply (rnd_nonneg prec emax); lra | rewrite <- rnd_1 at 2; apply (rnd_le prec emax); lra]).
    assert (BB : 2 <= bpow radix2 emax) by (change 2 with (bpow radix2 1); apply bpow_le; lia).
    destruct D as [Fx Vx]; [rewrite Rabs_pos_eq by lra; lra |]. set (x := Bminus mode_NE (@n1 F) m) in *.
    exists (val x). rewrite <- Vx in X0. split; [lra |]. split.
    - rewrite Vx, Ee. apply Rabs_le_inv in Em, He.
      replace ((1 - val m) * (1 + e) - (1 - val w * val w)) with ((val w * val w - val m) + (1 - val m) * e) by ring.
      assert (Q : (1 - val m) * Rabs e <= (1 - val w * val w + u + et) * u) by (assert (Rabs e <= u) by (apply Rabs_le; lra); pose proof (Rabs_pos e); apply Rmult_le_compat; try lra; nra).
      eapply Rle_trans; [apply Rabs_triang |]. rewrite (Rabs_mult (1 - val m)), (Rabs_pos_eq (1 - val m)) by lra.
      assert (Rabs (val w * val w - val m) <= u * (val w * val w) + et) by (apply Rabs_le; lra). assert (u * u <= u * / 1024) by (apply Rmult_le_compat_l; lra). assert (et * u <= et * / 1024) by (apply Rmult_le_compat_l; lra). lra.
    - destruct (sqrt_ok prec emax x Fx ltac:(lra)) as [Fk Vk]. change (leg w) with (Bsqrt mode_NE x). split; [exact Fk |]. rewrite Vk.
      pose proof (sqrt_pos (val x)) as S0. assert (S1 : sqrt (val x) <= 1) by (rewrite <- sqrt_1; apply sqrt_le_1; lra). split.
      + split; [apply (rnd_nonneg prec emax); lra | rewrite <- rnd_1; apply (rnd_le prec emax); lra].
      + destruct (rnd_err prec emax (sqrt (val x))) as (e3 & h & He3 & Hh & E3). rewrite E3. replace (sqrt (val x) * (1 + e3) + h - sqrt (val x)) with (e3 * sqrt (val x) + h) by ring.
        eapply Rle_trans; [apply Rabs_triang |]. rewrite Rabs_mult, (Rabs_pos_eq (sqrt (val x))) by lra. assert (Rabs e3 * sqrt (val x) <= u * sqrt (val x)) by (apply Rmult_le_compat_r; lra). lra.
  Qed.
  Lemma lit_micro : (20 <= prec)%Z -> (48 <= emax)%Z -> fin (nlit F 1 1000000) /\ 0 < val (nlit F 1 1000000) <= 11 / 10 / 1000000.
  Proof.
    intros P HE.
    assert (Q : (2 ^ 20 <= 2 ^ prec)%Z) by (apply Z.pow_le_mono_r; lia). assert (Q1 : (2 ^ prec <= 2 ^ emax)%Z) by (apply Z.pow_le_mono_r; [lia |]; apply Z.lt_le_incl; exact Hm).
    change (2 ^ 20)%Z with 1048576%Z in Q.
    destruct (lit_ok prec emax 1 1000000) as [Fl Vl]; [left; lia | apply (f_int_fmt prec emax 1 1 0); lia | apply (f_int_fmt prec emax 1000000 1000000 0); lia |].
    change (nlit F 1 1000000) with (@f_lit prec emax Hp Hm 1 1000000). split; [exact Fl |]. rewrite Vl.
    destruct (rnd_rel prec emax (1 / 1000000)) as (e & He & Ee).
    - rewrite Rabs_pos_eq by lra. apply Rle_trans with (bpow radix2 (-20)); [apply bpow_le; lia | change (bpow radix2 (-20)) with (/ 1048576); lra].
    - change (IZR 1 / IZR (Zpos 1000000)) with (1 / 1000000). rewrite Ee. pose proof (u_small prec ltac:(lia)). apply Rabs_le_inv in He. lra.
  Qed.
  Lemma div_near (v k : F) : (48 <= emax)%Z -> (20 <= prec)%Z -> fin v -> Rabs (val v) <= 2 -> 18 / 10 / 1000000 <= val k <= 1 ->
    fin (ndiv F v k) /\ Rabs (val (ndiv F v k) - val v / val k) <= u * Rabs (val v / val k) + et /\ Rabs (val (ndiv F v k)) <= bpow radix2 21.
  Proof.
    intros HE P Fv Bv Bk. assert (B : Rabs (rnd (val v / val k)) <= bpow radix2 21).
    { apply (rnd_bpow prec emax); [lia |]. unfold Rdiv. rewrite Rabs_mult, Rabs_inv, (Rabs_pos_eq (val k)) by lra. change (bpow radix2 21) with 2097152.
      pose proof (Rabs_pos (val v)). apply Rmult_le_reg_r with (val k); [lra |]. rewrite Rmult_assoc, Rinv_l, Rmult_1_r by lra. lra. }
    destruct (div_round prec emax v k Fv ltac:(lra)) as [D _]. destruct D as [Fd Vd]; [eapply Rle_lt_trans; [exact B | apply bpow_lt; lia] |].
    change (ndiv F v k) with (Bdiv mode_NE (v : bf) k). split; [exact Fd |]. rewrite Vd. split; [| exact B].
    destruct (rnd_err prec emax (val v / val k)) as (e & h & He & Hh & E). rewrite E. set (t := val v / val k). replace (t * (1 + e) + h - t) with (e * t + h) by ring.
    eapply Rle_trans; [apply Rabs_triang |]. rewrite Rabs_mult. pose proof (Rabs_pos t). assert (Rabs e * Rabs t <= u * Rabs t) by (apply Rmult_le_compat_r; assumption). lra.
  Qed.
  Definition over (q : quat F) (k : F) : mat3x1 F := M3x1 (A3 (ndiv F (qx q) k) (ndiv F (qy q) k) (ndiv F (qz q) k)).
  Lemma axis_any (q : quat F) : nlt (leg (qw q)) (nlit F 1 1000000) = false -> magnitude_nonzero (over q (leg (qw q))) = true ->
    quat_to_axis_angle q = Ok (nrm (over q (leg (qw q))), nmul F n2 (nacos F (qw q))).
  Proof.
    intros E M. unfold quat_to_axis_angle. fold (leg (qw q)). rewrite E. unfold magnitude_nonzero, mat3x1_magnitude, over in M. unfold npowi2 in M. cbv zeta. rewrite M. reflexivity.
  Qed.
  Lemma over_ieee (q : quat F) (k : F) : (48 <= emax)%Z -> (20 <= prec)%Z -> qfin (q : quat bf) -> norm (hv (qval (q : quat bf))) <= 2 -> 18 / 10 / 1000000 <= val k <= 1 ->
    bpow radix2 (10 - emax) <= vdot (hv (qval (q : quat bf))) (hv (qval (q : quat bf))) ->
    good_normal (over q k : mat3x1 bf) /\ dist (PShape.unit (w3 (over q k))) (PShape.unit (hv (qval (q : quat bf)))) <= 21 / 10 * u.
  Proof.
    intros HE P (Fx & Fy & Fz & _) NV Bk HS. set (v := hv (qval (q : quat bf))) in *. assert (P9 : (9 < prec)%Z) by lia.
    pose proof (u_small prec P9) as U. pose proof (u_pos prec) as U0. pose proof (et_pos prec emax) as T0.
    pose proof (abs_comp_norm v) as CN.
    assert (Cx : Rabs (val (qx q)) <= 2) by (apply Rle_trans with (norm v); [exact (proj1 CN) | exact NV]). assert (Cy : Rabs (val (qy q)) <= 2) by (apply Rle_trans with (norm v); [exact (proj1 (proj2 CN)) | exact NV]). assert (Cz : Rabs (val (qz q)) <= 2) by (apply Rle_trans with (norm v); [exact (proj2 (proj2 CN)) | exact NV]).
    destruct (div_near (qx q) k HE P Fx Cx Bk) as (F1 & E1 & B1). destruct (div_near (qy q) k HE P Fy Cy Bk) as (F2 & E2 & B2). destruct (div_near (qz q) k HE P Fz Cz Bk) as (F3 & E3 & B3).
    set (t := vscale (/ val k) v).
    assert (D : dist (w3 (over q k)) t <= u * norm t + 2 * et).
    { pose proof (norm_comb (vsub (w3 (over q k)) t) t vzero u 0 et ltac:(lra) ltac:(lra) ltac:(lra)) as NC. rewrite norm_vzero in NC. unfold dist.
      eapply Rle_trans; [apply NC |]. 4: lra.
      - unfold over, t, v, v3, vsub, vscale, vzero, SpecFq.qval; cbn [hv vx vy vz]. rewrite Rabs_R0, (Rmult_comm (/ val k)). rewrite Rmult_0_l, Rplus_0_r. exact E1.
      - unfold over, t, v, v3, vsub, vscale, vzero, SpecFq.qval; cbn [hv vx vy vz]. rewrite Rabs_R0, (Rmult_comm (/ val k)). rewrite Rmult_0_l, Rplus_0_r. exact E2.
      - unfold over, t, v, v3, vsub, vscale, vzero, SpecFq.qval; cbn [hv vx vy vz]. rewrite Rabs_R0, (Rmult_comm (/ val k)). rewrite Rmult_0_l, Rplus_0_r. exact E3. }
    assert (VP : 0 < norm v).
    { pose proof (norm_pos v). pose proof (norm_sq v). pose proof (bpow_gt_0 radix2 (10 - emax)). nra. }
    assert (IK : 1 <= / val k) by (rewrite <- Rinv_1 at 1; apply Rinv_le; lra).
    assert (NT : norm t = / val k * norm v) by (unfold t; rewrite norm_scale_abs, Rabs_pos_eq by lra; reflexivity).
    assert (NV1 : norm v <= norm t) by (rewrite NT; nra).
    assert (EV : et <= u * / 1000 * norm v).
    { rewrite et_u. rewrite (Rmult_assoc u). apply Rmult_le_compat_l; [lra |]. apply Rsqr_incr_0_var; [| apply Rmult_le_pos; lra]. unfold Rsqr.
      replace (/ 1000 * norm v * (/ 1000 * norm v)) with (/ 1000000 * (norm v * norm v)) by field. rewrite norm_sq.
      apply Rle_trans with (/ 1000000 * bpow radix2 (10 - emax)); [| apply Rmult_le_compat_l; lra]. rewrite <- bpow_plus.
      apply Rle_trans with (bpow radix2 (-20) * bpow radix2 (10 - emax)); [rewrite <- bpow_plus; apply bpow_le; lia |]. apply Rmult_le_compat_r; [apply bpow_ge_0 |]. change (bpow radix2 (-20)) with (/ 1048576). lra. }
    assert (D' : dist (w3 (over q k)) t <= 1003 / 1000 * u * norm t) by (assert (u * norm v <= u * norm t) by (apply Rmult_le_compat_l; lra); lra).
    pose proof (norm_close (w3 (over q k)) t) as NC. assert (UT : u * norm t <= / 1024 * norm t) by (apply Rmult_le_compat_r; lra).
    assert (NO : norm v / 2 <= norm (w3 (over q k))).
    { assert (dist t (w3 (over q k)) = dist (w3 (over q k)) t) as DS by apply dist_sym. pose proof (norm_close t (w3 (over q k))). lra. }
    assert (G : good_normal (over q k : mat3x1 bf)).
    { split; [split; [repeat split; assumption |] |].
      - assert (L : bpow radix2 21 <= bpow radix2 (emax / 2 - 3)) by (apply bpow_le; assert (24 <= emax / 2)%Z by (apply Z.div_le_lower_bound; lia); lia). unfold over. cbv zeta. repeat split; lra.
      - rewrite <- norm_sq. apply Rle_trans with (norm v / 2 * (norm v / 2)); [| nra]. replace (norm v / 2 * (norm v / 2)) with (/ 4 * (norm v * norm v)) by field. rewrite norm_sq.
        apply Rle_trans with (/ 4 * bpow radix2 (10 - emax)); [| apply Rmult_le_compat_l; lra]. change (/ 4) with (bpow radix2 (-2)). rewrite <- bpow_plus. apply bpow_le. lia. }
    split; [exact G |].
    assert (VT : PShape.unit t = PShape.unit v).
    { unfold PShape.unit. rewrite NT. unfold t. apply V3_eq; cbn [vscale vx vy vz]; field; lra. }
    rewrite <- VT. assert (NZ : forall a, 0 < norm a -> a <> vzero) by (intros a Ha ->; rewrite norm_vzero in Ha; lra).
    eapply Rle_trans; [apply unit_close; apply NZ; lra |]. apply Rle_trans with (2 * (1003 / 1000 * u * norm t / norm t)).
    - apply Rmult_le_compat_l; [lra |]. apply Rmult_le_compat_r; [left; apply Rinv_0_lt_compat; lra | exact D'].
    - replace (1003 / 1000 * u * norm t / norm t) with (1003 / 1000 * u) by (field; lra). lra.
  Qed.
  Lemma to_axis_ieee (q : quat F) (d : R) : (20 <= prec)%Z -> (48 <= emax)%Z -> qfin (q : quat bf) -> let Q := qval (q : quat bf) in
    Rabs (hs Q) <= 1 -> 4 / 1000000000000 + 3 * u <= 1 - hs Q * hs Q -> norm (hv Q) <= 2 -> bpow radix2 (10 - emax) <= vdot (hv Q) (hv Q) -> acos_acc lm d -> d <= 1 ->
    exists a t, quat_to_axis_angle q = Ok (a, t) /\ fin3 (a : mat3x1 bf) /\ dist (w3 a) (s_unit (hv Q)) <= 11 * u /\ within t (2 * acos (hs Q)) (2 * d).
  Proof.
    intros P HE Fq Q Bw Gap NV HS AC Hd. assert (P9 : (9 < prec)%Z) by lia. pose proof (u_small prec P9) as U. pose proof (u_pos prec) as U0. pose proof (et_pos prec emax) as T0.
    pose proof Fq as (_ & _ & _ & Fw). change (hs Q) with (val (qw q)) in *. destruct (leg_ieee (qw q) P9 Fw Bw) as (x & X0 & Ex & Fk & Bk & Ek).
    assert (ET : et <= / 1000000000).
    { rewrite et_u. apply Rle_trans with (/ 1024 * bpow radix2 (-20)); [| change (bpow radix2 (-20)) with (/ 1048576); lra]. apply Rmult_le_compat; [lra | apply bpow_ge_0 | lra | apply bpow_le; lia]. }
    assert (SX : 2 / 1000000 <= sqrt x).
    { apply Rsqr_incr_0_var; [| apply sqrt_pos]. rewrite Rsqr_sqrt by exact X0. unfold Rsqr. apply Rabs_le_inv in Ex. lra. }
    assert (UX : u * sqrt x <= / 1024 * sqrt x) by (apply Rmult_le_compat_r; lra). apply Rabs_le_inv in Ek.
    destruct (lit_micro P HE) as [Fl Bl].
    assert (NL : nlt (leg (qw q)) (nlit F 1 1000000) = false).
    { destruct (nlt (leg (qw q)) (nlit F 1 1000000)) eqn:E; [| reflexivity]. apply (nlt_val prec emax lm) in E; [lra | exact Fk | exact Fl]. }
    destruct (over_ieee q (leg (qw q)) HE P Fq NV ltac:(lra) HS) as [G DU].
    destruct (nrm_ieee prec emax lm _ P9 G) as (Bn & Dn & Nn). pose proof (axis_any q NL (mag_good prec emax lm _ P9 G)) as EQ. rewrite EQ.
    exists (nrm (over q (leg (qw q)))), (nmul F n2 (nacos F (qw q))). split; [reflexivity |]. split; [apply (bnd3_fin prec emax lm 1); exact Bn |]. split.
    - pose proof (dist_tri3 (w3 (nrm (over q (leg (qw q))))) (PShape.unit (w3 (over q (leg (qw q))))) (PShape.unit (hv Q))). change (s_unit (hv Q)) with (PShape.unit (hv Q)). fold Q in DU. lra.
    - destruct (AC (qw q) Fw ltac:(apply Rabs_le_inv; exact Bw)) as [Fa Ea]. destruct (@fv_lit_2 prec emax Hp Hm) as [F2 V2].
      destruct (mult_round prec emax (@n2 F) (lm_acos lm (qw q)) F2 Fa) as [M _]. change (@f_lit prec emax Hp Hm 2 1) with (@n2 F) in V2. rewrite V2, (rnd_double prec emax) in M.
      pose proof (acos_bound (val (qw q))) as AB. pose proof pi_close as PC. pose proof Ea as Ea'. apply Rabs_le_inv in Ea'.
      destruct M as [Fm Vm].
      + apply Rle_lt_trans with (bpow radix2 4); [change (bpow radix2 4) with 16; apply Rabs_le; lra | apply bpow_lt; lia].
      + split; [exact Fm |]. change (nmul F n2 (nacos F (qw q))) with (Bmult mode_NE (@n2 F) (lm_acos lm (qw q))). rewrite Vm. replace (2 * val (lm_acos lm (qw q)) - 2 * acos (val (qw q))) with (2 * (val (lm_acos lm (qw q)) - acos (val (qw q)))) by ring. rewrite Rabs_mult, (Rabs_pos_eq 2) by lra. lra.
  Qed.
  (** a scalar part of exactly 1 or -1 *)
  Lemma to_axis_one (q : quat F) : (20 <= prec)%Z -> (48 <= emax)%Z -> fin (qw q) -> val (qw q) * val (qw q) = 1 -> quat_to_axis_angle q = Ok (M3x1 (A3 n1 n0 n0), n0).
  Proof.
    intros P HE Fw E1. unfold quat_to_axis_angle. fold (leg (qw q)). destruct (lit_micro P HE) as [Fl Bl]. destruct fv_one as [F1 V1].
    assert (B : Rabs (val (qw q)) <= 1) by (apply Rabs_le; nra). assert (Bw0 : bnd prec emax 0 (qw q)) by (split; [exact Fw | exact B]).
    destruct (mult_bnd prec emax 0 0 (qw q) (qw q) ltac:(lia) ltac:(lia) Bw0 Bw0) as [[Fm Vm] _]. rewrite E1, rnd_1 in Vm.
    destruct (minus_round prec emax (@n1 F) _ F1 Fm) as [D _]. rewrite V1, Vm, Rminus_diag_eq, rnd_0, Rabs_R0 in D by reflexivity. destruct (D (bpow_gt_0 _ _)) as [Fx Vx].
    destruct (sqrt_ok prec emax _ Fx ltac:(rewrite Vx; lra)) as [Fk Vk]. rewrite Vx, sqrt_0, rnd_0 in Vk.
    assert (NL : nlt (leg (qw q)) (nlit F 1 1000000) = true).
    { apply (nlt_val prec emax lm); [exact Fk | exact Fl |]. change (val (leg (qw q))) with (val (Bsqrt mode_NE (Bminus mode_NE (@n1 F) (Bmult mode_NE (qw q : bf) (qw q))))). rewrite Vk. lra. }
    rewrite NL. reflexivity.
  Qed.
  (** there and back *)
  Lemma turn_axis_lip a b t : hdist (turn a t) (turn b t) <= dist a b.
  Proof.
    eapply Rle_trans; [apply hdist_parts |]. unfold turn. cbn [hv hs]. rewrite Rminus_diag_eq, Rabs_R0, Rplus_0_r by reflexivity. unfold dist.
    replace (vsub (vscale (sin (t / 2)) a) (vscale (sin (t / 2)) b)) with (vscale (sin (t / 2)) (vsub a b)) by (destruct a, b; apply V3_eq; simpl; ring). rewrite norm_scale_abs.
    pose proof (SIN_bound (t / 2)). pose proof (norm_pos (vsub a b)). assert (Rabs (sin (t / 2)) <= 1) by (apply Rabs_le; lra). pose proof (Rabs_pos (sin (t / 2))). nra.
  Qed.
  Lemma turn_acos (Q : H4) : Rabs (hs Q) <= 1 -> 0 < 1 - hs Q * hs Q -> hv Q <> vzero ->
    hdist (turn (s_unit (hv Q)) (2 * acos (hs Q))) Q <= Rabs (1 - hdot Q Q) / sqrt (1 - hs Q * hs Q).
  Proof.
    intros Bw Gap NZ. pose proof (norm_nz _ NZ) as NP. apply Rabs_le_inv in Bw. set (S := sqrt (1 - hs Q * hs Q)). assert (SP : 0 < S) by (apply sqrt_lt_R0; exact Gap).
    eapply Rle_trans; [apply hdist_parts |]. unfold turn. cbn [hv hs]. replace (2 * acos (hs Q) / 2) with (acos (hs Q)) by field. rewrite cos_acos by lra. rewrite Rminus_diag_eq, Rabs_R0, Rplus_0_r by reflexivity.
    rewrite sin_acos by lra. replace (1 - Rsqr (hs Q)) with (1 - hs Q * hs Q) by reflexivity. fold S.
    assert (E : dist (vscale S (s_unit (hv Q))) (hv Q) = Rabs (S - norm (hv Q))).
    { unfold dist. replace (vsub (vscale S (s_unit (hv Q))) (hv Q)) with (vscale ((S - norm (hv Q)) / norm (hv Q)) (hv Q)) by (unfold s_unit; apply V3_eq; cbn [vsub vscale vx vy vz]; field; lra).
      rewrite norm_scale_abs. unfold Rdiv. rewrite Rabs_mult, Rabs_inv, (Rabs_pos_eq (norm (hv Q))) by lra. field. lra. }
    rewrite E. assert (SS : S * S = 1 - hs Q * hs Q) by (apply sqrt_sqrt; lra). unfold hdot. rewrite <- norm_sq.
    apply Rmult_le_reg_r with S; [exact SP |]. unfold Rdiv. rewrite Rmult_assoc, Rinv_l, Rmult_1_r by lra.
    replace (1 - (norm (hv Q) * norm (hv Q) + hs Q * hs Q)) with ((S - norm (hv Q)) * (S + norm (hv Q))) by (ring_simplify; rewrite <- (Rmult_1_r (S ^ 2)); replace (S ^ 2) with (S * S) by ring; lra).
    rewrite (Rabs_mult (S - norm (hv Q))). apply Rmult_le_compat_l; [apply Rabs_pos |]. rewrite Rabs_pos_eq by lra. lra.
  Qed.
  Lemma round_trip_ieee (q : quat F) (d B : R) : (20 <= prec)%Z -> (48 <= emax)%Z -> qfin (q : quat bf) -> let Q := qval (q : quat bf) in
    Rabs (hs Q) <= 1 -> 4 / 1000000000000 + 3 * u <= 1 - hs Q * hs Q -> norm (hv Q) <= 2 -> bpow radix2 (10 - emax) <= vdot (hv Q) (hv Q) -> acos_acc lm d -> sincos_acc lm B d -> 7 <= B -> d <= / 64 ->
    exists a t p, quat_to_axis_angle q = Ok (a, t) /\ quat_init_from_axis_angle_radian a t = Ok p /\ qfin (p : quat bf) /\
      hdist (qval (p : quat bf)) Q <= 5 * d + 33 * u + Rabs (1 - hdot Q Q) / sqrt (1 - hs Q * hs Q).
  Proof.
    intros P HE Fq Q Bw Gap NV HS AC SC HB Hd. assert (P9 : (9 < prec)%Z) by lia. pose proof (u_small prec P9) as U. pose proof (u_pos prec) as U0.
    destruct (to_axis_ieee q d P HE Fq Bw Gap NV HS AC ltac:(lra)) as (a & t & E & Fa & Da & Ft & Et). fold Q in Da, Et.
    assert (VP : 0 < norm (hv Q)) by (pose proof (norm_pos (hv Q)); pose proof (norm_sq (hv Q)); pose proof (bpow_gt_0 radix2 (10 - emax)); nra).
    assert (NZ : hv Q <> vzero) by (intro Z; rewrite Z, norm_vzero in VP; lra).
    assert (N1 : norm (s_unit (hv Q)) = 1) by (unfold s_unit; rewrite norm_scale_abs, Rabs_inv, (Rabs_pos_eq (norm (hv Q))) by lra; field; lra).
    assert (NA : 98 / 100 <= norm (w3 a) <= 102 / 100).
    { pose proof (norm_close (w3 a) (s_unit (hv Q))). pose proof (norm_close (s_unit (hv Q)) (w3 a)). rewrite dist_sym in H0. lra. }
    assert (G : good_normal (a : mat3x1 bf)).
    { split; [split; [exact Fa |] |].
      - assert (NA2 : norm (w3 a) <= 2) by lra. destruct (abs_comp_norm (w3 a)) as (C1' & C2' & C3'). pose proof (Rle_trans _ _ _ C1' NA2) as C1. pose proof (Rle_trans _ _ _ C2' NA2) as C2. pose proof (Rle_trans _ _ _ C3' NA2) as C3. assert (L : bpow radix2 1 <= bpow radix2 (emax / 2 - 3)) by (apply bpow_le; assert (24 <= emax / 2)%Z by (apply Z.div_le_lower_bound; lia); lia). change (bpow radix2 1) with 2 in L.
        destruct a as [[x y z]]. cbv zeta. repeat split; (eapply Rle_trans; [| exact L]); assumption.
      - rewrite <- norm_sq. apply Rle_trans with (bpow radix2 (-1)); [apply bpow_le; lia |]. change (bpow radix2 (-1)) with (/ 2). nra. }
    pose proof (acos_bound (hs Q)) as AB. pose proof pi_close as PC. pose proof Et as Et'. apply Rabs_le_inv in Et'.
    destruct (axis_angle_ieee prec emax lm a t B d P9 G Ft ltac:(apply Rabs_le; lra) SC Hd) as (p & Ep & Fp & Dp).
    exists a, t, p. split; [exact E |]. split; [exact Ep |]. split; [exact Fp |].
    assert (DU : dist (s_unit (w3 a)) (s_unit (hv Q)) <= 22 * u).
    { assert (UU : PShape.unit (s_unit (hv Q)) = s_unit (hv Q)) by (unfold PShape.unit; rewrite N1, Rinv_1; destruct (s_unit (hv Q)); apply V3_eq; simpl; ring).
      change (s_unit (w3 a)) with (PShape.unit (w3 a)). rewrite <- UU at 1. eapply Rle_trans; [apply unit_close; intro Z; [rewrite Z, norm_vzero in NA | rewrite Z, norm_vzero in N1]; lra |]. rewrite N1. lra. }
    pose proof (turn_axis_lip (s_unit (w3 a)) (s_unit (hv Q)) (val t)) as T1. pose proof (turn_lip (s_unit (hv Q)) (val t) (2 * acos (hs Q)) N1) as T2.
    pose proof (turn_acos Q Bw ltac:(lra) NZ) as T3.
    pose proof (hdist_triangle (qval (p : quat bf)) (turn (s_unit (w3 a)) (val t)) Q). pose proof (hdist_triangle (turn (s_unit (w3 a)) (val t)) (turn (s_unit (hv Q)) (val t)) Q). pose proof (hdist_triangle (turn (s_unit (hv Q)) (val t)) (turn (s_unit (hv Q)) (2 * acos (hs Q))) Q). lra.
  Qed.

  (** ---- a libm that rounds every result correctly ---- *)
  Definition rn (r : R) : bf := binary_normalize prec emax Hp Hm mode_NE (ZnearestE (scaled_mantissa radix2 fmt r)) (cexp radix2 fmt r) false.
  Lemma rn_ok r : Rabs r <= 4 -> (9 < prec)%Z -> within (rn r) r (u * Rabs r + et).
  Proof.
    intros B P. pose proof (binary_normalize_correct prec emax Hp Hm mode_NE (ZnearestE (scaled_mantissa radix2 fmt r)) (cexp radix2 fmt r) false) as Q. cbv zeta in Q. change (round_mode mode_NE) with ZnearestE in Q.
    change (F2R (Float radix2 (ZnearestE (scaled_mantissa radix2 fmt r)) (cexp radix2 fmt r))) with (rnd r) in Q.
    rewrite (round_generic radix2 fmt ZnearestE (rnd r)) in Q by (apply generic_format_round; [apply fexp_correct; exact Hp | apply valid_rnd_N]).
    assert (L : Rabs (rnd r) <= bpow radix2 2) by (apply (rnd_bpow prec emax); [unfold Prec_lt_emax in Hm; lia | exact B]).
    rewrite Rlt_bool_true in Q by (eapply Rle_lt_trans; [exact L | apply bpow_lt; unfold Prec_lt_emax in Hm; lia]). destruct Q as (V & Fi & _). split; [exact Fi |]. fold (rn r) in V. rewrite V.
    destruct (rnd_err prec emax r) as (e & h & He & Hh & E). rewrite E. replace (r * (1 + e) + h - r) with (e * r + h) by ring. eapply Rle_trans; [apply Rabs_triang |]. rewrite Rabs_mult. pose proof (Rabs_pos r). assert (Rabs e * Rabs r <= u * Rabs r) by (apply Rmult_le_compat_r; assumption). lra.
  Qed.
  Definition rounded_libm : libm bf := MkLibm bf (fun x => rn (sin (val x))) (fun x => rn (cos (val x))) (fun x => rn (acos (val x))) (fun x => rn (ln (val x))) (fun y x => rn (PI / 2 - atan (val x / val y))) (fun x y => rn (Rpower (val x) (val y))).
  Lemma rounded_sincos B : (9 < prec)%Z -> sincos_acc rounded_libm B (2 * u).
  Proof.
    intros P x Fx _. pose proof (u_pos prec) as U0. pose proof (et_small prec emax P) as T.
    assert (Q : forall r, Rabs r <= 1 -> within (rn r) r (2 * u)).
    { intros r Hr. destruct (rn_ok r ltac:(lra) P) as [G D]. split; [exact G |]. assert (u * Rabs r <= u * 1) by (apply Rmult_le_compat_l; lra). lra. }
    split; apply Q; apply Rabs_le; [apply SIN_bound | apply COS_bound].
  Qed.
  Lemma rounded_acos : (9 < prec)%Z -> acos_acc rounded_libm (4 * u).
  Proof.
    intros P x Fx Hx. pose proof (u_pos prec) as U0. pose proof (et_small prec emax P) as T. pose proof pi_close as PC. pose proof (acos_bound (val x)) as AB.
    assert (A : Rabs (acos (val x)) <= 32 / 10) by (apply Rabs_le; lra).
    destruct (rn_ok (acos (val x)) ltac:(lra) P) as [G D]. split; [exact G |]. assert (u * Rabs (acos (val x)) <= u * (32 / 10)) by (apply Rmult_le_compat_l; lra). eapply Rle_trans; [exact D |]. lra.
  Qed.
  Lemma rounded_atan2 : (9 < prec)%Z -> atan2_acc rounded_libm (4 * u).
  Proof.
    intros P y x Fy Fx Hy. pose proof (u_pos prec) as U0. pose proof (et_small prec emax P) as T. pose proof pi_close as PC. pose proof (atan_bound (val x / val y)) as AB.
    set (z := PI / 2 - atan (val x / val y)) in *. assert (A : Rabs z <= 32 / 10) by (unfold z; apply Rabs_le; lra).
    destruct (rn_ok z ltac:(lra) P) as [G D]. split; [exact G |]. assert (u * Rabs z <= u * (32 / 10)) by (apply Rmult_le_compat_l; lra). eapply Rle_trans; [exact D |]. lra.
  Qed.
End Trig2.
