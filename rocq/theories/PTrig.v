(** PTrig.v — functions that call the platform's libm, in IEEE arithmetic (C101-C103). *)
From Coq Require Import Reals List ZArith NArith Bool Lra Lia Psatz.
From Flocq Require Import Core BinarySingleNaN.
Import ListNotations.
From Verif Require Import Base Num Vec Mat Quat Float Exact FloatFacts FloatRound Order SpecMat SpecGeom SpecBound SpecQuat
  SpecRound SpecBuild SpecFq SpecTrig ExactFacts PMat PShape PBuild PGeo1 PQuat PRound PRound2 PRound3 PIeee1 PIeee2 PIeee3 PIeee4 PIeee5 PIeee6 PPrismF.
Local Open Scope R_scope.

(** ---- sine and cosine are 1-Lipschitz ---- *)
Lemma sin_abs x : Rabs (sin x) <= Rabs x.
Proof.
  assert (P : forall y, 0 < y -> Rabs (sin y) <= y).
  { intros y Hy. pose proof (SIN_bound y) as B. pose proof (sin_lt_x y Hy) as L. apply Rabs_le. split; [| lra].
    destruct (Rle_dec 1 y) as [G | G]; [lra |]. pose proof PI_RGT_0. assert (1 < PI) by (pose proof (PI_ineq 1) as Q; unfold sum_f_R0, tg_alt, PI_tg in Q; simpl in Q; lra).
    pose proof (sin_gt_0 y Hy ltac:(lra)). lra. }
  destruct (Rtotal_order x 0) as [L | [-> | G]].
  - rewrite <- (Rabs_Ropp x), <- (Rabs_Ropp (sin x)), <- sin_neg, (Rabs_pos_eq (- x)) by lra. apply P. lra.
  - rewrite sin_0. lra.
  - rewrite (Rabs_pos_eq x) by lra. apply P. exact G.
Qed.
Lemma abs_one_mul a b : Rabs a <= 1 -> Rabs (a * b) <= Rabs b.
Proof. intro A. rewrite Rabs_mult. pose proof (Rabs_pos b). nra. Qed.
Lemma sin_lip x y : Rabs (sin x - sin y) <= Rabs (x - y).
Proof.
  rewrite form4. replace (2 * cos ((x + y) / 2) * sin ((x - y) / 2)) with (cos ((x + y) / 2) * (2 * sin ((x - y) / 2))) by ring.
  eapply Rle_trans; [apply abs_one_mul; apply Rabs_le; pose proof (COS_bound ((x + y) / 2)); lra |].
  rewrite Rabs_mult, (Rabs_pos_eq 2) by lra. pose proof (sin_abs ((x - y) / 2)) as S. unfold Rdiv in S at 2. rewrite Rabs_mult, (Rabs_pos_eq (/ 2)) in S by lra. lra.
Qed.
Lemma cos_lip x y : Rabs (cos x - cos y) <= Rabs (x - y).
Proof.
  rewrite form2. replace (-2 * sin ((x - y) / 2) * sin ((x + y) / 2)) with (sin ((x + y) / 2) * (- 2 * sin ((x - y) / 2))) by ring.
  eapply Rle_trans; [apply abs_one_mul; apply Rabs_le; pose proof (SIN_bound ((x + y) / 2)); lra |].
  rewrite Rabs_mult, (Rabs_left (-2)) by lra. pose proof (sin_abs ((x - y) / 2)) as S. unfold Rdiv in S at 2. rewrite Rabs_mult, (Rabs_pos_eq (/ 2)) in S by lra. lra.
Qed.
Lemma hdist_parts p q : hdist p q <= dist (hv p) (hv q) + Rabs (hs p - hs q).
Proof.
  unfold hdist, hlen, dist. apply Rsqr_incr_0_var; [| pose proof (norm_pos (vsub (hv p) (hv q))); pose proof (Rabs_pos (hs p - hs q)); lra].
  rewrite Rsqr_sqrt by apply hdot_pos. unfold hdot, hsub. cbn [hv hs]. rewrite <- norm_sq. unfold Rsqr. pose proof (norm_pos (vsub (hv p) (hv q))). pose proof (Rabs_pos (hs p - hs q)).
  rewrite <- (sqr_abs (hs p - hs q)), Rabs_mult. nra.
Qed.
Lemma turn_len k t : norm k = 1 -> hlen (turn k t) = 1.
Proof.
  intro K. unfold hlen, turn, hdot. cbn [hv hs]. replace (vdot (vscale (sin (t / 2)) k) (vscale (sin (t / 2)) k)) with (sin (t / 2) * sin (t / 2) * vdot k k) by (destruct k; unfold vdot; simpl; ring).
  rewrite <- norm_sq, K. pose proof (sin2_cos2 (t / 2)) as S. unfold Rsqr in S. replace (_ + _) with 1 by lra. apply sqrt_1.
Qed.
Lemma turn_lip k s t : norm k = 1 -> hdist (turn k s) (turn k t) <= Rabs (s - t).
Proof.
  intro K. eapply Rle_trans; [apply hdist_parts |]. unfold turn, dist. cbn [hv hs].
  replace (vsub (vscale (sin (s / 2)) k) (vscale (sin (t / 2)) k)) with (vscale (sin (s / 2) - sin (t / 2)) k) by (destruct k; apply V3_eq; simpl; ring).
  rewrite norm_scale_abs, K. pose proof (sin_lip (s / 2) (t / 2)) as S. pose proof (cos_lip (s / 2) (t / 2)) as C.
  replace (s / 2 - t / 2) with ((s - t) * / 2) in S, C by field. rewrite Rabs_mult, (Rabs_pos_eq (/ 2)) in S, C by lra. lra.
Qed.
(** rotations by nearby quaternions *)
Lemma hrot_lip p q v : dist (hrot p v) (hrot q v) <= (hlen p + hlen q) * hdist p q * norm v.
Proof.
  unfold hrot. eapply Rle_trans; [apply vpart |].
  eapply Rle_trans; [apply (hdist_triangle _ (hmul (hmul q (H v 0)) (hconj p))) |].
  unfold hdist at 1. rewrite !hmul_sub_l, !hlen_mul, hlen_conj, norm_hlen.
  unfold hdist at 1. replace (hsub (hmul (hmul q (H v 0)) (hconj p)) (hmul (hmul q (H v 0)) (hconj q))) with (hmul (hmul q (H v 0)) (hconj (hsub p q))) by hring.
  rewrite !hlen_mul, hlen_conj, norm_hlen. fold (hdist p q). lra.
Qed.
Lemma haxis_turn k t v : norm k = 1 -> hrot (turn k t) v = rodrigues k t v.
Proof. intro K. change (turn k t) with (haxis k t). apply haxis_rot. rewrite <- norm_sq, K. ring. Qed.

(** pi to 17 digits, by Machin's formula *)
Lemma pi_close : 884279719003555 / 281474976710656 - / 8000000000000000 <= PI <= 884279719003555 / 281474976710656 + / 8000000000000000.
Proof.
  pose proof (PI_2_3_7_ineq 10) as P. cbn [sum_f_R0 Nat.mul Nat.add] in P. unfold tg_alt, PI_2_3_7_tg, Ratan_seq in P.
  repeat (rewrite !INR_IZR_INZ in P). cbn [pow Z.of_nat Pos.of_succ_nat Pos.succ Nat.mul Nat.add] in P.
  lra.
Qed.

Section Trig.
  Context (prec emax : Z) {Hp : Prec_gt_0 prec} {Hm : Prec_lt_emax prec emax} (lm : libm (binary_float prec emax)).
  Notation bf := (binary_float prec emax).
  Notation F := (@Ieee prec emax Hp Hm lm).
  Notation w3 v := (v3 (v : mat3x1 bf)).
  Notation u := (uro prec).
  Notation et := (eta prec emax).
  Notation val := (@B2R prec emax).
  Notation fin x := (@is_finite prec emax x = true).
  Notation fmt := (SpecFloat.fexp prec emax).
  Notation rnd := (round radix2 fmt ZnearestE).

  (** ---- C101: axis and angle to quaternion ---- *)
  Lemma half_ok (r : F) : fin r -> fin (ndiv F r n2) /\ Rabs (val (ndiv F r n2) - val r / 2) <= et /\ Rabs (val (ndiv F r n2)) <= Rabs (val r).
  Proof.
    intro Fr. destruct (@fv_lit_2 prec emax Hp Hm) as [F2 V2]. change (@f_lit prec emax Hp Hm 2 1) with (@n2 F) in *.
    assert (A : Rabs (rnd (val r / 2)) <= Rabs (val r)).
    { destruct (Rle_dec 0 (val r)) as [L | L].
      - rewrite (Rabs_pos_eq (val r)) by exact L. rewrite Rabs_pos_eq by (apply (rnd_nonneg prec emax); lra). rewrite <- (rnd_B2R prec emax r) at 2. apply (rnd_le prec emax). lra.
      - apply Rnot_le_lt in L. rewrite (Rabs_left (val r)) by exact L. rewrite <- Rabs_Ropp, <- rnd_opp, Rabs_pos_eq by (apply (rnd_nonneg prec emax); lra). rewrite <- (rnd_B2R prec emax r) at 2. rewrite <- rnd_opp. apply (rnd_le prec emax). lra. }
    destruct (div_round prec emax r (@n2 F) Fr ltac:(rewrite V2; lra)) as [D _]. rewrite V2 in D.
    destruct D as [Fd Vd]; [eapply Rle_lt_trans; [exact A | apply B2R_lt_emax] |].
    change (ndiv F r n2) with (Bdiv mode_NE (r : bf) (@n2 F)). split; [exact Fd |]. rewrite Vd. split; [| exact A].
    destruct (Rle_dec (bpow radix2 (3 - emax)) (Rabs (val r))) as [G | G].
    - rewrite (round_generic radix2 fmt ZnearestE (val r / 2)); [rewrite Rminus_diag_eq, Rabs_R0 by reflexivity; left; apply et_pos |].
      pose proof (generic_format_B2R prec emax r) as GF. apply generic_format_FLT. apply FLT_format_generic in GF; [| exact Hp]. destruct GF as [[m e] G1 G2 G3]. cbn in G1, G2, G3.
      exists (Float radix2 m (e - 1)); cbn.
      + unfold F2R in G1 |- *. cbn [Fnum Fexp] in G1 |- *. rewrite G1. replace (bpow radix2 (e - 1)) with (bpow radix2 e * / 2) by (unfold Zminus; rewrite bpow_plus; reflexivity). field.
      + exact G2.
      + unfold SpecFloat.emin. assert (X : (3 - emax < prec + e)%Z); [| lia]. apply (lt_bpow radix2). eapply Rle_lt_trans; [exact G |]. rewrite G1. rewrite <- F2R_Zabs. cbn. unfold F2R. cbn. rewrite bpow_plus. apply Rmult_lt_compat_r; [apply bpow_gt_0 |].
        rewrite <- IZR_Zpower by (unfold Prec_gt_0 in Hp; lia). apply IZR_lt. exact G2.
    - apply Rnot_le_lt in G. pose proof (error_le_half_ulp radix2 fmt (fun z => negb (Z.even z)) (val r / 2)) as HU. eapply Rle_trans; [exact HU |].
      rewrite <- half_emin. apply Rmult_le_compat_l; [lra |]. right. apply (ulp_FLT_small radix2 (3 - emax - prec) prec).
      unfold Rdiv. rewrite Rabs_mult, (Rabs_pos_eq (/ 2)) by lra. replace (3 - emax - prec + prec)%Z with (3 - emax + 0)%Z by ring. rewrite Z.add_0_r. pose proof (Rabs_pos (val r)). lra.
  Qed.
  Lemma axis_angle_any (axis : mat3x1 F) (r : F) : quat_init_from_axis_angle_radian axis r =
    Ok (match nrm axis with M3x1 (A3 x y z) => let s := nsin F (ndiv F r n2) in Q (nmul F x s) (nmul F y s) (nmul F z s) (ncos F (ndiv F r n2)) end).
  Proof. unfold quat_init_from_axis_angle_radian. rewrite normalize_nrm. cbn [bind unwrap]. destruct (nrm axis) as [[x y z]]. reflexivity. Qed.
  (** a vector times a number *)
  Lemma scale_ieee (v : mat3x1 F) (s : F) (D : V3) (S d : R) : (9 < prec)%Z -> bnd3 prec emax lm 1 v -> dist (w3 v) D <= 8 * u -> norm D = 1 -> fin s -> Rabs (val s - S) <= d -> Rabs S <= 1 -> d <= / 32 ->
    let r := match v with M3x1 (A3 x y z) => M3x1 (A3 (nmul F x s) (nmul F y s) (nmul F z s)) end in
    fin3 (r : mat3x1 bf) /\ dist (w3 r) (vscale S D) <= 95 / 10 * u + 102 / 100 * d.
  Proof.
    intros P B Dv ND Fs Es BS Hd. pose proof (u_small prec P) as U. pose proof (u_pos prec) as U0. pose proof (et_pos prec emax) as T0. pose proof (et_small prec emax P) as T.
    assert (HE : (10 < emax)%Z) by (unfold Prec_lt_emax in Hm; lia).
    assert (d0 : 0 <= d) by (pose proof (Rabs_pos (val s - S)); lra).
    assert (As : Rabs (val s) <= 1 + d) by (replace (val s) with (S + (val s - S)) by ring; eapply Rle_trans; [apply Rabs_triang | lra]).
    assert (Bs : bnd prec emax 1 s) by (split; [exact Fs | change (bpow radix2 1) with 2; lra]).
    destruct v as [[x y z]]. destruct B as (Bx & By & Bz). intro r.
    destruct (mult_bnd prec emax 1 1 x s ltac:(lia) ltac:(lia) Bx Bs) as [[Fx Vx] _].
    destruct (mult_bnd prec emax 1 1 y s ltac:(lia) ltac:(lia) By Bs) as [[Fy Vy] _].
    destruct (mult_bnd prec emax 1 1 z s ltac:(lia) ltac:(lia) Bz Bs) as [[Fz Vz] _].
    split; [split; [exact Fx | split; [exact Fy | exact Fz]] |].
    set (v := w3 (M3x1 (A3 x y z))) in *.
    assert (NV : norm v <= 1 + 8 * u) by (pose proof (norm_close v D); lra).
    assert (D1 : dist (w3 r) (vscale (val s) v) <= u * ((1 + d) * (1 + 8 * u)) + 2 * et).
    { apply Rle_trans with (u * norm (vscale (val s) v) + 2 * et).
      - assert (C : forall a : bf, Rabs (rnd (val a * val s) - val s * val a) <= u * Rabs (val s * val a) + 0 * Rabs 0 + et).
        { intro a. destruct (rnd_err prec emax (val a * val s)) as (e & h & He & Hh & ->). replace (val a * val s * (1 + e) + h - val s * val a) with (e * (val s * val a) + h) by ring.
          eapply Rle_trans; [apply Rabs_triang |]. rewrite (Rabs_mult e). pose proof (Rabs_pos (val s * val a)). assert (Rabs e * Rabs (val s * val a) <= u * Rabs (val s * val a)) by (apply Rmult_le_compat_r; assumption). lra. }
        pose proof (norm_comb (vsub (w3 r) (vscale (val s) v)) (vscale (val s) v) vzero u 0 et ltac:(lra) ltac:(lra) ltac:(lra)) as NC.
        rewrite norm_vzero in NC. unfold dist. eapply Rle_trans; [apply NC; unfold r, v, v3, vsub, vscale, vzero; cbn [vx vy vz]; [change (nmul F x s) with (Bmult mode_NE (x : bf) s); rewrite Vx | change (nmul F y s) with (Bmult mode_NE (y : bf) s); rewrite Vy | change (nmul F z s) with (Bmult mode_NE (z : bf) s); rewrite Vz]; apply C | lra].
      - apply Rplus_le_compat_r. apply Rmult_le_compat_l; [lra |]. rewrite norm_scale_abs. apply Rmult_le_compat; [apply Rabs_pos | apply norm_pos | exact As | exact NV]. }
    assert (D2 : dist (vscale (val s) v) (vscale S v) <= d * (1 + 8 * u)).
    { unfold dist. replace (vsub (vscale (val s) v) (vscale S v)) with (vscale (val s - S) v) by (destruct v; apply V3_eq; simpl; ring). rewrite norm_scale_abs. apply Rmult_le_compat; [apply Rabs_pos | apply norm_pos | exact Es | exact NV]. }
    assert (D3 : dist (vscale S v) (vscale S D) <= 8 * u).
    { unfold dist. replace (vsub (vscale S v) (vscale S D)) with (vscale S (vsub v D)) by (destruct v, D; apply V3_eq; simpl; ring). rewrite norm_scale_abs. fold (dist v D). pose proof (norm_pos (vsub v D)) as DP. fold (dist v D) in DP. pose proof (Rabs_pos S). nra. }
    pose proof (dist_tri3 (w3 r) (vscale (val s) v) (vscale S D)). pose proof (dist_tri3 (vscale (val s) v) (vscale S v) (vscale S D)).
    assert (u * ((1 + d) * (1 + 8 * u)) <= u * (11 / 10)) by (apply Rmult_le_compat_l; [lra | nra]). assert (d * (1 + 8 * u) <= d * (102 / 100)) by (apply Rmult_le_compat_l; lra). lra.
  Qed.
  Lemma axis_angle_ieee (axis : mat3x1 F) (r : F) (B d : R) : (9 < prec)%Z -> good_normal (axis : mat3x1 bf) -> fin r -> Rabs (val r) <= B -> sincos_acc lm B d -> d <= / 64 ->
    exists q, quat_init_from_axis_angle_radian axis r = Ok q /\ qfin (q : quat bf) /\ hdist (qval (q : quat bf)) (turn (s_unit (w3 axis)) (val r)) <= 3 * d + 10 * u.
  Proof.
    intros P G Fr Br A Hd. pose proof (u_small prec P) as U. pose proof (u_pos prec) as U0. pose proof (et_pos prec emax) as T0. pose proof (et_small prec emax P) as T.
    destruct (half_ok r Fr) as (Fh & Eh & Bh). destruct (nrm_ieee prec emax lm axis P G) as (Bn & Dn & Nn).
    destruct (A (ndiv F r n2) Fh ltac:(lra)) as [[Fs Es] [Fc Ec]].
    assert (Es' : Rabs (val (lm_sin lm (ndiv F r n2)) - sin (val r / 2)) <= d + et) by (pose proof (sin_lip (val (ndiv F r n2)) (val r / 2)); replace (val (lm_sin lm (ndiv F r n2)) - sin (val r / 2)) with ((val (lm_sin lm (ndiv F r n2)) - sin (val (ndiv F r n2))) + (sin (val (ndiv F r n2)) - sin (val r / 2))) by ring; eapply Rle_trans; [apply Rabs_triang | lra]).
    assert (Ec' : Rabs (val (lm_cos lm (ndiv F r n2)) - cos (val r / 2)) <= d + et) by (pose proof (cos_lip (val (ndiv F r n2)) (val r / 2)); replace (val (lm_cos lm (ndiv F r n2)) - cos (val r / 2)) with ((val (lm_cos lm (ndiv F r n2)) - cos (val (ndiv F r n2))) + (cos (val (ndiv F r n2)) - cos (val r / 2))) by ring; eapply Rle_trans; [apply Rabs_triang | lra]).
    destruct (scale_ieee (nrm axis) (lm_sin lm (ndiv F r n2)) (PShape.unit (w3 axis)) (sin (val r / 2)) (d + et) P Bn Dn Nn Fs Es' ltac:(apply Rabs_le; pose proof (SIN_bound (val r / 2)); lra) ltac:(lra)) as [Fv Dv].
    rewrite axis_angle_any. eexists. split; [reflexivity |]. destruct (nrm axis) as [[x y z]]. cbv zeta in Fv, Dv |- *. destruct Fv as (F1 & F2 & F3). split; [split; [exact F1 | split; [exact F2 | split; [exact F3 | exact Fc]]] |].
    eapply Rle_trans; [apply hdist_parts |]. unfold turn, SpecFq.qval. cbn [hv hs qx qy qz qw]. change (s_unit (w3 axis)) with (PShape.unit (w3 axis)).
    assert (Dv' : dist (V (val (nmul F x (lm_sin lm (ndiv F r n2)))) (val (nmul F y (lm_sin lm (ndiv F r n2)))) (val (nmul F z (lm_sin lm (ndiv F r n2))))) (vscale (sin (val r / 2)) (PShape.unit (w3 axis))) <= 95 / 10 * u + 102 / 100 * (d + et)) by exact Dv.
    assert (d0 : 0 <= d) by (pose proof (Rabs_pos (val (lm_sin lm (ndiv F r n2)) - sin (val (ndiv F r n2)))); lra).
    change (nsin F (ndiv F r n2)) with (lm_sin lm (ndiv F r n2)). change (ncos F (ndiv F r n2)) with (lm_cos lm (ndiv F r n2)). lra.
  Qed.
  (** the rotation of a vector *)
  Lemma axis_rotate_ieee (axis p : mat3x1 F) (r : F) (B d : R) : (9 < prec)%Z -> good_normal (axis : mat3x1 bf) -> fin r -> Rabs (val r) <= B -> sincos_acc lm B d -> d <= / 64 ->
    fin3 (p : mat3x1 bf) -> norm (w3 p) <= bpow radix2 (emax - 8) ->
    exists q, quat_init_from_axis_angle_radian axis r = Ok q /\ fin3 (quat_rotate_vector q p : mat3x1 bf) /\
      dist (w3 (quat_rotate_vector q p)) (rodrigues (s_unit (w3 axis)) (val r) (w3 p)) <= (7 * d + 43 * u) * norm (w3 p) + 28 * et.
  Proof.
    intros P G Fr Br A Hd Fp Np. destruct (axis_angle_ieee axis r B d P G Fr Br A Hd) as (q & E & Fq & Dq). exists q. split; [exact E |].
    pose proof (u_small prec P) as U. pose proof (u_pos prec) as U0. destruct (nrm_ieee prec emax lm axis P G) as (_ & _ & Nn). change (PShape.unit (w3 axis)) with (s_unit (w3 axis)) in Nn.
    set (Q := turn (s_unit (w3 axis)) (val r)) in *. assert (LQ : hlen Q = 1) by (apply turn_len; exact Nn). pose proof (hlen_near (qval (q : quat bf)) Q) as LN. rewrite LQ in LN.
    assert (DP : 0 <= hdist (qval (q : quat bf)) Q) by apply hlen_pos.
    destruct (rotate_ieee prec emax lm q p P Fq Fp ltac:(lra) Np) as [Fr' Dr]. split; [exact Fr' |].
    rewrite <- (haxis_turn _ _ _ Nn). fold Q. pose proof (hrot_lip (qval (q : quat bf)) Q (w3 p)) as HL. rewrite LQ in HL.
    pose proof (dist_tri3 (w3 (quat_rotate_vector q p)) (hrot (qval (q : quat bf)) (w3 p)) (hrot Q (w3 p))) as TR. pose proof (norm_pos (w3 p)) as N0. pose proof (hlen_pos (qval (q : quat bf))) as L0.
    rewrite <- hlen_sq in Dr. set (l := hlen (qval (q : quat bf))) in *. assert (L1 : l <= 106 / 100) by lra.
    assert (19 * u * (l * l * norm (w3 p)) <= 215 / 10 * u * norm (w3 p)).
    { replace (19 * u * (l * l * norm (w3 p))) with (u * norm (w3 p) * (19 * (l * l))) by ring. replace (215 / 10 * u * norm (w3 p)) with (u * norm (w3 p) * (215 / 10)) by ring. apply Rmult_le_compat_l; [apply Rmult_le_pos; lra | nra]. }
    assert ((l + 1) * hdist (qval (q : quat bf)) Q * norm (w3 p) <= (206 / 100 * (3 * d + 10 * u)) * norm (w3 p)).
    { apply Rmult_le_compat_r; [exact N0 |]. apply Rmult_le_compat; lra. }
    assert (d0 : 0 <= d) by (destruct (A r Fr Br) as [[_ X] _]; pose proof (Rabs_pos (val (lm_sin lm r) - sin (val r))); lra).
    assert (0 <= d * norm (w3 p)) by (apply Rmult_le_pos; lra). assert (0 <= u * norm (w3 p)) by (apply Rmult_le_pos; lra). lra.
  Qed.
  Lemma pi_ieee : (9 < prec)%Z -> fin (npi F) /\ Rabs (val (npi F) - PI) <= 4 * u + / 8000000000000000 /\ Rabs (val (npi F)) <= 4.
  Proof.
    intro P. pose proof (u_small prec P) as U. pose proof (u_pos prec) as U0. pose proof pi_close as PC. set (p0 := 884279719003555 / 281474976710656) in *.
    assert (HE : (10 < emax)%Z) by (unfold Prec_lt_emax in Hm; lia).
    assert (E : F2R (Float radix2 884279719003555 (-48)) = p0) by (unfold F2R, p0; cbn [Fnum Fexp]; replace (bpow radix2 (-48)) with (/ 281474976710656) by (unfold bpow; f_equal; f_equal; reflexivity); reflexivity).
    assert (PV : 3 <= p0 <= 32 / 10) by (unfold p0; lra).
    destruct (rnd_rel prec emax p0) as (e & He & Ee); [rewrite Rabs_pos_eq by lra; apply Rle_trans with (bpow radix2 0); [apply bpow_le; lia | simpl; lra] |].
    pose proof (binary_normalize_correct prec emax Hp Hm mode_NE 884279719003555 (-48) false) as Q. cbv zeta in Q. change (round_mode mode_NE) with ZnearestE in Q. change (SpecFloat.fexp prec emax) with fmt in Q. rewrite E, Ee in Q.
    apply Rabs_le_inv in He. assert (B : -(32/10 * u) <= p0 * e <= 32/10*u) by nra.
    rewrite Rlt_bool_true in Q.
    - destruct Q as (V & Fi & _). change (npi F) with (binary_normalize prec emax Hp Hm mode_NE 884279719003555 (-48) false). split; [exact Fi |]. rewrite V. split; apply Rabs_le; lra.
    - apply Rle_lt_trans with (bpow radix2 2); [change (bpow radix2 2) with 4; apply Rabs_le; lra | apply bpow_lt; lia].
  Qed.
  Lemma radians_ieee (a : F) : (9 < prec)%Z -> fin a -> Rabs (val a) <= bpow radix2 (emax - 2) ->
    let r := nmul F (ndiv F a (nlit F 180 1)) (npi F) in
    fin r /\ Rabs (val r - val a * PI / 180) <= Rabs (val a) * (u / 8 + bpow radix2 (-60)) + 6 * et.
  Proof.
    intros P Fa Ba r. pose proof (u_small prec P) as U. pose proof (u_pos prec) as U0. pose proof (et_pos prec emax) as T0. pose proof (et_small prec emax P) as T. pose proof pi_close as PC.
    assert (HE : (10 < emax)%Z) by (unfold Prec_lt_emax in Hm; lia). destruct (pi_ieee P) as (Fp & Ep & Bp). destruct (lit_z prec emax lm P 180 ltac:(lia)) as [F180 V180].
    destruct (div_round prec emax a (nlit F 180 1) Fa ltac:(rewrite V180; lra)) as [D _]. rewrite V180 in D.
    destruct (rnd_err prec emax (val a / 180)) as (e & h & He & Hh & E1).
    assert (A0 : 0 <= Rabs (val a)) by apply Rabs_pos. apply Rabs_le_inv in He, Hh.
    assert (B1 : Rabs (rnd (val a / 180)) <= Rabs (val a) / 179 + et).
    { rewrite E1. eapply Rle_trans; [apply Rabs_triang |]. assert (Rabs h <= et) by (apply Rabs_le; lra). unfold Rdiv at 1. rewrite !Rabs_mult, (Rabs_pos_eq (/ 180)) by lra.
      assert (Rabs (1 + e) <= 1 + / 1024) by (apply Rabs_le; lra). pose proof (Rabs_pos (1 + e)). assert (Rabs (val a) * / 180 * Rabs (1 + e) <= Rabs (val a) * / 180 * (1 + / 1024)) by (apply Rmult_le_compat_l; [apply Rmult_le_pos; lra | assumption]). lra. }
    assert (BB : 2 <= bpow radix2 (emax - 2)) by (change 2 with (bpow radix2 1); apply bpow_le; lia).
    assert (BE : bpow radix2 emax = 4 * bpow radix2 (emax - 2)) by (replace emax with (emax - 2 + 2)%Z at 1 by ring; rewrite bpow_plus; change (bpow radix2 2) with 4; ring).
    destruct D as [F1 V1]; [lra |]. set (t := ndiv F a (nlit F 180 1)) in *. change (Bdiv mode_NE (a : bf) (nlit F 180 1)) with t in F1, V1.
    destruct (mult_round prec emax t (npi F) F1 Fp) as [M _]. destruct (rnd_err prec emax (val t * val (npi F))) as (e2 & h2 & He2 & Hh2 & E2).
    apply Rabs_le_inv in He2, Hh2.
    assert (B2 : Rabs (val t * val (npi F)) <= Rabs (val a) / 44 + 4 * et) by (rewrite Rabs_mult; rewrite V1; pose proof (Rabs_pos (rnd (val a / 180))); pose proof (Rabs_pos (val (npi F))); nra).
    destruct M as [F2 V2].
    { rewrite E2. eapply Rle_lt_trans; [apply Rabs_triang |]. rewrite Rabs_mult. assert (Rabs (1 + e2) <= 1 + / 1024) by (apply Rabs_le; lra). assert (Rabs h2 <= et) by (apply Rabs_le; lra). pose proof (Rabs_pos (val t * val (npi F))). pose proof (Rabs_pos (1 + e2)).
      assert (Rabs (val t * val (npi F)) * Rabs (1 + e2) <= (Rabs (val a) / 44 + 4 * et) * (1 + / 1024)) by (apply Rmult_le_compat; assumption). lra. }
    split; [exact F2 |]. change (val r) with (val (Bmult mode_NE (t : bf) (npi F))). rewrite V2, E2.
    set (p := val (npi F)) in *. replace (val t * p * (1 + e2) + h2 - val a * PI / 180) with ((val t * p * e2 + h2) + (val t - val a / 180) * p + val a / 180 * (p - PI)) by field.
    assert (Q1 : Rabs (val t * p * e2 + h2) <= (Rabs (val a) / 44 + 4 * et) * u + et).
    { eapply Rle_trans; [apply Rabs_triang |]. apply Rplus_le_compat; [| apply Rabs_le; lra]. rewrite Rabs_mult. apply Rmult_le_compat; [apply Rabs_pos | apply Rabs_pos | exact B2 | apply Rabs_le; lra]. }
    assert (Q2 : Rabs ((val t - val a / 180) * p) <= (Rabs (val a) / 180 * u + et) * 4).
    { rewrite Rabs_mult. apply Rmult_le_compat; [apply Rabs_pos | apply Rabs_pos | | exact Bp]. rewrite V1, E1. replace (val a / 180 * (1 + e) + h - val a / 180) with (val a / 180 * e + h) by ring.
      eapply Rle_trans; [apply Rabs_triang |]. apply Rplus_le_compat; [| apply Rabs_le; lra]. rewrite Rabs_mult. apply Rmult_le_compat; [apply Rabs_pos | apply Rabs_pos | unfold Rdiv; rewrite Rabs_mult, (Rabs_pos_eq (/ 180)) by lra; lra | apply Rabs_le; lra]. }
    assert (Q3 : Rabs (val a / 180 * (p - PI)) <= Rabs (val a) / 180 * (4 * u + / 8000000000000000)).
    { rewrite Rabs_mult. apply Rmult_le_compat; [apply Rabs_pos | apply Rabs_pos | unfold Rdiv; rewrite Rabs_mult, (Rabs_pos_eq (/ 180)) by lra; lra | exact Ep]. }
    eapply Rle_trans; [apply Rabs_triang |]. eapply Rle_trans; [apply Rplus_le_compat; [apply Rabs_triang | apply Rle_refl] |].
    replace (bpow radix2 (-60)) with (/ 1152921504606846976) by (unfold bpow; f_equal; f_equal; reflexivity).
    assert (0 <= Rabs (val a) * u) by (apply Rmult_le_pos; lra). assert (et * u <= et * / 1024) by (apply Rmult_le_compat_l; lra). lra.
  Qed.
  Lemma axis_degree_ieee (axis : mat3x1 F) (a : F) (B d : R) : (9 < prec)%Z -> good_normal (axis : mat3x1 bf) -> fin a -> Rabs (val a) <= B -> 1 <= B <= bpow radix2 (emax - 2) -> sincos_acc lm B d -> d <= / 64 ->
    exists q, quat_init_from_axis_angle_degree axis a = Ok q /\ qfin (q : quat bf) /\
      hdist (qval (q : quat bf)) (turn (s_unit (w3 axis)) (val a * PI / 180)) <= 3 * d + 11 * u + Rabs (val a) * (u / 8 + bpow radix2 (-60)).
  Proof.
    intros P G Fa Ba HB A Hd. destruct (radians_ieee a P Fa ltac:(lra)) as [Fr Er]. pose proof (u_small prec P) as U. pose proof (u_pos prec) as U0. pose proof (et_pos prec emax) as T0. pose proof (et_small prec emax P) as T. pose proof pi_close as PC.
    set (r := nmul F (ndiv F a (nlit F 180 1)) (npi F)) in *. assert (S60 : 0 < bpow radix2 (-60) <= / 1024) by (split; [apply bpow_gt_0 | change (/ 1024) with (bpow radix2 (-10)); apply bpow_le; lia]).
    assert (A0 : 0 <= Rabs (val a)) by apply Rabs_pos.
    assert (Br : Rabs (val r) <= B).
    { replace (val r) with ((val r - val a * PI / 180) + val a * PI / 180) by ring. eapply Rle_trans; [apply Rabs_triang |].
      assert (Rabs (val a * PI / 180) <= Rabs (val a) * / 50) by (unfold Rdiv; rewrite !Rabs_mult, (Rabs_pos_eq PI), (Rabs_pos_eq (/ 180)) by lra; nra).
      assert (Rabs (val a) * (u / 8 + bpow radix2 (-60)) <= Rabs (val a) * (/ 4)) by (apply Rmult_le_compat_l; lra). lra. }
    destruct (axis_angle_ieee axis r B d P G Fr Br A Hd) as (q & E & Fq & Dq). exists q. split; [exact E |]. split; [exact Fq |].
    destruct (nrm_ieee prec emax lm axis P G) as (_ & _ & Nn). change (PShape.unit (w3 axis)) with (s_unit (w3 axis)) in Nn.
    pose proof (turn_lip (s_unit (w3 axis)) (val r) (val a * PI / 180) Nn) as TL. pose proof (hdist_triangle (qval (q : quat bf)) (turn (s_unit (w3 axis)) (val r)) (turn (s_unit (w3 axis)) (val a * PI / 180))). lra.
  Qed.
End Trig.
