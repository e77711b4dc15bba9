(** PPowL.v — the laws of powers of quaternions in IEEE arithmetic (C130). *)
From Coq Require Import Reals List ZArith Bool Lra Lia Psatz.
From Flocq Require Import Core BinarySingleNaN.
Import ListNotations.
From Verif Require Import Base Num Vec Mat Quat Float FloatFacts SpecGeom SpecQuat SpecRound SpecBuild SpecFq SpecTrig SpecPow SpecPowL PGeo1 PRound PQuat PQuat2 PIeee2 PIeee3 PIeee4 PIeee6 PRun PPow0 PPow2.
Local Open Scope R_scope.

Lemma rpower_box l t : Rabs t * Rabs (ln l) <= / 2 -> 0 < Rpower l t <= 1733 / 1000.
Proof.
  intro B. unfold Rpower. split; [apply exp_pos |]. rewrite <- Rabs_mult in B. apply Rabs_le_inv in B. pose proof (exp_pos (/ 2)) as P. assert (E : exp (/ 2) * exp (/ 2) <= 3) by (rewrite <- exp_plus; replace (/ 2 + / 2) with 1 by lra; apply exp_le_3).
  apply Rle_trans with (exp (/ 2)); [| apply Rnot_lt_le; intro; nra]. destruct (Rle_lt_or_eq_dec _ _ (proj2 B)) as [L | L]; [left; apply exp_increasing; exact L | rewrite L; lra].
Qed.
Lemma hpower_0 q : hv q <> vzero -> hpower q 0 = hone.
Proof. intro Hv. unfold hpower. cbv zeta. rewrite Rmult_0_l, sin_0, cos_0, Rmult_0_r. unfold Rpower. rewrite Rmult_0_l, exp_0. unfold hone, vzero, vscale. f_equal; [f_equal |]; ring. Qed.

Section PowL.
  Context (prec emax : Z) {Hp : Prec_gt_0 prec} {Hm : Prec_lt_emax prec emax} (lm : libm (binary_float prec emax)).
  Notation bf := (binary_float prec emax).
  Notation F := (@Ieee prec emax Hp Hm lm).
  Notation u := (uro prec).
  Notation val := (@B2R prec emax).
  Notation hq q := (qval (q : quat bf)).
  Lemma pow_one (q : quat F) (t : F) (d B : R) : (9 < prec)%Z -> qfin (q : quat bf) -> is_finite (t : bf) = true -> pow_base u emax (hq q) -> pow_range u d B (hq q) (val t) ->
    acos_acc lm d -> sincos_acc lm B d -> powf_acc lm d -> d <= / 64 ->
    exists r, quat_pow q t = Ok r /\ qfin (r : quat bf) /\ hdist (hq r) (hpower (hq q) (val t)) <= pow_err u d (hq q) (val t) /\ 0 <= pow_err u d (hq q) (val t) <= 2512 / 10000 /\
      0 < hlen (hpower (hq q) (val t)) <= 1733 / 1000 /\ hlen (hq r) <= 1985 / 1000 /\ hv (hq q) <> vzero.
  Proof.
    intros P Fq Ft (HL & HV & HN) (T1 & T2 & T3) Aa As Ap Hd. pose proof (u_pos prec) as U0. pose proof (u_small prec P) as U1.
    destruct (pow_ieee_wide prec emax lm q t d B P Fq Ft HL HV HN T1 T2 Aa As Ap T3 Hd) as (r & E & Fr & D). exists r. split; [exact E |]. split; [exact Fr |]. split; [exact D |].
    assert (NV : hv (hq q) <> vzero). { intro Z. rewrite Z in HV. unfold vdot, vzero in HV. cbn [vx vy vz] in HV. pose proof (bpow_gt_0 radix2 (6 - emax)). lra. }
    assert (d0 : 0 <= d). { destruct (PIeee2.fv_n0 prec emax lm) as [F0 V0]. destruct (Aa _ F0 ltac:(rewrite V0; lra)) as [_ Q]. eapply Rle_trans; [apply Rabs_pos | exact Q]. }
    set (v := u / (norm (hv (hq q)) / hlen (hq q))) in *. unfold pow_err. fold v. set (T := Rabs (val t)) in *. assert (T0 : 0 <= T) by apply Rabs_pos. assert (v0 : 0 <= v) by (unfold v; apply Rmult_le_pos; [lra | left; apply Rinv_0_lt_compat; lra]).
    assert (0 <= T * d) by (apply Rmult_le_pos; assumption). assert (0 <= T * v) by (apply Rmult_le_pos; assumption).
    assert (EB : 0 <= 6 * d + 21 * u + T * (4 * d + 140 * v) <= 2512 / 10000) by (split; lra). split; [exact EB |].
    destruct (hpower_law (hq q) NV) as (_ & _ & HLn). specialize (HLn (val t)). pose proof (rpower_box _ _ T1) as RB. rewrite HLn. split; [exact RB |]. split; [| exact NV].
    fold v T in D. pose proof (hlen_near (hq r) (hpower (hq q) (val t))) as K. rewrite HLn in K. lra.
  Qed.
  Theorem pow_laws (q : quat F) (s t w : F) (d B : R) : (9 < prec)%Z -> qfin (q : quat bf) -> is_finite (s : bf) = true -> is_finite (t : bf) = true -> is_finite (w : bf) = true -> val w = val s + val t ->
    pow_base u emax (hq q) -> pow_range u d B (hq q) (val s) -> pow_range u d B (hq q) (val t) -> pow_range u d B (hq q) (val w) -> acos_acc lm d -> sincos_acc lm B d -> powf_acc lm d -> d <= / 64 ->
    let e := pow_err u d (hq q) in
    exists ps pt pw, quat_pow q s = Ok ps /\ quat_pow q t = Ok pt /\ quat_pow q w = Ok pw /\ qfin (quat_mul ps pt : quat bf) /\
      hdist (hq (quat_mul ps pt)) (hpower (hq q) (val s + val t)) <= 2 * (e (val s) + e (val t)) + 36 * u /\
      hdist (hq (quat_mul ps pt)) (hq pw) <= 2 * (e (val s) + e (val t)) + e (val w) + 36 * u /\
      hdist (hq (quat_mul ps pt)) (hq (quat_mul pt ps)) <= 4 * (e (val s) + e (val t)) + 72 * u /\
      (val s + val t = 1 -> hdist (hq (quat_mul ps pt)) (hq q) <= 2 * (e (val s) + e (val t)) + 36 * u) /\
      (val s + val t = 0 -> hdist (hq (quat_mul ps pt)) hone <= 2 * (e (val s) + e (val t)) + 36 * u).
  Proof.
    intros P Fq Fs Ft Fw Ev HB Rs Rt Rw Aa As Ap Hd e. pose proof (u_pos prec) as U0. pose proof (u_small prec P) as U1. pose proof (et_small prec emax P) as ET. assert (HE : (prec < emax)%Z) by exact Hm.
    destruct (pow_one q s d B P Fq Fs HB Rs Aa As Ap Hd) as (ps & E1 & F1 & D1 & B1 & L1 & M1 & NV). destruct (pow_one q t d B P Fq Ft HB Rt Aa As Ap Hd) as (pt & E2 & F2 & D2 & B2 & L2 & M2 & _). destruct (pow_one q w d B P Fq Fw HB Rw Aa As Ap Hd) as (pw & E3 & F3 & D3 & B3 & _).
    fold e in D1, B1, D2, B2, D3, B3. destruct (hpower_law (hq q) NV) as (H1 & HS & _).
    assert (Gen : forall (x y : quat F) X Y ex ey, qfin (x : quat bf) -> qfin (y : quat bf) -> hlen (hq x) <= 1985 / 1000 -> hlen (hq y) <= 1985 / 1000 -> hdist (hq x) X <= ex -> hdist (hq y) Y <= ey -> 0 <= ex -> 0 <= ey -> hlen X <= 1733 / 1000 ->
      qfin (quat_mul x y : quat bf) /\ hdist (hq (quat_mul x y)) (hmul X Y) <= 2 * (ex + ey) + 36 * u).
    { intros x y X Y ex ey Fx Fy Lx Ly Dx Dy X0 Y0 LX. destruct (qmul_ieee prec emax lm 1 1 x y P ltac:(lia) ltac:(lia) Fx Fy) as [Fm Dm]; [change (bpow radix2 1) with 2; lra | change (bpow radix2 1) with 2; lra |]. split; [exact Fm |].
      eapply Rle_trans; [apply (hdist_triangle _ (hmul (hq x) (hq y))) |]. pose proof (hlen_pos (hq x)) as P1. pose proof (hlen_pos (hq y)) as P2. pose proof (hlen_pos X) as P3.
      assert (hlen (hq x) * hlen (hq y) <= 1985 / 1000 * (1985 / 1000)) by (apply Rmult_le_compat; assumption). assert (9 * u * (hlen (hq x) * hlen (hq y)) <= 9 * u * (1985 / 1000 * (1985 / 1000))) by (apply Rmult_le_compat_l; lra).
      pose proof (hdist_triangle (hmul (hq x) (hq y)) (hmul X (hq y)) (hmul X Y)) as Tr. rewrite hdist_mul_r, hdist_mul_l in Tr.
      assert (hlen (hq y) * hdist (hq x) X <= 2 * ex) by (apply Rmult_le_compat; [assumption | unfold hdist; apply hlen_pos | lra | assumption]). assert (hlen X * hdist (hq y) Y <= 2 * ey) by (apply Rmult_le_compat; [assumption | unfold hdist; apply hlen_pos | lra | assumption]). lra. }
    destruct (Gen ps pt _ _ _ _ F1 F2 M1 M2 D1 D2 (proj1 B1) (proj1 B2) (proj2 L1)) as [FM DM]. destruct (Gen pt ps _ _ _ _ F2 F1 M2 M1 D2 D1 (proj1 B2) (proj1 B1) (proj2 L2)) as [_ DN]. rewrite <- HS in DM, DN.
    exists ps, pt, pw. do 3 (split; [assumption |]). split; [exact FM |]. split; [exact DM |]. split; [| split; [| split]].
    - pose proof (hdist_triangle (hq (quat_mul ps pt)) (hpower (hq q) (val s + val t)) (hq pw)) as Tr. rewrite (hdist_sym (hpower _ _)) in Tr. rewrite Ev in D3. rewrite Ev. lra.
    - pose proof (hdist_triangle (hq (quat_mul ps pt)) (hpower (hq q) (val s + val t)) (hq (quat_mul pt ps))) as Tr. rewrite (hdist_sym (hpower _ _)) in Tr. rewrite (Rplus_comm (val t)) in DN. lra.
    - intro S1. rewrite S1, H1 in DM. exact DM.
    - intro S0. rewrite S0, hpower_0 in DM by exact NV. exact DM.
  Qed.
End PowL.
