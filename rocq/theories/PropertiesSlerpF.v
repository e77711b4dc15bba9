(** PropertiesSlerpF.v — C129: length, speed and reversal of the spherical interpolation in IEEE arithmetic. *)
From Coq Require Import Reals List ZArith NArith Bool Lra Lia.
From Flocq Require Import Core BinarySingleNaN.
Import ListNotations.
From Verif Require Import Base Num Vec Mat Quat Float FloatFacts SpecGeom SpecQuat SpecRound SpecBuild SpecFq SpecTrig SpecRun PRound PIeee2 PIeee6 PTrig2 PTrig3 PTrig4 PSlerpF PropertiesTrig.
Local Open Scope R_scope.

Section Frames.
Context (prec emax : Z) {Hp : Prec_gt_0 prec} {Hm : Prec_lt_emax prec emax} (lm : libm (binary_float prec emax)).
Notation bf := (binary_float prec emax).
Notation F := (@Ieee prec emax Hp Hm lm).
Notation u := (uro prec).
Notation val := (@B2R prec emax).
Notation hq q := (qval (q : quat bf)).
(** Two quaternions of length 1 up to 9 roundoffs, at an angle W between about 0.02 and a right angle; any two frames s, t of the animation between
    them. With D and K as below (of the order of the errors of sin, cos and atan2 over sin W, and of the roundoff over sin^2 W):
    playing the animation backwards shows the same frames; the cosine between frames s and t is cos ((t - s) W), so the speed is constant;
    and every frame has length 1. *)
Theorem C129_frames (a b : quat F) (s t t' : F) (d B : R) : (24 <= prec)%Z -> (48 <= emax)%Z -> near (a : quat bf) -> near (b : quat bf) ->
  is_finite (s : bf) = true -> is_finite (t : bf) = true -> is_finite (t' : bf) = true -> val t' = 1 - val t -> 6 * u <= hdot (hq a) (hq b) <= 9998 / 10000 -> sincos_acc lm B d -> atan2_acc lm d -> 2 <= B -> d <= / 1000 ->
  let W := acos (hdot (hq a) (hq b)) in let D := 5 * d / sin W + 110 * u / (sin W * sin W) in let K := 37 * u / (sin W * sin W) in
  let p := quat_interpolate_slerp a b s in let q := quat_interpolate_slerp a b t in let r := quat_interpolate_slerp b a t' in
  qfin (p : quat bf) /\ qfin (q : quat bf) /\ qfin (r : quat bf) /\ hdist (hq q) (hq r) <= 2 * D /\
  Rabs (hdot (hq p) (hq q) - cos ((clamp01 (val t) - clamp01 (val s)) * W)) <= K + 2 * D * (1 + K) + D * D /\ Rabs (hdot (hq q) (hq q) - 1) <= K + 2 * D * (1 + K) + D * D.
Proof. exact (slerp_frames prec emax lm a b s t t' d B). Qed.
End Frames.
Print Assumptions C129_frames.

(** ---- from a third of a turn to none, with a correctly rounded libm ---- *)
Section Case.
  Context (prec emax : Z) {Hp : Prec_gt_0 prec} {Hm : Prec_lt_emax prec emax}.
  Hypotheses (P24 : (24 <= prec)%Z) (E64 : (64 <= emax)%Z).
  Notation bf := (binary_float prec emax).
  Notation lm := (rounded_libm prec emax).
  Notation F := (@Ieee prec emax Hp Hm lm).
  Notation h := (nlit F 1 2).
  Example C129_case : let a := Q h h h h in let b := Q n0 n0 n0 n1 : quat F in let q := quat_interpolate_slerp a b h in
    hdist (qval (q : quat bf)) (qval (quat_interpolate_slerp b a h : quat bf)) <= 342 * uro prec /\ Rabs (hdot (qval (q : quat bf)) (qval (q : quat bf)) - 1) <= 400 * uro prec /\
    Rabs (hdot (qval (quat_interpolate_slerp a b n0 : quat bf)) (qval (q : quat bf)) - cos (/ 2 * acos (/ 2))) <= 400 * uro prec.
  Proof.
    intros a b q. destruct (case_half prec emax P24) as [Fh Vh]. destruct (case_libm prec emax P24) as (SC & _ & AT & D). pose proof (u24 prec P24) as U. pose proof (PRound.u_pos prec) as U0. destruct (PIeee2.fv_n0 prec emax lm) as [F0 V0]. destruct (fv_one prec emax lm) as [F1 V1].
    assert (EA : qval (a : quat bf) = H (V (/ 2) (/ 2) (/ 2)) (/ 2)) by (unfold a, qval; cbn [qx qy qz qw]; rewrite Vh; reflexivity).
    assert (EB : qval (b : quat bf) = H (V 0 0 0) 1) by (unfold b, qval; cbn [qx qy qz qw]; rewrite V0, V1; reflexivity).
    assert (HA : hlen (H (V (/ 2) (/ 2) (/ 2)) (/ 2)) = 1) by (unfold hlen, hdot, vdot; simpl; replace (/ 2 * / 2 + / 2 * / 2 + / 2 * / 2 + / 2 * / 2) with 1 by field; apply sqrt_1).
    assert (HB : hlen (H (V 0 0 0) 1) = 1) by (unfold hlen, hdot, vdot; simpl; replace (0 * 0 + 0 * 0 + 0 * 0 + 1 * 1) with 1 by ring; apply sqrt_1).
    assert (HD : hdot (H (V (/ 2) (/ 2) (/ 2)) (/ 2)) (H (V 0 0 0) 1) = / 2) by (unfold hdot, vdot; simpl; field).
    assert (NA : near (a : quat bf)) by (split; [unfold a; repeat split; exact Fh | rewrite EA, HA, Rminus_diag_eq, Rabs_R0 by reflexivity; lra]).
    assert (NB : near (b : quat bf)) by (split; [unfold b; repeat split; assumption | rewrite EB, HB, Rminus_diag_eq, Rabs_R0 by reflexivity; lra]).
    pose proof (C129_frames prec emax lm a b n0 h h (4 * uro prec) 1000 P24 ltac:(lia) NA NB F0 Fh Fh ltac:(rewrite Vh; lra)) as S. cbv zeta in S. rewrite EA, EB, HD, Vh, V0 in S. destruct (S ltac:(lra) SC AT ltac:(lra) D) as (_ & _ & _ & B1 & B2 & B3). clear S.
    assert (CL : clamp01 (/ 2) = / 2) by (unfold clamp01; rewrite Rmin_right, Rmax_right; lra). assert (CZ : clamp01 0 = 0) by (unfold clamp01; rewrite Rmin_right, Rmax_right; lra). rewrite CL, CZ, Rminus_0_r in B2.
    assert (SS : sin (acos (/ 2)) * sin (acos (/ 2)) = 3 / 4) by (rewrite sin_acos by lra; rewrite sqrt_sqrt; unfold Rsqr; lra).
    assert (S0 : 86 / 100 <= sin (acos (/ 2))) by (assert (0 <= sin (acos (/ 2))) by (rewrite sin_acos by lra; apply sqrt_pos); nra).
    rewrite SS in B1, B2, B3. set (X := 5 * (4 * uro prec) / sin (acos (/ 2)) + 110 * uro prec / (3 / 4)) in *.
    assert (I : / sin (acos (/ 2)) <= 100 / 86) by (apply Rle_trans with (/ (86 / 100)); [apply Rinv_le; lra | lra]). assert (I0 : 0 < / sin (acos (/ 2))) by (apply Rinv_0_lt_compat; lra).
    assert (XB : 0 <= X <= 171 * uro prec). { unfold X. unfold Rdiv at 1 3. assert (0 <= 5 * (4 * uro prec) * / sin (acos (/ 2)) <= 5 * (4 * uro prec) * (100 / 86)) by (split; [apply Rmult_le_pos; lra | apply Rmult_le_compat_l; lra]). lra. }
    assert (T : 37 * uro prec / (3 / 4) + 2 * X * (1 + 37 * uro prec / (3 / 4)) + X * X <= 400 * uro prec) by nra.
    fold q in B1, B2, B3. split; [lra |]. split; lra.
  Qed.
End Case.
