(** PSlerp.v — symmetries of the interpolations and constant speed, exact arithmetic (C126). *)
From Coq Require Import Reals List ZArith NArith Bool Lra Lia Psatz.
Import ListNotations.
From Verif Require Import Base Num Vec Mat Quat Exact SpecMat SpecReal SpecGeom SpecQuat ExactFacts PQuat PQuat2 PRotM.
Local Open Scope R_scope.

Definition w0 (c t : R) : R := if Rlt_dec (9999 / 10000) (Rabs c) then 1 - t else slerp_k0 c t.
Definition near_end (c : R) (b : H4) : H4 := if Rlt_dec c 0 then hneg b else b.
Definition hcomb (x : R) (a : H4) (y : R) (b : H4) : H4 := hadd (hscale x a) (hscale y b).
Lemma clamp01_flip t : clamp01 (1 - t) = 1 - clamp01 t.
Proof. unfold clamp01, Rmax, Rmin. repeat destruct (Rle_dec _ _); lra. Qed.
Lemma clamp01_box t : 0 <= clamp01 t <= 1.
Proof. unfold clamp01, Rmax, Rmin. repeat destruct (Rle_dec _ _); lra. Qed.
Lemma hdot_comm a b : hdot a b = hdot b a. Proof. hring. Qed.
Lemma hdot_mul_l r a b : hunit r -> hdot (hmul r a) (hmul r b) = hdot a b.
Proof. intro U. transitivity (hdot r r * hdot a b); [| rewrite U; ring]. destruct r as [[? ? ?] ?], a as [[? ? ?] ?], b as [[? ? ?] ?]. unfold hdot, hmul, vdot. cbn. unfold vdot. cbn. ring. Qed.
Lemma hdot_mul_r r a b : hunit r -> hdot (hmul a r) (hmul b r) = hdot a b.
Proof. intro U. transitivity (hdot r r * hdot a b); [| rewrite U; ring]. destruct r as [[? ? ?] ?], a as [[? ? ?] ?], b as [[? ? ?] ?]. unfold hdot, hmul, vdot. cbn. unfold vdot. cbn. ring. Qed.
Lemma hdot_conj a b : hdot (hconj a) (hconj b) = hdot a b. Proof. hring. Qed.
Lemma hmul_comb_l r x a y b : hmul r (hcomb x a y b) = hcomb x (hmul r a) y (hmul r b). Proof. unfold hcomb. hring. Qed.
Lemma hmul_comb_r r x a y b : hmul (hcomb x a y b) r = hcomb x (hmul a r) y (hmul b r). Proof. unfold hcomb. hring. Qed.
Lemma hconj_comb x a y b : hconj (hcomb x a y b) = hcomb x (hconj a) y (hconj b). Proof. unfold hcomb. hring. Qed.
Lemma comb_comb x y p q a b p' q' : hcomb x (hcomb p a q b) y (hcomb p' a q' b) = hcomb (x * p + y * p') a (x * q + y * q') b.
Proof. unfold hcomb. hring. Qed.
Lemma comb_dots x y x' y' a b : hunit a -> hunit b -> hdot (hcomb x a y b) (hcomb x' a y' b) = x * x' + y * y' + hdot a b * (x * y' + y * x').
Proof. intros A B. transitivity (x * x' * hdot a a + y * y' * hdot b b + hdot a b * (x * y' + y * x')); [unfold hcomb; hring | rewrite A, B; ring]. Qed.

Section Lib.
  Context (eps : R) (zs : XR -> bool).
  Notation E := (Exact eps zs).
  Notation eq4 := (PQuat.eq4 eps zs).
  Notation slerp a b t := (quat_interpolate_slerp (eq4 a) (eq4 b) (Fin t : E)).
  Notation lerp a b t := (quat_interpolate_linear (eq4 a) (eq4 b) (Fin t : E)).
  Lemma slerp_form a b t : let c := hdot a b in slerp a b t = eq4 (hcomb (w0 c (clamp01 t)) a (w0 c (1 - clamp01 t)) (near_end c b)).
  Proof.
    intro c. unfold w0. destruct (Rlt_dec (9999 / 10000) (Rabs c)) as [L | L].
    - rewrite slerp_near by exact L. fold c. replace (1 - (1 - clamp01 t)) with (clamp01 t) by ring. reflexivity.
    - rewrite slerp_eval by (apply Rnot_lt_le, L). fold c. replace (slerp_k0 c (1 - clamp01 t)) with (slerp_k1 c (clamp01 t)); [reflexivity |]. unfold slerp_k0, slerp_k1. replace (1 - (1 - clamp01 t)) with (clamp01 t) by ring. reflexivity.
  Qed.
  Lemma lerp_form a b t : lerp a b t = eq4 (hcomb (1 - clamp01 t) a (clamp01 t) b).
  Proof. apply lerp_eval. Qed.
  Theorem lerp_reverse a b t : lerp b a (1 - t) = lerp a b t.
  Proof. rewrite !lerp_form, clamp01_flip. f_equal. unfold hcomb. hring. Qed.
  Theorem slerp_reverse a b t : (0 <= hdot a b -> slerp b a (1 - t) = slerp a b t) /\ (hdot a b < 0 -> slerp b a (1 - t) = quat_negate (slerp a b t)).
  Proof.
    rewrite !slerp_form, clamp01_flip, (hdot_comm b a), q_neg. unfold near_end. set (c := hdot a b). replace (1 - (1 - clamp01 t)) with (clamp01 t) by ring. split; intro S; destruct (Rlt_dec c 0); try lra; f_equal; generalize (w0 c (clamp01 t)) (w0 c (1 - clamp01 t)); intros; unfold hcomb; clear; hring.
  Qed.
  Theorem lerp_turn r a b t : quat_mul (eq4 r) (lerp a b t) = quat_interpolate_linear (quat_mul (eq4 r) (eq4 a)) (quat_mul (eq4 r) (eq4 b)) (Fin t : E) /\
    quat_mul (lerp a b t) (eq4 r) = quat_interpolate_linear (quat_mul (eq4 a) (eq4 r)) (quat_mul (eq4 b) (eq4 r)) (Fin t : E).
  Proof. rewrite !q_mul, !lerp_form, !q_mul, hmul_comb_l, hmul_comb_r. split; reflexivity. Qed.
  Theorem slerp_turn r a b t : hunit r -> quat_mul (eq4 r) (slerp a b t) = quat_interpolate_slerp (quat_mul (eq4 r) (eq4 a)) (quat_mul (eq4 r) (eq4 b)) (Fin t : E) /\
    quat_mul (slerp a b t) (eq4 r) = quat_interpolate_slerp (quat_mul (eq4 a) (eq4 r)) (quat_mul (eq4 b) (eq4 r)) (Fin t : E) /\
    quat_conjugate (slerp a b t) = quat_interpolate_slerp (quat_conjugate (eq4 a)) (quat_conjugate (eq4 b)) (Fin t : E).
  Proof.
    intro U. rewrite !q_conj, !q_mul, !slerp_form, (hdot_mul_l r a b U), (hdot_mul_r r a b U), (hdot_conj a b), !q_mul, q_conj, hmul_comb_l, hmul_comb_r, hconj_comb. unfold near_end.
    destruct (Rlt_dec (hdot a b) 0); repeat split; do 2 f_equal; clear; hring.
  Qed.
  Lemma short_form a b t : 0 <= hdot a b <= 9999 / 10000 -> slerp a b t = eq4 (hcomb (slerp_k0 (hdot a b) (clamp01 t)) a (slerp_k1 (hdot a b) (clamp01 t)) b).
  Proof. intro C. rewrite slerp_eval by (rewrite Rabs_pos_eq; lra). destruct (Rlt_dec (hdot a b) 0); [lra | reflexivity]. Qed.
  (** the angle between two points of the arc *)
  Theorem slerp_speed a b s t : hunit a -> hunit b -> 0 <= hdot a b <= 9999 / 10000 -> exists p q, slerp a b s = eq4 p /\ slerp a b t = eq4 q /\ hunit p /\ hunit q /\
    hdot p q = cos ((clamp01 t - clamp01 s) * acos (hdot a b)) /\ (0 <= s <= 1 -> 0 <= t <= 1 -> acos (hdot p q) = Rabs (t - s) * acos (hdot a b)).
  Proof.
    intros A B C. rewrite !short_form by exact C. set (c := hdot a b) in *. do 2 eexists. do 2 (split; [reflexivity |]).
    assert (P : 0 < 1 - c * c) by nra. pose proof (sqrt_lt_R0 _ P) as S. pose proof (sqrt_sqrt _ (Rlt_le _ _ P)) as S2. pose proof (sin_acos c ltac:(lra)) as SA. pose proof (cos_acos c ltac:(lra)) as CA. unfold Rsqr in SA.
    assert (D : forall x y, hdot (hcomb (slerp_k0 c x) a (slerp_k1 c x) b) (hcomb (slerp_k0 c y) a (slerp_k1 c y) b) = cos ((y - x) * acos c)).
    { intros x y. rewrite comb_dots by assumption. fold c. unfold slerp_k0, slerp_k1. set (w := acos c) in *. replace ((1 - x) * w) with (w - x * w) by ring. replace ((1 - y) * w) with (w - y * w) by ring. replace ((y - x) * w) with (y * w - x * w) by ring. rewrite !sin_minus, cos_minus, SA, CA. set (sq := sqrt (1 - c * c)) in *.
      generalize (sin (x * w)) (cos (x * w)) (sin (y * w)) (cos (y * w)). intros s1 k1 s2 k2. apply (Rmult_eq_reg_r (sq * sq)); [| nra].
      transitivity ((sq * k1 - c * s1) * (sq * k2 - c * s2) + s1 * s2 + c * ((sq * k1 - c * s1) * s2 + s1 * (sq * k2 - c * s2))); [field; lra |]. transitivity (sq * sq * (k1 * k2) + s1 * s2 * (1 - c * c)); [ring |]. rewrite <- S2. ring. }
    unfold hunit. rewrite !D. split; [rewrite Rminus_diag_eq, Rmult_0_l by reflexivity; apply cos_0 |]. split; [rewrite Rminus_diag_eq, Rmult_0_l by reflexivity; apply cos_0 |]. split; [reflexivity |].
    intros Hs Ht. rewrite !clamp01_id by assumption. pose proof (acos_bound c) as AB. assert (K : cos ((t - s) * acos c) = cos (Rabs (t - s) * acos c)) by (destruct (Rle_dec 0 (t - s)); [rewrite Rabs_pos_eq by assumption; reflexivity | rewrite Rabs_left by lra; rewrite <- cos_neg; f_equal; ring]).
    rewrite K. apply acos_cos. pose proof (Rabs_pos (t - s)). assert (Rabs (t - s) <= 1) by (apply Rabs_le; lra). nra.
  Qed.
  Lemma sin_id p q x : sin q * sin x + sin p * sin (x + p + q) = sin (p + q) * sin (x + p).
  Proof. replace (x + p + q) with (x + (p + q)) by ring. rewrite !(sin_plus x), cos_plus, !sin_plus. pose proof (sc1 p) as K. generalize dependent (sin p). intros sp K. generalize dependent (cos p). intros cp K.
    assert (E1 : sp * sp = 1 - cp * cp) by lra. transitivity (sin q * sin x + sp * sin x * (cp * cos q) - sp * sp * sin x * sin q + sp * cos x * (sp * cos q + cp * sin q)); [ring |].
    transitivity (sp * sin x * (cp * cos q) + cp * cp * sin x * sin q + sp * cos x * (sp * cos q + cp * sin q)); [rewrite E1 at 1; ring | ring]. Qed.
  (** a part of the arc is the arc between its ends *)
  Theorem slerp_part a b s t w p q : hunit a -> hunit b -> 0 <= hdot a b <= 9999 / 10000 -> 0 <= s <= 1 -> 0 <= t <= 1 -> 0 <= w <= 1 -> slerp a b s = eq4 p -> slerp a b t = eq4 q -> hdot p q <= 9999 / 10000 ->
    slerp p q w = slerp a b ((1 - w) * s + w * t).
  Proof.
    assert (Up : forall s t w p q, hunit a -> hunit b -> 0 <= hdot a b <= 9999 / 10000 -> 0 <= s -> s <= t -> t <= 1 -> 0 <= w <= 1 -> slerp a b s = eq4 p -> slerp a b t = eq4 q -> hdot p q <= 9999 / 10000 -> 0 <= hdot p q /\ slerp p q w = slerp a b ((1 - w) * s + w * t)).
    { clear. intros s t w p q A B C Hs Hst Ht Hw Ep Eq L. destruct (slerp_speed a b s t A B C) as (p' & q' & Ep' & Eq' & _ & _ & _ & D). rewrite Ep in Ep'. rewrite Eq in Eq'. apply eq4_inj in Ep'. apply eq4_inj in Eq'. subst p' q'. specialize (D ltac:(lra) ltac:(lra)). rewrite (Rabs_pos_eq (t - s)) in D by lra.
      destruct (slerp_speed a b s t A B C) as (p' & q' & Ep' & Eq' & _ & _ & D' & _). rewrite Ep in Ep'. rewrite Eq in Eq'. apply eq4_inj in Ep'. apply eq4_inj in Eq'. subst p' q'. rewrite !clamp01_id in D' by lra.
      set (c := hdot a b) in *. assert (AB : 0 <= acos c <= PI / 2).
      { split; [apply acos_bound |]. pose proof (acos_bound c) as [B1 B2]. apply Rnot_lt_le. intro Z. pose proof PI_RGT_0. pose proof (cos_lt_0 (acos c) Z ltac:(lra)) as K. rewrite cos_acos in K by lra. lra. }
      assert (N : 0 <= hdot p q) by (rewrite D'; apply cos_ge_0; nra). split; [exact N |].
      assert (Cl : clamp01 ((1 - w) * s + w * t) = (1 - w) * s + w * t) by (apply clamp01_id; nra).
      rewrite (short_form p q w) by (split; assumption). rewrite (short_form a b) in Ep, Eq by exact C. rewrite (short_form a b) by exact C. fold c in Ep, Eq |- *. apply eq4_inj in Ep. apply eq4_inj in Eq. rewrite !clamp01_id in Ep, Eq by lra. rewrite Cl, clamp01_id by exact Hw. f_equal.
      assert (P : 0 < 1 - c * c) by nra. pose proof (sqrt_lt_R0 _ P) as S. set (e := hdot p q) in *. assert (P' : 0 < 1 - e * e) by nra. pose proof (sqrt_lt_R0 _ P') as S'.
      pose proof (sin_acos e ltac:(lra)) as SA. unfold Rsqr in SA. rewrite <- Ep, <- Eq, comb_comb. unfold slerp_k0, slerp_k1 in *. rewrite <- SA in *. rewrite D in *. set (o := acos c) in *. set (g := (t - s) * o) in *. set (sq := sqrt (1 - c * c)) in *.
      f_equal.
      - pose proof (sin_id (w * g) ((1 - w) * g) (- ((1 - s) * o))) as K. replace (- ((1 - s) * o) + w * g + (1 - w) * g) with (- ((1 - t) * o)) in K by (unfold g; ring). replace (w * g + (1 - w) * g) with g in K by ring. replace (- ((1 - s) * o) + w * g) with (- ((1 - ((1 - w) * s + w * t)) * o)) in K by (unfold g; ring). rewrite !sin_neg in K.
        transitivity ((sin ((1 - w) * g) * sin ((1 - s) * o) + sin (w * g) * sin ((1 - t) * o)) / (sin g * sq)); [field; lra |]. replace (sin ((1 - w) * g) * sin ((1 - s) * o) + sin (w * g) * sin ((1 - t) * o)) with (sin g * sin ((1 - ((1 - w) * s + w * t)) * o)) by lra. field. lra.
      - pose proof (sin_id (w * g) ((1 - w) * g) (s * o)) as K. replace (s * o + w * g + (1 - w) * g) with (t * o) in K by (unfold g; ring). replace (w * g + (1 - w) * g) with g in K by ring. replace (s * o + w * g) with (((1 - w) * s + w * t) * o) in K by (unfold g; ring).
        transitivity ((sin ((1 - w) * g) * sin (s * o) + sin (w * g) * sin (t * o)) / (sin g * sq)); [field; lra |]. rewrite K. field. lra. }
    intros A B C Hs Ht Hw Ep Eq L. destruct (Rle_dec s t) as [O | O].
    - apply (Up s t w p q A B C ltac:(lra) O ltac:(lra) Hw Ep Eq L).
    - rewrite hdot_comm in L. destruct (Up t s (1 - w) q p A B C ltac:(lra) ltac:(lra) ltac:(lra) ltac:(lra) Eq Ep L) as [N K]. pose proof (proj1 (slerp_reverse q p (1 - w)) N) as R. replace (1 - (1 - w)) with w in R by ring. rewrite R, K. do 2 f_equal. ring.
  Qed.
  (** interpolation from 1 is the power, and any interpolation is a power of the quotient *)
  Theorem slerp_pow a b t : hunit a -> hunit b -> 0 <= hdot a b <= 9999 / 10000 -> 0 <= t <= 1 -> exists r, quat_pow (quat_mul (quat_conjugate (eq4 a)) (eq4 b)) (Fin t : E) = Ok r /\ slerp a b t = quat_mul (eq4 a) r.
  Proof.
    intros A B C Ht. rewrite q_conj, q_mul. set (q := hmul (hconj a) b). assert (U : hunit q) by (apply hmat_unit_mul; [apply hunit_conj, A | exact B]).
    assert (Hs : hs q = hdot a b) by (unfold q; destruct a as [[? ? ?] ?], b as [[? ? ?] ?]; unfold hdot, hmul, hconj, vdot; cbn; unfold vdot; cbn; ring).
    assert (Hv : hv q <> vzero) by (intro Z; unfold hunit, hdot in U; rewrite Z, Hs in U; unfold vdot, vzero in U; cbn in U; nra).
    rewrite (pow_polar eps zs q t Hv). eexists. split; [reflexivity |]. rewrite q_mul, short_form by exact C. f_equal. rewrite clamp01_id by exact Ht.
    assert (Eb : b = hmul a q) by (unfold q; rewrite <- hmul_assoc; replace (hmul a (hconj a)) with (H vzero (hdot a a)) by hring; rewrite A; change (H vzero 1) with hone; symmetry; apply hmul_1_l).
    replace (hlen q) with 1 by (unfold hlen; rewrite U; symmetry; apply sqrt_1). unfold Rpower. rewrite ln_1, Rmult_0_r, exp_0. unfold hangle. rewrite Hs. replace (hlen q) with 1 by (unfold hlen; rewrite U; symmetry; apply sqrt_1). replace (hdot a b / 1) with (hdot a b) by field. set (c := hdot a b) in *. destruct (weights c t ltac:(lra)) as [W _].
    assert (Nv : norm (hv q) = sqrt (1 - c * c)) by (unfold norm; f_equal; unfold hunit, hdot in U; rewrite Hs in U; lra).
    assert (P : 0 < 1 - c * c) by nra. pose proof (sqrt_lt_R0 _ P) as S.
    assert (Ep : hpolar 1 (haxis_of q) (t * acos c) = hcomb (slerp_k0 c t) hone (slerp_k1 c t) q).
    { unfold hpolar, hcomb, haxis_of. rewrite Nv, <- W. unfold slerp_k1 in *. set (k := slerp_k0 c t) in *. clearbody k. destruct q as [[x y z] w]. cbn [SpecQuat.hv SpecQuat.hs] in *. subst w. unfold hone, vzero. apply H4_eq; cbn; [apply V3_eq; cbn; field; lra | ring]. }
    rewrite Ep, hmul_comb_l, hmul_1_r, <- Eb. reflexivity.
  Qed.
End Lib.
