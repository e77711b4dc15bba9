(** PropertiesPowL.v — C130: the laws of powers of quaternions in IEEE arithmetic. *)
From Coq Require Import Reals List ZArith NArith Bool Lra Lia.
From Flocq Require Import Core BinarySingleNaN.
Import ListNotations.
From Verif Require Import Base Num Vec Mat Quat Float FloatFacts SpecGeom SpecQuat SpecRound SpecBuild SpecFq SpecTrig SpecPow SpecPowL PRound PIeee2 PIeee6 PPrismF PTrig PTrig2 PTrig3 PTrig4 PPow PPow0 PPow2 PPowL PropertiesPow.
Local Open Scope R_scope.

Section Laws.
Context (prec emax : Z) {Hp : Prec_gt_0 prec} {Hm : Prec_lt_emax prec emax} (lm : libm (binary_float prec emax)).
Notation bf := (binary_float prec emax).
Notation F := (@Ieee prec emax Hp Hm lm).
Notation u := (uro prec).
Notation val := (@B2R prec emax).
Notation hq q := (qval (q : quat bf)).
(** q^s q^t = q^(s+t) = q^t q^s up to the errors of the powers and of the product. In particular the product of q^s and q^(1-s) is q (so the square of
    q^(1/2) is q), and the product of q^s and q^(-s) is 1. *)
Theorem C130_laws (q : quat F) (s t w : F) (d B : R) : (9 < prec)%Z -> qfin (q : quat bf) -> is_finite (s : bf) = true -> is_finite (t : bf) = true -> is_finite (w : bf) = true -> val w = val s + val t ->
  pow_base u emax (hq q) -> pow_range u d B (hq q) (val s) -> pow_range u d B (hq q) (val t) -> pow_range u d B (hq q) (val w) -> acos_acc lm d -> sincos_acc lm B d -> powf_acc lm d -> d <= / 64 ->
  let e := pow_err u d (hq q) in
  exists ps pt pw, quat_pow q s = Ok ps /\ quat_pow q t = Ok pt /\ quat_pow q w = Ok pw /\ qfin (quat_mul ps pt : quat bf) /\
    hdist (hq (quat_mul ps pt)) (hpower (hq q) (val s + val t)) <= 2 * (e (val s) + e (val t)) + 36 * u /\
    hdist (hq (quat_mul ps pt)) (hq pw) <= 2 * (e (val s) + e (val t)) + e (val w) + 36 * u /\
    hdist (hq (quat_mul ps pt)) (hq (quat_mul pt ps)) <= 4 * (e (val s) + e (val t)) + 72 * u /\
    (val s + val t = 1 -> hdist (hq (quat_mul ps pt)) (hq q) <= 2 * (e (val s) + e (val t)) + 36 * u) /\
    (val s + val t = 0 -> hdist (hq (quat_mul ps pt)) hone <= 2 * (e (val s) + e (val t)) + 36 * u).
Proof. exact (pow_laws prec emax lm q s t w d B). Qed.
End Laws.
Print Assumptions C130_laws.

(** ---- the square of the square root of a third of a turn, with a correctly rounded libm ---- *)
Section Case.
  Context (prec emax : Z) {Hp : Prec_gt_0 prec} {Hm : Prec_lt_emax prec emax}.
  Hypotheses (P24 : (24 <= prec)%Z) (E64 : (64 <= emax)%Z).
  Notation bf := (binary_float prec emax).
  Notation lm := (rounded_libm prec emax).
  Notation F := (@Ieee prec emax Hp Hm lm).
  Notation h := (nlit F 1 2).
  Example C130_case : let q := Q h h h h in exists r, quat_pow q h = Ok r /\ hdist (qval (quat_mul r r : quat bf)) (qval (q : quat bf)) <= 700 * uro prec.
  Proof.
    intro q. destruct (case_h prec emax P24) as [Fh Vh]. destruct (lit_z prec emax lm ltac:(lia) 1 ltac:(lia)) as [F1 V1]. pose proof (u24 prec P24) as U. pose proof (PRound.u_pos prec) as U0. assert (P9 : (9 < prec)%Z) by lia.
    assert (QV : qval (q : quat bf) = H (V (/ 2) (/ 2) (/ 2)) (/ 2)) by (unfold q, qval; cbn [qx qy qz qw]; rewrite Vh; reflexivity).
    assert (L1 : hlen (H (V (/ 2) (/ 2) (/ 2)) (/ 2)) = 1). { unfold hlen, hdot, vdot. cbn [hv hs vx vy vz]. rewrite <- sqrt_1. f_equal. lra. }
    assert (NB : 8 / 10 <= norm (V (/ 2) (/ 2) (/ 2)) <= 1). { unfold norm, vdot. cbn [vx vy vz]. split; [rewrite <- (sqrt_square (8 / 10)) by lra; apply sqrt_le_1_alt; lra | eapply Rle_trans; [apply (sqrt_le_1_alt _ 1); lra | rewrite sqrt_1; lra]]. }
    assert (SC : sincos_acc lm 9 (4 * uro prec)). { intros x Fx Bx. destruct (rounded_sincos prec emax 9 P9 x Fx Bx) as [[A1 B1] [A2 B2]]. split; split; try assumption; lra. }
    assert (UN : 0 <= uro prec / (norm (V (/ 2) (/ 2) (/ 2)) / 1) <= 125 / 100 * uro prec). { split; [apply Rmult_le_pos; [lra | left; apply Rinv_0_lt_compat; lra] |]. apply Rmult_le_reg_r with (norm (V (/ 2) (/ 2) (/ 2))); [lra |]. field_simplify; [| lra]. assert (125 / 100 * uro prec * (8 / 10) <= 125 / 100 * uro prec * norm (V (/ 2) (/ 2) (/ 2))) by (apply Rmult_le_compat_l; lra). lra. }
    assert (PB : pow_base (uro prec) emax (qval (q : quat bf))).
    { rewrite QV. unfold pow_base. cbn [hv]. rewrite L1. split; [lra |]. split; [| lra]. apply Rle_trans with (bpow radix2 (-1)); [apply bpow_le; lia | change (bpow radix2 (-1)) with (/ 2); unfold vdot; simpl; lra]. }
    assert (PR : forall t, 0 <= t <= 1 -> pow_range (uro prec) (4 * uro prec) 9 (qval (q : quat bf)) t).
    { intros t Ht. rewrite QV. unfold pow_range. cbn [hv]. rewrite L1, ln_1, Rabs_R0, (Rabs_pos_eq t) by lra. split; [lra |]. split; [| lra]. apply Rle_trans with (1 * (4 * uro prec + 32 * (uro prec / (norm (V (/ 2) (/ 2) (/ 2)) / 1)))); [apply Rmult_le_compat_r; lra | lra]. }
    destruct (C130_laws prec emax lm q h h (nlit F 1 1) (4 * uro prec) 9 P9) as (r & r' & _ & E & E' & _ & _ & _ & _ & _ & D & _).
    - unfold q. repeat split; exact Fh.
    - exact Fh.
    - exact Fh.
    - exact F1.
    - rewrite Vh, V1. lra.
    - exact PB.
    - rewrite Vh. apply PR. lra.
    - rewrite Vh. apply PR. lra.
    - rewrite V1. apply PR. lra.
    - apply rounded_acos; exact P9.
    - exact SC.
    - apply rounded_powf; exact P9.
    - lra.
    - rewrite E in E'. injection E' as E'. subst r'. exists r. split; [exact E |]. rewrite Vh in D. specialize (D ltac:(lra)). eapply Rle_trans; [exact D |]. rewrite QV. unfold pow_err. cbn [hv]. rewrite L1, (Rabs_pos_eq (/ 2)) by lra. lra.
  Qed.
End Case.
