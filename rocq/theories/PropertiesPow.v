(** PropertiesPow.v — C106, C107: completing a quaternion to unit length, and powers of quaternions, in IEEE arithmetic.
    The platform's sine, cosine, arc cosine and powf enter through one hypothesis: wrong by at most d. *)
From Coq Require Import Reals List ZArith Bool Lra Lia.
From Flocq Require Import Core BinarySingleNaN.
Import ListNotations.
From Verif Require Import Base Num Vec Mat Quat Float FloatFacts SpecGeom SpecQuat SpecRound SpecBuild SpecFq SpecTrig SpecPow PIeee6 PPrismF PTrig PTrig2 PTrig3 PTrig4 PPow PPow0 PPow2.
Local Open Scope R_scope.

(** C106. From a vector part of length at most 1: the vector part is kept, the scalar part is not positive, and the square
    of the length is 1 up to 7u. *)
Theorem C106_unit : forall prec emax {Hp : Prec_gt_0 prec} {Hm : Prec_lt_emax prec emax} (lm : libm (binary_float prec emax)) (x y z : Ieee prec emax lm),
  (9 < prec)%Z -> is_finite (x : binary_float prec emax) = true -> is_finite (y : binary_float prec emax) = true -> is_finite (z : binary_float prec emax) = true ->
  let s := B2R (x : binary_float prec emax) * B2R (x : binary_float prec emax) + B2R (y : binary_float prec emax) * B2R (y : binary_float prec emax) + B2R (z : binary_float prec emax) * B2R (z : binary_float prec emax) in s <= 1 ->
  let q := quat_init_from_vals_auto_w x y z in let Q := qval (q : quat (binary_float prec emax)) in
  qfin (q : quat (binary_float prec emax)) /\ qx q = x /\ qy q = y /\ qz q = z /\ B2R (qw q : binary_float prec emax) <= 0 /\ Rabs (hdot Q Q - 1) <= 7 * uro prec.
Proof. exact @auto_w_ieee. Qed.
Print Assumptions C106_unit.
(** C106 is false of the code for longer vector parts: the scalar part is then the negative remainder 1 - s itself, not a
    square root, and the result is longer than 1 by any measure. *)
Theorem C106_outside : forall prec emax {Hp : Prec_gt_0 prec} {Hm : Prec_lt_emax prec emax} (lm : libm (binary_float prec emax)) (x y z : Ieee prec emax lm),
  (9 < prec)%Z -> is_finite (x : binary_float prec emax) = true -> is_finite (y : binary_float prec emax) = true -> is_finite (z : binary_float prec emax) = true ->
  let s := B2R (x : binary_float prec emax) * B2R (x : binary_float prec emax) + B2R (y : binary_float prec emax) * B2R (y : binary_float prec emax) + B2R (z : binary_float prec emax) * B2R (z : binary_float prec emax) in 1 + 5 * uro prec <= s <= 2 ->
  let q := quat_init_from_vals_auto_w x y z in
  qfin (q : quat (binary_float prec emax)) /\ qx q = x /\ qy q = y /\ qz q = z /\ Rabs (B2R (qw q : binary_float prec emax) - (1 - s)) <= 9 * uro prec.
Proof. exact @auto_w_out. Qed.
Print Assumptions C106_outside.

(** C107. The scalar part over the length, the argument of the arc cosine, never leaves [-1,1]. *)
Theorem C107_domain : forall prec emax {Hp : Prec_gt_0 prec} {Hm : Prec_lt_emax prec emax} (lm : libm (binary_float prec emax)) (q : quat (Ieee prec emax lm)),
  (9 < prec)%Z -> qfin (q : quat (binary_float prec emax)) -> let Q := qval (q : quat (binary_float prec emax)) in / 2 <= hlen Q <= 2 -> let l := quat_length q in
  is_finite (l : binary_float prec emax) = true /\ Rabs (B2R (l : binary_float prec emax) - hlen Q) <= 604 / 100 * uro prec * hlen Q /\
  is_finite (ndiv (Ieee prec emax lm) (qw q) l : binary_float prec emax) = true /\ -1 <= B2R (ndiv (Ieee prec emax lm) (qw q) l : binary_float prec emax) <= 1 /\
  Rabs (B2R (ndiv (Ieee prec emax lm) (qw q) l : binary_float prec emax) - hs Q / hlen Q) <= 81 / 10 * uro prec.
Proof. exact @scalar_over. Qed.
Print Assumptions C107_domain.
(** C107. Powers of a quaternion of length between 1/2 and 2 whose vector part does not underflow. *)
Theorem C107_pow : forall prec emax {Hp : Prec_gt_0 prec} {Hm : Prec_lt_emax prec emax} (lm : libm (binary_float prec emax)) (q : quat (Ieee prec emax lm)) (t : Ieee prec emax lm) (d B : R),
  (9 < prec)%Z -> qfin (q : quat (binary_float prec emax)) -> is_finite (t : binary_float prec emax) = true ->
  let Q := qval (q : quat (binary_float prec emax)) in let T := Rabs (B2R (t : binary_float prec emax)) in
  / 2 <= hlen Q <= 2 -> bpow radix2 (6 - emax) <= vdot (hv Q) (hv Q) -> T * Rabs (ln (hlen Q)) <= / 2 -> T * (d + 8 * sqrt (uro prec)) <= / 32 ->
  acos_acc lm d -> sincos_acc lm B d -> powf_acc lm d -> 4 * T + 1 <= B -> d <= / 64 ->
  exists r, quat_pow q t = Ok r /\ qfin (r : quat (binary_float prec emax)) /\
    hdist (qval (r : quat (binary_float prec emax))) (hpower Q (B2R (t : binary_float prec emax))) <= 6 * d + 21 * uro prec + T * (4 * d + 35 * sqrt (uro prec)).
Proof. exact @pow_ieee. Qed.
Print Assumptions C107_pow.
(** C107. The same with an error linear in u, when the sine N of the quaternion's angle is at least 128u. *)
Theorem C107_wide : forall prec emax {Hp : Prec_gt_0 prec} {Hm : Prec_lt_emax prec emax} (lm : libm (binary_float prec emax)) (q : quat (Ieee prec emax lm)) (t : Ieee prec emax lm) (d B : R),
  (9 < prec)%Z -> qfin (q : quat (binary_float prec emax)) -> is_finite (t : binary_float prec emax) = true ->
  let Q := qval (q : quat (binary_float prec emax)) in let N := norm (hv Q) / hlen Q in let T := Rabs (B2R (t : binary_float prec emax)) in
  / 2 <= hlen Q <= 2 -> bpow radix2 (6 - emax) <= vdot (hv Q) (hv Q) -> 128 * uro prec <= N -> T * Rabs (ln (hlen Q)) <= / 2 -> T * (d + 32 * (uro prec / N)) <= / 32 ->
  acos_acc lm d -> sincos_acc lm B d -> powf_acc lm d -> 4 * T + 1 <= B -> d <= / 64 ->
  exists r, quat_pow q t = Ok r /\ qfin (r : quat (binary_float prec emax)) /\
    hdist (qval (r : quat (binary_float prec emax))) (hpower Q (B2R (t : binary_float prec emax))) <= 6 * d + 21 * uro prec + T * (4 * d + 140 * (uro prec / N)).
Proof. exact @pow_ieee_wide. Qed.
Print Assumptions C107_wide.
(** C107. The reference is a power: q^1 = q, q^(s+t) = q^s q^t, |q^t| = |q|^t. *)
Theorem C107_reference : forall q : H4, hv q <> vzero -> hpower q 1 = q /\ (forall s t, hpower q (s + t) = hmul (hpower q s) (hpower q t)) /\ (forall t, hlen (hpower q t) = Rpower (hlen q) t).
Proof. exact hpower_law. Qed.
Print Assumptions C107_reference.

(** The hypotheses hold in every format of at least 24 bits: the vector parts (1/2,1/2,1/2) and (1,1/2,0); the square of
    the quaternion (1/2,1/2,1/2,1/2) with the libm that rounds correctly. *)
Section Case.
  Context (prec emax : Z) {Hp : Prec_gt_0 prec} {Hm : Prec_lt_emax prec emax}.
  Hypotheses (P24 : (24 <= prec)%Z) (E64 : (64 <= emax)%Z).
  Notation bf := (binary_float prec emax).
  Notation lm := (rounded_libm prec emax).
  Notation F := (@Ieee prec emax Hp Hm lm).
  Notation h := (nlit F 1 2).
  Lemma case_h : is_finite (h : bf) = true /\ B2R (h : bf) = / 2.
  Proof. exact (lit_half prec emax ltac:(lia)). Qed.
  Example C106_case : let Q1 := qval (quat_init_from_vals_auto_w h h h : quat bf) in Rabs (hdot Q1 Q1 - 1) <= 7 * uro prec /\
    Rabs (B2R (qw (quat_init_from_vals_auto_w (nlit F 1 1) h (nlit F 0 1)) : bf) + / 4) <= 9 * uro prec.
  Proof.
    destruct case_h as [Fh Vh]. destruct (lit_z prec emax lm ltac:(lia) 1 ltac:(lia)) as [F1 V1]. destruct (lit_z prec emax lm ltac:(lia) 0 ltac:(lia)) as [F0 V0]. pose proof (u24 prec P24) as U. split.
    - apply (C106_unit prec emax lm h h h ltac:(lia) Fh Fh Fh). rewrite Vh. lra.
    - destruct (C106_outside prec emax lm (nlit F 1 1) h (nlit F 0 1) ltac:(lia) F1 Fh F0) as (_ & _ & _ & _ & E); [rewrite Vh, V1, V0; lra |]. rewrite Vh, V1, V0 in E. eapply Rle_trans; [right | exact E]. f_equal. lra.
  Qed.
  Example C107_case : exists r, quat_pow (Q h h h h) (nlit F 2 1) = Ok r /\ hdist (qval (r : quat bf)) (H (V (/ 2) (/ 2) (/ 2)) (- / 2)) <= 430 * uro prec.
  Proof.
    destruct case_h as [Fh Vh]. destruct (lit_z prec emax lm ltac:(lia) 2 ltac:(lia)) as [F2 V2]. pose proof (u24 prec P24) as U. pose proof (PRound.u_pos prec) as U0. assert (P9 : (9 < prec)%Z) by lia.
    assert (QV : qval (Q h h h h : quat bf) = H (V (/ 2) (/ 2) (/ 2)) (/ 2)) by (unfold qval; cbn [qx qy qz qw]; rewrite Vh; reflexivity).
    assert (L1 : hlen (H (V (/ 2) (/ 2) (/ 2)) (/ 2)) = 1). { unfold hlen, hdot, vdot. cbn [hv hs vx vy vz]. rewrite <- sqrt_1. f_equal. lra. }
    assert (NB : 8 / 10 <= norm (V (/ 2) (/ 2) (/ 2)) <= 1). { unfold norm, vdot. cbn [vx vy vz]. split; [rewrite <- (sqrt_square (8 / 10)) by lra; apply sqrt_le_1_alt; lra | eapply Rle_trans; [apply (sqrt_le_1_alt _ 1); lra | rewrite sqrt_1; lra]]. }
    assert (SC : sincos_acc lm 9 (4 * uro prec)). { intros x Fx Bx. destruct (rounded_sincos prec emax 9 P9 x Fx Bx) as [[A1 B1] [A2 B2]]. split; split; try assumption; lra. }
    destruct (C107_wide prec emax lm (Q h h h h) (nlit F 2 1) (4 * uro prec) 9 P9) as (r & E & _ & D); try rewrite QV; try rewrite V2; try (cbn [hv]; rewrite L1); try (rewrite (Rabs_pos_eq 2) by lra).
    - repeat split; exact Fh.
    - exact F2.
    - lra.
    - apply Rle_trans with (bpow radix2 (-1)); [apply bpow_le; lia | change (bpow radix2 (-1)) with (/ 2); unfold vdot; simpl; lra].
    - lra.
    - rewrite ln_1, Rabs_R0. lra.
    - assert (uro prec / (norm (V (/ 2) (/ 2) (/ 2)) / 1) <= 2 * uro prec). { apply Rmult_le_reg_r with (norm (V (/ 2) (/ 2) (/ 2))); [lra |]. field_simplify; [| lra]. assert (2 * uro prec * (8 / 10) <= 2 * uro prec * norm (V (/ 2) (/ 2) (/ 2))) by (apply Rmult_le_compat_l; lra). lra. } lra.
    - apply rounded_acos; exact P9.
    - exact SC.
    - apply rounded_powf; exact P9.
    - lra.
    - lra.
    - exists r. split; [exact E |]. cbv zeta in D. rewrite QV, V2 in D. cbn [hv] in D. rewrite L1, (Rabs_pos_eq 2) in D by lra.
      assert (UN : uro prec / (norm (V (/ 2) (/ 2) (/ 2)) / 1) <= 125 / 100 * uro prec). { apply Rmult_le_reg_r with (norm (V (/ 2) (/ 2) (/ 2))); [lra |]. field_simplify; [| lra]. assert (125 / 100 * uro prec * (8 / 10) <= 125 / 100 * uro prec * norm (V (/ 2) (/ 2) (/ 2))) by (apply Rmult_le_compat_l; lra). lra. }
      replace (H (V (/ 2) (/ 2) (/ 2)) (- / 2)) with (hpower (H (V (/ 2) (/ 2) (/ 2)) (/ 2)) 2); [eapply Rle_trans; [exact D |]; lra |].
      destruct (C107_reference (H (V (/ 2) (/ 2) (/ 2)) (/ 2))) as (R1 & R2 & _); [intro Z; apply (f_equal vx) in Z; simpl in Z; lra |].
      pose proof (R2 1 1) as R3. replace (1 + 1) with 2 in R3 by lra. rewrite R3, R1. unfold hmul, vadd, vscale, vcross, vdot. simpl. f_equal; [f_equal |]; lra.
  Qed.
End Case.
