(** PropertiesInv3G.v — Mat3::inverse in IEEE arithmetic for every determinant (C138), and nothing else.  u = 2^-prec, eta
    half the smallest positive number, K a bound on the absolute values of the entries, D the exact determinant. *)
From Coq Require Import Reals List ZArith NArith Bool Lra Lia Psatz.
From Flocq Require Import Core BinarySingleNaN.
Import ListNotations.
From Verif Require Import Base Num Vec Mat Float SpecMat SpecReal SpecInv3 SpecRound FloatFacts PMat PInv3F PInv3G PropertiesGjk2.
Local Open Scope R_scope.

Section Inv3G.
Context (prec emax : Z) {Hp : Prec_gt_0 prec} {Hm : Prec_lt_emax prec emax} (lm : libm (binary_float prec emax)).
Notation bf := (binary_float prec emax).
Notation F := (@Ieee prec emax Hp Hm lm).
Notation val := (@B2R prec emax).
Notation within_K K f := (forall i j, (i < 3)%N -> (j < 3)%N -> is_finite (f i j : bf) = true /\ Rabs (val (f i j)) <= K).
Notation real f := ((fun i j => val (f i j : bf)) : rmat).
Notation err K D := (uro prec * (K * K) * (3 + 13 * / Rabs D + 116 * (K * K * K * (/ Rabs D * / Rabs D))) + 3 * eta prec emax).
(** a determinant clear of the two literals and of rounding: finite entries close to what the formulas of the code amount to *)
Theorem C138_formulas (m : mat3 F) (f : lmat F) (K : R) : (9 < prec)%Z -> (40 < emax)%Z -> repr3 m f -> within_K K f -> 1 <= K -> bpow radix2 40 * (K * K * K) <= bpow radix2 emax ->
  let D := rdet3 (real f) in bpow radix2 (- 32) + 58 * uro prec * (K * K * K) <= Rabs D ->
  exists r g, mat3_inverse m = Ok (Some r) /\ m3_rm r = m3_rm m /\ repr3 r g /\ forall i j, (i < 3)%N -> (j < 3)%N -> is_finite (g i j : bf) = true /\ Rabs (val (g i j) - lop3 (real f) i j) <= err K D.
Proof. intros P E Hr Hf K1 KB D HD. exact (inv3_gen prec emax lm K f P E K1 KB Hf HD m Hr). Qed.
(** the middle row is that of the inverse, with its middle entry negated *)
Theorem C138_middle_row (m : mat3 F) (f : lmat F) (K : R) : (9 < prec)%Z -> (40 < emax)%Z -> repr3 m f -> within_K K f -> 1 <= K -> bpow radix2 40 * (K * K * K) <= bpow radix2 emax ->
  let D := rdet3 (real f) in bpow radix2 (- 32) + 58 * uro prec * (K * K * K) <= Rabs D ->
  exists h : rmat, rinverse3 (real f) h /\ exists r g, mat3_inverse m = Ok (Some r) /\ repr3 r g /\
    Rabs (val (g 1%N 0%N) - h 1%N 0%N) <= err K D /\ Rabs (val (g 1%N 1%N) + h 1%N 1%N) <= err K D /\ Rabs (val (g 1%N 2%N) - h 1%N 2%N) <= err K D.
Proof.
  intros P E Hr Hf K1 KB D HD. assert (D0 : D <> 0). { intro Z. rewrite Z, Rabs_R0 in HD. pose proof (bpow_gt_0 radix2 (-32)). assert (0 < uro prec) by apply bpow_gt_0. assert (0 <= 58 * uro prec * (K * K * K)) by (repeat apply Rmult_le_pos; lra). lra. }
  exists (fun i j => radj3 (real f) i j / D). split; [exact (adj3_inverse (real f) D0) |]. destruct (C138_formulas m f K P E Hr Hf K1 KB HD) as (r & g & Q1 & _ & Q2 & Q3). exists r, g. split; [exact Q1 |]. split; [exact Q2 |].
  destruct (Q3 1%N 0%N eq_refl eq_refl) as [_ A]. destruct (Q3 1%N 1%N eq_refl eq_refl) as [_ B]. destruct (Q3 1%N 2%N eq_refl eq_refl) as [_ C]. fold D in A, B, C. unfold lop3 in A, B, C. fold D in A, B, C. cbn [N.eqb Pos.eqb] in A, B, C. unfold radj3, sgn. cbn [N.even N.add Pos.add Pos.succ].
  split; [| split].
  - eapply Rle_trans; [right | exact A]. f_equal. unfold Rdiv. ring.
  - eapply Rle_trans; [right | exact B]. f_equal. unfold Rdiv. ring.
  - eapply Rle_trans; [right | exact C]. f_equal. unfold Rdiv. ring.
Qed.
End Inv3G.
Print Assumptions C138_formulas.
Print Assumptions C138_middle_row.

(** twice the unit matrix in f64 meets the hypotheses: the corner entries come out near 4 instead of 1/2, the middle one near
    -1/2 *)
Section Inv3GCase.
  Variable lm : libm f64.
  Notation F := (F64 lm).
  Notation val := (@B2R 53 1024).
  Definition twice_m : mat3 F := let z := nlit F 0 1 in let t := nlit F 2 1 in M3 (A9 t z z z t z z z t) true.
  Definition twice_f : lmat F := fun i j => nlit F (if (i =? j)%N then 2 else 0) 1.
  Lemma twice_repr : repr3 twice_m twice_f.
  Proof. intros chk i j Hi Hj. cases3 i Hi; cases3 j Hj; destruct chk; reflexivity. Qed.
  Lemma twice_val i j : (i < 3)%N -> (j < 3)%N -> is_finite (twice_f i j : f64) = true /\ val (twice_f i j : f64) = IZR (if (i =? j)%N then 2 else 0).
  Proof.
    intros Hi Hj. unfold twice_f. destruct (i =? j)%N; [apply (@fv_lit1 53 1024 f64_prec_gt_0 f64_prec_lt_emax 2), (@fv_int2 53 1024 f64_prec_gt_0 f64_prec_lt_emax) | apply (@fv_lit1 53 1024 f64_prec_gt_0 f64_prec_lt_emax 0), (@fv_int0 53 1024 f64_prec_gt_0 f64_prec_lt_emax)].
  Qed.
  Example C138_case : exists r g, mat3_inverse twice_m = Ok (Some r) /\ repr3 r g /\ Rabs (val (g 0%N 0%N : f64) - 4) <= / 1000000000 /\ Rabs (val (g 1%N 1%N : f64) + / 2) <= / 1000000000.
  Proof.
    assert (V : forall i j, (i < 3)%N -> (j < 3)%N -> val (twice_f i j : f64) = IZR (if (i =? j)%N then 2 else 0)) by (intros i j Hi Hj; exact (proj2 (twice_val i j Hi Hj))).
    assert (W : forall i j, (i < 3)%N -> (j < 3)%N -> is_finite (twice_f i j : f64) = true /\ Rabs (val (twice_f i j : f64)) <= 2).
    { intros i j Hi Hj. destruct (twice_val i j Hi Hj) as [A B]. split; [exact A |]. rewrite B. apply Rabs_le. destruct (i =? j)%N; lra. }
    assert (D : rdet3 (fun i j => val (twice_f i j : f64)) = 8).
    { unfold rdet3, rdet2, minor, skip. cbn [N.ltb N.compare Pos.compare Pos.compare_cont N.add Pos.add Pos.succ]. rewrite !V by reflexivity. cbn [N.eqb Pos.eqb]. lra. }
    assert (U : 0 < uro 53 <= / 9007199254740992) by (unfold uro; cbn; lra).
    assert (T : 0 < eta 53 1024 <= / 9007199254740992). { split; [apply bpow_gt_0 |]. apply Rle_trans with (bpow radix2 (-53)); [apply bpow_le; lia | cbn; lra]. }
    destruct (@C138_formulas 53 1024 f64_prec_gt_0 f64_prec_lt_emax lm twice_m twice_f 2 eq_refl eq_refl twice_repr W) as (r & g & Q1 & _ & Q2 & Q3); [lra | | |].
    - replace (2 * 2 * 2) with (bpow radix2 3) by (cbn; lra). rewrite <- bpow_plus. apply bpow_le. lia.
    - rewrite D, Rabs_pos_eq by lra. change (bpow radix2 (-32)) with (/ IZR 4294967296). lra.
    - exists r, g. split; [exact Q1 |]. split; [exact Q2 |]. rewrite D, (Rabs_pos_eq 8) in Q3 by lra.
      destruct (Q3 0%N 0%N eq_refl eq_refl) as [_ G1]. destruct (Q3 1%N 1%N eq_refl eq_refl) as [_ G2]. unfold lop3 in G1, G2. rewrite D in G1, G2. unfold rdet2, minor2, skip in G1, G2. cbn [N.ltb N.eqb N.compare Pos.compare Pos.compare_cont N.add Pos.add Pos.succ Pos.eqb] in G1, G2. rewrite !V in G1, G2 by reflexivity. cbn [N.eqb Pos.eqb] in G1, G2.
      apply Rabs_le_inv in G1. apply Rabs_le_inv in G2. split; apply Rabs_le; lra.
  Qed.
End Inv3GCase.
