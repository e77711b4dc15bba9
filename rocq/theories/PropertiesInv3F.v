(** PropertiesInv3F.v — Mat3::inverse in IEEE arithmetic (C137), and nothing else.  u = 2^-prec, K a bound on the absolute
    values of the entries, D the exact determinant of the real matrix they denote. *)
From Coq Require Import Reals List ZArith NArith Bool Lra Lia Psatz.
From Flocq Require Import Core BinarySingleNaN.
Import ListNotations.
From Verif Require Import Base Num Vec Mat Float SpecMat SpecReal SpecRound FloatFacts PMat PInv3F PropertiesGjk2.
Local Open Scope R_scope.

Section Inv3F.
Context (prec emax : Z) {Hp : Prec_gt_0 prec} {Hm : Prec_lt_emax prec emax} (lm : libm (binary_float prec emax)).
Notation bf := (binary_float prec emax).
Notation F := (@Ieee prec emax Hp Hm lm).
Notation val := (@B2R prec emax).
(** finite entries of absolute value at most [K], the real matrix they denote *)
Notation within_K K f := (forall i j, (i < 3)%N -> (j < 3)%N -> is_finite (f i j : bf) = true /\ Rabs (val (f i j)) <= K).
Notation real f := ((fun i j => val (f i j : bf)) : rmat).
(** how far the computed determinant can be from 1 *)
Notation off f K := (Rabs (rdet3 (real f) - 1) + 29 * uro prec * (K * K * K)).
(** a determinant near 1: an answer with finite entries in the same layout, near the adjugate with its middle column negated *)
Theorem C137_unimodular (m : mat3 F) (f : lmat F) (K : R) : (9 < prec)%Z -> (37 < emax)%Z -> repr3 m f -> within_K K f -> 1 <= K -> 128 * (K * K * K) <= bpow radix2 emax -> off f K <= / 4 ->
  exists r g, mat3_inverse m = Ok (Some r) /\ m3_rm r = m3_rm m /\ repr3 r g /\ forall i j, (i < 3)%N -> (j < 3)%N -> is_finite (g i j : bf) = true /\
    Rabs (val (g i j) - rmul3 (radj3 (real f)) rflip i j) <= (3 * off f K + 10 * uro prec) * (K * K).
Proof. intros P E Hr Hf K1 KB HL. exact (inv3_ieee prec emax lm f m K P E Hr K1 KB Hf HL). Qed.
(** so in the middle column every entry clear of rounding size comes out with the wrong sign, and in the others with the right one *)
Theorem C137_signs (m : mat3 F) (f : lmat F) (K : R) : (9 < prec)%Z -> (37 < emax)%Z -> repr3 m f -> within_K K f -> 1 <= K -> 128 * (K * K * K) <= bpow radix2 emax -> off f K <= / 4 ->
  let h : rmat := fun i j => radj3 (real f) i j / rdet3 (real f) in rinverse3 (real f) h /\
  exists r g, mat3_inverse m = Ok (Some r) /\ repr3 r g /\ forall i j, (i < 3)%N -> (j < 3)%N -> (3 * off f K + 10 * uro prec) * (K * K) < Rabs (radj3 (real f) i j) ->
    if (j =? 1)%N then val (g i j) * h i j < 0 else 0 < val (g i j) * h i j.
Proof.
  intros P E Hr Hf K1 KB HL. assert (D0 : 0 < rdet3 (real f)). { destruct (PInvF.u_et prec emax P) as [[U0 _] _]. assert (1 <= K * K * K) by (assert (1 <= K * K) by nra; nra). assert (0 <= 29 * uro prec * (K * K * K)) by (apply Rmult_le_pos; lra). pose proof (Rabs_pos (rdet3 (real f) - 1)). assert (Z : Rabs (rdet3 (real f) - 1) <= / 4) by lra. apply Rabs_le_inv in Z. lra. }
  split; [apply adj3_inverse; lra |].
  destruct (C137_unimodular m f K P E Hr Hf K1 KB HL) as (r & g & Q1 & _ & Q2 & Q3). exists r, g. split; [exact Q1 |]. split; [exact Q2 |].
  intros i j Hi Hj H. destruct (Q3 i j Hi Hj) as [_ B]. pose proof (Rinv_0_lt_compat _ D0) as I0. unfold Rdiv. rewrite <- !Rmult_assoc.
  set (a := radj3 (real f) i j) in *. set (t := val (g i j)) in *. set (d := / rdet3 (real f)) in *.
  assert (T : rmul3 (radj3 (real f)) rflip i j = if (j =? 1)%N then - a else a). { unfold a, rmul3, rsum3, rflip. cases3 j Hj; cbn [N.eqb Pos.eqb]; ring. }
  rewrite T in B. destruct (j =? 1)%N.
  - assert (t * a < 0) by (unfold Rabs in *; destruct (Rcase_abs a); destruct (Rcase_abs (t - - a)); nra). nra.
  - assert (0 < t * a) by (unfold Rabs in *; destruct (Rcase_abs a); destruct (Rcase_abs (t - a)); nra). nra.
Qed.
(** None means a determinant of the size of the two literals and rounding; never a panic, and the layout is always kept *)
Theorem C137_none (m : mat3 F) (f : lmat F) (K : R) : (9 < prec)%Z -> (37 < emax)%Z -> repr3 m f -> within_K K f -> 1 <= K -> 128 * (K * K * K) <= bpow radix2 emax ->
  mat3_inverse m = Ok None -> - (bpow radix2 (- 36) + 29 * uro prec * (K * K * K)) < rdet3 (real f) < bpow radix2 (- 33) + 29 * uro prec * (K * K * K).
Proof. intros P E Hr Hf K1 KB. exact (inv3_none_ieee prec emax lm f m K P E Hr K1 KB Hf). Qed.
Theorem C137_total (m : mat3 F) (f : lmat F) : repr3 m f -> (exists o, mat3_inverse m = Ok o) /\ (forall r, mat3_inverse m = Ok (Some r) -> m3_rm r = m3_rm m).
Proof. intro H. split; [exact (inv3_answers prec emax lm f m H) | intro r; exact (inv3_layout prec emax lm f m r H)]. Qed.
End Inv3F.
Print Assumptions C137_unimodular.
Print Assumptions C137_signs.
Print Assumptions C137_none.
Print Assumptions C137_total.

(** a shear in f64 meets the hypotheses *)
Section Inv3Case.
  Variable lm : libm f64.
  Notation F := (F64 lm).
  Notation val := (@B2R 53 1024).
  Definition shear : arr9 Z := (A9 1 5 0 0 1 5 0 0 1)%Z.
  Definition shear_m : mat3 F := let l z := nlit F z 1 in M3 (A9 (l 1) (l 5) (l 0) (l 0) (l 1) (l 5) (l 0) (l 0) (l 1))%Z true.
  Definition shear_f : lmat F := fun i j => nlit F (rows9 shear i j) 1.
  Lemma shear_repr : repr3 shear_m shear_f.
  Proof. intros chk i j Hi Hj. cases3 i Hi; cases3 j Hj; destruct chk; reflexivity. Qed.
  Lemma z_val3 z m e : B2SF (@f_int 53 1024 f64_prec_gt_0 f64_prec_lt_emax z) = SpecFloat.S754_finite false m e -> F2R (Float radix2 (Z.pos m) e) = IZR z ->
    is_finite (nlit F z 1 : f64) = true /\ val (nlit F z 1 : f64) = IZR z.
  Proof. intros H1 H2. apply (fv_lit1 53 1024 z). exact (fv_int_check 53 1024 z false m e H1 H2). Qed.
  Lemma shear_val i j : (i < 3)%N -> (j < 3)%N -> is_finite (shear_f i j : f64) = true /\ val (shear_f i j : f64) = IZR (rows9 shear i j).
  Proof.
    intros Hi Hj. unfold shear_f. cases3 i Hi; cases3 j Hj; cbn [rows9 shear]; try (eapply z_val3; [vm_compute; reflexivity | unfold F2R; cbn; lra]); apply (@fv_lit1 53 1024 f64_prec_gt_0 f64_prec_lt_emax 0), (@fv_int0 53 1024 f64_prec_gt_0 f64_prec_lt_emax).
  Qed.
  Example C137_case : exists r g, mat3_inverse shear_m = Ok (Some r) /\ repr3 r g /\ val (g 1%N 1%N : f64) < 0 /\ Rabs (val (g 0%N 2%N : f64) - 25) <= / 1000000000.
  Proof.
    assert (V : forall i j, (i < 3)%N -> (j < 3)%N -> val (shear_f i j : f64) = IZR (rows9 shear i j)) by (intros i j Hi Hj; exact (proj2 (shear_val i j Hi Hj))).
    assert (W : forall i j, (i < 3)%N -> (j < 3)%N -> is_finite (shear_f i j : f64) = true /\ Rabs (val (shear_f i j : f64)) <= 5).
    { intros i j Hi Hj. destruct (shear_val i j Hi Hj) as [A B]. split; [exact A |]. rewrite B. apply Rabs_le. cases3 i Hi; cases3 j Hj; cbn [rows9 shear]; lra. }
    assert (D : rdet3 (fun i j => val (shear_f i j : f64)) = 1).
    { unfold rdet3, rdet2, minor, skip. cbn [N.ltb N.compare Pos.compare Pos.compare_cont N.add Pos.add Pos.succ]. rewrite !V by reflexivity. cbn [rows9 shear]. lra. }
    assert (U : 0 < uro 53 <= / 9007199254740992) by (unfold uro; cbn; lra).
    destruct (@C137_unimodular 53 1024 f64_prec_gt_0 f64_prec_lt_emax lm shear_m shear_f 5 eq_refl eq_refl shear_repr W) as (r & g & Q1 & _ & Q2 & Q3); [lra | | |].
    - replace (128 * (5 * 5 * 5)) with (IZR 16000) by lra. apply Rle_trans with (bpow radix2 14); [cbn; lra | apply bpow_le; lia].
    - rewrite D, Rminus_diag_eq, Rabs_R0 by reflexivity. lra.
    - exists r, g. split; [exact Q1 |]. split; [exact Q2 |]. rewrite D, Rminus_diag_eq, Rabs_R0 in Q3 by reflexivity.
      destruct (Q3 1%N 1%N eq_refl eq_refl) as [_ G1]. destruct (Q3 0%N 2%N eq_refl eq_refl) as [_ G2]. unfold rmul3, rsum3, rflip, radj3, sgn, rdet2, minor2, skip in G1, G2. cbn [N.ltb N.eqb N.even N.compare Pos.compare Pos.compare_cont N.add Pos.add Pos.succ Pos.eqb] in G1, G2. rewrite !V in G1, G2 by reflexivity. cbn [rows9 shear] in G1, G2.
      apply Rabs_le_inv in G1. split; [lra |]. apply Rabs_le_inv in G2. apply Rabs_le. lra.
  Qed.
End Inv3Case.
