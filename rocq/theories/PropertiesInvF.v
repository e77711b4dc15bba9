(** PropertiesInvF.v — Mat4::inverse in IEEE arithmetic (C94), and nothing else.  u = 2^-prec, eta half the smallest
    positive number, K a bound on the absolute values of the entries. *)
From Coq Require Import Reals List ZArith NArith Bool Lra Lia.
From Flocq Require Import Core BinarySingleNaN.
Import ListNotations.
From Verif Require Import Base Num Vec Mat Float SpecMat SpecReal SpecRound FloatFacts PMat PMat2 PInvF PropertiesGjk2.
Local Open Scope R_scope.

Section InvF.
Context (prec emax : Z) {Hp : Prec_gt_0 prec} {Hm : Prec_lt_emax prec emax} (lm : libm (binary_float prec emax)).
Notation bf := (binary_float prec emax).
Notation F := (@Ieee prec emax Hp Hm lm).
Notation val := (@B2R prec emax).
(** finite entries of absolute value at most [K], the real matrix they denote *)
Notation within_K K f := (forall i j, (i < 4)%N -> (j < 4)%N -> is_finite (f i j : bf) = true /\ Rabs (val (f i j)) <= K).
Notation real f := ((fun i j => val (f i j : bf)) : rmat).
(** a determinant above rounding size: the result is row-major and its entry (i,j) is close to entry (j,i) of the inverse *)
Theorem C94_inverse (m : mat4 F) (f : lmat F) (K : R) : (9 < prec)%Z -> repr4 m f -> within_K K f -> 1 <= K -> 128 * (K * K * K * K) <= bpow radix2 emax ->
  let D := rdet4 (real f) in 423 * uro prec * (K * K * K * K) <= Rabs D ->
  exists r g, mat4_inverse m = Ok (Some r) /\ m4_rm r = true /\ repr4 r g /\ forall i j, (i < 4)%N -> (j < 4)%N -> is_finite (g i j : bf) = true /\
    Rabs (val (g i j) - radj4 (real f) j i / D) <= uro prec * (91 * (K * K * K) / Rabs D + 2534 * (K * K * K) * (K * K * K * K) / (D * D)) + eta prec emax.
Proof. intros P Hr Hf K1 KB D HD. exact (inverse_ieee prec emax lm K P K1 KB f Hf m Hr HD). Qed.
(** None means a determinant of rounding size; no such matrix makes it panic *)
Theorem C94_none (m : mat4 F) (f : lmat F) (K : R) : (9 < prec)%Z -> repr4 m f -> within_K K f -> 1 <= K -> 128 * (K * K * K * K) <= bpow radix2 emax ->
  (exists o, mat4_inverse m = Ok o) /\
  (mat4_inverse m = Ok None -> Rabs (rdet4 (real f)) < 2 * uro prec + 212 * uro prec * (K * K * K * K)).
Proof. intros P Hr Hf K1 KB. split; [exact (inverse_answers prec emax lm f m Hr) | exact (inverse_none prec emax lm K P K1 KB f Hf m Hr)]. Qed.
End InvF.
Print Assumptions C94_inverse.
Print Assumptions C94_none.

(** the converse is false: a singular f64 matrix of integers, its last row the sum of the two before, for which the computed
    determinant is 1024 and an "inverse" is returned *)
Section InvCase.
  Variable lm : libm f64.
  Notation F := (F64 lm).
  Notation val := (@B2R 53 1024).
  Definition zmat (a : arr16 Z) : mat4 F := match a with A16 a0 a1 a2 a3 a4 a5 a6 a7 a8 a9 a10 a11 a12 a13 a14 a15 =>
    let l z := nlit F z 1 in M4 (A16 (l a0) (l a1) (l a2) (l a3) (l a4) (l a5) (l a6) (l a7) (l a8) (l a9) (l a10) (l a11) (l a12) (l a13) (l a14) (l a15)) true end.
  Definition zents (a : arr16 Z) : lmat F := fun i j => nlit F (rows16 a i j) 1.
  Lemma zrepr a : repr4 (zmat a) (zents a).
  Proof. destruct a. intros chk i j Hi Hj. cases4 i Hi; cases4 j Hj; destruct chk; reflexivity. Qed.
  Definition sing : arr16 Z := (A16 3593 9745 96274 81182 39676 70392 70833 79231 95335 26798 62731 65524 135011 97190 133564 144755)%Z.
  Lemma z_val z m e : B2SF (@f_int 53 1024 f64_prec_gt_0 f64_prec_lt_emax z) = SpecFloat.S754_finite false m e -> F2R (Float radix2 (Z.pos m) e) = IZR z ->
    is_finite (nlit F z 1 : f64) = true /\ val (nlit F z 1 : f64) = IZR z.
  Proof. intros H1 H2. apply (fv_lit1 53 1024 z). exact (fv_int_check 53 1024 z false m e H1 H2). Qed.
  Ltac zv := eapply z_val; [vm_compute; reflexivity | unfold F2R; cbn; lra].
  Lemma sing_val i j : (i < 4)%N -> (j < 4)%N -> is_finite (zents sing i j : f64) = true /\ val (zents sing i j : f64) = IZR (rows16 sing i j).
  Proof. intros Hi Hj. unfold zents. cases4 i Hi; cases4 j Hj; cbn [rows16 sing]; zv. Qed.
  Theorem C94_singular_f64 : repr4 (zmat sing) (zents sing) /\ rdet4 (fun i j => val (zents sing i j : f64)) = 0 /\ exists r, mat4_inverse (zmat sing) = Ok (Some r).
  Proof.
    split; [apply zrepr |]. split.
    - unfold rdet4, rdet3, rdet2, minor, skip. cbn [N.ltb N.compare Pos.compare Pos.compare_cont N.add Pos.add Pos.succ].
      rewrite !(fun i j Hi Hj => proj2 (sing_val i j Hi Hj)) by reflexivity. cbn [rows16 sing]. lra.
    - assert (Y : match mat4_inverse (zmat sing) with Ok (Some _) => true | _ => false end = true) by (vm_compute; reflexivity).
      destruct (mat4_inverse (zmat sing)) as [[r |] |]; [exists r; reflexivity | discriminate Y | discriminate Y].
  Qed.
  (** the hypotheses of C94_inverse can be met *)
  Definition good : arr16 Z := (A16 2 0 0 1 0 1 0 0 0 0 1 0 1 0 0 1)%Z.
  Lemma good_val i j : (i < 4)%N -> (j < 4)%N -> is_finite (zents good i j : f64) = true /\ val (zents good i j : f64) = IZR (rows16 good i j).
  Proof. intros Hi Hj. unfold zents. cases4 i Hi; cases4 j Hj; cbn [rows16 good]; first [exact (fv_lit_0 53 1024) | exact (fv_lit_1 53 1024) | exact (fv_lit_2 53 1024)]. Qed.
  Example C94_case : repr4 (zmat good) (zents good) /\ (forall i j, (i < 4)%N -> (j < 4)%N -> is_finite (zents good i j : f64) = true /\ Rabs (val (zents good i j : f64)) <= 2) /\
    128 * (2 * 2 * 2 * 2) <= bpow radix2 1024 /\ rdet4 (fun i j => val (zents good i j : f64)) = 1 /\ 423 * uro 53 * (2 * 2 * 2 * 2) <= Rabs 1.
  Proof.
    split; [apply zrepr |]. split; [| split; [| split]].
    - intros i j Hi Hj. destruct (good_val i j Hi Hj) as [G1 ->]. split; [exact G1 |].
      cases4 i Hi; cases4 j Hj; cbn [rows16 good]; rewrite ?Rabs_R0, ?Rabs_R1, ?(Rabs_pos_eq 2); lra.
    - apply Rle_trans with (bpow radix2 11); [change (bpow radix2 11) with 2048; lra | apply bpow_le; lia].
    - unfold rdet4, rdet3, rdet2, minor, skip. cbn [N.ltb N.compare Pos.compare Pos.compare_cont N.add Pos.add Pos.succ].
      rewrite !(fun i j Hi Hj => proj2 (good_val i j Hi Hj)) by reflexivity. cbn [rows16 good]. lra.
    - rewrite Rabs_R1. assert (uro 53 <= / 1048576) by (change (/ 1048576) with (bpow radix2 (-20)); apply bpow_le; lia). lra.
  Qed.
End InvCase.
Print Assumptions C94_singular_f64.
