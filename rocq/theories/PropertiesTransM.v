(** PropertiesTransM.v — the translation matrix in IEEE arithmetic (C140), and nothing else.  u = 2^-prec, eta half the
    smallest positive number. *)
From Coq Require Import Reals List ZArith NArith Bool Lra Lia Psatz.
From Flocq Require Import Core BinarySingleNaN.
Import ListNotations.
From Verif Require Import Base Num Vec Mat Quat Float SpecMat SpecReal SpecRound FloatFacts PIeee2 PPrismF PTransM PropertiesGjk2.
Local Open Scope R_scope.

Section TransM.
Context (prec emax : Z) {Hp : Prec_gt_0 prec} {Hm : Prec_lt_emax prec emax} (lm : libm (binary_float prec emax)).
Notation bf := (binary_float prec emax).
Notation F := (@Ieee prec emax Hp Hm lm).
Notation val x := (@B2R prec emax (x : bf)).
Notation fin x := (is_finite (x : bf) = true).
Notation u := (uro prec).
Notation et := (eta prec emax).
(** the library's matrix for the translation by (a,b,c), applied to the point (x,y,z,1) *)
Notation moved rm a b c x y z := (mat4_mul_mat4x1 (quat_to_translation_matrix (quat_init_from_translation (M3x1 (A3 a b c))) rm) (M4x1 (A4 x y z n1))).
(** row layout: half the translation, wherever the point is *)
Theorem C140_row (a b c x y z : F) : fin a -> fin b -> fin c -> fin x -> fin y -> fin z ->
  exists r0 r1 r2 r3 : F, moved true a b c x y z = Ok (Some (M4x1 (A4 r0 r1 r2 r3))) /\ fin r0 /\ fin r1 /\ fin r2 /\ fin r3 /\
    Rabs (val r0 - val a / 2) <= et /\ Rabs (val r1 - val b / 2) <= et /\ Rabs (val r2 - val c / 2) <= et /\ val r3 = 1.
Proof.
  intros Fa Fb Fc Fx Fy Fz. destruct (row_eval prec emax lm a b c x y z Fa Fb Fc Fx Fy Fz) as (r0 & r1 & r2 & r3 & H & [A1 A2] & [B1 B2] & [C1 C2] & [D1 D2]).
  pose proof (fv_lit_2 prec emax) as W. exists r0, r1, r2, r3. repeat (split; [assumption |]). rewrite A2, B2, C2. split; [| split; [| split; [| exact D2]]]; apply half_fin; assumption.
Qed.
(** so the first component is right only for points within eta of minus half the translation *)
Theorem C140_row_wrong (a b c x y z : F) : fin a -> fin b -> fin c -> fin x -> fin y -> fin z -> et < Rabs (val x + val a / 2) ->
  exists r0 r1 r2 r3 : F, moved true a b c x y z = Ok (Some (M4x1 (A4 r0 r1 r2 r3))) /\ val r0 <> val x + val a.
Proof.
  intros Fa Fb Fc Fx Fy Fz H. destruct (C140_row a b c x y z Fa Fb Fc Fx Fy Fz) as (r0 & r1 & r2 & r3 & Q & _ & _ & _ & _ & A & _). exists r0, r1, r2, r3. split; [exact Q |]. intro E. rewrite E in A.
  replace (val x + val a - val a / 2) with (val x + val a / 2) in A by field. lra.
Qed.
(** column layout: the origin, with a last component near 1 + t.p/2 *)
Theorem C140_column (a b c x y z : F) : let k := (emax / 2 - 3)%Z in (9 < prec)%Z -> Forall (fun v : F => fin v /\ Rabs (val v) <= bpow radix2 k) [a; b; c; x; y; z] ->
  exists r0 r1 r2 r3 : F, moved false a b c x y z = Ok (Some (M4x1 (A4 r0 r1 r2 r3))) /\ fin r0 /\ fin r1 /\ fin r2 /\ fin r3 /\ val r0 = 0 /\ val r1 = 0 /\ val r2 = 0 /\
    Rabs (val r3 - (1 + (val a * val x + val b * val y + val c * val z) / 2)) <= 9 / 2 * u * (1 + Rabs (val a * val x) + Rabs (val b * val y) + Rabs (val c * val z)) + et * (5 + Rabs (val x) + Rabs (val y) + Rabs (val z)).
Proof.
  intros k P H. inversion_clear H as [| ? ? Ha H1]. inversion_clear H1 as [| ? ? Hb H2]. inversion_clear H2 as [| ? ? Hc H3]. inversion_clear H3 as [| ? ? Hx H4]. inversion_clear H4 as [| ? ? Hy H5]. inversion_clear H5 as [| ? ? Hz _].
  destruct (col_eval prec emax lm a b c x y z P Ha Hb Hc Hx Hy Hz) as (r0 & r1 & r2 & r3 & Q & [A1 A2] & [B1 B2] & [C1 C2] & D1 & D2).
  exists r0, r1, r2, r3. repeat (split; [assumption |]). exact D2.
Qed.
End TransM.
Print Assumptions C140_row.
Print Assumptions C140_row_wrong.
Print Assumptions C140_column.

(** moving (1,20,300) by (8,6,4) in f64: row layout near (4,3,2), column layout the origin with last component near
    1 + 1328/2 *)
Section TransCase.
  Variable lm : libm f64.
  Notation F := (F64 lm).
  Notation z x := (nlit F x 1).
  Lemma case_trans x : (Z.abs x < 512)%Z -> is_finite (z x : f64) = true /\ B2R (z x : f64) = IZR x.
  Proof. exact (@lit_z 53 1024 f64_prec_gt_0 f64_prec_lt_emax lm eq_refl x). Qed.
  Example C140_case_row : exists r0 r1 r2 r3 : F, mat4_mul_mat4x1 (quat_to_translation_matrix (quat_init_from_translation (M3x1 (A3 (z 8) (z 6) (z 4)))) true) (M4x1 (A4 (z 1) (z 20) (z 300) n1)) = Ok (Some (M4x1 (A4 r0 r1 r2 r3))) /\ B2R (r0 : f64) <> B2R (z 1 : f64) + B2R (z 8 : f64).
  Proof.
    apply (@C140_row_wrong 53 1024 f64_prec_gt_0 f64_prec_lt_emax lm); try (apply case_trans; reflexivity).
    rewrite (proj2 (case_trans 1 eq_refl)), (proj2 (case_trans 8 eq_refl)). rewrite Rabs_pos_eq by lra. apply Rle_lt_trans with 1; [| lra]. change 1 with (bpow radix2 0). apply bpow_le. lia.
  Qed.
  Example C140_case_column : exists r0 r1 r2 r3 : F, mat4_mul_mat4x1 (quat_to_translation_matrix (quat_init_from_translation (M3x1 (A3 (z 8) (z 6) (z 4)))) false) (M4x1 (A4 (z 1) (z 20) (z 300) n1)) = Ok (Some (M4x1 (A4 r0 r1 r2 r3))) /\ B2R (r0 : f64) = 0 /\ Rabs (B2R (r3 : f64) - 665) <= / 1000000.
  Proof.
    assert (B : forall x, (Z.abs x < 512)%Z -> is_finite (z x : f64) = true /\ Rabs (B2R (z x : f64)) <= bpow radix2 (1024 / 2 - 3)). { intros x Hx. destruct (case_trans x Hx) as [A1 A2]. split; [exact A1 |]. rewrite A2, <- abs_IZR. apply Rle_trans with (bpow radix2 9); [change (bpow radix2 9) with (IZR 512); apply IZR_le; lia | apply bpow_le; vm_compute; discriminate]. }
    destruct (@C140_column 53 1024 f64_prec_gt_0 f64_prec_lt_emax lm (z 8) (z 6) (z 4) (z 1) (z 20) (z 300) eq_refl) as (r0 & r1 & r2 & r3 & Q & _ & _ & _ & _ & A & _ & _ & D).
    - repeat (apply Forall_cons; [apply B; reflexivity |]). apply Forall_nil.
    - exists r0, r1, r2, r3. split; [exact Q |]. split; [exact A |].
      pose proof (proj2 (case_trans 8 eq_refl)) as V8. pose proof (proj2 (case_trans 6 eq_refl)) as V6. pose proof (proj2 (case_trans 4 eq_refl)) as V4. pose proof (proj2 (case_trans 1 eq_refl)) as V1. pose proof (proj2 (case_trans 20 eq_refl)) as V20. pose proof (proj2 (case_trans 300 eq_refl)) as V300.
      rewrite V8, V6, V4, V1, V20, V300 in D. assert (U : 0 < uro 53 <= / 9007199254740992) by (unfold uro; cbn; lra).
      assert (T : 0 < eta 53 1024 <= / 9007199254740992). { split; [apply bpow_gt_0 |]. apply Rle_trans with (bpow radix2 (-53)); [apply bpow_le; lia | cbn; lra]. }
      rewrite !(Rabs_pos_eq (_ * _)), !(Rabs_pos_eq (IZR _)) in D by lra. replace (1 + (8 * 1 + 6 * 20 + 4 * 300) / 2) with 665 in D by field. lra.
  Qed.
End TransCase.
