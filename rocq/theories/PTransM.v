(** PTransM.v — the translation matrix in IEEE arithmetic (C140). *)
From Coq Require Import Reals List ZArith NArith Bool Lra Lia Psatz.
From Flocq Require Import Core Mult_error BinarySingleNaN.
Import ListNotations.
From Verif Require Import Base Num Vec Mat Quat Float SpecMat SpecReal SpecRound SpecRun SpecRunV FloatFacts FloatRound PMat PMat2 PRound PIeee2 PIeee3 PIeee4 PRunM PRunV.
Local Open Scope R_scope.

Section PTransM.
  Context (prec emax : Z) {Hp : Prec_gt_0 prec} {Hm : Prec_lt_emax prec emax} (lm : libm (binary_float prec emax)).
  Notation bf := (binary_float prec emax).
  Notation fmt := (SpecFloat.fexp prec emax).
  Notation rnd := (round radix2 fmt ZnearestE).
  Notation F := (@Ieee prec emax Hp Hm lm).
  Notation u := (uro prec).
  Notation et := (eta prec emax).
  Notation val := (@B2R prec emax).
  Notation fin x := (is_finite (x : bf) = true).
  Notation emin := (SpecFloat.emin prec emax).
  (** halving a float loses at most half the smallest positive number *)
  Lemma rnd_half (x : bf) : Rabs (rnd (val x / 2) - val x / 2) <= et.
  Proof.
    assert (HP : (0 < prec)%Z) by exact Hp. assert (HM : (prec < emax)%Z) by exact Hm. pose proof (et_pos prec emax) as T0. assert (Vf : Valid_exp fmt) by (apply fexp_correct; exact Hp).
    destruct (Req_dec (val x) 0) as [Z | NZ]. { rewrite Z. replace (0 / 2) with 0 by field. rewrite round_0 by apply valid_rnd_N. rewrite Rminus_diag_eq, Rabs_R0 by reflexivity. lra. }
    assert (HB : val x / 2 = val x * bpow radix2 (-1)) by (change (bpow radix2 (-1)) with (/ 2); reflexivity).
    destruct (Z_le_gt_dec (emin + prec + 1) (mag radix2 (val x))) as [L | L].
    - assert (G : generic_format radix2 fmt (val x / 2)). { rewrite HB. apply (mult_bpow_exact_FLT radix2 emin prec); [apply generic_format_B2R | lia]. }
      rewrite round_generic; [| apply valid_rnd_N | exact G]. rewrite Rminus_diag_eq, Rabs_R0 by reflexivity. lra.
    - eapply Rle_trans; [apply error_le_half_ulp; exact Vf |]. rewrite ulp_neq_0 by lra. unfold cexp. rewrite HB, mag_mult_bpow by exact NZ. unfold SpecFloat.fexp. rewrite Z.max_r by lia.
      change (/ 2) with (bpow radix2 (-1)). rewrite <- bpow_plus. unfold eta. apply bpow_le. unfold SpecFloat.emin. lia.
  Qed.
  Lemma half_fin (x t : bf) : fin x -> fv prec emax t 2 -> fin (Bdiv mode_NE x t) /\ Rabs (val (Bdiv mode_NE x t) - val x / 2) <= et /\ Rabs (val (Bdiv mode_NE x t)) <= Rabs (val x).
  Proof.
    intros Fx [Ft Vt]. assert (B : Rabs (rnd (val x / val t)) <= Rabs (val x)). { rewrite Vt. apply abs_round_le_generic; [apply fexp_correct; exact Hp | apply valid_rnd_N | apply generic_format_abs, generic_format_B2R |]. unfold Rdiv. rewrite Rabs_mult, (Rabs_pos_eq (/ 2)) by lra. pose proof (Rabs_pos (val x)). lra. }
    destruct (proj1 (div_round prec emax x t Fx ltac:(lra))) as [G1 G2]. { eapply Rle_lt_trans; [exact B | apply abs_B2R_lt_emax]. }
    split; [exact G1 |]. rewrite G2. split; [rewrite Vt; apply rnd_half | exact B].
  Qed.
  (** the sum of the products with 0, 0, 0 and one more factor *)
  Lemma zero_sum (o a b c d w : bf) : fv prec emax o 0 -> fin a -> fin b -> fin c -> fin d -> fv prec emax w 1 ->
    fv prec emax (Bplus mode_NE (Bplus mode_NE (Bplus mode_NE (Bmult mode_NE o a) (Bmult mode_NE o b)) (Bmult mode_NE o c)) (Bmult mode_NE d w)) (val d).
  Proof.
    intros [Fo Vo] Fa Fb Fc Fd [Fw Vw].
    assert (M : forall x : bf, fin x -> fv prec emax (Bmult mode_NE o x) 0). { intros x Fx. rewrite <- Vo. apply fv_mult_exact; [exact Fo | exact Fx |]. rewrite Vo. ring. }
    destruct (M a Fa) as [A1 A2]. destruct (M b Fb) as [B1 B2]. destruct (M c Fc) as [C1 C2].
    assert (D : fv prec emax (Bmult mode_NE d w) (val d)) by (apply fv_mult_exact; [exact Fd | exact Fw | rewrite Vw; ring]). destruct D as [D1 D2].
    assert (S1 : fv prec emax (Bplus mode_NE (Bmult mode_NE o a) (Bmult mode_NE o b)) 0). { rewrite <- Vo. apply fv_plus_exact; [exact A1 | exact B1 |]. rewrite A2, B2, Vo. ring. } destruct S1 as [S1 S2].
    assert (S3 : fv prec emax (Bplus mode_NE (Bplus mode_NE (Bmult mode_NE o a) (Bmult mode_NE o b)) (Bmult mode_NE o c)) 0). { rewrite <- Vo. apply fv_plus_exact; [exact S1 | exact C1 |]. rewrite S2, C2, Vo. ring. } destruct S3 as [S3 S4].
    apply fv_plus_exact; [exact S3 | exact D1 |]. rewrite S4, D2. ring.
  Qed.
  Notation n2f := (@f_lit prec emax Hp Hm 2 1).
  Lemma row_eval (a b c x y z : F) : fin a -> fin b -> fin c -> fin x -> fin y -> fin z ->
    exists r0 r1 r2 r3 : F, mat4_mul_mat4x1 (quat_to_translation_matrix (quat_init_from_translation (M3x1 (A3 a b c))) true) (M4x1 (A4 x y z n1)) = Ok (Some (M4x1 (A4 r0 r1 r2 r3))) /\
      fv prec emax r0 (val (Bdiv mode_NE (a : bf) n2f)) /\ fv prec emax r1 (val (Bdiv mode_NE (b : bf) n2f)) /\ fv prec emax r2 (val (Bdiv mode_NE (c : bf) n2f)) /\ fv prec emax r3 1.
  Proof.
    intros Fa Fb Fc Fx Fy Fz. pose proof (fv_lit_0 prec emax) as O. pose proof (fv_lit_1 prec emax) as I. pose proof (fv_lit_2 prec emax) as W.
    assert (Z : forall d : F, fin d -> fv prec emax (Bplus mode_NE (Bplus mode_NE (Bplus mode_NE (Bmult mode_NE (@f_lit prec emax Hp Hm 0 1) x) (Bmult mode_NE (@f_lit prec emax Hp Hm 0 1) y)) (Bmult mode_NE (@f_lit prec emax Hp Hm 0 1) z)) (Bmult mode_NE d (@f_lit prec emax Hp Hm 1 1))) (val d)) by (intros d Fd; apply zero_sum; assumption).
    assert (Hh : forall d : F, fin d -> fin (Bdiv mode_NE (d : bf) n2f)) by (intros d Fd; apply half_fin; assumption).
    eexists. eexists. eexists. eexists. split; [reflexivity |]. split; [exact (Z _ (Hh a Fa)) |]. split; [exact (Z _ (Hh b Fb)) |]. split; [exact (Z _ (Hh c Fc)) |].
    destruct (Z (@f_lit prec emax Hp Hm 1 1) (proj1 I)) as [Q1 Q2]. split; [exact Q1 | exact (eq_trans Q2 (proj2 I))].
  Qed.
  Lemma prod_off a b x : Rabs (a - b) <= et -> Rabs (a * x - b * x) <= et * Rabs x.
  Proof. intro H. replace (a * x - b * x) with ((a - b) * x) by ring. rewrite Rabs_mult. apply Rmult_le_compat_r; [apply Rabs_pos | exact H]. Qed.
  Lemma col_eval (a b c x y z : F) : let k := (emax / 2 - 3)%Z in (9 < prec)%Z -> PIeee2.bnd prec emax k a -> PIeee2.bnd prec emax k b -> PIeee2.bnd prec emax k c -> PIeee2.bnd prec emax k x -> PIeee2.bnd prec emax k y -> PIeee2.bnd prec emax k z ->
    exists r0 r1 r2 r3 : F, mat4_mul_mat4x1 (quat_to_translation_matrix (quat_init_from_translation (M3x1 (A3 a b c))) false) (M4x1 (A4 x y z n1)) = Ok (Some (M4x1 (A4 r0 r1 r2 r3))) /\
      fv prec emax r0 0 /\ fv prec emax r1 0 /\ fv prec emax r2 0 /\ fin r3 /\
      Rabs (val (r3 : bf) - (1 + (val (a : bf) * val (x : bf) + val (b : bf) * val (y : bf) + val (c : bf) * val (z : bf)) / 2)) <= 9 / 2 * u * (1 + Rabs (val (a : bf) * val (x : bf)) + Rabs (val (b : bf) * val (y : bf)) + Rabs (val (c : bf) * val (z : bf))) + et * (5 + Rabs (val (x : bf)) + Rabs (val (y : bf)) + Rabs (val (z : bf))).
  Proof.
    intros k P [Fa Ba] [Fb Bb] [Fc Bc] [Fx Bx] [Fy By] [Fz Bz]. pose proof (half_k prec emax P) as HK. fold k in HK. assert (HZ : (3 - emax - prec <= k + k /\ k + k + 3 < emax /\ k + k < emax /\ 0 <= k)%Z) by (assert (HP : (0 < prec)%Z) by exact Hp; clear - HK HP; clearbody k; lia). destruct HZ as (Z1 & Z2 & Z3 & Z4). clear HK. clearbody k.
    pose proof (fv_lit_0 prec emax) as O. pose proof (fv_lit_1 prec emax) as I. pose proof (fv_lit_2 prec emax) as W. pose proof (u_pos prec) as U0. pose proof (et_pos prec emax) as T0.
    assert (Z : fv prec emax (Bplus mode_NE (Bplus mode_NE (Bplus mode_NE (Bmult mode_NE (@f_lit prec emax Hp Hm 0 1) x) (Bmult mode_NE (@f_lit prec emax Hp Hm 0 1) y)) (Bmult mode_NE (@f_lit prec emax Hp Hm 0 1) z)) (Bmult mode_NE (@f_lit prec emax Hp Hm 0 1) (@f_lit prec emax Hp Hm 1 1))) 0) by (rewrite <- (proj2 O); apply zero_sum; try assumption; exact (proj1 O)).
    destruct (half_fin a _ Fa W) as (Ha1 & Ha2 & Ha3). destruct (half_fin b _ Fb W) as (Hb1 & Hb2 & Hb3). destruct (half_fin c _ Fc W) as (Hc1 & Hc2 & Hc3).
    eexists. eexists. eexists. eexists. split; [reflexivity |]. split; [exact Z |]. split; [exact Z |]. split; [exact Z |]. clear Z.
    set (a' := Bdiv mode_NE (a : bf) n2f) in *. set (b' := Bdiv mode_NE (b : bf) n2f) in *. set (c' := Bdiv mode_NE (c : bf) n2f) in *. set (o := @f_lit prec emax Hp Hm 1 1) in *.
    assert (M : forall p q : bf, fin p -> fin q -> Rabs (val p) <= bpow radix2 k -> Rabs (val q) <= bpow radix2 k -> PIeee2.bnd prec emax (k + k) (Bmult mode_NE p q)) by (intros p q Fp Fq Bp Bq; apply (mult_bnd prec emax k k p q Z1 Z3); split; assumption).
    assert (Bo : Rabs (val o) <= bpow radix2 k). { rewrite (proj2 I), Rabs_R1. change 1 with (bpow radix2 0). apply bpow_le. exact Z4. }
    assert (FS : fin (Bplus mode_NE (Bplus mode_NE (Bplus mode_NE (Bmult mode_NE a' x) (Bmult mode_NE b' y)) (Bmult mode_NE c' z)) (Bmult mode_NE o o))).
    { apply (sum4_fin prec emax false false false (k + k) (Bmult mode_NE a' x) (Bmult mode_NE b' y) (Bmult mode_NE c' z) (Bmult mode_NE o o)); [exact Z1 | exact Z2 | | | |]; apply M; try assumption; try exact (proj1 I); eapply Rle_trans; eassumption. }
    split; [exact FS |]. pose proof (proj2 (proj1 (sum4_approx prec emax false false false a' x b' y c' z o o FS))) as K. cbv beta iota delta [rpm] in K.
    match type of K with _ <= err _ _ _ ?A => assert (A0 : 0 <= A) by (repeat apply Rplus_le_le_0_compat; apply Rabs_pos); pose proof (err4_le prec emax A P A0) as E4 end. pose proof (Rle_trans _ _ _ K E4) as KK. clear K E4 A0.
    rewrite (proj2 I) in KK. rewrite (Rmult_1_l 1), Rabs_R1 in KK.
    pose proof (prod_off _ _ (val x) Ha2) as X1. pose proof (prod_off _ _ (val y) Hb2) as X2. pose proof (prod_off _ _ (val z) Hc2) as X3.
    assert (L : forall p p' q, Rabs p' <= Rabs p -> Rabs (p' * q) <= Rabs (p * q)) by (intros p p' q H; rewrite !Rabs_mult; apply Rmult_le_compat_r; [apply Rabs_pos | exact H]).
    pose proof (L _ _ (val x) Ha3) as Y1. pose proof (L _ _ (val y) Hb3) as Y2. pose proof (L _ _ (val z) Hc3) as Y3.
    match type of KK with Rabs (?v - _) <= _ => set (s := v) in * end. match goal with |- Rabs (?v - _) <= _ => change v with s end. clearbody s. set (t0 := val a' * val x) in *. set (t1 := val b' * val y) in *. set (t2 := val c' * val z) in *.
    replace (val a / 2 * val x) with (val a * val x / 2) in X1 by field. replace (val b / 2 * val y) with (val b * val y / 2) in X2 by field. replace (val c / 2 * val z) with (val c * val z / 2) in X3 by field.
    set (v0 := val a * val x) in *. set (v1 := val b * val y) in *. set (v2 := val c * val z) in *.
    assert (UA : u * (Rabs t0 + Rabs t1 + Rabs t2 + 1) <= u * (1 + Rabs v0 + Rabs v1 + Rabs v2)) by (apply Rmult_le_compat_l; lra).
    replace (s - (1 + (v0 + v1 + v2) / 2)) with ((s - (t0 + t1 + t2 + 1)) + ((t0 - v0 / 2) + (t1 - v1 / 2) + (t2 - v2 / 2))) by field.
    eapply Rle_trans; [apply Rabs_triang |]. pose proof (Rabs_triang ((t0 - v0 / 2) + (t1 - v1 / 2)) (t2 - v2 / 2)). pose proof (Rabs_triang (t0 - v0 / 2) (t1 - v1 / 2)). lra.
  Qed.
End PTransM.
