(** PropertiesLog.v — the quaternion logarithm in IEEE arithmetic (C141).  The platform's logarithm and arc cosine enter
    through hypotheses: wrong by at most d, and not a number outside the domain of the arc cosine. *)
From Coq Require Import Reals List ZArith NArith Bool Lra Lia Psatz.
From Flocq Require Import Core BinarySingleNaN.
Import ListNotations.
From Verif Require Import Base Num Vec Mat Quat Float FloatFacts SpecGeom SpecQuat SpecRound SpecFq SpecTrig SpecPow SpecLog PIeee2 PIeee3 PTrig2 PPow PPow2 PLog PropertiesGjk2.
Local Open Scope R_scope.

(** C141. Full statement: the result is [hlog Q] (scalar part ln|q|, vector part (v/|v|) acos(w/|q|)) up to rounding.  Proved
    instead, as this is false of the code: a value is returned, and its scalar part is the logarithm of the scalar part; so
    it is off by ln(|q|/w), less d. *)
Theorem C141_scalar_partial : forall prec emax {Hp : Prec_gt_0 prec} {Hm : Prec_lt_emax prec emax} (lm : libm (binary_float prec emax)) (q : quat (Ieee prec emax lm)) (d : R),
  (9 < prec)%Z -> qfin (q : quat (binary_float prec emax)) -> let Q := qval (q : quat (binary_float prec emax)) in
  hlen Q <= 2 -> bpow radix2 (6 - emax) <= vdot (hv Q) (hv Q) -> 0 < hs Q -> Rabs (ln (hs Q)) <= 4 -> ln_acc lm d ->
  exists r, quat_ln q = Ok r /\ is_finite (qw r : binary_float prec emax) = true /\ Rabs (B2R (qw r : binary_float prec emax) - ln (hs Q)) <= d /\
    ln (hlen Q / hs Q) - d <= Rabs (B2R (qw r : binary_float prec emax) - hs (hlog Q)).
Proof. exact @ln_scalar. Qed.
Print Assumptions C141_scalar_partial.
(** When the logarithm of the scalar part is below -9/8 |q| the whole vector part is not a number. *)
Theorem C141_nan_partial : forall prec emax {Hp : Prec_gt_0 prec} {Hm : Prec_lt_emax prec emax} (lm : libm (binary_float prec emax)) (q : quat (Ieee prec emax lm)) (d : R),
  (9 < prec)%Z -> qfin (q : quat (binary_float prec emax)) -> let Q := qval (q : quat (binary_float prec emax)) in
  / 2 <= hlen Q <= 2 -> bpow radix2 (6 - emax) <= vdot (hv Q) (hv Q) -> 0 < hs Q -> Rabs (ln (hs Q)) <= 4 -> ln_acc lm d -> acos_nan lm -> d <= 1 ->
  ln (hs Q) + d <= - (9 / 8 * hlen Q) ->
  exists r, quat_ln q = Ok r /\ is_nan (qx r : binary_float prec emax) = true /\ is_nan (qy r : binary_float prec emax) = true /\ is_nan (qz r : binary_float prec emax) = true.
Proof. exact @ln_vector_nan. Qed.
Print Assumptions C141_nan_partial.

(** A libm that rounds correctly, with the arc cosine defined on [-1,1] only, and the quaternion (1/2,1/2,1/2,1/8) in f64. *)
Definition strict_libm : libm f64 :=
  let L := @rounded_libm 53 1024 f64_prec_gt_0 f64_prec_lt_emax in
  MkLibm f64 (lm_sin L) (lm_cos L) (fun x => if Rle_bool (Rabs (B2R x)) 1 then lm_acos L x else B754_nan) (lm_ln L) (lm_atan2 L) (lm_powf L).
Definition log_q : quat (F64 strict_libm) := let h := nlit (F64 strict_libm) 1 2 in Q h h h (nlit (F64 strict_libm) 1 8).
Lemma strict_ln : ln_acc strict_libm (/ 16).
Proof.
  intros x Fx X0 L. destruct (@rn_ok 53 1024 f64_prec_gt_0 f64_prec_lt_emax (ln (B2R x)) L ltac:(lia)) as [G D]. split; [exact G |]. eapply Rle_trans; [exact D |].
  pose proof (@u_small 53 ltac:(lia)) as U. pose proof (@PIeee3.et_small 53 1024 f64_prec_lt_emax ltac:(lia)) as T. pose proof (PRound.u_pos 53) as U0.
  assert (uro 53 * Rabs (ln (B2R x)) <= uro 53 * 4) by (apply Rmult_le_compat_l; lra). lra.
Qed.
Lemma strict_acos : acos_acc strict_libm (/ 16).
Proof.
  intros x Fx X. unfold strict_libm. cbn [lm_acos]. rewrite Rle_bool_true by (apply Rabs_le; lra).
  destruct (@rounded_acos 53 1024 f64_prec_gt_0 f64_prec_lt_emax ltac:(lia) x Fx X) as [G D]. split; [exact G |]. eapply Rle_trans; [exact D |].
  pose proof (@u_small 53 ltac:(lia)) as U. lra.
Qed.
Lemma strict_nan : acos_nan strict_libm.
Proof. intros x Fx X. unfold strict_libm. cbn [lm_acos]. rewrite Rle_bool_false by exact X. reflexivity. Qed.
Lemma log_q_val : qfin (log_q : quat f64) /\ qval (log_q : quat f64) = H (V (/ 2) (/ 2) (/ 2)) (/ 8).
Proof.
  assert (A : B2R (nlit (F64 strict_libm) 1 2 : f64) = / 2) by (vm_compute; lra). assert (B : B2R (nlit (F64 strict_libm) 1 8 : f64) = / 8) by (vm_compute; lra).
  split; [repeat split; vm_compute; reflexivity |]. unfold qval, log_q. cbn [qx qy qz qw]. rewrite A, B. reflexivity.
Qed.
Lemma log_q_len : hlen (H (V (/ 2) (/ 2) (/ 2)) (/ 8)) = 7 / 8.
Proof. unfold hlen, hdot, vdot. cbn [hv hs vx vy vz]. rewrite <- (sqrt_square (7 / 8)) by lra. f_equal. lra. Qed.
Lemma ln8 : - 4 <= ln (/ 8) <= - (3 / 2).
Proof.
  rewrite ln_Rinv by lra. replace 8 with (2 * (2 * 2)) by lra. rewrite !ln_mult by lra. pose proof PPow.exp_half as X.
  assert (A : / 2 <= ln 2). { rewrite <- (ln_exp (/ 2)). apply PPow.ln_mono; [apply exp_pos | lra]. }
  assert (B : ln 2 <= 1). { rewrite <- (ln_exp 1). apply PPow.ln_mono; [lra |]. pose proof (exp_ineq1 1 ltac:(lra)). lra. }
  lra.
Qed.
Lemma ok_same (A : Type) (x y : A) : Ok x = Ok y -> x = y.
Proof. congruence. Qed.
Lemma nan_fin (x : f64) : is_finite x = true -> is_nan x = true -> False.
Proof. destruct x; discriminate. Qed.
(** false of the code: with that libm the result for this quaternion is not even finite *)
Theorem C141_refuted : ~ (forall (lm : libm f64) (q : quat (F64 lm)) (d : R), qfin (q : quat f64) -> let Q := qval (q : quat f64) in
  / 2 <= hlen Q <= 2 -> / 2 <= vdot (hv Q) (hv Q) -> ln_acc lm d -> acos_acc lm d -> d <= / 16 ->
  exists r, quat_ln q = Ok r /\ qfin (r : quat f64) /\ hdist (qval (r : quat f64)) (hlog Q) <= 1).
Proof.
  intro C. destruct log_q_val as [Fq Vq]. pose proof ln8 as L8. specialize (C strict_libm log_q (/ 16) Fq). cbv zeta in C. rewrite Vq, log_q_len in C.
  destruct C as (r & E & (Fr & _) & _); [lra | unfold vdot; simpl; lra | exact strict_ln | exact strict_acos | lra |].
  destruct (@C141_nan_partial 53 1024 f64_prec_gt_0 f64_prec_lt_emax strict_libm log_q (/ 16) ltac:(lia) Fq) as (r' & E' & N & _); try rewrite Vq; try rewrite log_q_len; try (cbn [hs]; apply Rabs_le); try (cbn [hs]; lra).
  - apply Rle_trans with (bpow radix2 (-1)); [apply bpow_le; lia | change (bpow radix2 (-1)) with (/ 2); unfold vdot; simpl; lra].
  - exact strict_ln.
  - exact strict_nan.
  - change (quat_ln log_q = Ok r') in E'. rewrite E in E'. assert (R0 : r = r') by (apply (ok_same _ _ _ E')). rewrite <- R0 in N. exact (nan_fin _ Fr N).
Qed.
Print Assumptions C141_refuted.
(** the scalar part of the same result is off by more than 1 *)
Example C141_case : exists r, quat_ln log_q = Ok r /\ 1 <= Rabs (B2R (qw r : f64) - ln (7 / 8)).
Proof.
  destruct log_q_val as [Fq Vq]. pose proof ln8 as L8.
  destruct (@C141_scalar_partial 53 1024 f64_prec_gt_0 f64_prec_lt_emax strict_libm log_q (/ 16) ltac:(lia) Fq) as (r & E & _ & _ & D); try rewrite Vq; try rewrite log_q_len; try (cbn [hs]; apply Rabs_le); try (cbn [hs]; lra).
  - apply Rle_trans with (bpow radix2 (-1)); [apply bpow_le; lia | change (bpow radix2 (-1)) with (/ 2); unfold vdot; simpl; lra].
  - exact strict_ln.
  - rewrite Vq in D. unfold hlog in D. cbn [hs] in D. rewrite log_q_len in D. exists r. split; [exact E |]. eapply Rle_trans; [| exact D].
    replace (ln (7 / 8 / / 8)) with (ln (7 / 8) + ln 8) by (rewrite <- ln_mult by lra; f_equal; field). rewrite (ln_Rinv 8) in L8 by lra.
    assert (X : - (1 / 4) <= ln (7 / 8)). { rewrite <- (ln_exp (- (1 / 4))). apply PPow.ln_mono; [apply exp_pos |]. rewrite exp_Ropp. pose proof (exp_ineq1 (1 / 4) ltac:(lra)) as I. apply Rmult_le_reg_l with (exp (1 / 4)); [apply exp_pos |]. rewrite Rinv_r by (pose proof (exp_pos (1 / 4)); lra). lra. }
    lra.
Qed.
