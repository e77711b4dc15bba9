(** PAxis2.v — vectors and quaternions with a single non-zero component: lengths and unit vectors without rounding (C120). *)
From Coq Require Import Reals List ZArith NArith Bool Lra Lia Psatz.
From Flocq Require Import Core BinarySingleNaN.
Import ListNotations.
From Verif Require Import Base Num Vec Mat Quat Float FloatFacts FloatRound SpecMat SpecRound SpecGeom SpecInt PVec PIeee2 PIeee5 PInt PInt2 PSqr PIntQ.
Local Open Scope R_scope.

Section Axis2.
  Context (prec emax : Z) {Hp : Prec_gt_0 prec} {Hm : Prec_lt_emax prec emax} (lm : libm (binary_float prec emax)).
  Notation bf := (binary_float prec emax).
  Notation fmt := (SpecFloat.fexp prec emax).
  Notation rnd := (round radix2 fmt ZnearestE).
  Notation F := (@Ieee prec emax Hp Hm lm).
  Notation val := (@B2R prec emax).
  Notation fin x := (is_finite (x : bf) = true).
  Notation zero := (fun y : bf => exactly y 0).
  Definition ssum (x : F) (l : list F) : F := fold_left (nadd F) (map (fun y => nmul F y y) l) (nmul F x x).
  Lemma sq_zero (y : F) : exactly (y : bf) 0 -> exactly (nmul F y y : bf) 0.
  Proof. intros [Fy Vy]. destruct (fv_mult_exact prec emax (y : bf) (y : bf) (y : bf) Fy Fy ltac:(rewrite Vy; ring)) as [A B]. split; [exact A |]. cbn [nmul Ieee]. rewrite B. exact Vy. Qed.
  Lemma sum_zeros (l : list F) (a : F) v : exactly (a : bf) v -> Forall zero l -> exactly (fold_left (nadd F) (map (fun y => nmul F y y) l) a : bf) v.
  Proof.
    revert a. induction l as [| y l IH]; intros a A Z; [exact A |]. inversion Z; subst. cbn [map fold_left]. apply IH; [| assumption]. destruct (sq_zero y H1) as [Q1 Q2]. destruct A as [A1 A2].
    destruct (add_zero prec emax lm a (nmul F y y) A1 Q1 (or_intror Q2)) as [R1 R2]. split; [exact R1 |]. rewrite R2, A2. cbn [nmul Ieee] in *. rewrite Q2. ring.
  Qed.
  Lemma sum_lone (l : list F) (a : F) w : exactly (a : bf) 0 -> lone w (l : list bf) -> Rabs w <= bpow radix2 (emax / 2 - 3) -> exactly (fold_left (nadd F) (map (fun y => nmul F y y) l) a : bf) (rnd (w * w)).
  Proof.
    intros A (pre & x & post & -> & [Fx Vx] & Zp & Zq) B. rewrite map_app, fold_left_app. cbn [map fold_left]. apply sum_zeros; [| exact Zq]. destruct (sum_zeros pre a 0 A Zp) as [S1 S2].
    destruct (sq_ok prec emax lm x Fx ltac:(rewrite Vx; exact B)) as [[P1 P2] _]. rewrite Vx in P2. destruct (add_zero prec emax lm _ _ S1 P1 (or_introl S2)) as [R1 R2]. split; [exact R1 |]. etransitivity; [exact R2 |]. etransitivity; [apply f_equal2; [exact S2 | exact P2] |]. ring.
  Qed.
  Lemma ssum_lone (x : F) (l : list F) w : lone w (x :: l : list bf) -> Rabs w <= bpow radix2 (emax / 2 - 3) -> exactly (ssum x l : bf) (rnd (w * w)).
  Proof.
    intros (pre & y & post & E & Y & Zp & Zq) B. unfold ssum. destruct pre as [| z pre].
    - injection E as -> ->. apply sum_zeros; [| exact Zq]. destruct Y as [Fy Vy]. destruct (sq_ok prec emax lm y Fy ltac:(rewrite Vy; exact B)) as [[P1 P2] _]. rewrite Vy in P2. split; assumption.
    - injection E as -> ->. inversion Zp; subst. apply sum_lone; [apply sq_zero; assumption | | exact B]. exists pre, y, post. repeat (split; [assumption || reflexivity |]). assumption.
  Qed.
  Lemma lone_fmt w (l : list bf) : lone w l -> generic_format radix2 fmt w.
  Proof. intros (_ & x & _ & _ & [_ <-] & _). apply generic_format_B2R. Qed.
  Theorem root_lone (x : F) (l : list F) w : lone w (x :: l : list bf) -> Rabs w <= bpow radix2 (emax / 2 - 3) -> bpow radix2 (2 - emax) <= w * w -> exactly (nsqrt F (ssum x l) : bf) (Rabs w).
  Proof.
    intros L B Q. destruct (ssum_lone x l w L B) as [S1 S2]. assert (Pt : 0 <= val (ssum x l)). { rewrite S2. rewrite <- (round_0 radix2 fmt ZnearestE). apply (rnd_le prec emax), Rle_0_sqr. }
    destruct (sqrt_ok prec emax _ S1 Pt) as [R1 R2]. split; [exact R1 |]. cbn [nsqrt Ieee]. rewrite R2, S2. apply (sqrt_sq_abs prec emax); [eapply lone_fmt, L | exact Q].
  Qed.
  Lemma vec_mag_list k (u : vcar F k) : exists x l, (vcomps u : list F) = x :: l /\ vec_magnitude u = Some (nsqrt F (ssum x l)).
  Proof. destruct k; destruct u as [[]]; (eexists; eexists; split; [reflexivity |]); reflexivity. Qed.
  (** division by the length *)
  Lemma lone_div w (m : F) (l : list F) : w <> 0 -> exactly (m : bf) (Rabs w) -> lone w (l : list bf) -> lone (w / Rabs w) (map (fun x => ndiv F x m) l : list bf).
  Proof.
    intros W [Fm Vm] (pre & x & post & -> & [Fx Vx] & Zp & Zq). assert (Aw : Rabs w <> 0) by (apply Rabs_no_R0, W).
    assert (Dz : forall y : F, exactly (y : bf) 0 -> exactly (ndiv F y m : bf) 0).
    { intros y [Fy Vy]. destruct (fv_div_exact prec emax (y : bf) (m : bf) (y : bf) Fy) as [A B]; [rewrite Vm; exact Aw | rewrite Vy; unfold Rdiv; ring |]. split; [exact A |]. cbn [ndiv Ieee]. rewrite B. exact Vy. }
    assert (Dl : forall l : list F, Forall zero l -> Forall zero (map (fun x => ndiv F x m) l : list bf)). { intros l0 H. induction H; constructor; [apply Dz; assumption | assumption]. }
    exists (map (fun x => ndiv F x m) pre), (ndiv F x m), (map (fun x => ndiv F x m) post). split; [rewrite map_app; reflexivity |]. split; [| split; apply Dl; assumption].
    assert (U : exists z, w / Rabs w = IZR z /\ (z = 0 \/ z = 1 \/ z = -1)%Z). { destruct (Rle_dec 0 w) as [H | H]; [exists 1%Z; rewrite Rabs_pos_eq in * by lra | exists (-1)%Z; rewrite Rabs_left in * by lra]; (split; [field; lra | tauto]). }
    destruct U as (z & Ez & Cz). rewrite Ez. destruct (unit_fv prec emax lm z Cz) as (b & Fb & Eb). destruct (fv_div_exact prec emax (x : bf) (m : bf) b Fx) as [A B]; [rewrite Vm; exact Aw | rewrite Vx, Vm, Eb; exact Ez |]. split; [exact A |]. cbn [ndiv Ieee]. rewrite B. exact Eb.
  Qed.
  Theorem vec_lone k (u : vcar F k) w : lone w (vcomps u : list bf) -> Rabs w <= bpow radix2 (emax / 2 - 3) -> bpow radix2 (2 - emax) <= w * w ->
    (exists m, vec_magnitude u = Some m /\ exactly (m : bf) (Rabs w)) /\ (exists v, vec_normalize u = Ok (Some v) /\ lone (w / Rabs w) (vcomps v : list bf)).
  Proof.
    intros L B Q. destruct (vec_mag_list k u) as (x & l & E & M). rewrite E in L. pose proof (root_lone x l w L B Q) as R. split; [eexists; split; [exact M | exact R] |].
    destruct (vec_normalize_comps k u _ M) as (v & V1 & V2). exists v. split; [exact V1 |]. rewrite V2, E. apply lone_div; [| exact R | exact L]. intro W. rewrite W, Rmult_0_l in Q. pose proof (bpow_gt_0 radix2 (2 - emax)). lra.
  Qed.
  Theorem quat_lone (q : quat F) w : let comps (p : quat F) : list bf := [qx p; qy p; qz p; qw p] in lone w (comps q) -> Rabs w <= bpow radix2 (emax / 2 - 3) -> bpow radix2 (2 - emax) <= w * w ->
    exactly (quat_length q : bf) (Rabs w) /\ exists p, quat_normalize q = Ok p /\ lone (w / Rabs w) (comps p).
  Proof.
    intros comps L B Q. destruct q as [x y z t]. pose proof (root_lone x [y; z; t] w L B Q) as R. change (nsqrt F (ssum x [y; z; t])) with (quat_length (Quat.Q x y z t : quat F)) in R. split; [exact R |].
    assert (W : w <> 0) by (intro W; rewrite W, Rmult_0_l in Q; pose proof (bpow_gt_0 radix2 (2 - emax)); lra). unfold quat_normalize.
    destruct (fv_lit_0 prec emax) as [F0 V0]. assert (G : ngt (quat_length (Quat.Q x y z t : quat F)) n0 = true). { destruct R as [R1 R2]. apply (ngt_val prec emax lm _ _ R1 F0). change (val (@n0 F)) with (val (@f_lit prec emax Hp Hm 0 1)). rewrite V0, R2. apply Rabs_pos_lt, W. }
    rewrite G. cbn [orb]. eexists. split; [reflexivity |]. exact (lone_div w _ [x; y; z; t] W R L).
  Qed.
End Axis2.
