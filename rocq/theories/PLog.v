(** PLog.v — the quaternion logarithm in IEEE arithmetic (C141). *)
From Coq Require Import Reals List ZArith NArith Bool Lra Lia Psatz.
From Flocq Require Import Core BinarySingleNaN.
Import ListNotations.
From Verif Require Import Shape Base Num Vec Mat Quat Float Exact FloatFacts FloatRound Order SpecMat SpecGeom SpecBound SpecQuat
  SpecRound SpecBuild SpecFq SpecTrig SpecPow SpecLog ExactFacts PMat PShape PBuild PGeo1 PQuat PQuat2 PRound PRound2 PRound3 PIeee1 PIeee2 PIeee3 PIeee4 PIeee5 PIeee6 PIeee7 PPrismF PTrig PTrig2 PTrig3 PPow PPow0 PPow2.
Local Open Scope R_scope.

Section Log.
  Context (prec emax : Z) {Hp : Prec_gt_0 prec} {Hm : Prec_lt_emax prec emax} (lm : libm (binary_float prec emax)).
  Notation bf := (binary_float prec emax).
  Notation F := (@Ieee prec emax Hp Hm lm).
  Notation u := (uro prec).
  Notation et := (eta prec emax).
  Notation val := (@B2R prec emax).
  Notation fin x := (@is_finite prec emax x = true).

  Lemma ln_any (q : quat F) : nne (nsqrt F (nadd F (nadd F (nmul F (qx q) (qx q)) (nmul F (qy q) (qy q))) (nmul F (qz q) (qz q)))) n0 = true ->
    quat_ln q = Ok (let s := nacos F (ndiv F (nln F (qw q)) (quat_length q)) in
      match nrm (part prec emax lm q) with M3x1 (A3 x y z) => Q (nmul F x s) (nmul F y s) (nmul F z s) (nln F (qw q)) end).
  Proof. intro H. unfold quat_ln. rewrite H. reflexivity. Qed.
  Lemma ln_defined (q : quat F) : (9 < prec)%Z -> qfin (q : quat bf) -> let Q := qval (q : quat bf) in
    hlen Q <= 2 -> bpow radix2 (6 - emax) <= vdot (hv Q) (hv Q) ->
    nne (nsqrt F (nadd F (nadd F (nmul F (qx q) (qx q)) (nmul F (qy q) (qy q))) (nmul F (qz q) (qz q)))) n0 = true.
  Proof.
    intros P Fq Q HL HV.
    assert (GN : good_normal (part prec emax lm q : mat3x1 bf)).
    { destruct Fq as (F1 & F2 & F3 & _). destruct (hlen_comp Q) as (C1 & C2 & C3 & _). pose proof (half_k prec emax P) as [Hk1 Hk2].
      assert (B2 : 2 <= bpow radix2 (emax / 2 - 3)) by (change 2 with (bpow radix2 1) at 1; apply bpow_le; clear - Hk2; lia).
      split; [split; [repeat split; assumption |]; cbv zeta; change (Rabs (vx (hv Q)) <= bpow radix2 (emax / 2 - 3) /\ Rabs (vy (hv Q)) <= bpow radix2 (emax / 2 - 3) /\ Rabs (vz (hv Q)) <= bpow radix2 (emax / 2 - 3)); repeat split; lra |].
      exact HV. }
    exact (mag_good prec emax lm (part prec emax lm q) P GN).
  Qed.
  (** the scalar part is the logarithm of the scalar part *)
  Lemma ln_scalar (q : quat F) (d : R) : (9 < prec)%Z -> qfin (q : quat bf) -> let Q := qval (q : quat bf) in
    hlen Q <= 2 -> bpow radix2 (6 - emax) <= vdot (hv Q) (hv Q) -> 0 < hs Q -> Rabs (ln (hs Q)) <= 4 -> ln_acc lm d ->
    exists r, quat_ln q = Ok r /\ fin (qw r) /\ Rabs (val (qw r) - ln (hs Q)) <= d /\ ln (hlen Q / hs Q) - d <= Rabs (val (qw r) - ln (hlen Q)).
  Proof.
    intros P Fq Q HL HV W0 WL A. rewrite (ln_any q (ln_defined q P Fq HL HV)). eexists. split; [reflexivity |].
    cbv zeta. destruct (nrm (part prec emax lm q)) as [[x y z]]. cbn [qw].
    destruct (A (qw q : bf)) as [A1 A2]; [apply Fq | exact W0 | exact WL |].
    change (lm_ln lm (qw q)) with (nln F (qw q)) in A1, A2. change (val (qw q)) with (hs Q) in A2.
    split; [exact A1 |]. split; [exact A2 |].
    assert (L0 : 0 < hlen Q). { destruct (hlen_comp Q) as (_ & _ & _ & C). rewrite (Rabs_pos_eq (hs Q)) in C by lra. lra. }
    unfold Rdiv. rewrite ln_mult by (try apply Rinv_0_lt_compat; assumption). rewrite ln_Rinv by assumption.
    set (y0 := val (nln F (qw q))) in *. apply Rabs_le_inv in A2.
    apply Rle_trans with (- (y0 - ln (hlen Q))); [lra |]. rewrite <- Rabs_Ropp. apply Rle_abs.
  Qed.
  (** for small scalar parts the vector part is not a number *)
  Lemma ln_vector_nan (q : quat F) (d : R) : (9 < prec)%Z -> qfin (q : quat bf) -> let Q := qval (q : quat bf) in
    / 2 <= hlen Q <= 2 -> bpow radix2 (6 - emax) <= vdot (hv Q) (hv Q) -> 0 < hs Q -> Rabs (ln (hs Q)) <= 4 -> ln_acc lm d -> acos_nan lm -> d <= 1 ->
    ln (hs Q) + d <= - (9 / 8 * hlen Q) ->
    exists r, quat_ln q = Ok r /\ is_nan (qx r : bf) = true /\ is_nan (qy r : bf) = true /\ is_nan (qz r : bf) = true.
  Proof.
    intros P Fq Q HL HV W0 WL A N D1 HD. rewrite (ln_any q (ln_defined q P Fq (proj2 HL) HV)). eexists. split; [reflexivity |].
    destruct (A (qw q : bf)) as [A1 A2]; [apply Fq | exact W0 | exact WL |].
    change (lm_ln lm (qw q)) with (nln F (qw q)) in A1, A2. change (val (qw q)) with (hs Q) in A2.
    destruct (scalar_over prec emax lm q P Fq HL) as (Fl & El & _). fold Q in El. set (l := quat_length q) in *. set (y0 := nln F (qw q)) in *.
    pose proof (u_small prec P) as U. pose proof (u_pos prec) as U0.
    assert (UL : 604 / 100 * u * hlen Q <= 1 / 64 * hlen Q) by (apply Rmult_le_compat_r; lra).
    apply Rabs_le_inv in A2, El, WL. assert (L0 : 0 < val l) by lra. assert (Y1 : val y0 <= - (11 / 10 * val l)) by lra. assert (Y2 : - 9 <= val y0) by lra.
    assert (LB : 49 / 100 <= val l) by lra. set (t := val y0 / val l).
    assert (T1 : t <= - (11 / 10)). { unfold t. apply Rmult_le_reg_r with (val l); [exact L0 |]. unfold Rdiv. rewrite Rmult_assoc, Rinv_l by lra. lra. }
    assert (T2 : - 32 <= t). { unfold t. apply Rmult_le_reg_r with (val l); [exact L0 |]. unfold Rdiv. rewrite Rmult_assoc, Rinv_l by lra. lra. }
    assert (HE : (10 < emax)%Z) by (unfold Prec_lt_emax in Hm; lia).
    destruct (div_round prec emax (y0 : bf) (l : bf) A1 ltac:(lra)) as [M _]. fold t in M.
    destruct M as [Fm Vm]; [eapply Rle_lt_trans; [apply (rnd_bpow prec emax 5); [lia | apply Rabs_le; change (bpow radix2 5) with 32; lra] | apply bpow_lt; lia] |].
    assert (S : is_nan (nacos F (ndiv F y0 l) : bf) = true).
    { apply N; [exact Fm |]. change (B2R (ndiv F y0 l : bf)) with (val (Bdiv mode_NE (y0 : bf) l)). rewrite Vm.
      destruct (rnd_err prec emax t) as (e & h & He & Hh & E). rewrite E. apply Rabs_le_inv in He, Hh.
      assert (H1 : et <= / 512). { apply Rle_trans with (bpow radix2 (-9)); [unfold eta; apply bpow_le; lia | right; reflexivity]. }
      assert (X : t * (1 + e) + h < -1). { assert (K : t * (1 + e) <= - (11 / 10) * (1 + e)) by (apply Rmult_le_compat_r; lra). lra. }
      rewrite Rabs_left by lra. lra. }
    cbv zeta. set (s := nacos F (ndiv F y0 l)) in *. destruct (nrm (part prec emax lm q)) as [[x y z]]. cbn [qx qy qz].
    assert (G : forall a : F, is_nan (nmul F a s : bf) = true) by (intro a; change (nmul F a s) with (Bmult mode_NE (a : bf) (s : bf)); destruct (s : bf); try discriminate S; destruct (a : bf); reflexivity).
    repeat split; apply G.
  Qed.
End Log.
