(** PInterpS.v — signs and conjugates of interpolations, powers and logarithms in IEEE arithmetic (C142). *)
From Coq Require Import Reals List ZArith NArith Bool Lra Lia.
From Flocq Require Import Core BinarySingleNaN.
Import ListNotations.
From Verif Require Import Base Num Vec Mat Quat Shape Float FloatFacts SpecMat SpecBuild SpecMirror SpecLaws SpecRound PVec PBuild PMirror PMirror1 PLaws PTrig4.

Section InterpS.
  Context (prec emax : Z) {Hp : Prec_gt_0 prec} {Hm : Prec_lt_emax prec emax} (lm : libm (binary_float prec emax)).
  Notation bf := (binary_float prec emax).
  Notation F := (@Ieee prec emax Hp Hm lm).
  Notation E := (E prec emax).
  Notation qf := (quat F).
  Notation fin x := (@is_finite prec emax x = true).
  Notation val := (@B2R prec emax).

  (** a b-signed copy of x0 k0 + x1 k1 *)
  Lemma mix (b : bool) (x0 x1 x0' x1' k0 k1 : F) : E b x0' x0 -> E b x1' x1 -> E b (nadd F (nmul F x0' k0) (nmul F x1' k1)) (nadd F (nmul F x0 k0) (nmul F x1 k1)).
  Proof. intros H0 H1. apply (E_plus prec emax lm); (apply (E_mult' prec emax lm b b false); [destruct b; reflexivity | assumption | reflexivity]). Qed.
  Lemma E_id (x : F) : E false x x. Proof. reflexivity. Qed.

  Lemma lerp_neg (a b : qf) (t : F) : opp_q (quat_interpolate_linear (quat_negate a) (quat_negate b) t : quat bf) (quat_interpolate_linear a b t).
  Proof. destruct a as [ax ay az aw], b as [bx yb zb wb]. unfold opp_q. cbn. repeat split; apply (E_alike_opp prec emax lm), mix; apply (E_neg prec emax lm). Qed.
  Lemma lerp_conj (a b : qf) (t : F) : same_q (quat_interpolate_linear (quat_conjugate a) (quat_conjugate b) t : quat bf) (quat_conjugate (quat_interpolate_linear a b t)).
  Proof.
    destruct a as [ax ay az aw], b as [bx yb zb wb]. unfold same_q. split; [| split; [| split]].
    1-3: apply (E_alike_opp prec emax lm), mix; apply (E_neg prec emax lm).
    apply (E_alike prec emax lm). reflexivity.
  Qed.

  Definition cosine (a b : qf) : F := nadd F (nadd F (nadd F (nmul F (qw a) (qw b)) (nmul F (qx a) (qx b))) (nmul F (qy a) (qy b))) (nmul F (qz a) (qz b)).
  Definition weights (c t : F) : F * F :=
    let u := if ngt t n1 then n1 else t in let s := if nlt u n0 then n0 else u in
    if ngt (if nlt c n0 then nneg F c else c) (nlit F 9999 10000) then (nsub F n1 s, s)
    else let so := nsqrt F (nsub F n1 (nmul F c c)) in let om := natan2 F so c in let iv := ndiv F n1 so in
      (nmul F (nsin F (nmul F (nsub F n1 s) om)) iv, nmul F (nsin F (nmul F s om)) iv).
  Definition blend (a b : qf) (k : F * F) : qf :=
    Q (nadd F (nmul F (qx a) (fst k)) (nmul F (qx b) (snd k))) (nadd F (nmul F (qy a) (fst k)) (nmul F (qy b) (snd k)))
      (nadd F (nmul F (qz a) (fst k)) (nmul F (qz b) (snd k))) (nadd F (nmul F (qw a) (fst k)) (nmul F (qw b) (snd k))).
  Lemma slerp_blend (a b : qf) (t : F) : quat_interpolate_slerp a b t = blend a (if nlt (cosine a b) n0 then quat_negate b else b) (weights (cosine a b) t).
  Proof.
    destruct b as [x y z w]. unfold quat_interpolate_slerp. cbn [qx qy qz qw]. fold (cosine a (Q x y z w)). unfold blend, weights, cosine. cbn [qx qy qz qw]. cbv zeta.
    set (c := nadd F _ (nmul F (qz a) z)). destruct (nlt c n0); destruct (ngt _ (nlit F 9999 10000)); reflexivity.
  Qed.
  Lemma cosine_negs (a b : qf) : cosine (quat_negate a) (quat_negate b) = cosine a b.
  Proof. destruct a as [ax ay az aw], b as [bx yb zb wb]. unfold cosine, quat_negate. cbn [qx qy qz qw]. rewrite !(mul_negs prec emax lm). reflexivity. Qed.
  Lemma cosine_conjs (a b : qf) : cosine (quat_conjugate a) (quat_conjugate b) = cosine a b.
  Proof. destruct a as [ax ay az aw], b as [bx yb zb wb]. unfold cosine, quat_conjugate. cbn [qx qy qz qw]. rewrite !(mul_negs prec emax lm). reflexivity. Qed.
  Lemma slerp_neg (a b : qf) (t : F) : opp_q (quat_interpolate_slerp (quat_negate a) (quat_negate b) t : quat bf) (quat_interpolate_slerp a b t).
  Proof.
    rewrite !slerp_blend, cosine_negs. destruct (weights (cosine a b) t) as [k0 k1]. destruct (nlt (cosine a b) n0); destruct a as [ax ay az aw], b as [bx yb zb wb]; unfold opp_q, blend, quat_negate; cbn [qx qy qz qw fst snd];
      repeat split; apply (E_alike_opp prec emax lm), mix; apply (E_neg prec emax lm).
  Qed.
  Lemma slerp_conj (a b : qf) (t : F) : same_q (quat_interpolate_slerp (quat_conjugate a) (quat_conjugate b) t : quat bf) (quat_conjugate (quat_interpolate_slerp a b t)).
  Proof.
    rewrite !slerp_blend, cosine_conjs. destruct (weights (cosine a b) t) as [k0 k1]. destruct (nlt (cosine a b) n0); destruct a as [ax ay az aw], b as [bx yb zb wb]; unfold same_q, blend, quat_negate, quat_conjugate; cbn [qx qy qz qw fst snd];
      (split; [| split; [| split]]); try (apply (E_alike_opp prec emax lm), mix; apply (E_neg prec emax lm)); apply (E_alike prec emax lm); reflexivity.
  Qed.
  (** powers and logarithms of the conjugate, bit for bit *)
  Lemma pow_conj (q : qf) (t : F) : quat_pow (quat_conjugate q) t = (let! r := quat_pow q t in Ok (quat_conjugate r)).
  Proof.
    destruct q as [x y z w]. unfold quat_pow, quat_length, quat_conjugate. cbn [qx qy qz qw]. rewrite !(mul_negs prec emax lm).
    destruct (assert _); cbn [bind]; [| reflexivity..]. rewrite !(div_negl prec emax lm), !(mul_negr prec emax lm), !(mul_negl prec emax lm). reflexivity.
  Qed.
  Lemma log_conj (q : qf) : quat_ln (quat_conjugate q) = (let! r := quat_ln q in Ok (quat_conjugate r)).
  Proof.
    destruct q as [x y z w]. unfold quat_ln, quat_length, quat_conjugate. cbn [qx qy qz qw]. rewrite !(mul_negs prec emax lm).
    destruct (assert _); cbn [bind]; [| reflexivity..]. rewrite !(div_negl prec emax lm), !(mul_negl prec emax lm). reflexivity.
  Qed.
  (** nearly parallel quaternions: the sign of the second does not matter *)
  Lemma cosine_neg (a b : qf) : E true (cosine a (quat_negate b)) (cosine a b).
  Proof.
    destruct a as [ax ay az aw], b as [bx yb zb wb]. unfold cosine, quat_negate. cbn [qx qy qz qw]. rewrite !(mul_negr prec emax lm).
    repeat apply (E_plus prec emax lm); apply (E_neg prec emax lm).
  Qed.
  Lemma n0_zero : exists s, (n0 : F) = B754_zero s.
  Proof.
    destruct (@fv_lit_0 prec emax Hp Hm) as [A B]. change (@f_lit prec emax Hp Hm 0 1) with (n0 : F) in A, B. destruct (n0 : F) as [s | s | | s m e h]; try discriminate A; [exists s; reflexivity |].
    exfalso. cbn in B. apply eq_0_F2R in B. destruct s; discriminate B.
  Qed.
  Lemma lit_pos : (24 <= prec)%Z -> exists m e h, (nlit F 9999 10000 : bf) = B754_finite false m e h.
  Proof.
    intro P. destruct (lit_9999 prec emax lm P) as [A B]. pose proof (PTrig3.u24 prec P) as U. apply Rabs_le_inv in B. assert (V : (0 < val (nlit F 9999 10000 : bf))%R) by lra. clear B.
    destruct (nlit F 9999 10000 : bf) as [s | s | | s m e h]; try discriminate A; cbn in V; [lra |]. destruct s; [| exists m, e, h; reflexivity].
    exfalso. assert (X : (F2R (Float radix2 (Z.neg m) e) < 0)%R) by (apply F2R_lt_0; reflexivity). cbn in V. lra.
  Qed.
  Lemma slerp_sign (a b : qf) (t : F) : (24 <= prec)%Z -> ngt (nabs F (cosine a b)) (nlit F 9999 10000) = true ->
    quat_interpolate_slerp a (quat_negate b) t = quat_interpolate_slerp a b t.
  Proof.
    intros P H. destruct n0_zero as [s0 Z0]. destruct (lit_pos P) as (lm0 & le & lh & LP). pose proof (cosine_neg a b) as C. rewrite !slerp_blend. set (c := cosine a b) in *. set (c' := cosine a (quat_negate b)) in *.
    assert (C' : c' = nneg F c). { destruct (zr_cases prec emax _ _ C) as [X | (s & s' & _ & X)]; [exact X |]. exfalso. cbn [sgn] in X. destruct c as [sc | sc | | sc mc ec hc]; try discriminate X.
      unfold ngt in H. change (nlit F 9999 10000) with (nlit F 9999 10000 : bf) in H. rewrite LP in H. discriminate H. }
    rewrite C'. assert (NN : quat_negate (quat_negate b) = b) by apply (qinvol prec emax lm b).
    assert (S : (nlt c n0 = true /\ nlt (nneg F c) n0 = false /\ nabs F c = nneg F c) \/ (nlt c n0 = false /\ nlt (nneg F c) n0 = true /\ nabs F c = c)).
    { clear C C' c'. clearbody c. unfold nlt. rewrite Z0. destruct c as [sc | sc | | sc mc ec hc]; try (exfalso; unfold ngt in H; rewrite LP in H; discriminate H); destruct sc; [left | right | left | right]; repeat split; reflexivity. }
    unfold weights. destruct S as [(S1 & S2 & S3) | (S1 & S2 & S3)]; rewrite S1, S2, S3 in *.
    - rewrite H. reflexivity.
    - rewrite NN, (neg_neg prec emax lm), H. reflexivity.
  Qed.
End InterpS.
