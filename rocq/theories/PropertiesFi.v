(** PropertiesFi.v — C87: quaternion inverse and the components of a vector along and across a plane, in IEEE arithmetic,
    and nothing else.  Every format with more than 9 bits; u = 2^-prec, eta = half the smallest positive number. *)
From Coq Require Import Reals List ZArith NArith Bool Lra Lia.
From Flocq Require Import Core BinarySingleNaN.
Import ListNotations.
From Verif Require Import Base Num Vec Mat Quat Float Exact SpecMat SpecGeom SpecBound SpecQuat SpecRound SpecBuild SpecFq
  FloatFacts ExactFacts PMat PQuat PIeee4 PIeee6 PropertiesFq.
Local Open Scope R_scope.

Section Fi.
Context (prec emax : Z) {Hp : Prec_gt_0 prec} {Hm : Prec_lt_emax prec emax} (lm : libm (binary_float prec emax)).
Notation F := (@Ieee prec emax Hp Hm lm).
Notation u := (uro prec).
Notation et := (eta prec emax).
Notation qval := (@qval prec emax).
Notation qfin := (@qfin prec emax).

(** the inverse does not panic, and is close to the true inverse conj q / |q|^2 *)
Theorem C87_inverse (q : quat F) : (9 < prec)%Z -> qfin q -> bpow radix2 (6 - emax) <= hdot (qval q) (qval q) -> hlen (qval q) <= bpow radix2 (emax / 2 - 3) ->
  exists r, quat_inverse q = Ok r /\ qfin r /\
    hdist (qval r) (hscale (/ hdot (qval q) (qval q)) (hconj (qval q))) <= 8 * u * / hlen (qval q) + 2 * et.
Proof. exact (qinverse_ieee prec emax lm q). Qed.
(** so its true product with q, on either side, is 1 up to 8u + 2 eta |q| *)
Theorem C87_product (q : quat F) : (9 < prec)%Z -> qfin q -> bpow radix2 (6 - emax) <= hdot (qval q) (qval q) -> hlen (qval q) <= bpow radix2 (emax / 2 - 3) ->
  exists r, quat_inverse q = Ok r /\ hdist (hmul (qval q) (qval r)) hone <= 8 * u + 2 * et * hlen (qval q) /\
    hdist (hmul (qval r) (qval q)) hone <= 8 * u + 2 * et * hlen (qval q).
Proof.
  intros P Fq S L. destruct (C87_inverse q P Fq S L) as [r [E [_ D]]]. exists r. split; [exact E |].
  assert (S0 : 0 < hdot (qval q) (qval q)) by (eapply Rlt_le_trans; [apply bpow_gt_0 | exact S]).
  destruct (hinv_product (qval q) (qval r) S0) as [E1 E2]. rewrite E1, E2.
  pose proof (hlen_pos (qval q)) as L0. assert (L1 : hlen (qval q) <> 0) by (intro Z; rewrite <- hlen_sq, Z in S0; lra).
  replace (8 * u + 2 * et * hlen (qval q)) with (hlen (qval q) * (8 * u * / hlen (qval q) + 2 * et)) by (field; exact L1).
  split; apply Rmult_le_compat_l; assumption.
Qed.
(** half the sum and half the difference of p and its mirror image q p q *)
Theorem C87_parallel (q : quat F) (p : mat3x1 F) : (9 < prec)%Z -> qfin q -> fin3 p -> hlen (qval q) <= 2 -> norm (v3 p) <= bpow radix2 (emax - 8) ->
  let r := quat_parallel_component_of_plane q p in let T := hv (hmul (hmul (qval q) (H (v3 p) 0)) (qval q)) in
  fin3 r /\ dist (v3 r) (vscale (/ 2) (vadd (v3 p) T)) <= u * (2 + 11 * hdot (qval q) (qval q)) * norm (v3 p) + 17 * et.
Proof. exact (comps_ieee prec emax lm false q p). Qed.
Theorem C87_orthogonal (q : quat F) (p : mat3x1 F) : (9 < prec)%Z -> qfin q -> fin3 p -> hlen (qval q) <= 2 -> norm (v3 p) <= bpow radix2 (emax - 8) ->
  let r := quat_orthogonal_component_of_plane q p in let T := hv (hmul (hmul (qval q) (H (v3 p) 0)) (qval q)) in
  fin3 r /\ dist (v3 r) (vscale (/ 2) (vsub (v3 p) T)) <= u * (2 + 11 * hdot (qval q) (qval q)) * norm (v3 p) + 17 * et.
Proof. exact (comps_ieee prec emax lm true q p). Qed.
End Fi.
(** for a unit normal the references are the projections onto the plane and onto its normal *)
Theorem C87_reference (n p : V3) : vdot n n = 1 -> let T := hv (hmul (hmul (H n 0) (H p 0)) (H n 0)) in
  vscale (/ 2) (vadd p T) = vsub p (vscale (vdot n p) n) /\ vscale (/ 2) (vsub p T) = vscale (vdot n p) n.
Proof. intro N. destruct (sandwich_plane n p N) as (_ & A & B). exact (conj B A). Qed.
Print Assumptions C87_inverse.
Print Assumptions C87_product.
Print Assumptions C87_parallel.
Print Assumptions C87_orthogonal.
Print Assumptions C87_reference.

(** ---- the hypotheses can be met: the f64 quaternion (1/2, 1/2, 1/2, 1/2), and vectors as in C82_case ---- *)
Example C87_case lm : exists r, quat_inverse (qhalf lm) = Ok r /\
  hdist (hmul (@qval 53 1024 (qhalf lm)) (@qval 53 1024 r)) hone <= 8 * uro 53 + 2 * eta 53 1024.
Proof.
  destruct (qhalf_ok lm) as [Fq L]. destruct (@C87_product 53 1024 f64_prec_gt_0 f64_prec_lt_emax lm (qhalf lm) ltac:(lia) Fq) as [r [E [D _]]].
  - rewrite <- hlen_sq, L. replace (1 * 1) with (bpow radix2 0) by (simpl; ring). apply bpow_le. lia.
  - rewrite L. change 1 with (bpow radix2 0). apply bpow_le. vm_compute. discriminate.
  - exists r. split; [exact E |]. rewrite L in D. lra.
Qed.
Example C87_case_plane : vdot (V (2 / 3) (1 / 3) (2 / 3)) (V (2 / 3) (1 / 3) (2 / 3)) = 1.
Proof. unfold vdot. simpl. field. Qed.
