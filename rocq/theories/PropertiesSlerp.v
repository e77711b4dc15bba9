(** PropertiesSlerp.v — C126: symmetries of the interpolations, constant speed, parts of an arc, powers. *)
From Coq Require Import Reals List ZArith NArith Bool Lra Lia.
Import ListNotations.
From Verif Require Import Base Num Vec Mat Quat Exact SpecMat SpecReal SpecGeom SpecQuat PQuat PSlerp PropertiesQuat.
Local Open Scope R_scope.

Section Slerp.
Context (eps : R) (zs : XR -> bool).
Notation E := (Exact eps zs).
Notation eq4 := (PQuat.eq4 eps zs).
Notation slerp a b t := (quat_interpolate_slerp (eq4 a) (eq4 b) (Fin t : E)).
Notation lerp a b t := (quat_interpolate_linear (eq4 a) (eq4 b) (Fin t : E)).
(** Going back: exchanging the ends and replacing t by 1 - t gives the same quaternion, and on the long way round its negative (the same
    rotation).  No assumption on lengths or on t. *)
Theorem C126_reverse a b t : lerp b a (1 - t) = lerp a b t /\
  (0 <= hdot a b -> slerp b a (1 - t) = slerp a b t) /\ (hdot a b < 0 -> slerp b a (1 - t) = quat_negate (slerp a b t)).
Proof. exact (conj (lerp_reverse eps zs a b t) (slerp_reverse eps zs a b t)). Qed.
(** Turning both ends by a unit quaternion, from either side, turns every point between; so does conjugating them. *)
Theorem C126_turn r a b t : hunit r ->
  (quat_mul (eq4 r) (slerp a b t) = quat_interpolate_slerp (quat_mul (eq4 r) (eq4 a)) (quat_mul (eq4 r) (eq4 b)) (Fin t : E) /\
   quat_mul (slerp a b t) (eq4 r) = quat_interpolate_slerp (quat_mul (eq4 a) (eq4 r)) (quat_mul (eq4 b) (eq4 r)) (Fin t : E) /\
   quat_conjugate (slerp a b t) = quat_interpolate_slerp (quat_conjugate (eq4 a)) (quat_conjugate (eq4 b)) (Fin t : E)).
Proof. exact (slerp_turn eps zs r a b t). Qed.
(** for the linear one, by any quaternion *)
Theorem C126_turn_linear r a b t :
  quat_mul (eq4 r) (lerp a b t) = quat_interpolate_linear (quat_mul (eq4 r) (eq4 a)) (quat_mul (eq4 r) (eq4 b)) (Fin t : E) /\
  quat_mul (lerp a b t) (eq4 r) = quat_interpolate_linear (quat_mul (eq4 a) (eq4 r)) (quat_mul (eq4 b) (eq4 r)) (Fin t : E).
Proof. exact (lerp_turn eps zs r a b t). Qed.
(** Constant speed: the angle between the points at s and t is |t - s| times the whole angle. *)
Theorem C126_speed a b s t : hunit a -> hunit b -> 0 <= hdot a b <= 9999 / 10000 -> exists p q, slerp a b s = eq4 p /\ slerp a b t = eq4 q /\ hunit p /\ hunit q /\
  hdot p q = cos ((clamp01 t - clamp01 s) * acos (hdot a b)) /\ (0 <= s <= 1 -> 0 <= t <= 1 -> acos (hdot p q) = Rabs (t - s) * acos (hdot a b)).
Proof. exact (slerp_speed eps zs a b s t). Qed.
(** Interpolating between two points of the arc stays on the arc, at the parameter between theirs (s <= t is not needed). *)
Theorem C126_part a b s t w p q : hunit a -> hunit b -> 0 <= hdot a b <= 9999 / 10000 -> 0 <= s <= 1 -> 0 <= t <= 1 -> 0 <= w <= 1 ->
  slerp a b s = eq4 p -> slerp a b t = eq4 q -> hdot p q <= 9999 / 10000 -> slerp p q w = slerp a b ((1 - w) * s + w * t).
Proof. exact (slerp_part eps zs a b s t w p q). Qed.
(** The interpolation is a times the power of a^-1 b. *)
Theorem C126_pow a b t : hunit a -> hunit b -> 0 <= hdot a b <= 9999 / 10000 -> 0 <= t <= 1 ->
  exists r, quat_pow (quat_mul (quat_conjugate (eq4 a)) (eq4 b)) (Fin t : E) = Ok r /\ slerp a b t = quat_mul (eq4 a) r.
Proof. exact (slerp_pow eps zs a b t). Qed.
End Slerp.
Print Assumptions C126_reverse.
Print Assumptions C126_turn.
Print Assumptions C126_turn_linear.
Print Assumptions C126_speed.
Print Assumptions C126_part.
Print Assumptions C126_pow.

(** ---- cases: from 1 to 3/5 i + 4/5, and to its opposite ---- *)
Example C126_case eps zs t : 0 <= hdot hone exq <= 9999 / 10000 /\ hdot hone (hneg exq) < 0 /\
  quat_mul (PQuat.eq4 eps zs hj) (quat_interpolate_slerp (PQuat.eq4 eps zs hone) (PQuat.eq4 eps zs exq) (Fin t : Exact eps zs))
  = quat_interpolate_slerp (PQuat.eq4 eps zs hj) (PQuat.eq4 eps zs (H (V 0 (4 / 5) (- (3 / 5))) 0)) (Fin t : Exact eps zs).
Proof.
  split; [unfold exq, hone, hdot, vdot, vzero; simpl; lra |]. split; [unfold exq, hone, hneg, hscale, hdot, vdot, vzero; simpl; lra |].
  assert (J : hunit hj) by (unfold hunit, hdot, vdot; cbn; ring). rewrite (proj1 (C126_turn eps zs hj hone exq t J)), !q_mul. f_equal; f_equal; unfold exq; hring.
Qed.
(** the first half of the arc from 1 to i, again halved *)
Example C126_case_part eps zs p : quat_interpolate_slerp (PQuat.eq4 eps zs hone) (PQuat.eq4 eps zs hi) (Fin (1 / 2) : Exact eps zs) = PQuat.eq4 eps zs p ->
  quat_interpolate_slerp (PQuat.eq4 eps zs hone) (PQuat.eq4 eps zs p) (Fin (1 / 2) : Exact eps zs) = quat_interpolate_slerp (PQuat.eq4 eps zs hone) (PQuat.eq4 eps zs hi) (Fin (1 / 4) : Exact eps zs).
Proof.
  intro Ep. assert (A : hunit hone) by (unfold hunit, hdot, vdot; cbn; ring). assert (B : hunit hi) by (unfold hunit, hdot, vdot; cbn; ring). assert (D : hdot hone hi = 0) by (unfold hdot, vdot; cbn; ring). assert (C : 0 <= hdot hone hi <= 9999 / 10000) by (rewrite D; lra).
  pose proof (proj1 (C29_ends eps zs hone hi 0 C) (Rle_refl 0)) as E0. destruct (C126_speed eps zs hone hi 0 (1 / 2) A B C) as (p0 & p1 & P0 & P1 & _ & _ & S & _). rewrite E0 in P0. rewrite Ep in P1. apply eq4_inj in P0. apply eq4_inj in P1. subst p0 p1.
  rewrite (C126_part eps zs hone hi 0 (1 / 2) (1 / 2) hone p A B C ltac:(lra) ltac:(lra) ltac:(lra) E0 Ep); [do 2 f_equal; field |].
  rewrite S, D, acos_0. replace (clamp01 (1 / 2)) with (1 / 2) by (unfold clamp01, Rmax, Rmin; repeat destruct (Rle_dec _ _); lra). replace (clamp01 0) with 0 by (unfold clamp01, Rmax, Rmin; repeat destruct (Rle_dec _ _); lra). replace ((1 / 2 - 0) * (PI / 2)) with (PI / 4) by field. rewrite cos_PI4. apply Rle_trans with (1 / (10 / 9)); [| lra]. unfold Rdiv. apply Rmult_le_compat_l; [lra |]. apply Rinv_le_contravar; [lra |]. rewrite <- (sqrt_square (10 * / 9)) by lra. apply sqrt_le_1; lra.
Qed.
