(** PDeep0.v — the geometry of the GJK search on balls that overlap deeply (C110). *)
From Coq Require Import Reals Lra Lia Psatz.
From Flocq Require Import Core.Raux.
From Verif Require Import SpecGeom.
Local Open Scope R_scope.

Definition e_x : V3 := V 1 0 0.
(** half the sum of the radii as the unit of length; c is the x of the centre, x that of the direction *)
Lemma slope c x h : -1/2 <= c <= 1/2 -> Rabs h <= / 500 -> (h - x - c * x) * (h - x - c * x) <= (1 / 4 - c * c) * (1 - x * x) -> 2 * x + c <= 93 / 100.
Proof.
  intros [C0 C1] H L. apply Rabs_le_inv in H. destruct (Rle_dec (2 * x + c) (93 / 100)) as [Y | N]; [exact Y | exfalso].
  set (x0 := (93 / 100 - c) / 2). assert (X0 : x0 < x) by (unfold x0; lra). assert (X1 : 215 / 1000 <= x0) by (unfold x0; lra).
  assert (A1 : (x0 * (1 + c) - / 500) * (x0 * (1 + c) - / 500) <= (h - x - c * x) * (h - x - c * x)).
  { replace ((h - x - c * x) * (h - x - c * x)) with ((x * (1 + c) - h) * (x * (1 + c) - h)) by ring.
    assert (x0 * (1 + c) <= x * (1 + c)) by (apply Rmult_le_compat_r; lra). assert (215 / 1000 * (1 / 2) <= x0 * (1 + c)) by (apply Rmult_le_compat; lra).
    apply Rmult_le_compat; lra. }
  assert (A2 : (1 / 4 - c * c) * (1 - x * x) <= (1 / 4 - c * c) * (1 - x0 * x0)).
  { apply Rmult_le_compat_l; nra. }
  assert (A3 : (x0 * (1 + c) - / 500) * (x0 * (1 + c) - / 500) <= (1 / 4 - c * c) * (1 - x0 * x0)) by lra.
  unfold x0 in A3. clear - C0 C1 A3.
  assert (0 < ((93 / 100 - c) / 2 * (1 + c) - / 500) * ((93 / 100 - c) / 2 * (1 + c) - / 500) - (1 / 4 - c * c) * (1 - (93 / 100 - c) / 2 * ((93 / 100 - c) / 2))); [| lra].
  replace (_ - _) with (1842525 / 100000000 - 14866 / 100000 * c + 3845 / 10000 * (c * c) + / 2 * (c * c * c)) by field.
  destruct (Rle_dec (-3 / 10) c) as [P | P].
  - assert (0 <= (c - 15 / 100) * (c - 15 / 100) * (c + 3 / 10)) by (apply Rmult_le_pos; [apply Rle_0_sqr | lra]). pose proof (Rle_0_sqr (c - 15 / 100)) as Q. unfold Rsqr in Q. lra.
  - assert (0 <= c * c * (c + 1 / 2)) by (apply Rmult_le_pos; [apply Rle_0_sqr | lra]). pose proof (Rle_0_sqr c) as Q. unfold Rsqr in Q. lra.
Qed.
Lemma cauchy_yz a b c d : (a * c + b * d) * (a * c + b * d) <= (a * a + b * b) * (c * c + d * d).
Proof. pose proof (Rle_0_sqr (a * d - b * c)) as H. unfold Rsqr in H. nra. Qed.
(** the third corner of the triangle sees the origin between the other two *)
Lemma corner_sides (C d : V3) : vdot C C <= 1 / 4 -> vdot d d = 1 -> Rabs (vdot C d + vx d) <= / 500 ->
  39 / 100 <= (2 - 2 * vx d) * (1 + vx C + (vdot C d + vx d)) /\ 13 / 100 <= (2 + 2 * vx d) * (1 - vx C - 2 * vx d + (vdot C d + vx d)).
Proof.
  destruct C as [c0 c1 c2], d as [d0 d1 d2]. unfold vdot. cbn [vx vy vz]. intros HC Hd H. set (h := c0 * d0 + c1 * d1 + c2 * d2 + d0) in *.
  assert (C0 : -1/2 <= c0 <= 1/2) by (split; nra).
  pose proof (cauchy_yz c1 c2 d1 d2) as Q. replace (c1 * d1 + c2 * d2) with (h - d0 - c0 * d0) in Q by (unfold h; ring).
  assert (Q' : (h - d0 - c0 * d0) * (h - d0 - c0 * d0) <= (1 / 4 - c0 * c0) * (1 - d0 * d0)).
  { eapply Rle_trans; [exact Q |]. replace (d1 * d1 + d2 * d2) with (1 - d0 * d0) by lra. apply Rmult_le_compat_r; [| lra]. pose proof (Rle_0_sqr d1). pose proof (Rle_0_sqr d2). unfold Rsqr in *. lra. }
  pose proof (slope c0 d0 h C0 H Q') as S. apply Rabs_le_inv in H.
  assert (CS : (h - d0) * (h - d0) <= 1 / 4).
  { replace (h - d0) with (c0 * d0 + (h - d0 - c0 * d0)) by ring. replace (h - d0 - c0 * d0) with (c1 * d1 + c2 * d2) by (unfold h; ring).
    pose proof (Rle_0_sqr (c0 * d1 - c1 * d0)). pose proof (Rle_0_sqr (c0 * d2 - c2 * d0)). pose proof (Rle_0_sqr (c1 * d2 - c2 * d1)). unfold Rsqr in *.
    assert ((c0 * d0 + c1 * d1 + c2 * d2) * (c0 * d0 + c1 * d1 + c2 * d2) <= (c0 * c0 + c1 * c1 + c2 * c2) * (d0 * d0 + d1 * d1 + d2 * d2)) by nra. rewrite Hd in H3. lra. }
  clearbody h. assert (D0 : -502 / 1000 <= d0 <= 502 / 1000) by (split; nra). clear - C0 H S D0. split.
  - assert (996 / 1000 * (498 / 1000) <= (2 - 2 * d0) * (1 + c0 + h)) by (apply Rmult_le_compat; lra). lra.
  - destruct (Rle_dec 0 d0) as [P | P].
    + assert (2 * (68 / 1000) <= (2 + 2 * d0) * (1 - c0 - 2 * d0 + h)) by (apply Rmult_le_compat; lra). lra.
    + assert (996 / 1000 * (498 / 1000) <= (2 + 2 * d0) * (1 - c0 - 2 * d0 + h)) by (apply Rmult_le_compat; lra). lra.
Qed.
Lemma triple_dot a b c : vdot (vcross (vcross a b) b) c = vdot b c * vdot a b - vdot a c * vdot b b.
Proof. destruct a as [a0 a1 a2], b as [b0 b1 b2], c as [g0 g1 g2]. unfold vdot, vcross. cbn [vx vy vz]. ring. Qed.
Definition corner (K : R) (C v : V3) : V3 := vscale K (vadd C v).
Section Tri.
  Variables (K : R) (C d : V3).
  Notation cor := (corner K C).
  Hypothesis D : vdot d d = 1.
  Notation a := (cor d). Notation ab := (vsub (cor e_x) (cor d)). Notation ac := (vsub (cor (vscale (-1) e_x)) (cor d)).
  Lemma dot_bc : vdot ac ab = 0.
  Proof. replace (vdot ac ab) with (K * K * (vdot d d - 1)); [rewrite D; ring |]. destruct C as [g0 g1 g2], d as [d0 d1 d2]. unfold corner, e_x, vdot, vsub, vadd, vscale. cbn [vx vy vz]. ring. Qed.
  Lemma dot_bb : vdot ab ab = K * K * (2 - 2 * vx d).
  Proof. replace 2 with (1 + vdot d d) at 1 by (rewrite D; ring). destruct C as [g0 g1 g2], d as [d0 d1 d2]. unfold corner, e_x, vdot, vsub, vadd, vscale. cbn [vx vy vz]. ring. Qed.
  Lemma dot_cc : vdot ac ac = K * K * (2 + 2 * vx d).
  Proof. replace 2 with (1 + vdot d d) at 1 by (rewrite D; ring). destruct C as [g0 g1 g2], d as [d0 d1 d2]. unfold corner, e_x, vdot, vsub, vadd, vscale. cbn [vx vy vz]. ring. Qed.
  Lemma dot_ab : vdot ab (vscale (-1) a) = - (K * K) * (vx C - 1 + 2 * vx d - (vdot C d + vx d)).
  Proof. transitivity (- (K * K) * (vx C - vdot d d + 2 * vx d - (vdot C d + vx d))); [| rewrite D; reflexivity]. destruct C as [g0 g1 g2], d as [d0 d1 d2]. unfold corner, e_x, vdot, vsub, vadd, vscale. cbn [vx vy vz]. ring. Qed.
  Lemma dot_ac : vdot ac (vscale (-1) a) = K * K * (1 + vx C + (vdot C d + vx d)).
  Proof. transitivity (K * K * (vdot d d + vx C + (vdot C d + vx d))); [| rewrite D; reflexivity]. destruct C as [g0 g1 g2], d as [d0 d1 d2]. unfold corner, e_x, vdot, vsub, vadd, vscale. cbn [vx vy vz]. ring. Qed.
  Lemma dot_cb : vdot ab ac = 0. Proof. rewrite <- dot_bc. unfold vdot. ring. Qed.
  Lemma side_b : vdot (vcross (vcross ac ab) ab) (vscale (-1) a) = - (K * K * K * K) * ((2 - 2 * vx d) * (1 + vx C + (vdot C d + vx d))).
  Proof. rewrite triple_dot, dot_bc, dot_ac, dot_bb. ring. Qed.
  Lemma side_c : vdot (vcross (vcross ab ac) ac) (vscale (-1) a) = - (K * K * K * K) * ((2 + 2 * vx d) * (1 - vx C - 2 * vx d + (vdot C d + vx d))).
  Proof. rewrite triple_dot, dot_cb, dot_ab, dot_cc. ring. Qed.
End Tri.
