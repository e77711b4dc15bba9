(** PFar0.v — the geometry of the GJK search on balls that are clearly apart (C111). *)
From Coq Require Import Reals Lra Lia Psatz.
From Flocq Require Import Core.Raux.
From Verif Require Import SpecGeom PDeep0.
Local Open Scope R_scope.

Lemma far_poly R : 12 / 10 <= R <= 29 / 12 -> ((R * R - 1) / 2 + 3 / 100) * ((R * R - 1) / 2 + 3 / 100) + / 1000 <= (R - 1) * (R - 1) * (3 - R) * (1 + R) / 4 * (R * R + / 4 + 6 / 100).
Proof.
  intros [A B]. apply Rminus_le. assert (E : (R - 1) * (R - 1) * (3 - R) * (1 + R) / 4 * (R * R + / 4 + 6 / 100) - (((R * R - 1) / 2 + 3 / 100) * ((R * R - 1) / 2 + 3 / 100) + / 1000) =
    let X := R - 12 / 10 in let Y := 29 / 12 - R in 270604800 / 151334226289 * (X ^ 0 * Y ^ 6) + 11900328192 / 151334226289 * (X ^ 1 * Y ^ 5) + 120044884896 / 151334226289 * (X ^ 2 * Y ^ 4) + 458850737520 / 151334226289 * (X ^ 3 * Y ^ 3) + 747968953725 / 151334226289 * (X ^ 4 * Y ^ 2) + 442179785850 / 151334226289 * (X ^ 5 * Y ^ 1) + 27251406275 / 605336905156 * (X ^ 6 * Y ^ 0)) by (cbv zeta; field).
  cbv zeta in E. set (X := R - 12 / 10) in E. set (Y := 29 / 12 - R) in E. assert (HX : 0 <= X) by (unfold X; lra). assert (HY : 0 <= Y) by (unfold Y; lra).
  assert (P : forall i j, 0 <= X ^ i * Y ^ j) by (intros; apply Rmult_le_pos; apply pow_le; assumption).
  pose proof (P 0%nat 6%nat). pose proof (P 1%nat 5%nat). pose proof (P 2%nat 4%nat). pose proof (P 3%nat 3%nat). pose proof (P 4%nat 2%nat). pose proof (P 5%nat 1%nat). pose proof (P 6%nat 0%nat). lra.
Qed.
(** the x of the second direction, for a centre at [c] along x and [sqrt t2] off the axis; lengths in units of the two radii *)
Section Slope.
  Variables (c t2 x h z2 : R).
  Notation s := (1 + c).
  Hypotheses (Hc : -3/4 <= c) (H1 : 9 / 4 <= c * c + t2) (H2 : c * c + t2 <= 64) (Ht : 0 <= t2) (X0 : 0 <= x) (Hh : Rabs h <= / 10000) (Z0 : 0 <= z2) (Z1 : z2 <= / 1000000000 * t2)
    (E : (s * x - h) * (s * x - h) + z2 = t2 * (1 - x * x)).
  Lemma x_le : x <= 1.
  Proof.
    destruct (Rle_dec x 1) as [Y | N]; [exact Y | exfalso]. apply Rabs_le_inv in Hh.
    assert (0 < s * x - h) by nra. assert (0 < (s * x - h) * (s * x - h)) by (apply Rmult_lt_0_compat; assumption). assert (0 <= t2 * (x * x - 1)) by (apply Rmult_le_pos; [exact Ht | nra]). lra.
  Qed.
  Lemma far_gap : s * s / 82 <= 2 - 2 * x.
  Proof.
    pose proof x_le as X1. apply Rabs_le_inv in Hh. assert (N : (s * s + t2) * (1 - x * x) = s * s - 2 * s * h * x + h * h + z2) by lra.
    assert (B : s * s + t2 <= 81) by nra. assert (G : s * s * (999 / 1000) <= (s * s + t2) * (1 - x * x)).
    { rewrite N. assert (0 <= h * h) by nra. assert (s * (h * x) <= s * / 10000) by (apply Rmult_le_compat_l; nra). nra. }
    assert (X2 : 0 <= 1 - x * x) by nra. assert ((s * s + t2) * (1 - x * x) <= 81 * (1 - x * x)) by (apply Rmult_le_compat_r; assumption).
    assert (0 <= (1 - x) * (1 - x)) by nra. assert (0 <= s * s) by nra. lra.
  Qed.
  Lemma far_slope : 3 / 100 <= x + c /\ 2 - 2 * x <= (x + c - 3 / 100) * (x + c - 3 / 100).
  Proof.
    pose proof x_le as X1. apply Rabs_le_inv in Hh. set (R := sqrt (1 + 2 * (s - 3 / 100))). assert (R2 : R * R = 1 + 2 * (s - 3 / 100)) by (apply sqrt_sqrt; lra). assert (R0 : 0 <= R) by apply sqrt_pos. clearbody R.
    assert (R1 : 12 / 10 <= R) by nra.
    assert (G : R <= x + (s - 3 / 100)).
    { destruct (Rle_dec (29 / 12) R) as [Y | N]; [nra |]. apply Rnot_le_lt in N.
      destruct (Rle_dec R (x + (s - 3 / 100))) as [Y | M]; [exact Y | exfalso]. apply Rnot_le_lt in M.
      set (k := R - (s - 3 / 100)) in *. assert (K : x < k) by (unfold k; lra). assert (Ek : 1 - k * k = (R - 1) * (R - 1) * (3 - R) * (1 + R) / 4).
      { unfold k. replace (s - 3 / 100) with ((R * R - 1) / 2) by lra. field. }
      pose proof (far_poly R (conj R1 (Rlt_le _ _ N))) as P. rewrite <- Ek in P. replace ((R * R - 1) / 2 + 3 / 100) with s in P by lra.
      assert (KK : x * x < k * k) by nra. set (w := 1 - x * x) in *. assert (W : 1 - k * k < w) by (unfold w; lra).
      assert (N2 : (s * s + t2) * w = s * s - 2 * s * h * x + h * h + z2) by (unfold w in *; lra).
      assert (B : R * R + / 4 + 6 / 100 <= s * s + t2) by lra.
      assert (S2 : s <= 246 / 100) by (clear - R1 R2 N; nra). assert (Y1 : - (2 * s * h * x) <= 6 / 10000).
      { assert (HX : - (h * x) <= / 10000) by (clear - Hh X0 X1; nra). assert (s * - (h * x) <= s * / 10000) by (apply Rmult_le_compat_l; lra). lra. }
      assert (Y2 : h * h <= / 10000) by (clear - Hh; nra).
      assert (W1 : / 10000 <= 1 - k * k). { apply Rmult_le_reg_r with (R * R + / 4 + 6 / 100); [lra |]. eapply Rle_trans; [| exact P]. assert (R * R <= 6) by (clear - R1 N; nra). assert (0 <= s * s) by (apply Rle_0_sqr). lra. }
      assert (Y3 : (s * s + t2) * (w - / 1000000000) <= s * s + 7 / 10000) by (assert (0 <= s * s) by apply Rle_0_sqr; lra).
      assert (Y4 : (1 - k * k - / 1000000000) * (R * R + / 4 + 6 / 100) <= (s * s + t2) * (w - / 1000000000)).
      { rewrite (Rmult_comm (s * s + t2)). apply Rmult_le_compat; lra. }
      assert (Y5 : R * R <= 6) by (clear - R1 N; nra). lra. }
    split; [lra |]. assert (0 <= (x + (s - 3 / 100) - R) * (x + (s - 3 / 100) + R)) by (apply Rmult_le_pos; lra). nra.
  Qed.
End Slope.
