(** PFar1.v — errors of the triangle normals of the GJK search relative to its edges (C111). *)
From Coq Require Import Reals List ZArith NArith Bool Lra Lia Psatz.
From Flocq Require Import Core BinarySingleNaN Relative.
Import ListNotations.
From Verif Require Import Base Num Vec Mat Bound Shape Gjk Intersect Float Exact FloatFacts FloatRound Order SpecMat SpecGeom SpecBound
  SpecRound SpecBuild SpecTrace ExactFacts PMat PShape PGeo1 PBuild PSup2 PRound PRound2 PRound3 PIeee1 PIeee2 PIeee3 PIeee5 PIeee6 PIeee7 PPrismF PRayR PNan2 PMirror1 PMirror3 PDeep0 PDeep1 PFar0.
Local Open Scope R_scope.

Lemma triple_v a b : vcross (vcross a b) b = vsub (vscale (vdot a b) b) (vscale (vdot b b) a).
Proof. destruct a as [a0 a1 a2], b as [b0 b1 b2]. apply V3_eq; unfold vcross, vsub, vscale, vdot; cbn [vx vy vz]; ring. Qed.
(** the triangle seen from balls that are apart: lengths in units of the two radii *)
Section Apart0.
  Variables (C d : V3).
  Notation x := (vx d). Notation c := (vx C). Notation h := (vdot C d + vx d).
  Notation t2 := (vy C * vy C + vz C * vz C). Notation det := (vy C * vz d - vz C * vy d).
  Hypotheses (C1 : 9 / 4 <= vdot C C) (C2 : vdot C C <= 64) (Hc : -3/4 <= c) (Hd : vdot d d = 1) (X0 : 0 <= x) (Hh : Rabs h <= / 10000) (Hz : det * det <= / 1000000000 * t2).
  Lemma apart_eq : ((1 + c) * x - h) * ((1 + c) * x - h) + det * det = t2 * (1 - x * x).
  Proof.
    replace (1 - x * x) with (vy d * vy d + vz d * vz d) by (unfold vdot in Hd; lra). destruct C as [p0 p1 p2], d as [d0 d1 d2]. unfold vdot. cbn [vx vy vz]. ring.
  Qed.
  Lemma apart_x : (1 + c) * (1 + c) / 82 <= 2 - 2 * x /\ x <= 1 /\ 3 / 100 <= x + c /\ 2 - 2 * x <= (x + c - 3 / 100) * (x + c - 3 / 100).
  Proof.
    assert (Ht : 0 <= t2) by (pose proof (Rle_0_sqr (vy C)); pose proof (Rle_0_sqr (vz C)); unfold Rsqr in *; lra).
    assert (E1 : 9 / 4 <= c * c + t2) by (unfold vdot in C1; lra). assert (E2 : c * c + t2 <= 64) by (unfold vdot in C2; lra).
    assert (Z0 : 0 <= det * det) by apply Rle_0_sqr. pose proof apart_eq as E.
    split; [apply (far_gap c t2 x h (det * det)); assumption |]. split; [apply (x_le c t2 x h (det * det)); assumption |].
    apply (far_slope c t2 x h (det * det)); assumption.
  Qed.
  Notation g := (norm (vsub d e_x)).
  Lemma g_sq : g * g = 2 - 2 * x.
  Proof. clear X0 Hh Hz. rewrite norm_sq. replace 2 with (1 + vdot d d) at 1 by (rewrite Hd; ring). destruct d as [d0 d1 d2]. unfold vdot, vsub, e_x. cbn [vx vy vz]. ring. Qed.
  Lemma g_vals : 0 <= g <= 15 / 10 /\ g <= x + c - 3 / 100 /\ (1 + c) / 91 * 10 <= g.
  Proof.
    pose proof g_sq as G. pose proof (norm_pos (vsub d e_x)) as P. destruct apart_x as (A1 & A2 & A3 & A4). set (gg := g) in *. clearbody gg.
    split; [split; [exact P | nra] |]. split; [apply Rsqr_incr_0_var; unfold Rsqr; lra |].
    apply Rsqr_incr_0_var; [| exact P]. unfold Rsqr. rewrite G. assert (0 <= (1 + c) * (1 + c)) by apply Rle_0_sqr. lra.
  Qed.
  (** the side of the triangle facing the origin, and how far the origin is beyond the next point *)
  Lemma apart_near : 299 / 10000 <= c + 2 * x - 1 - h /\ vdot C (vsub d e_x) + g <= - (299 / 10000).
  Proof.
    pose proof g_sq as G. destruct g_vals as ((G0 & G1) & G2 & _). pose proof (Rabs_le_inv _ _ Hh) as Hh'. destruct apart_x as (_ & A2 & _). set (gg := g) in *. clearbody gg. split; [nra |].
    replace (vdot C (vsub d e_x)) with (h - x - c) by (unfold vdot, vsub, e_x; cbn [vx vy vz]; ring). lra.
  Qed.
  Lemma apart_far : (1 + c) * (1 + c) / 92 * 10 <= g * (1 + c + h).
  Proof.
    destruct g_vals as ((G0 & G1) & G2 & G3). pose proof (Rabs_le_inv _ _ Hh) as Hh'. apply Rle_trans with ((1 + c) / 91 * 10 * (1 + c + h)); [| apply Rmult_le_compat_r; lra].
    assert (H : (1 + c) * (h + (1 + c) / 92) >= 0) by (apply Rle_ge, Rmult_le_pos; lra). lra.
  Qed.
End Apart0.

Section Far1.
  Context (prec emax : Z) {Hp : Prec_gt_0 prec} {Hm : Prec_lt_emax prec emax} (lm : libm (binary_float prec emax)).
  Notation bf := (binary_float prec emax).
  Notation val := (@B2R prec emax).
  Notation fin x := (is_finite (x : bf) = true).
  Notation u := (uro prec).
  Notation et := (eta prec emax).
  Notation bnd3 := (bnd3 prec emax lm).
  Notation F := (@Ieee prec emax Hp Hm lm).
  Notation vec := (mat3x1 F).
  Notation w3 v := (v3 (v : mat3x1 bf)).
  Section Triple.
  Variables (X Y : vec) (ex ey : V3) (lx ly dl : R) (j : Z).
  Hypotheses (HP : (9 < prec)%Z) (J0 : (0 <= j)%Z) (J1 : (4 * j + 6 < emax)%Z) (BX : bnd3 j X) (BY : bnd3 j Y) (DX : dist (w3 X) ex <= dl) (DY : dist (w3 Y) ey <= dl) (Nx : norm ex <= lx) (Ny : norm ey <= ly)
    (D0 : 0 <= dl) (Dx : dl <= lx / 100) (Dy : dl <= ly / 100) (Ux : u * lx <= dl / 15) (E1 : 5 * et <= / 100 * (dl * ly)) (E2 : 5 * et <= / 100 * (dl * ly * ly)).
  Notation W := (vcrossn X Y). Notation M := (vcrossn W Y).
  Lemma triple_err : bnd3 (3 * j + 2) M /\ dist (w3 M) (vcross (vcross ex ey) ey) <= dl * ly * (145 / 100 * ly + 202 / 100 * lx).
  Proof.
    destruct (cross_v prec emax lm X Y j j HP ltac:(lia) ltac:(lia) BX BY) as [BW EW]. destruct (cross_v prec emax lm W Y (j + j + 1) j HP ltac:(lia) ltac:(lia) BW BY) as [BM EM].
    split; [replace (3 * j + 2)%Z with (j + j + 1 + j + 1)%Z by ring; exact BM |]. clear BW BM BX BY. set (Mv := w3 M) in *. set (Wv := w3 W) in *. set (Xv := w3 X) in *. set (Yv := w3 Y) in *. clearbody Mv Wv Xv Yv.
    pose proof (norm_close Xv ex) as NX. pose proof (norm_close Yv ey) as NY. pose proof (norm_pos Xv) as PX. pose proof (norm_pos Yv) as PY. pose proof (norm_pos ex) as Px. pose proof (norm_pos ey) as Py.
    pose proof (PRayR.cross_near Xv Yv ex ey) as C1. pose proof (PRayR.cross_near Wv Yv (vcross ex ey) ey) as C2. pose proof (cross_norm_le ex ey) as C3. pose proof (norm_pos (vcross ex ey)) as PW'. pose proof (norm_pos Wv) as PW.
    pose proof (u_pos prec) as U0. pose proof (et_pos prec emax) as T0.
    assert (LX : norm Xv <= 101 / 100 * lx) by lra. assert (LY : norm Yv <= 101 / 100 * ly) by lra.
    assert (Q0 : dist Xv ex * norm Yv <= dl * (101 / 100 * ly)) by (apply Rmult_le_compat; try assumption; apply norm_pos).
    assert (Q1 : norm ex * dist Yv ey <= lx * dl) by (apply Rmult_le_compat; try assumption; apply norm_pos).
    assert (Q2 : u * (norm Xv * norm Yv) <= u * lx * (103 / 100 * ly)).
    { assert (norm Xv * norm Yv <= 101 / 100 * lx * (101 / 100 * ly)) by (apply Rmult_le_compat; assumption). assert (0 <= lx * ly) by (apply Rmult_le_pos; lra). assert (u * (norm Xv * norm Yv) <= u * (lx * (103 / 100 * ly))) by (apply Rmult_le_compat_l; lra). lra. }
    assert (Q3 : u * lx * (103 / 100 * ly) <= dl / 15 * (103 / 100 * ly)) by (apply Rmult_le_compat_r; lra).
    assert (DL : 0 <= dl * ly) by (apply Rmult_le_pos; lra). assert (DX' : 0 <= dl * lx) by (apply Rmult_le_pos; lra).
    pose proof (dist_tri3 Wv (vcross Xv Yv) (vcross ex ey)) as TW.
    assert (HW : dist Wv (vcross ex ey) <= dl * (122 / 100 * ly + lx)) by lra.
    assert (L3 : norm (vcross ex ey) <= lx * ly) by (eapply Rle_trans; [exact C3 |]; apply Rmult_le_compat; assumption).
    assert (S1 : dl * ly <= lx * ly / 100) by (assert (dl * ly <= lx / 100 * ly) by (apply Rmult_le_compat_r; lra); lra).
    assert (S2 : dl * lx <= lx * ly / 100) by (assert (dl * lx <= ly / 100 * lx) by (apply Rmult_le_compat_r; lra); lra).
    pose proof (norm_close Wv (vcross ex ey)) as NW. assert (P0 : 0 <= lx * ly) by (apply Rmult_le_pos; lra).
    assert (LW : norm Wv <= 1025 / 1000 * (lx * ly)) by lra.
    assert (R0 : norm Wv * norm Yv <= 1025 / 1000 * (lx * ly) * (101 / 100 * ly)) by (apply Rmult_le_compat; assumption).
    assert (R1 : u * (norm Wv * norm Yv) <= u * lx * (1036 / 1000 * (ly * ly))).
    { assert (0 <= lx * ly * ly) by (apply Rmult_le_pos; lra). assert (u * (norm Wv * norm Yv) <= u * (lx * (1036 / 1000 * (ly * ly)))) by (apply Rmult_le_compat_l; lra). lra. }
    assert (LL : 0 <= ly * ly) by (apply Rmult_le_pos; lra). assert (R2 : u * lx * (1036 / 1000 * (ly * ly)) <= dl / 15 * (1036 / 1000 * (ly * ly))) by (apply Rmult_le_compat_r; lra).
    assert (R3 : dist Wv (vcross ex ey) * norm Yv <= dl * (122 / 100 * ly + lx) * (101 / 100 * ly)) by (apply Rmult_le_compat; try assumption; apply norm_pos).
    assert (R4 : norm (vcross ex ey) * dist Yv ey <= lx * ly * dl) by (apply Rmult_le_compat; try assumption; apply norm_pos).
    pose proof (dist_tri3 Mv (vcross Wv Yv) (vcross (vcross ex ey) ey)) as TM.
    assert (DLL : 0 <= dl * (ly * ly)) by (apply Rmult_le_pos; lra). assert (DLX : 0 <= dl * lx * ly) by (apply Rmult_le_pos; lra). lra.
  Qed.
  End Triple.
End Far1.
