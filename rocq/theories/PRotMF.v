(** PRotMF.v — rotation matrices against quaternions in IEEE arithmetic (C125). *)
From Coq Require Import Reals List ZArith NArith Bool Lra Lia Psatz.
From Flocq Require Import Core BinarySingleNaN.
Import ListNotations.
From Verif Require Import Base Num Vec Mat Quat Float FloatFacts FloatRound SpecMat SpecReal SpecRound SpecGeom SpecBound SpecQuat SpecBuild SpecFq SpecRun SpecRunV SpecRotM ExactFacts PMat PMat2 PMat3 PGeo1 PRound PRound2 PRound3 PQuat PIeee2 PIeee3 PIeee4 PIeee5 PIeee6 PPow PRun PRunM PRunV PRotM.
Local Open Scope R_scope.

(** ---- over the reals ---- *)
Lemma hdir_unit q : 0 < hlen q -> hunit (hdir q).
Proof. intro L. unfold hunit. rewrite <- hlen_sq, (hdir_len q L). ring. Qed.
Lemma hact_scale c q v : vsub (hact (hscale c q) v) v = vscale (c * c) (vsub (hact q v) v).
Proof. unfold hact. destruct q as [[? ? ?] ?], v. apply V3_eq; cbn; ring. Qed.
Lemma hdir_scale q : 0 < hlen q -> hscale (hlen q) (hdir q) = q.
Proof. intro L. unfold hdir. destruct q as [[a b c] d]. set (l := hlen _) in *. unfold hscale, vscale. cbn [SpecQuat.hv SpecQuat.hs vx vy vz]. f_equal; [f_equal |]; field; lra. Qed.
Lemma norm_cube v m : Rabs (vx v) <= m -> Rabs (vy v) <= m -> Rabs (vz v) <= m -> norm v <= 7 / 4 * m.
Proof.
  intros A B C. assert (0 <= m) by (eapply Rle_trans; [apply Rabs_pos | exact A]). pose proof (norm_sq v) as S. apply Rsqr_incr_0_var; [| lra]. unfold Rsqr. rewrite S. destruct v as [a b c]. unfold vdot. cbn in *. apply Rabs_le_inv in A. apply Rabs_le_inv in B. apply Rabs_le_inv in C.
  assert (a * a <= m * m) by nra. assert (b * b <= m * m) by nra. assert (c * c <= m * m) by nra. nra.
Qed.
Lemma hrot_scale c q v : hrot (hscale c q) v = vscale (c * c) (hrot q v).
Proof. destruct q as [[? ? ?] ?], v. apply V3_eq; unfold hrot, hscale, hmul, hconj, vdot; cbn; ring. Qed.
Lemma hmat_apply q v (w : lvec R) i : (i < 3)%N -> w 0%N = vx v -> w 1%N = vy v -> w 2%N = vz v -> SpecBound.comp i (hrot q v) = rapp (hmat q) w i.
Proof. intros Hi A B C. unfold rapp, rsum4. rewrite A, B, C. unfold hmat. destruct q as [[? ? ?] ?], v as [? ? ?]. cases3 i Hi; nbool; unfold hrot, hmul, hconj, vdot; cbn; ring. Qed.
Lemma vnorm_sub a b : norm (vsub a b) <= norm a + norm b.
Proof. pose proof (dist_tri3 a vzero b) as T. unfold dist in T. replace (vsub a vzero) with a in T by (destruct a; apply V3_eq; cbn; ring). replace (vsub vzero b) with (vscale (-1) b) in T by (destruct b; apply V3_eq; cbn; ring). rewrite norm_scale_abs, Rabs_left in T by lra. lra. Qed.
Lemma hact_near q v : 0 < hlen q -> dist (hact q v) (hrot (hdir q) v) <= Rabs (hlen q * hlen q - 1) * (2 * norm v).
Proof.
  intro L. pose proof (hdir_unit q L) as U. rewrite <- (hact_rot (hdir q) v U). pose proof (hact_scale (hlen q) (hdir q) v) as S.
  pose proof (hdir_scale q L) as E. rewrite E in S.
  assert (D : vsub (hact q v) (hact (hdir q) v) = vscale (hlen q * hlen q - 1) (vsub (hact (hdir q) v) v)).
  { generalize dependent (hact q v). generalize dependent (hact (hdir q) v). intros A B S. destruct A as [a b c], B as [x y z], v as [p r s]. unfold vsub, vscale in S. cbn in S. injection S as S1 S2 S3. apply V3_eq; cbn; lra. }
  unfold dist. rewrite D, norm_scale_abs. apply Rmult_le_compat_l; [apply Rabs_pos |]. eapply Rle_trans; [apply vnorm_sub |]. rewrite (hact_rot _ v U), (hrot_norm _ v U). lra.
Qed.
Lemma comp_norm v i : (i < 3)%N -> Rabs (SpecBound.comp i v) <= norm v.
Proof.
  intro Hi. pose proof (norm_sq v) as S. pose proof (norm_pos v) as Nn. apply Rsqr_incr_0_var; [| exact Nn]. rewrite <- Rsqr_abs. unfold Rsqr. rewrite S. unfold vdot. destruct v as [a b c]. pose proof (Rle_0_sqr a). pose proof (Rle_0_sqr b). pose proof (Rle_0_sqr c). unfold Rsqr in *. cases3 i Hi; cbn; lra.
Qed.
Lemma comp_dist a b i : (i < 3)%N -> Rabs (SpecBound.comp i a - SpecBound.comp i b) <= dist a b.
Proof. intro Hi. unfold dist. replace (SpecBound.comp i a - SpecBound.comp i b) with (SpecBound.comp i (vsub a b)) by (cases3 i Hi; reflexivity). apply comp_norm, Hi. Qed.
Lemma l1_norm v : Rabs (vx v) + Rabs (vy v) + Rabs (vz v) <= 7 / 4 * norm v.
Proof.
  pose proof (norm_sq v) as S. pose proof (norm_pos v) as Nn. apply Rsqr_incr_0_var; [| lra]. destruct v as [a b c]. unfold vdot in S. cbn in *. unfold Rsqr.
  pose proof (Rabs_pos a). pose proof (Rabs_pos b). pose proof (Rabs_pos c). assert (A : Rabs a * Rabs a = a * a) by (rewrite <- Rabs_mult; apply Rabs_pos_eq; nra). assert (B : Rabs b * Rabs b = b * b) by (rewrite <- Rabs_mult; apply Rabs_pos_eq; nra). assert (C : Rabs c * Rabs c = c * c) by (rewrite <- Rabs_mult; apply Rabs_pos_eq; nra).
  set (x := Rabs a) in *. set (y := Rabs b) in *. set (z := Rabs c) in *. pose proof (Rle_0_sqr (x - y)). pose proof (Rle_0_sqr (x - z)). pose proof (Rle_0_sqr (y - z)). unfold Rsqr in *. nra.
Qed.
Lemma axis_norm j : norm (axis j) = 1.
Proof. unfold norm. replace (vdot (axis j) (axis j)) with 1; [apply sqrt_1 |]. destruct j as [| [p | p |]]; unfold vdot; cbn; ring. Qed.
Lemma hmat_cols q j : hunit q -> (j < 4)%N -> rsum4 (fun k => Rabs (hmat q k j)) <= 7 / 4.
Proof.
  intros Hu Hj. pose proof (fun j => l1_norm (hrot q (axis j))) as L. assert (E : forall j, norm (hrot q (axis j)) = 1) by (intro; rewrite (hrot_norm q _ Hu); apply axis_norm).
  unfold rsum4, hmat. cases4 j Hj; nbool; rewrite ?Rabs_R0, ?Rabs_R1; cbn [SpecBound.comp]; try lra.
  - pose proof (L 0%N). rewrite E in *. lra.
  - pose proof (L 1%N). rewrite E in *. lra.
  - pose proof (L 2%N). rewrite E in *. lra.
Qed.
Lemma hmat_rows q : hunit q -> rows4 (hmat q) (7 / 4).
Proof.
  intros Hu i Hi. eapply Rle_trans; [| apply (hmat_cols (hconj q) i (hunit_conj q Hu) Hi)]. apply rsum4_le. intros j Hj. rewrite (hmat_rot q Hu i j Hi Hj), (hmat_rot _ (hunit_conj q Hu) j i Hj Hi), (rotmat_conj q j i Hj Hi). apply Rle_refl.
Qed.

Section F.
  Context (prec emax : Z) {Hp : Prec_gt_0 prec} {Hm : Prec_lt_emax prec emax} (lm : libm (binary_float prec emax)).
  Notation bf := (binary_float prec emax).
  Notation F := (@Ieee prec emax Hp Hm lm).
  Notation u := (uro prec).
  Notation et := (eta prec emax).
  Notation val := (@B2R prec emax).
  Notation real f := ((fun i j => val (f i j : bf)) : rmat).
  Notation rotm q := (log4 (quat_to_rotation_matrix q true) : lmat F).
  (** the matrix of a quaternion of length about 1 *)
  Lemma rot_entry (q : quat F) k : (9 < prec)%Z -> qfin (q : quat bf) -> 0 <= k <= 32 -> Rabs (hlen (qval (q : quat bf)) - 1) <= k * u ->
    forall i j, (i < 4)%N -> (j < 4)%N -> is_finite (rotm q i j : bf) = true /\ Rabs (val (rotm q i j) - hmat (hdir (qval (q : quat bf))) i j) <= (15 + 41 / 10 * k) * u.
  Proof.
    intros P Fq [K0 K1] Lq. pose proof (u_small prec P) as U. pose proof (u_pos prec) as U0. pose proof (et_small prec emax P) as T. pose proof (et_pos prec emax) as T0.
    set (l := hlen (qval (q : quat bf))) in *. apply Rabs_le_inv in Lq. assert (KU : 0 <= k * u <= / 32) by (split; nra). assert (Lp : 0 < l) by lra.
    assert (LL : Rabs (l * l - 1) <= 65 / 32 * (k * u)) by (apply Rabs_le; nra).
    destruct (rotmat_ieee prec emax lm q P Fq ltac:(fold l; lra)) as (R1 & R2 & R3). rewrite <- (hlen_sq (qval (q : quat bf))) in R1. fold l in R1.
    assert (W : forall i j, (i < 3)%N -> (j < 3)%N -> is_finite (rotm q i j : bf) = true /\ Rabs (val (rotm q i j) - SpecBound.comp i (hrot (hdir (qval (q : quat bf))) (axis j))) <= (15 + 41 / 10 * k) * u).
    { intros i j Hi Hj. destruct (R1 i j Hi Hj) as [Fi Ei]. split; [exact Fi |]. pose proof (comp_dist _ _ i Hi : Rabs (SpecBound.comp i (hact (qval (q : quat bf)) (axis j)) - SpecBound.comp i (hrot (hdir (qval (q : quat bf))) (axis j))) <= _) as C. pose proof (hact_near (qval (q : quat bf)) (axis j) Lp) as Ha. rewrite axis_norm in Ha. fold l in Ha.
      replace (val (rotm q i j) - SpecBound.comp i (hrot (hdir (qval (q : quat bf))) (axis j))) with ((val (rotm q i j) - SpecBound.comp i (hact (qval (q : quat bf)) (axis j))) + (SpecBound.comp i (hact (qval (q : quat bf)) (axis j)) - SpecBound.comp i (hrot (hdir (qval (q : quat bf))) (axis j)))) by ring.
      eapply Rle_trans; [apply Rabs_triang |]. apply Rabs_le_inv in LL. assert (7 * u * (1 + l * l) <= (14 + 1 / 2) * u) by nra. assert (0 <= k * u) by nra. unfold SpecRound.within in *. change (Rabs (val (rotm q i j) - SpecBound.comp i (hact (qval (q : quat bf)) (axis j))) <= 7 * u * (1 + l * l) + 5 * et) in Ei.
      assert (Rabs (l * l - 1) * (2 * 1) <= 65 / 16 * (k * u)) by (assert (Rabs (l * l - 1) <= 65 / 32 * (k * u)) by (apply Rabs_le; lra); lra). lra. }
    assert (Z0 : 0 <= (15 + 41 / 10 * k) * u) by nra. pose proof (fv_lit_0 prec emax) as [F0 V0]. pose proof (fv_lit_1 prec emax) as [F1 V1].
    assert (N0 : is_finite (n0 : F) = true /\ forall x, x = 0 -> Rabs (val (n0 : F) - x) <= (15 + 41 / 10 * k) * u) by (split; [exact F0 |]; intros x ->; change (val (n0 : F)) with (val (f_lit prec emax 0 1)); rewrite V0, Rminus_0_r, Rabs_R0; exact Z0).
    assert (N1 : is_finite (n1 : F) = true /\ forall x, x = 1 -> Rabs (val (n1 : F) - x) <= (15 + 41 / 10 * k) * u) by (split; [exact F1 |]; intros x ->; change (val (n1 : F)) with (val (f_lit prec emax 1 1)); rewrite V1, Rminus_diag_eq, Rabs_R0 by reflexivity; exact Z0).
    intros i j Hi Hj. assert (Ci : (i < 3)%N \/ i = 3%N) by lia. assert (Cj : (j < 3)%N \/ j = 3%N) by lia. destruct Ci as [Ci | ->], Cj as [Cj | ->].
    - unfold hmat. rewrite (proj2 (N.ltb_lt i 3) Ci), (proj2 (N.ltb_lt j 3) Cj). cbn [andb]. apply W; assumption.
    - rewrite (proj1 (R2 i Ci)). split; [apply N0 |]. apply N0. unfold hmat. cases3 i Ci; nbool; reflexivity.
    - rewrite (proj2 (R2 j Cj)). split; [apply N0 |]. apply N0. unfold hmat. cases3 j Cj; nbool; reflexivity.
    - rewrite R3. split; [apply N1 |]. apply N1. reflexivity.
  Qed.
  (** the matrix of a product against the product of the matrices *)
  Theorem rot_product (p q : quat F) : (9 < prec)%Z -> near (p : quat bf) -> near (q : quat bf) -> exists c h g,
    mat4_mul (quat_to_rotation_matrix p true) (quat_to_rotation_matrix q true) = Ok (Some c) /\ m4_rm c = true /\ repr4 c h /\ mfin4 (h : lmat bf) /\
    repr4 (quat_to_rotation_matrix (quat_mul p q) true) g /\ mfin4 (g : lmat bf) /\
    (forall i j, (i < 4)%N -> (j < 4)%N -> Rabs (val (h i j) - hmat (hmul (hdir (qval (p : quat bf))) (hdir (qval (q : quat bf)))) i j) <= 240 * u) /\
    (forall i j, (i < 4)%N -> (j < 4)%N -> Rabs (val (h i j) - val (g i j)) <= 410 * u).
  Proof.
    intros P [Fp Np] [Fq Nq]. pose proof (u_small prec P) as U. pose proof (u_pos prec) as U0. pose proof (et_small prec emax P) as T. pose proof (et_pos prec emax) as T0. assert (HP : (0 < prec)%Z) by exact Hp. assert (HE : (prec < emax)%Z) by exact Hm.
    pose proof (rot_entry p 9 P Fp ltac:(lra) Np) as Ep. pose proof (rot_entry q 9 P Fq ltac:(lra) Nq) as Eq.
    set (p' := qval (p : quat bf)) in *. set (q' := qval (q : quat bf)) in *. apply Rabs_le_inv in Np. apply Rabs_le_inv in Nq. assert (Lp : 0 < hlen p') by lra. assert (Lq : 0 < hlen q') by lra.
    pose proof (hdir_unit p' Lp) as Up. pose proof (hdir_unit q' Lq) as Uq. set (e := 52 * u). assert (Ep' : forall i j, (i < 4)%N -> (j < 4)%N -> Rabs (val (rotm p i j) - hmat (hdir p') i j) <= e) by (intros i j Hi Hj; destruct (Ep i j Hi Hj) as [_ K]; unfold e; lra). assert (Eq' : forall i j, (i < 4)%N -> (j < 4)%N -> Rabs (val (rotm q i j) - hmat (hdir q') i j) <= e) by (intros i j Hi Hj; destruct (Eq i j Hi Hj) as [_ K]; unfold e; lra).
    assert (RN : forall (r : quat F) (d : H4), hunit d -> (forall i j, (i < 4)%N -> (j < 4)%N -> Rabs (val (rotm r i j) - hmat d i j) <= e) -> rows4 (real (rotm r)) 2 /\ forall j, (j < 4)%N -> rsum4 (fun k => Rabs (val (rotm r k j))) <= 2).
    { intros r d Ud K. assert (A : forall i j, (i < 4)%N -> (j < 4)%N -> Rabs (val (rotm r i j)) <= Rabs (hmat d i j) + e) by (intros i j Hi Hj; replace (val (rotm r i j)) with (hmat d i j + (val (rotm r i j) - hmat d i j)) by ring; eapply Rle_trans; [apply Rabs_triang |]; apply Rplus_le_compat_l, K; assumption).
      assert (e4 : 4 * e <= / 4) by (unfold e; lra). split.
      - intros i Hi. apply Rle_trans with (rsum4 (fun j => Rabs (hmat d i j) + e)); [apply rsum4_le; intros j Hj; apply A; assumption |]. rewrite rsum4_plus. pose proof (hmat_rows d Ud i Hi). unfold rsum4 in *. lra.
      - intros j Hj. apply Rle_trans with (rsum4 (fun k => Rabs (hmat d k j) + e)); [apply rsum4_le; intros k Hk; apply A; assumption |]. rewrite rsum4_plus. pose proof (hmat_cols d j Ud Hj). unfold rsum4 in *. lra. }
    destruct (RN p _ Up Ep') as [Rp _]. destruct (RN q _ Uq Eq') as [Rq Cq].
    destruct (mul_rows prec emax lm (quat_to_rotation_matrix p true) (quat_to_rotation_matrix q true) (rotm p) (rotm q) 1 2 2 P ltac:(lia) ltac:(lia) eq_refl (repr4_log _) (repr4_log _)) as (c & h & C1 & C2 & C3 & C4 & C5).
    { intros i j Hi Hj. apply Ep; assumption. } { intros i j Hi Hj. apply Eq; assumption. } { lra. } { lra. } { change (bpow radix2 1) with 2. lra. } { apply Rle_trans with (bpow radix2 1); [change (bpow radix2 1) with 2; lra | apply bpow_le; lia]. } { exact Rp. } { exact Rq. }
    assert (Hh : forall i j, (i < 4)%N -> (j < 4)%N -> Rabs (val (h i j) - hmat (hmul (hdir p') (hdir q')) i j) <= 240 * u).
    { intros i j Hi Hj. rewrite <- (hmat_mul (hdir p') (hdir q') i j Hi Hj). pose proof (rows_entry _ _ i j Hi Hj C5) as D1. unfold rminus in D1.
      assert (D2 : Rabs (rmul4 (real (rotm p)) (real (rotm q)) i j - rmul4 (hmat (hdir p')) (hmat (hdir q')) i j) <= 2 * e + 2 * e).
      { assert (EQ : rmul4 (real (rotm p)) (real (rotm q)) i j - rmul4 (hmat (hdir p')) (hmat (hdir q')) i j = rsum4 (fun k => (real (rotm p) i k - hmat (hdir p') i k) * real (rotm q) k j) + rsum4 (fun k => hmat (hdir p') i k * (real (rotm q) k j - hmat (hdir q') k j))) by (unfold rmul4, rsum4; ring). rewrite EQ.
        eapply Rle_trans; [apply Rabs_triang |]. assert (e0 : 0 <= e) by (unfold e; lra). apply Rplus_le_compat.
        - eapply Rle_trans; [apply rsum4_abs |]. apply Rle_trans with (rsum4 (fun k => e * Rabs (real (rotm q) k j))); [apply rsum4_le; intros k Hk; rewrite Rabs_mult; apply Rmult_le_compat_r; [apply Rabs_pos | apply Ep'; assumption] |]. rewrite rsum4_scale. pose proof (Cq j Hj). nra.
        - eapply Rle_trans; [apply rsum4_abs |]. apply Rle_trans with (rsum4 (fun k => e * Rabs (hmat (hdir p') i k))); [apply rsum4_le; intros k Hk; rewrite Rabs_mult, Rmult_comm; apply Rmult_le_compat_r; [apply Rabs_pos | apply Eq'; assumption] |]. rewrite rsum4_scale. pose proof (hmat_rows _ Up i Hi). nra. }
      replace (val (h i j) - rmul4 (hmat (hdir p')) (hmat (hdir q')) i j) with ((val (h i j) - rmul4 (real (rotm p)) (real (rotm q)) i j) + (rmul4 (real (rotm p)) (real (rotm q)) i j - rmul4 (hmat (hdir p')) (hmat (hdir q')) i j)) by ring.
      eapply Rle_trans; [apply Rabs_triang |]. unfold e in D2. lra. }
    (** the quaternion product *)
    destruct (qmul_ieee prec emax lm 1 1 p q P ltac:(lia) ltac:(lia) Fp Fq) as [Fr Dr]; [change (bpow radix2 1) with 2; fold p'; lra | change (bpow radix2 1) with 2; fold q'; lra |]. fold p' q' in Dr. set (r := quat_mul p q) in *. set (r' := qval (r : quat bf)) in *.
    assert (Pq : hlen p' * hlen q' <= 1 + 181 / 10 * u /\ 1 - 18 * u <= hlen p' * hlen q') by (split; nra). assert (Dr' : hdist r' (hmul p' q') <= 93 / 10 * u) by nra.
    pose proof (hlen_near r' (hmul p' q')) as A. pose proof (hlen_near (hmul p' q') r') as B. rewrite (hdist_sym (hmul p' q') r') in B. rewrite hlen_mul in A, B.
    assert (Nr : Rabs (hlen r' - 1) <= 28 * u) by (apply Rabs_le; lra). pose proof (rot_entry r 28 P Fr ltac:(lra) Nr) as Er. fold r' in Er. apply Rabs_le_inv in Nr. assert (Lr : 0 < hlen r') by lra.
    assert (Lm : 0 < hlen (hmul p' q')) by (rewrite hlen_mul; nra). pose proof (hdir_dist r' (hmul p' q') Lr Lm) as Dd. rewrite (hdir_mul p' q' Lp Lq), hlen_mul in Dd.
    assert (Dd' : hdist (hdir r') (hmul (hdir p') (hdir q')) <= 19 * u).
    { eapply Rle_trans; [exact Dd |]. assert (I : / (hlen p' * hlen q') <= / (98 / 100)) by (apply Rinv_le_contravar; lra). assert (0 <= / (hlen p' * hlen q')) by (left; apply Rinv_0_lt_compat; lra). apply Rle_trans with (2 * (93 / 10 * u) * / (98 / 100)); [| lra]. apply Rmult_le_compat; [| assumption | lra | exact I]. assert (0 <= hdist r' (hmul p' q')) by (unfold hdist; apply hlen_pos). lra. }
    assert (Hg : forall i j, (i < 4)%N -> (j < 4)%N -> Rabs (val (rotm r i j) - hmat (hmul (hdir p') (hdir q')) i j) <= 168 * u).
    { intros i j Hi Hj. destruct (Er i j Hi Hj) as [_ K]. assert (Q : Rabs (hmat (hdir r') i j - hmat (hmul (hdir p') (hdir q')) i j) <= 38 * u).
      { assert (Ci : (i < 3)%N \/ i = 3%N) by lia. assert (Cj : (j < 3)%N \/ j = 3%N) by lia. assert (Z : Rabs 0 <= 38 * u) by (rewrite Rabs_R0; lra). unfold hmat. destruct Ci as [Ci | ->], Cj as [Cj | ->].
        - rewrite (proj2 (N.ltb_lt i 3) Ci), (proj2 (N.ltb_lt j 3) Cj). cbn [andb]. eapply Rle_trans; [apply comp_dist, Ci |]. eapply Rle_trans; [apply hrot_near |]. rewrite axis_norm, (hdir_len r' Lr), hlen_mul, (hdir_len p' Lp), (hdir_len q' Lq). lra.
        - replace (_ - _) with 0; [exact Z |]. cases3 i Ci; nbool; ring.
        - replace (_ - _) with 0; [exact Z |]. cases3 j Cj; nbool; ring.
        - replace (_ - _) with 0; [exact Z |]. nbool. ring. }
      replace (val (rotm r i j) - hmat (hmul (hdir p') (hdir q')) i j) with ((val (rotm r i j) - hmat (hdir r') i j) + (hmat (hdir r') i j - hmat (hmul (hdir p') (hdir q')) i j)) by ring. eapply Rle_trans; [apply Rabs_triang |]. lra. }
    exists c, h, (rotm r). split; [exact C1 |]. split; [rewrite C2; reflexivity |]. split; [exact C3 |]. split; [exact C4 |]. split; [apply repr4_log |]. split; [intros i j Hi Hj; apply Er; assumption |]. split; [exact Hh |].
    intros i j Hi Hj. pose proof (Hh i j Hi Hj) as K1. pose proof (Hg i j Hi Hj) as K2. replace (val (h i j) - val (rotm r i j)) with ((val (h i j) - hmat (hmul (hdir p') (hdir q')) i j) - (val (rotm r i j) - hmat (hmul (hdir p') (hdir q')) i j)) by ring.
    unfold Rminus at 1. eapply Rle_trans; [apply Rabs_triang |]. rewrite Rabs_Ropp. lra.
  Qed.
  (** the matrix and the quaternion on the same vector *)
  Theorem rot_apply (q : quat F) (a b c d : F) V : (9 < prec)%Z -> near (q : quat bf) -> let p : mat3x1 F := M3x1 (A3 a b c) in fin3 (p : mat3x1 bf) -> is_finite (d : bf) = true -> norm (v3 (p : mat3x1 bf)) <= V -> Rabs (val d) <= V -> V <= bpow radix2 (emax - 8) ->
    exists x y z t, mat4_mul_mat4x1 (quat_to_rotation_matrix q true) (M4x1 (A4 a b c d)) = Ok (Some (M4x1 (A4 x y z t))) /\
    fin3 (M3x1 (A3 x y z) : mat3x1 bf) /\ is_finite (t : bf) = true /\ fin3 (quat_rotate_vector q p : mat3x1 bf) /\
    dist (v3 (M3x1 (A3 x y z) : mat3x1 bf)) (v3 (quat_rotate_vector q p : mat3x1 bf)) <= 310 * u * V + 37 * et /\
    Rabs (val t - val d) <= 9 * u * V + 5 * et.
  Proof.
    intros P [Fq Nq] p Fp Fd Lp Ld LV. pose proof (u_small prec P) as U. pose proof (u_pos prec) as U0. pose proof (et_small prec emax P) as T. pose proof (et_pos prec emax) as T0. assert (HP : (0 < prec)%Z) by exact Hp. assert (HE : (prec < emax)%Z) by exact Hm.
    pose proof (rot_entry q 9 P Fq ltac:(lra) Nq) as Eq. pose proof Nq as Nq'. apply Rabs_le_inv in Nq'. set (q' := qval (q : quat bf)) in *. assert (Lq : 0 < hlen q') by lra. pose proof (hdir_unit q' Lq) as Uq.
    set (e := 52 * u). assert (e0 : 0 <= e) by (unfold e; lra). assert (e4 : 4 * e <= / 4) by (unfold e; lra). assert (Eq' : forall i j, (i < 4)%N -> (j < 4)%N -> Rabs (val (rotm q i j) - hmat (hdir q') i j) <= e) by (intros i j Hi Hj; destruct (Eq i j Hi Hj) as [_ K]; unfold e; lra).
    assert (Rq : rows4 (real (rotm q)) 2).
    { intros i Hi. apply Rle_trans with (rsum4 (fun j => Rabs (hmat (hdir q') i j) + e)); [apply rsum4_le; intros j Hj; replace (val (rotm q i j)) with (hmat (hdir q') i j + (val (rotm q i j) - hmat (hdir q') i j)) by ring; eapply Rle_trans; [apply Rabs_triang |]; apply Rplus_le_compat_l, Eq'; assumption |]. rewrite rsum4_plus. pose proof (hmat_rows _ Uq i Hi). unfold rsum4 in *. lra. }
    set (g := (fun i => if (i =? 0)%N then a else if (i =? 1)%N then b else if (i =? 2)%N then c else d) : lvec F).
    pose proof (norm_pos (v3 (p : mat3x1 bf))) as Nn. assert (PV : 0 <= V) by lra. pose proof (fun i Hi => comp_norm (v3 (p : mat3x1 bf)) i Hi) as Cn.
    assert (Va : Rabs (val a) <= V) by (eapply Rle_trans; [apply (Cn 0%N eq_refl) | exact Lp]). assert (Vb : Rabs (val b) <= V) by (eapply Rle_trans; [apply (Cn 1%N eq_refl) | exact Lp]). assert (Vc : Rabs (val c) <= V) by (eapply Rle_trans; [apply (Cn 2%N eq_refl) | exact Lp]).
    destruct (vec_step prec emax lm (quat_to_rotation_matrix q true) (M4x1 (A4 a b c d)) (rotm q) g 1 2 V P ltac:(lia) ltac:(lia) (repr4_log _)) as (r & h & C1 & C2 & C3 & C4).
    { apply reprc4_iff. intros i Hi. cases4 i Hi; reflexivity. } { intros i j Hi Hj. apply Eq; assumption. } { destruct Fp as (F1 & F2 & F3). intros i Hi. cases4 i Hi; assumption. } { lra. } { lra. } { change (bpow radix2 1) with 2. lra. } { eapply Rle_trans; [exact LV |]. apply bpow_le. lia. } { exact Rq. } { intros i Hi. cases4 i Hi; assumption. }
    destruct r as [[x y z t]]. apply reprc4_iff in C2. assert (Hx : h 0%N = x) by (symmetry; apply (C2 0%N eq_refl)). assert (Hy : h 1%N = y) by (symmetry; apply (C2 1%N eq_refl)). assert (Hz : h 2%N = z) by (symmetry; apply (C2 2%N eq_refl)). assert (Ht : h 3%N = t) by (symmetry; apply (C2 3%N eq_refl)).
    destruct (rotate_ieee prec emax lm q p P Fq Fp ltac:(fold q'; lra) ltac:(lra)) as [Fr Dr]. fold q' in Dr. rewrite <- hlen_sq in Dr. assert (LL : Rabs (hlen q' * hlen q' - 1) <= 183 / 10 * u) by (apply Rabs_le; nra). pose proof LL as LL'. apply Rabs_le_inv in LL'.
    set (v := v3 (p : mat3x1 bf)) in *. assert (Dr' : dist (v3 (quat_rotate_vector q p : mat3x1 bf)) (hrot (hdir q') v) <= 38 * u * V + 28 * et).
    { assert (S : hrot q' v = vscale (hlen q' * hlen q') (hrot (hdir q') v)).
      { pose proof (hdir_scale q' Lq) as E. rewrite <- E at 1. apply hrot_scale. }
      assert (D : dist (hrot q' v) (hrot (hdir q') v) <= 183 / 10 * u * V).
      { rewrite S. unfold dist. replace (vsub (vscale (hlen q' * hlen q') (hrot (hdir q') v)) (hrot (hdir q') v)) with (vscale (hlen q' * hlen q' - 1) (hrot (hdir q') v)) by (generalize (hlen q' * hlen q') (hrot (hdir q') v); intros k [? ? ?]; apply V3_eq; cbn; ring). rewrite norm_scale_abs, (hrot_norm _ v Uq). apply Rmult_le_compat; try apply Rabs_pos; assumption. }
      eapply Rle_trans; [apply (dist_tri3 _ (hrot q' v)) |]. assert (hlen q' * hlen q' * norm v <= 103 / 100 * V) by (apply Rmult_le_compat; lra || nra). assert (0 <= u * V) by nra. nra. }
    exists x, y, z, t. split; [exact C1 |]. split; [unfold fin3; cbn; rewrite <- Hx, <- Hy, <- Hz; repeat split; apply C3; reflexivity |]. split; [rewrite <- Ht; apply C3; reflexivity |]. split; [exact Fr |].
    assert (Hc : forall i, (i < 3)%N -> Rabs (val (h i) - SpecBound.comp i (hrot (hdir q') v)) <= 152 * u * V + 9 / 2 * et).
    { intros i Hi. assert (Hi4 : (i < 4)%N) by lia. pose proof (C4 i Hi4) as K.
      assert (E : SpecBound.comp i (hrot (hdir q') v) = rapp (hmat (hdir q')) (fun k => val (g k)) i).
      { apply hmat_apply; [exact Hi | reflexivity ..]. }
      rewrite E. assert (D : Rabs (rapp (real (rotm q)) (fun k => val (g k)) i - rapp (hmat (hdir q')) (fun k => val (g k)) i) <= 143 * u * V).
      { assert (EQ : rapp (real (rotm q)) (fun k => val (g k)) i - rapp (hmat (hdir q')) (fun k => val (g k)) i = rsum4 (fun k => (real (rotm q) i k - hmat (hdir q') i k) * val (g k))) by (unfold rapp, rsum4; ring). rewrite EQ. eapply Rle_trans; [apply rsum4_abs |].
        apply Rle_trans with (rsum4 (fun k => e * Rabs (val (g k)))); [apply rsum4_le; intros k Hk; rewrite Rabs_mult; apply Rmult_le_compat_r; [apply Rabs_pos | apply Eq'; assumption] |]. rewrite rsum4_scale. pose proof (l1_norm v) as L1. change (vx v) with (val a) in L1. change (vy v) with (val b) in L1. change (vz v) with (val c) in L1.
        assert (S : rsum4 (fun k => Rabs (val (g k))) <= 11 / 4 * V) by (change (Rabs (val a) + Rabs (val b) + Rabs (val c) + Rabs (val d) <= 11 / 4 * V); lra). unfold e. apply Rle_trans with (52 * u * (11 / 4 * V)); [apply Rmult_le_compat_l; [lra | exact S] | lra]. }
      replace (val (h i) - rapp (hmat (hdir q')) (fun k => val (g k)) i) with ((val (h i) - rapp (real (rotm q)) (fun k => val (g k)) i) + (rapp (real (rotm q)) (fun k => val (g k)) i - rapp (hmat (hdir q')) (fun k => val (g k)) i)) by ring.
      eapply Rle_trans; [apply Rabs_triang |]. lra. }
    split.
    - eapply Rle_trans; [apply (dist_tri3 _ (hrot (hdir q') v)) |]. assert (D : dist (v3 (M3x1 (A3 x y z) : mat3x1 bf)) (hrot (hdir q') v) <= 7 / 4 * (152 * u * V + 9 / 2 * et)).
      { apply norm_cube; [pose proof (Hc 0%N eq_refl) as K; rewrite Hx in K | pose proof (Hc 1%N eq_refl) as K; rewrite Hy in K | pose proof (Hc 2%N eq_refl) as K; rewrite Hz in K]; exact K. }
      rewrite (dist_sym (hrot (hdir q') v)). assert (0 <= u * V) by nra. lra.
    - rewrite <- Ht. pose proof (C4 3%N eq_refl) as K. assert (E : rapp (real (rotm q)) (fun k => val (g k)) 3%N = val d).
      { destruct (rotmat_ieee prec emax lm q P Fq ltac:(fold q'; lra)) as (_ & R2 & R3). unfold rapp, rsum4. rewrite R3, (proj2 (R2 0%N eq_refl)), (proj2 (R2 1%N eq_refl)), (proj2 (R2 2%N eq_refl)). change (val (n0 : F)) with (val (f_lit prec emax 0 1)). change (val (n1 : F)) with (val (f_lit prec emax 1 1)). rewrite (proj2 (fv_lit_0 prec emax)), (proj2 (fv_lit_1 prec emax)). change (g 3%N) with d. ring. }
      rewrite E in K. lra.
  Qed.
End F.
