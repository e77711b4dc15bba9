(** PIeee3.v — planes in IEEE arithmetic (C80): projections onto a computed unit normal, plane against point and sphere. *)
From Coq Require Import Reals List ZArith NArith Bool Lra Lia Psatz.
From Flocq Require Import Core BinarySingleNaN.
Import ListNotations.
From Verif Require Import Base Num Vec Mat Bound Shape Intersect Float Exact FloatFacts FloatRound ExactFacts Order SpecMat SpecGeom
  SpecBound SpecBuild SpecRound PMat PBound PShape PBuild PRound PRound2 PRound3 PIeee1 PIeee2.
Local Open Scope R_scope.

(** ---- real inequalities ---- *)
Lemma prod_sum3 a b c x y z m k : 0 <= m -> 0 <= k -> a * a + b * b + c * c = m * m -> x * x + y * y + z * z = k * k ->
  Rabs (a * x) + Rabs (b * y) + Rabs (c * z) <= m * k.
Proof.
  intros Hm Hk H1 H2. rewrite !Rabs_mult.
  assert (S1 : Rabs a * Rabs a + Rabs b * Rabs b + Rabs c * Rabs c = m * m) by (rewrite <- H1; rewrite <- !Rabs_mult, !Rabs_pos_eq by nra; ring).
  assert (S2 : Rabs x * Rabs x + Rabs y * Rabs y + Rabs z * Rabs z = k * k) by (rewrite <- H2; rewrite <- !Rabs_mult, !Rabs_pos_eq by nra; ring).
  pose proof (Rabs_pos a). pose proof (Rabs_pos b). pose proof (Rabs_pos c). pose proof (Rabs_pos x). pose proof (Rabs_pos y). pose proof (Rabs_pos z).
  set (A := Rabs a) in *. set (B := Rabs b) in *. set (C := Rabs c) in *. set (X := Rabs x) in *. set (Y := Rabs y) in *. set (Z := Rabs z) in *.
  apply Rsqr_incr_0_var; [| nra]. unfold Rsqr.
  replace (m * k * (m * k)) with ((m * m) * (k * k)) by ring. rewrite <- S1, <- S2.
  pose proof (Rle_0_sqr (A * Y - B * X)) as G1. pose proof (Rle_0_sqr (A * Z - C * X)) as G2. pose proof (Rle_0_sqr (B * Z - C * Y)) as G3. unfold Rsqr in *.
  lra.
Qed.
Lemma abs_sum3 x y z k : 0 <= k -> x * x + y * y + z * z = k * k -> Rabs x + Rabs y + Rabs z <= 2 * k.
Proof.
  intros Hk H. assert (H1 : 1 * 1 + 1 * 1 + 1 * 1 = sqrt 3 * sqrt 3) by (rewrite sqrt_sqrt; lra).
  pose proof (prod_sum3 1 1 1 x y z (sqrt 3) k (sqrt_pos 3) Hk H1 H) as P. rewrite !Rmult_1_l in P.
  assert (sqrt 3 <= 2) by (rewrite <- (sqrt_square 2) by lra; apply sqrt_le_1; lra). nra.
Qed.

Section Ieee3.
  Context (prec emax : Z) {Hp : Prec_gt_0 prec} {Hm : Prec_lt_emax prec emax} (lm : libm (binary_float prec emax)).
  Notation bf := (binary_float prec emax).
  Notation fmt := (SpecFloat.fexp prec emax).
  Notation rnd := (round radix2 fmt ZnearestE).
  Notation big := (bpow radix2 emax).
  Notation val := (@B2R prec emax).
  Notation fin x := (is_finite (x : bf) = true).
  Notation u := (uro prec).
  Notation et := (eta prec emax).
  Notation fv := (fv prec emax).
  Notation bnd := (bnd prec emax).
  Notation F := (@Ieee prec emax Hp Hm lm).
  Notation "# a" := (b2x prec emax a) (at level 9).

  Lemma et_small : (9 < prec)%Z -> et <= u * / 256.
  Proof.
    intro P. rewrite et_u. apply Rmult_le_compat_l; [apply Rlt_le, u_pos |]. change (/ 256) with (bpow radix2 (-8)). apply bpow_le.
    unfold Prec_lt_emax in Hm. lia.
  Qed.
  (** the computed normal [n] against the true one [N], both applied to [p] *)
  Lemma proj_core (N0 N1 N2 n0 n1 n2 p0 p1 p2 r k : R) : (9 < prec)%Z -> 0 <= r ->
    N0 * N0 + N1 * N1 + N2 * N2 = 1 -> p0 * p0 + p1 * p1 + p2 * p2 = r * r ->
    Rabs (n0 - N0) <= 7 * u * Rabs N0 + et -> Rabs (n1 - N1) <= 7 * u * Rabs N1 + et -> Rabs (n2 - N2) <= 7 * u * Rabs N2 + et ->
    Rabs (k - (n0 * p0 + n1 * p1 + n2 * p2)) <= err prec emax 3 (Rabs (n0 * p0) + Rabs (n1 * p1) + Rabs (n2 * p2)) ->
    Rabs (k - (N0 * p0 + N1 * p1 + N2 * p2)) <= 11 * u * r + 4 * et.
  Proof.
    intros P Hr HN HP E0 E1 E2 K. pose proof (u_small prec P) as U. pose proof (u_pos prec) as U0. pose proof (et_pos prec emax) as T0.
    pose proof (et_small P) as T.
    pose proof (prod_sum3 N0 N1 N2 p0 p1 p2 1 r ltac:(lra) Hr ltac:(lra) HP) as Q. pose proof (abs_sum3 p0 p1 p2 r Hr HP) as Q2.
    assert (X : forall n N p, Rabs (n - N) <= 7 * u * Rabs N + et -> Rabs (n * p - N * p) <= 7 * u * Rabs (N * p) + et * Rabs p).
    { intros n N p H. replace (n * p - N * p) with ((n - N) * p) by ring. rewrite !Rabs_mult. pose proof (Rabs_pos p). nra. }
    apply (X _ _ p0) in E0. apply (X _ _ p1) in E1. apply (X _ _ p2) in E2. clear X.
    assert (Y : forall a b, Rabs a <= Rabs b + Rabs (a - b)) by (intros a b; replace a with (b + (a - b)) at 1 by ring; apply Rabs_triang).
    pose proof (Y (n0 * p0) (N0 * p0)) as Y0. pose proof (Y (n1 * p1) (N1 * p1)) as Y1. pose proof (Y (n2 * p2) (N2 * p2)) as Y2. clear Y.
    set (A := Rabs (n0 * p0) + Rabs (n1 * p1) + Rabs (n2 * p2)) in *.
    assert (S : Rabs (n0 * p0 - N0 * p0) + Rabs (n1 * p1 - N1 * p1) + Rabs (n2 * p2 - N2 * p2) <= 7 * u * r + 2 * et * r) by nra.
    assert (HA : A <= r + 7 * u * r + 2 * et * r) by (unfold A; lra).
    assert (HA0 : 0 <= A) by (unfold A; pose proof (Rabs_pos (n0 * p0)); pose proof (Rabs_pos (n1 * p1)); pose proof (Rabs_pos (n2 * p2)); lra).
    assert (ER : err prec emax 3 A <= 301 / 100 * u * A + 4 * et).
    { unfold err. replace (INR 3) with 3 by (simpl; lra). change (3 - 1)%nat with 2%nat.
      assert ((1 + u) ^ 3 - 1 <= 301 / 100 * u) by (simpl; nra). assert (3 * (1 + u) ^ 2 <= 4) by (simpl; nra).
      assert (((1 + u) ^ 3 - 1) * A <= 301 / 100 * u * A) by (apply Rmult_le_compat_r; assumption).
      assert (3 * (1 + u) ^ 2 * et <= 4 * et) by (apply Rmult_le_compat_r; lra). lra. }
    assert (T2 : Rabs (n0 * p0 + n1 * p1 + n2 * p2 - (N0 * p0 + N1 * p1 + N2 * p2)) <= 7 * u * r + 2 * et * r).
    { replace (n0 * p0 + n1 * p1 + n2 * p2 - (N0 * p0 + N1 * p1 + N2 * p2)) with ((n0 * p0 - N0 * p0) + (n1 * p1 - N1 * p1) + (n2 * p2 - N2 * p2)) by ring.
      eapply Rle_trans; [apply Rabs_triang |]. eapply Rle_trans; [apply Rplus_le_compat_r, Rabs_triang |]. exact S. }
    replace (k - (N0 * p0 + N1 * p1 + N2 * p2)) with ((k - (n0 * p0 + n1 * p1 + n2 * p2)) + (n0 * p0 + n1 * p1 + n2 * p2 - (N0 * p0 + N1 * p1 + N2 * p2))) by ring.
    eapply Rle_trans; [apply Rabs_triang |].
    assert (W : A <= 101 / 100 * r) by nra.
    assert (W2 : 301 / 100 * u * A <= 301 / 100 * u * (101 / 100 * r)) by (apply Rmult_le_compat_l; lra).
    assert (0 <= u * r) by (apply Rmult_le_pos; lra). assert (et * r <= u * / 256 * r) by (apply Rmult_le_compat_r; lra). lra.
  Qed.
  Lemma norm_v3 (a b c : F) : norm (v3 (M3x1 (A3 a b c) : mat3x1 bf)) = sqrt (val a * val a + val b * val b + val c * val c).
  Proof. reflexivity. Qed.
  Lemma abs_comp_norm v : Rabs (vx v) <= norm v /\ Rabs (vy v) <= norm v /\ Rabs (vz v) <= norm v.
  Proof.
    pose proof (norm_pos v) as P. pose proof (norm_sq v) as Q. unfold vdot in Q.
    pose proof (Rle_0_sqr (vx v)) as S0. pose proof (Rle_0_sqr (vy v)) as S1. pose proof (Rle_0_sqr (vz v)) as S2. unfold Rsqr in S0, S1, S2.
    repeat split; (apply Rsqr_incr_0_var; [| exact P]; rewrite <- Rsqr_abs; unfold Rsqr; lra).
  Qed.
  Lemma half_k : (9 < prec)%Z -> (4 <= 2 * (emax / 2 - 3) + 6 <= emax /\ 2 <= emax / 2 - 3)%Z.
  Proof.
    intro P. unfold Prec_lt_emax in Hm. pose proof (Z.div_mod emax 2 ltac:(lia)) as Q. pose proof (Z.mod_pos_bound emax 2 ltac:(lia)). lia.
  Qed.
  Lemma proj_ieee (n p : mat3x1 F) : (9 < prec)%Z -> good_normal (n : mat3x1 bf) -> moderate (p : mat3x1 bf) -> exists t,
    mat3x1_dot (nrm n) p = Some t /\ bnd (emax / 2) t /\ Rabs (val t - vdot (unit (v3 n)) (v3 p)) <= 11 * u * norm (v3 p) + 4 * et.
  Proof.
    intros P [[Fn Ln] HS] [Fp Lp]. destruct n as [[a b c]], p as [[p0 p1 p2]]. destruct Fn as [Fa [Fb Fc]], Fp as [F0 [F1 F2]].
    destruct Ln as [La [Lb Lc]], Lp as [L0 [L1 L2]]. pose proof (half_k P) as [Hk1 Hk2]. set (k := (emax / 2 - 3)%Z) in *.
    assert (HP : (0 < prec)%Z) by exact Hp. assert (HM : (prec < emax)%Z) by exact Hm.
    assert (Z1 : (3 - emax - prec <= 1 + k)%Z) by lia. assert (Z2 : (1 + k < emax)%Z) by lia. assert (Z3 : (1 + k + 1 < emax)%Z) by lia.
    assert (Z4 : (3 - emax - prec <= 1 + k + 1)%Z) by lia. assert (Z5 : (1 + k + 1 + 1 < emax)%Z) by lia. assert (Z6 : (1 + k <= 1 + k + 1)%Z) by lia.
    assert (Z7 : (emax / 2 = 1 + k + 1 + 1)%Z) by (unfold k; lia).
    destruct (len3_ok prec emax k a b c ltac:(lia) ltac:(lia) (conj Fa La) (conj Fb Lb) (conj Fc Lc)) as [_ [_ [Fl _]]].
    destruct (norm3 prec emax lm a b c (len3 prec emax a b c) P eq_refl Fl HS) as [_ [x [y [z [E [[Fx Ex] [[Fy Ey] [[Fz Ez] _]]]]]]]].
    rewrite normalize_nrm in E.
    apply (f_equal (fun r => match r with Ok (Some v) => v | _ => M3x1 (A3 x y z) end)) in E. rewrite E.
    change (val a * val a + val b * val b + val c * val c) with (vdot (v3 (M3x1 (A3 a b c) : mat3x1 bf)) (v3 (M3x1 (A3 a b c) : mat3x1 bf))) in *.
    set (nv := v3 (M3x1 (A3 a b c) : mat3x1 bf)) in *. change (sqrt (vdot nv nv)) with (norm nv) in *.
    assert (S0 : 0 < vdot nv nv) by (eapply Rlt_le_trans; [apply bpow_gt_0 | exact HS]).
    assert (NZ : nv <> vzero) by (intro H; rewrite H in S0; unfold vdot, vzero in S0; simpl in S0; lra).
    pose proof (norm_nz nv NZ) as NP. pose proof (unit_norm nv NZ) as UN.
    assert (Ux : vx (unit nv) = val a / norm nv) by (unfold unit, vscale; simpl; field; lra).
    assert (Uy : vy (unit nv) = val b / norm nv) by (unfold unit, vscale; simpl; field; lra).
    assert (Uz : vz (unit nv) = val c / norm nv) by (unfold unit, vscale; simpl; field; lra).
    rewrite <- Ux in Ex. rewrite <- Uy in Ey. rewrite <- Uz in Ez.
    destruct (abs_comp_norm (unit nv)) as [B0 [B1 B2]]. rewrite UN in B0, B1, B2.
    pose proof (u_small prec P) as U. pose proof (u_pos prec) as U0. pose proof (et_pos prec emax) as T0. pose proof (et_small P) as T.
    assert (BX : forall (w : bf) v, fin w -> Rabs v <= 1 -> Rabs (val w - v) <= 7 * u * Rabs v + et -> bnd 1 w).
    { intros w v Fw Bv Ew. split; [exact Fw |]. change (bpow radix2 1) with 2. replace (val w) with (v + (val w - v)) by ring.
      eapply Rle_trans; [apply Rabs_triang |]. nra. }
    pose proof (BX _ _ Fx B0 Ex) as X0. pose proof (BX _ _ Fy B1 Ey) as X1. pose proof (BX _ _ Fz B2 Ez) as X2. clear BX.
    destruct (mult_bnd prec emax 1 k x p0 Z1 Z2 X0 (conj F0 L0)) as [_ M0].
    destruct (mult_bnd prec emax 1 k y p1 Z1 Z2 X1 (conj F1 L1)) as [_ M1].
    destruct (mult_bnd prec emax 1 k z p2 Z1 Z2 X2 (conj F2 L2)) as [_ M2].
    destruct (plus_bnd prec emax (1 + k) _ _ Z1 Z3 M0 M1) as [_ M3].
    destruct (plus_bnd prec emax (1 + k + 1) _ _ Z4 Z5 M3 (bnd_le prec emax (1 + k) (1 + k + 1) _ Z6 M2)) as [_ M4].
    eexists. split; [reflexivity |]. split; [rewrite Z7; exact M4 |].
    pose proof (norm_sq (unit nv)) as NQ. rewrite UN in NQ. unfold vdot in NQ.
    pose proof (norm_sq (v3 (M3x1 (A3 p0 p1 p2) : mat3x1 bf))) as PQ. unfold vdot in PQ.
    apply (proj_core (vx (unit nv)) (vy (unit nv)) (vz (unit nv)) (val x) (val y) (val z) (val p0) (val p1) (val p2)); try assumption.
    - apply norm_pos.
    - lra.
    - symmetry. exact PQ.
    - exact (dot3_err prec emax lm x y z p0 p1 p2 _ eq_refl (proj1 M4)).
  Qed.
  (** the difference of two projections *)
  Lemma proj_diff (n p q : mat3x1 F) : (9 < prec)%Z -> good_normal (n : mat3x1 bf) -> moderate (p : mat3x1 bf) -> moderate (q : mat3x1 bf) -> exists s t,
    mat3x1_dot (nrm n) p = Some s /\ mat3x1_dot (nrm n) q = Some t /\ fin (nsub F s t) /\
    Rabs (val (nsub F s t) - vdot (unit (v3 n)) (vsub (v3 p) (v3 q))) <= 13 * u * (norm (v3 p) + norm (v3 q)) + 9 * et.
  Proof.
    intros P Gn Mp Mq. destruct (proj_ieee n p P Gn Mp) as [s [Es [Bs Hs]]], (proj_ieee n q P Gn Mq) as [t [Et [Bt Ht]]].
    exists s, t. split; [exact Es |]. split; [exact Et |]. pose proof (half_k P) as [Hk1 Hk2].
    assert (HP : (0 < prec)%Z) by exact Hp. assert (HM : (prec < emax)%Z) by exact Hm.
    destruct (minus_bnd prec emax (emax / 2) s t ltac:(lia) ltac:(lia) Bs Bt) as [[Fd Vd] _]. split; [exact Fd |]. cbn [nsub Ieee]. rewrite Vd.
    destruct (minus_rel prec emax s t) as [e [He Re]]. rewrite Re.
    set (N := unit (v3 n)) in *. set (x := v3 p) in *. set (y := v3 q) in *.
    assert (L : vdot N (vsub x y) = vdot N x - vdot N y) by (unfold vdot, vsub; cbn [vx vy vz]; ring). rewrite L.
    assert (NZ : v3 n <> vzero).
    { destruct Gn as [_ HS]. intro H. rewrite H in HS. pose proof (bpow_gt_0 radix2 (6 - emax)). replace (vdot vzero vzero) with 0 in HS by (unfold vdot, vzero; cbn [vx vy vz]; ring). lra. }
    pose proof (unit_norm (v3 n) NZ) as UN. fold N in UN.
    pose proof (cauchy N x) as Cx. pose proof (cauchy N y) as Cy. rewrite UN, Rmult_1_l in Cx, Cy.
    pose proof (norm_pos x) as Px. pose proof (norm_pos y) as Py. set (a := norm x) in *. set (b := norm y) in *.
    pose proof (u_small prec P) as U. pose proof (u_pos prec) as U0. pose proof (et_pos prec emax) as T0.
    assert (Ds : Rabs (val s - val t - (vdot N x - vdot N y)) <= 11 * u * (a + b) + 8 * et).
    { replace (val s - val t - (vdot N x - vdot N y)) with ((val s - vdot N x) + - (val t - vdot N y)) by ring.
      eapply Rle_trans; [apply Rabs_triang |]. rewrite Rabs_Ropp. lra. }
    assert (Ab : Rabs (val s - val t) <= 102 / 100 * (a + b) + 8 * et).
    { replace (val s - val t) with ((val s - val t - (vdot N x - vdot N y)) + (vdot N x + - vdot N y)) by ring.
      eapply Rle_trans; [apply Rabs_triang |]. pose proof (Rabs_triang (vdot N x) (- vdot N y)) as TT. rewrite Rabs_Ropp in TT.
      assert (11 * u * (a + b) <= 2 / 100 * (a + b)) by (apply Rmult_le_compat_r; lra). lra. }
    replace ((val s - val t) * (1 + e) - (vdot N x - vdot N y)) with ((val s - val t - (vdot N x - vdot N y)) + (val s - val t) * e) by ring.
    eapply Rle_trans; [apply Rabs_triang |]. rewrite Rabs_mult.
    assert (Rabs (val s - val t) * Rabs e <= (102 / 100 * (a + b) + 8 * et) * u) by (apply Rmult_le_compat; try apply Rabs_pos; assumption).
    assert (0 <= u * (a + b)) by (apply Rmult_le_pos; lra). assert (0 <= u * et) by (apply Rmult_le_pos; lra). assert (u * et <= / 1024 * et) by (apply Rmult_le_compat_r; lra). lra.
  Qed.
  (** comparing with zero up to [v] is exact *)
  Lemma zero_le_ovf t : xle (Fin 0) (ovf emax t) <-> 0 <= t.
  Proof.
    unfold ovf. pose proof (bpow_gt_0 radix2 emax) as B. destruct (Rlt_dec (Rabs t) big) as [L | L]; [reflexivity |]. destruct (Rlt_dec 0 t) as [Q | Q]; simpl.
    - split; intro; [lra | exact I].
    - split; [intros [] |]. intro H. assert (t = 0) by lra. subst t. rewrite Rabs_R0 in L. lra.
  Qed.
  Lemma ovf_le_zero t : xle (ovf emax t) (Fin 0) <-> t <= 0.
  Proof.
    unfold ovf. pose proof (bpow_gt_0 radix2 emax) as B. destruct (Rlt_dec (Rabs t) big) as [L | L]; [reflexivity |]. destruct (Rlt_dec 0 t) as [Q | Q]; simpl.
    - split; [intros [] | lra].
    - split; intro; [lra | exact I].
  Qed.
  Lemma rel_sign x e : (1 < prec)%Z -> Rabs e <= u -> (0 <= x * (1 + e) <-> 0 <= x) /\ (x * (1 + e) <= 0 <-> x <= 0).
  Proof. intros P H. pose proof (u_half prec). apply Rabs_le_inv in H. split; split; intro; nra. Qed.
  Lemma within_zero (v x : F) : (1 < prec)%Z -> fin v -> fin x -> (Shape.within v x n0 = true <-> Rabs (val x) <= val v).
  Proof.
    intros P Fv Fx. unfold Shape.within. rewrite andb_true_iff. rewrite (nge_iff (ieee_ordered prec emax lm)), (nle_iff (ieee_ordered prec emax lm)).
    change (emb (ieee_ordered prec emax lm)) with (b2x prec emax). rewrite (n0_x prec emax lm). cbn [nadd nsub Ieee].
    rewrite (plus_x prec emax x v Fx Fv), (minus_x prec emax x v Fx Fv), zero_le_ovf, ovf_le_zero.
    destruct (plus_rel prec emax x v) as [e [He Re]], (minus_rel prec emax x v) as [f [Hf Rf]]. rewrite Re, Rf.
    rewrite (proj1 (rel_sign _ _ P He)), (proj2 (rel_sign _ _ P Hf)). split; intro H.
    - apply Rabs_le. lra.
    - apply Rabs_le_inv in H. lra.
  Qed.
  Lemma nabs_val (e : F) : fin e -> fin (nabs F e) /\ val (nabs F e) = Rabs (val e).
  Proof. intro H. cbn [nabs Ieee]. split; [rewrite is_finite_Babs; exact H | apply B2R_Babs]. Qed.
  Lemma data_point (p : mat3x1 F) b e : shape_get_shape_data (SPoint (MkPoint p b e)) = sl p ++ [].
  Proof. destruct p as [[x y z]]. reflexivity. Qed.
  Lemma data_plane (o n : mat3x1 F) b e : shape_get_shape_data (SPlane (MkPlane o n b e)) = sl o ++ sl n.
  Proof. destruct o as [[x y z]], n as [[a c d]]. reflexivity. Qed.
  Lemma vec_at3_sl (c d : mat3x1 F) : vec_at (sl c ++ sl d) 3 = Ok d. Proof. destruct c as [[x y z]], d as [[? ? ?]]. reflexivity. Qed.

  Theorem plane_point_ieee (o n p : mat3x1 F) (e : F) f (a b : shape F) : (9 < prec)%Z -> good_normal (n : mat3x1 bf) -> moderate (o : mat3x1 bf) -> moderate (p : mat3x1 bf) ->
    fin e -> mk_plane o n e a -> mk_point p f b ->
    let q := Rabs (vdot (unit (v3 n)) (vsub (v3 p) (v3 o))) in let E := 13 * u * (norm (v3 o) + norm (v3 p)) + 9 * et in
    (q + E <= Rabs (val e) -> shape_get_intersect a b = Ok (true, Some p)) /\
    (Rabs (val e) < q - E -> shape_get_intersect a b = Ok (false, None)).
  Proof.
    intros P Gn Mo Mp Fe Ma Mb q E. destruct (proj_diff n o p P Gn Mo Mp) as [s [t [Es [Et [Fd D]]]]]. fold E in D.
    assert (Fp : fin3 (p : mat3x1 bf)) by apply Mp.
    assert (O1 : owns prec emax lm a (v3 p)) by (eapply own_plane; eassumption).
    assert (O2 : owns prec emax lm b (v3 p)) by (eapply own_point; [eassumption | exact Fp | reflexivity]).
    pose proof (owns_meet prec emax lm a b _ O1 O2) as I1. apply plane_any in Ma. apply point_any in Mb. subst a b.
    unfold shape_get_intersect, plane_get_intersect. rewrite I1. cbn [bind negb]. unfold plane_point. rewrite data_point, vec_at_sl. cbn [bind pl_normal pl_offset pl_vic].
    rewrite Es. cbn [unwrap bind]. rewrite Et. cbn [unwrap bind]. destruct (nabs_val e Fe) as [Fa Va].
    pose proof (within_zero (nabs F e) (nsub F s t) ltac:(lia) Fa Fd) as W. rewrite Va in W.
    assert (Q : q = Rabs (vdot (unit (v3 n)) (vsub (v3 o) (v3 p)))).
    { unfold q. rewrite <- Rabs_Ropp. f_equal. unfold vdot, vsub. simpl. ring. }
    rewrite Q. set (w := vdot (unit (v3 n)) (vsub (v3 o) (v3 p))) in *. set (d := nsub F s t) in *.
    assert (T1 : Rabs (val d) <= Rabs w + E) by (replace (val d) with (w + (val d - w)) by ring; eapply Rle_trans; [apply Rabs_triang |]; lra).
    assert (T2 : Rabs w <= Rabs (val d) + E).
    { replace w with (val d + - (val d - w)) by ring. eapply Rle_trans; [apply Rabs_triang |]. rewrite Rabs_Ropp. replace (val d + - (val d - w)) with w by ring. lra. }
    split; intro H.
    - rewrite (proj2 W) by lra. reflexivity.
    - assert (Z : Shape.within (nabs F e) d n0 = false) by (apply not_true_is_false; intro Z; apply W in Z; lra). rewrite Z. reflexivity.
  Qed.
  Theorem sphere_plane_ieee (c : mat3x1 F) (r : F) e (o n : mat3x1 F) f (a b : shape F) : (9 < prec)%Z -> good_normal (n : mat3x1 bf) -> moderate (o : mat3x1 bf) -> moderate (c : mat3x1 bf) ->
    fin r -> 0 <= val r -> mk_sphere c r e a -> mk_plane o n f b ->
    let q := vdot (unit (v3 n)) (vsub (v3 c) (v3 o)) in let E := 13 * u * (norm (v3 c) + norm (v3 o)) + 9 * et in
    (q + E <= val r -> exists p, shape_get_intersect a b = Ok (true, Some p)) /\
    (val r < q - E -> shape_get_intersect a b = Ok (false, None)).
  Proof.
    intros P Gn Mo Mc Fr Pr Ma Mb q E. destruct (proj_diff n c o P Gn Mc Mo) as [s [t [Es [Et [Fd D]]]]]. fold E in D. fold q in D.
    assert (Fc : fin3 (c : mat3x1 bf)) by apply Mc.
    assert (O1 : owns prec emax lm a (v3 c)).
    { eapply own_sphere; [exact Ma | exact Fc | exact Fr |]. unfold s_ball, dist. replace (vsub (v3 c) (v3 c)) with vzero by (unfold vsub, vzero; f_equal; ring). rewrite norm_vzero. exact Pr. }
    assert (O2 : owns prec emax lm b (v3 c)) by (eapply own_plane; eassumption).
    pose proof (owns_meet prec emax lm a b _ O1 O2) as I1. apply sphere_any in Ma. apply plane_any in Mb. subst a b.
    unfold shape_get_intersect, sphere_get_intersect. rewrite I1. cbn [bind negb]. unfold sphere_plane. rewrite data_plane, vec_at_sl. cbn [bind]. rewrite vec_at3_sl. cbn [bind sp_ori sp_radius].
    rewrite Et. cbn [unwrap bind]. rewrite Es. cbn [unwrap bind]. set (d := nsub F s t) in *. apply Rabs_le_inv in D. split; intro H.
    - rewrite (ngt_val_false prec emax lm d r Fd Fr) by lra. unfold along.
      destruct (nrm n) as [[x y z]], c as [[g0 g1 g2]]. cbn [mat3x1_scale unwrap bind mat3x1_plus]. eexists. reflexivity.
    - assert (G : ngt d r = true) by (apply (ngt_val prec emax lm d r Fd Fr); lra). rewrite G. reflexivity.
  Qed.
  Theorem box_point_ieee (c : mat3x1 F) (h : F) e (p : mat3x1 F) f (a b : shape F) : fin3 (c : mat3x1 bf) -> fin h -> fin3 (p : mat3x1 bf) ->
    mk_box c h e a -> mk_point p f b -> s_cube (v3 c) (val h) (v3 p) -> shape_get_intersect a b = Ok (true, Some p).
  Proof.
    intros Fc Fh Fp Ma Mb S.
    assert (O1 : owns prec emax lm a (v3 p)) by (eapply own_box; eassumption).
    assert (O2 : owns prec emax lm b (v3 p)) by (eapply own_point; [eassumption | exact Fp | reflexivity]).
    pose proof (owns_meet prec emax lm a b _ O1 O2) as I1. apply box_any in Ma. apply point_any in Mb. subst a b.
    unfold shape_get_intersect, recbox_get_intersect. rewrite I1. cbn [bind negb shape_get_type]. rewrite data_point, vec_at_sl. reflexivity.
  Qed.

  (** ---- point against point ---- *)
  Lemma point_point_eval (p0 p1 p2 q0 q1 q2 : F) e f (a b : shape F) : let p := M3x1 (A3 p0 p1 p2) in let q := M3x1 (A3 q0 q1 q2) in
    mk_point p e a -> mk_point q f b ->
    let A := AABB (A3 p0 p1 p2) (A3 p0 p1 p2) : aabb F in let B := AABB (A3 q0 q1 q2) (A3 q0 q1 q2) : aabb F in
    shape_get_intersect a b =
      if (negb (apart A B 0) && negb (apart A B 1) && negb (apart A B 2))%bool then
        if (Shape.within (nabs F e) p0 q0 && Shape.within (nabs F e) p1 q1 && Shape.within (nabs F e) p2 q2)%bool then Ok (true, Some p) else Ok (false, None)
      else Ok (false, None).
  Proof.
    intros p q Ma Mb A B. apply point_any in Ma. apply point_any in Mb. subst a b. unfold shape_get_intersect, point_get_intersect.
    change (ibound_intersect _ _) with (aabb_intersect A (BBox B)). rewrite intersect_eval. cbn [bind].
    destruct (negb (apart A B 0) && negb (apart A B 1) && negb (apart A B 2))%bool; [| reflexivity]. cbn [negb].
    unfold point_point. cbn -[Shape.within nabs].
    destruct (Shape.within (nabs F e) p0 q0), (Shape.within (nabs F e) p1 q1), (Shape.within (nabs F e) p2 q2); reflexivity.
  Qed.
  Lemma within_nan (v x y : F) : nisnan x = true \/ nisnan y = true -> Shape.within v x y = false.
  Proof.
    intro H. apply not_true_is_false. unfold Shape.within. rewrite andb_true_iff, (nge_iff (ieee_ordered prec emax lm)). intros [G _].
    change (emb (ieee_ordered prec emax lm)) with (b2x prec emax) in G. destruct (PBound.xle_nonan _ _ G) as [N1 N2].
    destruct H as [H | H]; apply (nisnan_iff (ieee_ordered prec emax lm)) in H; change (emb (ieee_ordered prec emax lm)) with (b2x prec emax) in H; [| contradiction].
    apply N2. cbn [nadd Ieee]. destruct x as [? | ? | | ? ? ? ?]; try discriminate H; [destruct s; discriminate H |]. destruct v; reflexivity.
  Qed.
  Theorem point_point_nan (p0 p1 p2 q0 q1 q2 : F) e f (a b : shape F) : mk_point (M3x1 (A3 p0 p1 p2)) e a -> mk_point (M3x1 (A3 q0 q1 q2)) f b ->
    (exists x : F, In x [p0; p1; p2; q0; q1; q2] /\ nisnan x = true) -> shape_get_intersect a b = Ok (false, None).
  Proof.
    intros Ma Mb [x [Hx Nx]]. rewrite (point_point_eval _ _ _ _ _ _ e f a b Ma Mb).
    assert (W : (Shape.within (nabs F e) p0 q0 && Shape.within (nabs F e) p1 q1 && Shape.within (nabs F e) p2 q2)%bool = false).
    { destruct Hx as [<- | [<- | [<- | [<- | [<- | [<- | []]]]]]].
      all: rewrite ?(within_nan (nabs F e) p0 q0), ?(within_nan (nabs F e) p1 q1), ?(within_nan (nabs F e) p2 q2), ?andb_false_r by (first [left; assumption | right; assumption]); reflexivity. }
    rewrite W. match goal with |- (if ?t then _ else _) = _ => destruct t; reflexivity end.
  Qed.
  Lemma within_same (e x y : F) : nisnan e = false -> fin x -> fin y -> val x = val y -> Shape.within (nabs F e) x y = true.
  Proof.
    intros Ne Fx Fy E. unfold Shape.within. rewrite andb_true_iff, (nge_iff (ieee_ordered prec emax lm)), (nle_iff (ieee_ordered prec emax lm)).
    change (emb (ieee_ordered prec emax lm)) with (b2x prec emax). rewrite (fin_x prec emax y Fy), <- E. cbn [nadd nsub nabs Ieee].
    destruct (is_finite (e : bf)) eqn:Fe.
    - assert (Fa : fin (Babs e)) by (rewrite is_finite_Babs; exact Fe). rewrite (plus_x prec emax x _ Fx Fa), (minus_x prec emax x _ Fx Fa), B2R_Babs.
      pose proof (Rabs_pos (val e)). split; [apply (val_le_ovf prec emax) | apply (ovf_le_val prec emax)]; lra.
    - destruct e as [? | ? | | ? ? ? ?]; try discriminate Fe; [| discriminate Ne]. destruct x as [[] | ? | | [] ? ? ?]; try discriminate Fx; split; exact I.
  Qed.
  Theorem point_point_finite (p q : mat3x1 F) (e : F) f (a b : shape F) : fin3 (p : mat3x1 bf) -> fin3 (q : mat3x1 bf) -> nisnan e = false ->
    mk_point p e a -> mk_point q f b ->
    (v3 p = v3 q -> shape_get_intersect a b = Ok (true, Some p)) /\ (v3 p <> v3 q -> shape_get_intersect a b = Ok (false, None)).
  Proof.
    destruct p as [[p0 p1 p2]], q as [[q0 q1 q2]]. intros [F0 [F1 F2]] [G0 [G1 G2]] Ne Ma Mb. rewrite (point_point_eval _ _ _ _ _ _ e f a b Ma Mb).
    set (A := AABB (A3 p0 p1 p2) (A3 p0 p1 p2) : aabb F). set (B := AABB (A3 q0 q1 q2) (A3 q0 q1 q2) : aabb F).
    assert (AP : forall (x y : F), fin x -> fin y -> (ngt x y || nlt x y)%bool = false <-> val x = val y).
    { intros x y Fx Fy. rewrite orb_false_iff. split.
      - intros [H1 H2]. destruct (Rtotal_order (val x) (val y)) as [H | [H | H]]; [exfalso | exact H | exfalso].
        + assert (nlt x y = true) by (apply (nlt_F prec emax lm); rewrite !fin_x by assumption; exact H). congruence.
        + assert (ngt x y = true) by (apply (ngt_val prec emax lm); assumption). congruence.
      - intro H. split; apply not_true_is_false; intro K; [apply (ngt_val prec emax lm x y Fx Fy) in K | apply (nlt_F prec emax lm) in K; rewrite !fin_x in K by assumption; simpl in K]; lra. }
    assert (A0 : apart A B 0 = false <-> val p0 = val q0) by (apply AP; assumption).
    assert (A1 : apart A B 1 = false <-> val p1 = val q1) by (apply AP; assumption).
    assert (A2 : apart A B 2 = false <-> val p2 = val q2) by (apply AP; assumption).
    split; intro H.
    - unfold v3 in H. pose proof (f_equal vx H) as H0. pose proof (f_equal vy H) as H1. pose proof (f_equal vz H) as H2. cbn [vx vy vz] in H0, H1, H2.
      rewrite (proj2 A0 H0), (proj2 A1 H1), (proj2 A2 H2), !within_same by assumption. reflexivity.
    - destruct (_ && _ && _)%bool eqn:Q; [exfalso; apply H | reflexivity]. rewrite !andb_true_iff, !negb_true_iff in Q. destruct Q as [[Q0 Q1] Q2].
      apply A0 in Q0. apply A1 in Q1. apply A2 in Q2. unfold v3. rewrite Q0, Q1, Q2. reflexivity.
  Qed.
End Ieee3.
