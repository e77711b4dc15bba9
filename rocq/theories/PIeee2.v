(** PIeee2.v — sphere against sphere in IEEE arithmetic: right answers outside an explicit margin (C79). *)
From Coq Require Import Reals List ZArith NArith Bool Lra Lia Psatz.
From Flocq Require Import Core BinarySingleNaN.
Import ListNotations.
From Verif Require Import Base Num Vec Mat Bound Shape Intersect Float Exact FloatFacts FloatRound ExactFacts Order SpecMat SpecGeom
  SpecBound SpecBuild SpecRound PMat PBound PShape PBuild PRound PRound2 PRound3 PGeo1 PIeee1.
Local Open Scope R_scope.

Section Ieee2.
  Context (prec emax : Z) {Hp : Prec_gt_0 prec} {Hm : Prec_lt_emax prec emax}.
  Notation bf := (binary_float prec emax).
  Notation fmt := (SpecFloat.fexp prec emax).
  Notation rnd := (round radix2 fmt ZnearestE).
  Notation big := (bpow radix2 emax).
  Notation val := (@B2R prec emax).
  Notation fin x := (is_finite (x : bf) = true).
  Notation u := (uro prec).
  Notation et := (eta prec emax).
  Notation fv := (fv prec emax).

  (** ---- values within a power of two ---- *)
  Definition bnd (k : Z) (x : bf) : Prop := fin x /\ Rabs (val x) <= bpow radix2 k.
  Lemma rnd_bpow k x : (3 - emax - prec <= k)%Z -> Rabs x <= bpow radix2 k -> Rabs (rnd x) <= bpow radix2 k.
  Proof.
    intros Hk H. apply abs_round_le_generic; [apply fexp_correct; exact Hp | apply valid_rnd_N | | exact H]. apply generic_format_bpow.
    change fmt with (FLT_exp (3 - emax - prec) prec). unfold FLT_exp. unfold Prec_gt_0 in Hp. lia.
  Qed.
  Lemma below_big k x : (k < emax)%Z -> Rabs x <= bpow radix2 k -> Rabs x < big.
  Proof. intros Hk H. eapply Rle_lt_trans; [exact H |]. apply bpow_lt. exact Hk. Qed.
  Lemma plus_bnd k x y : (3 - emax - prec <= k)%Z -> (k + 1 < emax)%Z -> bnd k x -> bnd k y ->
    fv (Bplus mode_NE x y) (rnd (val x + val y)) /\ bnd (k + 1) (Bplus mode_NE x y).
  Proof.
    intros K1 K2 [Fx Bx] [Fy By]. assert (Q : Rabs (rnd (val x + val y)) <= bpow radix2 (k + 1)).
    { apply rnd_bpow; [lia |]. rewrite bpow_plus. change (bpow radix2 1) with 2. eapply Rle_trans; [apply Rabs_triang | lra]. }
    destruct (plus_round prec emax x y Fx Fy) as [M _]. specialize (M (below_big _ _ K2 Q)). split; [exact M |].
    destruct M as [M1 M2]. split; [exact M1 |]. rewrite M2. exact Q.
  Qed.
  Lemma minus_bnd k x y : (3 - emax - prec <= k)%Z -> (k + 1 < emax)%Z -> bnd k x -> bnd k y ->
    fv (Bminus mode_NE x y) (rnd (val x - val y)) /\ bnd (k + 1) (Bminus mode_NE x y).
  Proof.
    intros K1 K2 [Fx Bx] [Fy By]. assert (Q : Rabs (rnd (val x - val y)) <= bpow radix2 (k + 1)).
    { apply rnd_bpow; [lia |]. rewrite bpow_plus. change (bpow radix2 1) with 2. unfold Rminus. eapply Rle_trans; [apply Rabs_triang |]. rewrite Rabs_Ropp. lra. }
    destruct (minus_round prec emax x y Fx Fy) as [M _]. specialize (M (below_big _ _ K2 Q)). split; [exact M |].
    destruct M as [M1 M2]. split; [exact M1 |]. rewrite M2. exact Q.
  Qed.
  Lemma mult_bnd j k x y : (3 - emax - prec <= j + k)%Z -> (j + k < emax)%Z -> bnd j x -> bnd k y ->
    fv (Bmult mode_NE x y) (rnd (val x * val y)) /\ bnd (j + k) (Bmult mode_NE x y).
  Proof.
    intros K1 K2 [Fx Bx] [Fy By]. assert (Q : Rabs (rnd (val x * val y)) <= bpow radix2 (j + k)).
    { apply rnd_bpow; [lia |]. rewrite bpow_plus, Rabs_mult. apply Rmult_le_compat; try apply Rabs_pos; assumption. }
    destruct (mult_round prec emax x y Fx Fy) as [M _]. specialize (M (below_big _ _ K2 Q)). split; [exact M |].
    destruct M as [M1 M2]. split; [exact M1 |]. rewrite M2. exact Q.
  Qed.
  Lemma bnd_le j k x : (j <= k)%Z -> bnd j x -> bnd k x.
  Proof. intros H [F B]. split; [exact F |]. eapply Rle_trans; [exact B | apply bpow_le; exact H]. Qed.
  Lemma sqrt_ok (s : bf) : fin s -> 0 <= val s -> fv (Bsqrt mode_NE s) (rnd (sqrt (val s))).
  Proof.
    intros Fs Ps. destruct (Bsqrt_correct prec emax Hp Hm mode_NE s) as [E [F _]]. split; [| exact E].
    rewrite F. destruct s as [b | b | | b m e h]; try reflexivity; try discriminate. destruct b; [| reflexivity].
    exfalso. simpl in Ps. assert (F2R (Float radix2 (Z.neg m) e) < 0) by (apply F2R_lt_0; simpl; lia). unfold cond_Zopp in Ps. simpl in Ps. lra.
  Qed.

  (** ---- the computed distance ---- *)
  Lemma rnd_nonneg x : 0 <= x -> 0 <= rnd x.
  Proof. intro H. rewrite <- (rnd_0 prec emax). apply (rnd_le prec emax). exact H. Qed.
  Lemma sq_scale x e : Rabs e <= u -> u <= 1 -> (1 - u) * (1 - u) * (x * x) <= x * (1 + e) * (x * (1 + e)) <= (1 + u) * (1 + u) * (x * x).
  Proof.
    intros He U. apply Rabs_le_inv in He. replace (x * (1 + e) * (x * (1 + e))) with ((1 + e) * (1 + e) * (x * x)) by ring.
    pose proof (Rle_0_sqr x) as P. unfold Rsqr in P. split; apply Rmult_le_compat_r; try exact P; nra.
  Qed.
  Lemma u_small : (9 < prec)%Z -> u <= / 1024.
  Proof. intro P. unfold uro. change (/ 1024) with (bpow radix2 (-10)). apply bpow_le. lia. Qed.
  Lemma sqrt_sub A B : 0 <= A -> 0 <= B -> sqrt A - sqrt B <= sqrt (A - B).
  Proof.
    intros HA HB. destruct (Rle_dec A B) as [L | L].
    - assert (sqrt A <= sqrt B) by (apply sqrt_le_1_alt; exact L). pose proof (sqrt_pos (A - B)). lra.
    - apply Rnot_le_lt in L. assert (0 <= A - B) by lra. pose proof (sqrt_pos A). pose proof (sqrt_pos B). pose proof (sqrt_pos (A - B)).
      assert (sqrt A <= sqrt (A - B) + sqrt B); [| lra]. apply Rsqr_incr_0_var; [| lra]. unfold Rsqr.
      pose proof (sqrt_sqrt A HA). pose proof (sqrt_sqrt B HB). pose proof (sqrt_sqrt (A - B) H). nra.
  Qed.
  Lemma sqrt_add A B : 0 <= A -> 0 <= B -> sqrt (A + B) <= sqrt A + sqrt B.
  Proof.
    intros HA HB. pose proof (sqrt_pos A). pose proof (sqrt_pos B). apply Rsqr_incr_0_var; [| lra]. unfold Rsqr.
    pose proof (sqrt_sqrt A HA). pose proof (sqrt_sqrt B HB). pose proof (sqrt_sqrt (A + B) ltac:(lra)). nra.
  Qed.
  Lemma sqrt_sqk k A : 0 <= k -> 0 <= A -> sqrt (k * k * A) = k * sqrt A.
  Proof. intros Hk HA. rewrite sqrt_mult by nra. rewrite sqrt_square by exact Hk. reflexivity. Qed.
  Lemma dist_core (s D2 S d : R) : (9 < prec)%Z -> 0 <= s -> 0 <= D2 ->
    (1 - u) * (1 - u) * D2 <= S <= (1 + u) * (1 + u) * D2 -> Rabs (s - S) <= err prec emax 3 S ->
    sqrt s * (1 - u) <= d <= sqrt s * (1 + u) ->
    (1 - u) ^ 4 * sqrt D2 - 2 * sqrt et <= d <= (1 + u) ^ 4 * (sqrt D2 + 2 * sqrt et).
  Proof.
    intros P Hs HD [S1 S2] E [d1 d2]. pose proof (u_small P) as U. pose proof (u_pos prec) as U0. pose proof (et_pos prec emax) as E0.
    unfold err in E. change (3 - 1)%nat with 2%nat in E. replace (INR 3) with 3 in E by (simpl; lra).
    assert (HS : 0 <= S) by nra. apply Rabs_le_inv in E.
    assert (W4 : 3 * (1 + u) ^ 2 <= 4) by (simpl; nra).
    assert (E4 : 3 * (1 + u) ^ 2 * et <= 4 * et) by (apply Rmult_le_compat_r; lra).
    pose proof (sqrt_pos s) as Qs. pose proof (sqrt_pos D2) as QD. pose proof (sqrt_pos et) as Qe. pose proof (sqrt_pos S) as QS.
    assert (K4 : sqrt (4 * et) = 2 * sqrt et) by (replace (4 * et) with (2 * 2 * et) by ring; apply sqrt_sqk; lra).
    assert (LS : (1 - u) * sqrt D2 <= sqrt S) by (rewrite <- sqrt_sqk by lra; apply sqrt_le_1_alt; exact S1).
    assert (US : sqrt S <= (1 + u) * sqrt D2) by (rewrite <- sqrt_sqk by lra; apply sqrt_le_1_alt; exact S2).
    split.
    - assert (L1 : (1 - u) ^ 2 * sqrt S - 2 * sqrt et <= sqrt s).
      { rewrite <- K4. replace ((1 - u) ^ 2 * sqrt S) with (sqrt ((1 - u) ^ 2 * (1 - u) ^ 2 * S)) by (apply sqrt_sqk; [apply pow_le; lra | exact HS]).
        eapply Rle_trans; [apply sqrt_sub; [apply Rmult_le_pos; [| exact HS]; apply Rmult_le_pos; apply pow_le; lra | lra] |].
        apply sqrt_le_1_alt. 
        assert ((1 - u) ^ 2 * (1 - u) ^ 2 <= 2 - (1 + u) ^ 3).
        { assert (0 <= u * (1 - 9 * u + 3 * u * u - u * u * u)) by (apply Rmult_le_pos; [lra | nra]). simpl. nra. }
        assert ((1 - u) ^ 2 * (1 - u) ^ 2 * S <= (2 - (1 + u) ^ 3) * S) by (apply Rmult_le_compat_r; assumption). lra. }
      assert (L2 : (1 - u) ^ 2 * ((1 - u) * sqrt D2) <= (1 - u) ^ 2 * sqrt S) by (apply Rmult_le_compat_l; [apply pow_le; lra | exact LS]).
      assert (L3 : (1 - u) * ((1 - u) ^ 2 * ((1 - u) * sqrt D2) - 2 * sqrt et) <= (1 - u) * sqrt s) by (apply Rmult_le_compat_l; lra).
      replace ((1 - u) ^ 4 * sqrt D2) with ((1 - u) * ((1 - u) ^ 2 * ((1 - u) * sqrt D2))) by ring.
      assert (0 <= u * (2 * sqrt et)) by (apply Rmult_le_pos; lra). lra.
    - assert (L1 : sqrt s <= (1 + u) ^ 2 * (sqrt S + 2 * sqrt et)).
      { rewrite <- K4. eapply Rle_trans; [| apply Rmult_le_compat_l; [apply pow_le; lra | apply sqrt_add; lra]].
        rewrite <- sqrt_sqk by (try apply pow_le; lra). apply sqrt_le_1_alt.
        assert ((1 + u) ^ 3 * S <= (1 + u) ^ 2 * (1 + u) ^ 2 * S) by (apply Rmult_le_compat_r; [exact HS |]; simpl; nra).
        assert (1 <= (1 + u) ^ 2 * (1 + u) ^ 2) by (simpl; nra). nra. }
      assert (L2 : (1 + u) ^ 2 * (sqrt S + 2 * sqrt et) <= (1 + u) ^ 2 * ((1 + u) * (sqrt D2 + 2 * sqrt et))).
      { apply Rmult_le_compat_l; [apply pow_le; lra |]. assert (0 <= u * (2 * sqrt et)) by (apply Rmult_le_pos; lra). lra. }
      assert (L3 : sqrt s * (1 + u) <= (1 + u) ^ 2 * ((1 + u) * (sqrt D2 + 2 * sqrt et)) * (1 + u)) by (apply Rmult_le_compat_r; lra).
      replace ((1 + u) ^ 4 * (sqrt D2 + 2 * sqrt et)) with ((1 + u) ^ 2 * ((1 + u) * (sqrt D2 + 2 * sqrt et)) * (1 + u)) by ring. lra.
  Qed.

  Variable lm : libm bf.
  Notation F := (@Ieee prec emax Hp Hm lm).
  Notation "# a" := (b2x prec emax a) (at level 9).
  Lemma minus_rel (x y : bf) : exists e, Rabs e <= u /\ rnd (val x - val y) = (val x - val y) * (1 + e).
  Proof. apply (rnd_err_sum prec emax (val x) (- val y)); [apply generic_format_B2R | apply generic_format_opp, generic_format_B2R]. Qed.
  Definition len3 (c0 c1 c2 : bf) : bf := Bsqrt mode_NE (Bplus mode_NE (Bplus mode_NE (Bmult mode_NE c0 c0) (Bmult mode_NE c1 c1)) (Bmult mode_NE c2 c2)).
  Lemma len3_ok k (c0 c1 c2 : bf) : (0 <= k)%Z -> (k + k + 2 < emax)%Z -> bnd k c0 -> bnd k c1 -> bnd k c2 ->
    let s := Bplus mode_NE (Bplus mode_NE (Bmult mode_NE c0 c0) (Bmult mode_NE c1 c1)) (Bmult mode_NE c2 c2) in
    fin s /\ 0 <= val s /\ fv (len3 c0 c1 c2) (rnd (sqrt (val s))).
  Proof.
    intros K0 K B0 B1 B2 s. assert (HP : (0 < prec)%Z) by exact Hp. assert (HM : (prec < emax)%Z) by exact Hm.
    destruct (mult_bnd k k c0 c0 ltac:(lia) ltac:(lia) B0 B0) as [[_ V0] M0]. destruct (mult_bnd k k c1 c1 ltac:(lia) ltac:(lia) B1 B1) as [[_ V1] M1].
    destruct (mult_bnd k k c2 c2 ltac:(lia) ltac:(lia) B2 B2) as [[_ V2] M2].
    destruct (plus_bnd (k + k) _ _ ltac:(lia) ltac:(lia) M0 M1) as [[_ V3] M3].
    destruct (plus_bnd (k + k + 1) _ _ ltac:(lia) ltac:(lia) M3 (bnd_le (k + k) (k + k + 1) _ ltac:(lia) M2)) as [[_ V4] [M4 _]].
    fold s in V4, M4. split; [exact M4 |].
    assert (0 <= val s).
    { rewrite V4, V3, V2, V1, V0. apply rnd_nonneg. 
      assert (SQ : forall x, 0 <= rnd (x * x)) by (intro x; apply rnd_nonneg; pose proof (Rle_0_sqr x); unfold Rsqr in *; lra).
      pose proof (SQ (val c2)). assert (0 <= rnd (rnd (val c0 * val c0) + rnd (val c1 * val c1))); [| lra].
      apply rnd_nonneg. pose proof (SQ (val c0)). pose proof (SQ (val c1)). lra. }
    split; [exact H |]. apply sqrt_ok; assumption.
  Qed.
  Lemma dist_ieee (a b : mat3x1 F) : (9 < prec)%Z -> moderate (a : mat3x1 bf) -> moderate (b : mat3x1 bf) -> exists c d,
    mat3x1_minus b a = Some c /\ mat3x1_magnitude c = Some d /\ fin d /\
    (1 - u) ^ 4 * dist (v3 b) (v3 a) - 2 * sqrt et <= val d <= (1 + u) ^ 4 * (dist (v3 b) (v3 a) + 2 * sqrt et).
  Proof.
    intros P [Fa La] [Fb Lb]. destruct a as [[a0 a1 a2]], b as [[b0 b1 b2]]. destruct Fa as [Fa0 [Fa1 Fa2]], Fb as [Fb0 [Fb1 Fb2]].
    destruct La as [La0 [La1 La2]], Lb as [Lb0 [Lb1 Lb2]]. set (k := (emax / 2 - 3)%Z) in *.
    assert (Hk : (k + 1 + (k + 1) + 2 < emax /\ 0 <= k)%Z).
    { unfold k. unfold Prec_lt_emax in Hm. pose proof (Z.div_mod emax 2 ltac:(lia)) as Q. pose proof (Z.mod_pos_bound emax 2 ltac:(lia)). lia. }
    destruct Hk as [Hk Hk0]. assert (HP : (0 < prec)%Z) by exact Hp. assert (HM : (prec < emax)%Z) by exact Hm.
    destruct (minus_bnd k b0 a0 ltac:(lia) ltac:(lia) (conj Fb0 Lb0) (conj Fa0 La0)) as [[_ V0] M0].
    destruct (minus_bnd k b1 a1 ltac:(lia) ltac:(lia) (conj Fb1 Lb1) (conj Fa1 La1)) as [[_ V1] M1].
    destruct (minus_bnd k b2 a2 ltac:(lia) ltac:(lia) (conj Fb2 Lb2) (conj Fa2 La2)) as [[_ V2] M2].
    set (c0 := Bminus mode_NE b0 a0) in *. set (c1 := Bminus mode_NE b1 a1) in *. set (c2 := Bminus mode_NE b2 a2) in *.
    destruct (len3_ok (k + 1) c0 c1 c2 ltac:(lia) ltac:(lia) M0 M1 M2) as [Fs [Ps [Fd Vd]]].
    exists (M3x1 (A3 c0 c1 c2)), (len3 c0 c1 c2). split; [reflexivity |]. split; [reflexivity |]. split; [exact Fd |].
    pose proof (mag3 prec emax lm c0 c1 c2 Fd) as [[_ A] _].
    destruct (minus_rel b0 a0) as [e0 [E0 R0]], (minus_rel b1 a1) as [e1 [E1 R1]], (minus_rel b2 a2) as [e2 [E2 R2]].
    pose proof (u_small P) as U. pose proof (u_pos prec) as U0.
    pose proof (sq_scale (val b0 - val a0) e0 E0 ltac:(lra)) as Q0. pose proof (sq_scale (val b1 - val a1) e1 E1 ltac:(lra)) as Q1.
    pose proof (sq_scale (val b2 - val a2) e2 E2 ltac:(lra)) as Q2. rewrite <- R0, <- V0 in Q0. rewrite <- R1, <- V1 in Q1. rewrite <- R2, <- V2 in Q2.
    match type of A with Rabs (val ?x - ?y) <= _ => set (s := x) in *; set (S := y) in * end.
    destruct (rnd_sqrt prec emax s ltac:(lia)) as [e [E R]]. apply Rabs_le_inv in E.
    pose proof (Rle_0_sqr (val b0 - val a0)) as G0. pose proof (Rle_0_sqr (val b1 - val a1)) as G1. pose proof (Rle_0_sqr (val b2 - val a2)) as G2. unfold Rsqr in G0, G1, G2.
    apply (dist_core (val s) _ S (val (len3 c0 c1 c2)) P Ps).
    - unfold vdot, vsub, v3. simpl. lra.
    - unfold vdot, vsub, v3. simpl. unfold S. lra.
    - exact A.
    - rewrite Vd, R. pose proof (sqrt_pos (val s)). split; apply Rmult_le_compat_l; lra.
  Qed.
  (** ---- spheres ---- *)
  Lemma fv_n0 : fv (@n0 F) 0. Proof. exact (fv_lit_0 prec emax). Qed.
  Lemma ngt_val (x y : F) : fin x -> fin y -> (ngt x y = true <-> val y < val x).
  Proof. intros Fx Fy. rewrite (ngt_F prec emax lm), !fin_x by assumption. reflexivity. Qed.
  Lemma ngt_val_false (x y : F) : fin x -> fin y -> val x <= val y -> ngt x y = false.
  Proof. intros Fx Fy H. destruct (ngt x y) eqn:G; [| reflexivity]. apply (ngt_val x y Fx Fy) in G. lra. Qed.
  Lemma plus_rel (x y : bf) : exists e, Rabs e <= u /\ rnd (val x + val y) = (val x + val y) * (1 + e).
  Proof. apply (rnd_err_sum prec emax); apply generic_format_B2R. Qed.
  Lemma data_sphere (c : mat3x1 F) r b e : shape_get_shape_data (SSphere (MkSphere c r b e)) = sl c ++ [r].
  Proof. destruct c as [[x y z]]. reflexivity. Qed.
  Lemma vec_at_sl (c : mat3x1 F) l : vec_at (sl c ++ l) 0 = Ok c. Proof. destruct c as [[x y z]]. reflexivity. Qed.
  Lemma idx3_sl (c : mat3x1 F) (r : F) : idx (sl c ++ [r]) 3 = Ok r. Proof. destruct c as [[x y z]]. reflexivity. Qed.
  Theorem sphere_sphere_ieee (a b : mat3x1 F) (r s : F) e f (x y : shape F) : (9 < prec)%Z ->
    moderate (a : mat3x1 bf) -> moderate (b : mat3x1 bf) -> bnd (emax - 2) r -> bnd (emax - 2) s -> 0 <= val r -> 0 <= val s ->
    mk_sphere a r e x -> mk_sphere b s f y ->
    let D := dist (v3 b) (v3 a) in
    ((1 + u) ^ 4 * (D + 2 * sqrt et) <= (1 - u) * (val r + val s) -> exists p, shape_get_intersect x y = Ok (true, Some p)) /\
    ((1 + u) * (val r + val s) < (1 - u) ^ 4 * D - 2 * sqrt et -> shape_get_intersect x y = Ok (false, None)).
  Proof.
    intros P Ma Mb Br Bs Pr Ps Mx My D. destruct (dist_ieee a b P Ma Mb) as [c [d [Ec [Ed [Fd [D1 D2]]]]]]. fold D in D1, D2.
    assert (Fa : fin3 (a : mat3x1 bf)) by apply Ma. assert (Fb : fin3 (b : mat3x1 bf)) by apply Mb.
    pose proof (u_small P) as U. pose proof (u_pos prec) as U0. pose proof (sqrt_pos et) as SE.
    assert (PD : 0 <= D) by (apply norm_pos).
    destruct (plus_bnd (emax - 2) s r ltac:(unfold Prec_lt_emax in Hm; lia) ltac:(lia) Bs Br) as [[Fq Vq] _].
    destruct (plus_rel s r) as [e0 [E0 R0]]. rewrite R0 in Vq. apply Rabs_le_inv in E0.
    assert (Vq1 : (1 - u) * (val r + val s) <= val (Bplus mode_NE s r) <= (1 + u) * (val r + val s)) by (rewrite Vq; nra).
    split; intro H.
    - assert (DR : D <= val r + val s).
      { assert (D <= (1 + u) ^ 4 * (D + 2 * sqrt et)).
        { assert (1 <= (1 + u) ^ 4) by (apply pow_R1_Rle; lra). nra. }
        assert (0 <= u * (val r + val s)) by (apply Rmult_le_pos; lra). lra. }
      apply (proj2 (balls_meet (v3 a) (val r) (v3 b) (val s) Pr Ps)) in DR. destruct DR as [z [Z1 Z2]].
      assert (O1 : owns prec emax lm x z) by (eapply own_sphere; [exact Mx | exact Fa | apply Br | exact Z1]).
      assert (O2 : owns prec emax lm y z) by (eapply own_sphere; [exact My | exact Fb | apply Bs | exact Z2]).
      pose proof (owns_meet prec emax lm x y z O1 O2) as I1.
      apply sphere_any in Mx. apply sphere_any in My. subst x y. unfold shape_get_intersect, sphere_get_intersect. rewrite I1. cbn [bind negb].
      unfold sphere_sphere. rewrite data_sphere, vec_at_sl. cbn [bind]. rewrite idx3_sl. cbn [bind sp_ori sp_radius]. rewrite Ec. cbn [unwrap bind]. rewrite Ed. cbn [unwrap bind].
      rewrite ngt_val_false; [| exact Fd | exact Fq | cbn [nadd Ieee]; lra].
      destruct c as [[q0 q1 q2]], a as [[g0 g1 g2]]. cbn [mat3x1_scale unwrap bind mat3x1_plus]. eexists. reflexivity.
    - apply sphere_any in Mx. apply sphere_any in My. subst x y. unfold shape_get_intersect, sphere_get_intersect.
      change (ibound_intersect _ _) with (aabb_intersect (cube_any a r) (BBox (cube_any b s))). rewrite intersect_eval. cbn [bind]. match goal with |- context [negb ?t] => destruct (negb t) end; [reflexivity |].
      unfold sphere_sphere. rewrite data_sphere, vec_at_sl. cbn [bind]. rewrite idx3_sl. cbn [bind sp_ori sp_radius]. rewrite Ec. cbn [unwrap bind]. rewrite Ed. cbn [unwrap bind].
      assert (G : ngt d (nadd F s r) = true) by (apply (ngt_val d); [exact Fd | exact Fq | cbn [nadd Ieee]; lra]). rewrite G. reflexivity.
  Qed.
End Ieee2.
