(** PLoc.v — the reported point of the sphere-sphere and sphere-plane queries in IEEE arithmetic (C113). *)
From Coq Require Import Reals List ZArith NArith Bool Lra Lia Psatz.
From Flocq Require Import Core BinarySingleNaN.
Import ListNotations.
From Verif Require Import Base Num Vec Mat Bound Shape Intersect Float Exact FloatFacts FloatRound ExactFacts Order SpecMat SpecGeom
  SpecBound SpecShape SpecBuild SpecRound SpecNan PMat PBound PShape PBuild PRound PRound2 PRound3 PGeo1 PIeee1 PIeee2 PIeee3 PIeee5.
Local Open Scope R_scope.

Section Loc.
  Context (prec emax : Z) {Hp : Prec_gt_0 prec} {Hm : Prec_lt_emax prec emax} (lm : libm (binary_float prec emax)).
  Notation bf := (binary_float prec emax).
  Notation fmt := (SpecFloat.fexp prec emax).
  Notation rnd := (round radix2 fmt ZnearestE).
  Notation val := (@B2R prec emax).
  Notation fin x := (is_finite (x : bf) = true).
  Notation u := (uro prec).
  Notation et := (eta prec emax).
  Notation fv := (fv prec emax).
  Notation bnd := (bnd prec emax).
  Notation F := (@Ieee prec emax Hp Hm lm).
  Notation w3 v := (v3 (v : mat3x1 bf)).

  Lemma sphere_plane_loc (c : mat3x1 F) (r : F) e (o n : mat3x1 F) f (a b : shape F) p : (9 < prec)%Z -> good_normal (n : mat3x1 bf) -> moderate (o : mat3x1 bf) -> moderate (c : mat3x1 bf) ->
    mk_sphere c r e a -> mk_plane o n f b -> shape_get_intersect a b = Ok (true, Some p) ->
    let N := unit (v3 n) in let q := vdot N (vsub (v3 c) (v3 o)) in
    fin3 (p : mat3x1 bf) /\ dist (w3 p) (vsub (v3 c) (vscale q N)) <= 26 * u * (norm (v3 c) + norm (v3 o)) + 13 * et.
  Proof.
    intros P Gn Mo Mc Ma Mb H N q. destruct (proj_diff prec emax lm n c o P Gn Mc Mo) as [s [t [Es [Et [Fd D]]]]]. fold N in D. fold q in D.
    destruct (nrm_ieee prec emax lm n P Gn) as [Bn [Dn Un]]. fold N in Dn, Un.
    apply sphere_any in Ma. apply plane_any in Mb. subst a b. unfold shape_get_intersect, sphere_get_intersect in H.
    destruct (ibound_intersect _ _) as [bi |] in H; [| discriminate H]. cbn [bind] in H. destruct (negb bi); [discriminate H |].
    cbn [shape_get_type] in H. unfold sphere_plane in H. rewrite data_plane, vec_at_sl in H. cbn [bind] in H. rewrite vec_at3_sl in H. cbn [bind sp_ori sp_radius] in H.
    rewrite Et in H. cbn [unwrap bind] in H. rewrite Es in H. cbn [unwrap bind] in H. destruct (ngt _ _) in H; [discriminate H |]. set (d := nsub F s t) in *.
    pose proof (u_small prec P) as U. pose proof (u_pos prec) as U0. pose proof (et_pos prec emax) as T0. pose proof (et_small prec emax P) as Ts.
    pose proof (norm_pos (v3 c)) as C0. pose proof (norm_pos (v3 o)) as O0. set (S := norm (v3 c) + norm (v3 o)) in *.
    assert (Q : Rabs q <= S).
    { unfold q. eapply Rle_trans; [apply cauchy |]. rewrite Un, Rmult_1_l. pose proof (triangle (v3 c) (vscale (-1) (v3 o))) as T. rewrite norm_scale_abs in T.
      replace (vadd (v3 c) (vscale (-1) (v3 o))) with (vsub (v3 c) (v3 o)) in T by (apply V3_eq; unfold vadd, vsub, vscale; cbn [vx vy vz]; ring).
      replace (Rabs (-1)) with 1 in T by (rewrite Rabs_left; lra). unfold S. lra. }
    assert (SB : S <= bpow radix2 (emax / 2 - 1)).
    { pose proof (moderate_norm prec emax lm c Mc) as M1. pose proof (moderate_norm prec emax lm o Mo) as M2. unfold S. replace (emax / 2 - 1)%Z with (emax / 2 - 3 + 2)%Z by lia. rewrite bpow_plus. change (bpow radix2 2) with 4. lra. }
    assert (uS : u * S <= / 1024 * S) by (apply Rmult_le_compat_r; unfold S; lra).
    assert (HE : (0 <= emax / 2 - 1)%Z) by (pose proof (half_k prec emax P); lia). assert (B1 : 1 <= bpow radix2 (emax / 2 - 1)) by (change 1 with (bpow radix2 0); apply bpow_le; exact HE).
    assert (Bt : bnd (emax / 2 + 2) (nneg F d)).
    { split; [cbn [nneg Ieee]; rewrite is_finite_Bopp; exact Fd |]. cbn [nneg Ieee]. rewrite B2R_Bopp, Rabs_Ropp. replace (emax / 2 + 2)%Z with (emax / 2 - 1 + 3)%Z by lia. rewrite bpow_plus. change (bpow radix2 3) with 8.
      replace (val d) with ((val d - q) + q) by ring. eapply Rle_trans; [apply Rabs_triang |]. lra. }
    destruct (along_ieee prec emax lm (nrm n) c (nneg F d) N (- q) P Bn Dn Un Bt Mc) as (p' & Ep & Fp & Dp). rewrite Ep in H. cbn [bind] in H. injection H as <-. split; [exact Fp |].
    replace (vsub (v3 c) (vscale q N)) with (vadd (v3 c) (vscale (- q) N)) by (apply V3_eq; unfold vadd, vsub, vscale; cbn [vx vy vz]; ring).
    eapply Rle_trans; [exact Dp |]. cbn [nneg Ieee]. rewrite B2R_Bopp, Rabs_Ropp. replace (- val d - - q) with (- (val d - q)) by ring. rewrite Rabs_Ropp.
    assert (u * Rabs q <= u * S) by (apply Rmult_le_compat_l; lra). assert (u * norm (w3 c) <= u * S) by (apply Rmult_le_compat_l; unfold S; lra).
    assert (11 * u * Rabs q = 11 * (u * Rabs q)) by ring. assert (0 <= u * S) by (apply Rmult_le_pos; unfold S; lra). lra.
  Qed.
  (** the point is close to the plane *)
  Lemma sphere_plane_on (c : mat3x1 F) (r : F) e (o n : mat3x1 F) f (a b : shape F) p : (9 < prec)%Z -> good_normal (n : mat3x1 bf) -> moderate (o : mat3x1 bf) -> moderate (c : mat3x1 bf) ->
    mk_sphere c r e a -> mk_plane o n f b -> shape_get_intersect a b = Ok (true, Some p) ->
    Rabs (vdot (unit (v3 n)) (vsub (w3 p) (v3 o))) <= 26 * u * (norm (v3 c) + norm (v3 o)) + 13 * et.
  Proof.
    intros P Gn Mo Mc Ma Mb H. destruct (sphere_plane_loc c r e o n f a b p P Gn Mo Mc Ma Mb H) as [_ D]. destruct (nrm_ieee prec emax lm n P Gn) as [_ [_ Un]].
    set (N := unit (v3 n)) in *. set (q := vdot N (vsub (v3 c) (v3 o))) in *. eapply Rle_trans; [| exact D].
    replace (vdot N (vsub (w3 p) (v3 o))) with (vdot N (vsub (w3 p) (vsub (v3 c) (vscale q N)))).
    - eapply Rle_trans; [apply cauchy |]. rewrite Un. unfold dist. lra.
    - assert (NN : vdot N N = 1) by (rewrite <- norm_sq, Un; ring). transitivity (vdot N (w3 p) - vdot N (v3 c) + q * vdot N N); [unfold vdot, vsub, vscale; cbn [vx vy vz]; ring |].
      rewrite NN. unfold q, vdot, vsub. cbn [vx vy vz]. ring.
  Qed.

  Lemma ratio_ieee (r s : F) : (9 < prec)%Z -> bnd (emax - 2) r -> bnd (emax - 2) s -> 0 <= val r -> 0 <= val s -> 0 < val r + val s ->
    let f := Bdiv mode_NE r (Bplus mode_NE r s) in bnd 1 f /\ Rabs (val f - val r / (val r + val s)) <= 202 / 100 * u.
  Proof.
    intros P Br Bs Pr Ps PR f. destruct (plus_bnd prec emax (emax - 2) r s ltac:(unfold Prec_lt_emax in Hm; lia) ltac:(lia) Br Bs) as [[Fq Vq] _].
    destruct (plus_rel prec emax r s) as [e0 [E0 R0]]. rewrite R0 in Vq. apply Rabs_le_inv in E0. pose proof (u_small prec P) as U. pose proof (u_pos prec) as U0. pose proof (et_pos prec emax) as T0. pose proof (et_small prec emax P) as Ts.
    set (q := Bplus mode_NE r s) in *. set (R := val r + val s) in *. assert (Q0 : 0 < val q) by (rewrite Vq; apply Rmult_lt_0_compat; lra).
    set (ph := val r / R) in *. assert (ph0 : 0 <= ph <= 1).
    { unfold ph. split; [apply Rmult_le_pos; [exact Pr | left; apply Rinv_0_lt_compat, PR] |]. apply Rmult_le_reg_r with R; [exact PR |]. unfold Rdiv. rewrite Rmult_assoc, Rinv_l by lra. unfold R. lra. }
    assert (X : val r / val q = ph * / (1 + e0)) by (unfold ph; rewrite Vq; field; lra).
    assert (I : Rabs (/ (1 + e0) - 1) <= 1002 / 1000 * u).
    { replace (/ (1 + e0) - 1) with (- e0 * / (1 + e0)) by (field; lra). rewrite Rabs_mult, Rabs_Ropp. assert (0 < / (1 + e0) <= 1002 / 1000).
      { split; [apply Rinv_0_lt_compat; lra |]. apply Rmult_le_reg_l with (1 + e0); [lra |]. rewrite Rinv_r by lra. lra. }
      rewrite (Rabs_pos_eq (/ (1 + e0))) by lra. assert (Rabs e0 <= u) by (apply Rabs_le; lra). pose proof (Rabs_pos e0). nra. }
    destruct (rnd_err prec emax (val r / val q)) as [e1 [h [E1 [Hh Re]]]].
    assert (Vr : Rabs (rnd (val r / val q) - ph) <= 202 / 100 * u).
    { rewrite Re, X. replace (ph * / (1 + e0) * (1 + e1) + h - ph) with (ph * ((/ (1 + e0) - 1) + (/ (1 + e0) - 1) * e1 + e1) + h) by ring.
      eapply Rle_trans; [apply Rabs_triang |]. rewrite Rabs_mult, (Rabs_pos_eq ph) by lra.
      assert (K : Rabs (/ (1 + e0) - 1 + (/ (1 + e0) - 1) * e1 + e1) <= 2012 / 1000 * u).
      { eapply Rle_trans; [apply Rabs_triang |]. pose proof (Rabs_triang (/ (1 + e0) - 1) ((/ (1 + e0) - 1) * e1)) as TT. rewrite Rabs_mult in TT.
        assert (Rabs (/ (1 + e0) - 1) * Rabs e1 <= 1002 / 1000 * u * (/ 1024)) by (apply Rmult_le_compat; try apply Rabs_pos; lra). lra. }
      pose proof (Rabs_pos (/ (1 + e0) - 1 + (/ (1 + e0) - 1) * e1 + e1)). set (k := Rabs (/ (1 + e0) - 1 + (/ (1 + e0) - 1) * e1 + e1)) in *. assert (ph * k <= 1 * k) by (apply Rmult_le_compat_r; lra). lra. }
    assert (Bd : Rabs (rnd (val r / val q)) <= 2).
    { replace (rnd (val r / val q)) with ((rnd (val r / val q) - ph) + ph) by ring. eapply Rle_trans; [apply Rabs_triang |]. rewrite (Rabs_pos_eq ph) by lra. lra. }
    destruct (div_round prec emax r q (proj1 Br) ltac:(lra)) as [DV _]. assert (BE : 2 < bpow radix2 emax) by (change 2 with (bpow radix2 1); apply bpow_lt; unfold Prec_lt_emax in Hm; lia).
    destruct (DV ltac:(lra)) as [Ff Vf]. fold f in Ff, Vf. split; [split; [exact Ff | rewrite Vf; exact Bd] | rewrite Vf; exact Vr].
  Qed.

  Lemma sphere_sphere_loc (a b : mat3x1 F) (r s : F) e f (x y : shape F) p : (9 < prec)%Z -> moderate (a : mat3x1 bf) -> moderate (b : mat3x1 bf) ->
    bnd (emax - 2) r -> bnd (emax - 2) s -> 0 <= val r -> 0 <= val s -> 0 < val r + val s ->
    mk_sphere a r e x -> mk_sphere b s f y -> shape_get_intersect x y = Ok (true, Some p) ->
    fin3 (p : mat3x1 bf) /\ dist (w3 p) (vadd (v3 a) (vscale (val r / (val r + val s)) (vsub (v3 b) (v3 a)))) <= 6 * u * dist (v3 b) (v3 a) + u * norm (v3 a) + 3 * et.
  Proof.
    intros P Ma Mb Br Bs Pr Ps PR Mx My H. apply sphere_any in Mx. apply sphere_any in My. subst x y. unfold shape_get_intersect, sphere_get_intersect in H.
    destruct (ibound_intersect _ _) as [bi |] in H; [| discriminate H]. cbn [bind] in H. destruct (negb bi); [discriminate H |]. cbn [shape_get_type] in H.
    unfold sphere_sphere in H. rewrite data_sphere, vec_at_sl in H. cbn [bind] in H. rewrite idx3_sl in H. cbn [bind sp_ori sp_radius] in H.
    destruct (ratio_ieee r s P Br Bs Pr Ps PR) as [Bf Df]. set (g := Bdiv mode_NE r (Bplus mode_NE r s)) in *. set (ph := val r / (val r + val s)) in *.
    assert (ph0 : 0 <= ph <= 1).
    { unfold ph. split; [apply Rmult_le_pos; [exact Pr | left; apply Rinv_0_lt_compat, PR] |]. apply Rmult_le_reg_r with (val r + val s); [exact PR |]. unfold Rdiv. rewrite Rmult_assoc, Rinv_l by lra. lra. }
    apply (moderate_bnd3 prec emax lm) in Ma. apply (moderate_bnd3 prec emax lm) in Mb. pose proof (half_k prec emax P) as [Hk1 Hk2]. assert (HP : (0 < prec)%Z) by exact Hp. assert (HM : (prec < emax)%Z) by exact Hm. set (k := (emax / 2 - 3)%Z) in *.
    assert (Z1 : (3 - emax - prec <= k)%Z) by lia. assert (Z2 : (k + 1 < emax)%Z) by lia. assert (Z3 : (3 - emax - prec <= k + 1 + 1)%Z) by lia. assert (Z4 : (k + 1 + 1 < emax)%Z) by lia. assert (Z5 : (k + 1 + 1 + 1 < emax)%Z) by lia. assert (Z6 : (k <= k + 1 + 1)%Z) by lia.
    pose proof (u_small prec P) as U. pose proof (u_pos prec) as U0. pose proof (et_pos prec emax) as T0. pose proof (et_small prec emax P) as Ts.
    assert (S : forall a0 b0 : bf, bnd k a0 -> bnd k b0 -> let t := Bplus mode_NE a0 (Bmult mode_NE (Bminus mode_NE b0 a0) g) in fin t /\
      Rabs (val t - (val a0 + ph * (val b0 - val a0))) <= 6 * u * Rabs (val b0 - val a0) + u * Rabs (val a0) + 102 / 100 * et).
    { intros a0 b0 B0 B1 t. destruct (minus_bnd prec emax k b0 a0 Z1 Z2 B1 B0) as [[_ V1] N1]. destruct (mult_bnd prec emax (k + 1) 1 _ g Z3 Z4 N1 Bf) as [[_ V2] N2].
      destruct (plus_bnd prec emax (k + 1 + 1) a0 _ Z3 Z5 (bnd_le prec emax _ _ a0 Z6 B0) N2) as [[F3 V3] _]. fold t in F3, V3. split; [exact F3 |].
      destruct (minus_rel prec emax b0 a0) as [e1 [E1 R1]]. rewrite R1 in V1. destruct (rnd_err prec emax (val (Bminus mode_NE b0 a0) * val g)) as [e2 [h [E2 [Hh R2]]]]. rewrite R2, V1 in V2.
      destruct (plus_rel prec emax a0 (Bmult mode_NE (Bminus mode_NE b0 a0) g)) as [e3 [E3 R3]]. rewrite R3, V2 in V3. rewrite V3.
      set (de := val b0 - val a0) in *. set (dg := val g - ph) in *. replace (val g) with (ph + dg) by (unfold dg; ring).
      replace ((val a0 + (de * (1 + e1) * (ph + dg) * (1 + e2) + h)) * (1 + e3) - (val a0 + ph * de)) with
        (de * ((ph + dg) * ((1 + e1) * (1 + e2) * (1 + e3) - 1) + dg) + val a0 * e3 + h * (1 + e3)) by ring.
      eapply Rle_trans; [apply Rabs_triang |]. eapply Rle_trans; [apply Rplus_le_compat_r, Rabs_triang |]. rewrite !Rabs_mult.
      apply Rabs_le_inv in E1. apply Rabs_le_inv in E2. pose proof (Rabs_le_inv _ _ E3) as E3'. apply Rabs_le_inv in Df. fold dg in Df.
      assert (X : Rabs ((1 + e1) * (1 + e2) * (1 + e3) - 1) <= 301 / 100 * u).
      { apply Rabs_le. assert (- (2002 / 1000 * u) <= (1 + e1) * (1 + e2) - 1 <= 2002 / 1000 * u) by nra. replace ((1 + e1) * (1 + e2) * (1 + e3) - 1) with (((1 + e1) * (1 + e2) - 1) + (1 + e1) * (1 + e2) * e3) by ring.
        assert (- (1003 / 1000 * u) <= (1 + e1) * (1 + e2) * e3 <= 1003 / 1000 * u). { assert (0 <= (1 + e1) * (1 + e2) <= 1003 / 1000) by nra. nra. } lra. }
      assert (Y : Rabs ((ph + dg) * ((1 + e1) * (1 + e2) * (1 + e3) - 1) + dg) <= 6 * u).
      { eapply Rle_trans; [apply Rabs_triang |]. rewrite Rabs_mult. assert (Rabs (ph + dg) <= 101 / 100) by (apply Rabs_le; lra). assert (Rabs dg <= 202 / 100 * u) by (apply Rabs_le; lra).
        assert (Rabs (ph + dg) * Rabs ((1 + e1) * (1 + e2) * (1 + e3) - 1) <= 101 / 100 * (301 / 100 * u)) by (apply Rmult_le_compat; try apply Rabs_pos; assumption). lra. }
      assert (W : Rabs (1 + e3) <= 101 / 100) by (apply Rabs_le; lra).
      assert (Rabs de * Rabs ((ph + dg) * ((1 + e1) * (1 + e2) * (1 + e3) - 1) + dg) <= Rabs de * (6 * u)) by (apply Rmult_le_compat_l; [apply Rabs_pos | exact Y]).
      assert (Rabs (val a0) * Rabs e3 <= Rabs (val a0) * u) by (apply Rmult_le_compat_l; [apply Rabs_pos | exact E3]).
      assert (Rabs h * Rabs (1 + e3) <= et * (101 / 100)) by (apply Rmult_le_compat; try apply Rabs_pos; assumption). lra. }
    destruct a as [[a0 a1 a2]], b as [[b0 b1 b2]]. cbn [mat3x1_minus unwrap bind] in H.
    destruct (mat3x1_magnitude _) as [dd |] in H; [| discriminate H]. cbn [unwrap bind] in H. destruct (ngt _ _) in H; [discriminate H |].
    destruct Ma as (A0 & A1 & A2), Mb as (B0 & B1 & B2). destruct (S a0 b0 A0 B0) as [F0 D0], (S a1 b1 A1 B1) as [F1 D1], (S a2 b2 A2 B2) as [F2 D2].
    cbn in H. injection H as <-. split; [repeat split; assumption |].
    assert (G3 : 2 * (102 / 100 * et) <= 3 * et) by lra. eapply Rle_trans; [| apply Rplus_le_compat_l, G3]. unfold dist. apply norm_comb; try lra; [exact D0 | exact D1 | exact D2].
  Qed.
  (** the point is close to both balls *)
  Lemma sphere_sphere_in (a b : mat3x1 F) (r s : F) e f (x y : shape F) p : (9 < prec)%Z -> moderate (a : mat3x1 bf) -> moderate (b : mat3x1 bf) ->
    bnd (emax - 2) r -> bnd (emax - 2) s -> 0 <= val r -> 0 <= val s -> 0 < val r + val s ->
    mk_sphere a r e x -> mk_sphere b s f y -> shape_get_intersect x y = Ok (true, Some p) ->
    let M := 7 * u * dist (v3 b) (v3 a) + u * norm (v3 a) + 3 * sqrt et in
    dist (w3 p) (v3 a) <= (1 + 6 * u) * val r + M /\ dist (w3 p) (v3 b) <= (1 + 6 * u) * val s + M.
  Proof.
    intros P Ma Mb Br Bs Pr Ps PR Mx My H M. destruct (sphere_sphere_loc a b r s e f x y p P Ma Mb Br Bs Pr Ps PR Mx My H) as [_ D].
    destruct (sphere_sphere_ieee prec emax lm a b r s e f x y P Ma Mb Br Bs Pr Ps Mx My) as [_ N]. 
    assert (Q : (1 - u) ^ 4 * dist (v3 b) (v3 a) - 2 * sqrt et <= (1 + u) * (val r + val s)) by (apply Rnot_lt_le; intro L; rewrite (N L) in H; discriminate H).
    pose proof (u_small prec P) as U. pose proof (u_pos prec) as U0. pose proof (et_pos prec emax) as T0. pose proof (et_small prec emax P) as Ts.
    pose proof (norm_pos (vsub (v3 b) (v3 a))) as D0. change (norm (vsub (v3 b) (v3 a))) with (dist (v3 b) (v3 a)) in D0. set (DD := dist (v3 b) (v3 a)) in *. set (R := val r + val s) in *. pose proof (norm_pos (v3 a)) as A0. pose proof (sqrt_pos et) as Se.
    assert (es : 64 * et <= sqrt et).
    { assert (et <= / 4096). { assert (et <= / 1024 * / 256) by (eapply Rle_trans; [exact Ts |]; apply Rmult_le_compat_r; lra). lra. }
      assert (sqrt et * sqrt et = et) by (apply sqrt_sqrt; lra). assert (sqrt et <= / 64). { rewrite <- (sqrt_square (/ 64)) by lra. apply sqrt_le_1_alt. lra. } nra. }
    assert (Q1 : DD <= (1 + 6 * u) * R + 21 / 10 * sqrt et).
    { assert (1 - 4 * u <= (1 - u) ^ 4) by (simpl; nra). assert ((1 - 4 * u) * DD <= (1 - u) ^ 4 * DD) by (apply Rmult_le_compat_r; assumption).
      assert ((1 - 4 * u) * DD <= (1 - 4 * u) * ((1 + 6 * u) * R + 21 / 10 * sqrt et)).
      { assert ((1 + u) * R <= (1 - 4 * u) * (1 + 6 * u) * R) by (apply Rmult_le_compat_r; [lra | nra]). assert (2 * sqrt et <= (1 - 4 * u) * (21 / 10 * sqrt et)) by nra. lra. }
      apply Rmult_le_reg_l with (1 - 4 * u); lra. }
    set (ph := val r / R) in *. assert (phR : ph * R = val r) by (unfold ph, Rdiv; rewrite Rmult_assoc, Rinv_l by lra; ring).
    assert (ph0 : 0 <= ph <= 1). { split; [apply Rmult_le_pos; [exact Pr | left; apply Rinv_0_lt_compat, PR] |]. apply Rmult_le_reg_r with R; [exact PR |]. rewrite phR. unfold R. lra. }
    set (t := vadd (v3 a) (vscale ph (vsub (v3 b) (v3 a)))) in *. assert (Da : dist t (v3 a) = ph * DD).
    { unfold dist. replace (vsub t (v3 a)) with (vscale ph (vsub (v3 b) (v3 a))) by (unfold t; apply V3_eq; unfold vadd, vsub, vscale; cbn [vx vy vz]; ring). apply norm_scale_pos. lra. }
    assert (Db : dist t (v3 b) = (1 - ph) * DD).
    { unfold dist. replace (vsub t (v3 b)) with (vscale (ph - 1) (vsub (v3 b) (v3 a))) by (unfold t; apply V3_eq; unfold vadd, vsub, vscale; cbn [vx vy vz]; ring).
      rewrite norm_scale_abs, <- Rabs_Ropp, Rabs_pos_eq by lra. unfold DD, dist. ring. }
    pose proof (dist_tri3 (w3 p) t (v3 a)) as Ta. pose proof (dist_tri3 (w3 p) t (v3 b)) as Tb. rewrite Da in Ta. rewrite Db in Tb.
    assert (uD : 0 <= u * DD) by (apply Rmult_le_pos; lra). assert (ph * DD <= ph * ((1 + 6 * u) * R + 21 / 10 * sqrt et)) by (apply Rmult_le_compat_l; lra).
    assert ((1 - ph) * DD <= (1 - ph) * ((1 + 6 * u) * R + 21 / 10 * sqrt et)) by (apply Rmult_le_compat_l; lra).
    assert (X1 : ph * ((1 + 6 * u) * R + 21 / 10 * sqrt et) = (1 + 6 * u) * val r + ph * (21 / 10 * sqrt et)) by (rewrite <- phR; ring).
    assert (X2 : (1 - ph) * ((1 + 6 * u) * R + 21 / 10 * sqrt et) = (1 + 6 * u) * val s + (1 - ph) * (21 / 10 * sqrt et)) by (replace (val s) with (R - ph * R) by (rewrite phR; unfold R; ring); ring).
    assert (0 <= ph * sqrt et <= sqrt et) by (split; [apply Rmult_le_pos; lra | rewrite <- (Rmult_1_l (sqrt et)) at 2; apply Rmult_le_compat_r; lra]). unfold M. split; lra.
  Qed.

  (** two spheres of radius zero at the same place *)
  Lemma zero_is (x : bf) : fin x -> val x = 0 -> exists g, x = B754_zero g.
  Proof.
    destruct x as [g | g | | g m e B]; intros Fx V; try discriminate Fx; [exists g; reflexivity |]. exfalso. cbn [B2R] in V. unfold F2R in V. cbn [Fnum Fexp] in V. apply Rmult_integral in V.
    destruct V as [V | V]; [| pose proof (bpow_gt_0 radix2 e); lra]. apply (eq_IZR _ 0) in V. destruct g; discriminate V.
  Qed.
  Lemma same_minus (x y : bf) : fin x -> fin y -> val x = val y -> exists g, Bminus mode_NE y x = B754_zero g.
  Proof.
    intros Fx Fy E. pose proof (Bminus_correct prec emax Hp Hm mode_NE y x Fy Fx) as C. rewrite E, Rminus_diag_eq, round_0, Rabs_R0 in C by (reflexivity || apply valid_rnd_round_mode).
    rewrite Rlt_bool_true in C by apply bpow_gt_0. destruct C as (V & Fz & _). exact (zero_is _ Fz V).
  Qed.
  Lemma sphere_sphere_zero (a b : mat3x1 F) (r s : F) e f (x y : shape F) : fin3 (a : mat3x1 bf) -> fin3 (b : mat3x1 bf) -> v3 a = v3 b -> fin r -> fin s -> val r = 0 -> val s = 0 ->
    mk_sphere a r e x -> mk_sphere b s f y -> exists p, shape_get_intersect x y = Ok (true, Some p) /\ all_nan p.
  Proof.
    intros Fa Fb E Fr Fs Zr Zs Mx My.
    assert (Z0 : forall c : V3, s_ball c 0 c).
    { intro c. unfold s_ball, dist. replace (vsub c c) with vzero by (unfold vsub, vzero; f_equal; ring). rewrite norm_vzero. lra. }
    assert (O1 : owns prec emax lm x (v3 a)) by (eapply own_sphere; [exact Mx | exact Fa | exact Fr | rewrite Zr; apply Z0]).
    assert (O2 : owns prec emax lm y (v3 a)) by (eapply own_sphere; [exact My | exact Fb | exact Fs | rewrite Zs, E; apply Z0]).
    pose proof (owns_meet prec emax lm x y _ O1 O2) as I1. apply sphere_any in Mx. apply sphere_any in My. subst x y. unfold shape_get_intersect, sphere_get_intersect. rewrite I1. cbn [bind negb shape_get_type].
    unfold sphere_sphere. rewrite data_sphere, vec_at_sl. cbn [bind]. rewrite idx3_sl. cbn [bind sp_ori sp_radius].
    destruct a as [[a0 a1 a2]], b as [[b0 b1 b2]]. destruct Fa as (A0 & A1 & A2), Fb as (B0 & B1 & B2). injection E as E0 E1 E2.
    destruct (same_minus a0 b0 A0 B0 E0) as [g0 G0], (same_minus a1 b1 A1 B1 E1) as [g1 G1], (same_minus a2 b2 A2 B2 E2) as [g2 G2].
    destruct (zero_is r Fr Zr) as [gr ->], (zero_is s Fs Zs) as [gs ->].
    assert (Em : mat3x1_minus (M3x1 (A3 b0 b1 b2)) (M3x1 (A3 a0 a1 a2)) = Some (M3x1 (A3 (B754_zero g0 : F) (B754_zero g1 : F) (B754_zero g2 : F)))) by (rewrite <- G0, <- G1, <- G2; reflexivity).
    rewrite Em. cbn [unwrap bind].
    assert (Es : exists g, mat3x1_magnitude (M3x1 (A3 (B754_zero g0 : F) (B754_zero g1 : F) (B754_zero g2 : F))) = Some (B754_zero g : F)) by (destruct g0, g1, g2; eexists; reflexivity).
    destruct Es as [g ->]. cbn [unwrap bind].
    assert (Eg : ngt (B754_zero g : F) (nadd F (B754_zero gs : F) (B754_zero gr : F)) = false) by (destruct gr, gs, g; reflexivity). rewrite Eg.
    assert (Ef : ndiv F (B754_zero gr : F) (nadd F (B754_zero gr : F) (B754_zero gs : F)) = (B754_nan : F)) by (destruct gr, gs; reflexivity). rewrite Ef.
    eexists. split; [reflexivity |]. clear - a0 a1 a2. cbn. destruct a0, a1, a2; repeat split; reflexivity.
  Qed.
End Loc.
