(** PRayR.v — ray against ray in IEEE arithmetic (C105). *)
From Coq Require Import Reals List ZArith NArith Bool Lra Lia Psatz.
From Flocq Require Import Core BinarySingleNaN.
Import ListNotations.
From Verif Require Import Base Num Vec Mat Bound Shape Intersect Float Exact FloatFacts FloatRound ExactFacts Order SpecMat SpecGeom
  SpecBound SpecShape SpecInter SpecRays SpecBuild SpecRound SpecFr PMat PBound PShape PBuild PSim PGeo1 PGeo2 PRays PRound PRound2 PRound3 PIeee1 PIeee2 PIeee3 PIeee5 PIeee6 PPrismF PRayP.
Local Open Scope R_scope.

(** ---- real vectors ---- *)
Lemma vabs_cross_norm a b : norm (V (Rabs (vy a * vz b) + Rabs (vz a * vy b)) (Rabs (vz a * vx b) + Rabs (vx a * vz b)) (Rabs (vx a * vy b) + Rabs (vy a * vx b))) <= 1415 / 1000 * (norm a * norm b).
Proof.
  pose proof (norm_pos a) as A. pose proof (norm_pos b) as B. apply norm_le_sq; [apply Rmult_le_pos; [lra | apply Rmult_le_pos; assumption] |].
  replace (1415 / 1000 * (norm a * norm b) * (1415 / 1000 * (norm a * norm b))) with (2002225 / 1000000 * ((norm a * norm a) * (norm b * norm b))) by field.
  rewrite !norm_sq. unfold vdot. cbn [vx vy vz].
  assert (Q : forall x y, (Rabs x + Rabs y) * (Rabs x + Rabs y) <= 2 * (x * x) + 2 * (y * y)).
  { intros x y. pose proof (Rle_0_sqr (Rabs x - Rabs y)) as S. unfold Rsqr in S. rewrite <- (sqr_abs x), <- (sqr_abs y), !Rabs_mult. lra. }
  pose proof (Q (vy a * vz b) (vz a * vy b)). pose proof (Q (vz a * vx b) (vx a * vz b)). pose proof (Q (vx a * vy b) (vy a * vx b)).
  assert (T : forall x y, 0 <= x * x * (y * y)) by (intros x y; apply Rmult_le_pos; [exact (Rle_0_sqr x) | exact (Rle_0_sqr y)]).
  pose proof (T (vx a) (vx b)). pose proof (T (vx a) (vy b)). pose proof (T (vx a) (vz b)). pose proof (T (vy a) (vx b)). pose proof (T (vy a) (vy b)). pose proof (T (vy a) (vz b)).
  pose proof (T (vz a) (vx b)). pose proof (T (vz a) (vy b)). pose proof (T (vz a) (vz b)). lra.
Qed.
Lemma cross_near a b c d : dist (vcross a b) (vcross c d) <= dist a c * norm b + norm c * dist b d.
Proof.
  unfold dist. replace (vsub (vcross a b) (vcross c d)) with (vadd (vcross (vsub a c) b) (vcross c (vsub b d))) by (apply V3_eq; unfold vsub, vadd, vcross; cbn [vx vy vz]; ring).
  eapply Rle_trans; [apply triangle |]. apply Rplus_le_compat; apply cross_norm_le.
Qed.
Lemma norm_near a b : Rabs (norm a - norm b) <= dist a b.
Proof. apply Rabs_le. pose proof (norm_close a b). pose proof (norm_close b a) as Q. rewrite dist_sym in Q. lra. Qed.
(** |D x G| |G - D| for unit vectors *)
Lemma cross_chord D G : norm D = 1 -> norm G = 1 -> norm (vcross D G) * norm (vsub G D) <= 154 / 100.
Proof.
  intros ND NG. pose proof (norm_sq D) as SD. pose proof (norm_sq G) as SG. rewrite ND in SD. rewrite NG in SG.
  set (x := vdot D G).
  assert (X : x * x <= 1).
  { pose proof (cauchy D G) as C. rewrite ND, NG in C. fold x in C. apply Rabs_le_inv in C. nra. }
  assert (C2 : norm (vcross D G) * norm (vcross D G) = 1 - x * x).
  { rewrite norm_sq. replace (vdot (vcross D G) (vcross D G)) with (vdot D D * vdot G G - vdot D G * vdot D G) by (unfold vdot, vcross; cbn [vx vy vz]; ring). fold x. rewrite <- SD, <- SG. ring. }
  assert (E2 : norm (vsub G D) * norm (vsub G D) = 2 - 2 * x).
  { rewrite norm_sq. replace (vdot (vsub G D) (vsub G D)) with (vdot D D + vdot G G - 2 * vdot D G) by (unfold vdot, vsub; cbn [vx vy vz]; ring). fold x. rewrite <- SD, <- SG. ring. }
  pose proof (norm_pos (vcross D G)) as P1. pose proof (norm_pos (vsub G D)) as P2. set (p := norm (vcross D G)) in *. set (q := norm (vsub G D)) in *.
  assert (PQ : (p * q) * (p * q) <= 64 / 27).
  { replace (p * q * (p * q)) with ((p * p) * (q * q)) by ring. rewrite C2, E2. assert (0 <= (3 * x + 1) * (3 * x + 1) * (5 - 3 * x)) by (apply Rmult_le_pos; [apply (Rle_0_sqr (3 * x + 1)) |]; nra). lra. }
  apply Rnot_lt_le. intro L. assert (154 / 100 * (154 / 100) < p * q * (p * q)) by (apply Rmult_gt_0_lt_compat; lra). lra.
Qed.
Lemma sqrt_near s S ep de : 0 <= s -> 0 <= S -> 0 <= ep <= / 4 -> 0 <= de -> Rabs (s - S) <= ep * S + de -> Rabs (sqrt s - sqrt S) <= ep * sqrt S + sqrt de.
Proof.
  intros Hs HS He Hd H. apply Rabs_le_inv in H. pose proof (sqrt_pos s) as P1. pose proof (sqrt_pos S) as P2. pose proof (sqrt_pos de) as P3.
  pose proof (sqrt_sqrt s Hs) as Q1. pose proof (sqrt_sqrt S HS) as Q2. pose proof (sqrt_sqrt de Hd) as Q3. set (a := sqrt s) in *. set (b := sqrt S) in *. set (c := sqrt de) in *.
  rewrite <- Q1, <- Q2, <- Q3 in H.
  assert (EB : 0 <= ep * b) by (apply Rmult_le_pos; lra). assert (BB : 0 <= b * b) by nra. assert (ep * (b * b) <= / 4 * (b * b)) by (apply Rmult_le_compat_r; lra). assert (0 <= ep * (b * b)) by (apply Rmult_le_pos; lra).
  assert (BC : 0 <= b * c) by (apply Rmult_le_pos; lra). assert (0 <= ep * b * c) by (apply Rmult_le_pos; lra). assert (0 <= (ep * b) * (ep * b)) by nra.
  apply Rabs_le. split.
  - apply Rnot_lt_le. intro L. assert (L' : a + c < (1 - ep) * b) by lra. assert (M : (a + c) * (a + c) < (1 - ep) * b * ((1 - ep) * b)) by (apply Rmult_ge_0_gt_0_lt_compat; lra).
    assert (N : (1 - ep) * b * ((1 - ep) * b) <= (1 - ep) * (b * b)).
    { replace ((1 - ep) * b * ((1 - ep) * b)) with ((1 - ep) * ((1 - ep) * (b * b))) by ring. apply Rmult_le_compat_l; lra. }
    assert (0 <= a * c) by (apply Rmult_le_pos; lra). lra.
  - apply Rnot_lt_le. intro L. assert (L' : b + ep * b + c < a) by lra. nra.
Qed.

Lemma unit_nz v : norm (unit v) = 1 -> v <> vzero.
Proof.
  intros H Z. unfold unit in H. rewrite Z, norm_scale_abs in H. assert (Z0 : norm vzero = 0) by (unfold norm, vdot, vzero; cbn [vx vy vz]; rewrite Rmult_0_l, !Rplus_0_r; apply sqrt_0). rewrite Z0, Rmult_0_r in H. lra.
Qed.

Lemma ray_orthant o d x : s_ray o d x -> s_orthant o d x.
Proof.
  intros [t [Ht ->]].
  assert (A : forall a b, reach a b (a + t * b)) by (intros a b; repeat split; intro H; nra). split; [| split]; apply A.
Qed.

(** ---- the query in any arithmetic ---- *)
Section Form.
  Context {Nm : Num}.
  Local Open Scope num_scope.
  Definition near0 (v : mat3x1 Nm) : bool := let h := nlit Nm 1 10000 in
    (nge (c0 v) (n0 - h) && nle (c0 v) (n0 + h) && nge (c1 v) (n0 - h) && nle (c1 v) (n0 + h) && nge (c2 v) (n0 - h) && nle (c2 v) (n0 + h))%bool.
  Lemma ray_ray_form (o k p l : mat3x1 Nm) (w w' : Nm) (B B' : aabb Nm) :
    shape_get_intersect (SRay (MkRay o k B w)) (SRay (MkRay p l B' w')) =
    (let! bi := ibound_intersect (BBox B) (BBox B') in if negb bi then Ok miss else
     if negb (Shape.within w (vdotn (vcrossn k l) (vminus l k)) n0) then Ok miss else
     if near0 (vcrossn k l) then
       if negb (Shape.within w (vmag (vcrossn k (vminus p o))) n0) then Ok miss else
       let t := (if nlt (vdotn (vminus p o) k) n0 then nlit Nm (-1) 1 else n1) * vmag (vminus p o) / vmag k in
       if nlt t n0 then Ok (true, Some o) else let! q := along k t o in Ok (true, Some q)
     else
       let t := vmag (vcrossn (vminus p o) l) / vmag (vcrossn k l) in
       if nlt t n0 then Ok miss else let! q := along k t o in Ok (true, Some q)).
  Proof. destruct o as [[]], k as [[]], p as [[]], l as [[]]. reflexivity. Qed.
End Form.

Section RayR.
  Context (prec emax : Z) {Hp : Prec_gt_0 prec} {Hm : Prec_lt_emax prec emax} (lm : libm (binary_float prec emax)).
  Notation bf := (binary_float prec emax).
  Notation fmt := (SpecFloat.fexp prec emax).
  Notation rnd := (round radix2 fmt ZnearestE).
  Notation val := (@B2R prec emax).
  Notation fin x := (is_finite (x : bf) = true).
  Notation u := (uro prec).
  Notation et := (eta prec emax).
  Notation fv := (fv prec emax).
  Notation bnd := (bnd prec emax).
  Notation bnd3 := (bnd3 prec emax lm).
  Notation ovf := (ovf emax).
  Notation F := (@Ieee prec emax Hp Hm lm).
  Notation "# a" := (b2x prec emax a) (at level 9).
  Notation w3 v := (v3 (v : mat3x1 bf)).
  Notation wv := (@Shape.within F).

  Lemma cross_v (a b : mat3x1 F) j k : (9 < prec)%Z -> (3 - emax - prec <= j + k)%Z -> (j + k + 1 < emax)%Z -> bnd3 j a -> bnd3 k b ->
    bnd3 (j + k + 1) (vcrossn a b) /\ dist (w3 (vcrossn a b)) (vcross (w3 a) (w3 b)) <= 284 / 100 * u * (norm (w3 a) * norm (w3 b)) + 5 * et.
  Proof.
    intros P K1 K2 Ba Bb. pose proof (u_small prec P) as U. pose proof (u_pos prec) as U0. pose proof (et_pos prec emax) as T0.
    pose proof (vabs_cross_norm (w3 a) (w3 b)) as N. destruct a as [[a0 a1 a2]], b as [[b0 b1 b2]]. destruct Ba as (A0 & A1 & A2), Bb as (B0 & B1 & B2).
    assert (Z1 : (j + k < emax)%Z) by lia.
    assert (D : forall x y z w : F, bnd j x -> bnd k y -> bnd j z -> bnd k w -> bnd (j + k + 1) (Bminus mode_NE (Bmult mode_NE x y) (Bmult mode_NE z w))).
    { intros x y z w X Y Z W. destruct (mult_bnd prec emax j k x y K1 Z1 X Y) as [_ M0]. destruct (mult_bnd prec emax j k z w K1 Z1 Z W) as [_ M1]. exact (proj2 (minus_bnd prec emax (j + k) _ _ K1 K2 M0 M1)). }
    pose proof (D a1 b2 a2 b1 A1 B2 A2 B1) as D0. pose proof (D a2 b0 a0 b2 A2 B0 A0 B2) as D1. pose proof (D a0 b1 a1 b0 A0 B1 A1 B0) as D2. clear D.
    split; [repeat split; try exact (proj1 D0); try exact (proj2 D0); try exact (proj1 D1); try exact (proj2 D1); try exact (proj1 D2); exact (proj2 D2) |].
    destruct (cross_err prec emax lm a0 a1 a2 b0 b1 b2 _ _ _ eq_refl) as (E0 & E1 & E2). specialize (E0 (proj1 D0)). specialize (E1 (proj1 D1)). specialize (E2 (proj1 D2)).
    assert (R2 : forall A, 0 <= A -> err prec emax 2 A <= 2001 / 1000 * u * A + 21 / 10 * et).
    { intros A HA. unfold err. replace (INR 2) with 2 by (simpl; lra). change (2 - 1)%nat with 1%nat. assert ((1 + u) ^ 2 - 1 <= 2001 / 1000 * u) by (simpl; nra).
      assert (((1 + u) ^ 2 - 1) * A <= 2001 / 1000 * u * A) by (apply Rmult_le_compat_r; assumption). assert (2 * (1 + u) ^ 1 * et <= 21 / 10 * et) by (apply Rmult_le_compat_r; [| simpl]; lra). lra. }
    assert (PA : forall x y : R, 0 <= Rabs x + Rabs y) by (intros x y; pose proof (Rabs_pos x); pose proof (Rabs_pos y); lra).
    unfold dist. set (X := V _ _ _) in N.
    pose proof (norm_comb (vsub (w3 (vcrossn (M3x1 (A3 a0 a1 a2)) (M3x1 (A3 b0 b1 b2)))) (vcross (w3 (M3x1 (A3 a0 a1 a2))) (w3 (M3x1 (A3 b0 b1 b2))))) X vzero (2001 / 1000 * u) 0 (21 / 10 * et)) as C.
    assert (Z0 : norm vzero = 0) by (unfold norm, vdot, vzero; cbn [vx vy vz]; rewrite Rmult_0_l, !Rplus_0_r; apply sqrt_0). rewrite Z0 in C.
    eapply Rle_trans; [apply C; try lra |].
    - eapply Rle_trans; [exact E0 |]. eapply Rle_trans; [apply R2, PA |]. unfold X. cbn [vx vy vz v3 vzero]. rewrite (Rabs_pos_eq (Rabs _ + Rabs _)), Rabs_R0 by apply PA. lra.
    - eapply Rle_trans; [exact E1 |]. eapply Rle_trans; [apply R2, PA |]. unfold X. cbn [vx vy vz v3 vzero]. rewrite (Rabs_pos_eq (Rabs _ + Rabs _)), Rabs_R0 by apply PA. lra.
    - eapply Rle_trans; [exact E2 |]. eapply Rle_trans; [apply R2, PA |]. unfold X. cbn [vx vy vz v3 vzero]. rewrite (Rabs_pos_eq (Rabs _ + Rabs _)), Rabs_R0 by apply PA. lra.
    - assert (2001 / 1000 * u * norm X <= 2001 / 1000 * u * (1415 / 1000 * (norm (w3 (M3x1 (A3 a0 a1 a2))) * norm (w3 (M3x1 (A3 b0 b1 b2)))))) by (apply Rmult_le_compat_l; [lra | exact N]).
      assert (0 <= u * (norm (w3 (M3x1 (A3 a0 a1 a2))) * norm (w3 (M3x1 (A3 b0 b1 b2))))) by (apply Rmult_le_pos; [lra | apply Rmult_le_pos; apply norm_pos]). lra.
  Qed.
  Lemma len3_big k (c0 c1 c2 : bf) : (9 < prec)%Z -> (0 <= k)%Z -> (k + k + 1 < emax)%Z -> bnd k c0 -> bnd k c1 -> bnd k c2 ->
    let s := Bplus mode_NE (Bplus mode_NE (Bmult mode_NE c0 c0) (Bmult mode_NE c1 c1)) (Bmult mode_NE c2 c2) in
    fin s /\ 0 <= val s /\ fv (len3 prec emax c0 c1 c2) (rnd (sqrt (val s))).
  Proof.
    intros P K0 K B0 B1 B2 s. assert (HP : (0 < prec)%Z) by exact Hp. assert (HM : (prec < emax)%Z) by exact Hm. pose proof (u_small prec P) as U. pose proof (u_pos prec) as U0.
    destruct (mult_bnd prec emax k k c0 c0 ltac:(lia) ltac:(lia) B0 B0) as [[_ V0] M0]. destruct (mult_bnd prec emax k k c1 c1 ltac:(lia) ltac:(lia) B1 B1) as [[_ V1] M1].
    destruct (mult_bnd prec emax k k c2 c2 ltac:(lia) ltac:(lia) B2 B2) as [[_ V2] M2].
    destruct (plus_bnd prec emax (k + k) _ _ ltac:(lia) ltac:(lia) M0 M1) as [[_ V3] M3].
    assert (Sq : forall x : bf, 0 <= rnd (val x * val x)) by (intro x; apply (rnd_nonneg prec emax), (Rle_0_sqr (val x))).
    pose proof (Sq c0) as S0. pose proof (Sq c1) as S1. pose proof (Sq c2) as S2. rewrite <- V0 in S0. rewrite <- V1 in S1. rewrite <- V2 in S2.
    assert (S3 : 0 <= val (Bplus mode_NE (Bmult mode_NE c0 c0) (Bmult mode_NE c1 c1))) by (rewrite V3; apply (rnd_nonneg prec emax); lra).
    set (x := Bplus mode_NE (Bmult mode_NE c0 c0) (Bmult mode_NE c1 c1)) in *. set (y := Bmult mode_NE c2 c2) in *.
    destruct M3 as [F3 L3], M2 as [F2 L2]. rewrite Rabs_pos_eq in L3, L2 by assumption. rewrite bpow_plus in L3. change (bpow radix2 1) with 2 in L3.
    assert (BB : Rabs (rnd (val x + val y)) < bpow radix2 emax).
    { apply Rlt_le_trans with (bpow radix2 (k + k + 2)); [| apply bpow_le; lia]. rewrite bpow_plus. change (bpow radix2 2) with 4. pose proof (bpow_gt_0 radix2 (k + k)) as Z.
      destruct (plus_rel prec emax x y) as [e [He Re]]. rewrite Re, Rabs_mult, (Rabs_pos_eq (val x + val y)) by lra.
      assert (Rabs (1 + e) <= 1 + u) by (eapply Rle_trans; [apply Rabs_triang |]; rewrite Rabs_R1; lra).
      apply Rle_lt_trans with ((3 * bpow radix2 (k + k)) * (1 + u)); [apply Rmult_le_compat; [lra | apply Rabs_pos | lra | assumption] |].
      assert (u * bpow radix2 (k + k) <= / 1024 * bpow radix2 (k + k)) by (apply Rmult_le_compat_r; lra). lra. }
    destruct (proj1 (plus_round prec emax x y F3 F2) BB) as [Fs Vs]. fold s in Fs, Vs. split; [exact Fs |].
    assert (Ps : 0 <= val s) by (rewrite Vs; apply (rnd_nonneg prec emax); lra). split; [exact Ps |]. exact (sqrt_ok prec emax s Fs Ps).
  Qed.
  Lemma mag_v (c : mat3x1 F) k : (9 < prec)%Z -> (0 <= k)%Z -> (k + k + 1 < emax)%Z -> bnd3 k c ->
    fin (vmag c) /\ 0 <= val (vmag c) /\ Rabs (val (vmag c) - norm (w3 c)) <= 41 / 10 * u * norm (w3 c) + 3 * sqrt et.
  Proof.
    intros P K0 K B. destruct c as [[a b c]]. destruct B as (B0 & B1 & B2). pose proof (u_small prec P) as U. pose proof (u_pos prec) as U0. pose proof (et_pos prec emax) as T0. pose proof (et_small prec emax P) as Ts.
    destruct (len3_big k a b c P K0 K B0 B1 B2) as (Fs & Ps & [Fl Vl]). set (s := Bplus mode_NE _ _) in *.
    change (vmag (M3x1 (A3 a b c))) with (len3 prec emax a b c : F). split; [exact Fl |]. rewrite Vl. split; [apply (rnd_nonneg prec emax), sqrt_pos |].
    destruct (sum3_approx prec emax a a b b c c Fs) as [[_ Es] _]. fold s in Es.
    set (n := w3 (M3x1 (A3 a b c))). assert (SS : val a * val a + val b * val b + val c * val c = vdot n n) by reflexivity. rewrite SS in Es.
    replace (Rabs (val a * val a) + Rabs (val b * val b) + Rabs (val c * val c)) with (vdot n n) in Es by (rewrite !sqr_abs; symmetry; exact SS).
    assert (Pn : 0 <= vdot n n) by (rewrite <- norm_sq; apply (Rle_0_sqr (norm n))).
    assert (Es' := Rle_trans _ _ _ Es (err3_small prec emax (vdot n n) P Pn)). pose proof (sqrt_near (val s) (vdot n n) (301 / 100 * u) (4 * et) Ps Pn ltac:(lra) ltac:(lra) Es') as Q. fold (norm n) in Q.
    replace (sqrt (4 * et)) with (2 * sqrt et) in Q by (rewrite sqrt_mult_alt by lra; replace 4 with (2 * 2) by ring; rewrite sqrt_square by lra; reflexivity).
    destruct (rnd_err prec emax (sqrt (val s))) as (e & h & He & Hh & E). rewrite E. pose proof (norm_pos n) as N0. pose proof (sqrt_pos et) as R0. pose proof (sqrt_sqrt et (Rlt_le _ _ T0)) as RR. set (r := sqrt et) in *. set (q := sqrt (val s)) in *.
    assert (r <= / 16) by (apply Rnot_lt_le; intro; nra). assert (et <= / 16 * r) by nra. assert (Q0 : 0 <= q) by apply sqrt_pos.
    assert (Qb : q <= norm n + (301 / 100 * u * norm n + 2 * r)) by (apply Rabs_le_inv in Q; lra).
    assert (QE : Rabs (q * e) <= u * (norm n + (301 / 100 * u * norm n + 2 * r))) by (rewrite Rabs_mult, Rmult_comm; apply Rmult_le_compat; try apply Rabs_pos; [exact He | rewrite Rabs_pos_eq by exact Q0; exact Qb]).
    assert (UN : 0 <= u * norm n) by (apply Rmult_le_pos; lra). assert (u * (u * norm n) <= / 1024 * (u * norm n)) by (apply Rmult_le_compat_r; lra). assert (u * r <= / 1024 * r) by (apply Rmult_le_compat_r; lra).
    replace (q * (1 + e) + h - norm n) with ((q - norm n) + q * e + h) by ring. eapply Rle_trans; [apply Rabs_triang |]. eapply Rle_trans; [apply Rplus_le_compat_r, Rabs_triang |]. lra.
  Qed.
  Lemma minus_v (p o : mat3x1 F) k : (9 < prec)%Z -> (3 - emax - prec <= k)%Z -> (k + 1 < emax)%Z -> bnd3 k p -> bnd3 k o ->
    bnd3 (k + 1) (vminus p o) /\ dist (w3 (vminus p o)) (vsub (w3 p) (w3 o)) <= u * dist (w3 p) (w3 o).
  Proof.
    intros P K1 K2 Bp Bo. destruct p as [[p0 p1 p2]], o as [[o0 o1 o2]]. destruct Bp as (P0 & P1 & P2), Bo as (O0 & O1 & O2).
    destruct (diff_axis prec emax lm p0 o0 k P K1 K2 P0 O0) as (F0 & E0 & L0). destruct (diff_axis prec emax lm p1 o1 k P K1 K2 P1 O1) as (F1 & E1 & L1). destruct (diff_axis prec emax lm p2 o2 k P K1 K2 P2 O2) as (F2 & E2 & L2).
    split; [repeat split; assumption |]. unfold dist at 1 2. set (y := vsub (w3 (M3x1 (A3 p0 p1 p2))) (w3 (M3x1 (A3 o0 o1 o2)))).
    pose proof (u_pos prec) as U0. rewrite <- norm_scale_pos, <- norm_vabs by lra. rewrite <- (norm_vabs (vscale u y)).
    apply norm_mono; unfold vabs, vscale, y; cbn [vx vy vz vsub v3 vminus c0 c1 c2]; rewrite Rabs_Rabsolu, (Rabs_mult u), (Rabs_pos_eq u) by lra; assumption.
  Qed.
  (** ---- the bounds ---- *)
  Lemma rl_x (o d : F) : fin o -> fin d -> #(rl d o) = rlo 0 (fun _ => true) (val o) (val d) /\ #(ru d o) = rup 0 (fun _ => true) (val o) (val d).
  Proof.
    intros Fo Fd. unfold rl, ru, rlo, rup. pose proof (ngt_F prec emax lm d n0) as G. pose proof (nlt_F prec emax lm d n0) as L. rewrite n0_x, (fin_x prec emax d Fd) in G, L. change (xlt (Fin 0) (Fin (val d))) with (0 < val d) in G. change (xlt (Fin (val d)) (Fin 0)) with (val d < 0) in L.
    destruct (ngt d n0) eqn:Eg; [| destruct (nlt d n0) eqn:El].
    - assert (0 < val d) by (apply G; reflexivity). destruct (Rlt_dec 0 (val d)); [| contradiction]. rewrite (fin_x prec emax o Fo). split; reflexivity.
    - assert (val d < 0) by (apply L; reflexivity). destruct (Rlt_dec 0 (val d)); [lra |]. destruct (Rlt_dec (val d) 0); [| contradiction]. rewrite (fin_x prec emax o Fo). split; reflexivity.
    - assert (~ 0 < val d) by (intro H; apply G in H; discriminate). assert (~ val d < 0) by (intro H'; apply L in H'; discriminate). destruct (Rlt_dec 0 (val d)); [contradiction |]. destruct (Rlt_dec (val d) 0); [contradiction |].
      rewrite (fin_x prec emax o Fo). split; reflexivity.
  Qed.
  Lemma axis_meet (o d p g : F) : fin o -> fin d -> fin p -> fin g ->
    ((ngt (rl d o) (ru g p) || nlt (ru d o) (rl g p))%bool = false <-> exists x, reach (val o) (val d) x /\ reach (val p) (val g) x).
  Proof.
    intros Fo Fd Fp Fg. destruct (rl_x o d Fo Fd) as [A1 A2], (rl_x p g Fp Fg) as [B1 B2]. rewrite orb_false_iff.
    assert (N : forall x y, rlo 0 (fun _ => true) x y <> NaN /\ rup 0 (fun _ => true) x y <> NaN) by (intros x y; unfold rlo, rup; destruct (Rlt_dec _ _); [| destruct (Rlt_dec _ _)]; split; discriminate).
    assert (Q1 : ngt (rl d o) (ru g p) = false <-> xle #(rl d o) #(ru g p)).
    { rewrite <- not_true_iff_false, (ngt_F prec emax lm), A1, B2. symmetry. apply xle_nlt; apply N. }
    assert (Q2 : nlt (ru d o) (rl g p) = false <-> xle #(rl g p) #(ru d o)).
    { rewrite <- not_true_iff_false, (nlt_F prec emax lm), A2, B1. symmetry. apply xle_nlt; apply N. }
    rewrite Q1, Q2, A1, A2, B1, B2. split.
    - intros [H K]. exact (reach_common 0 (fun _ => true) _ _ _ _ H K).
    - intros [x [H K]]. apply (reach_iff 0 (fun _ => true)) in H, K. destruct H as [H1 H2], K as [K1 K2]. split; eapply xle_trans; eassumption.
  Qed.
  Lemma rays_overlap (o d p g : mat3x1 F) : fin3 (o : mat3x1 bf) -> fin3 (d : mat3x1 bf) -> fin3 (p : mat3x1 bf) -> fin3 (g : mat3x1 bf) ->
    exists b, ibound_intersect (BBox (ray_any o d)) (BBox (ray_any p g)) = Ok b /\ (b = true <-> meets (s_orthant (w3 o) (w3 d)) (s_orthant (w3 p) (w3 g))).
  Proof.
    destruct o as [[o0 o1 o2]], d as [[d0 d1 d2]], p as [[p0 p1 p2]], g as [[g0 g1 g2]]. intros (A0 & A1 & A2) (B0 & B1 & B2) (C0 & C1 & C2) (D0 & D1 & D2).
    eexists. split; [cbn [ibound_intersect]; apply intersect_eval |]. rewrite !andb_true_iff, !negb_true_iff.
    change (apart (ray_any (M3x1 (A3 o0 o1 o2) : mat3x1 F) (M3x1 (A3 d0 d1 d2))) (ray_any (M3x1 (A3 p0 p1 p2)) (M3x1 (A3 g0 g1 g2))) 0) with (ngt (rl d0 o0) (ru g0 p0) || nlt (ru d0 o0) (rl g0 p0))%bool.
    change (apart (ray_any (M3x1 (A3 o0 o1 o2) : mat3x1 F) (M3x1 (A3 d0 d1 d2))) (ray_any (M3x1 (A3 p0 p1 p2)) (M3x1 (A3 g0 g1 g2))) 1) with (ngt (rl d1 o1) (ru g1 p1) || nlt (ru d1 o1) (rl g1 p1))%bool.
    change (apart (ray_any (M3x1 (A3 o0 o1 o2) : mat3x1 F) (M3x1 (A3 d0 d1 d2))) (ray_any (M3x1 (A3 p0 p1 p2)) (M3x1 (A3 g0 g1 g2))) 2) with (ngt (rl d2 o2) (ru g2 p2) || nlt (ru d2 o2) (rl g2 p2))%bool.
    rewrite !axis_meet by assumption. split.
    - intros [[[x [X X']] [y [Y Y']]] [z [Z Z']]]. exists (V x y z). split; (split; [| split]); assumption.
    - intros [x [(H0 & H1 & H2) (K0 & K1 & K2)]]. split; [split |]; eexists; split; eassumption.
  Qed.
  (** ---- the tests ---- *)
  Lemma wv0 (w t : F) : fin w -> fin t -> (wv w t n0 = true <-> - val w <= val t <= val w).
  Proof.
    intros Fw Ft. rewrite wv_x. cbn [nadd nsub Ieee]. rewrite (plus_x prec emax t w Ft Fw), (minus_x prec emax t w Ft Fw), n0_x.
    destruct (@fv_lit_0 prec emax Hp Hm) as [F0 V0]. set (z := @f_lit prec emax Hp Hm 0 1) in *. rewrite <- V0. split.
    - intros [H1 H2]. apply ovf_ge in H1. apply ovf_le in H2. rewrite V0 in H1, H2.
      destruct (plus_rel prec emax t w) as [e [He Re]]. destruct (minus_rel prec emax t w) as [f [Hf Rf]]. rewrite Re in H1. rewrite Rf in H2.
      pose proof (u_half prec) as U. apply Rabs_le_inv in He, Hf. split; apply Rnot_lt_le; intro L; nra.
    - intros [H1 H2]. split; [apply (val_le_ovf prec emax) | apply (ovf_le_val prec emax)]; rewrite V0; lra.
  Qed.
  Lemma lit_tol : (23 < prec)%Z -> fin (nlit F 1 10000) /\ Rabs (val (nlit F 1 10000) - 1 / 10000) <= / 100000000.
  Proof.
    intro P. assert (HM : (prec < emax)%Z) by exact Hm. assert (Q : (2 ^ 20 <= 2 ^ prec)%Z) by (apply Z.pow_le_mono_r; lia). assert (Q1 : (2 ^ prec <= 2 ^ emax)%Z) by (apply Z.pow_le_mono_r; lia).
    change (2 ^ 20)%Z with 1048576%Z in Q.
    destruct (lit_ok prec emax 1 10000) as [Fl Vl]; [left; lia | apply (f_int_fmt prec emax 1 1 0); lia | apply (f_int_fmt prec emax 10000 10000 0); lia |].
    change (nlit F 1 10000) with (@f_lit prec emax Hp Hm 1 10000). split; [exact Fl |]. rewrite Vl.
    destruct (rnd_rel prec emax (1 / 10000)) as (e & He & Ee).
    - rewrite Rabs_pos_eq by lra. apply Rle_trans with (bpow radix2 (-14)); [apply bpow_le; lia | change (bpow radix2 (-14)) with (/ 16384); lra].
    - change (IZR 1 / IZR (Zpos 10000)) with (1 / 10000). rewrite Ee. assert (U : u <= / 16777216) by (unfold uro; change (/ 16777216) with (bpow radix2 (-24)); apply bpow_le; lia).
      apply Rabs_le_inv in He. apply Rabs_le. lra.
  Qed.
  Lemma near0_iff (v : mat3x1 F) : fin3 (v : mat3x1 bf) -> fin (nlit F 1 10000) -> let h := val (nlit F 1 10000) in
    (near0 v = true <-> Rabs (vx (w3 v)) <= h /\ Rabs (vy (w3 v)) <= h /\ Rabs (vz (w3 v)) <= h).
  Proof.
    destruct v as [[a b c]]. intros (Fa & Fb & Fc) Fh. unfold near0. cbn [c0 c1 c2]. set (h := nlit F 1 10000) in *. cbv zeta.
    assert (L1 : #(nsub F n0 h) = Fin (- val h)).
    { cbn [nsub Ieee]. destruct (@fv_lit_0 prec emax Hp Hm) as [F0 V0]. change (@n0 F) with (@f_lit prec emax Hp Hm 0 1). rewrite (minus_x prec emax _ h F0 Fh), V0.
      replace (0 - val h) with (val (Bopp h)) by (rewrite B2R_Bopp; ring). rewrite (rnd_B2R prec emax). unfold PIeee1.ovf. rewrite B2R_Bopp, Rabs_Ropp. pose proof (B2R_lt_emax prec emax h). destruct (Rlt_dec _ _); [reflexivity | contradiction]. }
    assert (L2 : #(nadd F n0 h) = Fin (val h)).
    { cbn [nadd Ieee]. destruct (@fv_lit_0 prec emax Hp Hm) as [F0 V0]. change (@n0 F) with (@f_lit prec emax Hp Hm 0 1). rewrite (plus_x prec emax _ h F0 Fh), V0.
      replace (0 + val h) with (val h) by ring. rewrite (rnd_B2R prec emax). unfold PIeee1.ovf. pose proof (B2R_lt_emax prec emax h). destruct (Rlt_dec _ _); [reflexivity | contradiction]. }
    assert (A : forall x : F, fin x -> (nge x (nsub F n0 h) = true <-> - val h <= val x) /\ (nle x (nadd F n0 h) = true <-> val x <= val h)).
    { intros x Fx. rewrite (nge_iff (ieee_ordered prec emax lm)), (nle_iff (ieee_ordered prec emax lm)). cbn [emb ieee_ordered]. rewrite L1, L2, (fin_x prec emax x Fx). split; reflexivity. }
    rewrite !andb_true_iff. destruct (A a Fa) as [-> ->], (A b Fb) as [-> ->], (A c Fc) as [-> ->]. unfold v3. cbn [vx vy vz].
    assert (Q : forall x k, Rabs x <= k <-> - k <= x /\ x <= k) by (intros x k; split; [apply Rabs_le_inv | apply Rabs_le]). rewrite !Q. tauto.
  Qed.

  (** ---- two rays ---- *)
  Lemma et_root : sqrt et <= 15 / 10 * u.
  Proof.
    pose proof (u_pos prec) as U0. rewrite <- (sqrt_square (15 / 10 * u)) by lra. apply sqrt_le_1_alt. rewrite (et_u prec emax).
    assert (bpow radix2 (2 - emax) <= 2 * u).
    { unfold uro. change 2 with (bpow radix2 1) at 1. rewrite <- bpow_plus. apply bpow_le. assert (HM : (prec < emax)%Z) by exact Hm. lia. }
    assert (u * bpow radix2 (2 - emax) <= u * (2 * u)) by (apply Rmult_le_compat_l; lra). assert (0 <= u * u) by nra. lra.
  Qed.
  Lemma et_le_root : (9 < prec)%Z -> et <= / 16 * sqrt et.
  Proof.
    intro P. pose proof (et_pos prec emax) as T0. pose proof (et_small prec emax P) as Ts. pose proof (u_small prec P) as U. pose proof (sqrt_pos et) as R0. pose proof (sqrt_sqrt et (Rlt_le _ _ T0)) as RR.
    assert (sqrt et <= / 16) by (apply Rnot_lt_le; intro; nra). nra.
  Qed.
  Notation half := (bpow radix2 (emax / 2 - 3)).
  Lemma half_ge : (9 < prec)%Z -> 4 <= half.
  Proof. intro P. change 4 with (bpow radix2 2). apply bpow_le. pose proof (half_k prec emax P). assert (HM : (prec < emax)%Z) by exact Hm. assert (5 <= emax / 2)%Z by (apply Z.div_le_lower_bound; lia). lia. Qed.

  Section Moment.
    Variables (k : mat3x1 F) (D : V3) (e : mat3x1 F) (dl : V3) (R : R).
    Hypotheses (P : (9 < prec)%Z) (Bk : bnd3 1 k) (Dk : dist (w3 k) D <= 8 * u) (ND : norm D = 1) (Be : bnd3 (emax / 2 - 2) e) (De : dist (w3 e) dl <= u * R) (Nd : norm dl = R) (Rb : R <= 347 / 100 * half).
    Lemma nk : norm (w3 k) <= 101 / 100. Proof. pose proof (u_small prec P). pose proof (norm_close (w3 k) D). lra. Qed.
    Lemma R0 : 0 <= R. Proof. rewrite <- Nd. apply norm_pos. Qed.
    Lemma ne : norm (w3 e) <= (1 + u) * R. Proof. pose proof (norm_close (w3 e) dl). lra. Qed.
    Lemma moment_core (n : mat3x1 F) N : bnd3 (emax / 2 - 2 + 1 + 1) n -> dist (w3 n) N <= 284 / 100 * u * (norm (w3 e) * norm (w3 k)) + 5 * et + (u * R * norm (w3 k) + R * (8 * u)) -> norm N <= R ->
      fin (vmag n) /\ 0 <= val (vmag n) /\ Rabs (val (vmag n) - norm N) <= 17 * u * R + 4 * sqrt et.
    Proof.
      intros Bn Dn Nn. pose proof (u_small prec P) as U. pose proof (u_pos prec) as U0. pose proof (et_pos prec emax) as T0. pose proof (et_le_root P) as Ts. pose proof (sqrt_pos et) as S0. pose proof et_root as Sr.
      pose proof nk as K. pose proof ne as E. pose proof R0 as Z. pose proof (norm_pos (w3 k)) as K0. pose proof (norm_pos (w3 e)) as E0. pose proof (half_ge P) as H4. pose proof (half_k prec emax P) as [Hk1 Hk2]. assert (HM : (prec < emax)%Z) by exact Hm.
      assert (UR : 0 <= u * R) by (apply Rmult_le_pos; lra). assert (UR' : u * R <= / 1024 * R) by (apply Rmult_le_compat_r; lra). assert (UUR : u * (u * R) <= / 1024 * (u * R)) by (apply Rmult_le_compat_r; lra).
      assert (EK : norm (w3 e) * norm (w3 k) <= (1 + u) * R * (101 / 100)) by (apply Rmult_le_compat; lra).
      assert (A1 : 284 / 100 * u * (norm (w3 e) * norm (w3 k)) <= 284 / 100 * u * ((1 + u) * R * (101 / 100))) by (apply Rmult_le_compat_l; lra).
      assert (A2 : u * R * norm (w3 k) <= u * R * (101 / 100)) by (apply Rmult_le_compat_l; lra).
      assert (A : dist (w3 n) N <= 12 * u * R + 5 * et) by lra. clear A1 A2 EK Dn.
      assert (Cn : norm (w3 n) <= R + 12 * u * R + 5 * et) by (pose proof (norm_close (w3 n) N); lra).
      assert (Bn' : bnd3 (emax / 2 - 1) n).
      { pose proof (abs_comp_norm (w3 n)) as C. destruct n as [[n0 n1 n2]]. destruct Bn as ([F0 _] & [F1 _] & [F2 _]). destruct C as (C0 & C1 & C2).
        assert (L : bpow radix2 (emax / 2 - 1) = 4 * half) by (replace (emax / 2 - 1)%Z with (emax / 2 - 3 + 2)%Z by ring; rewrite bpow_plus; change (bpow radix2 2) with 4; ring).
        assert (norm (w3 (M3x1 (A3 n0 n1 n2))) <= 4 * half) by lra.
        split; [| split]; (split; [assumption |]); rewrite L; eapply Rle_trans; try eassumption; cbn [vx vy vz v3]; lra. }
      destruct (mag_v n (emax / 2 - 1) P ltac:(lia) ltac:(clear - Hk1 Hk2 HM; lia) Bn') as (Fm & Pm & Em). split; [exact Fm |]. split; [exact Pm |].
      pose proof (norm_near (w3 n) N) as Q. pose proof (norm_pos (w3 n)) as Nn0.
      assert (B1 : 41 / 10 * u * norm (w3 n) <= 41 / 10 * u * (R + 12 * u * R + 5 * et)) by (apply Rmult_le_compat_l; lra).
      assert (B2 : u * et <= / 1024 * et) by (apply Rmult_le_compat_r; lra).
      replace (val (vmag n) - norm N) with ((val (vmag n) - norm (w3 n)) + (norm (w3 n) - norm N)) by ring. eapply Rle_trans; [apply Rabs_triang |]. lra.
    Qed.
    Lemma moment_r : let n := vcrossn e k in fin (vmag n) /\ 0 <= val (vmag n) /\ Rabs (val (vmag n) - norm (vcross dl D)) <= 17 * u * R + 4 * sqrt et.
    Proof.
      pose proof (half_k prec emax P) as [Hk1 Hk2]. assert (HM : (prec < emax)%Z) by exact Hm. pose proof R0 as Z. pose proof (u_pos prec) as U0.
      destruct (cross_v e k (emax / 2 - 2) 1 P ltac:(lia) ltac:(lia) Be Bk) as [Bn En]. apply moment_core; [exact Bn | |].
      - eapply Rle_trans; [apply (dist_tri3 _ (vcross (w3 e) (w3 k)))|]. pose proof (cross_near (w3 e) (w3 k) dl D) as C. rewrite Nd in C.
        assert (dist (w3 e) dl * norm (w3 k) <= u * R * norm (w3 k)) by (apply Rmult_le_compat_r; [apply norm_pos | exact De]). assert (R * dist (w3 k) D <= R * (8 * u)) by (apply Rmult_le_compat_l; assumption). lra.
      - eapply Rle_trans; [apply cross_norm_le |]. rewrite Nd, ND. lra.
    Qed.
    Lemma moment_l : let n := vcrossn k e in fin (vmag n) /\ 0 <= val (vmag n) /\ Rabs (val (vmag n) - norm (vcross D dl)) <= 17 * u * R + 4 * sqrt et.
    Proof.
      pose proof (half_k prec emax P) as [Hk1 Hk2]. assert (HM : (prec < emax)%Z) by exact Hm. pose proof R0 as Z. pose proof (u_pos prec) as U0.
      destruct (cross_v k e 1 (emax / 2 - 2) P ltac:(lia) ltac:(lia) Bk Be) as [Bn En]. apply moment_core.
      - replace (emax / 2 - 2 + 1 + 1)%Z with (1 + (emax / 2 - 2) + 1)%Z by ring. exact Bn.
      - eapply Rle_trans; [apply (dist_tri3 _ (vcross (w3 k) (w3 e)))|].
        assert (C : dist (vcross (w3 k) (w3 e)) (vcross D dl) <= u * R * norm (w3 k) + R * (8 * u)).
        { pose proof (cross_near (w3 e) (w3 k) dl D) as C. rewrite Nd in C.
          assert (EQ : dist (vcross (w3 k) (w3 e)) (vcross D dl) = dist (vcross (w3 e) (w3 k)) (vcross dl D)).
          { unfold dist. replace (vsub (vcross (w3 k) (w3 e)) (vcross D dl)) with (vscale (-1) (vsub (vcross (w3 e) (w3 k)) (vcross dl D))) by (apply V3_eq; unfold vscale, vsub, vcross; cbn [vx vy vz]; ring).
            rewrite norm_scale_abs, Rabs_left by lra. ring. }
          rewrite EQ. assert (dist (w3 e) dl * norm (w3 k) <= u * R * norm (w3 k)) by (apply Rmult_le_compat_r; [apply norm_pos | exact De]). assert (R * dist (w3 k) D <= R * (8 * u)) by (apply Rmult_le_compat_l; assumption). lra. }
        rewrite (Rmult_comm (norm (w3 e))). lra.
      - eapply Rle_trans; [apply cross_norm_le |]. rewrite Nd, ND. lra.
    Qed.
  End Moment.

  Section Two.
    Variables (o d p g : mat3x1 F).
    Hypotheses (P : (9 < prec)%Z) (Mo : moderate (o : mat3x1 bf)) (Gd : good_normal (d : mat3x1 bf)) (Mp : moderate (p : mat3x1 bf)) (Gg : good_normal (g : mat3x1 bf)).
    Notation k := (nrm d). Notation l := (nrm g). Notation D := (unit (w3 d)). Notation G := (unit (w3 g)).
    Notation v := (vcrossn k l). Notation e := (vminus p o). Notation R := (dist (w3 p) (w3 o)). Notation dl := (vsub (w3 p) (w3 o)).
    Lemma tk : bnd3 1 k /\ dist (w3 k) D <= 8 * u /\ norm D = 1. Proof. exact (nrm_ieee prec emax lm d P Gd). Qed.
    Lemma tl : bnd3 1 l /\ dist (w3 l) G <= 8 * u /\ norm G = 1. Proof. exact (nrm_ieee prec emax lm g P Gg). Qed.
    Lemma te : bnd3 (emax / 2 - 2) e /\ dist (w3 e) dl <= u * R.
    Proof.
      pose proof (half_k prec emax P) as [Hk1 Hk2]. destruct (minus_v p o (emax / 2 - 3) P ltac:(lia) ltac:(lia) (moderate_bnd3 prec emax lm p Mp) (moderate_bnd3 prec emax lm o Mo)) as [B E].
      replace (emax / 2 - 2)%Z with (emax / 2 - 3 + 1)%Z by ring. split; assumption.
    Qed.
    Lemma tR : 0 <= R <= 347 / 100 * half.
    Proof.
      split; [apply norm_pos |]. pose proof (bpow_gt_0 radix2 (emax / 2 - 3)) as L. set (h := half) in *. unfold dist. apply norm_le_sq; [lra |].
      destruct Mo as [_ Lo], Mp as [_ Lp]. destruct o as [[o0 o1 o2]], p as [[p0 p1 p2]]. destruct Lo as (A0 & A1 & A2), Lp as (B0 & B1 & B2). fold h in A0, A1, A2, B0, B1, B2.
      assert (Q : forall x y, Rabs x <= h -> Rabs y <= h -> (y - x) * (y - x) <= 4 * (h * h)).
      { intros x y X Y. apply Rabs_le_inv in X, Y. assert (Z : Rabs (y - x) <= 2 * h) by (apply Rabs_le; lra). apply sq_abs_le in Z. lra. }
      pose proof (Q _ _ A0 B0). pose proof (Q _ _ A1 B1). pose proof (Q _ _ A2 B2). assert (0 <= h * h) by nra. unfold vdot, vsub, v3. cbn [vx vy vz]. lra.
    Qed.
    Lemma tv : bnd3 3 v /\ dist (w3 v) (vcross (w3 k) (w3 l)) <= 291 / 100 * u /\ dist (w3 v) (vcross D G) <= 192 / 10 * u.
    Proof.
      destruct tk as (Bk & Dk & ND), tl as (Bl & Dl & NG). pose proof (u_small prec P) as U. pose proof (u_pos prec) as U0. pose proof (et_small prec emax P) as Ts. assert (HM : (prec < emax)%Z) by exact Hm.
      pose proof (norm_close (w3 k) D) as Nk. pose proof (norm_close (w3 l) G) as Nl. pose proof (norm_pos (w3 k)) as Nk0. pose proof (norm_pos (w3 l)) as Nl0.
      destruct (cross_v k l 1 1 P ltac:(lia) ltac:(lia) Bk Bl) as [Bv Ev]. split; [exact Bv |].
      assert (KL : norm (w3 k) * norm (w3 l) <= 10158 / 10000) by (apply Rle_trans with ((1007827 / 1000000) * (1007827 / 1000000)); [apply Rmult_le_compat; lra | lra]).
      assert (A : 284 / 100 * u * (norm (w3 k) * norm (w3 l)) <= 284 / 100 * u * (10158 / 10000)) by (apply Rmult_le_compat_l; lra).
      assert (A' : dist (w3 v) (vcross (w3 k) (w3 l)) <= 291 / 100 * u) by lra.
      pose proof (cross_near (w3 k) (w3 l) D G) as C. rewrite ND in C. assert (dist (w3 k) D * norm (w3 l) <= 8 * u * (1007827 / 1000000)) by (apply Rmult_le_compat; try apply norm_pos; lra).
      split; [lra |]. eapply Rle_trans; [apply (dist_tri3 _ (vcross (w3 k) (w3 l))) |]. lra.
    Qed.
    (** the computed v . (b - a) is a rounding error *)
    Lemma tdot : fin (vdotn v (vminus l k)) /\ Rabs (val (vdotn v (vminus l k))) <= 14 * u.
    Proof.
      destruct tk as (Bk & Dk & ND), tl as (Bl & Dl & NG). destruct tv as (Bv & Ev & Ev'). pose proof (u_small prec P) as U. pose proof (u_pos prec) as U0. pose proof (et_pos prec emax) as T0. pose proof (et_small prec emax P) as Ts. assert (HM : (prec < emax)%Z) by exact Hm.
      destruct (minus_v l k 1 P ltac:(lia) ltac:(lia) Bl Bk) as [Bc Ec]. set (c := vminus l k) in *.
      destruct (dot_v prec emax lm v c 3 (1 + 1) P ltac:(lia) ltac:(lia) Bv Bc) as (t & Et & Ft & Vt). rewrite dot_e in Et. injection Et as <-. split; [exact Ft |].
      pose proof (cross_chord D G ND NG) as XY. set (X := norm (vcross D G)) in *. set (Y := norm (vsub G D)) in *.
      assert (X1 : 0 <= X <= 1) by (split; [apply norm_pos |]; unfold X; pose proof (cross_norm_le D G) as Q; rewrite ND, NG in Q; lra).
      assert (Y1 : 0 <= Y <= 2).
      { split; [apply norm_pos |]. unfold Y. pose proof (norm_close (vsub G D) G) as Q. assert (dist (vsub G D) G = norm D).
        { unfold dist. replace (vsub (vsub G D) G) with (vscale (-1) D) by (apply V3_eq; unfold vsub, vscale; cbn [vx vy vz]; ring). rewrite norm_scale_abs, Rabs_left by lra. ring. }
        lra. }
      (* sizes *)
      assert (Slk : dist (w3 l) (w3 k) <= Y + 16 * u).
      { change Y with (dist G D). pose proof (dist_tri3 (w3 l) G (w3 k)). pose proof (dist_tri3 G D (w3 k)) as Q. rewrite (dist_sym D) in Q. lra. }
      pose proof (norm_pos (vsub (w3 l) (w3 k))) as Slk0. fold (dist (w3 l) (w3 k)) in Slk0.
      assert (Sc : norm (w3 c) <= (1 + u) * (Y + 16 * u)).
      { pose proof (norm_close (w3 c) (vsub (w3 l) (w3 k))) as Q. fold (dist (w3 l) (w3 k)) in Q. assert (u * dist (w3 l) (w3 k) <= u * (Y + 16 * u)) by (apply Rmult_le_compat_l; lra). lra. }
      assert (uu : u * u <= / 1024 * u) by (apply Rmult_le_compat_r; lra). assert (uY : u * Y <= 2 * u) by nra.
      assert (Sc' : norm (w3 c) <= Y + 182 / 10 * u) by nra.
      assert (Sv : norm (w3 v) <= X + 192 / 10 * u) by (pose proof (norm_close (w3 v) (vcross D G)) as Q; fold X in Q; lra).
      assert (Sw : norm (vcross (w3 k) (w3 l)) <= X + 162 / 10 * u).
      { pose proof (norm_close (vcross (w3 k) (w3 l)) (vcross D G)) as Q. fold X in Q. pose proof (cross_near (w3 k) (w3 l) D G) as C. rewrite ND in C. pose proof (norm_close (w3 l) G) as Nl.
        assert (dist (w3 k) D * norm (w3 l) <= 8 * u * (1007827 / 1000000)) by (apply Rmult_le_compat; try apply norm_pos; lra). lra. }
      assert (BIL : forall a b x y, 0 <= a <= 20 -> 0 <= b <= 20 -> 0 <= x -> 0 <= y -> x <= X + a * u -> y <= Y + b * u -> x * y <= 161 / 100).
      { intros a b x y Ha Hb Hx Hy Lx Ly. assert (x * y <= (X + a * u) * (Y + b * u)) by (apply Rmult_le_compat; assumption).
        assert (a * u <= 20 * u) by (apply Rmult_le_compat_r; lra). assert (b * u <= 20 * u) by (apply Rmult_le_compat_r; lra). assert (0 <= a * u) by nra. assert (0 <= b * u) by nra.
        assert (X * (b * u) <= 1 * (20 * u)) by (apply Rmult_le_compat; lra). assert (a * u * Y <= 20 * u * 2) by (apply Rmult_le_compat; lra). assert (a * u * (b * u) <= 20 * u * (20 * u)) by (apply Rmult_le_compat; lra). lra. }
      assert (B1 : norm (w3 v) * norm (w3 c) <= 161 / 100) by (apply (BIL (192 / 10) (182 / 10)); try apply norm_pos; lra).
      assert (B2 : norm (vcross (w3 k) (w3 l)) * dist (w3 l) (w3 k) <= 161 / 100) by (apply (BIL (162 / 10) 16); try apply norm_pos; lra).
      pose proof (dot_near (w3 v) (w3 c) (vcross (w3 k) (w3 l)) (vsub (w3 l) (w3 k))) as Q.
      replace (vdot (vcross (w3 k) (w3 l)) (vsub (w3 l) (w3 k))) with 0 in Q by (unfold vdot, vcross, vsub; cbn [vx vy vz]; ring). rewrite Rminus_0_r in Q.
      assert (C1 : dist (w3 v) (vcross (w3 k) (w3 l)) * norm (w3 c) <= 291 / 100 * u * (203 / 100)) by (apply Rmult_le_compat; try apply norm_pos; lra).
      assert (C2 : norm (vcross (w3 k) (w3 l)) * dist (w3 c) (vsub (w3 l) (w3 k)) <= u * (161 / 100)).
      { apply Rle_trans with (norm (vcross (w3 k) (w3 l)) * (u * dist (w3 l) (w3 k))); [apply Rmult_le_compat_l; [apply norm_pos | exact Ec] |].
        replace (norm (vcross (w3 k) (w3 l)) * (u * dist (w3 l) (w3 k))) with (u * (norm (vcross (w3 k) (w3 l)) * dist (w3 l) (w3 k))) by ring. apply Rmult_le_compat_l; lra. }
      assert (C3 : 301 / 100 * u * (norm (w3 v) * norm (w3 c)) <= 301 / 100 * u * (161 / 100)) by (apply Rmult_le_compat_l; lra).
      assert (TR : forall x y a b c, Rabs (x - y) <= a -> Rabs y <= b -> a + b <= c -> Rabs x <= c).
      { clear. intros x y a b c H1 H2 H3. apply Rabs_le_inv in H1, H2. apply Rabs_le. lra. }
      apply (TR _ _ _ _ _ Vt Q). clear - C1 C2 C3 U0 T0 Ts. apply Rle_trans with (301 / 100 * u * (161 / 100) + 4 * et + (291 / 100 * u * (203 / 100) + u * (161 / 100))); [| lra].
      apply Rplus_le_compat; [apply Rplus_le_compat_r; exact C3 | apply Rplus_le_compat; [exact C1 | exact C2]].
    Qed.
    Lemma d_nz : w3 d <> vzero. Proof. apply unit_nz. apply tk. Qed.
    Lemma g_nz : w3 g <> vzero. Proof. apply unit_nz. apply tl. Qed.
    Lemma sine_D : norm (vcross D G) = sine (w3 d) (w3 g). Proof. apply sine_unit; [exact d_nz | exact g_nz]. Qed.
    (** the test for parallel directions *)
    Lemma tpar : (23 < prec)%Z -> (18 / 100000 <= sine (w3 d) (w3 g) -> near0 v = false) /\ (sine (w3 d) (w3 g) <= 98 / 1000000 -> near0 v = true).
    Proof.
      intro P24. rewrite <- sine_D. destruct tv as (Bv & _ & Ev). destruct (lit_tol P24) as [Fh Vh]. apply Rabs_le_inv in Vh. pose proof (bnd3_fin prec emax lm 3 v Bv) as Fv. pose proof (near0_iff v Fv Fh) as N.
      assert (U : u <= / 16777216) by (unfold uro; change (/ 16777216) with (bpow radix2 (-24)); apply bpow_le; lia). pose proof (u_pos prec) as U0.
      pose proof (norm_close (w3 v) (vcross D G)) as N1. pose proof (norm_close (vcross D G) (w3 v)) as N2. rewrite dist_sym in N2. cbv zeta in N. set (h := val (nlit F 1 10000)) in *. split; intro S.
      - destruct (near0 v) eqn:En; [exfalso | reflexivity]. destruct (proj1 N eq_refl) as (X & Y & Z). apply sq_abs_le in X, Y, Z.
        assert (norm (w3 v) <= 17325 / 100000000).
        { apply norm_le_sq; [lra |]. unfold vdot. assert (h * h <= 1001 / 10000000 * (1001 / 10000000)) by (apply Rmult_le_compat; lra). apply Rle_trans with (3 * (h * h)); [lra |].
          assert (h * h <= 100021 / 1000000000 * (100021 / 1000000000)) by (apply Rmult_le_compat; lra). lra. }
        lra.
      - apply N. destruct (abs_comp_norm (w3 v)) as (X & Y & Z). repeat split; lra.
    Qed.
    Lemma tform ee ff : shape_get_intersect (SRay (MkRay o k (ray_any o d) (nabs F ee))) (SRay (MkRay p l (ray_any p g) ff)) =
      (let! bi := ibound_intersect (BBox (ray_any o d)) (BBox (ray_any p g)) in if negb bi then Ok (@miss F) else
       if negb (wv (nabs F ee) (vdotn v (vminus l k)) n0) then Ok (@miss F) else
       if near0 v then
         if negb (wv (nabs F ee) (vmag (vcrossn k e)) n0) then Ok (@miss F) else
         let t := ndiv F (nmul F (if nlt (vdotn e k) n0 then nlit F (-1) 1 else n1) (vmag e)) (vmag k) in
         if nlt t n0 then Ok (true, Some o) else let! q := along k t o in Ok (true, Some q)
       else
         let t := ndiv F (vmag (vcrossn e l)) (vmag v) in
         if nlt t n0 then Ok (@miss F) else let! q := along k t o in Ok (true, Some q)).
    Proof. apply ray_ray_form. Qed.
    Lemma tdot_pass ee : fin ee -> 14 * u <= Rabs (val ee) -> wv (nabs F ee) (vdotn v (vminus l k)) n0 = true.
    Proof.
      intros Fe He. destruct tdot as [Ft Vt]. destruct (nabs_fin prec emax lm ee Fe) as [Fa Va]. apply wv0; [exact Fa | exact Ft |]. rewrite Va. apply Rabs_le_inv in Vt. lra.
    Qed.
    Lemma fins : fin3 (o : mat3x1 bf) /\ fin3 (d : mat3x1 bf) /\ fin3 (p : mat3x1 bf) /\ fin3 (g : mat3x1 bf).
    Proof. destruct Mo as [A _], Mp as [B _], Gd as [[C _] _], Gg as [[E _] _]. repeat split; assumption. Qed.
    Lemma two_apart ee ff (a b : shape F) : mk_ray o d ee a -> mk_ray p g ff b -> ~ meets (s_orthant (w3 o) (w3 d)) (s_orthant (w3 p) (w3 g)) -> shape_get_intersect a b = Ok (false, None).
    Proof.
      intros Ma Mb H. apply ray_any_eq in Ma, Mb. subst a b. rewrite tform. destruct fins as (Fo & Fd & Fp & Fg). destruct (rays_overlap o d p g Fo Fd Fp Fg) as (bb & -> & I). destruct bb; [exfalso; apply H, I; reflexivity | reflexivity].
    Qed.
    (** directions that are not nearly parallel *)
    Lemma two_skew ee ff (a b : shape F) : (23 < prec)%Z -> fin ee -> 14 * u <= Rabs (val ee) -> mk_ray o d ee a -> mk_ray p g ff b ->
      meets (s_orthant (w3 o) (w3 d)) (s_orthant (w3 p) (w3 g)) -> let S := sine (w3 d) (w3 g) in let T := line_dist (w3 p) (w3 g) (w3 o) / S in
      18 / 100000 <= S -> T <= bpow radix2 (emax / 2) ->
      exists q, shape_get_intersect a b = Ok (true, Some q) /\ fin3 (q : mat3x1 bf) /\
        dist (w3 q) (at_length (w3 o) (w3 d) T) <= (35 * u * R + 70 * u * T + 9 * sqrt et) / S + u * norm (w3 o).
    Proof.
      intros P24 Fe He Ma Mb Ov S T HS HT. apply ray_any_eq in Ma, Mb. subst a b. rewrite tform. destruct fins as (Fo & Fd & Fp & Fg). destruct (rays_overlap o d p g Fo Fd Fp Fg) as (bb & -> & I). rewrite (proj2 I Ov). clear I Ov.
      cbn [bind negb]. rewrite (tdot_pass ee Fe He). cbn [negb]. rewrite (proj1 (tpar P24) HS). cbv zeta.
      destruct tk as (Bk & Dk & ND), tl as (Bl & Dl & NG). destruct te as [Be De]. destruct tR as [R0' Rb]. destruct tv as (Bv & _ & Ev). assert (HM : (prec < emax)%Z) by exact Hm.
      pose proof (u_pos prec) as U0. assert (U : u <= / 16777216) by (unfold uro; change (/ 16777216) with (bpow radix2 (-24)); apply bpow_le; lia). pose proof (et_pos prec emax) as T0. pose proof (et_le_root P) as Ts. pose proof (sqrt_pos et) as S0. pose proof et_root as Sr. pose proof (half_ge P) as H4.
      destruct (moment_r l G e dl R P Bl Dl NG Be De eq_refl Rb) as (Fn & Pn & En). set (nm := vmag (vcrossn e l)) in *.
      destruct (mag_v v 3 P ltac:(lia) ltac:(lia) Bv) as (Fm & Pm & Em). set (vm := vmag v) in *. clearbody nm vm.
      assert (Ed : norm (vcross D G) = S) by exact sine_D. assert (S1 : S <= 1) by (rewrite <- Ed; pose proof (cross_norm_le D G) as Q; rewrite ND, NG in Q; lra).
      assert (Em' : Rabs (val vm - S) <= 28 * u).
      { pose proof (norm_near (w3 v) (vcross D G)) as Q. rewrite Ed in Q. pose proof (norm_close (w3 v) (vcross D G)) as Q2. rewrite Ed in Q2.
        assert (41 / 10 * u * norm (w3 v) <= 41 / 10 * u * (1001 / 1000)) by (apply Rmult_le_compat_l; lra).
        replace (val vm - S) with ((val vm - norm (w3 v)) + (norm (w3 v) - S)) by ring. eapply Rle_trans; [apply Rabs_triang |]. lra. }
      assert (El : norm (vcross dl G) = line_dist (w3 p) (w3 g) (w3 o)) by (apply line_dist_g, g_nz). rewrite El in En.
      set (N := line_dist (w3 p) (w3 g) (w3 o)) in *. assert (N0 : 0 <= N) by (rewrite <- El; apply norm_pos). assert (Sp : 0 < S) by lra.
      assert (T1 : 0 <= T) by (apply Rmult_le_pos; [exact N0 | left; apply Rinv_0_lt_compat; exact Sp]).
      assert (E1 : 0 <= 17 * u * R + 4 * sqrt et) by (assert (0 <= u * R) by (apply Rmult_le_pos; lra); lra).
      pose proof (quot_near (val nm) (val vm) N S (17 * u * R + 4 * sqrt et) (28 * u) Sp E1 N0 En Em' ltac:(lra)) as Q. fold T in Q.
      set (Dl' := 2 * (17 * u * R + 4 * sqrt et + 28 * u * T) / S) in *.
      assert (UT : 0 <= u * T) by (apply Rmult_le_pos; lra). assert (UR : 0 <= u * R) by (apply Rmult_le_pos; lra).
      assert (IS : / S <= 6000) by (replace 6000 with (/ (1 / 6000)) by field; apply Rinv_le_contravar; lra). assert (IS1 : 1 <= / S) by (rewrite <- Rinv_1; apply Rinv_le_contravar; lra).
      assert (Dl0 : 0 <= Dl') by (unfold Dl', Rdiv; apply Rmult_le_pos; lra).
      assert (L8 : bpow radix2 (emax / 2) = 8 * half) by (replace (emax / 2)%Z with (emax / 2 - 3 + 3)%Z at 1 by ring; rewrite bpow_plus; change (bpow radix2 3) with 8; ring). rewrite L8 in HT.
      assert (Db : Dl' <= half).
      { unfold Dl', Rdiv. apply Rle_trans with (2 * (17 * u * R + 4 * sqrt et + 28 * u * T) * 6000); [apply Rmult_le_compat_l; lra |].
        assert (u * R <= / 16777216 * (347 / 100 * half)) by (apply Rmult_le_compat; lra). assert (u * T <= / 16777216 * (8 * half)) by (apply Rmult_le_compat; lra). lra. }
      assert (Vp : 0 < val vm) by (apply Rabs_le_inv in Em'; lra). assert (Nv : val vm <> 0) by lra.
      set (x := val nm / val vm) in *. assert (X0 : 0 <= x) by (apply Rmult_le_pos; [exact Pn | left; apply Rinv_0_lt_compat; exact Vp]).
      assert (Xb : x <= T + Dl') by (apply Rabs_le_inv in Q; lra).
      destruct (rnd_err prec emax x) as (c & h & Hc & Hh & Er).
      assert (XC : Rabs (x * c) <= u * (T + Dl')) by (rewrite Rabs_mult, Rmult_comm; apply Rmult_le_compat; try apply Rabs_pos; [exact Hc | rewrite Rabs_pos_eq by exact X0; exact Xb]).
      assert (UD : u * Dl' <= / 1000 * Dl') by (apply Rmult_le_compat_r; lra). assert (UT2 : u * T <= / 1000 * T) by (apply Rmult_le_compat_r; lra).
      assert (Rt : Rabs (rnd x - T) <= 1001 / 1000 * Dl' + u * T + et).
      { rewrite Er. replace (x * (1 + c) + h - T) with ((x - T) + x * c + h) by ring. eapply Rle_trans; [apply Rabs_triang |]. eapply Rle_trans; [apply Rplus_le_compat_r, Rabs_triang |]. lra. }
      pose proof (half_k prec emax P) as [Hk1 Hk2].
      assert (L32 : bpow radix2 (emax / 2 + 2) = 32 * half) by (replace (emax / 2 + 2)%Z with (emax / 2 - 3 + 5)%Z by ring; rewrite bpow_plus; change (bpow radix2 5) with 32; ring).
      assert (Bq : Rabs (rnd x) <= bpow radix2 (emax / 2 + 2)) by (rewrite L32; apply Rabs_le_inv in Rt; apply Rabs_le; lra).
      assert (K4 : (emax / 2 + 2 < emax)%Z) by (clear - Hk1 Hk2 HM P24; lia).
      destruct (div_round prec emax nm vm Fn Nv) as [A _]. destruct (A (below_big emax _ _ K4 Bq)) as [Fq Vq]. fold x in Vq.
      set (t := ndiv F nm vm). change (Bdiv mode_NE nm vm) with (t : bf) in Fq, Vq.
      assert (Lt : nlt t n0 = false).
      { destruct (nlt t n0) eqn:Z; [exfalso | reflexivity]. destruct (@fv_lit_0 prec emax Hp Hm) as [F0 V0]. apply (nlt_val prec emax lm t n0 Fq F0) in Z. change (@n0 F) with (@f_lit prec emax Hp Hm 0 1) in Z. rewrite V0, Vq in Z. pose proof (rnd_nonneg prec emax x X0). lra. }
      rewrite Lt. assert (Bt : bnd (emax / 2 + 2) t) by (split; [exact Fq | rewrite Vq; exact Bq]).
      destruct (along_ieee prec emax lm k o t D T P Bk Dk ND Bt Mo) as (q & -> & Fq' & Dq). cbn [bind]. exists q. split; [reflexivity |]. split; [exact Fq' |].
      change (at_length (w3 o) (w3 d) T) with (vadd (w3 o) (vscale T D)). eapply Rle_trans; [exact Dq |]. rewrite Vq, (Rabs_pos_eq T) by exact T1.
      assert (W1 : 102 / 100 * Rabs (rnd x - T) <= 102 / 100 * (1001 / 1000 * Dl' + u * T + et)) by (apply Rmult_le_compat_l; lra).
      assert (Y1 : u * T <= u * T * / S) by (rewrite <- (Rmult_1_r (u * T)) at 1; apply Rmult_le_compat_l; lra). assert (Y2 : sqrt et <= sqrt et * / S) by (rewrite <- (Rmult_1_r (sqrt et)) at 1; apply Rmult_le_compat_l; lra).
      assert (Y3 : 0 <= u * R * / S) by (apply Rmult_le_pos; lra).
      unfold Dl', Rdiv in W1. unfold Rdiv. lra.
    Qed.
    (** rays that meet, not nearly parallel, are found near the common point *)
    Lemma two_found ee ff (a b : shape F) x : (23 < prec)%Z -> fin ee -> 14 * u <= Rabs (val ee) -> mk_ray o d ee a -> mk_ray p g ff b ->
      s_ray (w3 o) (w3 d) x -> s_ray (w3 p) (w3 g) x -> let S := sine (w3 d) (w3 g) in 18 / 100000 <= S -> dist x (w3 o) <= bpow radix2 (emax / 2) ->
      exists q, shape_get_intersect a b = Ok (true, Some q) /\ fin3 (q : mat3x1 bf) /\
        dist (w3 q) x <= (35 * u * R + 70 * u * dist x (w3 o) + 9 * sqrt et) / S + u * norm (w3 o).
    Proof.
      intros P24 Fe He Ma Mb Ha Hb S HS HT.
      assert (Ov : meets (s_orthant (w3 o) (w3 d)) (s_orthant (w3 p) (w3 g))).
      { exists x. split; apply ray_orthant; assumption. }
      assert (Nd := norm_nz _ d_nz). assert (Ng := norm_nz _ g_nz). destruct tk as (_ & _ & ND).
      destruct Ha as [s [Hs Ex]], Hb as [r [Hr Ex']].
      assert (Xo : vsub x (w3 o) = vscale s (w3 d)) by (rewrite Ex; apply V3_eq; unfold vsub, vadd, vscale; cbn [vx vy vz]; ring).
      assert (DX : dist x (w3 o) = s * norm (w3 d)) by (unfold dist; rewrite Xo; apply norm_scale_pos; exact Hs).
      assert (Td : line_dist (w3 p) (w3 g) (w3 o) / S = dist x (w3 o)).
      { assert (Sp : 0 < S) by lra. unfold line_dist. replace (vcross (w3 g) (vsub (w3 o) (w3 p))) with (vscale s (vcross (w3 d) (w3 g))).
        - rewrite norm_scale_pos by exact Hs. rewrite DX. unfold S, sine in *. assert (norm (vcross (w3 d) (w3 g)) <> 0) by (intro Z; rewrite Z in Sp; unfold Rdiv in Sp; rewrite Rmult_0_l in Sp; lra). field. lra.
        - replace (vsub (w3 o) (w3 p)) with (vsub (vscale r (w3 g)) (vscale s (w3 d))).
          + apply V3_eq; unfold vscale, vcross, vsub; cbn [vx vy vz]; ring.
          + assert (E : vadd (w3 o) (vscale s (w3 d)) = vadd (w3 p) (vscale r (w3 g))) by (rewrite <- Ex; exact Ex'). injection E as E0 E1 E2. apply V3_eq; unfold vsub, vscale; cbn [vx vy vz]; lra. }
      pose proof (two_skew ee ff a b P24 Fe He Ma Mb Ov) as Q. cbv zeta in Q. fold S in Q. rewrite Td in Q. destruct (Q HS HT) as (q & E & Fq & Dq). exists q. split; [exact E |]. split; [exact Fq |].
      replace (at_length (w3 o) (w3 d) (dist x (w3 o))) with x in Dq; [exact Dq |]. rewrite DX, Ex. unfold at_length. apply V3_eq; unfold vadd, vscale; cbn [vx vy vz]; field; lra.
    Qed.
    (** nearly parallel directions *)
    Lemma tarea : fin (vmag (vcrossn k e)) /\ 0 <= val (vmag (vcrossn k e)) /\ Rabs (val (vmag (vcrossn k e)) - line_dist (w3 o) (w3 d) (w3 p)) <= 17 * u * R + 4 * sqrt et.
    Proof.
      destruct tk as (Bk & Dk & ND). destruct te as [Be De]. destruct tR as [R0' Rb]. destruct (moment_l k D e dl R P Bk Dk ND Be De eq_refl Rb) as (Fn & Pn & En). split; [exact Fn |]. split; [exact Pn |].
      replace (line_dist (w3 o) (w3 d) (w3 p)) with (norm (vcross D dl)); [exact En |]. unfold line_dist. apply cross_unit_l, d_nz.
    Qed.
    Lemma two_par_far ee ff (a b : shape F) : (23 < prec)%Z -> fin ee -> mk_ray o d ee a -> mk_ray p g ff b -> sine (w3 d) (w3 g) <= 98 / 1000000 ->
      Rabs (val ee) + 17 * u * R + 4 * sqrt et < line_dist (w3 o) (w3 d) (w3 p) -> shape_get_intersect a b = Ok (false, None).
    Proof.
      intros P24 Fe Ma Mb HS HL. apply ray_any_eq in Ma, Mb. subst a b. rewrite tform. destruct fins as (Fo & Fd & Fp & Fg). destruct (rays_overlap o d p g Fo Fd Fp Fg) as (bb & -> & _). destruct bb; [| reflexivity].
      cbn [bind negb]. destruct (wv _ (vdotn _ _) _); [| reflexivity]. cbn [negb]. rewrite (proj2 (tpar P24) HS).
      destruct tarea as (Fa & Pa & Ea). destruct (nabs_fin prec emax lm ee Fe) as [Fw Vw]. set (ar := vmag (vcrossn k e)) in *. clearbody ar.
      destruct (wv (nabs F ee) ar n0) eqn:W; [exfalso | reflexivity]. apply (wv0 _ _ Fw Fa) in W. rewrite Vw in W. apply Rabs_le_inv in Ea. lra.
    Qed.
    Lemma sign_mul (x : F) : fin x -> fv (nmul F (nlit F (-1) 1) x) (- val x) /\ fv (nmul F n1 x) (val x).
    Proof.
      intro Fx. destruct (lit_z prec emax lm P (-1) ltac:(lia)) as [F1 V1]. destruct (lit_z prec emax lm P 1 ltac:(lia)) as [F2 V2]. split.
      - rewrite <- B2R_Bopp. apply (fv_mult_exact prec emax); [exact F1 | exact Fx |]. rewrite V1, B2R_Bopp. ring.
      - apply (fv_mult_exact prec emax); [exact F2 | exact Fx |]. change (val (nlit F 1 1) * val x = val x). rewrite V2. ring.
    Qed.
    Lemma two_par_near ee ff (a b : shape F) : (23 < prec)%Z -> fin ee -> 14 * u <= Rabs (val ee) -> mk_ray o d ee a -> mk_ray p g ff b ->
      meets (s_orthant (w3 o) (w3 d)) (s_orthant (w3 p) (w3 g)) -> sine (w3 d) (w3 g) <= 98 / 1000000 ->
      line_dist (w3 o) (w3 d) (w3 p) + 17 * u * R + 4 * sqrt et <= Rabs (val ee) ->
      let m := vdot dl (s_unit (w3 d)) in
      exists q, shape_get_intersect a b = Ok (true, Some q) /\ fin3 (q : mat3x1 bf) /\
        (q = o /\ m <= 13 * u * R + sqrt et \/ - (13 * u * R + 4 * sqrt et) <= m /\ dist (w3 q) (at_length (w3 o) (w3 d) R) <= 60 * u * R + 8 * sqrt et + u * norm (w3 o)).
    Proof.
      intros P24 Fe He Ma Mb Ov HS HL m. apply ray_any_eq in Ma, Mb. subst a b. rewrite tform. destruct fins as (Fo & Fd & Fp & Fg). destruct (rays_overlap o d p g Fo Fd Fp Fg) as (bb & -> & I). rewrite (proj2 I Ov). clear I Ov.
      cbn [bind negb]. rewrite (tdot_pass ee Fe He). cbn [negb]. rewrite (proj2 (tpar P24) HS). cbv zeta.
      destruct tarea as (Fa & Pa & Ea). destruct (nabs_fin prec emax lm ee Fe) as [Fw Vw]. set (ar := vmag (vcrossn k e)) in *. clearbody ar.
      assert (W : wv (nabs F ee) ar n0 = true) by (apply (wv0 _ _ Fw Fa); rewrite Vw; apply Rabs_le_inv in Ea; lra). rewrite W. cbn [negb]. clear W Fa Pa Ea ar Fw Vw.
      destruct tk as (Bk & Dk & ND). destruct te as [Be De]. destruct tR as [R0' Rb]. assert (HM : (prec < emax)%Z) by exact Hm.
      pose proof (u_pos prec) as U0. assert (U : u <= / 16777216) by (unfold uro; change (/ 16777216) with (bpow radix2 (-24)); apply bpow_le; lia). pose proof (et_pos prec emax) as T0. pose proof (et_le_root P) as Ts. pose proof (sqrt_pos et) as S0. pose proof et_root as Sr. pose proof (half_ge P) as H4.
      pose proof (half_k prec emax P) as [Hk1 Hk2]. assert (UR : 0 <= u * R) by (apply Rmult_le_pos; lra). assert (UUR : u * (u * R) <= / 1024 * (u * R)) by (apply Rmult_le_compat_r; lra).
      pose proof (norm_close (w3 k) D) as Nk. pose proof (norm_close (w3 e) dl) as Ne. fold R in Ne.
      (* the dot product *)
      destruct (dot_v prec emax lm e k (emax / 2 - 2) 1 P ltac:(lia) ltac:(lia) Be Bk) as (da & Ed & Fda & Vda). rewrite dot_e in Ed. assert (Ed' : vdotn e k = da) by (clear - Ed; congruence). clear Ed. rewrite Ed'. clear Ed'.
      assert (Vm : Rabs (val da - m) <= 13 * u * R + sqrt et).
      { pose proof (dot_near (w3 e) (w3 k) dl D) as Q. change (vdot dl D) with m in Q. change (norm dl) with R in Q.
        assert (Q1 : dist (w3 e) dl * norm (w3 k) <= u * R * (101 / 100)) by (apply Rmult_le_compat; try apply norm_pos; lra). assert (Q2 : R * dist (w3 k) D <= R * (8 * u)) by (apply Rmult_le_compat_l; lra).
        assert (Q3 : norm (w3 e) * norm (w3 k) <= (R + u * R) * (101 / 100)) by (apply Rmult_le_compat; try apply norm_pos; lra).
        assert (Q4 : 301 / 100 * u * (norm (w3 e) * norm (w3 k)) <= 301 / 100 * u * ((R + u * R) * (101 / 100))) by (apply Rmult_le_compat_l; lra).
        clear - Vda Q Q1 Q2 Q4 UR UUR Ts S0 T0. apply Rabs_le_inv in Vda, Q. apply Rabs_le. lra. }
      (* the lengths *)
      destruct (mag_v e (emax / 2 - 2) P ltac:(lia) ltac:(lia) Be) as (Fdm & Pdm & Edm). destruct (mag_v k 1 P ltac:(lia) ltac:(lia) Bk) as (Fam & Pam & Eam).
      assert (Edm' : Rabs (val (vmag e) - R) <= 53 / 10 * u * R + 3 * sqrt et).
      { pose proof (norm_near (w3 e) dl) as Q. change (norm dl) with R in Q, Ne. assert (Q1 : 41 / 10 * u * norm (w3 e) <= 41 / 10 * u * (R + u * R)) by (apply Rmult_le_compat_l; lra).
        clear - Edm Q Q1 De UR UUR. apply Rabs_le_inv in Edm, Q. apply Rabs_le. lra. }
      assert (Eam' : Rabs (val (vmag k) - 1) <= 17 * u).
      { pose proof (norm_near (w3 k) D) as Q. rewrite ND in Q. assert (Q1 : 41 / 10 * u * norm (w3 k) <= 41 / 10 * u * (101 / 100)) by (apply Rmult_le_compat_l; lra).
        clear - Eam Q Q1 Dk U0 Sr S0. apply Rabs_le_inv in Eam, Q. apply Rabs_le. lra. }
      set (dm := vmag e) in *. set (am := vmag k) in *. clearbody dm am. clear Edm Eam Nk Ne De Be.
      assert (Ap : 0 < val am) by (apply Rabs_le_inv in Eam'; lra). assert (An : val am <> 0) by lra.
      assert (DB : val dm <= 4 * half).
      { apply Rabs_le_inv in Edm'. assert (u * R <= / 16777216 * R) by (apply Rmult_le_compat_r; lra). lra. }
      set (x := val dm / val am). assert (X0 : 0 <= x) by (apply Rmult_le_pos; [exact Pdm | left; apply Rinv_0_lt_compat; exact Ap]).
      assert (Q : Rabs (x - R) <= 45 * u * R + 6 * sqrt et).
      { pose proof (quot_near (val dm) (val am) R 1 (53 / 10 * u * R + 3 * sqrt et) (17 * u) Rlt_0_1 ltac:(lra) R0' Edm' Eam' ltac:(lra)) as Q. fold x in Q. replace (R / 1) with R in Q by field. eapply Rle_trans; [exact Q |]. unfold Rdiv. rewrite Rinv_1. lra. }
      assert (Xb : x <= R + 45 * u * R + 6 * sqrt et) by (apply Rabs_le_inv in Q; lra).
      assert (Rx : Rabs (rnd x - R) <= 47 * u * R + 7 * sqrt et).
      { destruct (rnd_err prec emax x) as (c & h & Hc & Hh & ->). assert (XC : Rabs (x * c) <= u * (R + 45 * u * R + 6 * sqrt et)) by (rewrite Rabs_mult, Rmult_comm; apply Rmult_le_compat; try apply Rabs_pos; [exact Hc | rewrite Rabs_pos_eq by exact X0; exact Xb]).
        assert (u * sqrt et <= / 16777216 * sqrt et) by (apply Rmult_le_compat_r; lra). assert (u * (u * R) <= / 16777216 * (u * R)) by (apply Rmult_le_compat_r; lra).
        replace (x * (1 + c) + h - R) with ((x - R) + x * c + h) by ring. eapply Rle_trans; [apply Rabs_triang |]. eapply Rle_trans; [apply Rplus_le_compat_r, Rabs_triang |]. lra. }
      assert (L32 : bpow radix2 (emax / 2 + 2) = 32 * half) by (replace (emax / 2 + 2)%Z with (emax / 2 - 3 + 5)%Z by ring; rewrite bpow_plus; change (bpow radix2 5) with 32; ring).
      assert (Bq : Rabs (rnd x) <= bpow radix2 (emax / 2 + 2)).
      { rewrite L32. assert (u * R <= / 16777216 * R) by (apply Rmult_le_compat_r; lra). apply Rabs_le_inv in Rx. apply Rabs_le. lra. }
      assert (K4 : (emax / 2 + 2 < emax)%Z) by (clear - Hk1 Hk2 HM P24; lia). pose proof (below_big emax _ _ K4 Bq) as BB.
      destruct (sign_mul dm Fdm) as [[Fn Vn] [F1 V1]]. destruct (@fv_lit_0 prec emax Hp Hm) as [F0 V0]. assert (Vz : val (@n0 F) = 0) by exact V0. assert (Fz : fin (@n0 F)) by exact F0.
      assert (ALONG : forall t : F, fin t -> Rabs (val t - R) <= 47 * u * R + 7 * sqrt et -> Rabs (val t) <= bpow radix2 (emax / 2 + 2) -> exists q, along k t o = Ok q /\ fin3 (q : mat3x1 bf) /\ dist (w3 q) (at_length (w3 o) (w3 d) R) <= 60 * u * R + 8 * sqrt et + u * norm (w3 o)).
      { intros t Ft Et Bt. destruct (along_ieee prec emax lm k o t D R P Bk Dk ND (conj Ft Bt) Mo) as (q & Eq & Fq & Dq). exists q. split; [exact Eq |]. split; [exact Fq |].
        change (at_length (w3 o) (w3 d) R) with (vadd (w3 o) (vscale R D)). eapply Rle_trans; [exact Dq |]. rewrite (Rabs_pos_eq R) by exact R0'. lra. }
      destruct (nlt da n0) eqn:Ld.
      - apply (nlt_val prec emax lm da n0 Fda Fz) in Ld. rewrite Vz in Ld. apply Rabs_le_inv in Vm.
        set (y := nmul F (nlit F (-1) 1) dm) in *. clearbody y. assert (Ny : Rabs (rnd (val y / val am)) < bpow radix2 emax).
        { rewrite Vn. replace (- val dm / val am) with (- x) by (unfold x; field; exact An). rewrite round_NE_opp, Rabs_Ropp. exact BB. }
        destruct (div_round prec emax y am Fn An) as [A _]. destruct (A Ny) as [Fq Vq]. set (t := ndiv F y am). assert (Vt : val t = - rnd x).
        { unfold t. cbn [ndiv Ieee]. rewrite Vq, Vn. replace (- val dm / val am) with (- x) by (unfold x; field; exact An). apply round_NE_opp. }
        assert (Ft : fin t) by exact Fq. clearbody t. clear Fq Vq A Ny.
        destruct (nlt t n0) eqn:Lt.
        + exists o. split; [reflexivity |]. split; [exact Fo |]. left. split; [reflexivity | lra].
        + assert (Rz : rnd x = 0).
          { pose proof (rnd_nonneg prec emax x X0) as N. destruct (Req_dec (rnd x) 0) as [Z | Z]; [exact Z | exfalso]. assert (nlt t n0 = true) by (apply (nlt_val prec emax lm t n0 Ft Fz); rewrite Vz, Vt; lra). congruence. }
          rewrite Rz in *. assert (Vt0 : val t = 0) by lra.
          destruct (ALONG t Ft) as (q & -> & Fq & Dq); [rewrite Vt0; exact Rx | rewrite Vt0, Rabs_R0; apply bpow_ge_0 |]. cbn [bind]. exists q. split; [reflexivity |]. split; [exact Fq |]. right. split; [| exact Dq].
          (* R is tiny *)
          assert (Zx : x <= 2 * et).
          { destruct (rnd_err prec emax x) as (c & h & Hc & Hh & Er). rewrite Rz in Er. apply Rabs_le_inv in Hc, Hh. assert (- u * x <= x * c) by (clear - X0 Hc; nra). assert (u * x <= / 16777216 * x) by (apply Rmult_le_compat_r; lra). lra. }
          assert (Dz : val dm <= 21 / 10 * et).
          { replace (val dm) with (x * val am) by (unfold x; field; exact An). apply Rabs_le_inv in Eam'. apply Rle_trans with (2 * et * (1 + 17 * u)); [apply Rmult_le_compat; lra |]. assert (et * u <= et * / 16777216) by (apply Rmult_le_compat_l; lra). lra. }
          assert (R <= 35 / 10 * sqrt et) by (apply Rabs_le_inv in Edm'; assert (u * R <= / 16777216 * R) by (apply Rmult_le_compat_r; lra); lra).
          pose proof (cauchy dl D) as C. change (vdot dl D) with m in C. rewrite ND in C. change (norm dl) with R in C. apply Rabs_le_inv in C. lra.
      - assert (Ld' : 0 <= val da).
        { apply Rnot_lt_le. intro Z. assert (nlt da n0 = true) by (apply (nlt_val prec emax lm da n0 Fda Fz); rewrite Vz; exact Z). congruence. }
        set (y := nmul F n1 dm) in *. clearbody y. assert (Ny : Rabs (rnd (val y / val am)) < bpow radix2 emax) by (rewrite V1; exact BB).
        destruct (div_round prec emax y am F1 An) as [A _]. destruct (A Ny) as [Fq Vq]. set (t := ndiv F y am). assert (Vt : val t = rnd x) by (unfold t; cbn [ndiv Ieee]; rewrite Vq, V1; reflexivity).
        assert (Ft : fin t) by exact Fq. clearbody t. clear Fq Vq A Ny.
        assert (Lt : nlt t n0 = false).
        { destruct (nlt t n0) eqn:Z; [exfalso | reflexivity]. apply (nlt_val prec emax lm t n0 Ft Fz) in Z. rewrite Vz, Vt in Z. pose proof (rnd_nonneg prec emax x X0). lra. }
        rewrite Lt. destruct (ALONG t Ft) as (q & -> & Fq & Dq); [rewrite Vt; exact Rx | rewrite Vt; exact Bq |]. cbn [bind]. exists q. split; [reflexivity |]. split; [exact Fq |]. right. split; [apply Rabs_le_inv in Vm; lra | exact Dq].
    Qed.
  End Two.
End RayR.
