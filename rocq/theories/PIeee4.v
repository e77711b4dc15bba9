(** PIeee4.v — quaternions in IEEE arithmetic: products of any length, rotation, rotation matrix, interpolation (C81-C83). *)
From Coq Require Import Reals List ZArith NArith Bool Lra Lia Psatz.
From Flocq Require Import Core BinarySingleNaN.
Import ListNotations.
From Verif Require Import Base Num Vec Mat Quat Float Exact FloatFacts FloatRound Order SpecMat SpecGeom SpecBound SpecQuat
  SpecRound SpecBuild SpecFq ExactFacts PMat PShape PGeo1 PQuat PRound PRound2 PRound3 PIeee1 PIeee2 PIeee3.
Local Open Scope R_scope.

(** ---- real quaternions ---- *)
Lemma hdot_cs p q : hdot p q * hdot p q <= hdot p p * hdot q q.
Proof.
  destruct p as [[a b c] d], q as [[x y z] w]. unfold hdot, vdot. simpl.
  pose proof (Rle_0_sqr (a * y - b * x)). pose proof (Rle_0_sqr (a * z - c * x)). pose proof (Rle_0_sqr (b * z - c * y)).
  pose proof (Rle_0_sqr (a * w - d * x)). pose proof (Rle_0_sqr (b * w - d * y)). pose proof (Rle_0_sqr (c * w - d * z)). unfold Rsqr in *. lra.
Qed.
Lemma hdot_le p q : hdot p q <= hlen p * hlen q.
Proof.
  pose proof (hlen_pos p). pose proof (hlen_pos q). pose proof (hdot_cs p q) as C. rewrite <- !hlen_sq in C.
  destruct (Rle_dec (hdot p q) 0) as [L | L]; [nra |]. apply Rsqr_incr_0_var; [unfold Rsqr; lra | nra].
Qed.
Lemma hlen_triangle p q : hlen (hadd p q) <= hlen p + hlen q.
Proof.
  pose proof (hlen_pos p). pose proof (hlen_pos q). apply Rsqr_incr_0_var; [| lra]. unfold Rsqr. rewrite hlen_sq.
  replace (hdot (hadd p q) (hadd p q)) with (hdot p p + 2 * hdot p q + hdot q q) by (destruct p as [[? ? ?] ?], q as [[? ? ?] ?]; unfold hdot, vdot; simpl; ring).
  pose proof (hdot_le p q). pose proof (hlen_sq p). pose proof (hlen_sq q). lra.
Qed.
Lemma hlen_mul p q : hlen (hmul p q) = hlen p * hlen q.
Proof.
  unfold hlen. rewrite <- sqrt_mult by apply hdot_pos. f_equal. destruct p as [[? ? ?] ?], q as [[? ? ?] ?]. unfold hdot, vdot. simpl. unfold vdot. simpl. ring.
Qed.
Lemma hdist_triangle p q r : hdist p r <= hdist p q + hdist q r.
Proof.
  unfold hdist. replace (hsub p r) with (hadd (hsub p q) (hsub q r)) by hring. apply hlen_triangle.
Qed.
Lemma hlen_near p q : hlen p <= hlen q + hdist p q.
Proof.
  replace p with (hadd q (hsub p q)) at 1 by hring. apply hlen_triangle.
Qed.
Lemma hdist_sym p q : hdist p q = hdist q p.
Proof. unfold hdist, hlen. f_equal. destruct p as [[? ? ?] ?], q as [[? ? ?] ?]. unfold hdot, vdot. simpl. ring. Qed.
Lemma hmul_sub_l p q r : hsub (hmul p r) (hmul q r) = hmul (hsub p q) r.
Proof. hring. Qed.
Lemma hlen_comp q : Rabs (vx (hv q)) <= hlen q /\ Rabs (vy (hv q)) <= hlen q /\ Rabs (vz (hv q)) <= hlen q /\ Rabs (hs q) <= hlen q.
Proof.
  unfold hlen, hdot, vdot. destruct q as [[a b c] d]. simpl.
  repeat split; rewrite <- sqrt_Rsqr_abs; apply sqrt_le_1_alt; unfold Rsqr; nra.
Qed.
Lemma hlen_box q e : 0 <= e -> Rabs (vx (hv q)) <= e -> Rabs (vy (hv q)) <= e -> Rabs (vz (hv q)) <= e -> Rabs (hs q) <= e -> hlen q <= 2 * e.
Proof.
  intros He A B C D. apply Rabs_le_inv in A, B, C, D. apply Rsqr_incr_0_var; [| lra]. unfold Rsqr. rewrite hlen_sq. unfold hdot, vdot.
  destruct q as [[a b c] d]. simpl in *. nra.
Qed.
Lemma cs4 a b c d x y z w m k : 0 <= m -> 0 <= k -> a * a + b * b + c * c + d * d = m * m -> x * x + y * y + z * z + w * w = k * k ->
  Rabs (a * x) + Rabs (b * y) + Rabs (c * z) + Rabs (d * w) <= m * k.
Proof.
  intros Hm Hk H1 H2. pose proof (hdot_le (H (V (Rabs a) (Rabs b) (Rabs c)) (Rabs d)) (H (V (Rabs x) (Rabs y) (Rabs z)) (Rabs w))) as C.
  unfold hlen, hdot, vdot in C. simpl in C. rewrite <- !Rabs_mult in C. rewrite !sqr_abs in C.
  replace (a * a + b * b + c * c + d * d) with (m * m) in C. replace (x * x + y * y + z * z + w * w) with (k * k) in C.
  rewrite !sqrt_square in C by assumption. exact C.
Qed.

Section Ieee4.
  Context (prec emax : Z) {Hp : Prec_gt_0 prec} {Hm : Prec_lt_emax prec emax} (lm : libm (binary_float prec emax)).
  Notation bf := (binary_float prec emax).
  Notation fmt := (SpecFloat.fexp prec emax).
  Notation rnd := (round radix2 fmt ZnearestE).
  Notation val := (@B2R prec emax).
  Notation fin x := (is_finite (x : bf) = true).
  Notation u := (uro prec).
  Notation et := (eta prec emax).
  Notation fv := (fv prec emax).
  Notation bnd := (bnd prec emax).
  Notation F := (@Ieee prec emax Hp Hm lm).
  Notation qval := (@qval prec emax).
  Notation qfin := (@qfin prec emax).

  Lemma sum4_fin s1 s2 s3 k (a b c d : bf) : (3 - emax - prec <= k)%Z -> (k + 3 < emax)%Z -> bnd k a -> bnd k b -> bnd k c -> bnd k d ->
    let op (s : bool) := if s then Bminus mode_NE else @Bplus prec emax Hp Hm mode_NE in
    bnd (k + 3) (op s3 (op s2 (op s1 a b) c) d).
  Proof.
    intros K1 K2 Ha Hb Hc Hd op.
    assert (St : forall s j x y, (3 - emax - prec <= j)%Z -> (j + 1 < emax)%Z -> bnd j x -> bnd j y -> bnd (j + 1) (op s x y)).
    { intros s j x y J1 J2 X Y. destruct s; [apply (minus_bnd prec emax j x y) | apply (plus_bnd prec emax j x y)]; assumption. }
    assert (S1 := St s1 k a b ltac:(lia) ltac:(lia) Ha Hb).
    assert (S2 := St s2 (k + 1)%Z _ c ltac:(lia) ltac:(lia) S1 (bnd_le prec emax k (k + 1) c ltac:(lia) Hc)).
    assert (S3 := St s3 (k + 1 + 1)%Z _ d ltac:(lia) ltac:(lia) S2 (bnd_le prec emax k (k + 1 + 1) d ltac:(lia) Hd)).
    replace (k + 3)%Z with (k + 1 + 1 + 1)%Z by lia. exact S3.
  Qed.
  Lemma comp_bnd k (q : quat F) : qfin q -> hlen (qval q) <= bpow radix2 k -> bnd k (qx q) /\ bnd k (qy q) /\ bnd k (qz q) /\ bnd k (qw q).
  Proof.
    intros (F1 & F2 & F3 & F4) L. destruct (hlen_comp (qval q)) as (C1 & C2 & C3 & C4).
    repeat split; try assumption; [exact (Rle_trans _ _ _ C1 L) | exact (Rle_trans _ _ _ C2 L) | exact (Rle_trans _ _ _ C3 L) | exact (Rle_trans _ _ _ C4 L)].
  Qed.
  Lemma err4_small A : (9 < prec)%Z -> 0 <= A -> 2 * err prec emax 4 A <= 9 * u * A + 9 * et.
  Proof.
    intros P HA. pose proof (u_small prec P) as U. pose proof (u_pos prec) as U0. pose proof (et_pos prec emax) as T0.
    unfold err. replace (INR 4) with 4 by (simpl; lra). change (4 - 1)%nat with 3%nat.
    assert (U2 : 0 <= u * u <= u * / 1024) by (split; [nra | apply Rmult_le_compat_l; lra]).
    assert (U3 : 0 <= u * u * u <= u * / 1024) by (split; [nra |]; nra).
    assert (U4 : 0 <= u * u * u * u <= u * / 1024) by (split; [nra |]; nra).
    assert (E1 : (1 + u) ^ 4 - 1 <= (9 / 2) * u).
    { replace ((1 + u) ^ 4 - 1) with (4 * u + 6 * (u * u) + 4 * (u * u * u) + u * u * u * u) by ring. lra. }
    assert (E2 : 4 * (1 + u) ^ 3 <= 9 / 2).
    { replace ((1 + u) ^ 3) with (1 + 3 * u + 3 * (u * u) + u * u * u) by ring. lra. }
    assert (((1 + u) ^ 4 - 1) * A <= (9 / 2) * u * A) by (apply Rmult_le_compat_r; assumption).
    assert (4 * (1 + u) ^ 3 * et <= 9 / 2 * et) by (apply Rmult_le_compat_r; lra). lra.
  Qed.
  (** one product *)
  Lemma qmul_ieee j k (p q : quat F) : (9 < prec)%Z -> (3 - emax - prec <= j + k)%Z -> (j + k + 3 < emax)%Z -> qfin p -> qfin q ->
    hlen (qval p) <= bpow radix2 j -> hlen (qval q) <= bpow radix2 k ->
    qfin (quat_mul p q) /\ hdist (qval (quat_mul p q)) (hmul (qval p) (qval q)) <= 9 * u * (hlen (qval p) * hlen (qval q)) + 9 * et.
  Proof.
    intros P K1 K2 Fp Fq Lp Lq. destruct (comp_bnd j p Fp Lp) as (A1 & A2 & A3 & A4). destruct (comp_bnd k q Fq Lq) as (B1 & B2 & B3 & B4).
    assert (Mb : forall a b : bf, bnd j a -> bnd k b -> bnd (j + k) (Bmult mode_NE a b)) by (intros a b X Y; apply (mult_bnd prec emax j k a b); [lia | lia | exact X | exact Y]).
    assert (FF : qfin (quat_mul p q)).
    { unfold quat_mul. repeat split; simpl.
      - apply (sum4_fin false false true (j + k)); [lia | lia | ..]; apply Mb; assumption.
      - apply (sum4_fin true false false (j + k)); [lia | lia | ..]; apply Mb; assumption.
      - apply (sum4_fin false true false (j + k)); [lia | lia | ..]; apply Mb; assumption.
      - apply (sum4_fin true true true (j + k)); [lia | lia | ..]; apply Mb; assumption. }
    split; [exact FF |]. destruct p as [x1 y1 z1 w1], q as [x2 y2 z2 w2].
    destruct (quat_mul (Q x1 y1 z1 w1) (Q x2 y2 z2 w2)) as [x y z w] eqn:E. destruct FF as (G1 & G2 & G3 & G4). simpl in G1, G2, G3, G4.
    destruct (qmul_err prec emax lm x1 y1 z1 w1 x2 y2 z2 w2 x y z w E) as (D1 & D2 & D3 & D4).
    specialize (D1 G1). specialize (D2 G2). specialize (D3 G3). specialize (D4 G4).
    set (m := hlen (qval (Q x1 y1 z1 w1))) in *. set (n := hlen (qval (Q x2 y2 z2 w2))) in *.
    assert (Pm : 0 <= m) by apply hlen_pos. assert (Pn : 0 <= n) by apply hlen_pos. assert (Pmn : 0 <= m * n) by (apply Rmult_le_pos; assumption).
    assert (Sm : m * m = val x1 * val x1 + val y1 * val y1 + val z1 * val z1 + val w1 * val w1) by apply hlen_sq.
    assert (Sn : n * n = val x2 * val x2 + val y2 * val y2 + val z2 * val z2 + val w2 * val w2) by apply hlen_sq.
    assert (Er : forall A, A <= m * n -> err prec emax 4 A <= err prec emax 4 (m * n)).
    { intros A HA. unfold err. apply Rplus_le_compat_r. apply Rmult_le_compat_l; [| exact HA]. pose proof (pow1u prec 4). lra. }
    eapply Rle_trans; [| apply err4_small; [exact P | exact Pmn]]. clearbody m n.
    assert (HE : 0 <= err prec emax 4 (m * n)).
    { eapply Rle_trans; [| apply Er]; [eapply Rle_trans; [apply Rabs_pos | exact D1] |]. apply cs4; lra. }
    unfold hdist. apply hlen_box; [exact HE | ..]; simpl; unfold vdot; simpl.
    - eapply Rle_trans; [| apply Er, (cs4 (val w1) (val x1) (val y1) (val z1) (val x2) (val w2) (val z2) (val y2) m n Pm Pn ltac:(lra) ltac:(lra))].
      eapply Rle_trans; [| exact D1]. right. f_equal. ring.
    - eapply Rle_trans; [| apply Er, (cs4 (val w1) (val x1) (val y1) (val z1) (val y2) (val z2) (val w2) (val x2) m n Pm Pn ltac:(lra) ltac:(lra))].
      eapply Rle_trans; [| exact D2]. right. f_equal. ring.
    - eapply Rle_trans; [| apply Er, (cs4 (val w1) (val x1) (val y1) (val z1) (val z2) (val y2) (val x2) (val w2) m n Pm Pn ltac:(lra) ltac:(lra))].
      eapply Rle_trans; [| exact D3]. right. f_equal. ring.
    - eapply Rle_trans; [| apply Er, (cs4 (val w1) (val x1) (val y1) (val z1) (val w2) (val x2) (val y2) (val z2) m n Pm Pn ltac:(lra) ltac:(lra))].
      eapply Rle_trans; [| exact D4]. right. f_equal. ring.
  Qed.

  (** products of lists, accumulated from the left *)
  Lemma pow_ge1 a n : 1 <= a -> 1 <= a ^ n. Proof. intro H. apply pow_R1_Rle. exact H. Qed.
  Lemma qlist_ieee (m : R) (l : list (quat F)) : (9 < prec)%Z -> 1 <= m <= 2 ->
    (forall q, In q l -> qfin q /\ hlen (qval q) <= m) ->
    let M := m * (1 + 9 * u) in let n := length l in
    M ^ n * (1 + 9 * INR n * et) <= bpow radix2 (emax - 6) ->
    let r := fold_left quat_mul l quat_init in
    qfin r /\ hlen (hprod (map qval l)) <= m ^ n /\ hdist (qval r) (hprod (map qval l)) <= M ^ n - m ^ n + 9 * INR n * et * M ^ n.
  Proof.
    intros P [m1 m2] Hl M n. pose proof (u_pos prec) as U0. pose proof (et_pos prec emax) as T0. pose proof (u_small prec P) as U.
    assert (HM : m <= M) by (unfold M; nra). assert (M1 : 1 <= M) by lra.
    unfold n. clear n. induction l as [| q l IH] using rev_ind.
    - intros _. simpl. split; [| split].
      + repeat split; simpl; try apply fv_lit_0; apply fv_lit_1.
      + unfold hprod. simpl. unfold hlen, hdot, vdot. simpl. replace (0 * 0 + 0 * 0 + 0 * 0 + 1 * 1) with 1 by ring. rewrite sqrt_1. lra.
      + assert (E : qval (@quat_init F) = hone).
        { unfold SpecFq.qval, quat_init, hone. cbn [qx qy qz qw]. change (@n0 F) with (@f_lit prec emax Hp Hm 0 1). change (@n1 F) with (@f_lit prec emax Hp Hm 1 1).
          destruct (@fv_lit_0 prec emax Hp Hm) as [_ ->]. destruct (@fv_lit_1 prec emax Hp Hm) as [_ ->]. reflexivity. }
        unfold hprod. simpl. rewrite E. unfold hdist, hlen, hdot, vdot. simpl. rewrite !Rminus_0_r, Rminus_diag_eq by reflexivity.
        replace (0 * 0 + 0 * 0 + 0 * 0 + 0 * 0) with 0 by ring. rewrite sqrt_0. lra.
    - rewrite app_length, fold_left_app, map_app. change (length [q]) with 1%nat. replace (length l + 1)%nat with (S (length l)) by lia.
      set (n := length l) in *. intro B.
      assert (Mn : 1 <= M ^ n) by (apply pow_ge1; exact M1). assert (mn : 1 <= m ^ n) by (apply pow_ge1; exact m1).
      assert (In0 : 0 <= INR n) by apply pos_INR. rewrite S_INR in B |- *.
      assert (W : 0 <= 9 * INR n * et) by (repeat apply Rmult_le_pos; lra).
      assert (B' : M ^ n * (1 + 9 * INR n * et) <= bpow radix2 (emax - 6)).
      { eapply Rle_trans; [| exact B]. simpl. assert (M ^ n <= M * M ^ n) by nra.
        apply Rmult_le_compat; [lra | lra | assumption | lra]. }
      destruct (IH ltac:(intros x Hx; apply Hl, in_or_app; left; exact Hx) B') as (Fa & La & Da). clear IH.
      destruct (Hl q ltac:(apply in_or_app; right; left; reflexivity)) as [Fq Lq].
      unfold hprod in *. rewrite fold_left_app. simpl in *. match type of Fa with SpecFq.qfin ?a => set (acc := a : quat F) in * end. set (X := fold_left hmul (map qval l) hone) in *.
      assert (Lacc : hlen (qval acc) <= m ^ n + hdist (qval acc) X) by (pose proof (hlen_near (qval acc) X); lra).
      assert (Lb : hlen (qval acc) <= bpow radix2 (emax - 6)) by lra.
      assert (HP9 : (9 < emax)%Z) by (unfold Prec_lt_emax in Hm; lia).
      destruct (qmul_ieee (emax - 6) 1 acc q P ltac:(lia) ltac:(lia) Fa Fq Lb ltac:(simpl; lra)) as [Fr Dr].
      split; [exact Fr |].
      set (d := hdist (qval acc) X) in *. set (la := hlen (qval acc)) in *. set (lq := hlen (qval q)) in *.
      assert (Pq : 0 <= lq) by apply hlen_pos. assert (Pa : 0 <= la) by apply hlen_pos. assert (Pd : 0 <= d) by apply hlen_pos.
      split.
      + rewrite hlen_mul. fold lq. rewrite (Rmult_comm (hlen X)). apply Rmult_le_compat; [exact Pq | apply hlen_pos | exact Lq | exact La].
      + eapply Rle_trans; [apply (hdist_triangle _ (hmul (qval acc) (qval q))) |].
        assert (E : hdist (hmul (qval acc) (qval q)) (hmul X (qval q)) = d * lq) by (unfold hdist; rewrite hmul_sub_l, hlen_mul; reflexivity).
        rewrite E. assert (A1 : la * lq <= (m ^ n + d) * m) by (apply Rmult_le_compat; assumption).
        assert (A2 : 9 * u * (la * lq) <= 9 * u * ((m ^ n + d) * m)) by (apply Rmult_le_compat_l; lra).
        assert (A3 : d * lq <= d * m) by (apply Rmult_le_compat_l; assumption).
        assert (A4 : d * M <= (M ^ n - m ^ n + 9 * INR n * et * M ^ n) * M) by (apply Rmult_le_compat_r; lra).
        assert (A5 : 9 * et * 1 <= 9 * et * (M * M ^ n)) by (apply Rmult_le_compat_l; [lra | apply (pow_ge1 M (S n) M1)]).
        assert (Eq : 9 * u * ((m ^ n + d) * m) + d * m = d * M + m ^ n * (M - m)) by (unfold M; ring).
        replace (M * M ^ n - m * m ^ n + 9 * (INR n + 1) * et * (M * M ^ n)) with
          ((M ^ n - m ^ n + 9 * INR n * et * M ^ n) * M + m ^ n * (M - m) + 9 * et * (M * M ^ n)) by ring.
        lra.
  Qed.

  (** ---- rotation: a p b for a pure quaternion p ---- *)
  Lemma norm_hlen v : hlen (H v 0) = norm v.
  Proof. unfold hlen, hdot, norm. simpl. f_equal. ring. Qed.
  Lemma zero_val : val (@n0 F) = 0. Proof. apply (@fv_lit_0 prec emax Hp Hm). Qed.
  Lemma qvec_val (p : mat3x1 F) : fin3 p -> qfin (quat_of_vec p) /\ qval (quat_of_vec p) = H (v3 p) 0.
  Proof.
    destruct p as [[x y z]]. intros (F1 & F2 & F3). split; [repeat split; try assumption; apply (@fv_lit_0 prec emax Hp Hm) |].
    unfold SpecFq.qval, quat_of_vec. cbn [qx qy qz qw]. rewrite zero_val. reflexivity.
  Qed.
  Lemma qconj_val (q : quat F) : qfin q -> qfin (quat_conjugate q) /\ qval (quat_conjugate q) = hconj (qval q).
  Proof.
    destruct q as [x y z w]. intros (F1 & F2 & F3 & F4). cbn [qx qy qz qw] in *. split.
    - repeat split; cbn; rewrite ?is_finite_Bopp; assumption.
    - unfold SpecFq.qval, quat_conjugate, hconj, vscale. cbn. rewrite !B2R_Bopp. f_equal. f_equal; ring.
  Qed.
  Lemma hlen_conj q : hlen (hconj q) = hlen q.
  Proof. unfold hlen. f_equal. hring. Qed.
  Lemma sandwich (a b : quat F) (p : mat3x1 F) : (9 < prec)%Z -> qfin a -> qfin b -> fin3 p -> hlen (qval a) <= 2 -> hlen (qval b) <= 2 ->
    norm (v3 p) <= bpow radix2 (emax - 8) ->
    let r := quat_mul (quat_mul a (quat_of_vec p)) b in
    qfin r /\ hdist (qval r) (hmul (hmul (qval a) (H (v3 p) 0)) (qval b)) <= 19 * u * (hlen (qval a) * hlen (qval b) * norm (v3 p)) + 28 * et.
  Proof.
    intros P Fa Fb Fp La Lb Lp r. destruct (qvec_val p Fp) as [Fv Ev].
    assert (HP9 : (10 < emax)%Z) by (unfold Prec_lt_emax in Hm; lia).
    pose proof (u_pos prec) as U0. pose proof (et_pos prec emax) as T0. pose proof (u_small prec P) as U. pose proof (et_small prec emax P) as T.
    assert (Ln : hlen (qval (quat_of_vec p)) = norm (v3 p)) by (rewrite Ev; apply norm_hlen).
    destruct (qmul_ieee 1 (emax - 8) a (quat_of_vec p) P ltac:(lia) ltac:(lia) Fa Fv La ltac:(rewrite Ln; exact Lp)) as [F1 D1].
    rewrite Ln, Ev in D1. set (t := quat_mul a (quat_of_vec p)) in *. set (A := hlen (qval a)) in *. set (B := hlen (qval b)) in *. set (N := norm (v3 p)) in *.
    set (X := hmul (qval a) (H (v3 p) 0)) in *.
    assert (LX : hlen X = A * N) by (unfold X; rewrite hlen_mul, norm_hlen; reflexivity).
    assert (PA : 0 <= A) by apply hlen_pos. assert (PB : 0 <= B) by apply hlen_pos. assert (PN : 0 <= N) by apply norm_pos.
    assert (PAN : 0 <= A * N) by (apply Rmult_le_pos; assumption).
    pose proof (hlen_near (qval t) X) as Lt. rewrite LX in Lt. set (L := hlen (qval t)) in *. set (d := hdist (qval t) X) in *.
    assert (Pd : 0 <= d) by apply hlen_pos. assert (PL : 0 <= L) by apply hlen_pos.
    assert (Lb' : L <= bpow radix2 (emax - 6)).
    { replace (emax - 6)%Z with (emax - 8 + 2)%Z by lia. rewrite bpow_plus. change (bpow radix2 2) with 4.
      assert (O : 1 <= bpow radix2 (emax - 8)) by (change 1 with (bpow radix2 0); apply bpow_le; lia).
      assert (A * N <= 2 * bpow radix2 (emax - 8)) by (apply Rmult_le_compat; assumption).
      assert (9 * u * (A * N) <= 9 * / 1024 * (A * N)) by (apply Rmult_le_compat_r; lra). lra. }
    destruct (qmul_ieee (emax - 6) 1 t b P ltac:(lia) ltac:(lia) F1 Fb Lb' Lb) as [F2 D2]. fold r L B in F2, D2. split; [exact F2 |].
    eapply Rle_trans; [apply (hdist_triangle _ (hmul (qval t) (qval b))) |].
    assert (E : hdist (hmul (qval t) (qval b)) (hmul X (qval b)) = d * B) by (unfold hdist; rewrite hmul_sub_l, hlen_mul; reflexivity). rewrite E.
    assert (Q1 : L * B <= (A * N + d) * B) by (apply Rmult_le_compat_r; lra).
    assert (Q2 : 9 * u * (L * B) <= 9 * u * ((A * N + d) * B)) by (apply Rmult_le_compat_l; lra).
    assert (Q3 : d * B * (1 + 9 * u) <= (9 * u * (A * N) + 9 * et) * B * (1 + 9 * u)) by (apply Rmult_le_compat_r; [lra |]; apply Rmult_le_compat_r; assumption).
    assert (Q4 : u * u <= u * / 1024) by (apply Rmult_le_compat_l; lra).
    assert (PANB : 0 <= A * N * B) by (apply Rmult_le_pos; assumption).
    assert (Q5 : (u * u) * (A * N * B) <= (u * / 1024) * (A * N * B)) by (apply Rmult_le_compat_r; assumption).
    assert (Q6 : et * B * (1 + 9 * u) <= et * 2 * (1 + 9 * / 1024)) by (apply Rmult_le_compat; [nra | lra | apply Rmult_le_compat_l; lra | lra]).
    assert (Z1 : 0 <= u * (A * N * B)) by (apply Rmult_le_pos; lra).
    replace (A * B * N) with (A * N * B) by ring.
    replace ((9 * u * (A * N) + 9 * et) * B * (1 + 9 * u)) with (9 * (u * (A * N * B)) + 81 * (u * u * (A * N * B)) + 9 * (et * B * (1 + 9 * u))) in Q3 by ring.
    replace (9 * u * ((A * N + d) * B)) with (9 * (u * (A * N * B)) + 9 * u * d * B) in Q2 by ring. lra.
  Qed.
  Lemma vpart (p q : H4) : dist (hv p) (hv q) <= hdist p q.
  Proof. unfold dist, norm, hdist, hlen, hdot. apply sqrt_le_1_alt. cbn [hv hs hsub]. pose proof (Rle_0_sqr (hs p - hs q)). unfold Rsqr in *. lra. Qed.
  Lemma v3_hv (q : quat F) : v3 (M3x1 (A3 (qx q) (qy q) (qz q)) : mat3x1 F) = hv (qval q). Proof. reflexivity. Qed.
  Lemma rotate_ieee (q : quat F) (p : mat3x1 F) : (9 < prec)%Z -> qfin q -> fin3 p -> hlen (qval q) <= 2 -> norm (v3 p) <= bpow radix2 (emax - 8) ->
    let r := quat_rotate_vector q p in
    fin3 r /\ dist (v3 r) (hrot (qval q) (v3 p)) <= 19 * u * (hdot (qval q) (qval q) * norm (v3 p)) + 28 * et.
  Proof.
    intros P Fq Fp Lq Lp r. destruct (qconj_val q Fq) as [Fc Ec].
    destruct (sandwich q (quat_conjugate q) p P Fq Fc Fp Lq ltac:(rewrite Ec, hlen_conj; exact Lq) Lp) as [Fr Dr].
    split; [destruct Fr as (F1 & F2 & F3 & _); repeat split; assumption |].
    rewrite Ec, hlen_conj, hlen_sq in Dr. eapply Rle_trans; [| exact Dr]. unfold hrot. eapply Rle_trans; [| apply vpart]. apply Rle_refl.
  Qed.
  Lemma reflect_ieee (q : quat F) (p : mat3x1 F) : (9 < prec)%Z -> qfin q -> fin3 p -> hlen (qval q) <= 2 -> norm (v3 p) <= bpow radix2 (emax - 8) ->
    let r := quat_reflection_in_plane q p in
    fin3 r /\ dist (v3 r) (hv (hmul (hmul (qval q) (H (v3 p) 0)) (qval q))) <= 19 * u * (hdot (qval q) (qval q) * norm (v3 p)) + 28 * et.
  Proof.
    intros P Fq Fp Lq Lp r. destruct (sandwich q q p P Fq Fq Fp Lq Lq Lp) as [Fr Dr].
    split; [destruct Fr as (F1 & F2 & F3 & _); repeat split; assumption |].
    rewrite hlen_sq in Dr. eapply Rle_trans; [| exact Dr]. eapply Rle_trans; [| apply vpart]. apply Rle_refl.
  Qed.
  Lemma norm_near a b : norm a <= norm b + dist a b.
  Proof. unfold dist. replace a with (vadd b (vsub a b)) at 1 by (apply V3_eq; simpl; ring). apply triangle. Qed.
  (** lengths are kept by quaternions whose length is 1 up to 9 roundoffs *)
  Lemma rotate_length (q : quat F) (p : mat3x1 F) : (9 < prec)%Z -> qfin q -> fin3 p -> Rabs (hlen (qval q) - 1) <= 9 * u ->
    norm (v3 p) <= bpow radix2 (emax - 8) ->
    Rabs (norm (v3 (quat_rotate_vector q p)) - norm (v3 p)) <= 38 * u * norm (v3 p) + 28 * et.
  Proof.
    intros P Fq Fp Lq Lp. pose proof (u_pos prec) as U0. pose proof (et_pos prec emax) as T0. pose proof (u_small prec P) as U. apply Rabs_le_inv in Lq.
    destruct (rotate_ieee q p P Fq Fp ltac:(lra) Lp) as [_ D]. set (r := quat_rotate_vector q p) in *.
    assert (E : norm (hrot (qval q) (v3 p)) = hdot (qval q) (qval q) * norm (v3 p)).
    { unfold norm. rewrite hrot_dot_gen. rewrite sqrt_sqk by (try apply hdot_pos; apply vdot_pos). reflexivity. }
    pose proof (norm_near (v3 r) (hrot (qval q) (v3 p))) as N1. pose proof (norm_near (hrot (qval q) (v3 p)) (v3 r)) as N2. rewrite dist_sym in N2.
    rewrite E in N1, N2. rewrite <- hlen_sq in N1, N2, D. set (L := hlen (qval q)) in *. set (n := norm (v3 p)) in *. assert (Pn : 0 <= n) by apply norm_pos.
    set (dd := dist (v3 r) (hrot (qval q) (v3 p))) in *. clearbody L n dd.
    assert (U2 : u * u <= u * / 1024) by (apply Rmult_le_compat_l; lra).
    assert (S1 : L * L <= 1 + (18 + 1 / 10) * u) by nra. assert (S2 : 1 - 18 * u <= L * L) by nra.
    assert (Z : 0 <= u * n) by (apply Rmult_le_pos; lra).
    assert (W1 : L * L * n <= (1 + (18 + 1 / 10) * u) * n) by (apply Rmult_le_compat_r; assumption).
    assert (W2 : (1 - 18 * u) * n <= L * L * n) by (apply Rmult_le_compat_r; assumption).
    assert (W3 : 19 * u * (L * L * n) <= 19 * u * ((1 + 1 / 50) * n)) by (apply Rmult_le_compat_l; [lra |]; apply Rmult_le_compat_r; lra).
    apply Rabs_le. split; lra.
  Qed.

  (** ---- rotation matrix ---- *)
  Lemma err2_small A : (9 < prec)%Z -> 0 <= A -> err prec emax 2 A <= (2 + 1 / 100) * u * A + (2 + 1 / 100) * et.
  Proof.
    intros P HA. pose proof (u_small prec P) as U. pose proof (u_pos prec) as U0. pose proof (et_pos prec emax) as T0.
    unfold err. replace (INR 2) with 2 by (simpl; lra). change (2 - 1)%nat with 1%nat.
    assert (U2 : 0 <= u * u <= u * / 1024) by (split; [nra | apply Rmult_le_compat_l; lra]).
    assert (((1 + u) ^ 2 - 1) * A <= (2 + 1 / 100) * u * A) by (apply Rmult_le_compat_r; [exact HA |]; simpl; lra).
    assert (2 * (1 + u) ^ 1 * et <= (2 + 1 / 100) * et) by (apply Rmult_le_compat_r; simpl; lra). lra.
  Qed.
  (** twice a sum or difference of two products *)
  Lemma twice (s : bool) (a b c d : bf) : (9 < prec)%Z -> bnd 1 a -> bnd 1 b -> bnd 1 c -> bnd 1 d ->
    let t := (if s then Bminus mode_NE else @Bplus prec emax Hp Hm mode_NE) (Bmult mode_NE a b) (Bmult mode_NE c d) in
    let S := if s then val a * val b - val c * val d else val a * val b + val c * val d in
    bnd 4 (Bmult mode_NE (@n2 F) t) /\
    Rabs (val (Bmult mode_NE (@n2 F) t) - 2 * S) <= (4 + 1 / 50) * u * (Rabs (val a * val b) + Rabs (val c * val d)) + (4 + 1 / 50) * et.
  Proof.
    intros P Ba Bb Bc Bd t S. assert (HP9 : (10 < emax)%Z) by (unfold Prec_lt_emax in Hm; lia).
    destruct (mult_bnd prec emax 1 1 a b ltac:(lia) ltac:(lia) Ba Bb) as [_ M1]. destruct (mult_bnd prec emax 1 1 c d ltac:(lia) ltac:(lia) Bc Bd) as [_ M2].
    assert (Bt : bnd 3 t).
    { unfold t. destruct s; [apply (minus_bnd prec emax 2 _ _ ltac:(lia) ltac:(lia) M1 M2) | apply (plus_bnd prec emax 2 _ _ ltac:(lia) ltac:(lia) M1 M2)]. }
    destruct (@fv_lit_2 prec emax Hp Hm) as [F2 V2].
    assert (B2 : bnd 1 (@n2 F)) by (split; [exact F2 | change (Rabs (val (@f_lit prec emax Hp Hm 2 1)) <= 2); rewrite V2, Rabs_pos_eq; lra]).
    destruct (mult_bnd prec emax 1 3 (@n2 F) t ltac:(lia) ltac:(lia) B2 Bt) as [[_ V] M]. split; [exact M |].
    assert (E : val (Bmult mode_NE (@n2 F) t) = 2 * val t).
    { rewrite V. change (val (@n2 F)) with (val (@f_lit prec emax Hp Hm 2 1)). rewrite V2. exact (rnd_double prec emax t). }
    rewrite E. clear E V M. set (A := Rabs (val a * val b) + Rabs (val c * val d)).
    assert (HA : 0 <= A) by (unfold A; pose proof (Rabs_pos (val a * val b)); pose proof (Rabs_pos (val c * val d)); lra).
    assert (D : Rabs (val t - S) <= err prec emax 2 A).
    { destruct Bt as [Ft _]. unfold t, S, A in *. destruct s; [exact (proj2 (proj1 (diff2_approx prec emax a b c d Ft))) | exact (proj2 (proj1 (sum2_approx prec emax a b c d Ft)))]. }
    pose proof (err2_small A P HA). replace (2 * val t - 2 * S) with (2 * (val t - S)) by ring. rewrite Rabs_mult, (Rabs_pos_eq 2) by lra. lra.
  Qed.
  Lemma one_minus (t : bf) : (9 < prec)%Z -> bnd 4 t ->
    within (Bminus mode_NE (@n1 F) t) (1 - val t) (u * (1 + Rabs (val t))).
  Proof.
    intros P B. assert (HP9 : (10 < emax)%Z) by (unfold Prec_lt_emax in Hm; lia).
    destruct (@fv_lit_1 prec emax Hp Hm) as [F1 V1].
    assert (B1 : bnd 4 (@n1 F)) by (split; [exact F1 | change (Rabs (val (@f_lit prec emax Hp Hm 1 1)) <= bpow radix2 4); rewrite V1, Rabs_pos_eq by lra; simpl; lra]).
    destruct (minus_bnd prec emax 4 _ t ltac:(lia) ltac:(lia) B1 B) as [[Fm Vm] _]. split; [exact Fm |]. rewrite Vm.
    destruct (minus_rel prec emax (@n1 F) t) as (e & He & Ee). rewrite Ee. change (val (@n1 F)) with (val (@f_lit prec emax Hp Hm 1 1)). rewrite V1.
    replace ((1 - val t) * (1 + e) - (1 - val t)) with (e * (1 - val t)) by ring. rewrite Rabs_mult.
    apply Rmult_le_compat; [apply Rabs_pos | apply Rabs_pos | exact He |].
    unfold Rminus. eapply Rle_trans; [apply Rabs_triang |]. rewrite Rabs_Ropp, (Rabs_pos_eq 1); lra.
  Qed.
  Lemma pair_le (a b c d : R) : Rabs (a * b) + Rabs (c * d) <= (a * a + b * b + c * c + d * d) / 2.
  Proof.
    rewrite !Rabs_mult. pose proof (sqr_abs a). pose proof (sqr_abs b). pose proof (sqr_abs c). pose proof (sqr_abs d).
    rewrite Rabs_mult in *. pose proof (Rle_0_sqr (Rabs a - Rabs b)). pose proof (Rle_0_sqr (Rabs c - Rabs d)). unfold Rsqr in *. lra.
  Qed.
  Lemma off_diag (s : bool) (a b c d : bf) (L : R) : (9 < prec)%Z -> bnd 1 a -> bnd 1 b -> bnd 1 c -> bnd 1 d -> val a * val a + val b * val b + val c * val c + val d * val d = L ->
    let t := (if s then Bminus mode_NE else @Bplus prec emax Hp Hm mode_NE) (Bmult mode_NE a b) (Bmult mode_NE c d) in
    let S := if s then val a * val b - val c * val d else val a * val b + val c * val d in
    within (Bmult mode_NE (@n2 F) t) (2 * S) (7 * u * (1 + L) + 5 * et).
  Proof.
    intros P Ba Bb Bc Bd HL t S. destruct (twice s a b c d P Ba Bb Bc Bd) as [[Ft _] D]. fold t S in Ft, D. split; [exact Ft |].
    eapply Rle_trans; [exact D |]. pose proof (u_pos prec) as U0. pose proof (et_pos prec emax) as T0.
    pose proof (pair_le (val a) (val b) (val c) (val d)) as A. rewrite HL in A.
    assert (0 <= L) by (rewrite <- HL; nra).
    assert (Q : u * (Rabs (val a * val b) + Rabs (val c * val d)) <= u * (L / 2)) by (apply Rmult_le_compat_l; lra).
    assert (0 <= u * L) by (apply Rmult_le_pos; lra). lra.
  Qed.
  Lemma diag (a b : bf) (L : R) : (9 < prec)%Z -> bnd 1 a -> bnd 1 b -> val a * val a + val b * val b <= L ->
    let t := Bmult mode_NE (@n2 F) (Bplus mode_NE (Bmult mode_NE a a) (Bmult mode_NE b b)) in
    within (Bminus mode_NE (@n1 F) t) (1 - 2 * (val a * val a + val b * val b)) (7 * u * (1 + L) + 5 * et).
  Proof.
    intros P Ba Bb HL t. destruct (twice false a a b b P Ba Ba Bb Bb) as [Bt D]. fold t in Bt, D. rewrite !sqr_abs in D.
    destruct (one_minus t P Bt) as [Fm Dm]. split; [exact Fm |].
    pose proof (u_pos prec) as U0. pose proof (et_pos prec emax) as T0. pose proof (u_small prec P) as U.
    set (S := val a * val a + val b * val b) in *. assert (HS : 0 <= S) by (unfold S; nra). clearbody S.
    set (m := Bminus mode_NE (@n1 F) t) in *. clearbody m.
    assert (T1 : Rabs (val t) <= 2 * S + ((4 + 1 / 50) * u * S + (4 + 1 / 50) * et)).
    { replace (val t) with ((val t - 2 * S) + 2 * S) by ring. eapply Rle_trans; [apply Rabs_triang |]. rewrite (Rabs_pos_eq (2 * S)) by lra. lra. }
    assert (T2 : u * Rabs (val t) <= u * (2 * S + ((4 + 1 / 50) * u * S + (4 + 1 / 50) * et))) by (apply Rmult_le_compat_l; lra).
    assert (U2 : u * u <= u * / 1024) by (apply Rmult_le_compat_l; lra).
    assert (U3 : u * u * S <= u * / 1024 * S) by (apply Rmult_le_compat_r; assumption).
    assert (U4 : u * et <= / 1024 * et) by (apply Rmult_le_compat_r; lra).
    assert (U5 : u * S <= u * L) by (apply Rmult_le_compat_l; lra).
    assert (0 <= u * S) by (apply Rmult_le_pos; lra).
    replace (val m - (1 - 2 * S)) with ((val m - (1 - val t)) + (2 * S - val t)) by ring. eapply Rle_trans; [apply Rabs_triang |].
    rewrite (Rabs_minus_sym (2 * S)). lra.
  Qed.
  Lemma rotmat_ieee (q : quat F) : (9 < prec)%Z -> qfin q -> hlen (qval q) <= 2 ->
    (forall i j, (i < 3)%N -> (j < 3)%N ->
      within (log4 (quat_to_rotation_matrix q true) i j) (comp i (hact (qval q) (axis j))) (7 * u * (1 + hdot (qval q) (qval q)) + 5 * et)) /\
    (forall i, (i < 3)%N -> log4 (quat_to_rotation_matrix q true) i 3%N = n0 /\ log4 (quat_to_rotation_matrix q true) 3%N i = n0) /\
    log4 (quat_to_rotation_matrix q true) 3%N 3%N = n1.
  Proof.
    intros P Fq Lq. destruct (comp_bnd 1 q Fq Lq) as (Bx & By & Bz & Bw). split; [| split; [intros i Hi; cases3 i Hi; split; reflexivity | reflexivity]].
    assert (HL : hdot (qval q) (qval q) = val (qx q) * val (qx q) + val (qy q) * val (qy q) + val (qz q) * val (qz q) + val (qw q) * val (qw q)) by reflexivity.
    set (L := hdot (qval q) (qval q)) in *. clearbody L.
    assert (Ex : forall t v v' e, within t v e -> v = v' -> @within prec emax t v' e) by (intros; subst; assumption).
    intros i j Hi Hj. cases3 i Hi; cases3 j Hj.
    - eapply Ex; [apply (diag (qy q) (qz q) L P By Bz ltac:(nra)) |]. unfold hact. simpl. unfold vdot. simpl. ring.
    - eapply Ex; [apply (off_diag true (qx q) (qy q) (qz q) (qw q) L P Bx By Bz Bw ltac:(lra)) |]. unfold hact. simpl. ring.
    - eapply Ex; [apply (off_diag false (qx q) (qz q) (qy q) (qw q) L P Bx Bz By Bw ltac:(lra)) |]. unfold hact. simpl. ring.
    - eapply Ex; [apply (off_diag false (qx q) (qy q) (qz q) (qw q) L P Bx By Bz Bw ltac:(lra)) |]. unfold hact. simpl. ring.
    - eapply Ex; [apply (diag (qx q) (qz q) L P Bx Bz ltac:(nra)) |]. unfold hact. simpl. ring.
    - eapply Ex; [apply (off_diag true (qy q) (qz q) (qx q) (qw q) L P By Bz Bx Bw ltac:(lra)) |]. unfold hact. simpl. ring.
    - eapply Ex; [apply (off_diag true (qx q) (qz q) (qy q) (qw q) L P Bx Bz By Bw ltac:(lra)) |]. unfold hact. simpl. ring.
    - eapply Ex; [apply (off_diag false (qz q) (qy q) (qx q) (qw q) L P Bz By Bx Bw ltac:(lra)) |]. unfold hact. simpl. ring.
    - eapply Ex; [apply (diag (qx q) (qy q) L P Bx By ltac:(nra)) |]. unfold hact. simpl. ring.
  Qed.
  Lemma hact_rot q v : hunit q -> hact q v = hrot q v.
  Proof.
    intro U. unfold hunit, hdot, vdot in U. destruct q as [[x y z] w], v as [a b c]. simpl in U. assert (Hw : w * w = 1 - x * x - y * y - z * z) by lra.
    unfold hact, hrot. apply V3_eq; simpl; unfold vdot; simpl; ring [Hw].
  Qed.

  (** ---- linear interpolation ---- *)
  Lemma hlen_mono (p q : H4) : Rabs (vx (hv p)) <= vx (hv q) -> Rabs (vy (hv p)) <= vy (hv q) -> Rabs (vz (hv p)) <= vz (hv q) -> Rabs (hs p) <= hs q -> hlen p <= hlen q.
  Proof.
    intros A B C D. apply Rabs_le_inv in A, B, C, D. unfold hlen, hdot, vdot. apply sqrt_le_1_alt. destruct p as [[? ? ?] ?], q as [[? ? ?] ?]. simpl in *. nra.
  Qed.
  Definition clampF (t : F) : F := let c := if ngt t n1 then n1 else t in if nlt c n0 then n0 else c.
  Lemma clamp_val (t : F) : fin t -> fin (clampF t) /\ val (clampF t) = clamp01 (val t).
  Proof.
    intro Ft. destruct (@fv_lit_0 prec emax Hp Hm) as [F0 V0]. destruct (@fv_lit_1 prec emax Hp Hm) as [F1 V1].
    change (@f_lit prec emax Hp Hm 0 1) with (@n0 F) in *. change (@f_lit prec emax Hp Hm 1 1) with (@n1 F) in *.
    unfold clampF, clamp01. destruct (ngt t n1) eqn:G.
    - apply (ngt_val prec emax lm t n1 Ft F1) in G. rewrite V1 in G.
      assert (N : nlt (@n1 F) n0 = false).
      { apply not_true_is_false. intro N. apply (nlt_F prec emax lm) in N. rewrite !fin_x in N by assumption. unfold xlt in N. rewrite V0, V1 in N. lra. }
      rewrite N. split; [exact F1 |]. rewrite V1, Rmin_left, Rmax_right by lra. reflexivity.
    - assert (G' : val t <= 1).
      { apply Rnot_lt_le. intro C. rewrite <- V1 in C. apply (ngt_val prec emax lm t n1 Ft F1) in C. congruence. }
      destruct (nlt t n0) eqn:N.
      + apply (nlt_F prec emax lm) in N. rewrite !fin_x in N by assumption. unfold xlt in N. rewrite V0 in N.
        split; [exact F0 |]. rewrite V0, Rmin_right, Rmax_left by lra. reflexivity.
      + split; [exact Ft |]. assert (0 <= val t).
        { apply Rnot_lt_le. intro C. rewrite <- V0 in C. assert (nlt t n0 = true); [| congruence]. apply (nlt_F prec emax lm). rewrite !fin_x by assumption. exact C. }
        rewrite Rmin_right, Rmax_right by lra. reflexivity.
  Qed.
  Lemma clamp_range t : 0 <= clamp01 t <= 1.
  Proof. unfold clamp01. split; [apply Rmax_l |]. apply Rmax_lub; [lra | apply Rmin_l]. Qed.
  Lemma lerp_comp (a b c : bf) : (9 < prec)%Z -> bnd (emax - 4) a -> bnd (emax - 4) b -> fin c -> 0 <= val c <= 1 ->
    within (Bplus mode_NE (Bmult mode_NE a (Bminus mode_NE (@n1 F) c)) (Bmult mode_NE b c)) ((1 - val c) * val a + val c * val b)
      (4 * u * ((1 - val c) * Rabs (val a)) + 4 * u * (val c * Rabs (val b)) + 3 * et).
  Proof.
    intros P Ba Bb Fc [c0 c1]. assert (HP9 : (10 < emax)%Z) by (unfold Prec_lt_emax in Hm; lia).
    destruct (@fv_lit_1 prec emax Hp Hm) as [F1 V1]. change (@f_lit prec emax Hp Hm 1 1) with (@n1 F) in *.
    assert (B1 : bnd 0 (@n1 F)) by (split; [exact F1 | rewrite V1, Rabs_pos_eq by lra; simpl; lra]).
    assert (Bc : bnd 0 c) by (split; [exact Fc | rewrite Rabs_pos_eq by lra; simpl; lra]).
    destruct (minus_bnd prec emax 0 _ c ltac:(lia) ltac:(lia) B1 Bc) as [[Fk Vk] Bk]. set (k := Bminus mode_NE (@n1 F) c) in *.
    destruct (minus_rel prec emax (@n1 F) c) as (e & He & Ee). rewrite Ee, V1 in Vk. clear Ee.
    destruct (mult_bnd prec emax (emax - 4) 1 a k ltac:(lia) ltac:(lia) Ba Bk) as [_ M1].
    destruct (mult_bnd prec emax (emax - 4) 0 b c ltac:(lia) ltac:(lia) Bb Bc) as [_ M2].
    destruct (plus_bnd prec emax (emax - 3) _ _ ltac:(lia) ltac:(lia) (bnd_le prec emax (emax - 4 + 1) (emax - 3) _ ltac:(lia) M1) (bnd_le prec emax (emax - 4 + 0) (emax - 3) _ ltac:(lia) M2)) as [[Ft _] _].
    split; [exact Ft |]. destruct (sum2_approx prec emax a k b c Ft) as [[_ D] _]. set (t := Bplus mode_NE (Bmult mode_NE a k) (Bmult mode_NE b c)) in *. clearbody t.
    pose proof (u_pos prec) as U0. pose proof (et_pos prec emax) as T0. pose proof (u_small prec P) as U.
    assert (U2 : u * u <= u * / 1024) by (apply Rmult_le_compat_l; lra).
    assert (Ak : Rabs (val a * val k) <= (1 + u) * ((1 - val c) * Rabs (val a))).
    { rewrite Vk, (Rabs_mult (val a)), (Rabs_mult (1 - val c)), (Rabs_pos_eq (1 - val c)) by lra. replace ((1 + u) * ((1 - val c) * Rabs (val a))) with (Rabs (val a) * ((1 - val c) * (1 + u))) by ring.
      apply Rmult_le_compat_l; [apply Rabs_pos |]. apply Rmult_le_compat_l; [lra |]. apply Rabs_le_inv in He. rewrite Rabs_pos_eq; lra. }
    assert (Dk : Rabs (val a * val k - (1 - val c) * val a) <= u * ((1 - val c) * Rabs (val a))).
    { rewrite Vk. replace (val a * ((1 - val c) * (1 + e)) - (1 - val c) * val a) with (e * ((1 - val c) * val a)) by ring.
      rewrite Rabs_mult, (Rabs_mult (1 - val c)), (Rabs_pos_eq (1 - val c)) by lra. apply Rmult_le_compat_r; [| exact He]. apply Rmult_le_pos; [lra | apply Rabs_pos]. }
    assert (Ab : Rabs (val b * val c) = val c * Rabs (val b)) by (rewrite Rabs_mult, (Rabs_pos_eq (val c)) by lra; ring).
    set (A := (1 - val c) * Rabs (val a)) in *. set (B := val c * Rabs (val b)) in *.
    assert (PA : 0 <= A) by (apply Rmult_le_pos; [lra | apply Rabs_pos]). assert (PB : 0 <= B) by (apply Rmult_le_pos; [lra | apply Rabs_pos]).
    pose proof (err2_small (Rabs (val a * val k) + Rabs (val b * val c)) P ltac:(pose proof (Rabs_pos (val a * val k)); pose proof (Rabs_pos (val b * val c)); lra)) as E2.
    rewrite Ab in E2, D.
    assert (Q1 : u * Rabs (val a * val k) <= u * ((1 + u) * A)) by (apply Rmult_le_compat_l; lra).
    assert (Q2 : u * u * A <= u * / 1024 * A) by (apply Rmult_le_compat_r; assumption).
    assert (0 <= u * A) by (apply Rmult_le_pos; lra). assert (0 <= u * B) by (apply Rmult_le_pos; lra).
    replace (val t - ((1 - val c) * val a + val c * val b)) with ((val t - (val a * val k + val b * val c)) + (val a * val k - (1 - val c) * val a)) by ring.
    eapply Rle_trans; [apply Rabs_triang |]. lra.
  Qed.
  Lemma lerp_ieee (a b : quat F) (t : F) : (9 < prec)%Z -> qfin a -> qfin b -> fin t ->
    hlen (qval a) <= bpow radix2 (emax - 4) -> hlen (qval b) <= bpow radix2 (emax - 4) ->
    let r := quat_interpolate_linear a b t in let c := clamp01 (val t) in
    qfin r /\ hdist (qval r) (hadd (hscale (1 - c) (qval a)) (hscale c (qval b))) <= 4 * u * ((1 - c) * hlen (qval a) + c * hlen (qval b)) + 6 * et.
  Proof.
    intros P Fa Fb Ft La Lb r c. destruct (clamp_val t Ft) as [Fc Vc]. fold c in Vc. pose proof (clamp_range (val t)) as [c0 c1]. fold c in c0, c1.
    destruct (comp_bnd _ a Fa La) as (A1 & A2 & A3 & A4). destruct (comp_bnd _ b Fb Lb) as (B1 & B2 & B3 & B4).
    assert (Rg : 0 <= val (clampF t) <= 1) by (rewrite Vc; split; assumption).
    destruct (lerp_comp _ _ _ P A1 B1 Fc Rg) as [F1 D1]. destruct (lerp_comp _ _ _ P A2 B2 Fc Rg) as [F2 D2].
    destruct (lerp_comp _ _ _ P A3 B3 Fc Rg) as [F3 D3]. destruct (lerp_comp _ _ _ P A4 B4 Fc Rg) as [F4 D4].
    rewrite Vc in D1, D2, D3, D4. split; [repeat split; assumption |].
    pose proof (u_pos prec) as U0. pose proof (et_pos prec emax) as T0.
    pose (ab := fun q : H4 => H (V (Rabs (vx (hv q))) (Rabs (vy (hv q))) (Rabs (vz (hv q)))) (Rabs (hs q))).
    assert (Lab : forall q, hlen (ab q) = hlen q) by (intro q; unfold hlen, hdot, vdot, ab; simpl; rewrite <- !Rabs_mult, !sqr_abs; reflexivity).
    assert (Lsc : forall k q, 0 <= k -> hlen (hscale k q) = k * hlen q).
    { intros k q Hk. unfold hlen. rewrite <- sqrt_sqk by (try apply hdot_pos; exact Hk). f_equal. hring. }
    unfold hdist. eapply Rle_trans.
    - apply (hlen_mono _ (hadd (hadd (hscale (4 * u * (1 - c)) (ab (qval a))) (hscale (4 * u * c) (ab (qval b)))) (hscale (3 * et) (H (V 1 1 1) 1)))).
      + eapply Rle_trans; [exact D1 |]. simpl. right. ring.
      + eapply Rle_trans; [exact D2 |]. simpl. right. ring.
      + eapply Rle_trans; [exact D3 |]. simpl. right. ring.
      + eapply Rle_trans; [exact D4 |]. simpl. right. ring.
    - eapply Rle_trans; [apply hlen_triangle |]. eapply Rle_trans; [apply Rplus_le_compat_r, hlen_triangle |].
      rewrite !Lsc by (repeat apply Rmult_le_pos; lra). rewrite !Lab.
      replace (hlen (H (V 1 1 1) 1)) with 2; [right; ring |].
      unfold hlen, hdot, vdot. simpl. replace (1 * 1 + 1 * 1 + 1 * 1 + 1 * 1) with (2 * 2) by ring. rewrite sqrt_square; lra.
  Qed.
End Ieee4.
