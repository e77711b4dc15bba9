(** PScale2.v — intersection queries on data scaled by powers of two (C115). *)
From Coq Require Import Reals List ZArith NArith Bool Lra Lia.
From Flocq Require Import Core BinarySingleNaN.
Import ListNotations.
From Verif Require Import Base Num Vec Mat Bound Shape Intersect Gjk Float FloatFacts FloatRound Order SpecMat SpecGeom SpecBound SpecBuild SpecMirror SpecScale
  PMat PBound PShape PInter PBuild PRound PIeee1 PIeee2 PIeee5 PMirror PMirror1 PMirror2 PScale.
Local Open Scope R_scope.

Section Scale2.
  Context (prec emax : Z) {Hp : Prec_gt_0 prec} {Hm : Prec_lt_emax prec emax} (lm : libm (binary_float prec emax)).
  Notation bf := (binary_float prec emax).
  Notation F := (@Ieee prec emax Hp Hm lm).
  Notation val := (@B2R prec emax).
  Notation emin := (3 - emax - prec)%Z.
  Notation G := (G prec emax).
  Notation ok := (ok prec emax).
  Notation T := (T prec emax).
  Notation vec := (mat3x1 F).
  Notation rnd := (round radix2 (SpecFloat.fexp prec emax) ZnearestE).
  Definition GV (s lo hi : Z) (v' v : vec) : Prop := G s lo hi (c0 v') (c0 v) /\ G s lo hi (c1 v') (c1 v) /\ G s lo hi (c2 v') (c2 v).
  Lemma GV_weak s lo hi lo' hi' v' v : (lo' <= lo)%Z -> (hi <= hi')%Z -> GV s lo hi v' v -> GV s lo' hi' v' v.
  Proof. intros A B (X & Y & Z). (split; [| split]); eapply G_weak; eassumption. Qed.
  Lemma GV_times3 s lo hi v' v : GV s lo hi v' v -> times3 s (v' : mat3x1 bf) (v : mat3x1 bf).
  Proof. destruct v' as [[]], v as [[]]. intros (X & Y & Z). split; [| split]; eapply G_times2; eassumption. Qed.
  Lemma medium_GV L s (v' v : vec) : all3 (medium L) (v : mat3x1 bf) -> times3 s (v' : mat3x1 bf) (v : mat3x1 bf) -> GV s (- L) L v' v.
  Proof. destruct v' as [[]], v as [[]]. intros (X & Y & Z) (X' & Y' & Z'). split; [| split]; apply medium_G; assumption. Qed.
  Lemma GV_minus s lo hi (a' a b' b : vec) : ok s lo hi -> ok s lo (hi + 1) -> GV s lo hi a' a -> GV s lo hi b' b -> GV s lo (hi + 1) (vminus a' b') (vminus a b).
  Proof. intros O O1 (X & Y & Z) (X' & Y' & Z'). (split; [| split]); apply (G_minus prec emax); assumption. Qed.
  Lemma GV_plus s lo hi (a' a b' b : vec) : ok s lo hi -> ok s lo (hi + 1) -> GV s lo hi a' a -> GV s lo hi b' b -> GV s lo (hi + 1) (vplus a' b') (vplus a b).
  Proof. intros O O1 (X & Y & Z) (X' & Y' & Z'). (split; [| split]); apply (G_plus prec emax); assumption. Qed.
  Lemma GV_scale s t lo lo' hi hi' (a' a : vec) (x' x : F) : ok (s + t) (lo + lo') (hi + hi') -> GV s lo hi a' a -> G t lo' hi' x' x -> GV (s + t) (lo + lo') (hi + hi') (vtimes a' x') (vtimes a x).
  Proof. intros O (X & Y & Z) H. (split; [| split]); apply (G_mult prec emax); assumption. Qed.
  Lemma G_dot s t lo lo' hi hi' (a' a b' b : vec) : ok (s + t) (lo + lo') (hi + hi') -> ok (s + t) (lo + lo') (hi + hi' + 2) -> GV s lo hi a' a -> GV t lo' hi' b' b ->
    G (s + t) (lo + lo') (hi + hi' + 2) (vdotn a' b') (vdotn a b).
  Proof.
    intros O O2 (X & Y & Z) (X' & Y' & Z'). assert (O1 : ok (s + t) (lo + lo') (hi + hi' + 1)) by (unfold PScale.ok in *; lia).
    replace (hi + hi' + 2)%Z with (hi + hi' + 1 + 1)%Z in * by lia.
    apply (G_plus prec emax); [exact O1 | exact O2 | apply (G_plus prec emax); [exact O | exact O1 | |] | apply (G_weak prec emax _ (lo + lo') (hi + hi')); [lia | lia |]]; apply (G_mult prec emax); assumption.
  Qed.
  (** order *)
  Lemma lt_T s (x' x y' y : F) : T s x' x -> T s y' y -> nlt x' y' = nlt x y.
  Proof. intros A B. unfold nlt. change (ncmp F) with (@Bcompare prec emax). rewrite (cmp_T prec emax s _ _ _ _ A B). reflexivity. Qed.
  Lemma gt_T s (x' x y' y : F) : T s x' x -> T s y' y -> ngt x' y' = ngt x y.
  Proof. intros A B. unfold ngt. change (ncmp F) with (@Bcompare prec emax). rewrite (cmp_T prec emax s _ _ _ _ A B). reflexivity. Qed.
  Lemma ge_T s (x' x y' y : F) : T s x' x -> T s y' y -> nge x' y' = nge x y.
  Proof. intros A B. unfold nge. change (ncmp F) with (@Bcompare prec emax). rewrite (cmp_T prec emax s _ _ _ _ A B). reflexivity. Qed.
  Lemma le_T s (x' x y' y : F) : T s x' x -> T s y' y -> nle x' y' = nle x y.
  Proof. intros A B. unfold nle. change (ncmp F) with (@Bcompare prec emax). rewrite (cmp_T prec emax s _ _ _ _ A B). reflexivity. Qed.
  Lemma eq_T s (x' x y' y : F) : T s x' x -> T s y' y -> neqb x' y' = neqb x y.
  Proof. intros A B. unfold neqb. change (ncmp F) with (@Bcompare prec emax). rewrite (cmp_T prec emax s _ _ _ _ A B). reflexivity. Qed.
  Lemma G_T s lo hi (x' x : F) : G s lo hi x' x -> T s x' x.
  Proof. intro H. left. eapply G_times2. exact H. Qed.
  Lemma val_n0 : is_finite (n0 (N := F) : bf) = true /\ val (n0 (N := F)) = 0.
  Proof. destruct (fv_lit_0 prec emax) as [Z0 Z1]. change (f_lit prec emax 0 1) with (n0 (N := F)) in *. split; assumption. Qed.
  Lemma T_0 s : T s (n0 (N := F)) (n0 (N := F)).
  Proof. left. destruct val_n0 as [A B]. repeat split; try assumption. rewrite B. ring. Qed.
  Lemma T_inf s b : T s (B754_infinity b) (B754_infinity b).
  Proof. right. split; [reflexivity | exists b; reflexivity]. Qed.
  Lemma within_G s lo hi (e' e x' x y' y : F) : ok s lo hi -> ok s lo (hi + 1) -> G s lo hi e' e -> G s lo hi x' x -> T s y' y -> within e' x' y' = within e x y.
  Proof.
    intros O O1 E X Y. unfold within. f_equal; [apply (ge_T s) | apply (le_T s)]; try exact Y; eapply G_T; [apply (G_plus prec emax s lo hi) | apply (G_minus prec emax s lo hi)]; assumption.
  Qed.
  Lemma nlt_0 (q : F) : is_finite (q : bf) = true -> nlt q n0 = false -> 0 <= val q.
  Proof.
    intros Fq H. unfold nlt in H. change (ncmp F) with (@Bcompare prec emax) in H. destruct val_n0 as [A B]. rewrite Bcompare_correct in H by assumption. rewrite B in H.
    destruct (Rcompare_spec (val q) 0); [discriminate | lra | lra].
  Qed.
  Lemma neqb_0 (q : F) : is_finite (q : bf) = true -> neqb q n0 = false -> val q <> 0.
  Proof.
    intros Fq H. unfold neqb in H. change (ncmp F) with (@Bcompare prec emax) in H. destruct val_n0 as [A B]. rewrite Bcompare_correct in H by assumption. rewrite B in H.
    destruct (Rcompare_spec (val q) 0); [lra | discriminate | lra].
  Qed.

  (** ---- unit vectors ---- *)
  Variables L k : Z.
  Hypothesis P : (9 < prec)%Z.
  Hypothesis HL : (0 <= L)%Z.
  Hypothesis Hk : (Z.abs k <= L)%Z.
  Hypothesis HB : (8 * L + 2 * prec + 16 <= emax)%Z.
  Ltac okk := unfold PScale.ok; lia.
  Definition N := (2 * L + prec)%Z.
  Lemma medium_sq x : medium L (x : bf) -> val x <> 0 -> bpow radix2 (- L + - L) <= val x * val x.
  Proof.
    intros (_ & _ & M) Nx. pose proof (gr_lower _ _ M Nx) as Q. rewrite bpow_plus. pose proof (bpow_gt_0 radix2 (- L)).
    replace (val x * val x) with (Rabs (val x) * Rabs (val x)) by (rewrite <- Rabs_mult; apply Rabs_pos_eq; nra). apply Rmult_le_compat; lra.
  Qed.
  Lemma heading_good (d : vec) : heading L (d : mat3x1 bf) -> good_normal (d : mat3x1 bf).
  Proof.
    destruct d as [[x y z]]. intros [(A & B & C) NZ]. cbn in A, B, C.
    assert (bpow radix2 L <= bpow radix2 (emax / 2 - 3)) as LB by (apply bpow_le; assert (2 * (emax / 2) >= emax - 1)%Z by (pose proof (Z.div_mod emax 2 ltac:(lia)); pose proof (Z.mod_pos_bound emax 2 ltac:(lia)); lia); lia).
    split; [split; [split; [apply A | split; [apply B | apply C]] | cbv zeta; repeat split; (eapply Rle_trans; [| exact LB]); first [apply A | apply B | apply C]] |].
    unfold vdot, v3. cbn [vx vy vz]. assert (S : forall t : R, 0 <= t * t) by (intro; nra). pose proof (S (val x)). pose proof (S (val y)). pose proof (S (val z)).
    assert (bpow radix2 (6 - emax) <= bpow radix2 (- L + - L)) as Q by (apply bpow_le; lia). eapply Rle_trans; [exact Q |].
    destruct (Req_dec (val x) 0) as [Ex | Nx]; [| pose proof (medium_sq x A Nx); lra].
    destruct (Req_dec (val y) 0) as [Ey | Ny]; [| pose proof (medium_sq y B Ny); lra].
    destruct (Req_dec (val z) 0) as [Ez | Nz]; [exfalso; apply NZ; repeat split; assumption | pose proof (medium_sq z C Nz); lra].
  Qed.
  Lemma mag_pos (v : vec) s lo hi (v' : vec) : ok (s + s) (lo + lo) (hi + hi) -> ok (s + s) (lo + lo) (hi + hi + 2) -> GV s lo hi v' v -> 0 <= val (vdotn v v) /\ (~ all3 (fun x => B2R x = 0) (v : mat3x1 bf) -> val (vdotn v v) <> 0).
  Proof.
    intros O O2 (X & Y & Z). assert (O1 : ok (s + s) (lo + lo) (hi + hi + 1)) by (unfold PScale.ok in *; lia).
    assert (Sq : forall x' x : F, G s lo hi x' x -> val (nmul F x x) = rnd (val x * val x) /\ 0 <= val (nmul F x x) /\ (val x <> 0 -> bpow radix2 (lo + lo) <= val (nmul F x x))).
    { intros x' x H. destruct (G_bnd prec emax _ _ _ _ _ H) as [_ Bx]. unfold PScale.ok in *. destruct (mult_bnd prec emax hi hi x x ltac:(lia) ltac:(lia) Bx Bx) as [[_ V] _]. change (Bmult mode_NE x x) with (nmul F x x) in V.
      assert (0 <= val x * val x) by nra. split; [exact V |]. rewrite V. split; [apply rnd_nonneg; [exact Hp | assumption] |]. intro Nx. destruct H as (_ & _ & _ & R & _). pose proof (gr_lower _ _ R Nx) as Q.
      assert (bpow radix2 (lo + lo) <= val x * val x) as Q2. { rewrite bpow_plus. pose proof (bpow_gt_0 radix2 lo). replace (val x * val x) with (Rabs (val x) * Rabs (val x)) by (rewrite <- Rabs_mult; apply Rabs_pos_eq; assumption). apply Rmult_le_compat; lra. }
      apply round_ge_generic; [apply fexp_correct; exact Hp | apply valid_rnd_N | | exact Q2]. apply generic_format_bpow. change (SpecFloat.fexp prec emax) with (FLT_exp emin prec). unfold FLT_exp. unfold Prec_gt_0 in Hp. lia. }
    destruct (Sq _ _ X) as (Vx & Px & Qx). destruct (Sq _ _ Y) as (Vy & Py & Qy). destruct (Sq _ _ Z) as (Vz & Pz & Qz).
    pose proof (G_mult prec emax _ _ _ _ _ _ _ _ _ _ O X X) as X2. pose proof (G_mult prec emax _ _ _ _ _ _ _ _ _ _ O Y Y) as Y2. pose proof (G_mult prec emax _ _ _ _ _ _ _ _ _ _ O Z Z) as Z2.
    pose proof (G_plus prec emax _ _ _ _ _ _ _ O O1 X2 Y2) as XY. apply (G_weak prec emax _ _ _ (lo + lo) (hi + hi + 1)) in Z2; [| lia | lia].
    destruct (G_bnd prec emax _ _ _ _ _ X2) as [_ B1]. destruct (G_bnd prec emax _ _ _ _ _ Y2) as [_ B2]. destruct (G_bnd prec emax _ _ _ _ _ XY) as [_ B3]. destruct (G_bnd prec emax _ _ _ _ _ Z2) as [_ B4].
    unfold PScale.ok in *. destruct (plus_bnd prec emax (hi + hi) _ _ ltac:(lia) ltac:(lia) B1 B2) as [[_ V1] _]. destruct (plus_bnd prec emax (hi + hi + 1) _ _ ltac:(lia) ltac:(lia) B3 B4) as [[_ V2] _].
    change (Bplus mode_NE (Bplus mode_NE (Bmult mode_NE (c0 v) (c0 v)) (Bmult mode_NE (c1 v) (c1 v))) (Bmult mode_NE (c2 v) (c2 v))) with (vdotn v v) in V2.
    change (Bmult mode_NE (c0 v) (c0 v)) with (nmul F (c0 v) (c0 v)) in *. change (Bmult mode_NE (c1 v) (c1 v)) with (nmul F (c1 v) (c1 v)) in *. change (Bmult mode_NE (c2 v) (c2 v)) with (nmul F (c2 v) (c2 v)) in *.
    set (a := nmul F (c0 v) (c0 v)) in *. set (b := nmul F (c1 v) (c1 v)) in *. set (c := nmul F (c2 v) (c2 v)) in *. set (ab := Bplus mode_NE (a : bf) (b : bf)) in *.
    assert (Mo : forall t l, (emin <= l)%Z -> bpow radix2 l <= t -> bpow radix2 l <= rnd t).
    { intros t l E0 H0. apply round_ge_generic; [apply fexp_correct; exact Hp | apply valid_rnd_N | | exact H0]. apply generic_format_bpow. change (SpecFloat.fexp prec emax) with (FLT_exp emin prec). unfold FLT_exp. unfold Prec_gt_0 in Hp. lia. }
    assert (Pab : 0 <= val ab) by (rewrite V1; apply rnd_nonneg; [exact Hp | lra]).
    split; [rewrite V2; apply rnd_nonneg; [exact Hp | lra] |]. intros NZ E0. pose proof (bpow_gt_0 radix2 (lo + lo)) as W.
    assert (Hc : val (c2 v) = 0). { destruct (Req_dec (val (c2 v)) 0) as [E1 | N1]; [exact E1 |]. specialize (Qz N1). pose proof (Mo (val ab + val c) (lo + lo)%Z ltac:(lia) ltac:(lra)). lra. }
    assert (Hab : val ab < bpow radix2 (lo + lo)). { apply Rnot_le_lt. intro E1. pose proof (Mo (val ab + val c) (lo + lo)%Z ltac:(lia) ltac:(lra)). lra. }
    assert (Ha : val (c0 v) = 0). { destruct (Req_dec (val (c0 v)) 0) as [E1 | N1]; [exact E1 |]. specialize (Qx N1). pose proof (Mo (val a + val b) (lo + lo)%Z ltac:(lia) ltac:(lra)). lra. }
    assert (Hb : val (c1 v) = 0). { destruct (Req_dec (val (c1 v)) 0) as [E1 | N1]; [exact E1 |]. specialize (Qy N1). pose proof (Mo (val a + val b) (lo + lo)%Z ltac:(lia) ltac:(lra)). lra. }
    apply NZ. destruct v as [[]]. repeat split; assumption.
  Qed.
  Lemma G_mag s lo hi (v' v : vec) : ok (s + s) (lo + lo) (hi + hi) -> ok (s + s) (lo + lo) (hi + hi + 2) -> (emin + prec - 1 <= lo)%Z -> (emin + prec - 1 <= lo + s)%Z -> ok s lo (hi + 1) ->
    GV s lo hi v' v -> G s (lo + 1 - prec) (hi + 1) (vmag v') (vmag v).
  Proof.
    intros O O2 A B O1 V. destruct (mag_pos v s lo hi v' O O2 V) as [Q _]. apply (G_sqrt prec emax); try assumption.
    replace (hi + 1 + (hi + 1))%Z with (hi + hi + 2)%Z by lia. apply (G_dot s s lo lo hi hi); assumption.
  Qed.
  Lemma mag_nz s lo hi (v' v : vec) : ok (s + s) (lo + lo) (hi + hi) -> ok (s + s) (lo + lo) (hi + hi + 2) -> (emin + prec - 1 <= lo)%Z ->
    GV s lo hi v' v -> ~ all3 (fun x => B2R x = 0) (v : mat3x1 bf) -> val (vmag v) <> 0.
  Proof.
    intros O O2 A V NZ. destruct (mag_pos v s lo hi v' O O2 V) as [Q Q']. specialize (Q' NZ). pose proof (G_dot s s lo lo hi hi v' v v' v O O2 V V) as (_ & Fd & _ & R & _).
    destruct (sqrt_ok prec emax (vdotn v v : F) Fd Q) as [_ E]. change (Bsqrt mode_NE (vdotn v v : F)) with (vmag v) in E. rewrite E.
    pose proof (gr_lower _ _ R Q') as W. rewrite Rabs_pos_eq in W by exact Q. pose proof (bpow_gt_0 radix2 lo) as W0.
    assert (bpow radix2 lo <= rnd (sqrt (val (vdotn v v)))); [| lra].
    apply round_ge_generic; [apply fexp_correct; exact Hp | apply valid_rnd_N | apply generic_format_bpow; change (SpecFloat.fexp prec emax) with (FLT_exp emin prec); unfold FLT_exp; unfold Prec_gt_0 in Hp; lia |].
    rewrite <- (sqrt_square (bpow radix2 lo)) by lra. apply sqrt_le_1_alt. rewrite <- bpow_plus. exact W.
  Qed.
  Lemma nrm_G (d' d : vec) j : heading L (d : mat3x1 bf) -> (Z.abs j <= L)%Z -> times3 j (d' : mat3x1 bf) (d : mat3x1 bf) -> GV 0 (- N) 1 (nrm d') (nrm d).
  Proof.
    intros H Hj T3. pose proof (heading_good d H) as Gd. destruct H as [M NZ]. pose proof (medium_GV L j d' d M T3) as V.
    assert (O : ok (j + j) (- L + - L) (L + L)) by okk. assert (O2 : ok (j + j) (- L + - L) (L + L + 2)) by okk.
    pose proof (G_mag j (- L) L d' d O O2 ltac:(lia) ltac:(lia) ltac:(okk) V) as Gm. pose proof (mag_nz j (- L) L d' d O O2 ltac:(lia) V NZ) as Nm.
    destruct (nrm_ieee prec emax lm d P Gd) as [B _].
    assert (D : forall x' x : F, G j (- L) L x' x -> Rabs (val (ndiv F x (vmag d))) <= bpow radix2 1 -> G 0 (- N) 1 (ndiv F x' (vmag d')) (ndiv F x (vmag d))).
    { intros x' x Hx Hb. apply (G_upper prec emax _ _ (L - (- L + 1 - prec))); [| exact Hb]. replace 0%Z with (j - j)%Z by lia. replace (- N)%Z with (- L - (L + 1) + 1 - prec)%Z by (unfold N; lia).
      apply (G_div prec emax j j (- L) (- L + 1 - prec) L (L + 1)); try assumption; unfold PScale.ok; lia. }
    destruct d' as [[a' b' c']], d as [[a b c]]. destruct V as (X & Y & Z). destruct B as (B1 & B2 & B3). cbn [c0 c1 c2] in X, Y, Z.
    split; [| split]; [apply (D _ _ X), B1 | apply (D _ _ Y), B2 | apply (D _ _ Z), B3].
  Qed.
  (** an answer *)
  Notation same := (same_answer (prec := prec) (emax := emax) k).
  Lemma same_hit (p' p : vec) : times3 k (p' : mat3x1 bf) (p : mat3x1 bf) -> same (Ok (true, Some p')) (Ok (true, Some p)).
  Proof. intro H. split; [reflexivity | exact H]. Qed.
  Lemma same_miss : same (Ok (miss (N := F))) (Ok (miss (N := F))). Proof. reflexivity. Qed.
  Lemma same_if (b b' : bool) x x' y y' : b' = b -> same x' x -> same y' y -> same (if b' then x' else y') (if b then x else y).
  Proof. intros ->. destruct b; auto. Qed.
  Lemma same_if2 (b b' : bool) x x' y y' : b' = b -> (b = true -> same x' x) -> (b = false -> same y' y) -> same (if b' then x' else y') (if b then x else y).
  Proof. intros ->. destruct b; auto. Qed.
  Lemma vat_G lo hi (d' d : vec) (t' t : F) (o' o : vec) : (- (5 * L + 5 + 3 * prec) <= lo - N)%Z -> (lo - N <= - L)%Z -> (L <= hi)%Z -> (hi + 1 <= 5 * L + 5 + 2 * prec)%Z -> (emin <= hi + 1 + k)%Z ->
    GV 0 (- N) 1 d' d -> G k lo hi t' t -> GV k (- L) L o' o -> times3 k (vat d' t' o' : mat3x1 bf) (vat d t o : mat3x1 bf).
  Proof.
    intros A B C D E Vd Gt Vo. unfold N in *. apply (GV_times3 k (lo - N) (hi + 1 + 1)). unfold vat, N in *.
    apply (GV_plus k (lo - (2 * L + prec)) (hi + 1)); [okk | okk | | apply (GV_weak k (- L) L); [lia | lia | exact Vo]].
    replace k with (0 + k)%Z at 1 by lia. replace (lo - (2 * L + prec))%Z with (- (2 * L + prec) + lo)%Z by lia. replace (hi + 1)%Z with (1 + hi)%Z by lia.
    apply GV_scale; try assumption. okk.
  Qed.
  Lemma sq_ray_sphere o' o d' d rb' rb e' e p' p (r' r : F) pb' pb pe' pe : GV k (- L) L o' o -> GV 0 (- N) 1 d' d -> GV k (- L) L p' p -> G k (- L) L r' r ->
    same (ray_sphere (N := F) (MkRay o' d' rb' e') (shape_get_shape_data (N := F) (SSphere (MkSphere p' r' pb' pe'))))
      (ray_sphere (N := F) (MkRay o d rb e) (shape_get_shape_data (N := F) (SSphere (MkSphere p r pb pe)))).
  Proof.
    intros Vo Vd Vp Gr. rewrite !(ray_sphere_any (Nm := F)). cbv zeta.
    pose proof (GV_minus k (- L) L _ _ _ _ ltac:(okk) ltac:(okk) Vo Vp) as Vl.
    assert (Gb : G k (- (L + N)) (L + 4) (vdotn (vminus o' p') d') (vdotn (vminus o p) d)).
    { replace k with (k + 0)%Z at 1 by lia. replace (- (L + N))%Z with (- L + - N)%Z by lia. replace (L + 4)%Z with (L + 1 + 1 + 2)%Z by lia. apply G_dot; try assumption; unfold N; okk. }
    assert (Gl : G (k + k) (- L + - L) (L + L + 4) (vdotn (vminus o' p') (vminus o' p')) (vdotn (vminus o p) (vminus o p))).
    { replace (L + L + 4)%Z with (L + 1 + (L + 1) + 2)%Z by lia. apply G_dot; try assumption; okk. }
    assert (Gc : G (k + k) (- L + - L) (L + L + 5) (nsub F (vdotn (vminus o' p') (vminus o' p')) (nmul F r' r')) (nsub F (vdotn (vminus o p) (vminus o p)) (nmul F r r))).
    { replace (L + L + 5)%Z with (L + L + 4 + 1)%Z by lia. apply (G_minus prec emax); [okk | okk | exact Gl |]. apply (G_weak prec emax _ (- L + - L) (L + L)); [lia | lia |]. apply (G_mult prec emax); [okk | exact Gr | exact Gr]. }
    set (b' := vdotn (vminus o' p') d') in *. set (b := vdotn (vminus o p) d) in *. clear Gl. set (cc' := nsub F _ (nmul F r' r')) in *. set (cc := nsub F _ (nmul F r r)) in *.
    assert (Gq : G (k + k) (- (L + N) + - (L + N)) (L + 5 + (L + 5)) (nsub F (nmul F b' b') cc') (nsub F (nmul F b b) cc)).
    { apply (G_weak prec emax _ (- (L + N) + - (L + N)) (L + 4 + (L + 4) + 1)); [lia | lia |]. apply (G_minus prec emax); [unfold N; okk | unfold N; okk | |].
      - apply (G_mult prec emax); [unfold N; okk | exact Gb | exact Gb].
      - apply (G_weak prec emax _ (- L + - L) (L + L + 5)); [unfold N; lia | lia | exact Gc]. }
    apply same_if; [| apply same_miss | apply same_if2; [| intros _; apply same_miss | intro Hq]].
    - f_equal; [apply (gt_T k) | apply (gt_T (k + k))]; try apply T_0; eapply G_T; eassumption.
    - apply (lt_T (k + k)); [eapply G_T; exact Gq | apply T_0].
    - assert (Q0 : 0 <= val (nsub F (nmul F b b) cc)) by (apply nlt_0; [apply Gq | exact Hq]).
      assert (Gs : G k (- (L + N) + 1 - prec) (L + 5) (nsqrt F (nsub F (nmul F b' b') cc')) (nsqrt F (nsub F (nmul F b b) cc))).
      { apply (G_sqrt prec emax); [exact Q0 | unfold N; lia | unfold N; lia | unfold N; okk | exact Gq]. }
      set (q' := nsqrt F (nsub F (nmul F b' b') cc')) in *. set (q := nsqrt F (nsub F (nmul F b b) cc)) in *. clear Gq Hq Q0.
      assert (Gn : G k (- (L + N) + 1 - prec) (L + 5) (nneg F b') (nneg F b)).
      { apply (G_weak prec emax _ (- (L + N)) (L + 4)); [lia | lia |]. apply (G_opp prec emax). exact Gb. }
      assert (G1 : G k (- (L + N) + 1 - prec) (L + 6) (nsub F (nneg F b') q') (nsub F (nneg F b) q)).
      { replace (L + 6)%Z with (L + 5 + 1)%Z by lia. apply (G_minus prec emax); try assumption; unfold N; okk. }
      assert (G2 : G k (- (L + N) + 1 - prec) (L + 6) (nadd F (nneg F b') q') (nadd F (nneg F b) q)).
      { replace (L + 6)%Z with (L + 5 + 1)%Z by lia. apply (G_plus prec emax); try assumption; unfold N; okk. }
      apply same_hit. apply (vat_G (- (L + N) + 1 - prec) (L + 6)); try assumption; try (unfold N; lia).
      pose proof (lt_T k _ _ _ _ (G_T _ _ _ _ _ G1) (T_0 k)) as E1. pose proof (lt_T k _ _ _ _ (G_T _ _ _ _ _ G2) (T_0 k)) as E2. pose proof (lt_T k _ _ _ _ (G_T _ _ _ _ _ G1) (G_T _ _ _ _ _ G2)) as E3.
      rewrite E1, E2, E3. repeat match goal with |- context [if ?x then _ else _] => destruct x end; assumption.
  Qed.
  Lemma sq_ray_plane o' o d' d rb' rb e' e p' p n' n pb' pb pe' pe : GV k (- L) L o' o -> GV 0 (- N) 1 d' d -> GV k (- L) L p' p -> GV 0 (- N) 1 n' n ->
    same (ray_plane (N := F) (MkRay o' d' rb' e') (shape_get_shape_data (N := F) (SPlane (MkPlane p' n' pb' pe'))))
      (ray_plane (N := F) (MkRay o d rb e) (shape_get_shape_data (N := F) (SPlane (MkPlane p n pb pe)))).
  Proof.
    intros Vo Vd Vp Vn. rewrite !(ray_plane_any (Nm := F)). cbv zeta.
    assert (D1 : forall a' a b' b : vec, GV k (- L) L a' a -> GV 0 (- N) 1 b' b -> G k (- (L + N)) (L + 3) (vdotn a' b') (vdotn a b)).
    { intros a' a b' b A B. replace k with (k + 0)%Z at 1 by lia. replace (- (L + N))%Z with (- L + - N)%Z by lia. replace (L + 3)%Z with (L + 1 + 2)%Z by lia. apply G_dot; try assumption; unfold N; okk. }
    assert (D2 : forall a' a b' b : vec, GV 0 (- N) 1 a' a -> GV k (- L) L b' b -> G k (- (L + N)) (L + 3) (vdotn a' b') (vdotn a b)).
    { intros a' a b' b A B. replace k with (0 + k)%Z at 1 by lia. replace (- (L + N))%Z with (- N + - L)%Z by lia. replace (L + 3)%Z with (1 + L + 2)%Z by lia. apply G_dot; try assumption; unfold N; okk. }
    assert (Gq : G 0 (- (N + N)) 4 (vdotn n' d') (vdotn n d)).
    { replace 0%Z with (0 + 0)%Z by lia. replace (- (N + N))%Z with (- N + - N)%Z by lia. replace 4%Z with (1 + 1 + 2)%Z by lia. apply G_dot; try assumption; unfold N; okk. }
    pose proof (D1 _ _ _ _ Vp Vn) as Gk. pose proof (D1 _ _ _ _ Vo Vn) as Go. pose proof (D2 _ _ _ _ Vn Vo) as Go2.
    apply same_if2; [apply (eq_T 0); [eapply G_T; exact Gq | apply T_0] | intros _; apply same_if; [apply (eq_T k); eapply G_T; eassumption | apply same_hit; eapply GV_times3; exact Vo | apply same_miss] |].
    intro Nq. apply neqb_0 in Nq; [| apply Gq]. apply same_if; [apply (gt_T 0); [eapply G_T; exact Gq | apply T_0] | apply same_miss |].
    assert (Gt : G k (- (L + N) - 4 + 1 - prec) (L + 4 + (N + N)) (ndiv F (nsub F (vdotn p' n') (vdotn n' o')) (vdotn n' d')) (ndiv F (nsub F (vdotn p n) (vdotn n o)) (vdotn n d))).
    { replace k with (k - 0)%Z at 1 by lia. replace (L + 4 + (N + N))%Z with (L + 3 + 1 - - (N + N))%Z by lia.
      apply (G_div prec emax k 0 (- (L + N)) (- (N + N)) (L + 3 + 1) 4); try assumption; try (unfold N; lia); [| unfold N; okk]. apply (G_minus prec emax); try assumption; unfold N; okk. }
    apply same_if; [apply (lt_T k); [eapply G_T; exact Gt | apply T_0] | apply same_miss |].
    apply same_hit. apply (vat_G (- (L + N) - 4 + 1 - prec) (L + 4 + (N + N))); try assumption; unfold N; lia.
  Qed.
  Lemma sq_sphere_plane o' o (r' r : F) rb' rb e' e p' p n' n pb' pb pe' pe : GV k (- L) L o' o -> G k (- L) L r' r -> GV k (- L) L p' p -> GV 0 (- N) 1 n' n ->
    same (sphere_plane (N := F) (MkSphere o' r' rb' e') (shape_get_shape_data (N := F) (SPlane (MkPlane p' n' pb' pe'))))
      (sphere_plane (N := F) (MkSphere o r rb e) (shape_get_shape_data (N := F) (SPlane (MkPlane p n pb pe)))).
  Proof.
    intros Vo Gr Vp Vn. rewrite !(sphere_plane_any (Nm := F)). cbv zeta.
    assert (D2 : forall b' b : vec, GV k (- L) L b' b -> G k (- (L + N)) (L + 3) (vdotn n' b') (vdotn n b)).
    { intros b' b B. replace k with (0 + k)%Z at 1 by lia. replace (- (L + N))%Z with (- N + - L)%Z by lia. replace (L + 3)%Z with (1 + L + 2)%Z by lia. apply G_dot; try assumption; unfold N; okk. }
    assert (Gt : G k (- (L + N)) (L + 3 + 1) (nsub F (vdotn n' o') (vdotn n' p')) (nsub F (vdotn n o) (vdotn n p))) by (apply (G_minus prec emax); [unfold N; okk | unfold N; okk | apply D2; exact Vo | apply D2; exact Vp]).
    apply same_if; [apply (gt_T k); eapply G_T; eassumption | apply same_miss |]. apply same_hit.
    apply (vat_G (- (L + N)) (L + 3 + 1)); try assumption; try (unfold N; lia). apply (G_opp prec emax). exact Gt.
  Qed.
  Lemma sq_plane_point o' o n' n rb' rb (e' e : F) p' p pb' pb pe' pe : GV k (- L) L o' o -> G k (- L) L e' e -> GV k (- L) L p' p -> GV 0 (- N) 1 n' n ->
    same (plane_point (N := F) (MkPlane o' n' rb' e') (shape_get_shape_data (N := F) (SPoint (MkPoint p' pb' pe'))))
      (plane_point (N := F) (MkPlane o n rb e) (shape_get_shape_data (N := F) (SPoint (MkPoint p pb pe)))).
  Proof.
    intros Vo Ge Vp Vn. rewrite !(plane_point_any (Nm := F)).
    assert (D2 : forall b' b : vec, GV k (- L) L b' b -> G k (- (L + N)) (L + 3) (vdotn n' b') (vdotn n b)).
    { intros b' b B. replace k with (0 + k)%Z at 1 by lia. replace (- (L + N))%Z with (- N + - L)%Z by lia. replace (L + 3)%Z with (1 + L + 2)%Z by lia. apply G_dot; try assumption; unfold N; okk. }
    assert (Gt : G k (- (L + N)) (L + 3 + 1) (nsub F (vdotn n' o') (vdotn n' p')) (nsub F (vdotn n o) (vdotn n p))) by (apply (G_minus prec emax); [unfold N; okk | unfold N; okk | apply D2; exact Vo | apply D2; exact Vp]).
    apply same_if; [f_equal | apply same_miss | apply same_hit; eapply GV_times3; exact Vp].
    apply (within_G k (- (L + N)) (L + 3 + 1)); [unfold N; okk | unfold N; okk | | exact Gt | apply T_0]. apply (G_weak prec emax _ (- L) L); [unfold N; lia | lia | exact Ge].
  Qed.
  Lemma sq_point_point o' o rb' rb (e' e : F) p' p pb' pb pe' pe : GV k (- L) L o' o -> G k (- L) L e' e -> GV k (- L) L p' p ->
    same (point_point (N := F) (MkPoint o' rb' e') (shape_get_shape_data (N := F) (SPoint (MkPoint p' pb' pe'))))
      (point_point (N := F) (MkPoint o rb e) (shape_get_shape_data (N := F) (SPoint (MkPoint p pb pe)))).
  Proof.
    intros Vo Ge Vp. rewrite !(point_point_any (Nm := F)). apply same_if; [| apply same_miss | apply same_hit; eapply GV_times3; exact Vo].
    destruct Vo as (A & B & C), Vp as (A' & B' & C'). (f_equal; [f_equal; f_equal | f_equal]); apply (within_G k (- L) L); try assumption; try okk; eapply G_T; eassumption.
  Qed.
  Lemma sq_sphere_point o' o (r' r : F) rb' rb e' e p' p pb' pb pe' pe : GV k (- L) L o' o -> G k (- L) L r' r -> GV k (- L) L p' p ->
    same (sphere_point (N := F) (MkSphere o' r' rb' e') (shape_get_shape_data (N := F) (SPoint (MkPoint p' pb' pe'))))
      (sphere_point (N := F) (MkSphere o r rb e) (shape_get_shape_data (N := F) (SPoint (MkPoint p pb pe)))).
  Proof.
    intros Vo Gr Vp. rewrite !(sphere_point_any (Nm := F)). cbv zeta. pose proof (GV_minus k (- L) L _ _ _ _ ltac:(okk) ltac:(okk) Vp Vo) as (X & Y & Z).
    repeat (apply same_if; [apply (gt_T k); eapply G_T; eassumption | apply same_miss |]). apply same_hit. eapply GV_times3; exact Vp.
  Qed.
  Lemma sq_sphere_sphere o' o (r' r : F) rb' rb e' e p' p (q' q : F) pb' pb pe' pe : GV k (- L) L o' o -> G k (- L) L r' r -> GV k (- L) L p' p -> G k (- L) L q' q -> 0 < val r -> 0 < val q ->
    same (sphere_sphere (N := F) (MkSphere o' r' rb' e') (shape_get_shape_data (N := F) (SSphere (MkSphere p' q' pb' pe'))))
      (sphere_sphere (N := F) (MkSphere o r rb e) (shape_get_shape_data (N := F) (SSphere (MkSphere p q pb pe)))).
  Proof.
    intros Vo Gr Vp Gq R0 Q0. rewrite !(sphere_sphere_any (Nm := F)). cbv zeta. pose proof (GV_minus k (- L) L _ _ _ _ ltac:(okk) ltac:(okk) Vp Vo) as Vl.
    assert (Gm : G k (- L + 1 - prec) (L + 2) (vmag (vminus p' o')) (vmag (vminus p o))).
    { replace (L + 2)%Z with (L + 1 + 1)%Z by lia. apply G_mag; try assumption; try okk; lia. }
    pose proof (G_plus prec emax k (- L) L _ _ _ _ ltac:(okk) ltac:(okk) Gq Gr) as G1. pose proof (G_plus prec emax k (- L) L _ _ _ _ ltac:(okk) ltac:(okk) Gr Gq) as G2.
    apply same_if; [apply (gt_T k); eapply G_T; [exact Gm | exact G1] | apply same_miss |]. apply same_hit.
    assert (Ns : val (nadd F r q) <> 0).
    { destruct (G_bnd prec emax _ _ _ _ _ Gr) as [_ Br]. destruct (G_bnd prec emax _ _ _ _ _ Gq) as [_ Bq]. destruct (plus_bnd prec emax L r q ltac:(lia) ltac:(lia) Br Bq) as [[_ V] _].
      change (Bplus mode_NE r q) with (nadd F r q) in V. rewrite V. pose proof (rnd_le prec emax (val r) (val r + val q) ltac:(lra)) as W.
      rewrite (round_generic radix2 (SpecFloat.fexp prec emax) ZnearestE (val r)) in W; [lra | apply generic_format_B2R]. }
    assert (Gf : G 0 (- (2 * L + prec)) (2 * L) (ndiv F r' (nadd F r' q')) (ndiv F r (nadd F r q))).
    { replace 0%Z with (k - k)%Z by lia. replace (- (2 * L + prec))%Z with (- L - (L + 1) + 1 - prec)%Z by lia. replace (2 * L)%Z with (L - - L)%Z by lia.
      apply (G_div prec emax k k (- L) (- L) L (L + 1)); try assumption; unfold PScale.ok; lia. }
    apply (GV_times3 k (- (3 * L + prec)) (3 * L + 1 + 1)). apply (GV_plus k (- (3 * L + prec)) (3 * L + 1)); [okk | okk | apply (GV_weak k (- L) L); [lia | lia | exact Vo] |].
    replace k with (k + 0)%Z at 1 by lia. replace (- (3 * L + prec))%Z with (- L + - (2 * L + prec))%Z by lia. replace (3 * L + 1)%Z with (L + 1 + 2 * L)%Z by lia. apply GV_scale; try assumption. okk.
  Qed.
  Lemma sq_ray_point o' o d' d rb' rb (e' e : F) p' p pb' pb pe' pe : GV k (- L) L o' o -> GV 0 (- N) 1 d' d -> slanted (d : mat3x1 bf) -> G k (- L) L e' e -> GV k (- L) L p' p ->
    same (ray_point (N := F) (MkRay o' d' rb' e') (shape_get_shape_data (N := F) (SPoint (MkPoint p' pb' pe'))))
      (ray_point (N := F) (MkRay o d rb e) (shape_get_shape_data (N := F) (SPoint (MkPoint p pb pe)))).
  Proof.
    intros Vo Vd Sl Ge Vp. rewrite !(ray_point_any (Nm := F)). cbv zeta. pose proof (GV_minus k (- L) L _ _ _ _ ltac:(okk) ltac:(okk) Vp Vo) as (X & Y & Z).
    assert (Q : forall x' x y' y : F, val y <> 0 -> G k (- L) (L + 1) x' x -> G 0 (- N) 1 y' y -> G k (- L - prec) (L + 1 + N) (ndiv F x' y') (ndiv F x y)).
    { intros x' x y' y Ny Gx Gy. replace k with (k - 0)%Z at 1 by lia. replace (- L - prec)%Z with (- L - 1 + 1 - prec)%Z by lia. replace (L + 1 + N)%Z with (L + 1 - - N)%Z by lia.
      apply (G_div prec emax k 0 (- L) (- N) (L + 1) 1); try assumption; unfold N; unfold PScale.ok; lia. }
    assert (Sl' : val (c0 d) <> 0 /\ val (c1 d) <> 0 /\ val (c2 d) <> 0) by (destruct d as [[]]; exact Sl). destruct Sl' as (S0 & S1 & S2). pose proof Vd as (D0 & D1 & D2).
    pose proof (Q _ _ _ _ S0 X D0) as Q0. pose proof (Q _ _ _ _ S1 Y D1) as Q1. pose proof (Q _ _ _ _ S2 Z D2) as Q2.
    assert (Ge' : G k (- L - prec) (L + 1 + N) e' e) by (apply (G_weak prec emax _ (- L) L); [lia | unfold N; lia | exact Ge]).
    apply same_if; [| apply same_miss | apply same_if; [apply (ge_T k); [eapply G_T; exact Q0 | apply T_0] | apply same_hit | apply same_miss]].
    - f_equal; f_equal; apply (within_G k (- L - prec) (L + 1 + N)); try assumption; try (unfold N; okk); eapply G_T; eassumption.
    - apply (vat_G (- L - prec) (L + 1 + N)); try assumption; unfold N; lia.
  Qed.
  (** bounds *)
  Definition Tb (B' B : aabb F) : Prop :=
    match B', B with AABB (A3 l0' l1' l2') (A3 u0' u1' u2'), AABB (A3 l0 l1 l2) (A3 u0 u1 u2) =>
      (T k l0' l0 /\ T k l1' l1 /\ T k l2' l2) /\ (T k u0' u0 /\ T k u1' u1 /\ T k u2' u2) end.
  Lemma overlap_T (x' x y' y : shape F) : Tb (bd prec emax lm x') (bd prec emax lm x) -> Tb (bd prec emax lm y') (bd prec emax lm y) -> overlap x' y' = overlap x y.
  Proof.
    intros A B. unfold overlap. change (ibound_intersect (shape_get_bound x') (shape_get_bound y')) with (aabb_intersect (bd prec emax lm x') (BBox (bd prec emax lm y'))).
    change (ibound_intersect (shape_get_bound x) (shape_get_bound y)) with (aabb_intersect (bd prec emax lm x) (BBox (bd prec emax lm y))). rewrite !intersect_eval. unfold apart, lo, up.
    destruct (bd prec emax lm x) as [[] []], (bd prec emax lm x') as [[] []], (bd prec emax lm y) as [[] []], (bd prec emax lm y') as [[] []].
    destruct A as ((A1 & A2 & A3) & A4 & A5 & A6), B as ((B1 & B2 & B3) & B4 & B5 & B6). cbn.
    rewrite (gt_T k _ _ _ _ A1 B4), (gt_T k _ _ _ _ A2 B5), (gt_T k _ _ _ _ A3 B6), (lt_T k _ _ _ _ A4 B1), (lt_T k _ _ _ _ A5 B2), (lt_T k _ _ _ _ A6 B3). reflexivity.
  Qed.
  Lemma Tb_point (p' p : vec) : GV k (- L) L p' p -> Tb (AABB (v3x1 p') (v3x1 p')) (AABB (v3x1 p) (v3x1 p)).
  Proof. destruct p' as [[]], p as [[]]. intros (A & B & C). apply G_T in A, B, C. repeat split; assumption. Qed.
  Lemma Tb_cube (c' c : vec) (r' r : F) : GV k (- L) L c' c -> G k (- L) L r' r -> Tb (cube_any (Nm := F) c' r') (cube_any c r).
  Proof.
    destruct c' as [[]], c as [[]]. intros (A & B & C) R. cbn [c0 c1 c2] in *. cbn [cube_any Tb].
    split; (split; [| split]); apply (G_T k (- L) (L + 1)); (apply (G_minus prec emax) || apply (G_plus prec emax)); try assumption; okk.
  Qed.
  Lemma Tb_whole : Tb whole_any whole_any.
  Proof. repeat split; apply T_inf. Qed.
  Lemma Tb_ray (o' o d' d : vec) j : GV k (- L) L o' o -> times3 j (d' : mat3x1 bf) (d : mat3x1 bf) -> Tb (ray_any (Nm := F) o' d') (ray_any o d).
  Proof.
    destruct o' as [[]], o as [[]], d' as [[]], d as [[]]. intros (A & B & C) (X & Y & Z). cbn [c0 c1 c2] in *. apply G_T in A, B, C. cbn [ray_any Tb]. unfold rl, ru.
    assert (E : forall x' x : F, times2 j x' x -> ngt x' n0 = ngt x n0 /\ nlt x' n0 = nlt x n0) by (intros x' x H; split; [apply (gt_T j) | apply (lt_T j)]; try apply T_0; left; exact H).
    destruct (E _ _ X) as [-> ->]. destruct (E _ _ Y) as [-> ->]. destruct (E _ _ Z) as [-> ->].
    split; (split; [| split]); repeat match goal with |- context [if ?x then _ else _] => destruct x end; try assumption; apply T_inf.
  Qed.
  Lemma nrm_slanted (d : vec) : heading L (d : mat3x1 bf) -> slanted (d : mat3x1 bf) -> slanted (nrm d : mat3x1 bf).
  Proof.
    intros [M NZ] Sl. assert (T3 : times3 0 (d : mat3x1 bf) (d : mat3x1 bf)).
    { destruct d as [[]]. destruct M as ((X & _) & (Y & _) & (Z & _)). repeat split; try assumption; cbn; ring. }
    pose proof (medium_GV L 0 d d M T3) as V. assert (O : ok (0 + 0) (- L + - L) (L + L)) by okk. assert (O2 : ok (0 + 0) (- L + - L) (L + L + 2)) by okk.
    pose proof (G_mag 0 (- L) L d d O O2 ltac:(lia) ltac:(lia) ltac:(okk) V) as Gm. pose proof (mag_nz 0 (- L) L d d O O2 ltac:(lia) V NZ) as Nm.
    assert (D : forall x : F, G 0 (- L) L x x -> val x <> 0 -> val (ndiv F x (vmag d)) <> 0).
    { intros x Hx Nx. pose proof (G_div prec emax 0 0 (- L) (- L + 1 - prec) L (L + 1) x x _ _ Nm Hx Gm ltac:(lia) ltac:(lia) ltac:(okk)) as (Fq & _).
      destruct Hx as (Fx & _ & _ & Rx & _), Gm as (_ & _ & _ & _ & Bm). destruct (div_round prec emax x (vmag d : F) Fx Nm) as [D1 D2]. destruct (D1 (D2 Fq)) as [_ W].
      change (ndiv F x (vmag d)) with (Bdiv mode_NE x (vmag d : F) : bf). rewrite W. intro Z0.
      assert (A : bpow radix2 (- L + - (L + 1)) <= Rabs (val x / val (vmag d))).
      { unfold Rdiv. rewrite Rabs_mult, Rabs_inv, bpow_plus, (bpow_opp _ (L + 1)). apply Rmult_le_compat; try apply bpow_ge_0; [left; apply Rinv_0_lt_compat, bpow_gt_0 | apply gr_lower; assumption |].
        apply Rinv_le; [apply Rabs_pos_lt; exact Nm | exact Bm]. }
      apply (abs_round_ge_generic radix2 (SpecFloat.fexp prec emax) ZnearestE) in A.
      - rewrite Z0, Rabs_R0 in A. pose proof (bpow_gt_0 radix2 (- L + - (L + 1))). lra.
      - apply generic_format_bpow. change (SpecFloat.fexp prec emax) with (FLT_exp emin prec). unfold FLT_exp. unfold Prec_gt_0 in Hp. lia. }
    destruct d as [[a b c]]. destruct V as (X & Y & Z). destruct Sl as (S0 & S1 & S2).
    split; [| split]; [apply (D _ X S0) | apply (D _ Y S1) | apply (D _ Z S2)].
  Qed.
  Theorem scale_query (D E D' E' : fdesc (prec := prec) (emax := emax)) (x y x' y' : shape F) : unit_free D E ->
    plain L D -> plain L E -> rescaled L k D' D -> rescaled L k E' E ->
    fbuilds lm D x -> fbuilds lm E y -> fbuilds lm D' x' -> fbuilds lm E' y' ->
    same (shape_get_intersect x' y') (shape_get_intersect x y).
  Proof.
    intros UF PD PE RD RE HD HE HD' HE'. rewrite !(intersect_core (ieee_ordered prec emax lm)).
    destruct D as [p e | o d e | c r e | o n e | c h e], D' as [p' e' | o' d' e' | c' r' e' | o' n' e' | c' h' e']; try contradiction;
      destruct E as [p2 e2 | o2 d2 e2 | c2 r2 e2 | o2 n2 e2 | c2 h2 e2], E' as [p2' e2' | o2' d2' e2' | c2' r2' e2' | o2' n2' e2' | c2' h2' e2']; try contradiction;
      cbn [unit_free plain rescaled fbuilds] in *;
      repeat match goal with
      | H : _ /\ _ |- _ => destruct H
      | H : exists _, _ |- _ => destruct H
      | H : mk_point _ _ _ |- _ => apply point_any in H
      | H : mk_sphere _ _ _ _ |- _ => apply sphere_any in H
      | H : mk_box _ _ _ _ |- _ => apply box_any in H
      | H : mk_plane _ _ _ _ |- _ => apply plane_any in H
      | H : mk_ray _ _ _ _ |- _ => apply ray_any_eq in H
      end; subst;
      repeat match goal with
      | M : all3 (medium L) ?v, T3 : times3 k ?v' ?v |- _ => pose proof (medium_GV L k v' v M T3); clear M
      | M : medium L ?v, T2 : times2 k ?v' ?v |- _ => pose proof (medium_G prec emax L k v' v M T2); clear M
      | M : heading L ?v, T3 : times3 ?j ?v' ?v, Hj : (Z.abs ?j <= L)%Z |- _ => pose proof (nrm_G v' v j M Hj T3); try (match goal with Sl : slanted v |- _ => pose proof (nrm_slanted v M Sl) end); clear M
      end;
      (apply same_if; [apply overlap_T; first [apply Tb_point; assumption | apply Tb_cube; assumption | apply Tb_whole | eapply Tb_ray; eassumption]
        | cbn [core pt_ori] | apply same_miss]);
      first [reflexivity | apply sq_ray_sphere; assumption | apply sq_ray_plane; assumption | apply sq_sphere_plane; assumption | apply sq_plane_point; try assumption; apply (G_abs prec emax); assumption
        | apply sq_point_point; try assumption; apply (G_abs prec emax); assumption | apply sq_sphere_point; assumption | apply sq_sphere_sphere; assumption
        | apply sq_ray_point; try assumption; apply (G_abs prec emax); assumption | apply same_hit; assumption | idtac].
  Qed.
End Scale2.
