(** PInt.v — IEEE arithmetic on fixed-point data (C118). *)
From Coq Require Import Reals List ZArith NArith Bool Lra Lia Psatz.
From Flocq Require Import Core BinarySingleNaN.
Import ListNotations.
From Verif Require Import Base Num Vec Mat Quat Float SpecMat SpecReal SpecGeom SpecQuat SpecRound SpecInt ExactFacts FloatFacts FloatRound PMat PMat2 PInv PVec PIeee1 PInvF.
Local Open Scope R_scope.

Section PInt.
  Context (prec emax : Z) {Hp : Prec_gt_0 prec} {Hm : Prec_lt_emax prec emax} (lm : libm (binary_float prec emax)).
  Notation bf := (binary_float prec emax).
  Notation fmt := (SpecFloat.fexp prec emax).
  Notation rnd := (round radix2 fmt ZnearestE).
  Notation val := (@B2R prec emax).
  Notation fin x := (is_finite (x : bf) = true).
  Notation fv := (fv prec emax).
  Notation big := (bpow radix2 emax).
  Notation full := (bpow radix2 prec).
  Notation F := (@Ieee prec emax Hp Hm lm).
  Notation room := (room prec emax).
  Notation fixed := (@fixed prec emax).
  Notation exactly := (@exactly prec emax).

  Definition X (s : Z) (K : R) (x : bf) (v : R) : Prop := fin x /\ val x = v /\ exists n : Z, v = IZR n * bpow radix2 s /\ Rabs (IZR n) <= K.
  Lemma X_fixed s K x : fixed s K x -> X s K x (val x).
  Proof. intros [H (n & E & B)]. split; [exact H |]. split; [reflexivity |]. exists n. split; assumption. Qed.
  Lemma fixed_X s K x v : X s K x v -> fixed s K x /\ exactly x v.
  Proof. intros (H & E & n & En & B). split; split; try assumption. exists n. split; [rewrite E; exact En | exact B]. Qed.
  Lemma X_ex s K x v : X s K x v -> exactly x v. Proof. intros (H & E & _). split; assumption. Qed.
  Lemma X_ext s K K' x v v' : X s K x v -> v = v' -> K <= K' -> X s K' x v'.
  Proof. intros (H & E & n & En & B) <- L. split; [exact H |]. split; [exact E |]. exists n. split; [exact En | lra]. Qed.
  Lemma X_pos s K x v : X s K x v -> 0 <= K.
  Proof. intros (_ & _ & n & _ & B). pose proof (Rabs_pos (IZR n)). lra. Qed.

  Lemma int_fmt s n : room s -> Rabs (IZR n) <= full -> rnd (IZR n * bpow radix2 s) = IZR n * bpow radix2 s /\ Rabs (IZR n * bpow radix2 s) < big.
  Proof.
    intros [R1 R2] B. split.
    - apply round_generic; [apply valid_rnd_N |]. change fmt with (FLT_exp (3 - emax - prec) prec). destruct (Rlt_le_dec (Rabs (IZR n)) full) as [L | L].
      + apply generic_format_FLT. exists (Float radix2 n s); [reflexivity | | exact R1]. cbn [Fnum]. apply lt_IZR. rewrite IZR_Zpower by (unfold Prec_gt_0 in Hp; lia). rewrite abs_IZR. exact L.
      + assert (E : Rabs (IZR n) = full) by lra. assert (G : generic_format radix2 (FLT_exp (3 - emax - prec) prec) (full * bpow radix2 s)).
        { rewrite <- bpow_plus. apply generic_format_bpow. unfold FLT_exp. unfold Prec_gt_0 in Hp. lia. }
        unfold Rabs in E. destruct (Rcase_abs (IZR n)) as [N | N]; [| rewrite E; exact G]. replace (IZR n) with (- full) by lra. rewrite Ropp_mult_distr_l_reverse. apply generic_format_opp. exact G.
    - rewrite Rabs_mult, (Rabs_pos_eq (bpow _ s)) by apply bpow_ge_0. eapply Rle_lt_trans; [apply Rmult_le_compat_r; [apply bpow_ge_0 | exact B] |]. rewrite <- bpow_plus. apply bpow_lt. lia.
  Qed.
  Lemma X_plus s K L x y a b : room s -> X s K x a -> X s L y b -> K + L <= full -> X s (K + L) (nadd F x y) (a + b).
  Proof.
    intros R (Fx & Ex & n & En & Bn) (Fy & Ey & m & Em & Bm) H. assert (E : a + b = IZR (n + m) * bpow radix2 s) by (rewrite plus_IZR, En, Em; ring).
    assert (B : Rabs (IZR (n + m)) <= K + L) by (rewrite plus_IZR; eapply Rle_trans; [apply Rabs_triang | lra]). destruct (int_fmt s (n + m) R ltac:(lra)) as [I1 I2].
    destruct (proj1 (plus_round prec emax x y Fx Fy)) as [G1 G2]; [rewrite Ex, Ey, E, I1; exact I2 |]. split; [exact G1 |]. split; [| exists (n + m)%Z; split; assumption].
    cbn [nadd Ieee]. rewrite G2, Ex, Ey, E. exact I1.
  Qed.
  Lemma X_minus s K L x y a b : room s -> X s K x a -> X s L y b -> K + L <= full -> X s (K + L) (nsub F x y) (a - b).
  Proof.
    intros R (Fx & Ex & n & En & Bn) (Fy & Ey & m & Em & Bm) H. assert (E : a - b = IZR (n - m) * bpow radix2 s) by (rewrite minus_IZR, En, Em; ring).
    assert (B : Rabs (IZR (n - m)) <= K + L) by (rewrite minus_IZR; unfold Rminus; eapply Rle_trans; [apply Rabs_triang | rewrite Rabs_Ropp; lra]). destruct (int_fmt s (n - m) R ltac:(lra)) as [I1 I2].
    destruct (proj1 (minus_round prec emax x y Fx Fy)) as [G1 G2]; [rewrite Ex, Ey, E, I1; exact I2 |]. split; [exact G1 |]. split; [| exists (n - m)%Z; split; assumption].
    cbn [nsub Ieee]. rewrite G2, Ex, Ey, E. exact I1.
  Qed.
  Lemma X_mult s t K L x y a b : room (s + t) -> X s K x a -> X t L y b -> K * L <= full -> X (s + t) (K * L) (nmul F x y) (a * b).
  Proof.
    intros R (Fx & Ex & n & En & Bn) (Fy & Ey & m & Em & Bm) H. assert (E : a * b = IZR (n * m) * bpow radix2 (s + t)) by (rewrite mult_IZR, En, Em, bpow_plus; ring).
    assert (B : Rabs (IZR (n * m)) <= K * L) by (rewrite mult_IZR, Rabs_mult; apply Rmult_le_compat; try apply Rabs_pos; assumption). destruct (int_fmt (s + t) (n * m) R ltac:(lra)) as [I1 I2].
    destruct (proj1 (mult_round prec emax x y Fx Fy)) as [G1 G2]; [rewrite Ex, Ey, E, I1; exact I2 |]. split; [exact G1 |]. split; [| exists (n * m)%Z; split; assumption].
    cbn [nmul Ieee]. rewrite G2, Ex, Ey, E. exact I1.
  Qed.
  Lemma X_neg s K x a : X s K x a -> X s K (nneg F x) (- a).
  Proof.
    intros (Fx & Ex & n & En & Bn). split; [cbn [nneg Ieee]; destruct x; exact Fx |]. split; [cbn [nneg Ieee]; rewrite B2R_Bopp, Ex; reflexivity |].
    exists (- n)%Z. rewrite opp_IZR, Rabs_Ropp. split; [rewrite En; ring | exact Bn].
  Qed.
  Lemma X_zero s : X s 0 (n0 : F) 0.
  Proof. destruct (fv_lit_0 prec emax) as [H1 H2]. split; [exact H1 |]. split; [exact H2 |]. exists 0%Z. rewrite Rabs_R0. split; [ring | lra]. Qed.
  Lemma X_lit s z x : (s <= 0)%Z -> fv x (IZR z) -> X s (Rabs (IZR z) * bpow radix2 (- s)) x (IZR z).
  Proof.
    intros S [H1 H2]. split; [exact H1 |]. split; [exact H2 |]. exists (z * Zpower radix2 (- s))%Z. rewrite mult_IZR, IZR_Zpower by lia. split.
    - rewrite Rmult_assoc, <- bpow_plus. replace (- s + s)%Z with 0%Z by lia. cbn [bpow]. ring.
    - rewrite Rabs_mult, (Rabs_pos_eq (bpow _ _)) by apply bpow_ge_0. lra.
  Qed.
  Lemma X_grid s t K x a : (t <= s)%Z -> X s K x a -> X t (K * bpow radix2 (s - t)) x a.
  Proof.
    intros S (H1 & H2 & n & En & Bn). split; [exact H1 |]. split; [exact H2 |]. exists (n * Zpower radix2 (s - t))%Z. rewrite mult_IZR, IZR_Zpower by lia. split.
    - rewrite En, Rmult_assoc, <- bpow_plus. do 2 f_equal. lia.
    - rewrite Rabs_mult, (Rabs_pos_eq (bpow _ (s - t))) by apply bpow_ge_0. apply Rmult_le_compat_r; [apply bpow_ge_0 | exact Bn].
  Qed.
  (** sums and products of two terms with bounds given in advance *)
  Lemma X_sum (sg : bool) s K L M x y a b : room s -> X s K x a -> X s L y b -> K + L <= M -> M <= full -> X s M (if sg then nadd F x y else nsub F x y) (if sg then a + b else a - b).
  Proof. intros R A B H1 H2. destruct sg; (eapply X_ext; [first [eapply X_plus | eapply X_minus]; [exact R | exact A | exact B | lra] | reflexivity | exact H1]). Qed.

  (** ---- vectors ---- *)
  Ltac xs := lazymatch goal with
    | |- X _ _ (nadd _ _ _) _ => eapply X_plus; [assumption | xs | xs |]
    | |- X _ _ (nsub _ _ _) _ => eapply X_minus; [assumption | xs | xs |]
    | |- X _ _ (nmul _ _ _) _ => eapply X_mult; [assumption | xs | xs |]
    | |- X _ _ (nneg _ _) _ => eapply X_neg; xs
    | |- X _ _ _ _ => first [eassumption | eapply X_fixed; eassumption]
    end.
  Ltac comps H := rewrite ?Forall_cons_iff in H.
  Ltac apart := repeat match goal with H : _ /\ _ |- _ => destruct H end.
  Lemma KL_pos s t K L x y : fixed s K x -> fixed t L y -> 0 <= K * L.
  Proof. intros A B. apply Rmult_le_pos; [exact (X_pos _ _ _ _ (X_fixed _ _ _ A)) | exact (X_pos _ _ _ _ (X_fixed _ _ _ B))]. Qed.
  Lemma dot_fx k (u v : vcar F k) s t K L : room (s + t) -> Forall (fixed s K) (vcomps u) -> Forall (fixed t L) (vcomps v) -> INR (vlen k) * (K * L) <= full ->
    exists d, vec_dot u v = Some d /\ fixed (s + t) (INR (vlen k) * (K * L)) d /\ exactly d (sumprod (map val (vcomps u)) (map val (vcomps v))).
  Proof.
    intros R U V. destruct k, u as [[]], v as [[]]; cbn [vcomps list2 list3 list4 v2x1 v1x2 v3x1 v1x3 v4x1 v1x4 vlen INR] in *; intro H; comps U; comps V; apart;
      (assert (0 <= K * L) by (eapply KL_pos; eassumption));
      (eexists; split; [reflexivity |]; eapply fixed_X; eapply X_ext; [xs; lra | cbn [map sumprod]; ring | lra]).
  Qed.
  Lemma sum_fx k (u v : vcar F k) s K L : room s -> Forall (fixed s K) (vcomps u) -> Forall (fixed s L) (vcomps v) -> K + L <= full ->
    exists p m, vec_plus u v = Some p /\ vec_minus u v = Some m /\ Forall (fixed s (K + L)) (vcomps (p : vcar bf k)) /\ Forall (fixed s (K + L)) (vcomps (m : vcar bf k)) /\
      map val (vcomps (p : vcar bf k)) = map (fun z => fst z + snd z) (combine (map val (vcomps u)) (map val (vcomps v))) /\
      map val (vcomps (m : vcar bf k)) = map (fun z => fst z - snd z) (combine (map val (vcomps u)) (map val (vcomps v))).
  Proof.
    intros R U V H.
    assert (P : forall x y, fixed s K x -> fixed s L y -> fixed s (K + L) (nadd F x y) /\ val (nadd F x y) = val x + val y).
    { intros x y A B. destruct (fixed_X _ _ _ _ (X_plus s K L x y _ _ R (X_fixed _ _ _ A) (X_fixed _ _ _ B) H)) as [P1 [_ P2]]. split; assumption. }
    assert (M : forall x y, fixed s K x -> fixed s L y -> fixed s (K + L) (nsub F x y) /\ val (nsub F x y) = val x - val y).
    { intros x y A B. destruct (fixed_X _ _ _ _ (X_minus s K L x y _ _ R (X_fixed _ _ _ A) (X_fixed _ _ _ B) H)) as [P1 [_ P2]]. split; assumption. }
    destruct k, u as [[]], v as [[]]; cbn [vcomps list2 list3 list4 v2x1 v1x2 v3x1 v1x3 v4x1 v1x4] in *; comps U; comps V; apart;
      (do 2 eexists; split; [reflexivity |]; split; [reflexivity |]; cbn [vcomps list2 list3 list4 v2x1 v1x2 v3x1 v1x3 v4x1 v1x4]; split; [| split; [| split]];
       [repeat (constructor; [apply P; assumption |]); constructor | repeat (constructor; [apply M; assumption |]); constructor | |]; cbn [map combine fst snd]; repeat (f_equal; try (apply P; assumption); try (apply M; assumption))).
  Qed.
  Lemma cross_fx k (u v : vcar F k) s t K L : vlen k = 3%nat -> room (s + t) -> Forall (fixed s K) (vcomps u) -> Forall (fixed t L) (vcomps v) -> 2 * (K * L) <= full ->
    exists w, vec_cross u v = Some w /\ Forall (fixed (s + t) (2 * (K * L))) (vcomps (w : vcar bf k)) /\ map val (vcomps (w : vcar bf k)) = cross_list (map val (vcomps u)) (map val (vcomps v)).
  Proof.
    intros E R U V H.
    assert (C : forall a b c d, fixed s K a -> fixed t L b -> fixed s K c -> fixed t L d -> fixed (s + t) (2 * (K * L)) (nsub F (nmul F a b) (nmul F c d)) /\ val (nsub F (nmul F a b) (nmul F c d)) = val a * val b - val c * val d).
    { intros a b c d A B C D. assert (0 <= K * L) by (eapply KL_pos; eassumption). assert (Q : X (s + t) (2 * (K * L)) (nsub F (nmul F a b) (nmul F c d)) (val a * val b - val c * val d)) by (eapply X_ext; [xs; lra | ring | lra]).
      destruct (fixed_X _ _ _ _ Q) as [P1 [_ P2]]. split; assumption. }
    destruct k; try discriminate E; destruct u as [[]], v as [[]]; cbn [vcomps list3 v3x1 v1x3] in *; comps U; comps V; apart;
      (eexists; split; [reflexivity |]; cbn [vcomps list3 v3x1 v1x3]; split;
       [repeat (constructor; [apply C; assumption |]); constructor |]; cbn [map cross_list]; rewrite !(fun a b c d A B C' D => proj2 (C a b c d A B C' D)) by assumption; repeat (f_equal; try ring)).
  Qed.
  Lemma scale_fx k (u : vcar F k) (c : F) s t K L : room (s + t) -> Forall (fixed s K) (vcomps u) -> fixed t L c -> K * L <= full ->
    exists w, vec_scale u c = Some w /\ Forall (fixed (s + t) (K * L)) (vcomps (w : vcar bf k)) /\ map val (vcomps (w : vcar bf k)) = map (fun x => x * val c) (map val (vcomps u)).
  Proof.
    intros R U V H. destruct (vec_scale_comps k u c) as (w & E & C). exists w. split; [exact E |]. change (@vcomps bf k w) with (@vcomps (nT F) k w). rewrite C. clear E C.
    assert (P : forall x, fixed s K x -> fixed (s + t) (K * L) (nmul F x c) /\ val (nmul F x c) = val x * val c).
    { intros x A. assert (Q : X (s + t) (K * L) (nmul F x c) (val x * val c)) by (xs; exact H). destruct (fixed_X _ _ _ _ Q) as [P1 [_ P2]]. split; assumption. }
    induction U as [| x l A _ [I1 I2]]; [split; [constructor | reflexivity] |]. destruct (P x A) as [P1 P2]. split; [constructor; assumption |]. cbn [map] in *. f_equal; assumption.
  Qed.
  (** a sum of squares that is a square *)
  Lemma sqrt_fx s K x n : room s -> fin x -> val x = (IZR n * bpow radix2 s) * (IZR n * bpow radix2 s) -> Rabs (IZR n) <= K -> K <= full -> X s K (nsqrt F x) (Rabs (IZR n * bpow radix2 s)).
  Proof.
    intros R Fx E B KF. destruct (int_fmt s n R ltac:(lra)) as [I1 I2]. destruct (Bsqrt_correct prec emax Hp Hm mode_NE x) as (Q1 & Q2 & _). cbn [nsqrt Ieee]. change (round_mode mode_NE) with ZnearestE in Q1.
    rewrite E in Q1. fold (Rsqr (IZR n * bpow radix2 s)) in Q1. rewrite sqrt_Rsqr_abs in Q1. assert (A : Rabs (IZR n * bpow radix2 s) = IZR (Z.abs n) * bpow radix2 s) by (rewrite Rabs_mult, (Rabs_pos_eq (bpow _ s)), <- abs_IZR by apply bpow_ge_0; reflexivity).
    assert (B' : Rabs (IZR (Z.abs n)) <= K) by (rewrite abs_IZR, Rabs_Rabsolu; exact B). destruct (int_fmt s (Z.abs n) R ltac:(lra)) as [J1 J2].
    split; [| split; [rewrite Q1, A; exact J1 | exists (Z.abs n); split; assumption]]. rewrite Q2. destruct x as [| | | [] m e H]; try discriminate Fx; try reflexivity.
    exfalso. assert (L : val (B754_finite true m e H) < 0) by (apply F2R_lt_0; reflexivity). rewrite E in L. pose proof (Rle_0_sqr (IZR n * bpow radix2 s)) as S. unfold Rsqr in S. lra.
  Qed.
  Lemma mag_fx k (u : vcar F k) s t K n : room (s + s) -> room t -> Forall (fixed s K) (vcomps u) -> INR (vlen k) * (K * K) <= full -> Rabs (IZR n) <= full ->
    sumprod (map val (vcomps u)) (map val (vcomps u)) = (IZR n * bpow radix2 t) * (IZR n * bpow radix2 t) ->
    exists d, vec_magnitude u = Some d /\ exactly d (Rabs (IZR n * bpow radix2 t)).
  Proof.
    intros R Rt U H B E.
    assert (Q : exists y, vec_magnitude u = Some (nsqrt F y) /\ exactly y (sumprod (map val (vcomps u)) (map val (vcomps u)))).
    { revert H E. destruct k, u as [[]]; cbn [vcomps list2 list3 list4 v2x1 v1x2 v3x1 v1x3 v4x1 v1x4 vlen INR] in *; intros H _; comps U; apart;
      (assert (0 <= K * K) by (eapply KL_pos; eassumption));
      (eexists; split; [reflexivity |]; apply (X_ex (s + s) (INR 4 * (K * K))); eapply X_ext; [unfold npowi2; xs; lra | cbn [map sumprod]; ring | cbn [INR]; lra]). }
    destruct Q as (y & -> & Fy & Vy). eexists. split; [reflexivity |]. rewrite E in Vy. eapply X_ex. apply (sqrt_fx t full); try assumption. lra.
  Qed.
End PInt.
