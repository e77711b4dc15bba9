(** PScaleP.v — the query of a prism and a point on data scaled by powers of two (C127). *)
From Coq Require Import Reals List ZArith NArith Bool Lra Lia.
From Flocq Require Import Core BinarySingleNaN.
Import ListNotations.
From Verif Require Import Base Num Vec Mat Bound Shape Intersect Gjk Float FloatFacts FloatRound Order SpecMat SpecGeom SpecBound SpecBuild SpecMirror SpecScale
  PMat PBound PShape PInter PBuild PRound PIeee1 PIeee2 PIeee5 PMirror PMirror1 PMirror2 PScale PScale2 PPrismF.
Local Open Scope R_scope.

Section ScaleP.
  Context (prec emax : Z) {Hp : Prec_gt_0 prec} {Hm : Prec_lt_emax prec emax} (lm : libm (binary_float prec emax)).
  Notation bf := (binary_float prec emax).
  Notation F := (@Ieee prec emax Hp Hm lm).
  Notation val := (@B2R prec emax).
  Notation emin := (3 - emax - prec)%Z.
  Notation G := (G prec emax).
  Notation GV := (GV prec emax lm).
  Notation ok := (ok prec emax).
  Notation T := (T prec emax).
  Notation vec := (mat3x1 F).
  Notation nan := (@B754_nan prec emax).
  (** a coordinate of a bound: scaled, or not a number on both sides *)
  Definition TN (s : Z) (x' x : F) : Prop := T s x' x \/ ((x' : bf) = nan /\ (x : bf) = nan).
  Lemma cmp_TN s (x' x y' y : F) : TN s x' x -> TN s y' y -> ncmp F x' y' = ncmp F x y.
  Proof.
    change (ncmp F) with (@Bcompare prec emax). intros [A | [-> ->]] [B | [-> ->]].
    - eapply cmp_T; eassumption.
    - destruct A as [(A & B & _) | [-> _]]; [| reflexivity]. destruct x', x; try discriminate; reflexivity.
    - reflexivity.
    - reflexivity.
  Qed.
  Lemma mins_TN s (l' l : list F) : Forall2 (TN s) l' l -> forall x' x : F, TN s x' x -> TN s (mins x' l') (mins x l).
  Proof.
    induction 1 as [| y' y l' l Y _ IH]; intros x' x X; [exact X |]. unfold mins. cbn [fold_left]. apply IH.
    rewrite (cmp_TN s _ _ _ _ X Y). destruct (ncmp F x y) as [[] |]; assumption.
  Qed.
  Lemma maxs_TN s (l' l : list F) : Forall2 (TN s) l' l -> forall x' x : F, TN s x' x -> TN s (maxs x' l') (maxs x l).
  Proof.
    induction 1 as [| y' y l' l Y _ IH]; intros x' x X; [exact X |]. unfold maxs. cbn [fold_left]. apply IH.
    rewrite (cmp_TN s _ _ _ _ X Y). destruct (ncmp F x y) as [[] |]; assumption.
  Qed.
  Definition TV (s : Z) (v' v : vec) : Prop := TN s (c0 v') (c0 v) /\ TN s (c1 v') (c1 v) /\ TN s (c2 v') (c2 v).
  Definition TNb (s : Z) (B' B : aabb F) : Prop :=
    match B', B with AABB (A3 l0' l1' l2') (A3 u0' u1' u2'), AABB (A3 l0 l1 l2) (A3 u0 u1 u2) =>
      (TN s l0' l0 /\ TN s l1' l1 /\ TN s l2' l2) /\ (TN s u0' u0 /\ TN s u1' u1 /\ TN s u2' u2) end.
  Lemma hull_TN s (l' l : list vec) (p' p : vec) : Forall2 (TV s) l' l -> TV s p' p -> TNb s (hull_any p' l') (hull_any p l).
  Proof.
    intros Hl (P0 & P1 & P2).
    assert (H0 : Forall2 (TN s) (map c0 l') (map c0 l)) by (clear - Hl; induction Hl as [| x' x l' l (A & _ & _) _ IH]; constructor; assumption).
    assert (H1 : Forall2 (TN s) (map c1 l') (map c1 l)) by (clear - Hl; induction Hl as [| x' x l' l (_ & A & _) _ IH]; constructor; assumption).
    assert (H2 : Forall2 (TN s) (map c2 l') (map c2 l)) by (clear - Hl; induction Hl as [| x' x l' l (_ & _ & A) _ IH]; constructor; assumption).
    repeat split; first [apply mins_TN | apply maxs_TN]; assumption.
  Qed.
  Lemma overlap_TN s (x' x y' y : shape F) : TNb s (bd prec emax lm x') (bd prec emax lm x) -> TNb s (bd prec emax lm y') (bd prec emax lm y) -> overlap x' y' = overlap x y.
  Proof.
    intros A B. unfold overlap. change (ibound_intersect (shape_get_bound x') (shape_get_bound y')) with (aabb_intersect (bd prec emax lm x') (BBox (bd prec emax lm y'))).
    change (ibound_intersect (shape_get_bound x) (shape_get_bound y)) with (aabb_intersect (bd prec emax lm x) (BBox (bd prec emax lm y))). rewrite !intersect_eval. unfold apart, lo, up.
    destruct (bd prec emax lm x) as [[] []], (bd prec emax lm x') as [[] []], (bd prec emax lm y) as [[] []], (bd prec emax lm y') as [[] []].
    destruct A as ((A1 & A2 & A3) & A4 & A5 & A6), B as ((B1 & B2 & B3) & B4 & B5 & B6). cbn. unfold ngt, nlt.
    rewrite (cmp_TN s _ _ _ _ A1 B4), (cmp_TN s _ _ _ _ A2 B5), (cmp_TN s _ _ _ _ A3 B6), (cmp_TN s _ _ _ _ A4 B1), (cmp_TN s _ _ _ _ A5 B2), (cmp_TN s _ _ _ _ A6 B3). reflexivity.
  Qed.
  Lemma GV_TV s lo hi (v' v : vec) : GV s lo hi v' v -> TV s v' v.
  Proof. intros (A & B & C). apply G_T in A, B, C. repeat split; left; assumption. Qed.

  (** ---- vectors without a number ---- *)
  Definition void (v : vec) : Prop := (c0 v : bf) = nan /\ (c1 v : bf) = nan /\ (c2 v : bf) = nan.
  Lemma mul_nan_r (x : F) : nmul F x (nan : F) = nan. Proof. destruct x; reflexivity. Qed.
  Lemma mul_nan_l (x : F) : nmul F (nan : F) x = nan. Proof. destruct x; reflexivity. Qed.
  Lemma add_nan_r (x : F) : nadd F x (nan : F) = nan. Proof. destruct x; reflexivity. Qed.
  Lemma add_nan_l (x : F) : nadd F (nan : F) x = nan. Proof. destruct x; reflexivity. Qed.
  Lemma sub_nan_r (x : F) : nsub F x (nan : F) = nan. Proof. destruct x; reflexivity. Qed.
  Lemma sub_nan_l (x : F) : nsub F (nan : F) x = nan. Proof. destruct x; reflexivity. Qed.
  Ltac nans := rewrite ?mul_nan_r, ?mul_nan_l, ?add_nan_r, ?add_nan_l, ?sub_nan_r, ?sub_nan_l.
  Ltac voids := intros; repeat match goal with H : void ?v |- _ => destruct v as [[? ? ?]]; destruct H as (? & ? & ?); cbn [c0 c1 c2] in *; subst end;
    unfold void, vtimes, vplus, vminus, vcrossn, vdotn; cbn [c0 c1 c2]; nans; repeat split; try reflexivity.
  Lemma void_times (v : vec) x : void v -> void (vtimes v x). Proof. voids. Qed.
  Lemma void_plus (v w : vec) : void w -> void (vplus v w). Proof. voids. Qed.
  Lemma void_minus (v w : vec) : void w -> void (vminus v w). Proof. voids. Qed.
  Lemma void_cross (v w : vec) : void w -> void (vcrossn v w). Proof. voids. Qed.
  Lemma void_dot (v w : vec) : void w -> (vdotn v w : bf) = nan. Proof. voids. Qed.
  Lemma zero_of (x : F) : is_finite (x : bf) = true -> val x = 0 -> exists s, (x : bf) = B754_zero s.
  Proof.
    intros Fx V. destruct x as [s | | | s m e H]; try discriminate; [exists s; reflexivity |]. exfalso. cbn in V. apply (F2R_neq_0 radix2 (Float radix2 (cond_Zopp s (Zpos m)) e)); [| exact V].
    cbn. destruct s; discriminate.
  Qed.
  Lemma void_nrm (v : vec) : all3 (fun x => is_finite x = true /\ B2R x = 0) (v : mat3x1 bf) -> void (nrm v).
  Proof.
    destruct v as [[x y z]]. intros ([Fx X] & [Fy Y] & [Fz Z]). destruct (zero_of x Fx X) as [a Ea]. destruct (zero_of y Fy Y) as [b Eb]. destruct (zero_of z Fz Z) as [c Ec].
    cbn in x, y, z, Ea, Eb, Ec. subst x y z. destruct a, b, c; repeat split.
  Qed.

  Variables L k : Z.
  Hypothesis P : (9 < prec)%Z.
  Hypothesis HL : (0 <= L)%Z.
  Hypothesis Hk : (Z.abs k <= L)%Z.
  Hypothesis HB : (16 * L + 2 * prec + 40 <= emax)%Z.
  Ltac okk := unfold PScale.ok; lia.
  Lemma GV_cross s t lo lo' hi hi' (a' a b' b : vec) : ok (s + t) (lo + lo') (hi + hi') -> ok (s + t) (lo + lo') (hi + hi' + 1) -> GV s lo hi a' a -> GV t lo' hi' b' b ->
    GV (s + t) (lo + lo') (hi + hi' + 1) (vcrossn a' b') (vcrossn a b).
  Proof.
    intros O O1 (X & Y & Z) (X' & Y' & Z'). (split; [| split]); apply (G_minus prec emax); try assumption; apply (G_mult prec emax); assumption.
  Qed.
  Notation N1 := (4 * L + 6 + prec)%Z.
  (** the height vector: scaled, or without a number on both sides *)
  Lemma height_scaled (a' a b' b c' c : vec) (h' h : F) : GV k (- L) L a' a -> GV k (- L) L b' b -> GV k (- L) L c' c -> G k (- L) L h' h ->
    GV k (- (N1 + L)) (L + 1) (hvec a' b' c' h') (hvec a b c h) \/ (void (hvec a' b' c' h') /\ void (hvec a b c h)).
  Proof.
    intros A B C H. unfold hvec.
    pose proof (GV_minus prec emax lm k (- L) L _ _ _ _ ltac:(okk) ltac:(okk) B A) as U. pose proof (GV_minus prec emax lm k (- L) L _ _ _ _ ltac:(okk) ltac:(okk) C A) as V.
    pose proof (GV_cross k k (- L) (- L) (L + 1) (L + 1) _ _ _ _ ltac:(okk) ltac:(okk) U V) as X. set (x' := vcrossn (vminus b' a') _) in *. set (x := vcrossn (vminus b a) _) in *.
    pose proof (GV_times3 prec emax lm _ _ _ _ _ X) as T3.
    assert (M : all3 (medium (2 * L + 3)) (x : mat3x1 bf)).
    { assert (Q : forall y' y : F, G (k + k) (- L + - L) (L + 1 + (L + 1) + 1) y' y -> medium (2 * L + 3) (y : bf)).
      { intros y' y (_ & Fy & _ & R & U'). split; [exact Fy |]. split; [replace (2 * L + 3)%Z with (L + 1 + (L + 1) + 1)%Z by lia; exact U' |]. apply (gr_le (- L + - L)); [lia | exact R]. }
      destruct x as [[]]. destruct X as (X0 & X1 & X2). split; [| split]; eapply Q; eassumption. }
    assert (Dec : all3 (fun x => B2R x = 0) (x : mat3x1 bf) \/ ~ all3 (fun x => B2R x = 0) (x : mat3x1 bf)).
    { destruct x as [[x0 x1 x2]]. cbn [all3]. destruct (Req_dec (val x0) 0), (Req_dec (val x1) 0), (Req_dec (val x2) 0); tauto. }
    destruct Dec as [Z0 | NZ].
    - right. split; apply void_times, void_nrm.
      + clear - T3 Z0. destruct x' as [[]], x as [[]]. destruct T3 as ((F0 & _ & V0) & (F1 & _ & V1) & (F2 & _ & V2)), Z0 as (E0 & E1 & E2). rewrite E0, Rmult_0_l in V0. rewrite E1, Rmult_0_l in V1. rewrite E2, Rmult_0_l in V2. repeat split; assumption.
      + clear - T3 Z0. destruct x' as [[]], x as [[]]. destruct T3 as ((_ & F0 & _) & (_ & F1 & _) & (_ & F2 & _)), Z0 as (E0 & E1 & E2). repeat split; assumption.
    - left. pose proof (nrm_G prec emax lm (2 * L + 3) 0 P ltac:(lia) ltac:(lia) ltac:(lia) x' x (k + k) (conj M NZ) ltac:(lia) T3) as W. unfold PScale2.N in W.
      replace (- (2 * (2 * L + 3) + prec))%Z with (- N1)%Z in W by lia.
      replace k with (0 + k)%Z by lia. replace (- (N1 + L))%Z with (- N1 + - L)%Z by lia. replace (L + 1)%Z with (1 + L)%Z by lia.
      apply GV_scale; [okk | exact W | replace (0 + k)%Z with k by lia; exact H].
  Qed.
  Definition tests5 (a b c w : vec) : list (vec * vec) :=
    [(a, vtimes w (nlit F (-1) 1)); (vplus a w, w); (a, vcrossn (vminus b a) w); (b, vcrossn (vminus c b) w); (c, vcrossn (vminus a c) w)].
  Lemma step5 (v n q : vec) l : all_inside ((v, n) :: l) q = if ngt (vdotn (vminus q v) n) n0 then Ok false else all_inside l q.
  Proof.
    unfold all_inside. cbn [iter_all fst snd]. replace (mat3x1_minus q v) with (Some (vminus q v)) by (destruct q as [[]], v as [[]]; reflexivity).
    cbn [unwrap bind]. replace (mat3x1_dot (vminus q v) n) with (Some (vdotn (vminus q v) n)) by (destruct q as [[]], v as [[]], n as [[]]; reflexivity). cbn [unwrap bind]. destruct (ngt _ n0); reflexivity.
  Qed.
  Lemma lit_m1 : G 0 0 0 (nlit F (-1) 1) (nlit F (-1) 1).
  Proof.
    destruct (lit_z prec emax lm P (-1) ltac:(lia)) as [A B]. repeat split; try exact A.
    - cbn. ring.
    - rewrite B. exists (-1)%Z. cbn. ring.
    - rewrite B. cbn. rewrite Rabs_left by lra. lra.
  Qed.
  Lemma gt_void (v w : vec) : void w -> ngt (vdotn v w) n0 = false.
  Proof. intro V. rewrite (void_dot v w V). reflexivity. Qed.
  Lemma gt_dot s t lo lo' hi hi' (a' a b' b : vec) : ok (s + t) (lo + lo') (hi + hi') -> ok (s + t) (lo + lo') (hi + hi' + 2) -> GV s lo hi a' a -> GV t lo' hi' b' b ->
    ngt (vdotn a' b') n0 = ngt (vdotn a b) n0.
  Proof. intros O O2 A B. apply (gt_T prec emax lm (s + t)); [| apply T_0]. eapply G_T. apply (G_dot prec emax lm s t lo lo' hi hi'); assumption. Qed.
  Lemma inside_scaled (a' a b' b c' c w' w q' q : vec) : GV k (- L) L a' a -> GV k (- L) L b' b -> GV k (- L) L c' c -> GV k (- L) L q' q ->
    GV k (- (N1 + L)) (L + 1) w' w \/ (void w' /\ void w) -> all_inside (tests5 a' b' c' w') q' = all_inside (tests5 a b c w) q.
  Proof.
    intros A B C Q [W | [V' V]]; unfold tests5; rewrite !step5.
    - assert (D : forall x' x y' y : vec, GV k (- L) L x' x -> GV k (- L) L y' y -> GV k (- L) (L + 1) (vminus x' y') (vminus x y)) by (intros; apply (GV_minus prec emax lm); [okk | okk | assumption | assumption]).
      assert (W1 : GV k (- (N1 + L)) (L + 1) (vtimes w' (nlit F (-1) 1)) (vtimes w (nlit F (-1) 1))).
      { replace k with (k + 0)%Z by lia. replace (- (N1 + L))%Z with (- (N1 + L) + 0)%Z by lia. replace (L + 1)%Z with (L + 1 + 0)%Z by lia. apply GV_scale; [okk | replace (k + 0)%Z with k by lia; exact W | exact lit_m1]. }
      assert (Wt : GV k (- (N1 + L)) (L + 1 + 1) (vplus a' w') (vplus a w)) by (apply (GV_plus prec emax lm); [okk | okk | apply (GV_weak prec emax lm k (- L) L); [lia | lia | exact A] | exact W]).
      assert (Qt : GV k (- (N1 + L)) (L + 1 + 1 + 1) (vminus q' (vplus a' w')) (vminus q (vplus a w))) by (apply (GV_minus prec emax lm); [okk | okk | apply (GV_weak prec emax lm k (- L) L); [lia | lia | exact Q] | exact Wt]).
      assert (Sd : forall x' x y' y : vec, GV k (- L) L x' x -> GV k (- L) L y' y ->
        ngt (vdotn (vminus q' x') (vcrossn (vminus y' x') w')) n0 = ngt (vdotn (vminus q x) (vcrossn (vminus y x) w)) n0).
      { intros x' x y' y X Y. apply (gt_dot k (k + k) (- L) (- L + - (N1 + L)) (L + 1) (L + 1 + (L + 1) + 1)); [okk | okk | apply D; assumption |]. apply GV_cross; [okk | okk | apply D; assumption | exact W]. }
      rewrite (gt_dot k k (- L) (- (N1 + L)) (L + 1) (L + 1) (vminus q' a') (vminus q a) _ _ ltac:(okk) ltac:(okk) (D _ _ _ _ Q A) W1).
      rewrite (gt_dot k k (- (N1 + L)) (- (N1 + L)) (L + 1 + 1 + 1) (L + 1) _ _ _ _ ltac:(okk) ltac:(okk) Qt W).
      rewrite (Sd _ _ _ _ A B), (Sd _ _ _ _ B C), (Sd _ _ _ _ C A). reflexivity.
    - rewrite !gt_void; [reflexivity | ..]; first [apply void_cross | apply void_times | idtac]; assumption.
  Qed.
  Theorem prism_point_units (a' a b' b c' c q' q : vec) (h' h e' e f' f : F) (s' s t' t : shape F) :
    all3 (medium L) (a : mat3x1 bf) -> all3 (medium L) (b : mat3x1 bf) -> all3 (medium L) (c : mat3x1 bf) -> all3 (medium L) (q : mat3x1 bf) -> medium L (h : bf) ->
    times3 k (a' : mat3x1 bf) a -> times3 k (b' : mat3x1 bf) b -> times3 k (c' : mat3x1 bf) c -> times3 k (q' : mat3x1 bf) q -> times2 k (h' : bf) h ->
    mk_prism a b c h e s -> mk_point q f t -> mk_prism a' b' c' h' e' s' -> mk_point q' f' t' ->
    same_answer k (shape_get_intersect s' t') (shape_get_intersect s t) /\ same_answer k (shape_get_intersect t' s') (shape_get_intersect t s).
  Proof.
    intros Ma Mb Mc Mq Mh Ta Tb Tc Tq Th S1 P1 S2 P2. pose proof (medium_GV prec emax lm L k _ _ Ma Ta) as A. pose proof (medium_GV prec emax lm L k _ _ Mb Tb) as B.
    pose proof (medium_GV prec emax lm L k _ _ Mc Tc) as C. pose proof (medium_GV prec emax lm L k _ _ Mq Tq) as Q. pose proof (medium_G prec emax L k _ _ Mh Th) as H.
    apply prism_any in S1, S2. apply point_any in P1, P2. pose proof (height_scaled a' a b' b c' c h' h A B C H) as W. pose proof (inside_scaled _ _ _ _ _ _ _ _ _ _ A B C Q W) as I.
    set (w' := hvec a' b' c' h') in *. set (w := hvec a b c h) in *. clearbody w' w.
    assert (CE : forall (x y z p v : vec) bd ee bp ep,
      core (SPrism (MkPrism (A3 x y z) (A3 (vplus x v) (vplus y v) (vplus z v)) v bd ee)) (SPoint (MkPoint p bp ep)) = let! i := all_inside (tests5 x y z v) p in Ok (if i then (true, Some p) else miss)).
    { intros x y z p v bd ee bp ep. cbn [core shape_get_shape_data pt_ori]. unfold triprism_point. replace (vec_at (vec_data p) 0) with (Ok p) by (destruct p as [[]]; reflexivity). cbn [bind].
      replace (triprism_tests _) with (Ok (tests5 x y z v)); [reflexivity |]. unfold triprism_tests. cbn [tp_nh tp_base tp_base2]. unfold tests5. destruct v as [[]], x as [[]], y as [[]], z as [[]]. reflexivity. }
    assert (Top : forall x' x : vec, GV k (- L) L x' x -> TV k (vplus x' w') (vplus x w)).
    { intros x' x X. destruct W as [W | [V' V]].
      - apply (GV_TV k (- (N1 + L)) (L + 1 + 1)). apply (GV_plus prec emax lm); [okk | okk | apply (GV_weak prec emax lm k (- L) L); [lia | lia | exact X] | exact W].
      - apply (void_plus x') in V'. apply (void_plus x) in V. destruct V' as (V0 & V1 & V2), V as (U0 & U1 & U2). repeat split; right; split; assumption. }
    assert (OV : overlap s' t' = overlap s t).
    { apply (overlap_TN k); subst s s' t t'.
      - pose proof (GV_TV _ _ _ _ _ A) as TA. pose proof (GV_TV _ _ _ _ _ B) as TB. pose proof (GV_TV _ _ _ _ _ C) as TC.
        exact (hull_TN k [b'; c'; vplus a' w'; vplus b' w'; vplus c' w'] [b; c; vplus a w; vplus b w; vplus c w] a' a
          (Forall2_cons _ _ TB (Forall2_cons _ _ TC (Forall2_cons _ _ (Top _ _ A) (Forall2_cons _ _ (Top _ _ B) (Forall2_cons _ _ (Top _ _ C) (Forall2_nil _)))))) TA).
      - clear - Q. apply GV_TV in Q. destruct q as [[]], q' as [[]]. destruct Q as (Q0 & Q1 & Q2). split; (split; [exact Q0 | split; [exact Q1 | exact Q2]]). }
    assert (CE' : core s' t' = core t' s' /\ core s t = core t s) by (subst s s' t t'; split; reflexivity). destruct CE' as [CE1 CE2].
    rewrite !(intersect_core (ieee_ordered prec emax lm)), (overlap_sym (ieee_ordered prec emax lm) t' s'), (overlap_sym (ieee_ordered prec emax lm) t s), <- CE1, <- CE2, OV.
    assert (E : same_answer k (core s' t') (core s t)).
    { subst s s' t t'. rewrite !CE, I. destruct (all_inside (tests5 a b c w) q) as [[|] |]; cbn [bind]; try reflexivity. split; [reflexivity | exact Tq]. }
    destruct (overlap s t); split; first [exact E | reflexivity].
  Qed.
End ScaleP.
