(** PPrismF.v — prism against point in IEEE arithmetic (C99). *)
From Coq Require Import Reals List ZArith NArith Bool Lra Lia Psatz.
From Flocq Require Import Core BinarySingleNaN.
Import ListNotations.
From Verif Require Import Base Num Vec Mat Bound Shape Intersect Gjk Float Exact FloatFacts FloatRound ExactFacts Order SpecMat SpecGeom
  SpecBound SpecShape SpecInter SpecRound SpecBuild SpecPrismF PMat PBound PShape PBuild PInter PVec PRound PRound3 PGeo1 PGeo3 PIeee1 PIeee2 PIeee3 PIeee5 PIeee6 PIeee7 PInvF.
Local Open Scope R_scope.

(** ---- real geometry ---- *)
Lemma upto_sub K a b : upto K a -> upto K b -> norm (vsub a b) <= 347 / 100 * K.
Proof.
  intros [A0 [A1 A2]] [B0 [B1 B2]]. assert (K0 : 0 <= K) by (pose proof (Rabs_pos (vx a)); lra). apply norm_le_sq; [lra |].
  assert (S : forall x y, Rabs x <= K -> Rabs y <= K -> (x - y) * (x - y) <= 4 * (K * K)).
  { intros x y Hx Hy. apply Rabs_le_inv in Hx, Hy. assert (Q : Rabs (x - y) <= 2 * K) by (apply Rabs_le; lra). rewrite <- (sqr_abs (x - y)), Rabs_mult.
    replace (4 * (K * K)) with (2 * K * (2 * K)) by ring. apply Rmult_le_compat; try apply Rabs_pos; exact Q. }
  pose proof (S _ _ A0 B0). pose proof (S _ _ A1 B1). pose proof (S _ _ A2 B2). unfold vdot, vsub. cbn [vx vy vz]. assert (0 <= K * K) by nra. lra.
Qed.
Lemma cross_norm_le x y : norm (vcross x y) <= norm x * norm y.
Proof.
  pose proof (norm_pos x). pose proof (norm_pos y). apply norm_le_sq; [apply Rmult_le_pos; assumption |].
  pose proof (vcross_lagrange x y) as L. rewrite norm_sq in L. rewrite L, <- (norm_sq x), <- (norm_sq y). assert (0 <= vdot x y * vdot x y) by nra. lra.
Qed.
Lemma upto_area K a b c : upto K a -> upto K b -> upto K c -> area2 a b c <= 1205 / 100 * (K * K).
Proof.
  intros A B C. unfold area2. eapply Rle_trans; [apply cross_norm_le |]. pose proof (upto_sub K b a B A) as H1. pose proof (upto_sub K c a C A) as H2.
  assert (0 <= K * K) by nra. apply Rle_trans with (347 / 100 * K * (347 / 100 * K)); [apply Rmult_le_compat; try apply norm_pos; assumption | lra].
Qed.
(** unit vectors of close vectors *)
Lemma unit_close x y : x <> vzero -> y <> vzero -> dist (PShape.unit x) (PShape.unit y) <= 2 * (dist x y / norm y).
Proof.
  intros Hx Hy. pose proof (norm_nz x Hx) as Nx. pose proof (norm_nz y Hy) as Ny. unfold dist, PShape.unit.
  replace (vsub (vscale (/ norm x) x) (vscale (/ norm y) y)) with (vadd (vscale (/ norm y) (vsub x y)) (vscale ((norm y - norm x) / (norm x * norm y)) x))
    by (apply V3_eq; cbn [vadd vscale vsub vx vy vz]; field; lra).
  eapply Rle_trans; [apply triangle |]. rewrite !norm_scale_abs.
  assert (I : 0 < / norm y) by (apply Rinv_0_lt_compat; exact Ny). rewrite (Rabs_pos_eq (/ norm y)) by lra.
  assert (Q : Rabs ((norm y - norm x) / (norm x * norm y)) * norm x = Rabs (norm y - norm x) * / norm y).
  { unfold Rdiv. rewrite Rabs_mult, (Rabs_pos_eq (/ (norm x * norm y))) by (left; apply Rinv_0_lt_compat, Rmult_lt_0_compat; assumption). field. lra. }
  rewrite Q. assert (D : Rabs (norm y - norm x) <= norm (vsub x y)).
  { pose proof (norm_close x y) as A. pose proof (norm_close y x) as B. rewrite (dist_sym y x) in B. unfold dist in A, B. apply Rabs_le. lra. }
  apply (Rmult_le_compat_r (/ norm y)) in D; [| lra]. unfold Rdiv. lra.
Qed.

Lemma prism_sup a b c h d M x : (forall v, In v [a; b; c] -> vdot d v <= M /\ vdot d (vadd v (pnh a b c h)) <= M) -> s_prism a b c h x -> vdot d x <= M.
Proof.
  intros HM [y [k [[s [t [Hs [Ht [Hst ->]]]]] [Hk ->]]]]. destruct (HM a) as [A1 A2]; [left; reflexivity |]. destruct (HM b) as [B1 B2]; [right; left; reflexivity |].
  destruct (HM c) as [C1 C2]; [right; right; left; reflexivity |]. unfold pnh in *. set (n := tri_normal a b c) in *. set (w := vdot d (vscale h n)).
  assert (L : forall v z, vdot d (vadd v z) = vdot d v + vdot d z) by (intros; unfold vdot, vadd; simpl; ring). rewrite L in A2, B2, C2. fold w in A2, B2, C2.
  replace (vdot d (vadd (vadd a (vadd (vscale s (vsub b a)) (vscale t (vsub c a)))) (vscale (k * h) n)))
    with ((1 - s - t) * vdot d a + s * vdot d b + t * vdot d c + k * w) by (unfold w, vdot, vadd, vscale, vsub; simpl; ring).
  set (fa := vdot d a) in *. set (fb := vdot d b) in *. set (fc := vdot d c) in *.
  assert (Y : (1 - s - t) * fa + s * fb + t * fc <= M) by nra. assert (Y2 : (1 - s - t) * fa + s * fb + t * fc + w <= M) by nra. nra.
Qed.
(** a point whose coordinates are almost those of a point of the prism is close to it *)
Lemma prism_close a b c h p t g : tri_ok a b c -> 0 < h -> 0 <= t -> 0 <= g -> - t <= ca a b c p -> - t <= cb a b c p -> ca a b c p + cb a b c p <= 1 + t -> - g <= cg a b c p <= h + g ->
  exists x, s_prism a b c h x /\ dist x p <= 2 * t * (norm (vsub b a) + norm (vsub c a)) + g.
Proof.
  intros ok Hh T0 G0 Ha Hb Hab Hg. pose proof (coords a b c ok p) as E. set (x := ca a b c p) in *. set (y := cb a b c p) in *. set (z := cg a b c p) in *.
  set (x' := (x + t) / (1 + 3 * t)). set (y' := (y + t) / (1 + 3 * t)). set (z' := Rmax 0 (Rmin h z)).
  assert (I : 0 < / (1 + 3 * t)) by (apply Rinv_0_lt_compat; lra).
  assert (X0 : 0 <= x') by (apply Rmult_le_pos; lra). assert (Y0 : 0 <= y') by (apply Rmult_le_pos; lra).
  assert (XY : x' + y' <= 1).
  { unfold x', y'. apply (Rmult_le_reg_r (1 + 3 * t)); [lra |]. replace (((x + t) / (1 + 3 * t) + (y + t) / (1 + 3 * t)) * (1 + 3 * t)) with (x + t + (y + t)) by (field; lra). lra. }
  assert (Z0 : 0 <= z' <= h) by (unfold z', Rmax, Rmin; destruct (Rle_dec h z); destruct (Rle_dec 0 _); lra).
  assert (Dz : Rabs (z' - z) <= g) by (apply Rabs_le; unfold z', Rmax, Rmin; destruct (Rle_dec h z); destruct (Rle_dec 0 _); lra).
  assert (D : forall v, - t <= v -> v <= 1 + 2 * t -> Rabs ((v + t) / (1 + 3 * t) - v) <= 2 * t).
  { intros v V0 V1. replace ((v + t) / (1 + 3 * t) - v) with (t * (1 - 3 * v) * / (1 + 3 * t)) by (field; lra). rewrite Rabs_mult, (Rabs_pos_eq (/ _)) by lra.
    apply (Rmult_le_reg_r (1 + 3 * t)); [lra |]. rewrite Rmult_assoc, Rinv_l, Rmult_1_r by lra. rewrite Rabs_mult, (Rabs_pos_eq t) by exact T0.
    assert (Rabs (1 - 3 * v) <= 2 * (1 + 3 * t)) by (apply Rabs_le; lra). rewrite (Rmult_comm 2 t), Rmult_assoc. apply Rmult_le_compat_l; assumption. }
  assert (Dx : Rabs (x' - x) <= 2 * t) by (apply D; lra). assert (Dy : Rabs (y' - y) <= 2 * t) by (apply D; lra).
  exists (vadd (vadd a (vadd (vscale x' (vsub b a)) (vscale y' (vsub c a)))) (vscale z' (tri_normal a b c))). split.
  - exists (vadd a (vadd (vscale x' (vsub b a)) (vscale y' (vsub c a)))), (z' / h). split; [exists x', y'; repeat split; assumption |]. split.
    + assert (0 < / h) by (apply Rinv_0_lt_compat; exact Hh). split; [apply Rmult_le_pos; lra |]. apply (Rmult_le_reg_r h); [exact Hh |]. unfold Rdiv. rewrite Rmult_assoc, Rinv_l by lra. lra.
    + replace (z' / h * h) with z' by (field; lra). reflexivity.
  - unfold dist. rewrite E at 1.
    match goal with |- norm ?v <= _ => replace v with (vadd (vadd (vscale (x' - x) (vsub b a)) (vscale (y' - y) (vsub c a))) (vscale (z' - z) (tri_normal a b c))) by (apply V3_eq; cbn [vx vy vz vadd vsub vscale]; ring) end.
    eapply Rle_trans; [apply triangle |]. eapply Rle_trans; [apply Rplus_le_compat_r, triangle |]. rewrite !norm_scale_abs.
    assert (UN : norm (tri_normal a b c) = 1) by (apply (unit_norm (vcross (vsub b a) (vsub c a))); exact ok). rewrite UN, Rmult_1_r.
    apply (Rmult_le_compat_r (norm (vsub b a))) in Dx; [| apply norm_pos]. apply (Rmult_le_compat_r (norm (vsub c a))) in Dy; [| apply norm_pos]. lra.
Qed.
(** the coordinates of a point deep inside *)
Lemma prism_deep a b c h p d : tri_ok a b c -> 0 < h -> 0 <= d -> deep (s_prism a b c h) d p ->
  d <= ca a b c p * norm (vsub b a) /\ d <= cb a b c p * norm (vsub c a) /\ d <= (1 - ca a b c p - cb a b c p) * norm (vsub b a) /\ d <= cg a b c p <= h - d.
Proof.
  intros ok Hh D0 Hd. pose proof (coords a b c ok p) as E. set (x := ca a b c p) in *. set (y := cb a b c p) in *. set (z := cg a b c p) in *.
  set (e1 := vsub b a) in *. set (e2 := vsub c a) in *. set (n := tri_normal a b c) in *.
  assert (Z1 : forall v, vcross vzero v = vzero) by (intro; apply V3_eq; cbn; ring). assert (Z2 : forall v, vcross v vzero = vzero) by (intro; apply V3_eq; cbn; ring).
  assert (P1 : 0 < norm e1) by (apply norm_nz; intro Z; apply ok; fold e1 e2; rewrite Z; apply Z1).
  assert (P2 : 0 < norm e2) by (apply norm_nz; intro Z; apply ok; fold e1 e2; rewrite Z; apply Z2).
  assert (UN : norm n = 1) by (apply (unit_norm (vcross e1 e2)); exact ok).
  assert (S : forall al be ga, norm (vadd (vadd (vscale al e1) (vscale be e2)) (vscale ga n)) <= d ->
    0 <= x + al /\ 0 <= y + be /\ x + al + (y + be) <= 1 /\ 0 <= z + ga <= h).
  { intros al be ga Hn. set (q := vadd (vadd a (vadd (vscale (x + al) e1) (vscale (y + be) e2))) (vscale (z + ga) n)).
    assert (Q : s_prism a b c h q).
    { apply Hd. unfold dist. replace (vsub q p) with (vadd (vadd (vscale al e1) (vscale be e2)) (vscale ga n)); [exact Hn |]. unfold q. rewrite E at 1. apply V3_eq; cbn [vx vy vz vadd vsub vscale]; ring. }
    apply (prism_coords a b c ok h q Hh) in Q. destruct (coords_inv a b c ok (x + al) (y + be) (z + ga) q eq_refl) as [Q1 [Q2 Q3]]. rewrite Q1, Q2, Q3 in Q. tauto. }
  assert (N1 : forall k, norm (vadd (vadd (vscale k e1) (vscale 0 e2)) (vscale 0 n)) = Rabs k * norm e1).
  { intro k. rewrite <- norm_scale_abs. f_equal. apply V3_eq; cbn [vx vy vz vadd vscale]; ring. }
  assert (N2 : forall k, norm (vadd (vadd (vscale 0 e1) (vscale k e2)) (vscale 0 n)) = Rabs k * norm e2).
  { intro k. rewrite <- norm_scale_abs. f_equal. apply V3_eq; cbn [vx vy vz vadd vscale]; ring. }
  assert (N3 : forall k, norm (vadd (vadd (vscale 0 e1) (vscale 0 e2)) (vscale k n)) = Rabs k * 1).
  { intro k. rewrite <- UN, <- norm_scale_abs. f_equal. apply V3_eq; cbn [vx vy vz vadd vscale]; ring. }
  assert (Q : forall v, 0 < v -> 0 <= d / v /\ d / v * v = d).
  { intros v V0. split; [apply Rmult_le_pos; [exact D0 | left; apply Rinv_0_lt_compat; exact V0] | field; lra]. }
  destruct (Q _ P1) as [Q1 Q1']. destruct (Q _ P2) as [Q2 Q2'].
  pose proof (S (- (d / norm e1)) 0 0) as T1. rewrite N1, Rabs_Ropp, Rabs_pos_eq, Q1' in T1 by exact Q1. specialize (T1 (Rle_refl d)).
  pose proof (S 0 (- (d / norm e2)) 0) as T2. rewrite N2, Rabs_Ropp, Rabs_pos_eq, Q2' in T2 by exact Q2. specialize (T2 (Rle_refl d)).
  pose proof (S (d / norm e1) 0 0) as T3. rewrite N1, Rabs_pos_eq, Q1' in T3 by exact Q1. specialize (T3 (Rle_refl d)).
  pose proof (S 0 0 (- d)) as T4. rewrite N3, Rabs_Ropp, Rabs_pos_eq, Rmult_1_r in T4 by exact D0. specialize (T4 (Rle_refl d)).
  pose proof (S 0 0 d) as T5. rewrite N3, Rabs_pos_eq, Rmult_1_r in T5 by exact D0. specialize (T5 (Rle_refl d)).
  destruct T1 as [T1 _], T2 as [_ [T2 _]], T3 as [_ [_ [T3 _]]], T4 as [_ [_ [_ T4]]], T5 as [_ [_ [_ T5]]].
  split; [| split; [| split]].
  - rewrite <- Q1' at 1. apply Rmult_le_compat_r; lra.
  - rewrite <- Q2' at 1. apply Rmult_le_compat_r; lra.
  - rewrite <- Q1' at 1. apply Rmult_le_compat_r; lra.
  - lra.
Qed.

(** ---- error tracking with an arbitrary unit [U] ---- *)
Section Track.
  Context (prec emax : Z) {Hp : Prec_gt_0 prec} {Hm : Prec_lt_emax prec emax} (lm : libm (binary_float prec emax)).
  Notation bf := (binary_float prec emax).
  Notation fmt := (SpecFloat.fexp prec emax).
  Notation rnd := (round radix2 fmt ZnearestE).
  Notation val := (@B2R prec emax).
  Notation fin x := (is_finite (x : bf) = true).
  Notation u := (uro prec).
  Notation et := (eta prec emax).
  Notation big := (bpow radix2 emax).
  Notation F := (@Ieee prec emax Hp Hm lm).
  Variable U : R.
  Definition unit_ok : Prop := (9 < prec)%Z /\ u <= U <= / 1024.
  (** a scale at which neither overflow nor underflow matters *)
  Definition sz (P : R) : Prop := et <= / 512 * U * P /\ 64 * P <= big.
  Definition nr (t : bf) (v m c P : R) : Prop := fin t /\ Rabs (val t - v) <= c * U * P /\ Rabs v <= m * P.
  Definition nr3 (t : mat3x1 bf) (v : V3) (m c P : R) : Prop :=
    match t with M3x1 (A3 x y z) => nr x (vx v) m c P /\ nr y (vy v) m c P /\ nr z (vz v) m c P end.

  Hypothesis HU : unit_ok.
  Lemma U_pos : 0 < U <= / 1024.
  Proof. destruct HU as [H1 [H2 H3]]. pose proof (u_pos prec). split; lra. Qed.
  Lemma sz_pos P : sz P -> 0 < P.
  Proof.
    intros [H _]. pose proof U_pos as [U0 _]. pose proof (et_pos prec emax) as T.
    destruct (Rlt_le_dec 0 P) as [L | L]; [exact L |]. assert (/ 512 * U * P <= 0) by nra. lra.
  Qed.
  Lemma nr_rnd x v m g P c' : sz P -> 0 <= g -> 0 <= m -> Rabs (x - v) <= g * U * P -> Rabs v <= m * P ->
    g + m + g / 1024 + / 512 <= c' -> m + c' / 1024 < 64 -> Rabs (rnd x - v) <= c' * U * P /\ Rabs (rnd x) < big.
  Proof.
    intros S G0 M0 H1 H2 Hc Hb. pose proof (sz_pos P S) as P0. destruct S as [S1 S2]. destruct U_pos as [U0 U1]. destruct HU as [HP [Uu _]].
    destruct (rnd_err prec emax x) as (e & h & He & Hh & E).
    assert (Gu : g * U * P <= g / 1024 * P). { apply Rmult_le_compat_r; [lra |]. unfold Rdiv. apply Rmult_le_compat_l; lra. }
    assert (X : Rabs x <= (m + g / 1024) * P). { replace x with ((x - v) + v) by ring. eapply Rle_trans; [apply Rabs_triang |]. lra. }
    assert (R1 : Rabs (x * e) <= U * ((m + g / 1024) * P)). { rewrite Rabs_mult, Rmult_comm. apply Rmult_le_compat; try apply Rabs_pos; [lra | assumption]. }
    assert (UP : 0 < U * P) by (apply Rmult_lt_0_compat; lra).
    assert (D : Rabs (rnd x - v) <= c' * U * P).
    { rewrite E. replace (x * (1 + e) + h - v) with ((x - v) + x * e + h) by ring. eapply Rle_trans; [apply Rabs_triang |]. eapply Rle_trans; [apply Rplus_le_compat_r, Rabs_triang |].
      apply Rle_trans with ((g + m + g / 1024 + / 512) * (U * P)); [lra |]. replace (c' * U * P) with (c' * (U * P)) by ring. apply Rmult_le_compat_r; lra. }
    split; [exact D |].
    assert (Cu' : c' * U * P <= c' / 1024 * P). { apply Rmult_le_compat_r; [lra |]. unfold Rdiv. apply Rmult_le_compat_l; lra. }
    apply Rle_lt_trans with ((m + c' / 1024) * P).
    - replace (rnd x) with ((rnd x - v) + v) by ring. eapply Rle_trans; [apply Rabs_triang |]. lra.
    - apply Rlt_le_trans with (64 * P); [apply Rmult_lt_compat_r; assumption | exact S2].
  Qed.
  Lemma nr_entry (x : bf) K : fin x -> Rabs (val x) <= K -> nr x (val x) 1 0 K.
  Proof. intros H1 H2. split; [exact H1 |]. rewrite Rminus_diag_eq by reflexivity. rewrite Rabs_R0. lra. Qed.
  Lemma nr_mul a b v w m n c d P Q c' : sz (P * Q) -> 0 <= c -> 0 <= d -> 0 <= m -> 0 <= n -> 0 <= P -> 0 <= Q -> nr a v m c P -> nr b w n d Q ->
    (c * n + m * d + c * d / 1024) + m * n + (c * n + m * d + c * d / 1024) / 1024 + / 512 <= c' -> m * n + c' / 1024 < 64 ->
    nr (Bmult mode_NE a b) (v * w) (m * n) c' (P * Q).
  Proof.
    intros S C0 D0 M0 N0 P0 Q0 [A1 [A2 A3]] [B1 [B2 B3]] Hc Hb. destruct U_pos as [U0 U1].
    assert (CN : 0 <= c * n) by (apply Rmult_le_pos; lra). assert (MD : 0 <= m * d) by (apply Rmult_le_pos; lra). assert (CD : 0 <= c * d) by (apply Rmult_le_pos; lra).
    assert (MN : 0 <= m * n) by (apply Rmult_le_pos; lra).
    assert (H2 : Rabs (v * w) <= m * n * (P * Q)).
    { rewrite Rabs_mult. replace (m * n * (P * Q)) with (m * P * (n * Q)) by ring. apply Rmult_le_compat; try apply Rabs_pos; assumption. }
    assert (H1 : Rabs (val a * val b - v * w) <= (c * n + m * d + c * d / 1024) * U * (P * Q)).
    { replace (val a * val b - v * w) with ((val a - v) * w + v * (val b - w) + (val a - v) * (val b - w)) by ring.
      eapply Rle_trans; [apply Rabs_triang |]. eapply Rle_trans; [apply Rplus_le_compat_r, Rabs_triang |]. rewrite !Rabs_mult.
      assert (T1 : Rabs (val a - v) * Rabs w <= c * U * P * (n * Q)) by (apply Rmult_le_compat; try apply Rabs_pos; assumption).
      assert (T2 : Rabs v * Rabs (val b - w) <= m * P * (d * U * Q)) by (apply Rmult_le_compat; try apply Rabs_pos; assumption).
      assert (T3 : Rabs (val a - v) * Rabs (val b - w) <= c * U * P * (d * U * Q)) by (apply Rmult_le_compat; try apply Rabs_pos; assumption).
      assert (T4 : c * U * P * (d * U * Q) <= c * d / 1024 * U * (P * Q)).
      { replace (c * U * P * (d * U * Q)) with (c * d * (U * (P * Q)) * U) by ring. replace (c * d / 1024 * U * (P * Q)) with (c * d * (U * (P * Q)) * / 1024) by field.
        apply Rmult_le_compat_l; [| exact U1]. apply Rmult_le_pos; [exact CD |]. apply Rmult_le_pos; [lra |]. apply Rmult_le_pos; assumption. }
      replace ((c * n + m * d + c * d / 1024) * U * (P * Q)) with (c * U * P * (n * Q) + m * P * (d * U * Q) + c * d / 1024 * U * (P * Q)) by ring. lra. }
    destruct (nr_rnd (val a * val b) (v * w) (m * n) (c * n + m * d + c * d / 1024) (P * Q) c' S ltac:(lra) MN H1 H2 Hc Hb) as [R1 R2].
    destruct (proj1 (mult_round prec emax a b A1 B1) R2) as [G1 G2]. split; [exact G1 |]. rewrite G2. split; assumption.
  Qed.
  Lemma nr_pm s a b v w m n c d P c' : sz P -> 0 <= c -> 0 <= d -> 0 <= m -> 0 <= n -> nr a v m c P -> nr b w n d P ->
    (c + d) + (m + n) + (c + d) / 1024 + / 512 <= c' -> m + n + c' / 1024 < 64 ->
    nr (if s : bool then Bminus mode_NE a b else Bplus mode_NE a b) (if s then v - w else v + w) (m + n) c' P.
  Proof.
    intros S C0 D0 M0 N0 [H1 [H2 H3]] [G1 [G2 G3]] Hc Hb.
    assert (A1 : Rabs ((if s then val a - val b else val a + val b) - (if s then v - w else v + w)) <= (c + d) * U * P).
    { replace ((c + d) * U * P) with (c * U * P + d * U * P) by ring. destruct s.
      - replace (val a - val b - (v - w)) with ((val a - v) - (val b - w)) by ring. unfold Rminus at 1. eapply Rle_trans; [apply Rabs_triang |]. rewrite Rabs_Ropp. lra.
      - replace (val a + val b - (v + w)) with ((val a - v) + (val b - w)) by ring. eapply Rle_trans; [apply Rabs_triang |]. lra. }
    assert (A2 : Rabs (if s then v - w else v + w) <= (m + n) * P).
    { destruct s; [unfold Rminus |]; (eapply Rle_trans; [apply Rabs_triang |]); rewrite ?Rabs_Ropp; lra. }
    destruct (nr_rnd _ _ (m + n) (c + d) P c' S (Rplus_le_le_0_compat _ _ C0 D0) (Rplus_le_le_0_compat _ _ M0 N0) A1 A2 Hc Hb) as [B1 B2].
    destruct s.
    - destruct (proj1 (minus_round prec emax a b H1 G1) B2) as [Q1 Q2]. split; [exact Q1 |]. rewrite Q2. split; assumption.
    - destruct (proj1 (plus_round prec emax a b H1 G1) B2) as [Q1 Q2]. split; [exact Q1 |]. rewrite Q2. split; assumption.
  Qed.
  Lemma nr_weak t v m c P Q : P <= Q -> 0 <= c -> 0 <= m -> nr t v m c P -> nr t v m c Q.
  Proof.
    intros L C0 M0 [H1 [H2 H3]]. destruct U_pos as [U0 _]. split; [exact H1 |]. split; (eapply Rle_trans; [eassumption |]); apply Rmult_le_compat_l; try assumption. apply Rmult_le_pos; lra.
  Qed.
  Lemma nr_neg t v m c P : nr t v m c P -> nr (Bmult mode_NE t (nlit F (-1) 1)) (- v) m c P.
  Proof.
    intros [H1 [H2 H3]]. pose proof (neg_val prec emax lm t H1) as G. unfold Gjk.minus1 in G. destruct G as [G1 G2]. split; [exact G1 |]. rewrite G2. split.
    - replace (- val t - - v) with (- (val t - v)) by ring. rewrite Rabs_Ropp. exact H2.
    - rewrite Rabs_Ropp. exact H3.
  Qed.

  (** ---- vectors ---- *)
  Lemma nr3_entry (p : mat3x1 bf) K : fin3 p -> upto K (v3 p) -> nr3 p (v3 p) 1 0 K.
  Proof. destruct p as [[x y z]]. intros [F0 [F1 F2]] [H0 [H1 H2]]. split; [| split]; apply nr_entry; assumption. Qed.
  Lemma nr3_weak t v m c P Q : P <= Q -> 0 <= c -> 0 <= m -> nr3 t v m c P -> nr3 t v m c Q.
  Proof. destruct t as [[x y z]]. intros L C0 M0 [H0 [H1 H2]]. split; [| split]; eapply nr_weak; eassumption. Qed.
  Lemma nr3_minus (a b : mat3x1 F) v w m n c d P c' : sz P -> 0 <= c -> 0 <= d -> 0 <= m -> 0 <= n -> nr3 a v m c P -> nr3 b w n d P ->
    (c + d) + (m + n) + (c + d) / 1024 + / 512 <= c' -> m + n + c' / 1024 < 64 -> nr3 (vminus a b) (vsub v w) (m + n) c' P.
  Proof.
    destruct a as [[x y z]], b as [[x' y' z']]. intros S C0 D0 M0 N0 [A0 [A1 A2]] [B0 [B1 B2]] Hc Hb.
    split; [| split]; apply (nr_pm true _ _ _ _ m n c d P c'); assumption.
  Qed.
  Lemma nr3_plus (a b : mat3x1 F) v w m n c d P c' : sz P -> 0 <= c -> 0 <= d -> 0 <= m -> 0 <= n -> nr3 a v m c P -> nr3 b w n d P ->
    (c + d) + (m + n) + (c + d) / 1024 + / 512 <= c' -> m + n + c' / 1024 < 64 -> nr3 (vplus a b) (vadd v w) (m + n) c' P.
  Proof.
    destruct a as [[x y z]], b as [[x' y' z']]. intros S C0 D0 M0 N0 [A0 [A1 A2]] [B0 [B1 B2]] Hc Hb.
    split; [| split]; apply (nr_pm false _ _ _ _ m n c d P c'); assumption.
  Qed.
  Lemma nr3_times (a : mat3x1 F) (h : F) v m c P Q c' : sz (P * Q) -> 0 <= c -> 0 <= m -> 0 <= P -> 0 <= Q -> nr3 a v m c P -> fin h -> Rabs (val h) <= Q ->
    c + m + c / 1024 + / 512 <= c' -> m + c' / 1024 < 64 -> nr3 (vtimes a h) (vscale (val h) v) m c' (P * Q).
  Proof.
    destruct a as [[x y z]]. intros S C0 M0 P0 Q0 [A0 [A1 A2]] Fh Hh Hc Hb.
    assert (B : nr h (val h) 1 0 Q) by (apply nr_entry; assumption).
    split; [| split]; cbn [vx vy vz vscale]; rewrite (Rmult_comm (val h)); rewrite <- (Rmult_1_r m); (apply (nr_mul _ _ _ _ m 1 c 0 P Q c'); try assumption; lra).
  Qed.
  Lemma nr3_cross (a b : mat3x1 F) v w m n c d P Q g c' : sz (P * Q) -> 0 <= c -> 0 <= d -> 0 <= m -> 0 <= n -> 0 <= P -> 0 <= Q -> nr3 a v m c P -> nr3 b w n d Q ->
    (c * n + m * d + c * d / 1024) + m * n + (c * n + m * d + c * d / 1024) / 1024 + / 512 <= g -> 0 <= g -> m * n + g / 1024 < 64 ->
    (g + g) + (m * n + m * n) + (g + g) / 1024 + / 512 <= c' -> m * n + m * n + c' / 1024 < 64 ->
    nr3 (vcrossn a b) (vcross v w) (m * n + m * n) c' (P * Q).
  Proof.
    destruct a as [[x y z]], b as [[x' y' z']]. intros S C0 D0 M0 N0 P0 Q0 [A0 [A1 A2]] [B0 [B1 B2]] Hg G0 Hg' Hc Hb.
    assert (MN : 0 <= m * n) by (apply Rmult_le_pos; lra).
    split; [| split]; cbn [vx vy vz vcross]; (eapply (nr_pm true); [exact S | exact G0 | exact G0 | exact MN | exact MN | | | exact Hc | exact Hb]); (apply (nr_mul _ _ _ _ m n c d P Q g); assumption).
  Qed.
  Lemma nr_dot (a b : mat3x1 F) v w m n c d P Q g g' c' : sz (P * Q) -> 0 <= c -> 0 <= d -> 0 <= m -> 0 <= n -> 0 <= P -> 0 <= Q -> nr3 a v m c P -> nr3 b w n d Q ->
    (c * n + m * d + c * d / 1024) + m * n + (c * n + m * d + c * d / 1024) / 1024 + / 512 <= g -> 0 <= g -> m * n + g / 1024 < 64 ->
    (g + g) + (m * n + m * n) + (g + g) / 1024 + / 512 <= g' -> 0 <= g' -> m * n + m * n + g' / 1024 < 64 ->
    (g' + g) + (m * n + m * n + m * n) + (g' + g) / 1024 + / 512 <= c' -> m * n + m * n + m * n + c' / 1024 < 64 ->
    exists t : F, mat3x1_dot a b = Some t /\ nr t (vdot v w) (m * n + m * n + m * n) c' (P * Q).
  Proof.
    destruct a as [[x y z]], b as [[x' y' z']]. intros S C0 D0 M0 N0 P0 Q0 [A0 [A1 A2]] [B0 [B1 B2]] Hg G0 Hg1 Hg' G1 Hg2 Hc Hb.
    assert (MN : 0 <= m * n) by (apply Rmult_le_pos; lra).
    eexists. split; [reflexivity |]. unfold vdot.
    eapply (nr_pm false); [exact S | exact G1 | exact G0 | | exact MN | | | exact Hc | exact Hb]; [lra | | apply (nr_mul _ _ _ _ m n c d P Q g); assumption].
    eapply (nr_pm false); [exact S | exact G0 | exact G0 | exact MN | exact MN | | | exact Hg' | exact Hg2]; (apply (nr_mul _ _ _ _ m n c d P Q g); assumption).
  Qed.
End Track.

Section PrismF.
  Context (prec emax : Z) {Hp : Prec_gt_0 prec} {Hm : Prec_lt_emax prec emax} (lm : libm (binary_float prec emax)).
  Notation bf := (binary_float prec emax).
  Notation val := (@B2R prec emax).
  Notation fin x := (is_finite (x : bf) = true).
  Notation u := (uro prec).
  Notation et := (eta prec emax).
  Notation big := (bpow radix2 emax).
  Notation F := (@Ieee prec emax Hp Hm lm).
  Notation w3 v := (v3 (v : mat3x1 bf)).
  Variables (a b c : mat3x1 F) (h : F) (K : R).
  Notation A := (w3 a). Notation B := (w3 b). Notation C := (w3 c). Notation H := (val h).
  Notation N := (vcross (vsub B A) (vsub C A)).
  Hypotheses (HP : (9 < prec)%Z) (K1 : 1 <= K) (KB : K * K <= bpow radix2 (emax / 2 - 7))
    (Fa : fin3 (a : mat3x1 bf)) (Fb : fin3 (b : mat3x1 bf)) (Fc : fin3 (c : mat3x1 bf)) (Fh : fin h)
    (Ua : upto K A) (Ub : upto K B) (Uc : upto K C) (H0 : bpow radix2 (11 - emax) <= H) (HK : H <= K)
    (ok : tri_ok A B C) (TK : prism_tol prec K A B C <= K).
  Definition kap : R := K * K / area2 A B C.
  Definition U : R := 1205 / 100 * kap * u.
  Lemma Hpos : 0 < H. Proof. eapply Rlt_le_trans; [apply bpow_gt_0 | exact H0]. Qed.
  Lemma area_pos : 0 < area2 A B C. Proof. apply norm_nz. exact ok. Qed.
  Lemma KK_pos : 1 <= K * K. Proof. nra. Qed.
  Lemma kap_low : 1 <= 1205 / 100 * kap.
  Proof.
    pose proof area_pos as P. pose proof (upto_area K A B C Ua Ub Uc) as Q. unfold kap. apply (Rmult_le_reg_r (area2 A B C)); [exact P |].
    replace (1205 / 100 * (K * K / area2 A B C) * area2 A B C) with (1205 / 100 * (K * K)) by (field; lra). lra.
  Qed.
  Lemma kap_u : 150000 * u * (kap * kap) <= 1.
  Proof. unfold prism_tol in TK. fold kap in TK. apply (Rmult_le_reg_r K); [lra |]. lra. Qed.
  Lemma U_ok : unit_ok prec U.
  Proof.
    pose proof kap_low as L. pose proof kap_u as T. pose proof (u_pos prec) as U0. split; [exact HP |]. unfold U. split.
    - rewrite <- (Rmult_1_l u) at 1. apply Rmult_le_compat_r; lra.
    - assert (Q : kap * u <= 1205 / 100 * (kap * kap) * u).
      { apply Rmult_le_compat_r; [lra |]. rewrite <- (Rmult_1_l kap) at 1. rewrite <- Rmult_assoc. apply Rmult_le_compat_r; lra. }
      lra.
  Qed.
  Lemma sz_any (V P : R) : u <= V -> H <= P -> P <= K * K * (K * K) -> sz prec emax V P.
  Proof.
    intros HV L1 L2. pose proof Hpos as P0. pose proof (u_pos prec) as U0. split.
    - apply Rle_trans with (/ 512 * u * H).
      + apply Rle_trans with (/ 512 * u * bpow radix2 (11 - emax)).
        * right. change (/ 512) with (bpow radix2 (-9)). unfold uro, eta. rewrite <- !bpow_plus. f_equal. lia.
        * apply Rmult_le_compat_l; [lra | exact H0].
      + apply Rmult_le_compat; lra.
    - apply Rle_trans with (64 * (bpow radix2 (emax / 2 - 7) * bpow radix2 (emax / 2 - 7))).
      + apply Rmult_le_compat_l; [lra |]. eapply Rle_trans; [exact L2 |]. pose proof KK_pos. apply Rmult_le_compat; lra.
      + change 64 with (bpow radix2 6). rewrite <- !bpow_plus. apply bpow_le. pose proof (Z.mul_div_le emax 2). lia.
  Qed.
  Lemma szs (V : R) : u <= V -> sz prec emax V H /\ sz prec emax V K /\ sz prec emax V (K * K) /\ sz prec emax V (K * H) /\ sz prec emax V (K * (K * H)) /\ sz prec emax V (1 * H).
  Proof.
    intro HV. pose proof Hpos as P0. assert (Q1 : K <= K * K) by nra. assert (Q2 : K * H <= K * K) by nra. assert (Q3 : H <= K * H) by nra.
    assert (Q4 : K * H <= K * (K * H)) by nra. assert (Q5 : K * (K * H) <= K * K * K) by nra. assert (Q6 : K * K * K <= K * K * (K * K)) by nra. assert (Q7 : K * K <= K * K * K) by nra.
    do 5 (split; [apply sz_any; lra |]). apply sz_any; lra.
  Qed.
  Lemma nr_close V (t : mat3x1 bf) v m k P : 0 <= k * V * P -> nr3 prec emax V t v m k P -> fin3 t /\ dist (v3 t) v <= 1733 / 1000 * (k * V * P).
  Proof.
    destruct t as [[x y z]]. intros P0 [[F0 [E0 _]] [[F1 [E1 _]] [F2 [E2 _]]]]. split; [repeat split; assumption |].
    unfold dist. apply norm_le_sq; [lra |]. unfold vdot, vsub, v3. cbn [vx vy vz]. set (e := k * V * P) in *.
    assert (S : forall q, Rabs q <= e -> q * q <= e * e). { intros q Hq. rewrite <- (sqr_abs q), Rabs_mult. apply Rmult_le_compat; try apply Rabs_pos; exact Hq. }
    pose proof (S _ E0). pose proof (S _ E1). pose proof (S _ E2). assert (0 <= e * e) by nra. lra.
  Qed.
  Lemma normal_near : nr3 prec emax u (vcrossn (vminus b a) (vminus c a)) N (4 + 4) (322 / 10) (K * K).
  Proof.
    destruct (szs u (Rle_refl u)) as (S1 & S2 & S3 & _). assert (UO : unit_ok prec u).
    { split; [exact HP |]. pose proof (u_et prec emax HP). lra. }
    assert (K0 : 0 <= K) by lra.
    pose proof (nr3_entry prec emax u a K Fa Ua) as Na. pose proof (nr3_entry prec emax u b K Fb Ub) as Nb. pose proof (nr3_entry prec emax u c K Fc Uc) as Nc.
    assert (D1 : nr3 prec emax u (vminus b a) (vsub B A) (1 + 1) (201 / 100) K) by (apply (nr3_minus prec emax lm u UO _ _ _ _ 1 1 0 0); try assumption; lra).
    assert (D2 : nr3 prec emax u (vminus c a) (vsub C A) (1 + 1) (201 / 100) K) by (apply (nr3_minus prec emax lm u UO _ _ _ _ 1 1 0 0); try assumption; lra).
    replace (4 + 4) with ((1 + 1) * (1 + 1) + (1 + 1) * (1 + 1)) by ring.
    apply (nr3_cross prec emax lm u UO _ _ _ _ _ _ (201 / 100) (201 / 100) K K (1206 / 100)); try assumption; lra.
  Qed.
  Notation NF := (vcrossn (vminus b a) (vminus c a)).
  Lemma normal_dist : fin3 (NF : mat3x1 bf) /\ dist (w3 NF) N <= 464 / 100 * U * norm N.
  Proof.
    pose proof (u_pos prec) as U0. pose proof KK_pos. pose proof area_pos as P.
    destruct (nr_close u NF N (4 + 4) (322 / 10) (K * K) ltac:(apply Rmult_le_pos; [apply Rmult_le_pos |]; lra) normal_near) as [F0 D]. split; [exact F0 |].
    eapply Rle_trans; [exact D |]. fold (area2 A B C). unfold U, kap.
    replace (464 / 100 * (1205 / 100 * (K * K / area2 A B C) * u) * area2 A B C) with (464 / 100 * (1205 / 100) * (u * (K * K))) by (field; lra).
    assert (0 <= u * (K * K)) by (apply Rmult_le_pos; lra). lra.
  Qed.
  Lemma area_big : 150000 * u <= norm N * norm N.
  Proof.
    pose proof kap_u as T. pose proof area_pos as P. fold (area2 A B C). unfold kap in T. set (n := area2 A B C) in *. pose proof KK_pos as KK. pose proof (u_pos prec) as U0.
    assert (Q : 150000 * u * (K * K * (K * K)) <= n * n).
    { apply (Rmult_le_compat_r (n * n)) in T; [| nra]. replace (150000 * u * (K * K / n * (K * K / n)) * (n * n)) with (150000 * u * (K * K * (K * K))) in T by (field; lra). lra. }
    eapply Rle_trans; [| exact Q]. rewrite <- (Rmult_1_r (150000 * u)) at 1. apply Rmult_le_compat_l; [lra |]. nra.
  Qed.
  Lemma normal_good : good_normal (NF : mat3x1 bf).
  Proof.
    destruct normal_dist as [F0 D]. pose proof normal_near as NN. destruct (U_pos prec U U_ok) as [U0 U1]. pose proof KK_pos as KK. pose proof (u_et prec emax HP) as [[V0 V1] _].
    pose proof area_pos as P. unfold area2 in P.
    split; [split; [exact F0 |] |].
    - destruct NF as [[x y z]]. destruct NN as [[_ [E0 B0]] [[_ [E1 B1]] [_ [E2 B2]]]].
      assert (Q : forall q v, Rabs (val q - v) <= 322 / 10 * u * (K * K) -> Rabs v <= (4 + 4) * (K * K) -> Rabs (val q) <= bpow radix2 (emax / 2 - 3)).
      { intros q v Eq Bq. apply Rle_trans with (16 * (K * K)).
        - replace (val q) with ((val q - v) + v) by ring. eapply Rle_trans; [apply Rabs_triang |]. assert (322 / 10 * u * (K * K) <= 322 / 10 * (/ 1024) * (K * K)) by (apply Rmult_le_compat_r; lra). lra.
        - replace (emax / 2 - 3)%Z with (4 + (emax / 2 - 7))%Z by lia. rewrite bpow_plus. change (bpow radix2 4) with 16. lra. }
      split; [exact (Q _ _ E0 B0) | split; [exact (Q _ _ E1 B1) | exact (Q _ _ E2 B2)]].
    - rewrite <- norm_sq. pose proof (norm_close N (w3 NF)) as L. rewrite (dist_sym N) in L. pose proof area_big as AB.
      set (n := norm N) in *. set (m := norm (w3 NF)) in *.
      assert (L' : 99 / 100 * n <= m).
      { assert (464 / 100 * U * n <= 1 / 100 * n) by (apply Rmult_le_compat_r; lra). lra. }
      assert (M2 : 98 / 100 * (n * n) <= m * m). { assert (99 / 100 * n * (99 / 100 * n) <= m * m) by (apply Rmult_le_compat; lra). nra. }
      assert (E : bpow radix2 (6 - emax) <= 32 * u).
      { change 32 with (bpow radix2 5). unfold uro. rewrite <- bpow_plus. apply bpow_le. assert (prec < emax)%Z by exact Hm. lia. }
      lra.
  Qed.
  Lemma Nnz : N <> vzero. Proof. exact ok. Qed.
  Lemma unit_near : nr3 prec emax U (nrm NF) (tri_normal A B C) 1 (175 / 10) 1.
  Proof.
    destruct normal_dist as [_ D]. destruct (nrm_ieee prec emax lm NF HP normal_good) as [B1 [D1 N1]]. destruct (U_pos prec U U_ok) as [U0 U1]. destruct U_ok as [_ [UU _]].
    pose proof area_pos as P. unfold area2 in P.
    assert (NZ : w3 NF <> vzero).
    { intro Z. destruct normal_good as [_ G]. rewrite Z in G. pose proof (bpow_gt_0 radix2 (6 - emax)). unfold vdot, vzero in G. cbn [vx vy vz] in G. lra. }
    pose proof (unit_close (w3 NF) N NZ Nnz) as D2.
    assert (D3 : dist (w3 NF) N / norm N <= 464 / 100 * U).
    { apply (Rmult_le_reg_r (norm N)); [exact P |]. unfold Rdiv. rewrite Rmult_assoc, Rinv_l by lra. lra. }
    assert (DD : dist (w3 (nrm NF)) (tri_normal A B C) <= 175 / 10 * U).
    { pose proof (dist_tri3 (w3 (nrm NF)) (PShape.unit (w3 NF)) (tri_normal A B C)) as T. change (tri_normal A B C) with (PShape.unit N) in *. lra. }
    pose proof (unit_norm N Nnz) as UN. change (PShape.unit N) with (tri_normal A B C) in UN.
    destruct (abs_comp_norm (tri_normal A B C)) as [C0 [C1 C2]]. rewrite UN in C0, C1, C2.
    destruct (nrm NF) as [[x y z]]. destruct B1 as [[F0 _] [[F1 _] [F2 _]]].
    destruct (abs_comp_norm (vsub (w3 (M3x1 (A3 x y z))) (tri_normal A B C))) as [E0 [E1 E2]]. fold (dist (w3 (M3x1 (A3 x y z))) (tri_normal A B C)) in E0, E1, E2.
    cbn [vsub vx vy vz v3] in E0, E1, E2.
    split; [| split]; (split; [assumption | split; [rewrite Rmult_1_r; eapply Rle_trans; [eassumption | exact DD] | lra]]).
  Qed.
  Notation W := (pnh A B C H).
  Notation wf := (hvec a b c h).
  Lemma height_near : nr3 prec emax U wf W 1 (186 / 10) H.
  Proof.
    destruct U_ok as [_ [UU _]]. destruct (szs U UU) as (_ & _ & _ & _ & _ & S). pose proof Hpos as P0.
    rewrite <- (Rmult_1_l H) at 2. unfold pnh, hvec. apply (nr3_times prec emax lm U U_ok _ h _ 1 (175 / 10) 1 H); try assumption; try lra.
    - apply unit_near.
    - rewrite Rabs_pos_eq; lra.
  Qed.
  Lemma top_near (q : mat3x1 F) : fin3 (q : mat3x1 bf) -> upto K (w3 q) -> nr3 prec emax U (vplus q wf) (vadd (w3 q) W) (1 + 1) (207 / 10) K.
  Proof.
    intros Fq Uq. destruct U_ok as [_ [UU _]]. destruct (szs U UU) as (_ & S & _). pose proof Hpos as P0.
    apply (nr3_plus prec emax lm U U_ok _ _ _ _ 1 1 0 (186 / 10)); try assumption; try lra.
    - apply nr3_entry; assumption.
    - apply (nr3_weak prec emax U U_ok _ _ _ _ H); try lra. apply height_near.
  Qed.
  (** the five test values *)
  Section Tests.
    Variables (p : mat3x1 F).
    Hypotheses (Fp : fin3 (p : mat3x1 bf)) (Up : upto K (w3 p)).
    Notation P := (w3 p).
    Lemma diff_near (q : mat3x1 F) (r : mat3x1 F) : fin3 (q : mat3x1 bf) -> upto K (w3 q) -> fin3 (r : mat3x1 bf) -> upto K (w3 r) -> nr3 prec emax U (vminus q r) (vsub (w3 q) (w3 r)) (1 + 1) (201 / 100) K.
    Proof.
      intros Fq Uq Fr Ur. destruct U_ok as [_ [UU _]]. destruct (szs U UU) as (_ & S & _).
      apply (nr3_minus prec emax lm U U_ok _ _ _ _ 1 1 0 0); try assumption; try lra; apply nr3_entry; assumption.
    Qed.
    Lemma low_near : exists t, mat3x1_dot (vminus p a) (vtimes wf (nlit F (-1) 1)) = Some t /\ nr prec emax U t (vdot (vsub P A) (vscale (-1) W)) 6 145 (K * H).
    Proof.
      destruct U_ok as [_ [UU _]]. destruct (szs U UU) as (_ & _ & _ & S & _). pose proof Hpos as P0.
      assert (Nw : nr3 prec emax U (vtimes wf (nlit F (-1) 1)) (vscale (-1) W) 1 (186 / 10) H).
      { pose proof height_near as Q. destruct wf as [[x y z]]. destruct Q as [Q0 [Q1 Q2]].
        split; [| split]; cbn [vx vy vz vscale]; [replace (-1 * vx W) with (- vx W) by ring | replace (-1 * vy W) with (- vy W) by ring | replace (-1 * vz W) with (- vz W) by ring]; apply nr_neg; assumption. }
      replace 6 with ((1 + 1) * 1 + (1 + 1) * 1 + (1 + 1) * 1) by ring.
      apply (nr_dot prec emax lm U U_ok _ _ _ _ (1 + 1) 1 (201 / 100) (186 / 10) K H (414 / 10) (87)); try assumption; try lra. apply diff_near; assumption.
    Qed.
    Lemma high_near : exists t, mat3x1_dot (vminus p (vplus a wf)) wf = Some t /\ nr prec emax U t (vdot (vsub P (vadd A W)) W) 9 272 (K * H).
    Proof.
      destruct U_ok as [_ [UU _]]. destruct (szs U UU) as (_ & S' & _ & S & _). pose proof Hpos as P0.
      assert (Nd : nr3 prec emax U (vminus p (vplus a wf)) (vsub P (vadd A W)) (1 + (1 + 1)) 24 K).
      { apply (nr3_minus prec emax lm U U_ok _ _ _ _ 1 (1 + 1) 0 (207 / 10)); try assumption; try lra; [apply nr3_entry; assumption | apply top_near; assumption]. }
      replace 9 with ((1 + (1 + 1)) * 1 + (1 + (1 + 1)) * 1 + (1 + (1 + 1)) * 1) by ring.
      apply (nr_dot prec emax lm U U_ok _ _ _ _ (1 + (1 + 1)) 1 24 (186 / 10) K H (834 / 10) (174)); try assumption; try lra. apply height_near.
    Qed.
    Lemma side_near (q r : mat3x1 F) : fin3 (q : mat3x1 bf) -> upto K (w3 q) -> fin3 (r : mat3x1 bf) -> upto K (w3 r) ->
      exists t, mat3x1_dot (vminus p q) (vcrossn (vminus r q) wf) = Some t /\ nr prec emax U t (vdot (vsub P (w3 q)) (vcross (vsub (w3 r) (w3 q)) W)) 24 627 (K * (K * H)).
    Proof.
      intros Fq Uq Fr Ur. destruct U_ok as [_ [UU _]]. destruct (szs U UU) as (_ & _ & _ & S & S' & _). pose proof Hpos as P0.
      assert (KH : 0 <= K * H) by (apply Rmult_le_pos; lra).
      assert (Nn : nr3 prec emax U (vcrossn (vminus r q) wf) (vcross (vsub (w3 r) (w3 q)) W) ((1 + 1) * 1 + (1 + 1) * 1) 88 (K * H)).
      { apply (nr3_cross prec emax lm U U_ok _ _ _ _ (1 + 1) 1 (201 / 100) (186 / 10) K H (414 / 10)); try assumption; try lra; [apply diff_near; assumption | apply height_near]. }
      replace 24 with ((1 + 1) * ((1 + 1) * 1 + (1 + 1) * 1) + (1 + 1) * ((1 + 1) * 1 + (1 + 1) * 1) + (1 + 1) * ((1 + 1) * 1 + (1 + 1) * 1)) by ring.
      apply (nr_dot prec emax lm U U_ok _ _ _ _ (1 + 1) _ (201 / 100) 88 K (K * H) (193) (403)); try assumption; try lra. apply diff_near; assumption.
    Qed.
    Lemma sign_pass (t : F) v m k Q : nr prec emax U t v m k Q -> v <= - (k * U * Q) -> ngt t n0 = false.
    Proof.
      intros [Ft [E _]] L. apply Rabs_le_inv in E. destruct (ngt t n0) eqn:G; [exfalso | reflexivity]. apply (ngt_F prec emax lm) in G.
      rewrite (n0_x prec emax lm), (fin_x prec emax t Ft) in G. simpl in G. lra.
    Qed.
    Lemma sign_fail (t : F) v m k Q : nr prec emax U t v m k Q -> ngt t n0 = false -> v <= k * U * Q.
    Proof.
      intros [Ft [E _]] G. apply Rabs_le_inv in E. destruct (Rle_lt_dec v (k * U * Q)) as [L | L]; [exact L | exfalso].
      assert (ngt t (@n0 F) = true); [| congruence]. apply (ngt_F prec emax lm). rewrite (n0_x prec emax lm), (fin_x prec emax t Ft). simpl. lra.
    Qed.
    Definition ftests : list (mat3x1 F * mat3x1 F) :=
      [(a, vtimes wf (nlit F (-1) 1)); (vplus a wf, wf); (a, vcrossn (vminus b a) wf); (b, vcrossn (vminus c b) wf); (c, vcrossn (vminus a c) wf)].
    Lemma inside_step (v n q : mat3x1 F) l t : mat3x1_dot (vminus q v) n = Some t -> all_inside ((v, n) :: l) q = if ngt t n0 then Ok false else all_inside l q.
    Proof.
      intro E. unfold all_inside. cbn [iter_all fst snd]. replace (mat3x1_minus q v) with (Some (vminus q v)) by (destruct q as [[]], v as [[]]; reflexivity).
      cbn [unwrap bind]. rewrite E. cbn [unwrap bind]. destruct (ngt t n0); reflexivity.
    Qed.
    Lemma inside_F : exists t1 t2 t3 t4 t5 : F,
      nr prec emax U t1 (- H * cg A B C P) 6 145 (K * H) /\ nr prec emax U t2 (H * (cg A B C P - H)) 9 272 (K * H) /\
      nr prec emax U t3 (- H * cb A B C P * norm N) 24 627 (K * (K * H)) /\ nr prec emax U t4 (H * (ca A B C P + cb A B C P - 1) * norm N) 24 627 (K * (K * H)) /\
      nr prec emax U t5 (- H * ca A B C P * norm N) 24 627 (K * (K * H)) /\
      (all_inside ftests p = Ok true <-> (ngt t1 n0 = false /\ ngt t2 n0 = false /\ ngt t3 n0 = false /\ ngt t4 n0 = false /\ ngt t5 n0 = false)).
    Proof.
      destruct low_near as [t1 [E1 Q1]]. destruct high_near as [t2 [E2 Q2]].
      destruct (side_near a b Fa Ua Fb Ub) as [t3 [E3 Q3]]. destruct (side_near b c Fb Ub Fc Uc) as [t4 [E4 Q4]]. destruct (side_near c a Fc Uc Fa Ua) as [t5 [E5 Q5]].
      exists t1, t2, t3, t4, t5. pose proof (test_vals A B C ok H P) as TV. unfold ptests, PGeo3.val in TV. cbn [map fst snd] in TV. injection TV as V1 V2 V3' V4 V5.
      rewrite V1 in Q1. rewrite V2 in Q2. rewrite V3' in Q3. rewrite V4 in Q4. rewrite V5 in Q5.
      split; [exact Q1 |]. split; [exact Q2 |]. split; [exact Q3 |]. split; [exact Q4 |]. split; [exact Q5 |].
      unfold ftests. rewrite (inside_step _ _ _ _ _ E1), (inside_step _ _ _ _ _ E2), (inside_step _ _ _ _ _ E3), (inside_step _ _ _ _ _ E4), (inside_step _ _ _ _ _ E5).
      destruct (ngt t1 n0), (ngt t2 n0), (ngt t3 n0), (ngt t4 n0), (ngt t5 n0); cbn; (split; [intro X; try discriminate X; repeat split | intros (X1 & X2 & X3 & X4 & X5); try discriminate; reflexivity]).
    Qed.
    Notation tol := (prism_tol prec K A B C).
    (** a point that passes the five tests is close to the ideal prism *)
    Lemma pass_close : all_inside ftests p = Ok true -> exists x, s_prism A B C H x /\ dist x P <= tol.
    Proof.
      destruct inside_F as (t1 & t2 & t3 & t4 & t5 & Q1 & Q2 & Q3 & Q4 & Q5 & QI). intro I. apply QI in I. destruct I as (I1 & I2 & I3 & I4 & I5).
      pose proof (sign_fail _ _ _ _ _ Q1 I1) as L1. pose proof (sign_fail _ _ _ _ _ Q2 I2) as L2. pose proof (sign_fail _ _ _ _ _ Q3 I3) as L3. pose proof (sign_fail _ _ _ _ _ Q4 I4) as L4. pose proof (sign_fail _ _ _ _ _ Q5 I5) as L5.
      pose proof Hpos as P0. pose proof area_pos as AP. unfold area2 in AP. pose proof (u_pos prec) as U0. pose proof kap_low as KL. pose proof KK_pos as KK.
      set (x := ca A B C P) in *. set (y := cb A B C P) in *. set (z := cg A B C P) in *.
      set (t := 7556 * (kap * kap) * u). set (g := 272 * U * K).
      assert (KP : 0 < kap) by lra.
      assert (KU : 0 <= kap * kap * u) by (apply Rmult_le_pos; [apply Rmult_le_pos |]; lra).
      assert (T0 : 0 <= t) by (unfold t; lra). assert (G0 : 0 <= g) by (unfold g, U; apply Rmult_le_pos; [| lra]; apply Rmult_le_pos; [lra |]; apply Rmult_le_pos; [| lra]; lra).
      assert (KN : K * K = kap * norm N) by (unfold kap, area2; field; lra).
      assert (B3 : forall v, H * v * norm N <= 627 * U * (K * (K * H)) -> v <= t).
      { intros v Hv. apply (Rmult_le_reg_r (H * norm N)); [apply Rmult_lt_0_compat; lra |]. replace (v * (H * norm N)) with (H * v * norm N) by ring. eapply Rle_trans; [exact Hv |].
        replace (627 * U * (K * (K * H))) with (627 * U * (K * K) * H) by ring. rewrite KN. unfold t, U.
        replace (627 * (1205 / 100 * kap * u) * (kap * norm N) * H) with (755535 / 100 * (kap * kap * u) * (H * norm N)) by field. replace (7556 * (kap * kap) * u * (H * norm N)) with (7556 * (kap * kap * u) * (H * norm N)) by ring.
        apply Rmult_le_compat_r; [apply Rmult_le_pos; lra |]. lra. }
      assert (B1 : forall v k, 0 <= k -> H * v <= k * U * (K * H) -> v <= k * U * K).
      { intros v k Hk Hv. apply (Rmult_le_reg_r H); [exact P0 |]. lra. }
      assert (UU : 0 <= U * K) by (apply Rmult_le_pos; [unfold U; apply Rmult_le_pos; lra | lra]).
      destruct (prism_close A B C H P t g ok P0 T0 G0) as [q [S D]].
      - fold x. assert (- x <= t); [| lra]. apply B3. lra.
      - fold y. assert (- y <= t); [| lra]. apply B3. lra.
      - fold x y. assert (x + y - 1 <= t); [| lra]. apply B3. lra.
      - fold z. split.
        + assert (- z <= 145 * U * K) by (apply B1; lra). unfold g. lra.
        + assert (z - H <= 272 * U * K) by (apply B1; lra). unfold g. lra.
      - exists q. split; [exact S |]. eapply Rle_trans; [exact D |].
        pose proof (upto_sub K B A Ub Ua) as D1. pose proof (upto_sub K C A Uc Ua) as D2.
        apply Rle_trans with (2 * t * (694 / 100 * K) + g); [apply Rplus_le_compat_r, Rmult_le_compat_l; lra |].
        unfold prism_tol. fold kap. unfold t, g, U.
        assert (Q : kap * u * K <= 1205 / 100 * (kap * kap * u) * K).
        { apply Rmult_le_compat_r; [lra |]. rewrite <- (Rmult_1_l kap) at 1. replace (1205 / 100 * (kap * kap * u)) with (1205 / 100 * kap * kap * u) by ring.
          apply Rmult_le_compat_r; [lra |]. apply Rmult_le_compat_r; lra. }
        assert (0 <= kap * kap * u * K) by (apply Rmult_le_pos; lra). lra.
    Qed.
    Lemma tol_pos : 0 <= tol.
    Proof. unfold prism_tol. fold kap. pose proof kap_low. pose proof (u_pos prec). apply Rmult_le_pos; [apply Rmult_le_pos; lra | apply Rmult_le_pos; lra]. Qed.
    Lemma tol_unit : 1033 * (U * K) <= tol.
    Proof.
      unfold prism_tol. fold kap. pose proof kap_low as KL. pose proof (u_pos prec) as U0. unfold U.
      assert (Q : kap * (u * K) <= 1205 / 100 * kap * kap * (u * K)).
      { apply Rmult_le_compat_r; [apply Rmult_le_pos; lra |]. rewrite <- (Rmult_1_l kap) at 1. apply Rmult_le_compat_r; lra. }
      assert (0 <= kap * kap * (u * K)) by (apply Rmult_le_pos; apply Rmult_le_pos; lra). lra.
    Qed.
    (** a point deep in the ideal prism passes the five tests *)
    Lemma deep_pass : deep (s_prism A B C H) tol P -> all_inside ftests p = Ok true.
    Proof.
      destruct inside_F as (t1 & t2 & t3 & t4 & t5 & Q1 & Q2 & Q3 & Q4 & Q5 & QI). intro D. apply QI.
      pose proof Hpos as P0. pose proof area_pos as AP. unfold area2 in AP. pose proof (u_pos prec) as U0. pose proof kap_low as KL. pose proof KK_pos as KK.
      destruct (prism_deep A B C H P tol ok P0 tol_pos D) as (D1 & D2 & D3 & D4 & D5). pose proof tol_unit as TU.
      set (x := ca A B C P) in *. set (y := cb A B C P) in *. set (z := cg A B C P) in *.
      assert (UU : 0 <= U * K) by (apply Rmult_le_pos; [unfold U; apply Rmult_le_pos; lra | lra]).
      assert (KN : K * K = kap * norm N) by (unfold kap, area2; field; lra).
      assert (KU : 0 <= kap * kap * u) by (apply Rmult_le_pos; [apply Rmult_le_pos |]; lra).
      assert (B3 : forall v e, 0 <= e <= 347 / 100 * K -> tol <= v * e -> 627 * U * (K * (K * H)) <= H * v * norm N).
      { intros v e He Hv. assert (TP : 0 < tol).
        { unfold prism_tol. fold kap. apply Rmult_lt_0_compat; [apply Rmult_lt_0_compat; lra |]. apply Rmult_lt_0_compat; lra. }
        assert (V0 : 0 < v) by (apply Rnot_le_lt; intro V; assert (v * e <= 0) by nra; lra).
        assert (VK : tol <= v * (347 / 100 * K)) by (eapply Rle_trans; [exact Hv |]; apply Rmult_le_compat_l; lra).
        assert (VV : 7556 * (kap * kap * u) <= v). { apply (Rmult_le_reg_r K); [lra |]. unfold prism_tol in VK. fold kap in VK. assert (0 <= kap * kap * u * K) by (apply Rmult_le_pos; lra). lra. }
        replace (627 * U * (K * (K * H))) with (627 * U * (K * K) * H) by ring. rewrite KN. unfold U.
        replace (627 * (1205 / 100 * kap * u) * (kap * norm N) * H) with (755535 / 100 * (kap * kap * u) * (H * norm N)) by field. replace (H * v * norm N) with (v * (H * norm N)) by ring.
        apply Rmult_le_compat_r; [apply Rmult_le_pos; lra |]. lra. }
      assert (B1 : forall v k, k * U * K <= v -> k * U * (K * H) <= H * v).
      { intros v k Hv. apply (Rmult_le_compat_r H) in Hv; [| lra]. lra. }
      pose proof (upto_sub K B A Ub Ua) as E1. pose proof (upto_sub K C A Uc Ua) as E2. pose proof (norm_pos (vsub B A)) as E3. pose proof (norm_pos (vsub C A)) as E4.
      pose proof (B3 x _ (conj E3 E1) D1) as L5. pose proof (B3 y _ (conj E4 E2) D2) as L3. pose proof (B3 (1 - x - y) _ (conj E3 E1) D3) as L4.
      assert (L1 : 145 * U * (K * H) <= H * z) by (apply B1; lra). assert (L2 : 272 * U * (K * H) <= H * (H - z)) by (apply B1; lra).
      split; [| split; [| split; [| split]]]; (eapply sign_pass; [eassumption |]); lra.
    Qed.
    (** its coordinates are within the stored bounds *)
    Lemma top_fin (q : mat3x1 F) : fin3 (q : mat3x1 bf) -> upto K (w3 q) -> fin3 (vplus q wf : mat3x1 bf).
    Proof. intros Fq Uq. pose proof (top_near q Fq Uq) as T. destruct (vplus q wf) as [[x y z]]. destruct T as [[T0 _] [[T1 _] [T2 _]]]. repeat split; assumption. Qed.
    Notation tops := [b; c; vplus a wf; vplus b wf; vplus c wf].
    Lemma axis_in (ci : mat3x1 F -> F) (d : V3) : deep (s_prism A B C H) tol P -> (forall q : mat3x1 F, fin3 (q : mat3x1 bf) -> fin (ci q)) -> norm d = 1 ->
      (forall q : mat3x1 F, val (ci q) = vdot d (w3 q)) -> (forall (q : mat3x1 F) v m k R, nr3 prec emax U q v m k R -> Rabs (val (ci q) - vdot d v) <= k * U * R) ->
      val (mins (ci a) (map ci tops)) <= val (ci p) <= val (maxs (ci a) (map ci tops)).
    Proof.
      intros D Fi Nd Vi Ni. pose proof tol_unit as TU. pose proof tol_pos as T0. destruct (U_pos prec U U_ok) as [U0 _].
      assert (UU : 0 < U * K) by (apply Rmult_lt_0_compat; lra).
      assert (Fl : forall y, In y (map ci tops) -> fin y).
      { intros y Hy. apply in_map_iff in Hy. destruct Hy as [q [<- Hq]]. apply Fi. repeat (destruct Hq as [<- | Hq]; [first [assumption | apply top_fin; assumption] |]). destruct Hq. }
      destruct (mins_ok prec emax lm (map ci tops) (ci a) (Fi a Fa) Fl) as [_ [M2 M3]]. destruct (maxs_ok prec emax lm (map ci tops) (ci a) (Fi a Fa) Fl) as [_ [N2 N3]].
      set (lo := val (mins (ci a) (map ci tops))) in *. set (hi := val (maxs (ci a) (map ci tops))) in *.
      assert (In_ : forall q, In q (a :: tops) -> lo <= val (ci q) <= hi).
      { intros q [<- | Hq]; [split; assumption |]. split; [apply M3 | apply N3]; apply in_map; exact Hq. }
      assert (V : forall q : mat3x1 F, In q [a; b; c] -> lo <= vdot d (w3 q) <= hi /\ lo - 207 / 10 * (U * K) <= vdot d (vadd (w3 q) W) <= hi + 207 / 10 * (U * K)).
      { intros q Hq. assert (Fq : fin3 (q : mat3x1 bf) /\ upto K (w3 q)) by (destruct Hq as [<- | [<- | [<- | []]]]; split; assumption). destruct Fq as [Fq Uq].
        assert (I1 : lo <= val (ci q) <= hi) by (apply In_; destruct Hq as [<- | [<- | [<- | []]]]; cbn; tauto).
        assert (I2 : lo <= val (ci (vplus q wf)) <= hi) by (apply In_; destruct Hq as [<- | [<- | [<- | []]]]; cbn; tauto).
        rewrite Vi in I1. split; [exact I1 |]. pose proof (Ni _ _ _ _ _ (top_near q Fq Uq)) as T. apply Rabs_le_inv in T. lra. }
      assert (DD : forall s, s * s = 1 -> s_prism A B C H (vadd P (vscale (s * tol) d))).
      { intros s Hs. apply D. unfold dist. replace (vsub (vadd P (vscale (s * tol) d)) P) with (vscale (s * tol) d) by (apply V3_eq; cbn [vx vy vz vadd vsub vscale]; ring).
        rewrite norm_scale_abs, Nd, Rabs_mult, (Rabs_pos_eq tol) by exact T0. assert (E1 : Rabs s = 1); [| rewrite E1; lra]. assert (Q : s = 1 \/ s = -1) by (assert ((s - 1) * (s + 1) = 0) by lra; assert (s - 1 = 0 \/ s + 1 = 0) by (apply Rmult_integral; assumption); lra).
        destruct Q as [-> | ->]; [apply Rabs_R1 | unfold Rabs; destruct (Rcase_abs (-1)); lra]. }
      assert (dd : vdot d d = 1) by (rewrite <- norm_sq, Nd; ring).
      assert (LD : forall s, vdot d (vadd P (vscale (s * tol) d)) = vdot d P + s * tol * vdot d d) by (intro; unfold vdot, vadd, vscale; cbn [vx vy vz]; ring).
      assert (Lneg : forall v, vdot (vscale (-1) d) v = - vdot d v) by (intro; unfold vdot, vscale; cbn [vx vy vz]; ring).
      rewrite Vi. split.
      - pose proof (prism_sup A B C H (vscale (-1) d) (- lo + 207 / 10 * (U * K)) _ ltac:(intros v [<- | [<- | [<- | []]]]; rewrite !Lneg; [destruct (V a) | destruct (V b) | destruct (V c)]; cbn; try tauto; lra) (DD (-1) ltac:(lra))) as Q.
        rewrite Lneg, LD, dd in Q. lra.
      - pose proof (prism_sup A B C H d (hi + 207 / 10 * (U * K)) _ ltac:(intros v [<- | [<- | [<- | []]]]; [destruct (V a) | destruct (V b) | destruct (V c)]; cbn; try tauto; lra) (DD 1 ltac:(lra))) as Q.
        rewrite LD, dd in Q. lra.
    Qed.
    Lemma hull_in : deep (s_prism A B C H) tol P -> rholds (hull_any a tops : aabb F) P.
    Proof.
      intro D.
      assert (A0 : val (mins (c0 a) (map c0 tops)) <= val (c0 p) <= val (maxs (c0 a) (map c0 tops))).
      { apply (axis_in c0 (V 1 0 0) D).
        - intros [[x y z]] [F0 _]. exact F0.
        - unfold norm, vdot. cbn [vx vy vz]. replace (1 * 1 + 0 * 0 + 0 * 0) with 1 by ring. apply sqrt_1.
        - intros [[x y z]]. unfold vdot. cbn [vx vy vz v3 c0]. ring.
        - intros [[x y z]] v m k R [[_ [Q _]] _]. unfold vdot. cbn [vx vy vz c0]. replace (1 * vx v + 0 * vy v + 0 * vz v) with (vx v) by ring. exact Q. }
      assert (A1 : val (mins (c1 a) (map c1 tops)) <= val (c1 p) <= val (maxs (c1 a) (map c1 tops))).
      { apply (axis_in c1 (V 0 1 0) D).
        - intros [[x y z]] [_ [F0 _]]. exact F0.
        - unfold norm, vdot. cbn [vx vy vz]. replace (0 * 0 + 1 * 1 + 0 * 0) with 1 by ring. apply sqrt_1.
        - intros [[x y z]]. unfold vdot. cbn [vx vy vz v3 c1]. ring.
        - intros [[x y z]] v m k R [_ [[_ [Q _]] _]]. unfold vdot. cbn [vx vy vz c1]. replace (0 * vx v + 1 * vy v + 0 * vz v) with (vy v) by ring. exact Q. }
      assert (A2 : val (mins (c2 a) (map c2 tops)) <= val (c2 p) <= val (maxs (c2 a) (map c2 tops))).
      { apply (axis_in c2 (V 0 0 1) D).
        - intros [[x y z]] [_ [_ F0]]. exact F0.
        - unfold norm, vdot. cbn [vx vy vz]. replace (0 * 0 + 0 * 0 + 1 * 1) with 1 by ring. apply sqrt_1.
        - intros [[x y z]]. unfold vdot. cbn [vx vy vz v3 c2]. ring.
        - intros [[x y z]] v m k R [_ [_ [_ [Q _]]]]. unfold vdot. cbn [vx vy vz c2]. replace (0 * vx v + 0 * vy v + 1 * vz v) with (vz v) by ring. exact Q. }
      assert (Fin_ : forall ci : mat3x1 F -> F, (forall q : mat3x1 F, fin3 (q : mat3x1 bf) -> fin (ci q)) -> fin (mins (ci a) (map ci tops)) /\ fin (maxs (ci a) (map ci tops))).
      { intros ci Fi. assert (Fl : forall y, In y (map ci tops) -> fin y).
        { intros y Hy. apply in_map_iff in Hy. destruct Hy as [q [<- Hq]]. apply Fi. repeat (destruct Hq as [<- | Hq]; [first [assumption | apply top_fin; assumption] |]). destruct Hq. }
        split; [apply (mins_ok prec emax lm (map ci tops) (ci a) (Fi a Fa) Fl) | apply (maxs_ok prec emax lm (map ci tops) (ci a) (Fi a Fa) Fl)]. }
      destruct (Fin_ c0) as [G0 G0']; [intros [[x y z]] [F0 _]; exact F0 |]. destruct (Fin_ c1) as [G1 G1']; [intros [[x y z]] [_ [F0 _]]; exact F0 |].
      destruct (Fin_ c2) as [G2 G2']; [intros [[x y z]] [_ [_ F0]]; exact F0 |].
      assert (E0 : vx P = val (c0 p)) by (destruct p as [[x y z]]; reflexivity). assert (E1 : vy P = val (c1 p)) by (destruct p as [[x y z]]; reflexivity). assert (E2 : vz P = val (c2 p)) by (destruct p as [[x y z]]; reflexivity).
      unfold hull_any. apply rholds3.
      - rewrite (fin_x prec emax _ G0), (fin_x prec emax _ G0'). split; [apply (val_le_ovf prec emax) | apply (ovf_le_val prec emax)]; [eapply Rle_trans; [apply A0 | right; symmetry; exact E0] | eapply Rle_trans; [right; exact E0 | apply A0]].
      - rewrite (fin_x prec emax _ G1), (fin_x prec emax _ G1'). split; [apply (val_le_ovf prec emax) | apply (ovf_le_val prec emax)]; [eapply Rle_trans; [apply A1 | right; symmetry; exact E1] | eapply Rle_trans; [right; exact E1 | apply A1]].
      - rewrite (fin_x prec emax _ G2), (fin_x prec emax _ G2'). split; [apply (val_le_ovf prec emax) | apply (ovf_le_val prec emax)]; [eapply Rle_trans; [apply A2 | right; symmetry; exact E2] | eapply Rle_trans; [right; exact E2 | apply A2]].
    Qed.
  End Tests.
  Notation tol := (prism_tol prec K A B C).
  Theorem prism_point_ieee (p : mat3x1 F) e f (s q : shape F) : mk_prism a b c h e s -> mk_point p f q -> fin3 (p : mat3x1 bf) -> upto K (w3 p) ->
    (deep (s_prism A B C H) tol (w3 p) -> shape_get_intersect s q = Ok (true, Some p) /\ shape_get_intersect q s = Ok (true, Some p)) /\
    (far (s_prism A B C H) tol (w3 p) -> shape_get_intersect s q = Ok (false, None) /\ shape_get_intersect q s = Ok (false, None)).
  Proof.
    intros Ms Mq Fp Up. apply prism_any in Ms. apply point_any in Mq. subst s q. set (s := SPrism _). set (q := SPoint _).
    assert (CE : core s q = let! i := all_inside ftests p in Ok (if i then (true, Some p) else miss)).
    { cbn [core s q shape_get_shape_data pt_ori]. unfold triprism_point. replace (vec_at (vec_data p) 0) with (Ok p) by (destruct p as [[]]; reflexivity). cbn [bind].
      replace (triprism_tests _) with (Ok ftests); [reflexivity |]. unfold triprism_tests. cbn [tp_nh tp_base tp_base2]. unfold ftests.
      destruct wf as [[]], a as [[]], b as [[]], c as [[]]. reflexivity. }
    assert (CE' : core q s = core s q) by reflexivity.
    rewrite !(intersect_core (ieee_ordered prec emax lm)), (overlap_sym (ieee_ordered prec emax lm) q s), CE', CE. split.
    - intro D. rewrite (deep_pass p Fp Up D). assert (OV : overlap s q = true).
      { unfold overlap, shape_get_bound. rewrite ibb. cbn [s q tp_bound pt_bound]. rewrite (rholds_meet prec emax lm _ _ (w3 p)); [reflexivity | apply hull_in; assumption | apply point_holds; exact Fp]. }
      rewrite OV. split; reflexivity.
    - intro D. destruct (overlap s q); [| split; reflexivity]. destruct (all_inside_ok ftests p) as [i Ei]. rewrite Ei. cbn [bind]. destruct i; [| split; reflexivity].
      destruct (pass_close p Fp Up Ei) as [x [Sx Dx]]. specialize (D x Sx). lra.
  Qed.
End PrismF.

(** ---- vectors of small integers, and the prism over (-4,-4,0), (4,-4,0), (-4,4,0) of height 4 ---- *)
Definition z3 (Nm : Num) (x y z : Z) : mat3x1 Nm := M3x1 (A3 (nlit Nm x 1) (nlit Nm y 1) (nlit Nm z 1)).
Section Lits.
  Context (prec emax : Z) {Hp : Prec_gt_0 prec} {Hm : Prec_lt_emax prec emax} (lm : libm (binary_float prec emax)).
  Notation bf := (binary_float prec emax).
  Notation F := (@Ieee prec emax Hp Hm lm).
  Hypothesis HP : (9 < prec)%Z.
  Lemma lit_z z : (Z.abs z < 512)%Z -> is_finite (nlit F z 1 : bf) = true /\ B2R (nlit F z 1 : bf) = IZR z.
  Proof.
    intro Z. apply (fv_lit1 prec emax z). assert (Q : (2 ^ 9 <= 2 ^ prec)%Z) by (apply Z.pow_le_mono_r; lia). assert (Q1 : (2 ^ prec <= 2 ^ emax)%Z) by (apply Z.pow_le_mono_r; [lia |]; apply Z.lt_le_incl; exact Hm).
    change (2 ^ 9)%Z with 512%Z in Q. apply (f_int_fmt prec emax z z 0); [| | |]; try lia.
  Qed.
  Lemma z3_ok x y z : (Z.abs x < 512)%Z -> (Z.abs y < 512)%Z -> (Z.abs z < 512)%Z -> fin3 (z3 F x y z : mat3x1 bf) /\ v3 (z3 F x y z : mat3x1 bf) = V (IZR x) (IZR y) (IZR z).
  Proof.
    intros X Y Z. destruct (lit_z x X) as [F1 V1], (lit_z y Y) as [F2 V2], (lit_z z Z) as [F3 V3]. split; [repeat split; assumption |]. unfold v3, z3. rewrite V1, V2, V3. reflexivity.
  Qed.
End Lits.
Notation A0 := (V (-4) (-4) 0). Notation B0 := (V 4 (-4) 0). Notation C0 := (V (-4) 4 0).
Lemma tri0 : vcross (vsub B0 A0) (vsub C0 A0) = V 0 0 64.
Proof. apply V3_eq; simpl; ring. Qed.
Lemma norm0 : norm (V 0 0 64) = 64.
Proof. unfold norm, vdot. cbn [vx vy vz]. replace (0 * 0 + 0 * 0 + 64 * 64) with (Rsqr 64) by (unfold Rsqr; ring). apply sqrt_Rsqr. lra. Qed.
Lemma ok0 : tri_ok A0 B0 C0.
Proof. unfold tri_ok. rewrite tri0. intro X. apply (f_equal vz) in X. simpl in X. lra. Qed.
Lemma coords0 x : ca A0 B0 C0 x = (vx x + 4) / 8 /\ cb A0 B0 C0 x = (vy x + 4) / 8 /\ cg A0 B0 C0 x = vz x.
Proof.
  apply (coords_inv A0 B0 C0 ok0). unfold tri_normal. rewrite tri0, norm0. destruct x as [x y z]. apply V3_eq; simpl; field.
Qed.
Lemma prism0 x : s_prism A0 B0 C0 4 x <-> -4 <= vx x /\ -4 <= vy x /\ vx x + vy x <= 0 /\ 0 <= vz x <= 4.
Proof.
  rewrite (prism_coords A0 B0 C0 ok0 4 x) by lra. destruct (coords0 x) as [-> [-> ->]]. split; intros (X & Y & Z & W); repeat split; lra.
Qed.
Lemma deep0 d : d <= 1 -> deep (s_prism A0 B0 C0 4) d (V (-2) (-2) 2).
Proof.
  intros D x X. apply prism0. destruct (abs_comp_norm (vsub x (V (-2) (-2) 2))) as (P & Q & R). unfold dist in X. cbn [vsub vx vy vz] in P, Q, R.
  assert (P' : Rabs (vx x - -2) <= 1) by lra. assert (Q' : Rabs (vy x - -2) <= 1) by lra. assert (R' : Rabs (vz x - 2) <= 1) by lra. apply Rabs_le_inv in P', Q', R'. lra.
Qed.
Lemma far0 d : d < 1 -> far (s_prism A0 B0 C0 4) d (V 2 2 2).
Proof.
  intros D x X. apply prism0 in X. destruct (abs_comp_norm (vsub x (V 2 2 2))) as (P & Q & _). unfold dist. cbn [vsub vx vy vz] in P, Q.
  assert (H : 1 <= Rabs (vx x - 2) \/ 1 <= Rabs (vy x - 2)) by (unfold Rabs; destruct (Rcase_abs _), (Rcase_abs _); destruct (Rle_dec (vx x) 0); lra). lra.
Qed.
Lemma tol0 prec K : (24 <= prec)%Z -> 0 <= K <= 8 -> prism_tol prec K A0 B0 C0 <= / 8.
Proof.
  intros P [K0 K8]. unfold prism_tol, area2. rewrite tri0, norm0. assert (U1 : uro prec <= / 16777216) by (unfold uro; replace (/ 16777216) with (bpow radix2 (-24)) by (simpl; lra); apply bpow_le; lia).
  assert (U0 : 0 < uro prec) by apply bpow_gt_0. assert (Q : 0 <= K * K / 64 <= 1) by nra. set (q := K * K / 64) in *. assert (0 <= q * q <= 1) by nra. assert (0 <= uro prec * K <= / 16777216 * 8) by nra. nra.
Qed.
