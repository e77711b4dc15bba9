(** PGjk3.v — the whole GJK query on two spheres: soundness of "true", termination and correctness away from tangency,
    the degenerate cases (C61, C62), and a pair of touching spheres on which the loop never ends. *)
From Coq Require Import Reals List ZArith NArith Bool Lra Lia Psatz Arith.
Import ListNotations.
From Verif Require Import Base Num Vec Mat Bound Shape Gjk Exact SpecMat SpecGeom SpecBound SpecShape
  ExactFacts FloatFacts Order PMat PShape PGeo1 PGeo2 PSup PGjk1 PGjk2.
Local Open Scope R_scope.

Section First.
  Variable C : V3.
  Variable K : R.
  Hypothesis HK : 0 < K.

  Lemma chord_st n t x0 y0 g k l : orth n t -> neg C = vec n t x0 y0 -> g * g + k * k = 1 -> 0 < k -> 0 < l ->
    0 < (1 + g) * (x0 - K * g) + k * (y0 - K * k) ->
    let c := hc g in let s := hs g k in
    st C K (vec n t c s) (vec n t s (- c)) c s (c * x0 + s * y0) (s * x0 - c * y0) (pt C n t K 0) (pt C n t (K * g) (K * k)) (vscale l (vec n t (1 + g) k)).
  Proof.
    intros Ho HC E Hk Hl Hb c s. assert (Hg : -1 < g < 1) by nra.
    destruct (half_facts g k Hg Hk E) as [Hc [Hs [Ecc [Ess Ecs]]]]. fold c in Hc, Ecc, Ecs. fold s in Hs, Ess, Ecs.
    assert (E1 : c * c + s * s = 1) by lra. assert (Kg : c * c - s * s = g) by lra.
    assert (VV : forall X Y, vec (vec n t c s) (vec n t s (- c)) X Y = vec n t (c * X + s * Y) (s * X - c * Y)) by (intros; apply V3_eq; simpl; ring).
    unfold st, pt. rewrite !VV. split; [unfold orth; rewrite !vec_dot by exact Ho; repeat split; lra |]. split; [lra |]. split; [lra |]. split; [lra |].
    split; [rewrite HC; f_equal; [transitivity ((c * c + s * s) * x0); [rewrite E1 |]; ring | transitivity ((c * c + s * s) * y0); [rewrite E1 |]; ring] |].
    split; [f_equal; f_equal; [transitivity (K * (c * c + s * s)); [rewrite E1 |]; ring | ring] |].
    split; [f_equal; f_equal; [transitivity (K * (c * c - s * s)); [rewrite Kg |]; ring | transitivity (K * (2 * c * s)); [rewrite Ecs |]; ring] |].
    split.
    - exists (l * (2 * c)). split; [apply Rmult_lt_0_compat; lra |].
      replace (vscale (l * (2 * c)) (vec n t c s)) with (vscale l (vec n t (2 * (c * c)) (2 * c * s))) by (apply V3_eq; simpl; ring).
      rewrite Ecs, Ecc. f_equal. f_equal. lra.
    - assert (0 < 2 * c * (c * (x0 - K * g) + s * (y0 - K * k))).
      { replace (2 * c * (c * (x0 - K * g) + s * (y0 - K * k))) with (2 * (c * c) * (x0 - K * g) + 2 * c * s * (y0 - K * k)) by ring. rewrite Ecs, Ecc. lra. }
      assert (P : 0 < c * (x0 - K * g) + s * (y0 - K * k)) by nra.
      assert (Q : K * (c * g + s * k) = K * c).
      { f_equal. rewrite <- Kg, <- Ecs. transitivity (c * (c * c + s * s)); [ring | rewrite E1; ring]. }
      lra.
  Qed.
  Lemma thales n t g k : orth n t -> g * g + k * k = 1 ->
    nab (pt C n t (- K) 0) (pt C n t K 0) (pt C n t (K * g) (K * k)) = vscale (2 * (K * K * K) * (1 - g)) (vec n t (1 + g) k).
  Proof.
    intros Ho E. unfold nab. rewrite !pt_sub, trip_vec by exact Ho. assert (Ek : k * k = 1 - g * g) by lra.
    replace (vscale (2 * (K * K * K) * (1 - g)) (vec n t (1 + g) k)) with (vec n t (2 * (K * K * K) * (1 - g) * (1 + g)) (2 * (K * K * K) * (1 - g) * k)) by (apply V3_eq; simpl; ring).
    assert (P : (- K - K * g) * (K - K * g) + (0 - K * k) * (0 - K * k) = 0) by (transitivity (K * K * (g * g - 1 + k * k)); [ring | rewrite Ek; ring]).
    assert (Q : (K - K * g) * (K - K * g) + (0 - K * k) * (0 - K * k) = K * K * (2 - 2 * g)) by (transitivity (K * K * (1 - 2 * g + g * g + k * k)); [ring | rewrite Ek; ring]).
    rewrite P, Q. f_equal; ring.
  Qed.
  Lemma first_triangle n t x0 y0 g k l p q d : orth n t -> neg C = vec n t x0 y0 -> 0 < y0 -> g * g + k * k = 1 -> 0 < k -> 0 < l ->
    p = pt C n t (- K) 0 -> q = pt C n t K 0 -> d = vscale l (vec n t g k) ->
    step C K p q d = inl false \/ (step C K p q d = inl true /\ norm C < K) \/
    exists p' q' d' n' t' c s x y, step C K p q d = inr (p', q', d') /\ st C K n' t' c s x y p' q' d'.
  Proof.
    intros Ho HC Hy E Hk Hl -> -> ->. assert (Hg : -1 < g < 1) by nra.
    assert (Sa : sp C K (vscale l (vec n t g k)) = pt C n t (K * g) (K * k)).
    { unfold sp. rewrite unit_pos; [| apply vec_unit; [exact Ho | exact E] | exact Hl]. apply V3_eq; simpl; ring. }
    unfold step. rewrite Sa. destruct (Rlt_dec 0 _) as [Pass | _]; [right | left; reflexivity].
    assert (Ps : g * x0 + k * y0 < K).
    { replace (pt C n t (K * g) (K * k)) with (neg (neg (pt C n t (K * g) (K * k)))) in Pass by (apply V3_eq; simpl; ring).
      rewrite (neg_pt C n t x0 y0 _ _ HC) in Pass. unfold neg in Pass. rewrite vdot_scale_l, vdot_scale_r, vec_dot in Pass by exact Ho.
      assert (0 < l * (K * (g * g + k * k) - (g * x0 + k * y0))) by lra. rewrite E in H. nra. }
    assert (HK3 : 0 < K * K * K) by (apply Rmult_lt_0_compat; [nra | exact HK]).
    pose proof (thales n t g k Ho E) as N1.
    assert (No : orth (neg n) t) by (destruct Ho as [H1 [H2 H3]]; unfold orth, neg; rewrite !vdot_scale_l, !vdot_scale_r, H1, H2, H3; repeat split; ring).
    assert (NV : forall X Y, vec (neg n) t X Y = vec n t (- X) Y) by (intros; apply V3_eq; simpl; ring).
    assert (N2 : nac (pt C n t (- K) 0) (pt C n t K 0) (pt C n t (K * g) (K * k)) = vscale (2 * (K * K * K) * (1 + g)) (vec (neg n) t (1 + - g) k)).
    { rewrite nac_nab. pose proof (thales (neg n) t (- g) k No ltac:(lra)) as N. unfold pt in *. rewrite !NV in *.
      replace (- - K) with K in N by ring. replace (- (K * - g)) with (K * g) in N by ring. rewrite N. f_equal. ring. }
    rewrite N1, N2, (neg_pt C n t x0 y0 _ _ HC).
    destruct (Rlt_dec 0 _) as [D1 | D1].
    - right. rewrite vdot_scale_l, vec_dot in D1 by exact Ho. do 3 eexists.
      assert (L : 0 < 2 * (K * K * K) * (1 - g)) by (apply Rmult_lt_0_compat; lra).
      assert (Hst := chord_st n t x0 y0 g k (2 * (K * K * K) * (1 - g)) Ho HC E Hk L ltac:(nra)).
      do 6 eexists. split; [reflexivity | exact Hst].
    - destruct (Rlt_dec 0 _) as [D2 | D2].
      + right. rewrite NV, vdot_scale_l, vec_dot in D2 by exact Ho. do 3 eexists.
        assert (L : 0 < 2 * (K * K * K) * (1 + g)) by (apply Rmult_lt_0_compat; lra).
        assert (HC' : neg C = vec (neg n) t (- x0) y0) by (rewrite NV, HC; f_equal; ring).
        assert (Hst := chord_st (neg n) t (- x0) y0 (- g) k (2 * (K * K * K) * (1 + g)) No HC' ltac:(lra) Hk L ltac:(nra)). cbv zeta in Hst.
        do 6 eexists. split; [reflexivity |]. replace (pt C (neg n) t K 0) with (pt C n t (- K) 0) in Hst by (unfold pt; rewrite NV; reflexivity).
        replace (pt C (neg n) t (K * - g) (K * k)) with (pt C n t (K * g) (K * k)) in Hst by (unfold pt; rewrite NV; do 2 f_equal; ring). exact Hst.
      + left. split; [reflexivity |]. rewrite vdot_scale_l, vec_dot in D1 by exact Ho. rewrite NV, vdot_scale_l, vec_dot in D2 by exact Ho.
        assert (L1 : 0 < 2 * (K * K * K) * (1 - g)) by (apply Rmult_lt_0_compat; lra).
        assert (L2 : 0 < 2 * (K * K * K) * (1 + g)) by (apply Rmult_lt_0_compat; lra).
        assert (I1 : (1 + g) * (x0 - K * g) + k * (y0 - K * k) <= 0) by nra.
        assert (I2 : - (1 + - g) * (x0 - K * g) + k * (y0 - K * k) <= 0) by nra.
        assert (J1 : k * y0 <= (1 + g) * (K - x0)) by (assert (k * (K * k) = K * (1 - g * g)) by (transitivity (K * (k * k)); [ring | f_equal; lra]); lra).
        assert (J2 : k * y0 <= (1 - g) * (K + x0)) by (assert (k * (K * k) = K * (1 - g * g)) by (transitivity (K * (k * k)); [ring | f_equal; lra]); lra).
        assert (P : 0 < k * y0) by nra.
        assert (M : (k * y0) * (k * y0) <= ((1 + g) * (K - x0)) * ((1 - g) * (K + x0))) by (apply Rmult_le_compat; lra).
        assert (Ek : (1 - g) * (1 + g) = k * k) by lra.
        assert (M2 : (k * k) * (y0 * y0) <= (k * k) * (K * K - x0 * x0)).
        { replace ((k * k) * (K * K - x0 * x0)) with ((1 - g) * (1 + g) * (K * K - x0 * x0)) by (rewrite Ek; ring). lra. }
        assert (Y : y0 * y0 <= K * K - x0 * x0) by (apply (Rmult_le_reg_l (k * k)); [nra | exact M2]).
        assert (Ne : y0 * y0 <> K * K - x0 * x0).
        { intro Eq. assert (EP : (k * y0) * (k * y0) = ((1 + g) * (K - x0)) * ((1 - g) * (K + x0))).
          { transitivity ((k * k) * (y0 * y0)); [ring |]. rewrite Eq, <- Ek. ring. }
          assert (Q1 : (1 + g) * (K - x0) <= k * y0) by nra. assert (Q2 : (1 - g) * (K + x0) <= k * y0) by nra.
          assert (X0 : x0 = K * g) by lra. assert (KY : k * y0 = K * (1 - g * g)) by (rewrite X0 in J1, Q1; lra). rewrite X0, KY in Ps. lra. }
        pose proof (dist_origin C n t x0 y0 Ho HC). pose proof (norm_pos C). nra.
  Qed.
End First.

Lemma pow2_reach e d : 0 < d -> exists m, e <= d * 2 ^ m.
Proof.
  intro Hd. assert (U : exists m, e / d < INR m).
  { exists (Z.to_nat (Rdefinitions.up (e / d))). destruct (archimed (e / d)) as [H _]. rewrite INR_IZR_INZ.
    destruct (Z_le_gt_dec 0 (Rdefinitions.up (e / d))) as [Hz | Hz]; [rewrite Z2Nat.id by exact Hz; lra |].
    apply Z.gt_lt, IZR_lt in Hz. replace (Z.to_nat (Rdefinitions.up (e / d))) with 0%nat by (symmetry; apply Z2Nat.inj_neg || (destruct (Rdefinitions.up (e / d)); simpl; try reflexivity; exfalso; apply lt_IZR in Hz; lia)). simpl. lra. }
  destruct U as [m Hm]. exists m.
  assert (INR m <= 2 ^ m).
  { clear. induction m as [| m IH]; [simpl; lra |]. rewrite S_INR. change (2 ^ S m) with (2 * 2 ^ m). assert (1 <= 2 ^ m) by (apply pow_R1_Rle; lra). lra. }
  assert (e = d * (e / d)) by (field; lra). nra.
Qed.

Section PGjk3.
  Variable eps : R.
  Variable zs : XR -> bool.
  Notation E := (Exact eps zs).
  Notation ev := (ev eps zs).
  Variables (ca cb : V3) (ra rb ea eb : R).
  Notation A := (SSphere (esphere eps zs ca ra ea)).
  Notation B := (SSphere (esphere eps zs cb rb eb)).
  Notation C := (vsub ca cb).
  Notation K := (ra + rb).
  Hypothesis HK : 0 < K.

  Lemma st_nz n t k s x y p q d : st C K n t k s x y p q d -> d <> vzero.
  Proof.
    intros [[Ho _] [_ [_ [_ [_ [_ [_ [[l [Hl ->]] _]]]]]]]]. apply (dot_pos_nz _ n). rewrite vdot_scale_l, Ho. lra.
  Qed.
  Lemma loop_st f n t k s x y p q d : st C K n t k s x y p q d -> gjk_loop (S f) A B [ev p; ev q] (ev d) =
    match step C K p q d with inl b => Done (Ok (Some b)) | inr (p', q', d') => gjk_loop f A B [ev p'; ev q'] (ev d') end.
  Proof. intro H. apply loop_two. exact (st_nz _ _ _ _ _ _ _ _ _ H). Qed.

  Lemma loop_true f : forall n t k s x y p q d, st C K n t k s x y p q d -> gjk_loop f A B [ev p; ev q] (ev d) = Done (Ok (Some true)) -> norm C < K.
  Proof.
    induction f as [| f IH]; intros n t k s x y p q d H; [discriminate |]. rewrite (loop_st f _ _ _ _ _ _ _ _ _ H), (step_st C K HK _ _ _ _ _ _ _ _ _ H).
    destruct (Rlt_dec x K) as [Hx | Hx]; [| discriminate]. destruct (Rlt_dec 0 _) as [D1 | D1]; [apply (IH _ _ _ _ _ _ _ _ _ (next_ab C K HK _ _ _ _ _ _ _ _ _ H D1)) |].
    destruct (Rlt_dec 0 _) as [D2 | D2]; [apply (IH _ _ _ _ _ _ _ _ _ (next_ac C K HK _ _ _ _ _ _ _ _ _ H D2)) |].
    intros _. apply (true_sound C K HK _ _ _ _ _ _ _ _ _ H Hx); lra.
  Qed.
  Lemma st_half n t k s x y p q d : st C K n t k s x y p q d -> 1 - hc k <= (1 - k) / 2.
  Proof. intros [_ [Hk [Hs [Q _]]]]. exact (halving k s Hk Hs Q). Qed.
  Lemma loop_ends_inside : norm C < K -> forall m n t k s x y p q d, st C K n t k s x y p q d -> 1 - k <= (1 - norm C / K) * 2 ^ m ->
    exists f b, gjk_loop f A B [ev p; ev q] (ev d) = Done (Ok (Some b)).
  Proof.
    intro HC. induction m as [| m IH]; intros n t k s x y p q d H Hm.
    - exfalso. pose proof (st_cos C K _ _ _ _ _ _ _ _ _ H). assert (norm C = K * (norm C / K)) by (field; lra). simpl in Hm. nra.
    - pose proof (st_half _ _ _ _ _ _ _ _ _ H) as Hh. simpl in Hm. assert (Hm' : 1 - hc k <= (1 - norm C / K) * 2 ^ m) by lra.
      pose proof (step_st C K HK _ _ _ _ _ _ _ _ _ H) as St.
      destruct (Rlt_dec x K) as [Hx | Hx]; [| exists 1%nat, false; rewrite (loop_st 0 _ _ _ _ _ _ _ _ _ H), St; reflexivity].
      destruct (Rlt_dec 0 _) as [D1 | D1].
      { destruct (IH _ _ _ _ _ _ _ _ _ (next_ab C K HK _ _ _ _ _ _ _ _ _ H D1) Hm') as [f [b Hf]]. exists (S f), b. rewrite (loop_st f _ _ _ _ _ _ _ _ _ H), St. exact Hf. }
      destruct (Rlt_dec 0 _) as [D2 | D2]; [| exists 1%nat, true; rewrite (loop_st 0 _ _ _ _ _ _ _ _ _ H), St; reflexivity].
      destruct (IH _ _ _ _ _ _ _ _ _ (next_ac C K HK _ _ _ _ _ _ _ _ _ H D2) Hm') as [f [b Hf]]. exists (S f), b. rewrite (loop_st f _ _ _ _ _ _ _ _ _ H), St. exact Hf.
  Qed.
  Lemma ends_now n t k s x y p q d : st C K n t k s x y p q d -> K <= x -> gjk_loop 1 A B [ev p; ev q] (ev d) = Done (Ok (Some false)).
  Proof. intros H Hx. rewrite (loop_st 0 _ _ _ _ _ _ _ _ _ H), (step_st C K HK _ _ _ _ _ _ _ _ _ H). destruct (Rlt_dec x K); [lra | reflexivity]. Qed.
  Lemma loop_ends_outside T : 0 < T -> T * T = norm C * norm C - K * K -> forall m n t k s x y p q d, st C K n t k s x y p q d ->
    1 - k <= 2 * ((T / (3 * K)) * (T / (3 * K))) * 2 ^ m -> exists f b, gjk_loop f A B [ev p; ev q] (ev d) = Done (Ok (Some b)).
  Proof.
    intros HT ET. set (w := T / (3 * K)). assert (Hw : 0 < w) by (unfold w; apply Rdiv_lt_0_compat; lra). assert (Ew : 3 * K * w = T) by (unfold w; field; lra).
    induction m as [| m IH]; intros n t k s x y p q d H Hm.
    - pose proof (step_st C K HK _ _ _ _ _ _ _ _ _ H) as St.
      destruct (Rlt_dec x K) as [Hx | Hx]; [| exists 1%nat, false; rewrite (loop_st 0 _ _ _ _ _ _ _ _ _ H), St; reflexivity].
      pose proof (st_y C K HK _ _ _ _ _ _ _ _ _ H Hx) as Hy. rewrite <- ET in Hy. pose proof H as [_ [Hk [Hs [Q [_ [_ [_ [_ Hkx]]]]]]]].
      destruct (half_facts k s ltac:(lra) Hs Q) as [Hc [Hg [Ecc [Egg _]]]].
      assert (Hsm : 3 * K * hs k s <= T) by (assert (hs k s <= w) by (simpl in Hm; nra); nra).
      destruct (Rlt_dec 0 _) as [D1 | D1].
      { assert (y < 0) by nra.
        assert (Hx' : K <= hc k * x - hs k s * y) by (pose proof (small_chord K HK k s x (- y) T Hk Hs Q Hkx HT ltac:(lra) ltac:(lra) Hsm); lra).
        exists 2%nat, false. rewrite (loop_st 1 _ _ _ _ _ _ _ _ _ H), St. apply (ends_now _ _ _ _ _ _ _ _ _ (next_ab C K HK _ _ _ _ _ _ _ _ _ H D1) Hx'). }
      destruct (Rlt_dec 0 _) as [D2 | D2]; [| exists 1%nat, true; rewrite (loop_st 0 _ _ _ _ _ _ _ _ _ H), St; reflexivity].
      assert (0 < y) by nra.
      assert (Hx' : K <= hc k * x + hs k s * y) by (apply (small_chord K HK k s x y T Hk Hs Q Hkx HT ltac:(lra) ltac:(lra) Hsm)).
      exists 2%nat, false. rewrite (loop_st 1 _ _ _ _ _ _ _ _ _ H), St. apply (ends_now _ _ _ _ _ _ _ _ _ (next_ac C K HK _ _ _ _ _ _ _ _ _ H D2) Hx').
    - pose proof (st_half _ _ _ _ _ _ _ _ _ H) as Hh. simpl in Hm. assert (Hm' : 1 - hc k <= 2 * (w * w) * 2 ^ m) by lra.
      pose proof (step_st C K HK _ _ _ _ _ _ _ _ _ H) as St.
      destruct (Rlt_dec x K) as [Hx | Hx]; [| exists 1%nat, false; rewrite (loop_st 0 _ _ _ _ _ _ _ _ _ H), St; reflexivity].
      destruct (Rlt_dec 0 _) as [D1 | D1].
      { destruct (IH _ _ _ _ _ _ _ _ _ (next_ab C K HK _ _ _ _ _ _ _ _ _ H D1) Hm') as [f [b Hf]]. exists (S f), b. rewrite (loop_st f _ _ _ _ _ _ _ _ _ H), St. exact Hf. }
      destruct (Rlt_dec 0 _) as [D2 | D2]; [| exists 1%nat, true; rewrite (loop_st 0 _ _ _ _ _ _ _ _ _ H), St; reflexivity].
      destruct (IH _ _ _ _ _ _ _ _ _ (next_ac C K HK _ _ _ _ _ _ _ _ _ H D2) Hm') as [f [b Hf]]. exists (S f), b. rewrite (loop_st f _ _ _ _ _ _ _ _ _ H), St. exact Hf.
  Qed.
  Lemma loop_ends n t k s x y p q d : norm C <> K -> st C K n t k s x y p q d -> exists f b, gjk_loop f A B [ev p; ev q] (ev d) = Done (Ok (Some b)).
  Proof.
    intros Hne H. destruct (Rlt_dec (norm C) K) as [Hi | Hi].
    - assert (0 < 1 - norm C / K) by (assert (norm C = K * (norm C / K)) by (field; lra); nra).
      destruct (pow2_reach (1 - k) _ H0) as [m Hm]. exact (loop_ends_inside Hi m _ _ _ _ _ _ _ _ _ H Hm).
    - assert (Ho : K < norm C) by lra. set (T := sqrt (norm C * norm C - K * K)).
      assert (0 < norm C * norm C - K * K) by nra.
      assert (HT : 0 < T) by (apply sqrt_lt_R0; lra). assert (ET : T * T = norm C * norm C - K * K) by (apply sqrt_sqrt; lra).
      assert (Hw : 0 < T / (3 * K)) by (apply Rdiv_lt_0_compat; lra).
      destruct (pow2_reach (1 - k) (2 * ((T / (3 * K)) * (T / (3 * K))))) as [m Hm]; [nra |].
      exact (loop_ends_outside T HT ET m _ _ _ _ _ _ _ _ _ H Hm).
  Qed.

  (** ---- the first iteration ---- *)
  Definition rho : R := sqrt (vy C * vy C + vz C * vz C).
  Definition eta : V3 := V 0 (- vy C / rho) (- vz C / rho).
  Hypothesis Hoff : vy C <> 0 \/ vz C <> 0.
  Lemma rho_pos : 0 < rho.
  Proof. apply sqrt_lt_R0. destruct Hoff; nra. Qed.
  Lemma rho_sq : rho * rho = vy C * vy C + vz C * vz C.
  Proof. apply sqrt_sqrt. nra. Qed.
  Lemma basis : orth (V 1 0 0) eta.
  Proof.
    pose proof rho_pos. pose proof rho_sq. unfold orth, vdot, eta. simpl. repeat split; try ring.
    replace (0 * 0 + - (vy ca - vy cb) / rho * (- (vy ca - vy cb) / rho) + - (vz ca - vz cb) / rho * (- (vz ca - vz cb) / rho))
      with ((vy C * vy C + vz C * vz C) / (rho * rho)) by (simpl; field; lra). rewrite <- H0. field. lra.
  Qed.
  Lemma basis_C : neg C = vec (V 1 0 0) eta (- vx C) rho.
  Proof. pose proof rho_pos. apply V3_eq; simpl; field; lra. Qed.
  Lemma p0_eq : p0 ca cb ra rb = pt C (V 1 0 0) eta (- K) 0.
  Proof.
    unfold p0, sp. replace (V (-1) 0 0) with (vscale 1 (V (-1) 0 0)) by (apply V3_eq; simpl; ring).
    rewrite unit_pos; [apply V3_eq; simpl; ring | apply norm_val; unfold vdot; simpl; lra | lra].
  Qed.
  Lemma p1_eq : sp C K (V 1 0 0) = pt C (V 1 0 0) eta K 0.
  Proof.
    replace (V 1 0 0) with (vscale 1 (V 1 0 0)) at 1 by (apply V3_eq; simpl; ring). apply sp_chord; [exact basis | lra].
  Qed.
  Lemma step0_eq : step0 C K (p0 ca cb ra rb) (V 1 0 0) =
    if Rlt_dec 0 (vx C + K) then inr (pt C (V 1 0 0) eta (- K) 0, pt C (V 1 0 0) eta K 0, vscale (2 * K * rho) (vec (V 1 0 0) eta rho (vx C + K)))
    else inl false.
  Proof.
    unfold step0. rewrite p0_eq, p1_eq. replace (vdot (pt C (V 1 0 0) eta K 0) (V 1 0 0)) with (vx C + K) by (unfold vdot; simpl; ring).
    destruct (Rlt_dec 0 (vx C + K)) as [Hp | Hp]; [| reflexivity].
    rewrite pt_sub, (neg_pt _ _ _ _ _ _ _ basis_C), trip_vec by exact basis.
    replace (vec (V 1 0 0) eta _ _) with (vscale (2 * K * rho) (vec (V 1 0 0) eta rho (vx C + K))) by (apply V3_eq; simpl; ring).
    destruct (Req_EM_T _ 0) as [H | H]; [exfalso | reflexivity].
    apply norm_zero, (f_equal (fun u => vdot u u)) in H. rewrite vdot_scale_l, vdot_scale_r, vec_dot in H by exact basis.
    pose proof rho_pos as Hr. replace (vdot vzero vzero) with 0 in H by (unfold vdot; simpl; ring).
    assert (0 < 2 * K * rho) by (apply Rmult_lt_0_compat; lra). assert (0 < rho * rho + (vx C + K) * (vx C + K)) by nra.
    assert (0 < 2 * K * rho * (2 * K * rho * (rho * rho + (vx C + K) * (vx C + K)))) by (apply Rmult_lt_0_compat; [| apply Rmult_lt_0_compat]; assumption). lra.
  Qed.
  (** after two iterations: an answer, or a chord *)
  Lemma query_two : (forall f, query_intersect (S (S f)) A B = Done (Ok (Some false))) \/
    ((forall f, query_intersect (S (S f)) A B = Done (Ok (Some true))) /\ norm C < K) \/
    exists p q d n t k s x y, st C K n t k s x y p q d /\ forall f, query_intersect (S (S f)) A B = gjk_loop f A B [ev p; ev q] (ev d).
  Proof.
    assert (Q : forall f, query_intersect (S f) A B = match step0 C K (p0 ca cb ra rb) (V 1 0 0) with inl b => Done (Ok (Some b))
      | inr (p', q', d') => gjk_loop f A B [ev p'; ev q'] (ev d') end) by (intro f; apply query_eval).
    rewrite step0_eq in Q. destruct (Rlt_dec 0 (vx C + K)) as [Hp | Hp]; [| left; intro f; apply Q].
    pose proof rho_pos as Hr. set (N := sqrt (rho * rho + (vx C + K) * (vx C + K))).
    assert (HN : 0 < N) by (apply sqrt_lt_R0; nra). assert (EN : N * N = rho * rho + (vx C + K) * (vx C + K)) by (apply sqrt_sqrt; nra).
    assert (L : 0 < 2 * K * rho * N) by (repeat apply Rmult_lt_0_compat; lra).
    assert (Ed : vscale (2 * K * rho) (vec (V 1 0 0) eta rho (vx C + K)) = vscale (2 * K * rho * N) (vec (V 1 0 0) eta (rho / N) ((vx C + K) / N))).
    { apply V3_eq; simpl; field; lra. }
    rewrite Ed in Q.
    assert (Hg : rho / N * (rho / N) + (vx C + K) / N * ((vx C + K) / N) = 1).
    { replace (rho / N * (rho / N) + (vx C + K) / N * ((vx C + K) / N)) with ((rho * rho + (vx C + K) * (vx C + K)) / (N * N)) by (field; lra). rewrite <- EN. field. lra. }
    assert (Hk : 0 < (vx C + K) / N) by (apply Rdiv_lt_0_compat; lra).
    assert (Dz : vscale (2 * K * rho * N) (vec (V 1 0 0) eta (rho / N) ((vx C + K) / N)) <> vzero)
      by (apply (dot_pos_nz _ (vec (V 1 0 0) eta (rho / N) ((vx C + K) / N))); rewrite vdot_scale_l, vec_dot, Hg by exact basis; lra).
    assert (Q2 : forall f, query_intersect (S (S f)) A B = match step C K (pt C (V 1 0 0) eta (- K) 0) (pt C (V 1 0 0) eta K 0)
      (vscale (2 * K * rho * N) (vec (V 1 0 0) eta (rho / N) ((vx C + K) / N))) with inl b => Done (Ok (Some b))
      | inr (p', q', d') => gjk_loop f A B [ev p'; ev q'] (ev d') end) by (intro f; rewrite Q; apply loop_two, Dz).
    clear Q.
    destruct (first_triangle C K HK _ _ _ _ _ _ _ _ _ _ basis basis_C Hr Hg Hk L eq_refl eq_refl eq_refl) as [St | [[St HC] | [p [q [d [n [t [c [s [x [y [St Hst]]]]]]]]]]]];
      rewrite St in Q2.
    - left. exact Q2.
    - right. left. split; [exact Q2 | exact HC].
    - right. right. exists p, q, d, n, t, c, s, x, y. split; [exact Hst | exact Q2].
  Qed.
  (** ---- C61: "true" off the x axis ---- *)
  Lemma query_true f : query_intersect f A B = Done (Ok (Some true)) -> norm C < K.
  Proof.
    intro Q. assert (Q2 : query_intersect (S (S f)) A B = Done (Ok (Some true))) by (apply (query_mono _ _ _ _ _ _ _ _ f); [exact Q | lia]).
    destruct query_two as [Q3 | [[_ H] | [p [q [d [n [t [k [s [x [y [Hst Q3]]]]]]]]]]]].
    - rewrite Q3 in Q2. discriminate Q2.
    - exact H.
    - rewrite Q3 in Q2. exact (loop_true f _ _ _ _ _ _ _ _ _ Hst Q2).
  Qed.
  (** ---- termination with the right answer, away from tangency ---- *)
  Lemma query_ends : norm C <> K -> exists f b, query_intersect f A B = Done (Ok (Some b)).
  Proof.
    intro Hne. destruct query_two as [Q3 | [[Q3 _] | [p [q [d [n [t [k [s [x [y [Hst Q3]]]]]]]]]]]].
    - exists 2%nat, false. apply Q3.
    - exists 2%nat, true. apply Q3.
    - destruct (loop_ends _ _ _ _ _ _ _ _ _ Hne Hst) as [f [b Hf]]. exists (S (S f)), b. rewrite Q3. exact Hf.
  Qed.
  Lemma query_inside : norm C < K -> exists m, forall f, (m <= f)%nat -> query_intersect f A B = Done (Ok (Some true)).
  Proof.
    intro H. destruct (query_ends ltac:(lra)) as [m [b Hb]]. exists m. destruct b; [apply query_mono, Hb |].
    apply query_false in Hb. exfalso. lra.
  Qed.
  Lemma query_outside : K < norm C -> exists m, forall f, (m <= f)%nat -> query_intersect f A B = Done (Ok (Some false)).
  Proof.
    intro H. destruct (query_ends ltac:(lra)) as [m [b Hb]]. exists m. destruct b; [| apply query_mono, Hb].
    apply query_true in Hb. exfalso. lra.
  Qed.
End PGjk3.
