(** PGjk4.v — GJK on two spheres: the degenerate pairs, and touching spheres on which the loop never ends. *)
From Coq Require Import Reals List ZArith NArith Bool Lra Lia Psatz Arith.
Import ListNotations.
From Verif Require Import Base Num Vec Mat Bound Shape Gjk Exact SpecMat SpecGeom SpecBound SpecShape
  ExactFacts FloatFacts Order PMat PShape PGeo1 PGeo2 PSup PGjk1 PGjk2 PGjk3.
Local Open Scope R_scope.

Section Degenerate.
  Variable eps : R.
  Variable zs : XR -> bool.
  Notation E := (Exact eps zs).
  Notation ev := (ev eps zs).
  Variables (ca cb : V3) (ra rb ea eb : R).
  Notation A := (SSphere (esphere eps zs ca ra ea)).
  Notation B := (SSphere (esphere eps zs cb rb eb)).
  Notation C := (vsub ca cb).
  Notation K := (ra + rb).

  Lemma sp_axis : sp C K (V 1 0 0) = vadd C (V K 0 0).
  Proof.
    unfold sp. replace (V 1 0 0) with (vscale 1 (V 1 0 0)) by (apply V3_eq; simpl; ring).
    rewrite unit_pos; [apply V3_eq; simpl; ring | apply norm_val; unfold vdot; simpl; lra | lra].
  Qed.
  Lemma sp_axis' : sp C K (V (-1) 0 0) = vadd C (V (- K) 0 0).
  Proof.
    unfold sp. replace (V (-1) 0 0) with (vscale 1 (V (-1) 0 0)) by (apply V3_eq; simpl; ring).
    rewrite unit_pos; [apply V3_eq; simpl; ring | apply norm_val; unfold vdot; simpl; lra | lra].
  Qed.
  (** centres along the x axis, or both radii zero: one test decides *)
  Lemma query_degenerate f : K = 0 \/ (vy ca = vy cb /\ vz ca = vz cb) ->
    query_intersect (S f) A B = Done (Ok (Some (if Rlt_dec 0 (vx C + K) then true else false))).
  Proof.
    intro D. rewrite query_eval. unfold step0, p0. rewrite sp_axis, sp_axis'.
    replace (vdot (vadd C (V K 0 0)) (V 1 0 0)) with (vx C + K) by (unfold vdot; simpl; ring).
    destruct (Rlt_dec 0 (vx C + K)) as [H | H]; [| reflexivity].
    replace (trip (vsub (vadd C (V (- K) 0 0)) (vadd C (V K 0 0))) (neg (vadd C (V K 0 0))) (neg (vadd C (V K 0 0)))) with vzero.
    - rewrite norm_vzero. destruct (Req_EM_T 0 0); [reflexivity | contradiction].
    - destruct D as [D | [D1 D2]].
      + rewrite trip_eq. apply V3_eq; unfold vdot; simpl; rewrite D; ring.
      + unfold trip. apply V3_eq; simpl; rewrite D1, D2; ring.
  Qed.
End Degenerate.

(** ---- touching spheres ---- *)
Section Touch.
  Variable eps : R.
  Variable zs : XR -> bool.
  Notation E := (Exact eps zs).
  Notation ev := (ev eps zs).
  Variables (ca cb : V3) (ra rb ea eb : R).
  Notation A := (SSphere (esphere eps zs ca ra ea)).
  Notation B := (SSphere (esphere eps zs cb rb eb)).
  Notation C := (vsub ca cb).
  Notation K := (ra + rb).
  Hypothesis HK : 0 < K.

  Lemma hc_cos u : 0 <= u < PI / 2 -> hc (cos (2 * u)) = cos u.
  Proof.
    intro Hu. unfold hc. rewrite cos_2a_cos. replace ((1 + (2 * cos u * cos u - 1)) / 2) with (cos u * cos u) by field.
    apply sqrt_square. apply cos_ge_0; pose proof PI_RGT_0; lra.
  Qed.
  Lemma hs_sin u : 0 <= u < PI / 2 -> hs (cos (2 * u)) (sin (2 * u)) = sin u.
  Proof.
    intro Hu. unfold hs. rewrite hc_cos by exact Hu. rewrite sin_2a. assert (0 < cos u) by (apply cos_gt_0; lra). field. lra.
  Qed.
  (** the origin splits the arc beyond the chord one to two *)
  Definition third (a : R) (p q d : V3) : Prop := exists n t,
    st C K n t (cos (3 * a)) (sin (3 * a)) (K * cos a) (K * sin a) p q d \/ st C K n t (cos (3 * a)) (sin (3 * a)) (K * cos a) (- (K * sin a)) p q d.
  Lemma third_step a p q d : 0 < a <= PI / 8 -> third a p q d ->
    exists p' q' d', step C K p q d = inr (p', q', d') /\ third (a / 2) p' q' d'.
  Proof.
    intros Ha [n [t H]]. pose proof PI_RGT_0 as Hpi. set (u := 3 * a / 2).
    assert (Eu : 3 * a = 2 * u) by (unfold u; field). assert (Hu : 0 <= u < PI / 2) by (unfold u; lra).
    assert (Cx : cos a < 1) by (rewrite <- cos_0; apply cos_decreasing_1; lra).
    assert (Sa : 0 < sin a) by (apply sin_gt_0; lra). assert (Su : 0 < sin u) by (apply sin_gt_0; unfold u; lra).
    assert (S3 : 0 < sin (3 * a)) by (apply sin_gt_0; lra). assert (C3 : cos (3 * a) < 1) by (rewrite <- cos_0; apply cos_decreasing_1; lra).
    assert (D : 0 < sin (3 * a) * (K * cos a - K) + (1 - cos (3 * a)) * (K * sin a)).
    { rewrite Eu, sin_2a, cos_2a_sin.
      replace (2 * sin u * cos u * (K * cos a - K) + (1 - (1 - 2 * sin u * sin u)) * (K * sin a)) with (2 * K * sin u * ((cos u * cos a + sin u * sin a) - cos u)) by ring.
      rewrite <- cos_minus. assert (cos u < cos (u - a)) by (apply cos_decreasing_1; unfold u; lra). apply Rmult_lt_0_compat; [apply Rmult_lt_0_compat; lra | lra]. }
    assert (X : cos u * (K * cos a) + sin u * (K * sin a) = K * cos (a / 2)) by (replace (a / 2) with (u - a) by (unfold u; field); rewrite cos_minus; ring).
    assert (Y : sin u * (K * cos a) - cos u * (K * sin a) = K * sin (a / 2)) by (replace (a / 2) with (u - a) by (unfold u; field); rewrite sin_minus; ring).
    destruct H as [H | H]; pose proof (step_st C K HK _ _ _ _ _ _ _ _ _ H) as St;
      (destruct (Rlt_dec (K * cos a) K); [| exfalso; nra]).
    - destruct (Rlt_dec 0 (sin (3 * a) * (K * cos a - K) - (1 - cos (3 * a)) * (K * sin a))) as [Z | _]; [exfalso; assert (0 < K * sin a) by nra; nra |].
      destruct (Rlt_dec 0 _) as [_ |]; [| contradiction]. do 3 eexists. split; [exact St |].
      pose proof (next_ac C K HK _ _ _ _ _ _ _ _ _ H D) as N. cbv zeta in N. rewrite Eu, (hc_cos u Hu), (hs_sin u Hu), X in N.
      replace (- sin u * (K * cos a) + cos u * (K * sin a)) with (- (K * sin (a / 2))) in N by lra.
      do 2 eexists. right. replace (3 * (a / 2)) with u by (unfold u; field). exact N.
    - destruct (Rlt_dec 0 _) as [Z | Z]; [| exfalso; apply Z; lra]. do 3 eexists. split; [exact St |].
      pose proof (next_ab C K HK _ _ _ _ _ _ _ _ _ H Z) as N. cbv zeta in N. rewrite Eu, (hc_cos u Hu), (hs_sin u Hu) in N.
      replace (cos u * (K * cos a) - sin u * - (K * sin a)) with (K * cos (a / 2)) in N by lra.
      replace (- (sin u * (K * cos a) + cos u * - (K * sin a))) with (- (K * sin (a / 2))) in N by lra.
      do 2 eexists. right. replace (3 * (a / 2)) with u by (unfold u; field). exact N.
  Qed.
  Lemma third_nz a p q d : third a p q d -> d <> vzero.
  Proof. intros [n [t [H | H]]]; exact (st_nz ca cb ra rb _ _ _ _ _ _ _ _ _ H). Qed.
  Lemma third_forever f : forall a p q d, 0 < a <= PI / 8 -> third a p q d -> gjk_loop f A B [ev p; ev q] (ev d) = OutOfFuel.
  Proof.
    induction f as [| f IH]; intros a p q d Ha H; [reflexivity |]. rewrite loop_two by exact (third_nz _ _ _ _ H).
    destruct (third_step a p q d Ha H) as [p' [q' [d' [-> H']]]]. apply (IH (a / 2)); [lra | exact H'].
  Qed.

  Hypothesis Htouch : norm C = K.
  Hypothesis Hx : vx ca = vx cb.
  Lemma touch_off : vy C <> 0 \/ vz C <> 0.
  Proof.
    destruct (Req_dec (vy C) 0) as [H1 | H1]; [| left; exact H1]. right. intro H2. apply Rlt_not_le in HK. apply HK. rewrite <- Htouch. right.
    replace C with vzero; [exact norm_vzero | apply V3_eq; simpl in *; lra].
  Qed.
  Lemma touch_rho : rho ca cb = K.
  Proof. rewrite <- Htouch. unfold rho, norm. f_equal. unfold vdot. simpl. rewrite Hx. ring. Qed.
  Lemma touch_start : exists p q d, third (PI / 8) p q d /\ forall f, query_intersect (S (S f)) A B = gjk_loop f A B [ev p; ev q] (ev d).
  Proof.
    pose proof PI_RGT_0 as Hpi. pose proof touch_off as Hoff. pose proof touch_rho as Hr. assert (Hx0 : vx C = 0) by (simpl; lra).
    set (n := V 1 0 0). set (t := eta ca cb). assert (Ho : orth n t) by exact (basis ca cb Hoff).
    assert (HC : neg C = vec n t 0 K) by (unfold n, t; rewrite (basis_C ca cb Hoff), Hr, Hx0; f_equal; ring).
    set (g := cos (PI / 4)). assert (Ek : sin (PI / 4) = g) by apply sin_cos_PI4. assert (Hg0 : 0 < g) by (apply cos_gt_0; lra).
    assert (E1 : g * g + g * g = 1) by (pose proof (sin2_cos2 (PI / 4)) as S; unfold Rsqr in S; rewrite Ek in S; fold g in S; exact S).
    assert (Hg1 : g < 1) by nra.
    assert (K3 : 0 < K * K * K) by (apply Rmult_lt_0_compat; [nra | exact HK]).
    set (L := 2 * K * K * (K / g)). assert (HL : 0 < L) by (unfold L; apply Rmult_lt_0_compat; [nra | apply Rdiv_lt_0_compat; lra]).
    set (p := pt C n t (- K) 0). set (q := pt C n t K 0). set (d := vscale L (vec n t g g)). set (a := pt C n t (K * g) (K * g)).
    assert (Q : forall f, query_intersect (S f) A B = gjk_loop f A B [ev p; ev q] (ev d)).
    { intro f. rewrite query_eval, (step0_eq ca cb ra rb HK Hoff), Hr, Hx0. destruct (Rlt_dec 0 (0 + K)); [| lra]. do 2 f_equal. apply V3_eq; unfold d, L; simpl; field; lra. }
    assert (Dz : d <> vzero) by (apply (dot_pos_nz _ (vec n t g g)); unfold d; rewrite vdot_scale_l, vec_dot, E1 by exact Ho; lra).
    assert (Sa : sp C K d = a).
    { unfold sp, d. rewrite unit_pos; [| apply vec_unit; [exact Ho | exact E1] | exact HL]. apply V3_eq; unfold a; simpl; ring. }
    assert (No : orth (neg n) t) by (destruct Ho as [H1 [H2 H3]]; unfold orth, neg; rewrite !vdot_scale_l, !vdot_scale_r, H1, H2, H3; repeat split; ring).
    assert (NV : forall X Y, vec (neg n) t X Y = vec n t (- X) Y) by (intros; apply V3_eq; simpl; ring).
    assert (N1 : nab p q a = vscale (2 * (K * K * K) * (1 - g)) (vec n t (1 + g) g)) by exact (thales C K n t g g Ho E1).
    assert (N2 : nac p q a = vscale (2 * (K * K * K) * (1 + g)) (vec (neg n) t (1 + - g) g)).
    { rewrite nac_nab. pose proof (thales C K (neg n) t (- g) g No ltac:(lra)) as N. unfold p, q, a, pt in *. rewrite !NV in *.
      replace (- - K) with K in N by ring. replace (- (K * - g)) with (K * g) in N by ring. rewrite N. f_equal. ring. }
    assert (Na : neg a = vec n t (0 - K * g) (K - K * g)) by exact (neg_pt C n t 0 K _ _ HC).
    assert (St : step C K p q d = inr (p, a, nac p q a)).
    { unfold step. rewrite Sa. destruct (Rlt_dec 0 (vdot a d)) as [_ | Z].
      2: { exfalso. apply Z. replace a with (neg (neg a)) by (apply V3_eq; simpl; ring). rewrite Na. unfold neg at 1, d. rewrite vdot_scale_l, vdot_scale_r, vec_dot by exact Ho.
           replace (-1 * (L * ((0 - K * g) * g + (K - K * g) * g))) with (L * K * (g * g + g * g - g)) by ring. rewrite E1. apply Rmult_lt_0_compat; [nra | lra]. }
      destruct (Rlt_dec 0 (vdot (nab p q a) (neg a))) as [Z | _].
      { exfalso. rewrite N1, Na, vdot_scale_l, vec_dot in Z by exact Ho.
        replace ((1 + g) * (0 - K * g) + g * (K - K * g)) with (- (K * (g * g + g * g))) in Z by ring. rewrite E1 in Z. assert (0 < 2 * (K * K * K) * (1 - g)) by (apply Rmult_lt_0_compat; lra). nra. }
      destruct (Rlt_dec 0 (vdot (nac p q a) (neg a))) as [_ | Z]; [reflexivity |].
      exfalso. apply Z. rewrite N2, NV, Na, vdot_scale_l, vec_dot by exact Ho.
      replace (- (1 + - g) * (0 - K * g) + g * (K - K * g)) with (K * (2 * g - (g * g + g * g))) by ring. rewrite E1.
      assert (1 < 2 * g) by nra. apply Rmult_lt_0_compat; [apply Rmult_lt_0_compat; lra | nra]. }
    exists p, a, (nac p q a). split.
    2: { intro f. rewrite Q, loop_two, St by exact Dz. reflexivity. }
    assert (HC' : neg C = vec (neg n) t (- 0) K) by (rewrite NV, HC; f_equal; ring).
    assert (L2 : 0 < 2 * (K * K * K) * (1 + g)) by (apply Rmult_lt_0_compat; lra).
    assert (Hb : 0 < (1 + - g) * (- 0 - K * - g) + g * (K - K * g)).
    { replace ((1 + - g) * (- 0 - K * - g) + g * (K - K * g)) with (K * (2 * g - (g * g + g * g))) by ring. rewrite E1. assert (1 < 2 * g) by nra. nra. }
    pose proof (chord_st C K (neg n) t (- 0) K (- g) g _ No HC' ltac:(lra) Hg0 L2 Hb) as Hst. cbv zeta in Hst.
    replace (pt C (neg n) t K 0) with p in Hst by (unfold p, pt; rewrite NV; reflexivity).
    replace (pt C (neg n) t (K * - g) (K * g)) with a in Hst by (unfold a, pt; rewrite NV; do 2 f_equal; ring).
    rewrite <- N2 in Hst.
    set (u := 3 * (PI / 8)). assert (Hu : 0 <= u < PI / 2) by (unfold u; lra).
    assert (Ec : - g = cos (2 * u)) by (replace (2 * u) with (PI - PI / 4) by (unfold u; field); rewrite cos_minus, cos_PI, sin_PI; fold g; ring).
    assert (Es : g = sin (2 * u)) by (rewrite <- Ek; unfold u; rewrite <- sin_PI_x; f_equal; field).
    assert (F1 : hc (- g) = cos u) by (rewrite Ec; apply hc_cos, Hu).
    assert (F2 : hs (- g) g = sin u) by (rewrite Ec; rewrite Es at 1; apply hs_sin, Hu).
    rewrite F1, F2 in Hst.
    assert (G1 : sin u = cos (PI / 8)) by (rewrite <- sin_shift; f_equal; unfold u; field).
    assert (G2 : cos u = sin (PI / 8)) by (rewrite <- cos_shift; f_equal; unfold u; field).
    exists (vec (neg n) t (cos u) (sin u)), (vec (neg n) t (sin u) (- cos u)). right. fold u.
    replace (K * cos (PI / 8)) with (cos u * - 0 + sin u * K) by (rewrite <- G1; ring).
    replace (- (K * sin (PI / 8))) with (sin u * - 0 - cos u * K) by (rewrite <- G2; ring). exact Hst.
  Qed.
  Lemma touch_forever f : query_intersect f A B = OutOfFuel.
  Proof.
    destruct touch_start as [p [q [d [H Q]]]].
    destruct (query_total eps zs ca cb ra rb ea eb f) as [O | [b Hb]]; [exact O |].
    assert (Q2 : query_intersect (S (S f)) A B = Done (Ok (Some b))) by (apply (query_mono _ _ _ _ _ _ _ _ f); [exact Hb | lia]).
    rewrite Q, (third_forever f (PI / 8) p q d) in Q2; [discriminate Q2 | pose proof PI_RGT_0; lra | exact H].
  Qed.
End Touch.
