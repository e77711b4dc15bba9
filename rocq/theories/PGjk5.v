(** PGjk5.v — GJK on touching spheres: the loop is a binary search for the origin on an arc; it ends (with the answer
    false) exactly when the origin is at a dyadic position (C67). *)
From Coq Require Import Reals List ZArith NArith Bool Lra Lia Psatz Arith.
Import ListNotations.
From Verif Require Import Base Num Vec Mat Bound Shape Gjk Exact SpecMat SpecGeom SpecBound SpecShape SpecGjk
  ExactFacts FloatFacts Order PMat PShape PGeo1 PGeo2 PSup PGjk1 PGjk2 PGjk3 PGjk4.
Local Open Scope R_scope.

(** ---- the map r -> 2|r| - 1 on (-1, 1) ---- *)
Definition tent (r : R) : R := 2 * Rabs r - 1.
Lemma tent_range r : -1 < r < 1 -> r <> 0 -> -1 < tent r < 1.
Proof. intros H Z. unfold tent. pose proof (Rabs_pos_lt r Z). assert (Rabs r < 1) by (apply Rabs_def1; lra). lra. Qed.
Lemma dyadic_opp r : dyadic r -> dyadic (- r).
Proof. intros [m [n ->]]. exists (- m)%Z, n. rewrite opp_IZR. field. apply pow_nonzero. lra. Qed.
Lemma dyadic_abs r : dyadic r <-> dyadic (Rabs r).
Proof.
  unfold Rabs. destruct (Rcase_abs r); [| tauto]. split; intro H; [apply dyadic_opp, H |].
  rewrite <- (Ropp_involutive r). apply dyadic_opp, H.
Qed.
Lemma dyadic_tent r : dyadic r <-> dyadic (tent r).
Proof.
  rewrite dyadic_abs. unfold tent. set (a := Rabs r). split; intros [m [n E]].
  - exists (2 * m - 2 ^ Z.of_nat n)%Z, n. rewrite minus_IZR, mult_IZR, <- pow_IZR, E. field. apply pow_nonzero. lra.
  - exists (m + 2 ^ Z.of_nat n)%Z, (S n). rewrite plus_IZR, <- pow_IZR. simpl.
    assert (H : a = (IZR m / 2 ^ n + 1) / 2) by lra. rewrite H. field. apply pow_nonzero. lra.
Qed.
(** a dyadic number with denominator 2^n reaches 0 in at most n steps *)
Lemma tent_reach n : forall r m, -1 < r < 1 -> r = IZR m / 2 ^ n -> exists k, (k <= n)%nat /\ Nat.iter k tent r = 0 /\
  forall j, (j < k)%nat -> Nat.iter j tent r <> 0 /\ -1 < Nat.iter j tent r < 1.
Proof.
  induction n as [| n IH]; intros r m Hr E.
  - simpl in E. exists 0%nat. split; [lia |]. split; [| intros j Hj; lia]. simpl.
    assert (r = IZR m) by (rewrite E; field). rewrite H in Hr. destruct Hr as [H1 H2].
    apply lt_IZR in H1. apply lt_IZR in H2. replace m with 0%Z in H by lia. exact H.
  - destruct (Req_dec r 0) as [Z | Z].
    { exists 0%nat. split; [lia |]. split; [exact Z | intros j Hj; lia]. }
    destruct (IH (tent r) (Z.abs m - 2 ^ Z.of_nat n)%Z (tent_range r Hr Z)) as [k [Hk [E0 Hj]]].
    { unfold tent. assert (P : 0 < 2 ^ n) by (apply pow_lt; lra). rewrite E, minus_IZR, <- pow_IZR, abs_IZR.
      unfold Rdiv. rewrite Rabs_mult, (Rabs_pos_eq (/ 2 ^ S n)) by (left; apply Rinv_0_lt_compat; simpl; lra).
      simpl. field. lra. }
    exists (S k). split; [lia |].
    assert (C : forall j, Nat.iter (S j) tent r = Nat.iter j tent (tent r)).
    { intro j. induction j as [| j IHj]; [reflexivity |]. change (tent (Nat.iter (S j) tent r) = tent (Nat.iter j tent (tent r))). rewrite IHj. reflexivity. }
    split; [rewrite C; exact E0 |]. intros [| j] H; [split; [exact Z | exact Hr] |]. rewrite C. apply Hj. lia.
Qed.

Section Arc.
  Variable eps : R.
  Variable zs : XR -> bool.
  Notation E := (Exact eps zs).
  Notation ev := (ev eps zs).
  Variables (ca cb : V3) (ra rb ea eb : R).
  Notation A := (SSphere (esphere eps zs ca ra ea)).
  Notation B := (SSphere (esphere eps zs cb rb eb)).
  Notation C := (vsub ca cb).
  Notation K := (ra + rb).
  Hypothesis HK : 0 < K.

  (** chord of half angle [al]; the origin is on the circle, at angle [th] from the middle of the arc beyond the chord *)
  Definition arc (al th : R) (p q d : V3) : Prop := exists n t, st C K n t (cos al) (sin al) (K * cos th) (K * sin th) p q d.
  Lemma arc_nz al th p q d : arc al th p q d -> d <> vzero.
  Proof. intros [n [t H]]. exact (st_nz ca cb ra rb _ _ _ _ _ _ _ _ _ H). Qed.
  Lemma arc_found al p q d : arc al 0 p q d -> step C K p q d = inl false.
  Proof.
    intros [n [t H]]. rewrite (step_st C K HK _ _ _ _ _ _ _ _ _ H), cos_0. destruct (Rlt_dec (K * 1) K); [lra | reflexivity].
  Qed.
  Lemma arc_step al th p q d : 0 < al <= PI / 2 -> - al < th < al -> th <> 0 -> arc al th p q d ->
    exists p' q' d', step C K p q d = inr (p', q', d') /\ arc (al / 2) (Rabs th - al / 2) p' q' d'.
  Proof.
    intros Ha Ht Hz [n [t H]]. pose proof PI_RGT_0 as Hpi. set (u := al / 2).
    assert (Eu : al = 2 * u) by (unfold u; field). assert (Hu : 0 <= u < PI / 2) by (unfold u; lra).
    assert (Su : 0 < sin u) by (apply sin_gt_0; lra).
    assert (Sal : 0 < sin al) by (apply sin_gt_0; lra).
    assert (Cal : cos al < 1) by (rewrite <- cos_0; apply cos_decreasing_1; lra).
    assert (Cx : cos th < 1).
    { unfold Rabs in *. destruct (Rle_lt_dec 0 th); [rewrite <- cos_0; apply cos_decreasing_1; lra |].
      rewrite <- cos_0, <- (cos_neg th). apply cos_decreasing_1; lra. }
    assert (Key : forall w, 0 < w < al -> 0 < sin al * (K * cos w - K) + (1 - cos al) * (K * sin w)).
    { intros w Hw. rewrite Eu, sin_2a, cos_2a_sin.
      replace (2 * sin u * cos u * (K * cos w - K) + (1 - (1 - 2 * sin u * sin u)) * (K * sin w)) with (2 * K * sin u * ((cos u * cos w + sin u * sin w) - cos u)) by ring.
      rewrite <- cos_minus. assert (cos u < cos (u - w)); [| apply Rmult_lt_0_compat; [apply Rmult_lt_0_compat; lra | lra]].
      destruct (Rle_lt_dec w u); [apply cos_decreasing_1; lra |]. rewrite <- (cos_neg (u - w)). apply cos_decreasing_1; lra. }
    pose proof (step_st C K HK _ _ _ _ _ _ _ _ _ H) as St. destruct (Rlt_dec (K * cos th) K) as [_ | Z]; [| exfalso; nra].
    destruct (Rlt_dec 0 th) as [Hp | Hp].
    - assert (Sth : 0 < sin th) by (apply sin_gt_0; lra). assert (D := Key th ltac:(lra)).
      destruct (Rlt_dec 0 (sin al * (K * cos th - K) - (1 - cos al) * (K * sin th))) as [Z | _].
      { exfalso. assert (0 < K * sin th) by (apply Rmult_lt_0_compat; lra). assert (0 < (1 - cos al) * (K * sin th)) by (apply Rmult_lt_0_compat; lra).
        assert (0 < sin al * (K * (1 - cos th))) by (apply Rmult_lt_0_compat; [exact Sal | apply Rmult_lt_0_compat; lra]). lra. }
      destruct (Rlt_dec 0 _) as [_ |]; [| contradiction]. do 3 eexists. split; [exact St |].
      pose proof (next_ac C K HK _ _ _ _ _ _ _ _ _ H D) as N. cbv zeta in N. rewrite Eu, (hc_cos u Hu), (hs_sin u Hu) in N.
      rewrite Rabs_pos_eq by lra. do 2 eexists. rewrite cos_minus, sin_minus.
      replace (K * (cos th * cos u + sin th * sin u)) with (cos u * (K * cos th) + sin u * (K * sin th)) by ring.
      replace (K * (sin th * cos u - cos th * sin u)) with (- sin u * (K * cos th) + cos u * (K * sin th)) by ring. exact N.
    - assert (D := Key (- th) ltac:(lra)). rewrite cos_neg, sin_neg in D.
      destruct (Rlt_dec 0 (sin al * (K * cos th - K) - (1 - cos al) * (K * sin th))) as [Z | Z]; [| exfalso; lra].
      do 3 eexists. split; [exact St |].
      pose proof (next_ab C K HK _ _ _ _ _ _ _ _ _ H Z) as N. cbv zeta in N. rewrite Eu, (hc_cos u Hu), (hs_sin u Hu) in N.
      rewrite Rabs_left by lra. do 2 eexists. replace (- th - u) with (- (th + u)) by ring. rewrite cos_neg, sin_neg, cos_plus, sin_plus.
      replace (K * (cos th * cos u - sin th * sin u)) with (cos u * (K * cos th) - sin u * (K * sin th)) by ring.
      replace (K * - (sin th * cos u + cos th * sin u)) with (- (sin u * (K * cos th) + cos u * (K * sin th))) by ring. exact N.
  Qed.
  (** the loop follows [tent] *)
  Lemma arc_ends k : forall al r p q d, 0 < al <= PI / 2 -> arc al (al * r) p q d -> Nat.iter k tent r = 0 ->
    (forall j, (j < k)%nat -> Nat.iter j tent r <> 0 /\ -1 < Nat.iter j tent r < 1) ->
    gjk_loop (S k) A B [ev p; ev q] (ev d) = Done (Ok (Some false)).
  Proof.
    induction k as [| k IH]; intros al r p q d Ha H E0 Hj; rewrite loop_two by exact (arc_nz _ _ _ _ _ H).
    - simpl in E0. subst r. rewrite Rmult_0_r in H. rewrite (arc_found _ _ _ _ H). reflexivity.
    - destruct (Hj 0%nat ltac:(lia)) as [Z R]. cbn [Nat.iter nat_rect] in Z, R.
      assert (C' : forall j, Nat.iter (S j) tent r = Nat.iter j tent (tent r)).
      { intro j. induction j as [| j IHj]; [reflexivity |]. change (tent (Nat.iter (S j) tent r) = tent (Nat.iter j tent (tent r))). rewrite IHj. reflexivity. }
      destruct (arc_step al (al * r) p q d Ha) as [p' [q' [d' [St H']]]]; [nra | | exact H |].
      { apply Rmult_integral_contrapositive. split; [lra | exact Z]. }
      rewrite St. apply (IH (al / 2) (tent r)); [lra | | rewrite <- C'; exact E0 |].
      + replace (al / 2 * tent r) with (Rabs (al * r) - al / 2) by (unfold tent; rewrite Rabs_mult, (Rabs_pos_eq al) by lra; field). exact H'.
      + intros j H1. rewrite <- C'. apply Hj. lia.
  Qed.
  Lemma arc_never f : forall al r p q d, 0 < al <= PI / 2 -> -1 < r < 1 -> ~ dyadic r -> arc al (al * r) p q d ->
    gjk_loop f A B [ev p; ev q] (ev d) = OutOfFuel.
  Proof.
    induction f as [| f IH]; intros al r p q d Ha Hr Hn H; [reflexivity |]. rewrite loop_two by exact (arc_nz _ _ _ _ _ H).
    assert (Z : r <> 0) by (intro Z; apply Hn; exists 0%Z, 0%nat; rewrite Z; simpl; field).
    destruct (arc_step al (al * r) p q d Ha) as [p' [q' [d' [St H']]]]; [nra | | exact H |].
    { apply Rmult_integral_contrapositive. split; [lra | exact Z]. }
    rewrite St. apply (IH (al / 2) (tent r)); [lra | apply tent_range; assumption | rewrite <- dyadic_tent; exact Hn |].
    replace (al / 2 * tent r) with (Rabs (al * r) - al / 2) by (unfold tent; rewrite Rabs_mult, (Rabs_pos_eq al) by lra; field). exact H'.
  Qed.

  Hypothesis Htouch : norm C = K.
  Hypothesis Hoff : vy C <> 0 \/ vz C <> 0.
  Definition phi : R := acos (- vx C / K).
  Definition ratio : R := (3 * phi - 2 * PI) / (2 * PI - phi).
  Lemma phi_facts : 0 < phi < PI /\ K * cos phi = - vx C /\ K * sin phi = rho ca cb.
  Proof.
    assert (N2 : vx C * vx C + rho ca cb * rho ca cb = K * K) by (rewrite rho_sq, <- Htouch, norm_sq; unfold vdot; ring).
    pose proof (rho_pos ca cb Hoff) as Hr. set (x := vx C) in *. set (rh := rho ca cb) in *.
    assert (X : -1 < - x / K < 1).
    { assert (x * x < K * K) by nra. split; [apply Rmult_lt_reg_r with K | apply Rmult_lt_reg_r with K]; try exact HK; unfold Rdiv; rewrite Rmult_assoc, Rinv_l by lra; nra. }
    unfold phi. fold x. pose proof (acos_bound (- x / K)) as Bd.
    assert (Ec : cos (acos (- x / K)) = - x / K) by (apply cos_acos; lra).
    assert (Hp : 0 < acos (- x / K) < PI).
    { split; (destruct Bd as [B1 B2]); [destruct B1 as [B1 | B1]; [exact B1 | rewrite <- B1, cos_0 in Ec; lra] |].
      destruct B2 as [B2 | B2]; [exact B2 | rewrite B2, cos_PI in Ec; lra]. }
    split; [exact Hp |]. split; [rewrite Ec; field; lra |].
    set (ph := acos (- x / K)) in *. assert (Sp : 0 < sin ph) by (apply sin_gt_0; lra).
    pose proof (sin2_cos2 ph) as S. unfold Rsqr in S. rewrite Ec in S.
    assert (K * sin ph * (K * sin ph) = rh * rh).
    { replace (K * sin ph * (K * sin ph)) with (K * K * (sin ph * sin ph)) by ring. replace (sin ph * sin ph) with (1 - - x / K * (- x / K)) by lra.
      replace (K * K * (1 - - x / K * (- x / K))) with (K * K - x * x) by (field; lra). lra. }
    assert (0 < K * sin ph) by (apply Rmult_lt_0_compat; lra). nra.
  Qed.
  Lemma ratio_range : -1 < ratio < 1.
  Proof.
    pose proof PI_RGT_0. destruct phi_facts as [Hp _]. unfold ratio. split; (apply Rmult_lt_reg_r with (2 * PI - phi); [lra |]);
      unfold Rdiv; rewrite Rmult_assoc, Rinv_l by lra; lra.
  Qed.
  Lemma arc_start : exists p q d al, 0 < al <= PI / 2 /\ arc al (al * ratio) p q d /\
    forall f, query_intersect (S (S f)) A B = gjk_loop f A B [ev p; ev q] (ev d).
  Proof.
    pose proof PI_RGT_0 as Hpi. destruct phi_facts as [Hphi [Ecx Esx]].
    set (n := V 1 0 0). set (t := eta ca cb). assert (Ho : orth n t) by exact (basis ca cb Hoff).
    assert (HC : neg C = vec n t (K * cos phi) (K * sin phi)) by (unfold n, t; rewrite (basis_C ca cb Hoff), Ecx, Esx; reflexivity).
    set (h := phi / 2). assert (Eh : phi = 2 * h) by (unfold h; field). assert (Hh : 0 < h < PI / 2) by (unfold h; lra).
    assert (Sh : 0 < sin h) by (apply sin_gt_0; lra). assert (Ch : 0 < cos h) by (apply cos_gt_0; lra).
    assert (E1 : cos h * cos h + sin h * sin h = 1) by (pose proof (sin2_cos2 h) as S; unfold Rsqr in S; lra).
    assert (Cp : cos phi = cos h * cos h - sin h * sin h) by (rewrite Eh, cos_2a; reflexivity).
    assert (Sp : sin phi = 2 * sin h * cos h) by (rewrite Eh, sin_2a; reflexivity).
    assert (Hg1 : cos h < 1) by nra. assert (Hk1 : sin h < 1) by nra.
    assert (K3 : 0 < K * K * K) by (apply Rmult_lt_0_compat; [nra | exact HK]).
    set (g := cos h) in *. set (k := sin h) in *.
    set (L := 2 * K * rho ca cb * (2 * K * k)).
    assert (HL : 0 < L) by (unfold L; pose proof (rho_pos ca cb Hoff); apply Rmult_lt_0_compat; [apply Rmult_lt_0_compat; lra | apply Rmult_lt_0_compat; lra]).
    set (p := pt C n t (- K) 0). set (q := pt C n t K 0). set (d := vscale L (vec n t g k)). set (a := pt C n t (K * g) (K * k)).
    assert (X2 : vx C + K = 2 * K * k * k) by (assert (vx C = - (K * cos phi)) as -> by lra; rewrite Cp; replace (g * g) with (1 - k * k) by lra; ring).
    assert (Y2 : rho ca cb = 2 * K * k * g) by (rewrite <- Esx, Sp; ring).
    assert (Q : forall f, query_intersect (S f) A B = gjk_loop f A B [ev p; ev q] (ev d)).
    { intro f. rewrite query_eval, (step0_eq ca cb ra rb HK Hoff), X2. destruct (Rlt_dec 0 (2 * K * k * k)) as [_ | Z]; [| exfalso; apply Z; repeat apply Rmult_lt_0_compat; lra].
      do 2 f_equal. unfold d, L. rewrite Y2. unfold n, t. apply V3_eq; simpl; ring. }
    assert (Dz : d <> vzero) by (apply (dot_pos_nz _ (vec n t g k)); unfold d; rewrite vdot_scale_l, vec_dot, E1 by exact Ho; lra).
    assert (Sa : sp C K d = a).
    { unfold sp, d. rewrite unit_pos; [| apply vec_unit; [exact Ho | exact E1] | exact HL]. apply V3_eq; unfold a; simpl; ring. }
    assert (No : orth (neg n) t) by (destruct Ho as [H1 [H2 H3]]; unfold orth, neg; rewrite !vdot_scale_l, !vdot_scale_r, H1, H2, H3; repeat split; ring).
    assert (NV : forall X Y, vec (neg n) t X Y = vec n t (- X) Y) by (intros; apply V3_eq; simpl; ring).
    assert (N1 : nab p q a = vscale (2 * (K * K * K) * (1 - g)) (vec n t (1 + g) k)) by exact (thales C K n t g k Ho E1).
    assert (N2 : nac p q a = vscale (2 * (K * K * K) * (1 + g)) (vec (neg n) t (1 + - g) k)).
    { rewrite nac_nab. pose proof (thales C K (neg n) t (- g) k No ltac:(lra)) as N. unfold p, q, a, pt in *. rewrite !NV in *.
      replace (- - K) with K in N by ring. replace (- (K * - g)) with (K * g) in N by ring. rewrite N. f_equal. ring. }
    set (x0 := K * cos phi) in *. set (y0 := K * sin phi) in *.
    assert (Na : neg a = vec n t (x0 - K * g) (y0 - K * k)) by exact (neg_pt C n t x0 y0 _ _ HC).
    assert (X0 : x0 = K * (1 - 2 * (k * k))) by (unfold x0; rewrite Cp; replace (g * g) with (1 - k * k) by lra; ring).
    assert (Y0 : y0 = K * (2 * (k * g))) by (unfold y0; rewrite Sp; ring).
    assert (GK : g * g = 1 - k * k) by lra.
    assert (Hbk : 0 < (1 + - g) * (- x0 - K * - g) + k * (y0 - K * k)).
    { rewrite X0, Y0. replace ((1 + - g) * (- (K * (1 - 2 * (k * k))) - K * - g) + k * (K * (2 * (k * g)) - K * k)) with (K * ((1 - g) * (g - 1 + 2 * (k * k)) + (k * k) * (2 * g - 1))) by ring.
      replace (k * k) with ((1 - g) * (1 + g)) by lra. 
      replace ((1 - g) * (g - 1 + 2 * ((1 - g) * (1 + g))) + (1 - g) * (1 + g) * (2 * g - 1)) with (2 * g * (1 - g)) by ring.
      apply Rmult_lt_0_compat; [exact HK |]. apply Rmult_lt_0_compat; lra. }
    assert (St : step C K p q d = inr (p, a, nac p q a)).
    { unfold step. rewrite Sa. destruct (Rlt_dec 0 (vdot a d)) as [_ | Z].
      2: { exfalso. apply Z. replace a with (neg (neg a)) by (apply V3_eq; simpl; ring). rewrite Na. unfold neg at 1, d. rewrite vdot_scale_l, vdot_scale_r, vec_dot by exact Ho.
           rewrite X0, Y0. replace (-1 * (L * ((K * (1 - 2 * (k * k)) - K * g) * g + (K * (2 * (k * g)) - K * k) * k))) with (L * K * (g * g + k * k - g)) by ring.
           rewrite E1. apply Rmult_lt_0_compat; [apply Rmult_lt_0_compat; lra | lra]. }
      destruct (Rlt_dec 0 (vdot (nab p q a) (neg a))) as [Z | _].
      { exfalso. rewrite N1, Na, vdot_scale_l, vec_dot in Z by exact Ho. rewrite X0, Y0 in Z.
        replace ((1 + g) * (K * (1 - 2 * (k * k)) - K * g) + k * (K * (2 * (k * g)) - K * k)) with (K * ((1 + g) * (1 - g) - (k * k) * 3)) in Z by ring.
        replace ((1 + g) * (1 - g)) with (k * k) in Z by lra.
        assert (0 < 2 * (K * K * K) * (1 - g)) by (apply Rmult_lt_0_compat; lra). assert (0 < K * (k * k)) by (apply Rmult_lt_0_compat; [lra | apply Rmult_lt_0_compat; lra]). nra. }
      destruct (Rlt_dec 0 (vdot (nac p q a) (neg a))) as [_ | Z]; [reflexivity |].
      exfalso. apply Z. rewrite N2, NV, Na, vdot_scale_l, vec_dot by exact Ho.
      apply Rmult_lt_0_compat; [apply Rmult_lt_0_compat; lra | lra]. }
    assert (HC' : neg C = vec (neg n) t (- x0) y0) by (rewrite NV, HC; f_equal; ring).
    assert (L2 : 0 < 2 * (K * K * K) * (1 + g)) by (apply Rmult_lt_0_compat; lra).
    pose proof (chord_st C K (neg n) t (- x0) y0 (- g) k _ No HC' ltac:(lra) Sh L2 Hbk) as Hst. cbv zeta in Hst.
    replace (pt C (neg n) t K 0) with p in Hst by (unfold p, pt; rewrite NV; reflexivity).
    replace (pt C (neg n) t (K * - g) (K * k)) with a in Hst by (unfold a, pt; rewrite NV; do 2 f_equal; ring).
    rewrite <- N2 in Hst.
    set (u := PI / 2 - phi / 4). assert (Hu : 0 <= u < PI / 2) by (unfold u; lra).
    assert (Ec : - g = cos (2 * u)) by (replace (2 * u) with (PI - h) by (unfold u, h; field); rewrite cos_minus, cos_PI, sin_PI; fold g; ring).
    assert (Es : k = sin (2 * u)) by (replace (2 * u) with (PI - h) by (unfold u, h; field); rewrite sin_PI_x; reflexivity).
    assert (F1 : hc (- g) = cos u) by (rewrite Ec; apply hc_cos, Hu).
    assert (F2 : hs (- g) k = sin u) by (rewrite Ec, Es; apply hs_sin, Hu).
    rewrite F1, F2 in Hst.
    exists p, a, (nac p q a), u. split; [unfold u; lra |]. split.
    2: { intro f. rewrite Q, loop_two, St by exact Dz. reflexivity. }
    assert (Th : u * ratio = u + phi - PI) by (unfold u, ratio; field; lra).
    exists (vec (neg n) t (cos u) (sin u)), (vec (neg n) t (sin u) (- cos u)). rewrite Th, cos_minus, sin_minus, cos_PI, sin_PI, cos_plus, sin_plus.
    replace (K * ((cos u * cos phi - sin u * sin phi) * -1 + (sin u * cos phi + cos u * sin phi) * 0)) with (cos u * - x0 + sin u * y0) by (unfold x0, y0; ring).
    replace (K * ((sin u * cos phi + cos u * sin phi) * -1 - (cos u * cos phi - sin u * sin phi) * 0)) with (sin u * - x0 - cos u * y0) by (unfold x0, y0; ring).
    exact Hst.
  Qed.
  Lemma touch_ends : dyadic ratio -> exists m, forall f, (m <= f)%nat -> query_intersect f A B = Done (Ok (Some false)).
  Proof.
    intros [m [n E0]]. destruct arc_start as [p [q [d [al [Ha [H Q]]]]]].
    destruct (tent_reach n ratio m ratio_range E0) as [k [_ [Ek Hj]]].
    exists (S (S (S k))). apply query_mono. rewrite Q. apply (arc_ends k al ratio); assumption.
  Qed.
  Lemma touch_never f : ~ dyadic ratio -> query_intersect f A B = OutOfFuel.
  Proof.
    intro Hn. destruct arc_start as [p [q [d [al [Ha [H Q]]]]]].
    destruct (query_total eps zs ca cb ra rb ea eb f) as [O | [b Hb]]; [exact O |].
    assert (Q2 : query_intersect (S (S f)) A B = Done (Ok (Some b))) by (apply (query_mono _ _ _ _ _ _ _ _ f); [exact Hb | lia]).
    rewrite Q, (arc_never f al ratio p q d Ha ratio_range Hn H) in Q2. discriminate Q2.
  Qed.
End Arc.
