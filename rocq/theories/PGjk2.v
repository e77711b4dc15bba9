(** PGjk2.v — plane geometry of the GJK iteration on two balls.  The search stays in the plane spanned by the x axis and
    the difference of the centres; from the third iteration on, the simplex is a chord of the Minkowski circle, the
    search direction is its outer normal, the origin lies beyond it, and the arc beyond it is halved each time. *)
From Coq Require Import Reals List ZArith NArith Bool Lra Lia Psatz Arith.
Import ListNotations.
From Verif Require Import SpecGeom SpecShape ExactFacts PShape PGeo1 PGeo2 PGjk1.
Local Open Scope R_scope.

Definition orth (n t : V3) : Prop := vdot n n = 1 /\ vdot t t = 1 /\ vdot n t = 0.
Definition vec (n t : V3) (x y : R) : V3 := vadd (vscale x n) (vscale y t).
Definition pt (C n t : V3) (x y : R) : V3 := vadd C (vec n t x y).

Lemma vec_dot n t x y x' y' : orth n t -> vdot (vec n t x y) (vec n t x' y') = x * x' + y * y'.
Proof.
  intros [H1 [H2 H3]].
  replace (vdot (vec n t x y) (vec n t x' y')) with (x * x' * vdot n n + (x * y' + y * x') * vdot n t + y * y' * vdot t t)
    by (unfold vdot, vec, vadd, vscale; simpl; ring). rewrite H1, H2, H3. ring.
Qed.
Lemma trip_eq u v w : trip u v w = vsub (vscale (vdot u w) v) (vscale (vdot v w) u).
Proof. apply V3_eq; unfold vdot; simpl; ring. Qed.
Lemma pt_sub C n t x y x' y' : vsub (pt C n t x y) (pt C n t x' y') = vec n t (x - x') (y - y').
Proof. apply V3_eq; simpl; ring. Qed.
Lemma trip_vec n t a b c d : orth n t -> trip (vec n t a b) (vec n t c d) (vec n t c d) =
  vec n t ((a * c + b * d) * c - (c * c + d * d) * a) ((a * c + b * d) * d - (c * c + d * d) * b).
Proof. intro H. rewrite trip_eq, !vec_dot by exact H. apply V3_eq; simpl; ring. Qed.
Lemma neg_pt C n t x y a b : neg C = vec n t x y -> neg (pt C n t a b) = vec n t (x - a) (y - b).
Proof.
  intro H. pose proof (f_equal vx H). pose proof (f_equal vy H). pose proof (f_equal vz H). simpl in *. apply V3_eq; simpl; lra.
Qed.
Lemma vec_rot n t c g : orth n t -> c * c + g * g = 1 -> orth (vec n t c g) (vec n t (- g) c).
Proof. intros H E. unfold orth. rewrite !vec_dot by exact H. repeat split; lra. Qed.
Lemma vec_vec n t c g x y : vec (vec n t c g) (vec n t (- g) c) x y = vec n t (c * x - g * y) (g * x + c * y).
Proof. apply V3_eq; simpl; ring. Qed.
Lemma vec_unit n t c g : orth n t -> c * c + g * g = 1 -> norm (vec n t c g) = 1.
Proof. intros H E. apply norm_val; [lra |]. rewrite vec_dot by exact H. lra. Qed.
Lemma unit_pos n l : norm n = 1 -> 0 < l -> unit (vscale l n) = n.
Proof.
  intros H Hl. unfold unit. rewrite norm_vscale, H, Rabs_pos_eq by lra.
  apply V3_eq; simpl; field; lra.
Qed.
Lemma flip n t : orth n t -> orth n (neg t).
Proof. intros [H1 [H2 H3]]. unfold orth, neg. rewrite !vdot_scale_r, vdot_scale_l, H1, H2, H3. repeat split; ring. Qed.
Lemma vec_flip n t x y : vec n (neg t) x y = vec n t x (- y).
Proof. apply V3_eq; simpl; ring. Qed.
Lemma dist_origin C n t x y : orth n t -> neg C = vec n t x y -> norm C * norm C = x * x + y * y.
Proof. intros H E. rewrite <- norm_neg, norm_sq, E. apply vec_dot, H. Qed.

(** a chord of the circle with centre [C] and radius [K] in the plane [n], [t]: half angle with cosine [k] and sine [s];
    outer normal [n]; the origin has coordinates [x], [y] from [C] and lies beyond the chord *)
Definition st (C : V3) (K : R) (n t : V3) (k s x y : R) (p q d : V3) : Prop :=
  orth n t /\ 0 <= k < 1 /\ 0 < s /\ k * k + s * s = 1 /\ neg C = vec n t x y /\
  p = pt C n t (K * k) (K * s) /\ q = pt C n t (K * k) (- (K * s)) /\
  (exists l, 0 < l /\ d = vscale l n) /\ K * k < x.

Lemma st_flip C K n t k s x y p q d : st C K n t k s x y p q d -> st C K n (neg t) k s x (- y) q p d.
Proof.
  intros [H1 [H2 [H3 [H4 [H5 [H6 [H7 [H8 H9]]]]]]]]. unfold st. split; [apply flip, H1 |]. split; [exact H2 |]. split; [exact H3 |]. split; [exact H4 |].
  split; [rewrite H5, vec_flip; f_equal; ring |]. split; [rewrite H7; unfold pt; rewrite vec_flip; reflexivity |].
  split; [rewrite H6; unfold pt; rewrite vec_flip; do 2 f_equal; ring |]. split; [exact H8 | exact H9].
Qed.

(** half angle *)
Definition hc (k : R) : R := sqrt ((1 + k) / 2).
Definition hs (k s : R) : R := s / (2 * hc k).
Lemma half_facts k s : -1 < k < 1 -> 0 < s -> k * k + s * s = 1 ->
  0 < hc k < 1 /\ 0 < hs k s /\ hc k * hc k = (1 + k) / 2 /\ hs k s * hs k s = (1 - k) / 2 /\ 2 * hc k * hs k s = s.
Proof.
  intros Hk Hs E. unfold hs. assert (H1 : hc k * hc k = (1 + k) / 2) by (unfold hc; apply sqrt_sqrt; lra).
  assert (H0 : 0 < hc k) by (unfold hc; apply sqrt_lt_R0; lra). set (c := hc k) in *.
  assert (G : 2 * c * (s / (2 * c)) = s) by (field; lra).
  split; [nra |]. split; [apply Rdiv_lt_0_compat; lra |]. split; [exact H1 |]. split; [| exact G].
  set (g := s / (2 * c)) in *. assert (4 * (c * c) * (g * g) = s * s) by (rewrite <- G; ring). rewrite H1 in H.
  assert ((1 + k) * (g * g) = (1 + k) * ((1 - k) / 2)) by nra. apply (Rmult_eq_reg_l (1 + k)); lra.
Qed.

Section Step.
  Variable C : V3.
  Variable K : R.
  Hypothesis HK : 0 < K.

  Lemma sp_chord n t l : orth n t -> 0 < l -> sp C K (vscale l n) = pt C n t K 0.
  Proof.
    intros H Hl. unfold sp. rewrite unit_pos; [| apply norm_val; [lra | destruct H; lra] | exact Hl]. apply V3_eq; simpl; ring.
  Qed.
  (** the normal of the side [q a], [a] the middle of the arc *)
  Lemma nab_chord n t k s : orth n t -> k * k + s * s = 1 ->
    nab (pt C n t (K * k) (K * s)) (pt C n t (K * k) (- (K * s))) (pt C n t K 0) = vscale (2 * (1 - k) * (K * K * K) * s) (vec n t s (- (1 - k))).
  Proof.
    intros H E. unfold nab. rewrite !pt_sub, trip_vec by exact H.
    assert (Es : s * s = 1 - k * k) by lra.
    replace (vscale (2 * (1 - k) * (K * K * K) * s) (vec n t s (- (1 - k))))
      with (vec n t (2 * (1 - k) * (K * K * K) * s * s) (- (2 * (1 - k) * (K * K * K) * s * (1 - k)))) by (apply V3_eq; simpl; ring).
    f_equal.
    - replace (((K * k - K) * (K * k - K) + (K * s - 0) * (- (K * s) - 0)) * (K * k - K) - ((K * k - K) * (K * k - K) + (- (K * s) - 0) * (- (K * s) - 0)) * (K * k - K))
        with (- 2 * (K * K * K) * (s * s) * (k - 1)) by ring. rewrite (Rmult_assoc (2 * (1 - k) * (K * K * K)) s s), Es. ring.
    - replace (((K * k - K) * (K * k - K) + (K * s - 0) * (- (K * s) - 0)) * (- (K * s) - 0) - ((K * k - K) * (K * k - K) + (- (K * s) - 0) * (- (K * s) - 0)) * (K * s - 0))
        with (- 2 * (K * K * K) * s * ((k - 1) * (k - 1))) by ring. ring.
  Qed.
  Lemma nac_nab p q a : nac p q a = nab q p a.
  Proof. reflexivity. Qed.

  (** the next chord, on the side of [q] *)
  Lemma next_ab n t k s x y p q d : st C K n t k s x y p q d -> 0 < s * (x - K) - (1 - k) * y ->
    let c := hc k in let g := hs k s in
    st C K (vec n t c (- g)) (vec n t (- g) (- c)) c g (c * x - g * y) (- (g * x + c * y)) q (sp C K d) (nab p q (sp C K d)).
  Proof.
    intros [Ho [Hk [Hs [E [HC [-> [-> [[l [Hl ->]] Hx]]]]]]]] Hb c g.
    destruct (half_facts k s ltac:(lra) Hs E) as [Hc [Hg [Ecc [Egg Ecg]]]]. fold c in Hc, Ecc, Ecg. fold g in Hg, Egg, Ecg.
    rewrite (sp_chord n t l Ho Hl), (nab_chord n t k s Ho E).
    assert (Ecs : c * c + g * g = 1) by lra.
    assert (Kc : c * c - g * g = k) by lra.
    assert (Ho' : orth (vec n t c (- g)) (vec n t (- g) (- c))) by (unfold orth; rewrite !vec_dot by exact Ho; repeat split; lra).
    assert (VV : forall X Y, vec (vec n t c (- g)) (vec n t (- g) (- c)) X Y = vec n t (c * X - g * Y) (- g * X - c * Y)) by (intros; apply V3_eq; simpl; ring).
    unfold st, pt. rewrite !VV. split; [exact Ho' |]. split; [lra |]. split; [lra |]. split; [lra |].
    split; [rewrite HC; f_equal; [transitivity ((c * c + g * g) * x); [rewrite Ecs |]; ring | transitivity ((c * c + g * g) * y); [rewrite Ecs |]; ring] |].
    split; [f_equal; f_equal; [transitivity (K * (c * c - g * g)); [rewrite Kc |]; ring | transitivity (- (K * (2 * c * g))); [rewrite Ecg |]; ring] |].
    split; [f_equal; f_equal; [transitivity (K * (c * c + g * g)); [rewrite Ecs |]; ring | ring] |].
    assert (Eh : vec n t s (- (1 - k)) = vscale (2 * g) (vec n t c (- g))).
    { replace (vscale (2 * g) (vec n t c (- g))) with (vec n t (2 * c * g) (- (2 * (g * g)))) by (apply V3_eq; simpl; ring). rewrite Ecg, Egg. f_equal. lra. }
    split.
    - exists (2 * (1 - k) * (K * K * K) * s * (2 * g)). split.
      + assert (0 < K * K * K) by (apply Rmult_lt_0_compat; [nra | exact HK]). repeat (apply Rmult_lt_0_compat; try lra).
      + rewrite Eh. apply V3_eq; simpl; ring.
    - assert (0 < 2 * g * (c * (x - K) - g * y)) by (replace (2 * g * (c * (x - K) - g * y)) with (2 * c * g * (x - K) - 2 * (g * g) * y) by ring; rewrite Ecg, Egg; lra).
      assert (0 < c * (x - K) - g * y) by nra. lra.
  Qed.
  Lemma next_ac n t k s x y p q d : st C K n t k s x y p q d -> 0 < s * (x - K) + (1 - k) * y ->
    let c := hc k in let g := hs k s in
    st C K (vec n t c g) (vec n t (- g) c) c g (c * x + g * y) (- g * x + c * y) p (sp C K d) (nac p q (sp C K d)).
  Proof.
    intros Hst Hb c g. pose proof (next_ab _ _ _ _ _ _ _ _ _ (st_flip _ _ _ _ _ _ _ _ _ _ _ Hst)) as N.
    specialize (N ltac:(lra)). cbv zeta in N. fold c in N. fold g in N. rewrite !vec_flip in N.
    replace (- - g) with g in N by ring. replace (- - c) with c in N by ring. replace (c * x - g * - y) with (c * x + g * y) in N by ring.
    replace (- (g * x + c * - y)) with (- g * x + c * y) in N by ring. exact N.
  Qed.
  Lemma step_st n t k s x y p q d : st C K n t k s x y p q d -> step C K p q d =
    if Rlt_dec x K then
      if Rlt_dec 0 (s * (x - K) - (1 - k) * y) then inr (q, sp C K d, nab p q (sp C K d))
      else if Rlt_dec 0 (s * (x - K) + (1 - k) * y) then inr (p, sp C K d, nac p q (sp C K d))
      else inl true
    else inl false.
  Proof.
    intros [Ho [Hk [Hs [E [HC [-> [-> [[l [Hl ->]] Hx]]]]]]]]. unfold step. rewrite (sp_chord n t l Ho Hl).
    assert (D1 : vdot (pt C n t K 0) (vscale l n) = l * (K - x)).
    { replace (vscale l n) with (vec n t l 0) by (apply V3_eq; simpl; ring).
      replace (pt C n t K 0) with (neg (neg (pt C n t K 0))) by (apply V3_eq; simpl; ring). rewrite (neg_pt C n t x y K 0 HC).
      unfold neg. rewrite vdot_scale_l, vec_dot by exact Ho. ring. }
    rewrite D1, nac_nab, (nab_chord n t k s Ho E), (neg_pt C n t x y K 0 HC), vdot_scale_l, vec_dot by exact Ho.
    assert (Nc : nab (pt C n t (K * k) (- (K * s))) (pt C n t (K * k) (K * s)) (pt C n t K 0) = vscale (2 * (1 - k) * (K * K * K) * s) (vec n t s (1 - k))).
    { pose proof (nab_chord n (neg t) k s (flip n t Ho) E) as N. unfold pt in N. rewrite !vec_flip in N. unfold pt.
      replace (- - (K * s)) with (K * s) in N by ring. replace (- 0) with 0 in N by ring. replace (- - (1 - k)) with (1 - k) in N by ring. exact N. }
    rewrite Nc, vdot_scale_l, vec_dot by exact Ho. set (L := 2 * (1 - k) * (K * K * K) * s).
    assert (HL : 0 < L) by (unfold L; assert (0 < K * K * K) by (apply Rmult_lt_0_compat; [nra | exact HK]); repeat (apply Rmult_lt_0_compat; try lra)).
    replace (L * (s * (x - K) + - (1 - k) * (y - 0))) with (L * (s * (x - K) - (1 - k) * y)) by ring.
    replace (L * (s * (x - K) + (1 - k) * (y - 0))) with (L * (s * (x - K) + (1 - k) * y)) by ring.
    assert (Sg : forall m z, 0 < m -> (0 < m * z <-> 0 < z)) by (intros m z Hm; split; intro; nra).
    assert (Ds : forall (T : Type) m z (u v : T), 0 < m -> (if Rlt_dec 0 (m * z) then u else v) = (if Rlt_dec 0 z then u else v)).
    { intros T m z u v Hm. pose proof (Sg m z Hm). destruct (Rlt_dec 0 (m * z)), (Rlt_dec 0 z); try reflexivity; exfalso; tauto. }
    rewrite !Ds by assumption. destruct (Rlt_dec 0 (K - x)), (Rlt_dec x K); try lra; reflexivity.
  Qed.
  (** the origin inside the triangle is inside the circle *)
  Lemma true_sound n t k s x y p q d : st C K n t k s x y p q d -> x < K -> s * (x - K) - (1 - k) * y <= 0 -> s * (x - K) + (1 - k) * y <= 0 -> norm C < K.
  Proof.
    intros [Ho [Hk [Hs [E [HC [_ [_ [_ Hx]]]]]]]] H1 H2 H3. pose proof (dist_origin C n t x y Ho HC) as Hd. pose proof (norm_pos C).
    assert (Y : (y * y) * ((1 - k) * (1 - k)) <= (s * (K - x)) * (s * (K - x))) by nra.
    assert (Es : s * s = (1 - k) * (1 + k)) by lra.
    assert (Y2 : y * y * (1 - k) <= (1 + k) * ((K - x) * (K - x))).
    { apply (Rmult_le_reg_l (1 - k)); [lra |]. replace ((1 - k) * ((1 + k) * ((K - x) * (K - x)))) with ((s * s) * ((K - x) * (K - x))) by (rewrite Es; ring). lra. }
    assert (Z : (1 + k) * (K - x) < (1 - k) * (K + x)) by nra.
    assert (Y3 : y * y * (1 - k) < (K * K - x * x) * (1 - k)) by nra.
    assert (y * y < K * K - x * x) by nra. nra.
  Qed.
  Lemma st_cos n t k s x y p q d : st C K n t k s x y p q d -> K * k < norm C.
  Proof.
    intros [Ho [Hk [Hs [E [HC [_ [_ [_ Hx]]]]]]]]. pose proof (dist_origin C n t x y Ho HC) as Hd. pose proof (norm_pos C). nra.
  Qed.
  Lemma halving k s : 0 <= k < 1 -> 0 < s -> k * k + s * s = 1 -> 1 - hc k <= (1 - k) / 2.
  Proof. intros H1 H2 H3. destruct (half_facts k s ltac:(lra) H2 H3) as [Hc [Hg [Ecc _]]]. nra. Qed.

  (** a small enough chord with the origin outside the circle is the last one *)
  Lemma st_y n t k s x y p q d : st C K n t k s x y p q d -> x < K -> norm C * norm C - K * K < y * y.
  Proof.
    intros [Ho [Hk [Hs [E [HC [_ [_ [_ Hx]]]]]]]] H. rewrite (dist_origin C n t x y Ho HC). assert (0 <= x) by nra. nra.
  Qed.
  Lemma small_chord k s x y T : 0 <= k < 1 -> 0 < s -> k * k + s * s = 1 -> K * k < x -> 0 < T -> T * T < y * y -> 0 < y -> 3 * K * hs k s <= T ->
    K <= hc k * x + hs k s * y.
  Proof.
    intros Hk Hs E Hx HT Hy Hy0 Hsm. destruct (half_facts k s ltac:(lra) Hs E) as [Hc [Hg [Ecc [Egg _]]]]. set (c := hc k) in *. set (g := hs k s) in *.
    assert (T < y) by nra. assert (K1 : k = 1 - 2 * (g * g)) by lra.
    assert (A1 : c * (K * k) <= c * x) by nra. assert (A2 : g * T <= g * y) by nra.
    assert (A3 : 3 * K * (g * g) <= g * T) by nra.
    assert (A4 : 1 - c <= g * g) by nra. assert (A5 : K * (1 - c) <= K * (g * g)) by nra.
    assert (A6 : c * K * (2 * (g * g)) <= 2 * K * (g * g)) by (assert (0 <= K * (g * g)) by (apply Rmult_le_pos; nra); nra).
    replace (c * (K * k)) with (c * K - c * K * (2 * (g * g))) in A1 by (rewrite K1; ring). lra.
  Qed.
End Step.
