(** PRing0.v — the ring of search directions around a contact point, over the reals (C109).
    P and Q are the last two support points, S the first one (almost the origin), NC the next direction. *)
From Coq Require Import Reals Lra Psatz.
From Flocq Require Import Core.Raux.
From Verif Require Import SpecGeom SpecRing PVec.
Local Open Scope R_scope.

Lemma bil (a b : R) : 609 / 1000 <= a <= 716 / 1000 -> 609 / 1000 <= b <= 716 / 1000 ->
  1682 / 10000 * (4 * b - a) + 45 / 1000 <= a * b /\ a * b <= 2964 / 10000 * (4 * b - a) - 720 / 10000 /\ 37 / 100 <= a * b <= 513 / 1000.
Proof. intros A B. repeat split; nra. Qed.
Lemma ratio (a b x n : R) : 609 / 1000 <= a <= 716 / 1000 -> 609 / 1000 <= b <= 716 / 1000 ->
  Rabs (x + a * b) <= 12 / 1000 -> Rabs (n - 2 * (a * b) * (4 * b - a)) <= 9 / 100 ->
  841 / 10000 * n <= x * x <= 1482 / 10000 * n.
Proof.
  intros A B X N. destruct (bil a b A B) as (L & U & T). set (t := a * b) in *. set (y := 4 * b - a) in *.
  assert (Y : 17 / 10 <= y <= 23 / 10) by (unfold y; lra). clearbody t y. apply Rabs_le_inv in X, N.
  assert (X1 : t - 12 / 1000 <= - x <= t + 12 / 1000) by lra. replace (x * x) with ((- x) * (- x)) by ring. set (z := - x) in *. clearbody z. clear X x A B.
  assert (Z1 : (t - 12 / 1000) * (t - 12 / 1000) <= z * z) by (apply Rmult_le_compat; lra).
  assert (Z2 : z * z <= (t + 12 / 1000) * (t + 12 / 1000)) by (apply Rmult_le_compat; lra). split.
  - assert (t * (1682 / 10000 * y + 45 / 1000) <= t * t) by (apply Rmult_le_compat_l; lra). lra.
  - assert (t * t <= t * (2964 / 10000 * y - 720 / 10000)) by (apply Rmult_le_compat_l; lra). lra.
Qed.
Lemma Rabs_mul x y p q : Rabs x <= p -> Rabs y <= q -> Rabs (x * y) <= p * q.
Proof. intros. rewrite Rabs_mult. apply Rmult_le_compat; try apply Rabs_pos; assumption. Qed.

(** the scalar part: U, V, W stand for u.u, v.v, u.v *)
Lemma scal (a b U V W s : R) : 609 / 1000 <= a <= 716 / 1000 -> 609 / 1000 <= b <= 716 / 1000 ->
  Rabs (U - 2 * b) <= / 100 -> Rabs (V - 2 * b) <= / 100 -> Rabs (W - (2 * b - a)) <= / 100 -> Rabs s <= / 1000 ->
  Rabs (W * (s - b) - U * (a - b) + a * b) <= 11 / 1000 /\ Rabs (U * (U * V - W * W) - 2 * (a * b) * (4 * b - a)) <= 85 / 1000.
Proof.
  intros A B HU HV HW Hs. set (e1 := U - 2 * b) in *. set (e2 := V - 2 * b) in *. set (e3 := W - (2 * b - a)) in *.
  replace U with (2 * b + e1) by (unfold e1; ring). replace V with (2 * b + e2) by (unfold e2; ring). replace W with (2 * b - a + e3) by (unfold e3; ring). clearbody e1 e2 e3.
  split.
  - replace ((2 * b - a + e3) * (s - b) - (2 * b + e1) * (a - b) + a * b) with ((2 * b - a) * s + e3 * (s - b) - e1 * (a - b)) by ring.
    assert (Rabs ((2 * b - a) * s) <= 83 / 100 * / 1000) by (apply Rabs_mul; [apply Rabs_le; lra | exact Hs]).
    assert (Rabs (e3 * (s - b)) <= / 100 * (72 / 100)) by (apply Rabs_mul; [exact HW | apply Rabs_le; apply Rabs_le_inv in Hs; lra]).
    assert (Rabs (e1 * (a - b)) <= / 100 * (11 / 100)) by (apply Rabs_mul; [exact HU | apply Rabs_le; lra]).
    apply Rabs_le_inv in H, H0, H1. apply Rabs_le. lra.
  - set (c := 2 * b - a). assert (C : 50 / 100 <= c <= 83 / 100) by (unfold c; lra).
    replace ((2 * b + e1) * ((2 * b + e1) * (2 * b + e2) - (c + e3) * (c + e3)) - 2 * (a * b) * (4 * b - a))
      with (e1 * ((2 * b + e1) * (2 * b + e2) - (c + e3) * (c + e3)) + 2 * b * (e1 * (2 * b + e2) + 2 * b * e2 - e3 * (2 * c + e3))) by (unfold c; ring).
    pose proof (Rabs_le_inv _ _ HU) as U'. pose proof (Rabs_le_inv _ _ HV) as V'. pose proof (Rabs_le_inv _ _ HW) as W'.
    assert (X1 : 120 / 100 * (120 / 100) <= (2 * b + e1) * (2 * b + e2) <= 1443 / 1000 * (1443 / 1000)) by (split; apply Rmult_le_compat; lra).
    assert (X2 : 48 / 100 * (48 / 100) <= (c + e3) * (c + e3) <= 84 / 100 * (84 / 100)) by (split; apply Rmult_le_compat; lra).
    assert (Y1 : Rabs (e1 * ((2 * b + e1) * (2 * b + e2) - (c + e3) * (c + e3))) <= / 100 * (186 / 100)) by (apply Rabs_mul; [exact HU | apply Rabs_le; lra]).
    assert (Y2 : Rabs (e1 * (2 * b + e2)) <= / 100 * (1443 / 1000)) by (apply Rabs_mul; [exact HU | apply Rabs_le; lra]).
    assert (Y3 : Rabs (2 * b * e2) <= 1432 / 1000 * / 100) by (apply Rabs_mul; [apply Rabs_le; lra | exact HV]).
    assert (Y4 : Rabs (e3 * (2 * c + e3)) <= / 100 * (167 / 100)) by (apply Rabs_mul; [exact HW | apply Rabs_le; lra]).
    assert (Y5 : Rabs (2 * b * (e1 * (2 * b + e2) + 2 * b * e2 - e3 * (2 * c + e3))) <= 1432 / 1000 * (455 / 10000)).
    { apply Rabs_mul; [apply Rabs_le; lra |]. apply Rabs_le_inv in Y2, Y3, Y4. apply Rabs_le. lra. }
    apply Rabs_le_inv in Y1, Y5. apply Rabs_le. lra.
Qed.

(** the vector part: u = S - P, v = Q - P *)
Lemma abs_sqr_le (x m : R) : 0 <= m -> x * x <= m * m -> - m <= x <= m.
Proof. intros. split; nra. Qed.
Lemma comp_le (w : V3) (m k : R) : 0 <= m -> vdot w w <= k -> k <= m * m -> Rabs (vx w) <= m /\ Rabs (vy w) <= m /\ Rabs (vz w) <= m.
Proof.
  intros M H K. destruct w as [x y z]. unfold vdot in H. cbn [vx vy vz] in *.
  pose proof (Rle_0_sqr x) as X. pose proof (Rle_0_sqr y) as Y. pose proof (Rle_0_sqr z) as Z. unfold Rsqr in *.
  repeat split; apply Rabs_le, abs_sqr_le; lra.
Qed.
Lemma dot3 (u w : V3) (m k : R) : Rabs (vx u) <= m -> Rabs (vy u) <= m -> Rabs (vz u) <= m -> Rabs (vx w) <= k -> Rabs (vy w) <= k -> Rabs (vz w) <= k ->
  Rabs (vdot u w) <= 3 * (m * k).
Proof.
  intros A B C D E F. unfold vdot. pose proof (Rabs_mul _ _ _ _ A D) as X. pose proof (Rabs_mul _ _ _ _ B E) as Y. pose proof (Rabs_mul _ _ _ _ C F) as Z.
  apply Rabs_le_inv in X, Y, Z. apply Rabs_le. lra.
Qed.
Definition within (e : R) (u v : V3) : Prop := Rabs (vx u - vx v) <= e /\ Rabs (vy u - vy v) <= e /\ Rabs (vz u - vz v) <= e.
Lemma turn (P Q S D : V3) (L : R) : let u := vsub S P in let v := vsub Q P in
  609 / 1000 <= vx Q <= 716 / 1000 -> 609 / 1000 <= vx P <= 716 / 1000 ->
  Rabs (vdot P P - 2 * vx P) <= / 400 -> Rabs (vdot Q Q - 2 * vx Q) <= / 400 -> Rabs (vdot P Q - vx Q) <= / 400 ->
  0 < L -> L <= vx S <= / 1000 -> Rabs (vy S) <= L / 64 -> Rabs (vz S) <= L / 64 ->
  within (/ 50000) D (vcross (vcross v u) u) ->
  1 <= vdot D D <= 3 /\ vx D <= 0 /\ Rabs (vdot D P) <= / 1000 /\
  841 / 10000 * vdot D D <= vx D * vx D <= 1482 / 10000 * vdot D D /\
  vdot (vcross (vcross v u) u) P <= - (L / 4) /\ / 2 <= vdot (vcross (vcross u v) v) P /\
  (Rabs (vx u) <= 2 /\ Rabs (vy u) <= 2 /\ Rabs (vz u) <= 2) /\ (Rabs (vx v) <= 2 /\ Rabs (vy v) <= 2 /\ Rabs (vz v) <= 2) /\
  (let m := vcross (vcross u v) v in Rabs (vx m) <= 19 / 10 /\ Rabs (vy m) <= 19 / 10 /\ Rabs (vz m) <= 19 / 10).
Proof.
  intros u v HQ HP HN HM HB L0 Sx Sy Sz HD.
  set (a := vx Q) in *. set (b := vx P) in *.
  assert (NP : vdot P P <= 1435 / 1000) by (apply Rabs_le_inv in HN; lra).
  assert (NQ : vdot Q Q <= 1435 / 1000) by (apply Rabs_le_inv in HM; lra).
  destruct (comp_le P (12 / 10) _ ltac:(lra) NP ltac:(lra)) as (P0 & P1 & P2). destruct (comp_le Q (12 / 10) _ ltac:(lra) NQ ltac:(lra)) as (Q0 & Q1 & Q2).
  assert (S0 : Rabs (vx S) <= / 1000) by (apply Rabs_le; lra). assert (S1 : Rabs (vy S) <= / 64000) by lra. assert (S2 : Rabs (vz S) <= / 64000) by lra.
  assert (S1' : Rabs (vy S) <= / 1000) by lra. assert (S2' : Rabs (vz S) <= / 1000) by lra.
  assert (DS : forall w, Rabs (vx w) <= 716 / 1000 -> Rabs (vy w) <= 12 / 10 -> Rabs (vz w) <= 12 / 10 -> Rabs (vdot w S) <= / 1200).
  { intros w W0 W1 W2. pose proof (Rabs_mul _ _ _ _ W0 S0) as R0. pose proof (Rabs_mul _ _ _ _ W1 S1) as R1. pose proof (Rabs_mul _ _ _ _ W2 S2) as R2. apply Rabs_le_inv in R0, R1, R2. unfold vdot. apply Rabs_le. lra. }
  pose proof (DS P ltac:(change (vx P) with b; apply Rabs_le; lra) P1 P2) as PS. pose proof (DS Q ltac:(change (vx Q) with a; apply Rabs_le; lra) Q1 Q2) as QS. pose proof (dot3 S S _ _ S0 S1' S2' S0 S1' S2') as SS.
  apply Rabs_le_inv in PS, QS, SS.
  assert (EU : vdot u u = vdot P P - 2 * vdot P S + vdot S S) by (unfold u, vdot, vsub; cbn; ring).
  assert (EV : vdot v v = vdot Q Q - 2 * vdot P Q + vdot P P) by (unfold v, vdot, vsub; cbn; ring).
  assert (EW : vdot u v = vdot Q S - vdot P S - vdot P Q + vdot P P) by (unfold u, v, vdot, vsub; cbn; ring).
  apply Rabs_le_inv in HN, HM, HB.
  assert (BU : Rabs (vdot u u - 2 * b) <= / 100) by (rewrite EU; apply Rabs_le; lra).
  assert (BV : Rabs (vdot v v - 2 * b) <= / 100) by (rewrite EV; apply Rabs_le; lra).
  assert (BW : Rabs (vdot u v - (2 * b - a)) <= / 100) by (rewrite EW; apply Rabs_le; lra).
  destruct (scal a b _ _ _ (vx S) HQ HP BU BV BW ltac:(lra)) as (X1 & X2).
  set (n := vcross (vcross v u) u) in *. set (m := vcross (vcross u v) v) in *.
  assert (Nx : vx n = vdot u v * (vx S - b) - vdot u u * (a - b)) by (unfold n, u, v, a, b, vdot, vcross, vsub; cbn; ring).
  assert (NN : vdot n n = vdot u u * (vdot u u * vdot v v - vdot u v * vdot u v)) by (unfold n, vdot, vcross; cbn; ring).
  assert (Nu : vdot n u = 0) by (unfold n, vdot, vcross; cbn; ring).
  assert (NPS : vdot n P = vdot n S - vdot n u) by (unfold u, vdot, vsub; cbn; ring).
  assert (Mu : vdot m u = vdot u v * vdot u v - vdot u u * vdot v v) by (unfold m, vdot, vcross; cbn; ring).
  assert (MPS : vdot m P = vdot m S - vdot m u) by (unfold u, vdot, vsub; cbn; ring).
  assert (MM : vdot m m = vdot v v * (vdot u u * vdot v v - vdot u v * vdot u v)) by (unfold m, vdot, vcross; cbn; ring).
  rewrite <- Nx in X1. rewrite <- NN in X2. clearbody n m. destruct (bil a b HQ HP) as (_ & _ & T).
  assert (Y : 17 / 10 <= 4 * b - a <= 23 / 10) by lra.
  assert (T2 : 37 / 100 * (17 / 10) <= (a * b) * (4 * b - a) <= 513 / 1000 * (23 / 10)) by (split; apply Rmult_le_compat; lra).
  apply Rabs_le_inv in X1, X2, BU, BV, BW.
  assert (GU : 120 / 100 <= vdot u u <= 1443 / 1000) by lra. assert (GV : 120 / 100 <= vdot v v <= 1443 / 1000) by lra.
  assert (GW : 48 / 100 <= vdot u v <= 84 / 100) by lra.
  assert (Z1 : 120 / 100 * (120 / 100) <= vdot u u * vdot v v <= 1443 / 1000 * (1443 / 1000)) by (split; apply Rmult_le_compat; lra).
  assert (Z2 : 48 / 100 * (48 / 100) <= vdot u v * vdot u v <= 84 / 100 * (84 / 100)) by (split; apply Rmult_le_compat; lra).
  assert (MB : vdot m m <= 3).
  { rewrite MM. apply Rle_trans with (1443 / 1000 * (186 / 100)); [apply Rmult_le_compat; lra | lra]. }
  assert (NB : vdot n n <= 3) by lra.
  destruct (comp_le n (18 / 10) _ ltac:(lra) NB ltac:(lra)) as (n0 & n1 & n2). destruct (comp_le m (18 / 10) _ ltac:(lra) MB ltac:(lra)) as (m0 & m1 & m2).
  destruct (comp_le u 2 _ ltac:(lra) (proj2 GU) ltac:(lra)) as (u0 & u1 & u2). destruct (comp_le v 2 _ ltac:(lra) (proj2 GV) ltac:(lra)) as (v0 & v1 & v2).
  pose proof (dot3 m S _ _ m0 m1 m2 S0 S1' S2') as MS. apply Rabs_le_inv in MS.
  assert (NS : vdot n S <= - (L / 4)).
  { unfold vdot. pose proof (Rabs_mul _ _ _ _ n1 Sy) as R1. pose proof (Rabs_mul _ _ _ _ n2 Sz) as R2. apply Rabs_le_inv in R1, R2.
    assert (vx n * vx S <= - (358 / 1000) * L) by (assert ((358 / 1000) * L <= (- vx n) * vx S) by (apply Rmult_le_compat; lra); lra). lra. }
  assert (NS2 : Rabs (vdot n S) <= / 1500).
  { assert (n0' : Rabs (vx n) <= 525 / 1000) by (apply Rabs_le; lra). pose proof (Rabs_mul _ _ _ _ n1 S1) as R1. pose proof (Rabs_mul _ _ _ _ n2 S2) as R2. pose proof (Rabs_mul _ _ _ _ n0' S0) as R0. apply Rabs_le_inv in R0, R1, R2. unfold vdot. apply Rabs_le. lra. }
  destruct HD as (D0 & D1 & D2).
  set (f := vsub D n). assert (ED : D = vadd n f) by (destruct D, n; unfold f, vadd, vsub; cbn; f_equal; ring).
  change (vx D - vx n) with (vx f) in D0. change (vy D - vy n) with (vy f) in D1. change (vz D - vz n) with (vz f) in D2. clearbody f. subst D.
  pose proof (dot3 n f _ _ n0 n1 n2 D0 D1 D2) as NF. pose proof (dot3 f f _ _ D0 D1 D2 D0 D1 D2) as FF. pose proof (dot3 f P _ _ D0 D1 D2 P0 P1 P2) as FP.
  assert (EDD : vdot (vadd n f) (vadd n f) = vdot n n + 2 * vdot n f + vdot f f) by (unfold vdot, vadd; cbn; ring).
  assert (EDP : vdot (vadd n f) P = vdot n P + vdot f P) by (unfold vdot, vadd; cbn; ring).
  apply Rabs_le_inv in NF, FF, FP, NS2.
  split; [| split; [| split; [| split; [| split; [| split; [| split; [| split]]]]]]].
  - lra.
  - unfold vadd; cbn [vx]. apply Rabs_le_inv in D0. lra.
  - rewrite EDP, NPS, Nu. apply Rabs_le. lra.
  - apply (ratio a b); [assumption .. | |].
    + unfold vadd; cbn [vx]. apply Rabs_le_inv in D0. apply Rabs_le. lra.
    + rewrite EDD. apply Rabs_le. lra.
  - rewrite NPS, Nu. lra.
  - rewrite MPS, Mu. lra.
  - auto.
  - auto.
  - repeat split; lra.
Qed.

(** the next support point, from the direction [d] and the last point [q]; [c] is the difference of the centres *)
Lemma land (c q d P : V3) : in_ring q d -> 1 <= vx c <= 1 + / 1000 -> Rabs (vy c) <= / 50000 -> Rabs (vz c) <= / 50000 ->
  within (/ 50000) P (vadd c (vscale (/ norm d) d)) ->
  610 / 1000 <= vx P <= 715 / 1000 /\ Rabs (vdot P P - 2 * vx P) <= / 500 /\ Rabs (vdot P q - vx q) <= / 450 /\ / 2 <= vdot P d /\
  (Rabs (vx P) <= 12 / 10 /\ Rabs (vy P) <= 12 / 10 /\ Rabs (vz P) <= 12 / 10) /\ (Rabs (vx q) <= 12 / 10 /\ Rabs (vy q) <= 12 / 10 /\ Rabs (vz q) <= 12 / 10).
Proof.
  intros (Q & N & (D1 & _) & Dx & DQ & W) C Cy Cz HP. set (m := norm d) in *.
  assert (M2 : m * m = vdot d d) by (unfold m, norm; apply sqrt_def; lra). assert (M0 : 0 <= m) by apply sqrt_pos. assert (M1 : 1 <= m) by nra.
  set (n := vscale (/ m) d) in *. assert (ED : d = vscale m n) by (destruct d; unfold n, vscale; cbn; f_equal; field; lra).
  assert (N1 : vdot n n = 1). { apply Rmult_eq_reg_l with (m * m); [| nra]. rewrite Rmult_1_r. transitivity (vdot (vscale m n) (vscale m n)); [unfold vdot, vscale; cbn; ring | rewrite <- ED; symmetry; exact M2]. }
  clearbody n. clearbody m. subst d.
  assert (DD : vdot (vscale m n) (vscale m n) = m * m) by (rewrite M2; reflexivity). rewrite DD in W. cbn [vscale vx] in Dx, W.
  assert (Nx : - (385 / 1000) <= vx n <= - (290 / 1000)).
  { assert (vx n <= 0) by nra. assert (841 / 10000 <= vx n * vx n <= 1482 / 10000) by (clear - W M1; assert (0 < m * m) by nra; split; apply (Rmult_le_reg_l (m * m)); lra). split; nra. }
  assert (NQ : Rabs (vdot n q) <= / 1000).
  { replace (vdot (vscale m n) q) with (m * vdot n q) in DQ by (unfold vdot, vscale; cbn; ring). rewrite Rabs_mult, (Rabs_pos_eq m M0) in DQ.
    pose proof (Rabs_pos (vdot n q)). nra. }
  clear W Dx D1 M2 DD DQ.
  assert (q2 : vdot q q <= 1432 / 1000 + / 500) by (apply Rabs_le_inv in N; lra).
  destruct (comp_le q (12 / 10) _ ltac:(lra) q2 ltac:(lra)) as (Q0 & Q1 & Q2). destruct (comp_le n 1 1 ltac:(lra) ltac:(lra) ltac:(lra)) as (n0 & n1 & n2).
  destruct HP as (E0 & E1 & E2). set (w := vadd c n) in *.
  set (e := vsub P w). assert (EP : P = vadd w e) by (destruct P, w; unfold e, vadd, vsub; cbn; f_equal; ring).
  change (vx P - vx w) with (vx e) in E0. change (vy P - vy w) with (vy e) in E1. change (vz P - vz w) with (vz e) in E2. clearbody e. subst P.
  set (g := vx c - 1). set (h := V g (vy c) (vz c)). set (i := V 1 0 0). assert (EC : c = vadd i h) by (destruct c; unfold i, h, g, vadd; cbn; f_equal; ring).
  assert (G : 0 <= g <= / 1000) by (unfold g; lra). assert (H0 : Rabs (vx h) <= / 1000) by (cbn; apply Rabs_le; lra).
  assert (H1 : Rabs (vy h) <= / 50000) by exact Cy. assert (H2 : Rabs (vz h) <= / 50000) by exact Cz. clearbody g.
  assert (H1' : Rabs (vy h) <= / 1000) by lra. assert (H2' : Rabs (vz h) <= / 1000) by lra.
  pose proof (dot3 h q _ _ H0 H1' H2' Q0 Q1 Q2) as HQ. pose proof (dot3 h h _ _ H0 H1' H2' H0 H1' H2') as HH.
  pose proof (dot3 e q _ _ E0 E1 E2 Q0 Q1 Q2) as EQ. pose proof (dot3 e n _ _ E0 E1 E2 n0 n1 n2) as EN. pose proof (dot3 e e _ _ E0 E1 E2 E0 E1 E2) as EE. pose proof (dot3 e h _ _ E0 E1 E2 H0 H1' H2') as EH.
  assert (HN : Rabs (vdot h n) <= / 2000).
  { unfold vdot. assert (n0' : Rabs (vx n) <= 385 / 1000) by (apply Rabs_le; lra). pose proof (Rabs_mul _ _ _ _ H0 n0') as A. pose proof (Rabs_mul _ _ _ _ H1 n1) as B. pose proof (Rabs_mul _ _ _ _ H2 n2) as D.
    apply Rabs_le_inv in A, B, D. apply Rabs_le. lra. }
  assert (HQ' : Rabs (vdot h q) <= / 1300).
  { unfold vdot. assert (q0 : Rabs (vx q) <= 715 / 1000) by (apply Rabs_le; lra). pose proof (Rabs_mul _ _ _ _ H0 q0) as A. pose proof (Rabs_mul _ _ _ _ H1 Q1) as B. pose proof (Rabs_mul _ _ _ _ H2 Q2) as D.
    apply Rabs_le_inv in A, B, D. apply Rabs_le. lra. }
  assert (EI : vdot i n = vx n) by (unfold vdot, i; cbn; ring). assert (EIq : vdot i q = vx q) by (unfold vdot, i; cbn; ring). assert (EIe : vdot i e = vx e) by (unfold vdot, i; cbn; ring).
  assert (EIh : vdot i h = g) by (unfold vdot, i, h; cbn; ring). assert (EII : vdot i i = 1) by (unfold vdot, i; cbn; ring).
  assert (PP : vdot (vadd w e) (vadd w e) = vdot i i + vdot h h + vdot n n + vdot e e + 2 * (vdot i h + vdot i n + vdot i e + vdot h n + vdot e h + vdot e n)) by (unfold w; rewrite EC; unfold vdot, vadd; cbn; ring).
  assert (PX : vx (vadd w e) = 1 + g + vx n + vx e) by (unfold w; rewrite EC; unfold vadd; cbn; ring).
  assert (Pq : vdot (vadd w e) q = vdot i q + vdot h q + vdot n q + vdot e q) by (unfold w; rewrite EC; unfold vdot, vadd; cbn; ring).
  assert (Pn : vdot (vadd w e) n = vdot i n + vdot h n + vdot n n + vdot e n) by (unfold w; rewrite EC; unfold vdot, vadd; cbn; ring).
  assert (Pd : vdot (vadd w e) (vscale m n) = m * vdot (vadd w e) n) by (unfold vdot, vscale; cbn; ring).
  apply Rabs_le_inv in NQ, HH, EQ, EN, EE, EH, HN, HQ'. rewrite EI, EIe, EIh, EII, N1 in PP. rewrite EIq in Pq. rewrite EI, N1 in Pn.
  pose proof (Rabs_le_inv _ _ E0) as F0.
  assert (PPB : Rabs (vdot (vadd w e) (vadd w e) - 2 * vx (vadd w e)) <= / 500) by (rewrite PP, PX; apply Rabs_le; lra).
  assert (PXB : 610 / 1000 <= vx (vadd w e) <= 715 / 1000) by (rewrite PX; lra).
  split; [exact PXB |]. split; [exact PPB |]. split; [rewrite Pq; apply Rabs_le; lra |]. split.
  - rewrite Pd. apply Rle_trans with (1 * (6 / 10)); [lra | apply Rmult_le_compat; lra].
  - split; [| repeat split; lra]. apply Rabs_le_inv in PPB. apply (comp_le _ (12 / 10) (144 / 100)); lra.
Qed.
