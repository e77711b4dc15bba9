(** PropertiesFr.v — C84 (ray and plane), C85 and C86 (ray and sphere) in every IEEE format. *)
From Coq Require Import Reals List ZArith NArith Bool Lra Lia Psatz.
From Flocq Require Import Core BinarySingleNaN.
Import ListNotations.
From Verif Require Import Base Num Vec Mat Bound Shape Intersect Float Exact FloatFacts Order SpecMat SpecGeom SpecBound SpecCtor SpecBuild
  SpecShape SpecRound SpecFr ExactFacts PShape PBuild PIeee1 PIeee2 PIeee3 PIeee5.
Local Open Scope R_scope.

Section Ieee.
Context (prec emax : Z) {Hp : Prec_gt_0 prec} {Hm : Prec_lt_emax prec emax} (lm : libm (binary_float prec emax)).
Notation F := (@Ieee prec emax Hp Hm lm).
Notation bf := (binary_float prec emax).
Notation fin x := (is_finite (x : bf) = true).
Notation fin3 p := (SpecBuild.fin3 (p : mat3x1 bf)).
Notation moderate p := (SpecBuild.moderate (p : mat3x1 bf)).
Notation good_normal p := (SpecBuild.good_normal (p : mat3x1 bf)).
Notation v3 p := (SpecBuild.v3 (p : mat3x1 bf)).
Notation B2R x := (B2R (x : bf)).
Notation u := (uro prec).
Notation et := (eta prec emax).

(** ---- C84: ray and plane ---- *)
Theorem C84_decision (o d : mat3x1 F) e (p n : mat3x1 F) f (a b : shape F) : (9 < prec)%Z -> moderate o -> good_normal d ->
  moderate p -> good_normal n -> mk_ray o d e a -> mk_plane p n f b ->
  let s := vdot (s_unit (v3 n)) (vsub (v3 p) (v3 o)) in let c := vdot (s_unit (v3 n)) (s_unit (v3 d)) in
  let E := 13 * u * (norm (v3 o) + norm (v3 p)) + 13 * et in
  (c < - (21 * u) -> s <= - E -> exists q, shape_get_intersect a b = Ok (true, Some q)) /\
  (c < - (21 * u) -> E <= s -> shape_get_intersect a b = Ok (false, None)) /\
  (21 * u < c -> shape_get_intersect a b = Ok (false, None)).
Proof.
  intros P Mo Gd Mp Gn Ma Mb. destruct (ray_plane_ieee prec emax lm o d e p n f a b P Mo Gd Mp Gn Ma Mb) as [A [B [C _]]].
  exact (conj A (conj B C)).
Qed.
Theorem C84_location (o d : mat3x1 F) e (p n : mat3x1 F) f (a b : shape F) : (9 < prec)%Z -> moderate o -> good_normal d ->
  moderate p -> good_normal n -> mk_ray o d e a -> mk_plane p n f b ->
  let s := vdot (s_unit (v3 n)) (vsub (v3 p) (v3 o)) in let c := vdot (s_unit (v3 n)) (s_unit (v3 d)) in
  let E := 13 * u * (norm (v3 o) + norm (v3 p)) + 13 * et in
  c <= - (42 * u) -> s <= - E -> s / c <= bpow radix2 (emax / 2) ->
  exists q, shape_get_intersect a b = Ok (true, Some q) /\ fin3 q /\
    dist (v3 q) (ray_at (v3 o) (v3 d) (s / c)) <= (3 * E + 57 * u * (s / c)) / - c.
Proof.
  intros P Mo Gd Mp Gn Ma Mb. exact (proj2 (proj2 (proj2 (ray_plane_ieee prec emax lm o d e p n f a b P Mo Gd Mp Gn Ma Mb)))).
Qed.
(** ---- C85: ray and sphere ---- *)
Theorem C85_decision (o d : mat3x1 F) e (c : mat3x1 F) (r : F) f (a z : shape F) : (9 < prec)%Z -> moderate o -> good_normal d ->
  moderate c -> fin r -> 0 <= B2R r <= bpow radix2 (emax / 2 - 3) -> mk_ray o d e a -> mk_sphere c r f z ->
  let M := dist (v3 o) (v3 c) * dist (v3 o) (v3 c) + B2R r * B2R r in
  let D := ray_disc (v3 o) (v3 d) (v3 c) (B2R r) in
  (38 * u * M + 20 * et <= D ->
     ray_b (v3 o) (v3 d) (v3 c) <= - (13 * u * dist (v3 o) (v3 c) + 4 * et) \/ ray_c (v3 o) (v3 c) (B2R r) <= - (7 * u * M + 6 * et) ->
     exists p, shape_get_intersect a z = Ok (true, Some p)) /\
  (D < - (38 * u * M + 20 * et) -> shape_get_intersect a z = Ok (false, None)) /\
  (13 * u * dist (v3 o) (v3 c) + 4 * et < ray_b (v3 o) (v3 d) (v3 c) -> 7 * u * M + 6 * et < ray_c (v3 o) (v3 c) (B2R r) ->
     shape_get_intersect a z = Ok (false, None)).
Proof.
  intros P Mo Gd Mc Fr Lr Ma Mz M D. subst M. unfold dist. rewrite norm_sq.
  assert (Br : PIeee2.bnd prec emax (emax / 2 - 3) r) by (split; [exact Fr | rewrite Rabs_pos_eq by apply Lr; apply Lr]).
  exact (ray_sphere_ieee prec emax lm o d e c r f a z P Mo Gd Mc Br (proj1 Lr) Ma Mz).
Qed.
(** ---- C86: where the ray hits the sphere; no margin ---- *)
Theorem C86_location (o d : mat3x1 F) e (c : mat3x1 F) (r : F) f (a z : shape F) p : (9 < prec)%Z -> moderate o -> good_normal d ->
  moderate c -> fin r -> Rabs (B2R r) <= bpow radix2 (emax / 2 - 3) -> mk_ray o d e a -> mk_sphere c r f z ->
  shape_get_intersect a z = Ok (true, Some p) ->
  let n := dist (v3 o) (v3 c) in let M := n * n + B2R r * B2R r in
  fin3 p /\ exists t, - (3 * u * n + 3 * sqrt et) <= t /\ let x := ray_at (v3 o) (v3 d) t in
    Rabs (dist x (v3 c) * dist x (v3 c) - B2R r * B2R r) <= 80 * u * M + 30 * et /\
    dist (v3 p) x <= 11 * u * Rabs t + u * norm (v3 o) + 3 * et.
Proof.
  intros P Mo Gd Mc Fr Lr. exact (ray_sphere_loc prec emax lm o d e c r f a z p P Mo Gd Mc (conj Fr Lr)).
Qed.
End Ieee.
Print Assumptions C84_decision.
Print Assumptions C84_location.
Print Assumptions C85_decision.
Print Assumptions C86_location.

(** ---- what the real numbers above mean ---- *)
(** the point at distance s / c lies on the plane, and is the only such point of the line *)
Theorem C84_reference o d p n t : d <> vzero -> n <> vzero -> let s := vdot (s_unit n) (vsub p o) in let c := vdot (s_unit n) (s_unit d) in
  c <> 0 -> (s_plane p n (ray_at o d t) <-> t = s / c).
Proof.
  intros Nd Nn s c Hc. pose proof (norm_nz n Nn) as Pn.
  assert (K : vdot n (vsub (ray_at o d t) p) = norm n * (t * c - s)).
  { unfold c, s, ray_at, s_unit, vdot, vsub, vadd, vscale. cbn [vx vy vz]. field. pose proof (norm_nz d Nd); split; lra. }
  unfold s_plane. rewrite K. split; intro H.
  - apply Rmult_integral in H. destruct H as [H | H]; [lra |]. apply (Rmult_eq_reg_r c); [| exact Hc]. unfold Rdiv. rewrite Rmult_assoc, Rinv_l by exact Hc. lra.
  - subst t. replace (s / c * c - s) with 0 by (field; exact Hc). ring.
Qed.
(** the ray meets the ball exactly when the discriminant is not negative and the ball is not behind *)
Theorem C85_reference o d c r : 0 <= r -> d <> vzero ->
  ((exists x, s_ray o d x /\ s_ball c r x) <-> 0 <= ray_disc o d c r /\ (ray_b o d c <= 0 \/ ray_c o c r <= 0)).
Proof.
  intros Pr Nd. split.
  - intros [x [[t [Ht ->]] Hx]]. unfold s_ball in Hx. pose proof (norm_nz d Nd) as Pd. set (T := t * norm d). assert (T0 : 0 <= T) by (apply Rmult_le_pos; lra).
    assert (X : dist (vadd o (vscale t d)) c * dist (vadd o (vscale t d)) c = T * T + 2 * T * ray_b o d c + (ray_c o c r + r * r)).
    { unfold dist. rewrite norm_sq. unfold ray_b, ray_c, s_unit, T. pose proof (norm_sq d) as NQ.
      replace (t * norm d * (t * norm d)) with (t * t * (norm d * norm d)) by ring. rewrite NQ. unfold vdot, vsub, vadd, vscale. cbn [vx vy vz]. field. lra. }
    assert (Q : dist (vadd o (vscale t d)) c * dist (vadd o (vscale t d)) c <= r * r) by (apply Rmult_le_compat; try assumption; apply norm_pos).
    rewrite X in Q. unfold ray_disc. set (b := ray_b o d c) in *. set (k := ray_c o c r) in *. split; [pose proof (Rle_0_sqr (T + b)) as Z; unfold Rsqr in Z; lra |].
    destruct (Rle_or_lt b 0) as [H | H]; [left; exact H | right; nra].
  - intros [HD HB]. exact (ray_ball_point o d c r Pr Nd HD HB).
Qed.
Print Assumptions C84_reference.
Print Assumptions C85_reference.

(** ---- the hypotheses can be met: a ray down the z axis from height 4, the plane z = 0, the unit ball ---- *)
Section Case.
  Variable lm : libm f64.
  Notation F := (F64 lm).
  Notation val := (@B2R 53 1024).
  Definition r_o : mat3x1 F := M3x1 (A3 n0 n0 (nlit F 4 1)).
  Definition r_d : mat3x1 F := M3x1 (A3 n0 n0 (nlit F (-2) 1)).
  Definition r_n : mat3x1 F := M3x1 (A3 n0 n0 (nlit F 2 1)).
  Definition r_p : mat3x1 F := M3x1 (A3 n0 n0 n0).
  Lemma lit_val (m : Z) (g : bool) mm ex (H : SpecFloat.bounded 53 1024 mm ex = true) : B2SF (@f_lit 53 1024 f64_prec_gt_0 f64_prec_lt_emax m 1) = SpecFloat.S754_finite g mm ex ->
    val (nlit F m 1 : f64) = F2R (Float radix2 (cond_Zopp g (Z.pos mm)) ex).
  Proof. intro E. change (nlit F m 1) with (@f_lit 53 1024 f64_prec_gt_0 f64_prec_lt_emax m 1). replace (f_lit 53 1024 m 1) with (@B754_finite 53 1024 g mm ex H); [reflexivity |]. apply B2SF_inj. rewrite E. reflexivity. Qed.
  Lemma r_z : val (@n0 F : f64) = 0. Proof. exact (proj2 (fv_lit_0 53 1024)). Qed.
  Lemma r_4 : val (nlit F 4 1 : f64) = 4.
  Proof. rewrite (lit_val 4 false 4503599627370496 (-50) eq_refl) by (vm_compute; reflexivity). unfold F2R. simpl. lra. Qed.
  Lemma r_m2 : val (nlit F (-2) 1 : f64) = -2.
  Proof. rewrite (lit_val (-2) true 4503599627370496 (-51) eq_refl) by (vm_compute; reflexivity). unfold F2R. simpl. lra. Qed.
  Lemma r_2 : val (nlit F 2 1 : f64) = 2. Proof. exact (proj2 (fv_lit_2 53 1024)). Qed.
  Lemma r_1 : val (@n1 F : f64) = 1. Proof. exact (proj2 (fv_lit_1 53 1024)). Qed.
  Lemma vr_o : v3 (r_o : mat3x1 f64) = V 0 0 4. Proof. unfold v3, r_o. rewrite r_z, r_4. reflexivity. Qed.
  Lemma vr_d : v3 (r_d : mat3x1 f64) = V 0 0 (-2). Proof. unfold v3, r_d. rewrite r_z, r_m2. reflexivity. Qed.
  Lemma vr_n : v3 (r_n : mat3x1 f64) = V 0 0 2. Proof. unfold v3, r_n. rewrite r_z, r_2. reflexivity. Qed.
  Lemma vr_p : v3 (r_p : mat3x1 f64) = V 0 0 0. Proof. unfold v3, r_p. rewrite r_z. reflexivity. Qed.
  Lemma nv z : norm (V 0 0 z) = Rabs z. Proof. unfold norm, vdot. cbn [vx vy vz]. replace (0 * 0 + 0 * 0 + z * z) with (Rsqr z) by (unfold Rsqr; ring). apply sqrt_Rsqr_abs. Qed.
  Lemma big4 : 4 <= bpow radix2 (1024 / 2 - 3). Proof. change 4 with (bpow radix2 2). apply bpow_le. change (1024 / 2 - 3)%Z with 509%Z. lia. Qed.
  Lemma mods : moderate (r_o : mat3x1 f64) /\ good_normal (r_d : mat3x1 f64) /\ good_normal (r_n : mat3x1 f64) /\ moderate (r_p : mat3x1 f64).
  Proof.
    pose proof big4 as B. assert (S : bpow radix2 (6 - 1024) <= 4) by (change 4 with (bpow radix2 2); apply bpow_le; lia).
    assert (A0 : Rabs (val (@n0 F : f64)) <= bpow radix2 (1024 / 2 - 3)) by (rewrite r_z, Rabs_R0; lra).
    assert (A4 : Rabs (val (nlit F 4 1 : f64)) <= bpow radix2 (1024 / 2 - 3)) by (rewrite r_4, Rabs_pos_eq; lra).
    assert (Am : Rabs (val (nlit F (-2) 1 : f64)) <= bpow radix2 (1024 / 2 - 3)) by (rewrite r_m2, Rabs_left; lra).
    assert (A2 : Rabs (val (nlit F 2 1 : f64)) <= bpow radix2 (1024 / 2 - 3)) by (rewrite r_2, Rabs_pos_eq; lra).
    repeat split; try (vm_compute; reflexivity); try assumption.
    - rewrite vr_d. unfold vdot. cbn [vx vy vz]. lra.
    - rewrite vr_n. unfold vdot. cbn [vx vy vz]. lra.
  Qed.
  Lemma small_u : 0 < uro 53 <= / 1048576 /\ 0 < eta 53 1024 <= / 1048576.
  Proof. split; (split; [apply bpow_gt_0 | change (/ 1048576) with (bpow radix2 (-20)); apply bpow_le; lia]). Qed.
  Lemma ud : s_unit (v3 (r_d : mat3x1 f64)) = V 0 0 (-1). Proof. rewrite vr_d. unfold s_unit. rewrite nv, Rabs_left by lra. apply V3_eq; unfold vscale; cbn [vx vy vz]; field. Qed.
  Lemma un : s_unit (v3 (r_n : mat3x1 f64)) = V 0 0 1. Proof. rewrite vr_n. unfold s_unit. rewrite nv, Rabs_pos_eq by lra. apply V3_eq; unfold vscale; cbn [vx vy vz]; field. Qed.
  (** the computed point of the plane is within 2^-45 of the origin *)
  Example C84_case e f : exists (a b : shape F) q, mk_ray r_o r_d e a /\ mk_plane r_p r_n f b /\ shape_get_intersect a b = Ok (true, Some q) /\
    dist (v3 (q : mat3x1 f64)) (V 0 0 0) <= bpow radix2 (-44).
  Proof.
    destruct mods as (M1 & M2 & M3 & M4). destruct small_u as [[U0 U] [T0 T]].
    eexists. eexists.
    assert (Ka : mk_ray r_o r_d e (SRay (MkRay r_o (nrm r_d) (ray_any r_o r_d) (nabs F e)))) by (apply ray_any_eq; reflexivity).
    assert (Kb : mk_plane r_p r_n f (SPlane (MkPlane r_p (nrm r_n) whole_any (nabs F f)))) by (apply plane_any; reflexivity).
    pose proof (@C84_location 53 1024 f64_prec_gt_0 f64_prec_lt_emax lm r_o r_d e r_p r_n f _ _ ltac:(lia) M1 M2 M4 M3 Ka Kb) as Q. cbv zeta in Q.
    unfold ray_at in Q. rewrite un, ud, vr_o, vr_p, !nv, (Rabs_pos_eq 4), Rabs_R0 in Q by lra.
    replace (vdot (V 0 0 1) (vsub (V 0 0 0) (V 0 0 4))) with (-4) in Q by (unfold vdot, vsub; cbn [vx vy vz]; ring). replace (vdot (V 0 0 1) (V 0 0 (-1))) with (-1) in Q by (unfold vdot; cbn [vx vy vz]; ring).
    replace (-4 / -1) with 4 in Q by field. replace (vadd (V 0 0 4) (vscale 4 (V 0 0 (-1)))) with (V 0 0 0) in Q by (apply V3_eq; unfold vadd, vscale; cbn [vx vy vz]; ring).
    destruct Q as [q [E [_ D]]]; [lra | lra | apply Rle_trans with (bpow radix2 2); [change (bpow radix2 2) with 4; lra | apply bpow_le; change (1024 / 2)%Z with 512%Z; lia] |].
    exists q. split; [exact Ka |]. split; [exact Kb |]. split; [exact E |]. eapply Rle_trans; [exact D |].
    assert (Q1 : uro 53 = bpow radix2 (-53)) by reflexivity. assert (Q2 : eta 53 1024 <= bpow radix2 (-53)) by (apply bpow_le; lia).
    assert (Q3 : bpow radix2 (-44) = 512 * bpow radix2 (-53)) by (change (-44)%Z with (-53 + 9)%Z; rewrite bpow_plus; change (bpow radix2 9) with 512; ring). rewrite Q3. rewrite Q1 in *.
    set (w := bpow radix2 (-53)) in *. replace (- (-1)) with 1 by ring. lra.
  Qed.
  Example C85_case e f : exists (a b : shape F) q, mk_ray r_o r_d e a /\ mk_sphere r_p n1 f b /\ shape_get_intersect a b = Ok (true, Some q).
  Proof.
    destruct mods as (M1 & M2 & M3 & M4). destruct small_u as [[U0 U] [T0 T]].
    assert (Ka : mk_ray r_o r_d e (SRay (MkRay r_o (nrm r_d) (ray_any r_o r_d) (nabs F e)))) by (apply ray_any_eq; reflexivity).
    assert (Kb : mk_sphere r_p n1 f (SSphere (MkSphere r_p n1 (cube_any r_p n1) (nabs F f)))) by (apply sphere_any; reflexivity).
    assert (LR : 0 <= val (@n1 F : f64) <= bpow radix2 (1024 / 2 - 3)) by (rewrite r_1; pose proof big4; lra). assert (FR : is_finite (@n1 F : f64) = true) by (vm_compute; reflexivity).
    pose proof (@C85_decision 53 1024 f64_prec_gt_0 f64_prec_lt_emax lm r_o r_d e r_p n1 f _ _ ltac:(lia) M1 M2 M4 FR LR Ka Kb) as [Q _].
    unfold ray_disc, ray_b, ray_c, dist in Q. rewrite ud, vr_o, vr_p in Q. change (val (@n1 (Ieee 53 1024 lm))) with (val (@n1 F : f64)) in Q. rewrite r_1 in Q.
    replace (vsub (V 0 0 4) (V 0 0 0)) with (V 0 0 4) in Q by (apply V3_eq; unfold vsub; cbn [vx vy vz]; ring). rewrite nv, Rabs_pos_eq in Q by lra. unfold vdot in Q. cbn [vx vy vz] in Q.
    destruct Q as [q E]; [lra | left; lra |]. eexists. eexists. exists q. split; [exact Ka |]. split; [exact Kb | exact E].
  Qed.
End Case.
